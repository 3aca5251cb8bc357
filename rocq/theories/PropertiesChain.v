(** PropertiesChain: C92 - Demuxer.Where(t).PayloadOnly() *)
From Coq Require Import Lia.
From Verif Require Import Base BitReader Exec Local TsModel SpecTs TsProofs TsLocal TsRobust TsReaders TsDefects
  Mono Conc ConcProofs PropertiesTs PropertiesTsConc ChainModel.

(** The demuxer cannot tell the adapter from any other receiver. *)
Lemma chain_demux : forall ts skip take i s s', cstep ts skip take i s s' -> c_d s' = c_d s \/ dstep ts skip take (c_d s) (c_d s').
Proof.
  intros ts skip take i s s' H. destruct H; cbn [c_d c_demux c_goto]; auto.
  - right. now left.
  - right. left. now apply (st_send ts skip take (c_d s) i t).
  - right. right. apply st_arrive.
  - right. right. now apply st_eof.
  - right. right. apply st_arrive_done.
  - right. right. apply st_arrive.
  - right. right. now apply st_eof.
Qed.
Lemma chain_star : forall ts skip take i r s, star (cstep ts skip take i) (c_init r) s -> star (dstep ts skip take) (d_init r) (c_d s).
Proof.
  intros ts skip take i r s H. remember (c_init r) as s0 eqn:E. induction H; subst; [apply star_refl|].
  specialize (IHstar eq_refl). destruct (chain_demux _ _ _ _ _ _ H0) as [-> | H1]; [assumption | eapply star_step; eassumption].
Qed.

(** What the adapter has in its hands *)
Definition held (s : cstate) : nat := match c_a s with CGot | CSend _ => 1 | _ => 0 end.
Definition c_inv (i : nat) (s : cstate) : Prop :=
  length (received i (d_log (c_d s))) = (length (c_log s) + held s)%nat /\
  (c_a s = CWait -> (0 < d_wait (c_d s) i)%nat) /\
  (c_a s = CClose \/ c_a s = CEnd -> (i < d_closed (c_d s))%nat) /\
  (c_closed s = true -> c_a s = CEnd) /\ ((0 < c_eofs s)%nat -> c_closed s = true).

Lemma bump_other : forall w i j, i <> j -> bump w i j = w j.
Proof. intros w i j H. unfold bump. now rewrite (proj2 (Nat.eqb_neq i j)). Qed.
Lemma bump_same : forall w i, bump w i i = S (w i).
Proof. intros. unfold bump. now rewrite Nat.eqb_refl. Qed.
Lemma drop_other : forall w i j, i <> j -> drop1 w i j = w j.
Proof. intros w i j H. unfold drop1. now rewrite (proj2 (Nat.eqb_neq i j)). Qed.

(** A step of the demuxer that hands nothing over on channel [i] *)
Lemma own_quiet : forall ts skip take i d d', down ts skip take d d' -> (forall j, d_pc d = PClose j -> d_closed d = j) ->
  (forall t, d_pc d = PSend i -> nth_error ts i = Some t -> t (d_pkt d) = false) ->
  received i (d_log d') = received i (d_log d) /\ d_wait d' i = d_wait d i /\ (d_closed d <= d_closed d')%nat.
Proof.
  intros ts skip take i d d' H C Q. destruct H.
  - unfold d_next. destruct (packet_next (d_pkt d, d_br d)) as [[[]|e| |] [p r]]; [destruct (d_skipping d); [destruct (skip p) | destruct (take p)] | | |]; cbn; auto.
  - cbn; auto.
  - cbn [d_log d_recv d_wait d_closed]. assert (i0 <> i) by (intros ->; specialize (Q t H H0); congruence).
    rewrite received_app. unfold received at 2. cbn [filter fst]. rewrite (proj2 (Nat.eqb_neq i0 i)) by assumption. cbn [map]. rewrite app_nil_r. rewrite drop_other by assumption. auto.
  - cbn; auto.
  - cbn. rewrite (C _ H). auto.
  - cbn; auto.
  - cbn; auto.
Qed.
Lemma closing : forall ts skip take r ps x s, parsed (zero_packet, r) ps x -> star (dstep ts skip take) (d_init r) s ->
  forall j, d_pc s = PClose j -> d_closed s = j.
Proof.
  intros ts skip take r ps x s P H j E. pose proof (d_inv_star _ _ _ _ _ _ _ P H) as I. unfold d_inv in I. rewrite E in I. tauto.
Qed.

Lemma c_inv_step : forall ts skip take i s s', (forall j, d_pc (c_d s) = PClose j -> d_closed (c_d s) = j) ->
  c_inv i s -> cstep ts skip take i s s' -> c_inv i s'.
Proof.
  intros ts skip take i s s' C (I1 & I2 & I3 & I4 & I5) H. destruct H; unfold c_inv, held in *; cbn [c_d c_a c_closed c_wait c_log c_eofs c_demux c_goto] in *.
  - destruct (own_quiet _ _ _ _ _ _ H C H0) as (A & B & D). rewrite A, B. split; [exact I1|]. split; [exact I2|]. split; [intro X; specialize (I3 X); lia|]. auto.
  - rewrite H2 in *. cbn [d_log d_recv d_wait d_closed]. rewrite received_app. unfold received at 2. cbn [filter fst]. rewrite Nat.eqb_refl. cbn [map]. rewrite app_length. cbn [length].
    split; [lia|]. split; [discriminate|]. split; [intros [X | X]; discriminate|]. split; [intro X; specialize (I4 X); discriminate | exact I5].
  - cbn [d_log d_arrive d_wait d_closed]. rewrite bump_other by assumption. auto.
  - cbn [d_log d_eof d_wait d_closed]. rewrite drop_other by assumption. auto.
  - cbn [d_log d_arrive_done d_wait d_closed]. auto.
  - rewrite H in *. cbn [d_log d_arrive d_wait d_closed]. rewrite bump_same. split; [exact I1|]. split; [lia|]. split; [intros [X | X]; discriminate|]. split; [intro X; specialize (I4 X); discriminate | exact I5].
  - rewrite H in *. cbn [d_log d_eof d_wait d_closed]. split; [exact I1|]. split; [discriminate|]. split; [auto|]. split; [intro X; specialize (I4 X); discriminate | exact I5].
  - rewrite H in *. split; [exact I1|]. split; [discriminate|]. split; [intros [X | X]; discriminate|]. split; [intro X; specialize (I4 X); discriminate | exact I5].
  - rewrite H in *. rewrite app_length. cbn [length]. split; [lia|]. split; [discriminate|]. split; [intros [X | X]; discriminate|]. split; [intro X; specialize (I4 X); discriminate | exact I5].
  - rewrite H in *. split; [exact I1|]. split; [discriminate|]. split; [auto|]. split; [reflexivity | auto].
  - auto.
  - split; [exact I1|]. split; [exact I2|]. split; [exact I3|]. split; [exact I4 | auto].
Qed.
Lemma c_inv_star : forall ts skip take i r ps x s, parsed (zero_packet, r) ps x -> star (cstep ts skip take i) (c_init r) s -> c_inv i s.
Proof.
  intros ts skip take i r ps x s P H. remember (c_init r) as s0 eqn:E. induction H; subst.
  - unfold c_inv, held. cbn. split; [reflexivity|]. split; [discriminate|]. split; [intros [X | X]; discriminate|]. split; [discriminate | lia].
  - apply (c_inv_step ts skip take i t); [|auto | assumption]. apply (closing ts skip take r ps x); [assumption|]. now apply (chain_star ts skip take i).
Qed.

(** ** C92 *)

(** For every stream and every schedule: the number of payloads received never exceeds that of the matching packets ... *)
Theorem C92_number_partial : forall ts skip take i t r ps x s, parsed (zero_packet, r) ps x -> nth_error ts i = Some t ->
  star (cstep ts skip take i) (c_init r) s -> (length (c_log s) <= length (filter t (window skip take ps)))%nat.
Proof.
  intros ts skip take i t r ps x s P T H. destruct (c_inv_star _ _ _ _ _ _ _ _ P H) as (I & _). apply chain_star in H.
  destruct (C15_prefix _ _ _ _ _ _ _ _ _ P H T) as (more & E). rewrite <- E, app_length. lia.
Qed.
(** ... and when the channel is closed it is the same. *)
Theorem C92_closed_partial : forall ts skip take i t r ps x s, parsed (zero_packet, r) ps x -> nth_error ts i = Some t ->
  star (cstep ts skip take i) (c_init r) s -> c_closed s = true \/ (0 < c_eofs s)%nat ->
  length (c_log s) = length (filter t (window skip take ps)).
Proof.
  intros ts skip take i t r ps x s P T H K. destruct (c_inv_star _ _ _ _ _ _ _ _ P H) as (I1 & _ & I3 & I4 & I5). apply chain_star in H.
  assert (E : c_a s = CEnd) by (destruct K; auto). unfold held in I1. rewrite E in I1.
  rewrite <- (C15_closed_complete _ _ _ _ _ _ _ _ _ P H T (I3 (or_intror E))). lia.
Qed.
(** Nothing stops for good: a goroutine can go on, unless a receiver is missing or both have ended. *)
Theorem C92_progress : forall ts skip take i r ps x s, parsed (zero_packet, r) ps x -> (i < length ts)%nat ->
  star (cstep ts skip take i) (c_init r) s ->
  (exists s', cstep ts skip take i s s' /\ (d_pc (c_d s') <> d_pc (c_d s) \/ c_a s' <> c_a s \/ d_pc (c_d s) = PNext)) \/
  (exists n, c_a s = CSend n /\ c_wait s = 0%nat) \/                                            (* a receiver of the output is missing *)
  (exists j t, j <> i /\ d_pc (c_d s) = PSend j /\ nth_error ts j = Some t /\ d_wait (c_d s) j = 0%nat) \/  (* ... of another channel *)
  (c_a s = CEnd /\ ((d_pc (c_d s) = PDone /\ d_waitdone (c_d s) = 0%nat) \/ d_pc (c_d s) = PEnd)).         (* ... of done; all ended *)
Proof.
  intros ts skip take i r ps x s P L H. destruct (c_inv_star _ _ _ _ _ _ _ _ P H) as (I1 & I2 & I3 & I4 & I5).
  assert (D := d_inv_star _ _ _ _ _ _ _ P (chain_star _ _ _ _ _ _ H)).
  destruct (c_a s) as [| | |n| |] eqn:EA.
  - left. eexists. split; [now apply cs_wants|]. cbn. right. left. discriminate.
  - specialize (I2 eq_refl). destruct (d_pc (c_d s)) as [|j|j| |] eqn:EP.
    + left. eexists. split; [apply cs_own; [now apply st_next | rewrite EP; discriminate]|]. auto.
    + destruct (nth_error ts j) as [t|] eqn:T.
      * destruct (t (d_pkt (c_d s))) eqn:B.
        -- destruct (Nat.eq_dec j i) as [-> | N].
           ++ left. eexists. split; [now apply (cs_hand ts skip take i s t)|]. right. left. cbn. discriminate.
           ++ destruct (d_wait (c_d s) j) eqn:W; [right; right; left; eauto 6|].
              left. eexists. split; [apply cs_own; [apply (st_send ts skip take (c_d s) j t); auto; lia | rewrite EP; intros t' X; congruence]|]. left. cbn. intro X. injection X as X. lia.
        -- left. eexists. split; [apply cs_own; [now apply (st_skip ts skip take (c_d s) j t) | rewrite EP; intros t' X T'; congruence]|]. left. cbn. intro X. injection X as X. lia.
      * left. eexists. split; [apply cs_own; [now apply (st_loop ts skip take (c_d s) j) | rewrite EP; intros t' X T'; congruence]|]. left. discriminate.
    + destruct (nth_error ts j) as [t|] eqn:T.
      * left. eexists. split; [apply cs_own; [now apply (st_close ts skip take (c_d s) j t) | rewrite EP; discriminate]|]. left. cbn. intro X. injection X as X. lia.
      * left. eexists. split; [apply cs_own; [now apply (st_closed ts skip take (c_d s) j) | rewrite EP; discriminate]|]. left. discriminate.
    + unfold d_inv in D. rewrite EP in D. left. eexists. split; [apply cs_inclosed; auto; lia|]. right. left. cbn. discriminate.
    + unfold d_inv in D. rewrite EP in D. left. eexists. split; [apply cs_inclosed; auto; lia|]. right. left. cbn. discriminate.
  - left. eexists. split; [now apply cs_reads|]. cbn. right. left. discriminate.
  - destruct (c_wait s) eqn:W; [right; left; eauto|]. left. eexists. split; [apply (cs_sends ts skip take i s n); [assumption | lia]|]. cbn. right. left. discriminate.
  - left. eexists. split; [now apply cs_close|]. cbn. right. left. discriminate.
  - specialize (I3 (or_intror eq_refl)). destruct (d_pc (c_d s)) as [|j|j| |] eqn:EP; unfold d_inv in D; rewrite EP in D.
    + destruct D as (? & _ & _ & _ & _ & _ & D & _). lia.
    + destruct D as (? & _ & _ & _ & _ & _ & _ & D & _). lia.
    + destruct (nth_error ts j) as [t|] eqn:T.
      * left. eexists. split; [apply cs_own; [now apply (st_close ts skip take (c_d s) j t) | rewrite EP; discriminate]|]. left. cbn. intro X. injection X as X. lia.
      * left. eexists. split; [apply cs_own; [now apply (st_closed ts skip take (c_d s) j) | rewrite EP; discriminate]|]. left. discriminate.
    + destruct (d_waitdone (c_d s)) eqn:W; [right; right; right; auto|].
      left. eexists. split; [apply cs_own; [apply st_done; auto; lia | rewrite EP; discriminate]|]. left. discriminate.
    + right. right. right. auto.
Qed.

(** The content is another matter. Whatever two packets with payload follow each other, there is a schedule in which the receiver gets the
    payload of the second one twice and that of the first one never. *)
Theorem C92_refuted : forall s1 s2 r, rlater r = [] -> wf_sp s1 -> wf_sp s2 -> has_payload s1 = true -> has_payload s2 = true ->
  exists s, star (cstep [always_true] always_true always_true 0) (c_init (setb r (enc_sps [s1; s2]))) s /\
    c_closed s = true /\ c_log s = [sp_payload s2; sp_payload s2].
Proof.
  intros s1 s2 r Hr W1 W2 P1 P2. set (q1 := over_packet zero_packet s1). set (q2 := over_packet q1 s2).
  assert (E1 : packet_next (zero_packet, setb r (enc_sps [s1; s2])) = (Ok tt, (q1, setb r (enc_sps [s2])))) by (apply next_cons; auto).
  assert (E2 : packet_next (q1, setb r (enc_sps [s2])) = (Ok tt, (q2, setb r (enc_sps [])))) by (apply next_cons; auto).
  assert (E3 : packet_next (q2, setb r (enc_sps [])) = (Err (rfin r), (q2, setb r []))) by (now apply next_nil).
  set (T := [always_true]).
  (* the adapter waits; the demuxer reads the first packet, hands it over and reads the second *)
  set (a0 := c_init (setb r (enc_sps [s1; s2]))). set (a1 := c_demux a0 (d_arrive (c_d a0) 0) CWait).
  set (d2 := d_at (c_d a1) (PSend 0) q1 (setb r (enc_sps [s2])) false None false).
  assert (N1 : d_next always_true always_true (c_d a1) = d2).
  { unfold d_next. change (d_pkt (c_d a1), d_br (c_d a1)) with (zero_packet, setb r (enc_sps [s1; s2])). rewrite E1. reflexivity. }
  set (a2 := c_demux a1 d2 CWait). set (a3 := c_demux a2 (d_recv (c_d a2) (PSend 1) 0) CGot). set (a4 := c_demux a3 (d_goto (c_d a3) PNext) CGot).
  set (d5 := d_at (c_d a4) (PSend 0) q2 (setb r (enc_sps [])) false None false).
  assert (N2 : d_next always_true always_true (c_d a4) = d5).
  { unfold d_next. change (d_pkt (c_d a4), d_br (c_d a4)) with (q1, setb r (enc_sps [s2])). rewrite E2. reflexivity. }
  set (a5 := c_demux a4 d5 CGot).
  (* only now the adapter looks at the payload, and a receiver comes *)
  set (a6 := c_goto a5 (CSend (pk_len q2))). set (a7 := mkC (c_d a6) (CSend (pk_len q2)) false 1 [] 0).
  set (a8 := mkC (c_d a7) CIdle false 0 [pk_payload q2] 0).
  (* the second packet, and the end *)
  set (a9 := c_demux a8 (d_arrive (c_d a8) 0) CWait). set (a10 := c_demux a9 (d_recv (c_d a9) (PSend 1) 0) CGot).
  set (a11 := c_goto a10 (CSend (pk_len q2))). set (a12 := mkC (c_d a11) (CSend (pk_len q2)) false 1 [pk_payload q2] 0).
  set (a13 := mkC (c_d a12) CIdle false 0 [pk_payload q2; pk_payload q2] 0). set (a14 := c_demux a13 (d_goto (c_d a13) PNext) CIdle).
  set (d15 := d_at (c_d a14) (PClose 0) q2 (setb r []) false (Some (rfin r)) false).
  assert (N3 : d_next always_true always_true (c_d a14) = d15).
  { unfold d_next. change (d_pkt (c_d a14), d_br (c_d a14)) with (q2, setb r (enc_sps [])). rewrite E3. reflexivity. }
  set (a15 := c_demux a14 d15 CIdle). set (a16 := c_demux a15 (d_close (c_d a15) 0) CIdle).
  set (a17 := c_demux a16 (d_arrive (c_d a16) 0) CWait). set (a18 := c_demux a17 (d_eof (c_d a17) 0) CClose).
  exists (mkC (c_d a18) CEnd true 0 (c_log a18) 0). split.
  - eapply star_step; [|apply cs_close; reflexivity].
    eapply star_step; [|apply cs_inclosed; [reflexivity | cbn; lia | cbn; lia] ].
    eapply star_step; [|apply cs_wants; reflexivity].
    eapply star_step; [|apply (cs_own T always_true always_true 0 a15); [now apply (st_close T always_true always_true (c_d a15) 0 always_true) | discriminate] ].
    eapply star_step; [|unfold a15; rewrite <- N3; apply (cs_own T always_true always_true 0 a14); [now apply st_next | discriminate] ].
    eapply star_step; [|apply (cs_own T always_true always_true 0 a13); [now apply (st_loop T always_true always_true (c_d a13) 1) | discriminate] ].
    eapply star_step; [|apply (cs_sends T always_true always_true 0 a12 (pk_len q2)); [reflexivity | cbn; lia] ].
    eapply star_step; [|apply (cs_out T always_true always_true 0 a11)].
    eapply star_step; [|apply (cs_reads T always_true always_true 0 a10); reflexivity].
    eapply star_step; [|apply (cs_hand T always_true always_true 0 a9 always_true); try reflexivity; cbn; lia].
    eapply star_step; [|apply (cs_wants T always_true always_true 0 a8); reflexivity].
    eapply star_step; [|apply (cs_sends T always_true always_true 0 a7 (pk_len q2)); [reflexivity | cbn; lia] ].
    eapply star_step; [|apply (cs_out T always_true always_true 0 a6)].
    eapply star_step; [|apply (cs_reads T always_true always_true 0 a5); reflexivity].
    eapply star_step; [|unfold a5; rewrite <- N2; apply (cs_own T always_true always_true 0 a4); [now apply st_next | discriminate] ].
    eapply star_step; [|apply (cs_own T always_true always_true 0 a3); [now apply (st_loop T always_true always_true (c_d a3) 1) | discriminate] ].
    eapply star_step; [|apply (cs_hand T always_true always_true 0 a2 always_true); try reflexivity; cbn; lia].
    eapply star_step; [|unfold a2; rewrite <- N1; apply (cs_own T always_true always_true 0 a1); [now apply st_next | discriminate] ].
    eapply star_step; [|apply (cs_wants T always_true always_true 0 a0); reflexivity]. apply star_refl.
  - split; [reflexivity|]. cbn [c_log]. change (c_log a18) with [pk_payload q2; pk_payload q2]. unfold q2. rewrite over_payload by assumption. reflexivity.
Qed.
Example C92_hyp : wf_sp ex_p1 /\ wf_sp ex_p4 /\ has_payload ex_p1 = true /\ has_payload ex_p4 = true /\ sp_payload ex_p1 <> sp_payload ex_p4.
Proof. split; [exact ex_p1_wf|]. split; [exact ex_p4_wf|]. split; [reflexivity|]. split; [reflexivity | discriminate]. Qed.
Print Assumptions C92_number_partial.
Print Assumptions C92_closed_partial.
Print Assumptions C92_progress.
Print Assumptions C92_refuted.
