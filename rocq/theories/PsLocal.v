(** PsLocal: truncated pack headers; the pack reader always ends. *)
From Verif Require Import Base BitReader Exec Local TsLocal TsRobust Mono PesModel SpecPes PesProofs PesLocal PsModel SpecPs PsProofs Conc PsConc.

Definition T8 : nat -> Prop := fun _ => True.
Lemma loc_read : forall n, local T8 (read_n n) T8.
Proof. intros. eapply local_weaken; [apply local_read_n with (P := T8) | auto | unfold T8; auto]. Qed.
Lemma loc_read1 : local T8 read1 T8.
Proof. intros. eapply local_weaken; [apply local_read1 with (P := T8) | auto | unfold T8; auto]. Qed.
Lemma loc_skip : forall n, local T8 (skip_n n) T8.
Proof. intros. eapply local_weaken; [apply local_skip_n with (P := T8) | auto | unfold T8; auto]. Qed.
Lemma loc_peek : forall n, local T8 (peek_n n) T8.
Proof. intros. apply local_peek_n. Qed.
Lemma loc_marker : forall n w, local T8 (marker n w) T8.
Proof.
  intros. unfold marker. eapply local_bind; [apply loc_read|]. intro. apply local_if; [apply local_ret | apply local_fail].
Qed.
Lemma loc_ps_check : forall c, local T8 (ps_check c) T8.
Proof. intros. unfold ps_check. eapply local_bind; [apply loc_peek|]. intro. apply local_ret. Qed.
Lemma loc_ps_assert : forall c, local T8 (ps_assert c) T8.
Proof.
  intros. unfold ps_assert. eapply local_bind; [apply loc_ps_check|]. intro. apply local_if; [apply loc_skip | apply local_fail].
Qed.
Ltac loc1 := first [apply loc_read | apply loc_read1 | apply loc_skip | apply loc_peek | apply loc_marker | apply loc_ps_check
  | apply loc_ps_assert | apply local_ret | apply local_fail].
Ltac loc_tac := repeat first [loc1 | apply local_if | eapply local_bind; [|intro]].

Lemma loc_streams : forall fuel acc, local T8 (streams_loop fuel acc) T8.
Proof.
  induction fuel; intro acc; cbn [streams_loop].
  - intros r l x Hr Hl Hx. reflexivity.
  - eapply local_bind; [apply loc_peek|]. intro. apply local_if; [apply local_ret|].
    eapply local_bind; [apply loc_read|]. intro. eapply local_bind; [apply loc_marker|]. intro.
    eapply local_bind; [apply loc_read1|]. intro. eapply local_bind; [apply loc_read|]. intro. apply IHfuel.
Qed.
Lemma streams_more : forall fuel k acc r, fst (streams_loop fuel acc r) <> OutOfFuel ->
  streams_loop (fuel + k) acc r = streams_loop fuel acc r.
Proof.
  induction fuel; intros k acc r H; [cbn in H; congruence|]. cbn [streams_loop Nat.add] in *.
  unfold bind in *. destruct (peek_n 1 r) as [[b|e| |] r1]; auto. destruct (negb (b =? 1)); auto.
  destruct (read_n 8 r1) as [[b2|e| |] r2]; auto. destruct (marker 2 3 r2) as [[b3|e| |] r3]; auto.
  destruct (read1 r3) as [[b4|e| |] r4]; auto. destruct (read_n 13 r4) as [[b5|e| |] r5]; auto.
Qed.
Lemma loc_streams_all : local T8 (fun r => streams_loop (S (length (rbits r))) [] r) T8.
Proof.
  intros r l x Hr Hl Hx. rewrite !rbits_setb.
  pose proof (streams_total (S (length l)) [] (setb r l)) as T. unfold left in T. rewrite rbits_setb in T. specialize (T (le_n _)).
  pose proof (streams_total (S (length l)) [] (setb r l)) as T'.
  pose proof (loc_streams (S (length l)) [] r l x Hr Hl Hx) as L.
  destruct (streams_loop (S (length l)) [] (setb r l)) as [[a|e| |] r'] eqn:E; cbn [fst] in T; try tauto.
  destruct L as (l' & -> & Q & E2). exists l'. split; auto. split; auto. rewrite app_length.
  replace (S (length l + length x)) with (S (length l) + length x)%nat by lia.
  rewrite streams_more; [exact E2|]. rewrite E2. discriminate.
Qed.
Lemma loc_system : local T8 read_system_header T8.
Proof.
  unfold read_system_header.
  do 13 (eapply local_bind; [loc1|]; intro).
  do 1 (eapply local_bind; [loc1|]; intro). eapply local_bind; [apply loc_streams_all|]. intro. apply local_ret.
Qed.

Lemma skipn_add : forall {A} b a (l : list A), skipn a (skipn b l) = skipn (b + a) l.
Proof. induction b; intros a l; [reflexivity|]. destruct l; [now rewrite !skipn_nil|]. apply IHb. Qed.
Lemma stuffing_skip_enough : forall k r, (8 * k <= length (rbits r))%nat ->
  stuffing_skip k r = (Ok tt, setb r (skipn (8 * k) (rbits r))).
Proof.
  induction k; intros r H. { cbn. now rewrite setb_rbits. }
  cbn [stuffing_skip]. assert (E : ignore_err tt (skip_n 8) r = (Ok tt, setb r (skipn 8 (rbits r)))).
  { apply ignore_ok. unfold skip_n, bind. now rewrite read_n_enough by lia. }
  erewrite bind_ok by exact E. rewrite IHk by (rewrite rbits_setb, skipn_length; lia).
  rewrite rbits_setb, setb_setb, skipn_add. do 2 f_equal. f_equal. lia.
Qed.
Lemma stuffing_skip_short : forall k r, rlater r = [] -> (length (rbits r) < 8 * k)%nat ->
  exists r', stuffing_skip k r = (Ok tt, r') /\ rlater r' = [] /\ (length (rbits r') < 8)%nat.
Proof.
  induction k; intros r Hr H; [lia|]. cbn [stuffing_skip].
  destruct (Nat.le_gt_cases 8 (length (rbits r))) as [L|L].
  - assert (E : ignore_err tt (skip_n 8) r = (Ok tt, setb r (skipn 8 (rbits r)))).
    { apply ignore_ok. unfold skip_n, bind. now rewrite read_n_enough by lia. }
    erewrite bind_ok by exact E. apply IHk; auto. rewrite rbits_setb, skipn_length. lia.
  - clear IHk H. assert (E : exists r1, ignore_err tt (skip_n 8) r = (Ok tt, r1) /\ rlater r1 = [] /\ (length (rbits r1) < 8)%nat).
    { unfold ignore_err, skip_n, bind, read_n. rewrite (proj2 (Nat.leb_gt _ _)) by auto. unfold short.
      destruct (rbits r) eqn:E; eexists; (split; [reflexivity|]); split; auto; try (rewrite E; auto).
      - unfold advance. now rewrite Hr.
      - unfold advance. rewrite Hr. cbn. lia. }
    destruct E as (r1 & E & A & B). erewrite bind_ok by exact E. clear E L Hr. revert r1 A B. induction k; intros r1 A B.
    + exists r1. auto.
    + cbn [stuffing_skip].
      assert (E : exists r2, ignore_err tt (skip_n 8) r1 = (Ok tt, r2) /\ rlater r2 = [] /\ (length (rbits r2) < 8)%nat).
      { unfold ignore_err, skip_n, bind, read_n. rewrite (proj2 (Nat.leb_gt _ _)) by auto. unfold short.
        destruct (rbits r1) eqn:E; eexists; (split; [reflexivity|]); split; auto; try (rewrite E; auto).
        - unfold advance. now rewrite A.
        - unfold advance. rewrite A. cbn. lia. }
      destruct E as (r2 & E & A2 & B2). erewrite bind_ok by exact E. auto.
Qed.
Lemma loc_stuffing_check : forall A k c (f : bool -> M reader A), (forall b, local T8 (f b) T8) ->
  local T8 (stuffing_skip k ;; b <- ps_check c ;; f b) T8.
Proof.
  intros A k c f Hf r l x Hr Hl Hx.
  destruct (Nat.le_gt_cases (8 * k) (length l)) as [L|L].
  - unfold bind at 1 3 5 7. rewrite !stuffing_skip_enough by (rewrite rbits_setb, ?app_length; lia).
    rewrite !rbits_setb, !setb_setb. rewrite skipn_app. replace (8 * k - length l)%nat with 0%nat by lia. rewrite skipn_O.
    assert (Q : local T8 (b <- ps_check c ;; f b) T8) by (eapply local_bind; [apply loc_ps_check | auto]).
    apply (Q r (skipn (8 * k) l) x Hr I Hx).
  - destruct (stuffing_skip_short k (setb r l) Hr) as (r' & E & A1 & A2); [rewrite rbits_setb; auto|].
    unfold bind at 1. rewrite E. unfold bind, ps_check. destruct (peek_n_short 32 r') as (e & r2 & E2); [lia|].
    unfold bind. rewrite E2. exact I.
Qed.
Lemma loc_pack_header : local T8 new_pack_header T8.
Proof.
  unfold new_pack_header. cbv zeta. do 15 (eapply local_bind; [loc1|]; intro).
  apply loc_stuffing_check. intro b. eapply local_bind; [|intro; apply local_ret].
  apply local_if; [|apply local_ret]. eapply local_bind; [apply loc_system|]. intro. apply local_ret.
Qed.

Lemma lmod_mul : forall l k, length l = (8 * k)%nat -> lmod l = 0%nat.
Proof. intros l k H. unfold lmod. rewrite H, Nat.mul_comm. apply Nat.mod_mul. lia. Qed.
Lemma enc_sys_bytes : forall s, exists k, length (enc_sys s) = (8 * k)%nat.
Proof.
  intro s. exists (12 + 3 * length (sm_streams s))%nat. unfold enc_sys, bit. rewrite !app_length, !enc_length, enc_sstreams_length.
  cbn [length]. lia.
Qed.
Lemma enc_packhead_bytes : forall p, exists k, length (enc_packhead p) = (8 * k)%nat.
Proof.
  intro p. assert (S : exists k, length (match sk_sys p with Some s => enc_sys s | None => [] end) = (8 * k)%nat).
  { destruct (sk_sys p); [apply enc_sys_bytes | exists 0%nat; reflexivity]. }
  destruct S as [k S]. exists (14 + length (sk_stuffing p) + k)%nat.
  unfold enc_packhead, bit. rewrite !app_length, !enc_length, bb_length, S. cbn [length]. lia.
Qed.

Lemma pack_header_truncated : forall p v r k, wf_packhead p -> 0 <= v < 2 ^ 31 -> v <> 443 -> rlater r = [] ->
  (8 * k < length (enc_packhead p))%nat ->
  exists e r', new_pack_header (setb r (firstn (8 * k) (enc_packhead p ++ enc 32 v))) = (Err e, r').
Proof.
  intros p v r k H Hv Hn Hr Hk.
  pose proof (pack_header_enc p v r [] H Hv Hn) as E. rewrite app_nil_r in E.
  set (all := enc_packhead p ++ enc 32 v) in *.
  assert (HL : length all = (length (enc_packhead p) + 32)%nat) by (unfold all; rewrite app_length, enc_length; lia).
  destruct (enc_packhead_bytes p) as [n EN].
  rewrite <- (firstn_skipn (8 * k) all) in E.
  assert (HX : lmod (skipn (8 * k) all) = 0%nat).
  { apply lmod_mul with (k := (n + 4 - k)%nat). rewrite skipn_length. lia. }
  pose proof (loc_pack_header r (firstn (8 * k) all) (skipn (8 * k) all) Hr I HX) as L.
  pose proof (pack_header_total (setb r (firstn (8 * k) all))) as T.
  destruct (new_pack_header (setb r (firstn (8 * k) all))) as [[g|e| |] r'] eqn:E1; cbn in T; try tauto; eauto.
  exfalso. destruct L as (l' & -> & _ & E2). rewrite E in E2.
  assert (E3 : enc 32 v = l' ++ skipn (8 * k) all) by (apply (f_equal (fun y => rbits (snd y))) in E2; exact E2).
  apply (f_equal (@length _)) in E3. rewrite app_length, enc_length, skipn_length in E3. lia.
Qed.

(** ** The pack reader ends *)
Lemma pr_step_ends : forall fuel r want acc, rlater r = [] -> (left r < fuel)%nat ->
  fst (pr_step fuel r want acc) <> OutOfFuel.
Proof.
  induction fuel; intros r want acc Hr Hf; [lia|]. cbn [pr_step].
  pose proof (safe_peek_n 32 r) as SP. destruct (peek_n 32 r) as [[v|e| |] r1] eqn:E; cbn in SP |- *; try discriminate; try tauto.
  apply peek_n_ok_inv in E as (_ & _ & ->).
  destruct (v =? ProgramEndCode); [discriminate|].
  assert (K : forall r2, rlater r2 = [] -> (left r2 <= left r)%nat -> fst (match pr_packet r2 want acc with
              | (Ok (Some out, _), s) => (Ok out, s)
              | (Ok (None, (want', acc')), s) => pr_step fuel (pr_br s) want' acc'
              | (Err e, s) => (Err e, s)
              | (Panic, s) => (Panic, s)
              | (OutOfFuel, s) => (OutOfFuel, s)
              end) <> OutOfFuel).
  { intros r2 H2 L2. unfold pr_packet. unfold new_pes.
    destruct (pes_next (zero_pp, r2)) as [[[]|e| |] [p r']] eqn:E; try discriminate.
    - destruct (want - _)%nat; try discriminate. destruct (pes_next_strict _ _ _ _ H2 E) as (A1 & A2 & _).
      apply IHfuel; cbn [pr_br]; auto. lia.
    - pose proof (pes_next_fuel (zero_pp, r2)) as N. rewrite E in N. exfalso. apply N. reflexivity. }
  destruct (v =? PackStartCode); [|apply K; auto].
  pose proof (pack_header_total r) as T. destruct (new_pack_header r) as [[h|e| |] r2] eqn:E; cbn [fst] in T; try tauto; try discriminate.
  destruct (mono_pack_header _ _ _ Hr E) as (A1 & _ & A3). apply K; auto.
Qed.
Lemma pr_read_ends : forall s want, rlater (pr_br s) = [] ->
  fst (pr_read (S (length (rbits (pr_br s)))) want s) <> OutOfFuel.
Proof.
  intros s want Hr. unfold pr_read. destruct (want - _)%nat; [discriminate|]. apply pr_step_ends; auto. 
Qed.

(** ** A last pack without packets *)
Lemma step_empty_pack : forall h r, wf_packhead h -> rlater r = [] -> exists RE, forall fuel want acc,
  pr_step (S fuel) (setb r (enc_packhead h ++ enc_end)) want acc = (Ok ([], None), mkPR RE []).
Proof.
  intros h r Hh Hr.
  pose proof (pack_header_enc h 441 r [] Hh ltac:(lia) ltac:(lia)) as E. rewrite app_nil_r in E. fold enc_end in E.
  assert (P : peek_n 32 (setb r (enc_packhead h ++ enc_end)) = (Ok 442, setb r (enc_packhead h ++ enc_end))).
  { unfold enc_packhead. rewrite <- !app_assoc. apply peek_enc. cbn. lia. }
  destruct (pes_short zero_pp (setb r enc_end)) as (e & [p s'] & N); [cbn; lia | exact Hr |].
  exists s'. intros fuel want acc. cbn [pr_step]. rewrite P. cbn [Z.eqb Pos.eqb ProgramEndCode PackStartCode]. rewrite E.
  unfold pr_packet, new_pes. rewrite N. reflexivity.
Qed.
