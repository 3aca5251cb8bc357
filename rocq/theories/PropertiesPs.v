(** PropertiesPs: the properties C28 - C32, C64 - C65 of package ps, as theorems. *)
From Verif Require Import Base BitReader Exec Local TsLocal TsRobust Mono PesModel SpecPes SpecIO PesProofs PesLocal PropertiesPes
  PsModel SpecPs PsProofs PsReaders Conc PsConc PsConcWf PsLocal.

(** ** How the Go structs hold what was encoded *)
Definition stream_holds (s : sstream) (g : shstream) : Prop :=
  ss_id g = st_id s /\ ss_scale g = st_scale s /\ ss_size g = st_size s.
(** All fields but the two bounds. *)
Definition sys_holds (s : ssys) (g : sysheader) : Prop :=
  sy_length g = 6 + 3 * Z.of_nat (length (sm_streams s)) /\ sy_rate g = sm_rate s /\ sy_fixed g = sm_fixed s /\
  sy_csps g = sm_csps s /\ sy_alock g = sm_alock s /\ sy_vlock g = sm_vlock s /\
  sy_restrict g = sm_restrict s /\ Forall2 stream_holds (sm_streams s) (sy_streams g).
Definition pack_holds (p : spack) (g : packheader) : Prop :=
  pk_base g = sk_base p mod 2 ^ 32 /\ pk_ext g = sk_ext p /\ pk_rate g = sk_rate p /\
  match sk_sys p, pk_system g with
  | Some s, Some t => sys_holds s t
  | None, None => True
  | _, _ => False
  end.
Definition item_holds (i : psitem) (p : ppacket) : Prop :=
  match i with
  | PsPes s => pp_id p = se_id s /\ pp_payload p = se_payload s /\
      exists g, pp_header p = Some g /\ head_holds (se_head s) g /\ stamps_hold (fun t => t mod 2 ^ 32) (sh_stamps (se_head s)) g
  | PsPadding d => pp_id p = 190 /\ pp_length p = blen d /\ pp_payload p = [] /\ pp_header p = None
  end.

Lemma go_sys_holds : forall s, sys_holds s (go_sys s).
Proof.
  intro s. unfold sys_holds, go_sys. cbn. repeat split.
  induction (sm_streams s); cbn; constructor; auto. repeat split.
Qed.
Lemma go_pack_holds : forall p, pack_holds p (go_pack p).
Proof.
  intro p. unfold pack_holds, go_pack, low32. cbn. repeat split. destruct (sk_sys p); auto. apply go_sys_holds.
Qed.
Lemma go_item_holds : forall i, item_holds i (go_item i).
Proof.
  intros [s|d]; cbn; auto. repeat split. eexists. split; [reflexivity|]. split; [apply go_head_holds | apply go_stamps_hold].
Qed.

(** ** A concrete program stream used to show that the hypotheses can be met *)
Definition ex_sys : ssys := mkSsys 9000 5 true false true true 3 false 127 [mkSstream 224 true 230; mkSstream 192 false 32].
Definition ex_pack1 : pack := (mkSpack 8589934591 299 25200 31 [255; 255] (Some ex_sys), [PsPes ex_pes1; PsPadding [255; 255]]).
Definition ex_pack2 : pack := (mkSpack 3600 0 25200 31 [] None, [PsPes ex_pes2]).
Definition ex_empty : pack := (mkSpack 7200 0 25200 31 [] None, []).
Lemma ex_sys_wf : wf_sys ex_sys.
Proof.
  repeat split; try (cbn; lia). repeat (apply Forall_cons; [split; cbn; lia|]). apply Forall_nil.
Qed.
Lemma ex_head1_wf : wf_packhead (fst ex_pack1).
Proof. repeat split; try (cbn; lia). apply ex_sys_wf. Qed.
Lemma ex_pack1_wf : wf_pack ex_pack1.
Proof.
  split; [apply ex_head1_wf|]. apply Forall_cons; [split; [apply ex_wf1 | cbn; lia]|].
  apply Forall_cons; [|apply Forall_nil]. split; [byte_list | cbn; lia].
Qed.
Lemma ex_pack2_wf : wf_pack ex_pack2.
Proof.
  split; [repeat split; cbn; lia|]. apply Forall_cons; [split; [apply ex_wf2 | cbn; lia]|]. apply Forall_nil.
Qed.
Lemma ex_empty_wf : wf_pack ex_empty.
Proof. split; [repeat split; cbn; lia | apply Forall_nil]. Qed.
Lemma ex_packs_wf : Forall wf_pack [ex_pack1; ex_pack2].
Proof. repeat (apply Forall_cons; [first [apply ex_pack1_wf | apply ex_pack2_wf]|]). apply Forall_nil. Qed.

(** ** C28 *)
(** [v] are the 32 bits after the header, in a program stream the next start code. *)
Theorem C28_pack_header : forall p v r l, wf_packhead p -> 0 <= v < 2 ^ 31 -> v <> 443 ->
  exists g, new_pack_header (setb r (enc_packhead p ++ enc 32 v ++ l)) = (Ok g, setb r (enc 32 v ++ l)) /\ pack_holds p g.
Proof. intros. rewrite pack_header_enc by auto. eexists. split; [reflexivity | apply go_pack_holds]. Qed.
Theorem C28_markers : forall p r l, 0 <= rk_01 p < 2 ^ 2 -> ~ rpack_markers p ->
  exists r', new_pack_header (setb r (enc_rpack p ++ l)) = (Err ErrMarkerNotFound, r').
Proof. exact pack_markers. Qed.
Theorem C28_start_code : forall v r l, 0 <= v < 2 ^ 32 -> v <> 442 ->
  new_pack_header (setb r (enc 32 v ++ l)) = (Err ErrPsUnexpectedStartCode, setb r (enc 32 v ++ l)).
Proof. intros. unfold new_pack_header. erewrite bind_err by (apply ps_assert_bad; auto). reflexivity. Qed.
Example C28_hyp : wf_packhead (fst ex_pack1) /\ 0 <= 448 < 2 ^ 31 /\ 448 <> 443 /\
  ~ rpack_markers (mkRpack 1 0 true 0 true 0 true 0 false 0 true true).
Proof. split; [apply ex_head1_wf|]. split; [lia|]. split; [lia|]. unfold rpack_markers. cbn. intuition discriminate. Qed.

(** ** C29: refuted for the two bounds *)
(** All fields but AudioBound and VideoBound; what is found there instead. *)
Theorem C29_system_header_partial : forall p s v r l, wf_packhead p -> sk_sys p = Some s -> 0 <= v < 2 ^ 31 -> v <> 443 ->
  exists g t, new_pack_header (setb r (enc_packhead p ++ enc 32 v ++ l)) = (Ok g, setb r (enc 32 v ++ l)) /\
    pk_system g = Some t /\ sys_holds s t /\ sy_audio t = sm_video s /\ sy_video t = 0.
Proof.
  intros p s v r l H Hs Hv Hn. rewrite pack_header_enc by auto. eexists _, (go_sys s). split; [reflexivity|].
  cbn. rewrite Hs. repeat split. apply go_sys_holds.
Qed.
Theorem C29_refuted : exists p s, wf_packhead p /\ sk_sys p = Some s /\
  forall v r l, 0 <= v < 2 ^ 31 -> v <> 443 -> exists g t,
    fst (new_pack_header (setb r (enc_packhead p ++ enc 32 v ++ l))) = Ok g /\ pk_system g = Some t /\
    sy_audio t <> sm_audio s /\ sy_video t <> sm_video s.
Proof.
  exists (fst ex_pack1), ex_sys. split; [apply ex_head1_wf|]. split; [reflexivity|]. intros v r l Hv Hn.
  rewrite pack_header_enc by (auto using ex_head1_wf). eexists _, _. split; [reflexivity|]. split; [reflexivity|].
  cbn. split; discriminate.
Qed.

(** ** C30 *)
(** Every pack holds at least one packet.  Whatever the sizes of the reads, up to and including the first read that
    returns an error they return what an ideal reader of the payloads that ends with io.EOF returns. *)
Theorem C30_reads : forall packs after r fuel sizes,
  Forall wf_pack packs -> Forall (fun p => snd p <> []) packs -> (packets_in packs < fuel)%nat ->
  until_err' (pr_reads fuel sizes (new_packreader (setb r (enc_packs packs ++ enc_end ++ after)))) =
  map Ok (until_err (ideal_reads EEOF sizes (packs_content packs))).
Proof.
  intros packs after r fuel sizes H1 H2 Hf.
  apply (pr_reads_until r (setb r after) (enc_end ++ after) EEOF (step_end r after) (S (packets_in packs))); auto.
  now apply pr_holds_init.
Qed.
(** The ideal reader: its bytes are a prefix of the content, a read without error fills the buffer, an error
    comes only when the content is exhausted. *)
Theorem C30_prefix : forall packs sizes,
  delivered (ideal_reads EEOF sizes (packs_content packs)) = firstn (asked sizes) (packs_content packs).
Proof. intros. apply ideal_delivered. Qed.
Theorem C30_full : forall packs sizes i n out,
  nth_error sizes i = Some n -> nth_error (ideal_reads EEOF sizes (packs_content packs)) i = Some out ->
  (snd out = None -> length (fst out) = n) /\
  (snd out <> None -> snd out = Some EEOF /\ (length (fst out) < n)%nat /\
     (length (packs_content packs) < asked (firstn (S i) sizes))%nat).
Proof. intros. eapply ideal_full; eauto. Qed.
Example C30_hyp : Forall wf_pack [ex_pack1; ex_pack2] /\ Forall (fun p : pack => snd p <> []) [ex_pack1; ex_pack2] /\
  packets_in [ex_pack1; ex_pack2] = 3%nat /\ packs_content [ex_pack1; ex_pack2] = [1; 2; 3; 4; 5; 6; 7].
Proof.
  split; [apply ex_packs_wf|]. split; [|split; reflexivity].
  repeat (apply Forall_cons; [discriminate|]). apply Forall_nil.
Qed.

(** ** C31: refuted, for every stream without end code *)
(** The first read that asks for more than is left returns 0, nil and loses what is left; so do all later reads. *)
Theorem C31_silent_refuted : forall packs r fuel sizes, rlater r = [] ->
  Forall wf_pack packs -> Forall (fun p => snd p <> []) packs -> (packets_in packs <= fuel)%nat ->
  pr_reads (S fuel) sizes (new_packreader (setb r (enc_packs packs))) =
  map Ok (falls_silent (fun _ => ([], None)) sizes (packs_content packs)).
Proof.
  intros packs r fuel sizes Hr H1 H2 Hf. rewrite <- (app_nil_r (enc_packs packs)).
  apply (pr_reads_silent r [] (fun _ => ([], None)) Hr (fun f w a => step_nothing r f w a Hr) (S (packets_in packs))); [|lia].
  now apply pr_holds_init.
Qed.
(** Even with an end code, only one read returns io.EOF. *)
Theorem C31_eof_once_refuted : forall packs r fuel sizes, rlater r = [] ->
  Forall wf_pack packs -> Forall (fun p => snd p <> []) packs -> (packets_in packs <= fuel)%nat ->
  pr_reads (S fuel) sizes (new_packreader (setb r (enc_packs packs ++ enc_end))) =
  map Ok (falls_silent (fun rest => (rest, Some EEOF)) sizes (packs_content packs)).
Proof.
  intros packs r fuel sizes Hr H1 H2 Hf. rewrite <- (app_nil_r enc_end).
  apply (pr_reads_silent r (enc_end ++ []) (fun a => (a, Some EEOF)) Hr (step_end r []) (S (packets_in packs))); [|lia].
  now apply pr_holds_init.
Qed.
Example C31_lost : falls_silent (fun _ => ([], None)) [4; 5; 5]%nat (packs_content [ex_pack1; ex_pack2]) =
  [([1; 2; 3; 4], None); ([], None); ([], None)].
Proof. reflexivity. Qed.

(** ** C32 *)
(** Any source, any schedule.  [uses s None]: the decoder's goroutine is about to use the bit reader,
    [uses s (Some j)]: that of pack j is. *)
Theorem C32_one_user : forall r s a b, star gstep (g_init r) s -> uses s a -> uses s b -> a = b.
Proof. intros r s a b H. apply one_user. eapply gInv_reach; eauto. Qed.
(** Packs are received in the order in which they were read, each once. *)
Theorem C32_order : forall r s, star gstep (g_init r) s ->
  g_log s = seq 0 (length (g_log s)) /\ (length (g_log s) <= length (g_procs s))%nat.
Proof.
  intros r s H. pose proof (gInv_reach r s H) as I. pose proof (i_log s I) as L. rewrite L, seq_length. split; auto.
  destruct (g_pc s) eqn:E; auto. pose proof (i_last s I i (or_introl E)). lia.
Qed.
(** A value is received from done at most once, only after Packs() was closed; it is true iff Err() is nil. *)
Theorem C32_done : forall r s, star gstep (g_init r) s ->
  g_dones s = [] \/
  (g_closed s = true /\ exists ok, g_dones s = [ok] /\ (ok = true <-> g_err s = None)).
Proof.
  intros r s H. pose proof (i_done s (gInv_reach r s H)) as D.
  destruct (g_pc s); destruct D as [D1 D2]; auto; right; split; auto; eexists; split; try exact D2; destruct (g_err s); split; congruence.
Qed.
(** Why done is true or false, whatever the source: true only in front of the program end code; Err() is
    ErrProgramEndCodeNotFound only in front of something else; any other error is that of a look at the source or of a pack header. *)
Theorem C32_verdict : forall r s, star gstep (g_init r) s -> g_dones s <> [] ->
  (g_dones s = [true] /\ g_err s = None /\ exists t, rbits (g_br s) = enc_end ++ t) \/
  (g_dones s = [false] /\ g_err s = Some ErrProgramEndCodeNotFound /\ exists v t, 0 <= v < 2 ^ 32 /\ v <> 441 /\ rbits (g_br s) = enc 32 v ++ t) \/
  (g_dones s = [false] /\ exists e b, g_err s = Some e /\ (peek_n 32 b = (Err e, g_br s) \/ new_pack_header b = (Err e, g_br s))).
Proof.
  intros r s H N. pose proof (i_done s (gInv_reach r s H)) as D. assert (E : ended s) by (unfold ended; destruct (g_pc s); try exact I; destruct D; contradiction).
  assert (D' : g_dones s = [match g_err s with None => true | Some _ => false end]) by (destruct (g_pc s); try apply D; destruct D; contradiction).
  rewrite D'. destruct (ended_reach r s H E) as [(Q & X)|[(Q & X)|(e & b & Q & X)]]; rewrite Q; [left|right; left|right; right]; split; eauto 10.
Qed.
(** All is over after a bounded number of steps, and before that nobody is stuck as long as every receiver waits. *)
Theorem C32_bounded : forall r k s, rlater r = [] -> grun k (g_init r) s -> (k <= length (rbits r) + 5)%nat.
Proof.
  intros r k s Hr H. destruct (run_bound _ _ _ H Hr) as [_ B]. unfold weight in B. cbn in B. unfold left in B. cbn in B. lia.
Qed.
Theorem C32_no_deadlock : forall r s, star gstep (g_init r) s ->
  (0 < g_wait s)%nat -> (0 < g_waitdone s)%nat -> Forall (fun q => 0 < q_wait q)%nat (g_procs s) ->
  (g_pc s = DEnd /\ Forall (fun q => q_pc q = PEnded) (g_procs s)) \/ exists s', gown s s'.
Proof. intros r s H W1 W2 W3. apply no_deadlock; [eapply gInv_reach; eauto|]. split; auto. Qed.

(** On a well formed program stream (packs may be empty): at every moment of every schedule the packs begun are the
    first ones of the stream, the packets received from each are its first packets; once [done] was received it was
    true, Err() is nil and every packet of every pack was received; no goroutine has panicked. *)
Definition pack_received (P : pack) (q : pproc) : Prop :=
  pack_holds (fst P) (q_head q) /\ exists got more, snd P = got ++ more /\ Forall2 item_holds got (q_log q).
Definition pack_all_received (P : pack) (q : pproc) : Prop :=
  pack_holds (fst P) (q_head q) /\ Forall2 item_holds (snd P) (q_log q).
Lemma items_hold : forall l, Forall2 item_holds l (map go_item l).
Proof. induction l; cbn; constructor; auto. apply go_item_holds. Qed.

Lemma delivery : forall packs v after r s, Forall wf_pack packs -> packs <> [] ->
  0 <= v < 2 ^ 31 /\ v <> 442 /\ v <> 443 /\ (v = 441 \/ v / 256 <> 1) ->
  star gstep (g_init (setb r (enc_packs packs ++ enc 32 v ++ after))) s ->
  (length (g_procs s) <= length packs)%nat /\
  (forall j P q, nth_error packs j = Some P -> nth_error (g_procs s) j = Some q -> pack_received P q) /\
  g_crash s = false /\
  (g_dones s <> [] -> g_dones s = [v =? 441] /\ g_err s = verr v /\ g_log s = seq 0 (length packs) /\
     Forall2 pack_all_received packs (g_procs s)).
Proof.
  intros packs v after r s H1 H2 H3 H. destruct (wInv_reach r packs v after H1 H2 H3 s H) as [G W].
  split; [apply W|]. split; [|split; [apply W|]].
  - intros j P q HP Hq. destruct (w_head _ _ _ _ _ W j q P Hq HP) as [E _]. split; [rewrite E; apply go_pack_holds|].
    destruct (inside_dec s j) as [I|I].
    + destruct (w_cur _ _ _ _ _ W j q P Hq HP I) as (dn & todo & E1 & E2 & _). exists dn, todo. split; auto. rewrite E2. apply items_hold.
    + exists (snd P), []. rewrite app_nil_r. split; auto. rewrite (w_old _ _ _ _ _ W j q P Hq HP I). apply items_hold.
  - intro N. pose proof (i_done s G) as D. pose proof (w_pc _ _ _ _ _ W) as Q. pose proof (i_log s G) as L.
    assert (PC : g_pc s = DCloseDone \/ g_pc s = DEnd) by (destruct (g_pc s); tauto).
    assert (NI : forall j, ~ inside s j) by (intros j [K|K]; destruct PC; congruence).
    assert (Q' : length (g_procs s) = length packs /\ g_err s = verr v) by (destruct PC as [K|K]; rewrite K in Q; auto).
    assert (L' : g_log s = seq 0 (length (g_procs s))) by (destruct PC as [K|K]; rewrite K in L; auto).
    assert (D' : g_dones s = [match g_err s with None => true | Some _ => false end]) by (destruct PC as [K|K]; rewrite K in D; apply D).
    destruct Q' as [Q1 Q2]. rewrite Q2 in D'. rewrite Q1 in L'. split; [rewrite D'; unfold verr; destruct (v =? 441); reflexivity|]. split; [exact Q2|]. split; [exact L'|].
    clear PC Q L D D' L' Q2 N.
    assert (A : forall j P q, nth_error packs j = Some P -> nth_error (g_procs s) j = Some q -> pack_all_received P q).
    { intros j P q HP Hq. destruct (w_head _ _ _ _ _ W j q P Hq HP) as [E _]. split; [rewrite E; apply go_pack_holds|].
      rewrite (w_old _ _ _ _ _ W j q P Hq HP (NI j)). apply items_hold. }
    revert Q1 A. generalize (g_procs s). clear. induction packs as [|P packs IH]; intros [|q l] L A; cbn in L; try lia; constructor.
    + apply (A O); reflexivity.
    + apply IH; [lia|]. intros j. apply (A (S j)).
Qed.
Theorem C32_delivery : forall packs after r s, Forall wf_pack packs -> packs <> [] ->
  star gstep (g_init (setb r (enc_packs packs ++ enc_end ++ after))) s ->
  (length (g_procs s) <= length packs)%nat /\
  (forall j P q, nth_error packs j = Some P -> nth_error (g_procs s) j = Some q -> pack_received P q) /\
  g_crash s = false /\
  (g_dones s <> [] -> g_dones s = [true] /\ g_err s = None /\ g_log s = seq 0 (length packs) /\
     Forall2 pack_all_received packs (g_procs s)).
Proof. intros packs after r s H1 H2 H. apply (delivery packs 441 after r s H1 H2); [lia | exact H]. Qed.
(** The same when the end code is missing and neither a pack nor a packet follows: everything is delivered, done is false,
    Err() is ErrProgramEndCodeNotFound. *)
Theorem C32_no_end_code : forall packs v after r s, Forall wf_pack packs -> packs <> [] ->
  0 <= v < 2 ^ 31 -> v / 256 <> 1 ->
  star gstep (g_init (setb r (enc_packs packs ++ enc 32 v ++ after))) s ->
  (length (g_procs s) <= length packs)%nat /\
  (forall j P q, nth_error packs j = Some P -> nth_error (g_procs s) j = Some q -> pack_received P q) /\
  g_crash s = false /\
  (g_dones s <> [] -> g_dones s = [false] /\ g_err s = Some ErrProgramEndCodeNotFound /\ g_log s = seq 0 (length packs) /\
     Forall2 pack_all_received packs (g_procs s)).
Proof.
  intros packs v after r s H1 H2 H3 H4 H. assert (N1 : v <> 441) by (intros ->; apply H4; reflexivity). assert (N2 : v <> 442) by (intros ->; apply H4; reflexivity). assert (N3 : v <> 443) by (intros ->; apply H4; reflexivity).
  assert (B : verr v = Some ErrProgramEndCodeNotFound /\ (v =? 441) = false) by (unfold verr; rewrite (proj2 (Z.eqb_neq v 441)) by exact N1; auto). destruct B as (B1 & B2).
  pose proof (delivery packs v after r s H1 H2 ltac:(auto 10) H) as D. rewrite B1, B2 in D. exact D.
Qed.
(** Every run over such a stream can be completed. *)
Theorem C32_can_end : forall packs after r s, rlater r = [] -> Forall wf_pack packs -> packs <> [] ->
  star gstep (g_init (setb r (enc_packs packs ++ enc_end ++ after))) s ->
  exists s', star gstep s s' /\ g_dones s' = [true] /\ g_doneclosed s' = true.
Proof.
  intros packs after r s Hr H1 H2 H.
  assert (NC : forall s, star gstep (g_init (setb r (enc_packs packs ++ enc_end ++ after))) s -> g_crash s = false).
  { intros t Ht. apply (C32_delivery packs after r t H1 H2 Ht). }
  destruct (can_end (setb r (enc_packs packs ++ enc_end ++ after)) s Hr H NC) as (s' & S1 & S2). exists s'. split; auto.
  assert (S3 := star_trans _ _ _ _ _ H S1). destruct (wInv_reach r packs 441 after H1 H2 ltac:(lia) s' S3) as [G W].
  pose proof (i_done s' G) as D. pose proof (i_doneclosed s' G) as D'. pose proof (w_pc _ _ _ _ _ W) as Q.
  destruct S2 as [E _]. rewrite E in *. destruct Q as [_ Q]. change (verr 441) with (@None err) in Q. rewrite Q in D. split; [apply D | exact D'].
Qed.
Example C32_hyp : Forall wf_pack [ex_pack1; ex_empty; ex_pack2] /\ [ex_pack1; ex_empty; ex_pack2] <> [] /\ 0 <= 0 < 2 ^ 31 /\ 0 / 256 <> 1.
Proof.
  split; [|split; [discriminate | split; [lia | discriminate]]].
  repeat (apply Forall_cons; [first [apply ex_pack1_wf | apply ex_empty_wf | apply ex_pack2_wf]|]). apply Forall_nil.
Qed.

(** ** C64: refuted, for every program stream whose last pack is without packets *)
(** The read that gets there returns 0, nil: it loses what it copied and does not report io.EOF. *)
Theorem C64_empty_pack_refuted : forall packs h r fuel n, rlater r = [] ->
  Forall wf_pack packs -> Forall (fun p => snd p <> []) packs -> wf_packhead h -> (packets_in packs < fuel)%nat ->
  (length (packs_content packs) < n)%nat ->
  fst (pr_read fuel n (new_packreader (setb r (enc_packs packs ++ enc_packhead h ++ enc_end)))) = Ok ([], None).
Proof.
  intros packs h r fuel n Hr H1 H2 Hh Hf Hn. destruct (step_empty_pack h r Hh Hr) as [RE ST].
  pose proof (pr_read_spec r RE (enc_packhead h ++ enc_end) (fun _ => ([], None)) ST (S (packets_in packs)) fuel _ n _
                (pr_holds_init r (enc_packhead h ++ enc_end) packs H1 H2) Hf) as P.
  rewrite (proj2 (Nat.leb_gt _ _)) in P by auto. now rewrite P.
Qed.
Example C64_hyp : Forall wf_pack [ex_pack1; ex_pack2] /\ Forall (fun p : pack => snd p <> []) [ex_pack1; ex_pack2] /\
  wf_packhead (fst ex_empty) /\ enc_packs [ex_empty] = enc_packhead (fst ex_empty).
Proof.
  split; [apply ex_packs_wf|]. split; [repeat (apply Forall_cons; [discriminate|]); apply Forall_nil|].
  split; [apply ex_empty_wf | reflexivity].
Qed.

(** ** C65: every byte stream *)
Theorem C65_header_total : forall r, exists x r', new_pack_header r = (x, r') /\
  match x with Ok _ | Err _ => True | _ => False end.
Proof. intro r. pose proof (pack_header_total r) as T. destruct (new_pack_header r) as [x r']. eauto. Qed.
Theorem C65_truncated : forall p r k, wf_packhead p -> rlater r = [] -> (8 * k < length (enc_packhead p))%nat ->
  exists e r', new_pack_header (setb r (firstn (8 * k) (enc_packhead p))) = (Err e, r').
Proof.
  intros p r k H Hr Hk. pose proof (pack_header_truncated p 0 r k H ltac:(lia) ltac:(lia) Hr Hk) as E.
  rewrite firstn_app in E. replace (8 * k - length (enc_packhead p))%nat with 0%nat in E by lia.
  rewrite firstn_O, app_nil_r in E. exact E.
Qed.
Theorem C65_read_ends : forall s want, rlater (pr_br s) = [] ->
  fst (pr_read (S (length (rbits (pr_br s)))) want s) <> OutOfFuel.
Proof. exact pr_read_ends. Qed.
Example C65_hyp : wf_packhead (fst ex_pack1) /\ length (enc_packhead (fst ex_pack1)) = (8 * 34)%nat.
Proof. split; [apply ex_head1_wf | reflexivity]. Qed.

Print Assumptions C28_pack_header.
Print Assumptions C28_markers.
Print Assumptions C28_start_code.
Print Assumptions C29_system_header_partial.
Print Assumptions C29_refuted.
Print Assumptions C30_reads.
Print Assumptions C31_silent_refuted.
Print Assumptions C31_eof_once_refuted.
Print Assumptions C32_one_user.
Print Assumptions C32_order.
Print Assumptions C32_verdict.
Print Assumptions C32_no_end_code.
Print Assumptions C32_done.
Print Assumptions C32_bounded.
Print Assumptions C32_no_deadlock.
Print Assumptions C32_delivery.
Print Assumptions C32_can_end.
Print Assumptions C64_empty_pack_refuted.
Print Assumptions C65_header_total.
Print Assumptions C65_truncated.
Print Assumptions C65_read_ends.
