(** PropertiesFail: C106 - an error of a ts, pes or ps packet says what is wrong with the bytes, and where. *)
From Coq Require Import Lia.
From Verif Require Import Base BitReader After PesModel PsModel PsConc TsModel Conc SpecError SpecFail FailProofs.

(** ** Packets *)
Lemma fate_explained : forall S A F rd (m : M S A) s e s', fate F rd m -> rlater (rd s) = [] -> m s = (Err e, s') -> explained F (rd s) e (rd s').
Proof.
  intros S A F rd m s e s' H Hr E. specialize (H s Hr). rewrite E in H. destruct H as (c & A1 & H). exists c. split; [exact (after_bits _ _ _ A1) | exact H].
Qed.
Theorem C106_ts : forall p r e p' r', rlater r = [] -> packet_next (p, r) = (Err e, (p', r')) -> explained ts_fault r e r'.
Proof. intros p r e p' r' Hr H. exact (fate_explained _ _ _ _ _ (p, r) e (p', r') fate_ts Hr H). Qed.
Theorem C106_pes : forall p r e p' r', rlater r = [] -> pes_next (p, r) = (Err e, (p', r')) -> explained pes_fault r e r'.
Proof. intros p r e p' r' Hr H. exact (fate_explained _ _ _ _ _ (p, r) e (p', r') fate_pes Hr H). Qed.
Theorem C106_ps : forall r e r', rlater r = [] -> new_pack_header r = (Err e, r') -> explained ps_fault r e r'.
Proof. intros r e r' Hr H. exact (fate_explained _ _ _ _ _ r e r' fate_pack Hr H). Qed.

(** ** Readers: in whatever state they are *)
Lemma later_fate : forall S A F rd (m : M S A) s o s', fate F rd m -> rlater (rd s) = [] -> m s = (o, s') -> (exists a, o = Ok a) \/ (exists e, o = Err e) -> rlater (rd s') = [] /\ exists c, after (rd s) c (rd s').
Proof.
  intros S A F rd m s o s' H Hr E [(a & ->)|(e & ->)]; specialize (H s Hr); rewrite E in H; [destruct H as (c & A1) | destruct H as (c & A1 & _)]; (split; [rewrite (after_later _ _ _ A1); exact Hr | eauto]).
Qed.
Lemma explained_after : forall F r c r1 e r2, after r c r1 -> explained F r1 e r2 -> explained F r e r2.
Proof.
  intros F r c r1 e r2 A (d & Q & H). exists (c ++ d). split; [rewrite (after_bits _ _ _ A), Q, app_assoc; reflexivity|]. destruct H as [H|(c1 & c2 & -> & H)]; [left; eapply stopped_after; eauto|].
  right. exists (c ++ c1), c2. split; [now rewrite app_assoc | exact H].
Qed.
Lemma realign_later : forall f t p r d p' r', rlater r = [] -> pr_realign f t p r = (Ok d, (p', r')) -> rlater r' = [] /\ exists c, after r c r'.
Proof.
  induction f as [|f IH]; intros t p r d p' r' Hr H; cbn [pr_realign] in H; [discriminate|]. destruct (packet_next (p, r)) as [o [p1 r1] ] eqn:E.
  assert (X : (exists a, o = Ok a) \/ (exists e, o = Err e)) by (destruct o; eauto; discriminate). destruct (later_fate _ _ _ _ _ (p, r) o (p1, r1) fate_ts Hr E X) as (R1 & c & A). cbn [snd] in *.
  assert (Y : (if t p1 then (Ok (pk_payload p1), (p1, r1)) else pr_realign f t p1 r1) = (Ok d, (p', r'))) by (destruct o; solve [exact H | discriminate]). clear H. destruct (t p1).
  - injection Y as _ _ <-. eauto.
  - apply IH in Y; [|exact R1]. destruct Y as (R2 & c2 & A2). split; [exact R2|]. exists (c ++ c2). eapply after_app; eauto.
Qed.
Lemma fill_explained : forall f s p r want acc rem bs e s', rlater r = [] -> pr_fill f s p r want acc rem = (Ok (bs, Some e), s') ->
  (e = EEOF /\ pr_closed s' = true) \/ explained ts_fault r e (pr_br s').
Proof.
  induction f as [|f IH]; intros s p r want acc rem bs e s' Hr H; destruct want as [|want]; cbn [pr_fill] in H; try discriminate. destruct (packet_next (p, r)) as [ [u|x| |] [p1 r1] ] eqn:E; try discriminate.
  - destruct (later_fate _ _ _ _ _ (p, r) _ (p1, r1) fate_ts Hr E (or_introl (ex_intro _ u eq_refl))) as (R1 & c & A). cbn [snd] in *.
    destruct (if pr_where s p1 then _ else _) as [ [want' acc'] rem'] in H. destruct (pr_take s p1); [|injection H as _ <- <-; left; auto].
    apply IH in H; [|exact R1]. destruct H as [H|H]; [now left | right; eapply explained_after; eauto].
  - injection H as _ <- <-. right. exact (C106_ts p r x p1 r1 Hr E).
Qed.
Theorem C106_payload_reader : forall fuel want s bs e s', rlater (pr_br s) = [] -> pr_read fuel want s = (Ok (bs, Some e), s') ->
  (e = EEOF /\ pr_closed s' = true) \/ explained ts_fault (pr_br s) e (pr_br s').
Proof.
  intros fuel want s bs e s' Hr H. unfold pr_read in H. destruct (pr_closed s) eqn:C; [injection H as _ <- <-; left; auto|].
  destruct (pr_cur s) as [p|]; [eapply fill_explained in H; eauto|]. destruct (pr_skip s) as [t|]; [|eapply fill_explained in H; eauto].
  destruct (pr_realign fuel t zero_packet (pr_br s)) as [ [d|x| |] [p r] ] eqn:E; try discriminate.
  - apply realign_later in E; [|exact Hr]. destruct E as (R & c & A). apply fill_explained in H; [|exact R]. destruct H as [H|H]; [now left | right; eapply explained_after; eauto].
  - exfalso. clear - E. revert E. generalize zero_packet (pr_br s). induction fuel as [|f IH]; intros q b E; cbn [pr_realign] in E; [discriminate|]. destruct (packet_next (q, b)) as [ [u|y| |] [p1 r1] ]; try discriminate; (destruct (t p1); [discriminate | exact (IH _ _ E)]).
Qed.
Lemma seek_fate : forall f s p r, rlater r = [] -> match ur_seek f s p r with
  | (Ok _, (_, r')) => rlater r' = [] /\ exists c, after r c r' | (Err e, (_, r')) => explained ts_fault r e r' | _ => True end.
Proof.
  induction f as [|f IH]; intros s p r Hr; cbn [ur_seek]; (destruct (ur_start s p); [split; [exact Hr | exists []; apply after_nil]|]); [exact I|].
  destruct (packet_next (p, r)) as [ [u|e| |] [p1 r1] ] eqn:E; auto.
  - destruct (later_fate _ _ _ _ _ (p, r) _ (p1, r1) fate_ts Hr E (or_introl (ex_intro _ u eq_refl))) as (R1 & c & A). cbn [snd] in *. specialize (IH s p1 r1 R1).
    destruct (ur_seek f s p1 r1) as [ [u2|e| |] [p2 r2] ]; auto; [destruct IH as (R2 & d & A2); split; [exact R2 | exists (c ++ d); eapply after_app; eauto] | eapply explained_after; eauto].
  - exact (C106_ts p r e p1 r1 Hr E).
Qed.
Lemma collect_fate : forall f s p r buf e s', rlater r = [] -> ur_collect f s p r buf = (Ok (Some e), s') -> explained ts_fault r e (ur_br s').
Proof.
  induction f as [|f IH]; intros s p r buf e s' Hr H; cbn [ur_collect] in H; [discriminate|]. destruct (packet_next (p, r)) as [ [u|x| |] [p1 r1] ] eqn:E; try discriminate.
  - destruct (later_fate _ _ _ _ _ (p, r) _ (p1, r1) fate_ts Hr E (or_introl (ex_intro _ u eq_refl))) as (R1 & c & A). cbn [snd] in *. destruct (ur_start s p1); [discriminate|]. apply IH in H; [|exact R1]. eapply explained_after; eauto.
  - injection H as <- <-. exact (C106_ts p r x p1 r1 Hr E).
Qed.
Theorem C106_unit_reader : forall fuel want s bs e s', rlater (ur_br s) = [] -> ur_read fuel want s = (Ok (bs, Some e), s') ->
  (e = EOP /\ ur_buf s' = []) \/ (bs = [] /\ explained ts_fault (ur_br s) e (ur_br s')).
Proof.
  intros fuel want s bs e s' Hr H.
  assert (D : forall s1, ur_drain want s1 = (Ok (bs, Some e), s') -> e = EOP /\ ur_buf s' = []).
  { intros s1 X. unfold ur_drain in X. destruct (Nat.ltb_spec (length (firstn want (ur_buf s1))) want) as [L|L]; [|discriminate]. injection X as _ <- <-. split; [reflexivity|]. cbn [ur_buf]. rewrite firstn_length in L. rewrite firstn_all2 by lia. apply skipn_all. }
  unfold ur_read in H. destruct (ur_ready s); [left; eauto|]. unfold ur_fill in H. destruct (ur_cur s) as [p|].
  - destruct (ur_collect fuel s p (ur_br s) (ur_buf s)) as [ [ [x|]|x| |] s1] eqn:E; try discriminate; [|left; eauto|].
    + injection H as <- <- <-. right. split; [reflexivity|]. eapply collect_fate; eauto.
    + exfalso. clear - E. revert E. generalize p (ur_br s) (ur_buf s). induction fuel as [|f IH]; intros q b u E; cbn [ur_collect] in E; [discriminate|]. destruct (packet_next (q, b)) as [ [w|y| |] [p1 r1] ]; try discriminate. destruct (ur_start s p1); [discriminate | exact (IH _ _ _ E)].
  - pose proof (seek_fate fuel s zero_packet (ur_br s) Hr) as K. destruct (ur_seek fuel s zero_packet (ur_br s)) as [ [u|x| |] [p r] ]; try discriminate.
    + destruct K as (R & c & A). destruct (ur_collect fuel s p r (ur_buf s)) as [ [ [x|]|x| |] s1] eqn:E; try discriminate; [|left; eauto|].
      * injection H as <- <- <-. right. split; [reflexivity|]. eapply explained_after; [exact A|]. eapply collect_fate; eauto.
      * exfalso. clear - E. revert E. generalize p r (ur_buf s). induction fuel as [|f IH]; intros q b u E; cbn [ur_collect] in E; [discriminate|]. destruct (packet_next (q, b)) as [ [w|y| |] [p1 r1] ]; try discriminate. destruct (ur_start s p1); [discriminate | exact (IH _ _ _ E)].
    + injection H as <- <- <-. right. split; [reflexivity | exact K].
Qed.
Lemma es_explained : forall f p r want acc rem bs e s', rlater r = [] -> es_fill f p r want acc rem = (Ok (bs, Some e), s') -> explained pes_fault r e (es_br s').
Proof.
  induction f as [|f IH]; intros p r want acc rem bs e s' Hr H; destruct want as [|want]; cbn [es_fill] in H; try discriminate. destruct (pes_next (p, r)) as [ [u|x| |] [p1 r1] ] eqn:E; try discriminate.
  - destruct (later_fate _ _ _ _ _ (p, r) _ (p1, r1) fate_pes Hr E (or_introl (ex_intro _ u eq_refl))) as (R1 & c & A). cbn [snd] in *. apply IH in H; [|exact R1]. eapply explained_after; eauto.
  - injection H as _ <- <-. exact (C106_pes p r x p1 r1 Hr E).
Qed.
Theorem C106_pes_reader : forall fuel want s bs e s', rlater (es_br s) = [] -> es_read fuel want s = (Ok (bs, Some e), s') -> explained pes_fault (es_br s) e (es_br s').
Proof. intros fuel want s bs e s' Hr H. unfold es_read in H. eapply es_explained; eauto. Qed.

(** ** The pack reader: other errors than these are not reported (C31) *)
Lemma step_explained : forall f r want acc bs e s', rlater r = [] -> pr_step f r want acc = (Ok (bs, Some e), s') ->
  (e = EEOF /\ exists c, after r (c ++ enc 32 441) (PsModel.pr_br s')) \/ explained ps_fault r e (PsModel.pr_br s').
Proof.
  induction f as [|f IH]; intros r want acc bs e s' Hr H; cbn [pr_step] in H; [discriminate|]. destruct (peek_n 32 r) as [ [v|x| |] r1] eqn:E; try discriminate.
  apply peek_after in E. destruct E as (-> & B & t & Q). destruct (Z.eqb_spec v ProgramEndCode) as [Ev|Nv].
  - injection H as _ <- <-. left. split; [reflexivity|]. exists []. cbn [app PsModel.pr_br]. assert (X : exists u r2, skip_n 32 r = (Ok u, r2)).
    { unfold skip_n, bind, read_n. rewrite Q, app_length, enc_length. cbn [Nat.leb plus]. eexists; eexists; reflexivity. }
    destruct X as (u & r2 & X). rewrite X. cbn [snd]. apply skip_after in X. destruct X as (w & _ & A). rewrite Ev in Q. exact (after_seen _ _ _ _ _ _ Q A).
  - assert (X : forall o r2, (if v =? PackStartCode then match new_pack_header r with (Ok _, r2) => (Ok tt, r2) | (Err e, r2) => (Err e, r2) | (Panic, r2) => (Panic, r2) | (OutOfFuel, r2) => (OutOfFuel, r2) end else (Ok tt, r)) = (o, r2) ->
      (exists c, after r c r2) /\ (forall y, o = Err y -> explained ps_fault r y r2)).
    { intros o r2 X. destruct (v =? PackStartCode); [|injection X as <- <-; split; [exists []; apply after_nil | discriminate]]. pose proof (fate_pack r Hr) as K. pose proof (C106_ps r) as Y. destruct (new_pack_header r) as [ [h|y| |] r3]; injection X as <- <-; (split; [|try discriminate]); auto.
      - destruct K as (c & A & _). eauto.
      - intros z Z. injection Z as <-. apply Y; auto. }
    match type of H with (let '(h, r2) := ?m in _) = _ => destruct m as [o r2] end. destruct (X o r2 eq_refl) as ((c & A) & Xe). clear X. assert (R2 : rlater r2 = []) by (rewrite (after_later _ _ _ A); exact Hr).
    destruct o as [u|y| |]; try discriminate; [|injection H as _ <- <-; right; apply Xe; reflexivity]. unfold pr_packet in H. pose proof (fate_pes (zero_pp, r2) R2) as P. unfold new_pes in H. destruct (pes_next (zero_pp, r2)) as [ [u2|y| |] [p r3] ]; try discriminate.
    cbn [snd] in P. destruct P as (d & A2). destruct (want - length (firstn want (pp_payload p)))%nat as [|k]; [discriminate|]. cbn [PsModel.pr_br] in H. apply IH in H; [|rewrite (after_later _ _ _ A2); exact R2].
    pose proof (after_app _ _ _ _ _ A A2) as A3. destruct H as [(-> & c2 & A4)|H]; [left; split; [reflexivity|]; exists ((c ++ d) ++ c2); rewrite <- app_assoc; eapply after_app; eauto | right; eapply explained_after; eauto].
Qed.
Theorem C106_pack_reader : forall fuel want s bs e s', rlater (PsModel.pr_br s) = [] -> PsModel.pr_read fuel want s = (Ok (bs, Some e), s') ->
  (e = EEOF /\ exists c, rbits (PsModel.pr_br s) = c ++ enc 32 441 ++ rbits (PsModel.pr_br s')) \/ explained ps_fault (PsModel.pr_br s) e (PsModel.pr_br s').
Proof.
  intros fuel want s bs e s' Hr H. unfold PsModel.pr_read in H. destruct (want - _)%nat as [|k]; [discriminate|]. apply step_explained in H; [|exact Hr]. destruct H as [(-> & c & A)|H]; [|now right].
  left. split; [reflexivity|]. exists c. rewrite app_assoc. exact (after_bits _ _ _ A).
Qed.

(** ** Err() of ts.Demuxer and of ps.Decoder, in every schedule *)
Theorem C106_demuxer : forall ts skip take r s e, rlater r = [] -> star (dstep ts skip take) (d_init r) s -> d_err s = Some e -> explained ts_fault r e (d_br s).
Proof.
  intros ts skip take r s e Hr H. assert (K : (exists c, after r c (d_br s)) /\ (d_err s = None \/ (match d_pc s with PNext | PSend _ => False | _ => True end) /\ forall e, d_err s = Some e -> explained ts_fault r e (d_br s))).
  { remember (d_init r) as s0. induction H as [|s0 s1 s2 H IH D]; subst; [split; [exists []; apply after_nil | now left]|]. specialize (IH eq_refl). destruct IH as ((c & A) & IH). assert (R1 : rlater (d_br s1) = []) by (rewrite (after_later _ _ _ A); exact Hr).
    destruct D as [D|D]; [|destruct D; cbn; split; eauto].
    destruct D as [P|i t P T F|i t P T F W|i P T|i t P T|i P T|P W]; try (cbn; split; [eauto|]; rewrite P in IH; tauto).
    rewrite P in IH. assert (N : d_err s1 = None) by tauto. clear IH. unfold d_next. pose proof (fate_ts (d_pkt s1, d_br s1) R1) as Z. pose proof (C106_ts (d_pkt s1) (d_br s1)) as Y. destruct (packet_next (d_pkt s1, d_br s1)) as [ [u|x| |] [p r2] ]; cbn [snd] in Z.
    - destruct Z as (d & A2). pose proof (after_app _ _ _ _ _ A A2) as A3. destruct (d_skipping s1); [destruct (skip p) | destruct (take p)]; cbn; split; eauto.
    - destruct Z as (d & A2 & _). pose proof (after_app _ _ _ _ _ A A2) as A3. cbn. split; [eauto|]. right. split; [exact I|]. intros e' E. injection E as <-. eapply explained_after; [exact A|]. exact (Y x p r2 R1 eq_refl).
    - destruct Z as (d & A2). pose proof (after_app _ _ _ _ _ A A2) as A3. cbn. split; eauto.
    - split; eauto. }
  intro E. destruct K as (_ & [K|(_ & K)]); [congruence | exact (K e E)].
Qed.
Lemma look_after : forall r o r', rlater r = [] -> look r = (o, r') -> exists c, after r c r'.
Proof.
  intros r o r' Hr H. unfold look in H. pose proof (fate_peek_n (fun _ _ _ => False) 24 ltac:(lia) r Hr) as P. destruct (peek_n 24 r) as [ [v|x| |] r1] eqn:E; try (assert (r' = r1) as -> by congruence; destruct P as (c & A); exists c; first [exact A | apply A]; fail).
  apply peek_after in E. destruct E as (-> & _). destruct (negb (v =? 1)); [assert (r' = r) as -> by congruence; exists []; apply after_nil|].
  pose proof (fate_peek_n (fun _ _ _ => False) 32 ltac:(lia) r Hr) as P2. destruct (peek_n 32 r) as [ [w|x| |] r1] eqn:E; try (assert (r' = r1) as -> by congruence; destruct P2 as (c & A); exists c; first [exact A | apply A]; fail).
  apply peek_after in E. destruct E as (-> & _). destruct ((w =? PackStartCode) || (w =? ProgramEndCode)); [assert (r' = r) as -> by congruence; exists []; apply after_nil|].
  pose proof (fate_pes (zero_pp, r) Hr) as Q. unfold new_pes in H. destruct (pes_next (zero_pp, r)) as [ [u|x| |] [p r3] ]; cbn [snd] in Q; assert (r' = r3) as -> by congruence; destruct Q as (c & A); exists c; first [exact A | apply A].
Qed.
Theorem C106_decoder : forall r s e, rlater r = [] -> star gstep (g_init r) s -> g_err s = Some e ->
  (e = ErrProgramEndCodeNotFound /\ next_bits 32 (fun v => v <> 441) (rbits (g_br s))) \/ explained ps_fault r e (g_br s).
Proof.
  intros r s e Hr H. set (ok := fun (e : err) (b : reader) => (e = ErrProgramEndCodeNotFound /\ next_bits 32 (fun v => v <> 441) (rbits b)) \/ explained ps_fault r e b).
  assert (K : (exists c, after r c (g_br s)) /\ (g_err s = None \/ PsConc.ended s /\ forall e, g_err s = Some e -> ok e (g_br s))).
  { remember (g_init r) as s0. induction H as [|s0 s1 s2 H IH D]; subst; [split; [exists []; apply after_nil | now left]|]. specialize (IH eq_refl). destruct IH as ((c & A) & IH). assert (R1 : rlater (g_br s1) = []) by (rewrite (after_later _ _ _ A); exact Hr).
    pose proof (gInv_reach r s1 H) as G. destruct D as (_ & [D|D]); [|destruct D; cbn; split; eauto].
    assert (PE : forall x r', peek_n 32 (g_br s1) = (Err x, r') -> (exists d, after (g_br s1) d r') /\ explained ps_fault (g_br s1) x r').
    { intros x r' E. pose proof (fate_peek_n ps_fault 32 ltac:(lia)) as F. pose proof (F (g_br s1) R1) as Z. rewrite E in Z. destruct Z as (d & Z & _). split; [eauto|]. exact (fate_explained _ _ _ _ _ (g_br s1) x r' F R1 E). }
    assert (PO : forall v r', peek_n 32 (g_br s1) = (Ok v, r') -> r' = g_br s1 /\ exists t, 0 <= v < 2 ^ 32 /\ rbits (g_br s1) = enc 32 v ++ t) by (intros v r' E; apply peek_after in E; destruct E as (-> & B & t & Q); eauto).
    assert (IN : forall j q, nth_error (g_procs s1) j = Some q -> q_pc q = PLook -> g_err s1 = None).
    { intros j q Kq Kp. assert (I : inside s1 j) by (eapply active_inside; eauto; unfold active; now rewrite Kp). destruct IH as [IH|(X & _)]; [exact IH|]. unfold PsConc.ended in X. destruct I as [I|I]; rewrite I in X; destruct X. }
    destruct D as [h r' P E|x r' P E|i P W|i q P Q C|x r' P E|v r' P E V|v r' P E V|x r' P E|v r' P E V|v r' P E V|P|P W|P|j q p r' Q P E|j q r' Q P E|j q r' Q P E|j q p Q P W|j q Q P|j q Q P]; unfold PsConc.ended in *; cbn [g_at g_pc g_br g_err];
      try (rewrite P in IH; first [ assert (N : g_err s1 = None) by tauto | idtac ]).
    - pose proof (fate_pack (g_br s1) R1) as Z. rewrite E in Z. destruct Z as (d & Z). split; [|now left]. exists (c ++ d). eapply after_app; eauto.
    - pose proof (fate_pack (g_br s1) R1) as Z. rewrite E in Z. destruct Z as (d & Z & _). split; [exists (c ++ d); eapply after_app; eauto|]. right. split; [exact I|]. intros e' Y. injection Y as <-. right. eapply explained_after; [exact A|]. now apply C106_ps.
    - split; [eauto | now left].
    - split; [eauto | now left].
    - apply PE in E. destruct E as ((d & Z) & E). split; [exists (c ++ d); eapply after_app; eauto|]. right. split; [exact I|]. intros e' Y. injection Y as <-. right. eapply explained_after; eauto.
    - apply PO in E. destruct E as (-> & _). split; [eauto | now left].
    - apply PO in E. destruct E as (-> & _). split; [eauto | now left].
    - apply PE in E. destruct E as ((d & Z) & E). split; [exists (c ++ d); eapply after_app; eauto|]. right. split; [exact I|]. intros e' Y. injection Y as <-. right. eapply explained_after; eauto.
    - apply PO in E. destruct E as (-> & _). split; [eauto | now left].
    - apply PO in E. destruct E as (-> & t & B & Q). split; [eauto|]. right. split; [exact I|]. intros e' Y. injection Y as <-. left. split; [reflexivity|]. exists v, t. auto.
    - split; [eauto|]. tauto.
    - split; [eauto|]. tauto.
    - split; [eauto|]. tauto.
    - apply look_after in E; [|exact R1]. destruct E as (d & Z). split; [exists (c ++ d); eapply after_app; eauto | left; eapply IN; eauto].
    - apply look_after in E; [|exact R1]. destruct E as (d & Z). split; [exists (c ++ d); eapply after_app; eauto | left; eapply IN; eauto].
    - apply look_after in E; [|exact R1]. destruct E as (d & Z). split; [exists (c ++ d); eapply after_app; eauto | left; eapply IN; eauto].
    - split; [eauto|]. exact IH.
    - split; [eauto|]. exact IH.
    - split; [eauto|]. exact IH. }
  intro E. destruct K as (_ & [K|(_ & K)]); [congruence | exact (K e E)].
Qed.

(** No sync byte; a packet cut off; a wrong prefix, marker and stuffing byte; a source that ends in a marker; no pack; a wrong marker;
    and a program stream that ends without the end code *)
Definition xf_reader (l : list Z) : reader := mkR (bb l) EEOF [] (fun _ _ => EUnexpectedEOF).
Example C106_hyp :
  fst (packet_next (zero_packet, xf_reader (repeat 0 200))) = Err ErrNoSyncByte /\
  fst (packet_next (zero_packet, xf_reader [71; 64; 17; 16; 1; 2; 3])) = Err EUnexpectedEOF /\
  fst (packet_next (zero_packet, xf_reader [])) = Err EEOF /\
  fst (pes_next (zero_pp, xf_reader [0; 0; 2; 224; 0; 0])) = Err ErrStartCodePrefixNotFound /\
  fst (pes_next (zero_pp, xf_reader [0; 0; 1; 224; 0; 20; 64; 0; 0])) = Err ErrMarkerNotFound /\
  fst (pes_next (zero_pp, xf_reader [0; 0; 1; 224; 0; 20])) = Err ErrMarkerNotFound /\
  fst (pes_next (zero_pp, xf_reader [0; 0; 1; 224; 0; 20; 128; 0; 1; 7])) = Err ErrInvalidStuffingByte /\
  fst (new_pack_header (xf_reader [0; 0; 1; 185])) = Err ErrPsUnexpectedStartCode /\
  fst (new_pack_header (xf_reader [0; 0; 1; 186; 0; 0; 0])) = Err ErrMarkerNotFound /\
  exists s, star gstep (g_init (xf_reader [0; 0; 1; 185])) s /\ g_err s = Some ErrPsUnexpectedStartCode.
Proof.
  repeat (split; [lazy; reflexivity|]). eexists. split.
  - eapply star_step; [apply star_refl|]. split; [reflexivity|]. left. eapply g_headerr; [reflexivity|]. lazy. reflexivity.
  - reflexivity.
Qed.
Print Assumptions C106_ts.
Print Assumptions C106_pes.
Print Assumptions C106_ps.
Print Assumptions C106_payload_reader.
Print Assumptions C106_unit_reader.
Print Assumptions C106_pes_reader.
Print Assumptions C106_pack_reader.
Print Assumptions C106_demuxer.
Print Assumptions C106_decoder.
