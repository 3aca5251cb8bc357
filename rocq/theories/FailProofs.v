(** FailProofs: what the errors of ts, pes and ps packets say about the bytes. *)
From Coq Require Import Lia.
From Verif Require Import Base BitReader TsRobust PesLocal After TsModel PesModel PsModel SpecError SpecFail.

(** Every error of [m] is the end of the source or one of the faults [F]. *)
Definition fate {S A} (F : err -> list bool -> list bool -> Prop) (rd : S -> reader) (m : M S A) : Prop := forall s, rlater (rd s) = [] ->
  match m s with
  | (Err e, s') => exists c, after (rd s) c (rd s') /\ (stopped (rd s) e (rbits (rd s')) \/ exists c1 c2, c = c1 ++ c2 /\ F e c2 (rbits (rd s')))
  | (_, s') => exists c, after (rd s) c (rd s')
  end.
Notation fater F := (fate F (fun r : reader => r)).
Notation fates F := (fate F snd).
Lemma stopped_after : forall r c r' e l, after r c r' -> stopped r' e l -> stopped r e l.
Proof. intros r c r' e l A H. rewrite A. exact H. Qed.
Lemma fate_bind : forall S A B F rd (m : M S A) (k : A -> M S B), fate F rd m -> (forall a, fate F rd (k a)) -> fate F rd (bind m k).
Proof.
  intros S A B F rd m k Hm Hk s Hr. specialize (Hm s Hr). unfold bind. destruct (m s) as [ [a|e| |] s1] eqn:E; auto.
  destruct Hm as (c & A1). assert (R1 : rlater (rd s1) = []) by (rewrite (after_later _ _ _ A1); exact Hr). specialize (Hk a s1 R1).
  destruct (k a s1) as [ [b|e| |] s2]; try (destruct Hk as (d & A2); exists (c ++ d); eapply after_app; eauto; fail).
  - destruct Hk as (d & A2 & H). exists (c ++ d). split; [eapply after_app; eauto|]. destruct H as [H | (c1 & c2 & Q & T)]; [left; eapply stopped_after; eauto|].
    right. exists (c ++ c1), c2. split; [rewrite Q, app_assoc; reflexivity | exact T].
Qed.
Lemma fate_ret : forall S A F rd (a : A), fate (S := S) F rd (ret a).
Proof. intros S A F rd a s _. cbn. exists []. apply after_nil. Qed.
Lemma fate_panic : forall S A F rd, fate (S := S) (A := A) F rd panic.
Proof. intros S A F rd s _. cbn. exists []. apply after_nil. Qed.
Lemma fate_nofuel : forall S A F rd, fate (S := S) (A := A) F rd nofuel.
Proof. intros S A F rd s _. cbn. exists []. apply after_nil. Qed.
Lemma fate_if : forall S A F rd (c : bool) (a b : M S A), fate F rd a -> fate F rd b -> fate F rd (if c then a else b).
Proof. intros S A F rd [] a b; auto. Qed.
Lemma fate_ignore : forall S A F rd d (m : M S A), fate F rd m -> fate F rd (ignore_err d m).
Proof. intros S A F rd d m H s Hr. specialize (H s Hr). unfold ignore_err. destruct (m s) as [ [a|e| |] s']; auto. destruct H as (c & A1 & _). eauto. Qed.
Lemma fate_onr : forall T A F (m : M reader A), fater F m -> fates F (onr (T := T) m).
Proof. intros T A F m H [t r] Hr. specialize (H r Hr). unfold onr. cbn [fst snd] in *. destruct (m r) as [ [a|e| |] r']; auto. Qed.
Lemma fate_onrz : forall T A F z (m : M reader A), fater F m -> fates F (onrz (T := T) z m).
Proof. intros T A F z m H [t r] Hr. specialize (H r Hr). unfold onrz. cbn [fst snd] in *. destruct (m r) as [ [a|e| |] r']; auto. Qed.
Lemma fate_upd : forall T F (f : T -> T), fates F (upd (R := reader) f).
Proof. intros T F f s _. cbn. exists []. apply after_nil. Qed.
Lemma fate_fun : forall S A F rd (f : S -> nat) (m : nat -> M S A), (forall n, fate F rd (m n)) -> fate F rd (fun s => m (f s) s).
Proof. intros S A F rd f m H s. exact (H (f s) s). Qed.
Lemma short_fate : forall A n r, (n <= 33)%nat -> rlater r = [] -> (length (rbits r) < n)%nat -> exists e, short (A := A) n r = (Err e, r) /\ stopped r e (rbits r).
Proof.
  intros A n r Hn Hr L. unfold short, stopped. destruct (rbits r) as [|b l] eqn:Q.
  - exists (rfin r). split; [|left; auto]. unfold advance. rewrite Hr. destruct r; cbn in *; subst; reflexivity.
  - exists (rshort r n (length (b :: l))). split; [reflexivity|]. right. exists n. cbn [length] in *. split; [lia|]. auto.
Qed.
Lemma fate_read_n : forall F n, (n <= 33)%nat -> fater F (read_n n).
Proof.
  intros F n Hn r Hr. destruct (read_n n r) as [ [a|e| |] r'] eqn:E; auto.
  - apply read_after in E. destruct E as (_ & A). eauto.
  - unfold read_n in E. destruct (Nat.leb_spec n (length (rbits r))); [discriminate|]. destruct (short_fate Z n r Hn Hr ltac:(lia)) as (e' & Es & En). rewrite Es in E. injection E as -> ->. exists []. split; [apply after_nil | now left].
  - exfalso. unfold read_n, short in E. destruct (Nat.leb n (length (rbits r))); [discriminate|]. destruct (rbits r); discriminate.
  - exfalso. unfold read_n, short in E. destruct (Nat.leb n (length (rbits r))); [discriminate|]. destruct (rbits r); discriminate.
Qed.
Lemma fate_peek_n : forall F n, (n <= 33)%nat -> fater F (peek_n n).
Proof.
  intros F n Hn r Hr. destruct (peek_n n r) as [ [a|e| |] r'] eqn:E; auto.
  - apply peek_after in E. destruct E as (-> & _). exists []. apply after_nil.
  - unfold peek_n in E. destruct (Nat.leb_spec n (length (rbits r))); [discriminate|]. destruct (short_fate Z n r Hn Hr ltac:(lia)) as (e' & Es & En). rewrite Es in E. injection E as -> ->. exists []. split; [apply after_nil | now left].
  - exfalso. unfold peek_n, short in E. destruct (Nat.leb n (length (rbits r))); [discriminate|]. destruct (rbits r); discriminate.
  - exfalso. unfold peek_n, short in E. destruct (Nat.leb n (length (rbits r))); [discriminate|]. destruct (rbits r); discriminate.
Qed.
Lemma fate_read1 : forall F, fater F read1.
Proof. intro F. apply fate_bind; [apply fate_read_n; lia | intro; apply fate_ret]. Qed.
Lemma fate_skip_n : forall F n, (n <= 33)%nat -> fater F (skip_n n).
Proof. intros F n Hn. apply fate_bind; [apply fate_read_n; lia | intro; apply fate_ret]. Qed.
(** Whole bytes *)
Lemma full_fate : forall n r bs e r', rlater r = [] -> read_full n r = ((bs, e), r') ->
  (exists c, after r c r') /\ (forall x, e = Some x -> rbits r' = [] /\ (x = rfin r \/ rfin r = EEOF /\ x = EUnexpectedEOF)).
Proof.
  intros n r bs e r' Hr H. unfold read_full in H. destruct (Z.leb_spec n 0); [|destruct (Z.leb_spec n (avail r))].
  - injection H as <- <- <-. split; [exists []; apply after_nil | discriminate].
  - injection H as <- <- <-. split; [|discriminate]. exists (firstn (8 * Z.to_nat n) (rbits r)). apply after_intro; [rewrite rbits_setb; symmetry; apply firstn_skipn | reflexivity].
  - assert (r' = setb r []) as -> by (unfold advance in H; rewrite Hr in H; congruence). split; [exists (rbits r); apply after_intro; rewrite rbits_setb; [now rewrite app_nil_r | reflexivity]|].
    intros x ->. split; [reflexivity|]. assert (E : Some x = Some (match rfin r with EEOF => if avail r =? 0 then EEOF else EUnexpectedEOF | e => e end)) by congruence.
    destruct (rfin r); injection E as ->; auto. destruct (avail r =? 0); auto.
Qed.
Lemma fate_read_bytes : forall F n, fater F (read_bytes n).
Proof.
  intros F n r Hr. unfold read_bytes. destruct (read_full n r) as [ [bs e] r'] eqn:E. destruct (full_fate _ _ _ _ _ Hr E) as ((c & A) & X). destruct e as [e|]; [|eauto].
  exists c. split; [exact A|]. left. left. exact (X e eq_refl).
Qed.
Ltac fate_tac :=
  repeat lazymatch goal with
    | |- fate _ _ (ret _) => apply fate_ret
    | |- fate _ _ panic => apply fate_panic
    | |- fate _ _ nofuel => apply fate_nofuel
    | |- fate _ _ (read_n _) => apply fate_read_n; lia
    | |- fate _ _ (peek_n _) => apply fate_peek_n; lia
    | |- fate _ _ read1 => apply fate_read1
    | |- fate _ _ (skip_n _) => apply fate_skip_n; lia
    | |- fate _ _ (read_bytes _) => apply fate_read_bytes
    | |- fate _ _ (upd _) => apply fate_upd
    | |- fate _ _ (onr _) => apply fate_onr
    | |- fate _ _ (onrz _ _) => apply fate_onrz
    | |- fate _ _ (bind _ _) => apply fate_bind
    | |- fate _ _ (ignore_err _ _) => apply fate_ignore
    | |- fate _ _ (if _ then _ else _) => apply fate_if
    | |- fate _ _ (let '_ := ?x in _) => destruct x
    | |- forall _, _ => intro
    | |- fate _ _ _ => solve [auto]
    end.

(** * ts *)
Lemma bytes_eof : forall A F n (k : list Z -> A), fater F (fun r => match read_bytes n r with
    | (Err EEOF, r') => (Err EUnexpectedEOF, r') | (Ok d, r') => (Ok (k d), r') | (Err e, r') => (Err e, r') | (Panic, r') => (Panic, r') | (OutOfFuel, r') => (OutOfFuel, r') end).
Proof.
  intros A F n k r Hr. unfold read_bytes. destruct (read_full n r) as [ [bs e] r'] eqn:E. destruct (full_fate _ _ _ _ _ Hr E) as ((c & A0) & X). destruct e as [e|]; [|eauto].
  destruct (X e eq_refl) as (L & Y).
  assert (Z : exists c, after r c r' /\ ((stopped r (match e with EEOF => EUnexpectedEOF | e => e end) (rbits r')) \/ (exists c1 c2, c = c1 ++ c2 /\ F (match e with EEOF => EUnexpectedEOF | e => e end) c2 (rbits r')))).
  { exists c. split; [exact A0|]. left. left. split; [exact L|]. destruct Y as [->|(Y & ->)]; [destruct (rfin r) eqn:Q; auto | auto]. }
  destruct e; exact Z.
Qed.
Lemma fate_af : forall F, fater F new_af.
Proof.
  intro F. assert (T : fater F new_tpd) by (unfold new_tpd; apply fate_bind; [fate_tac|]; intro; apply fate_if; [apply (bytes_eof _ F _ (fun d => (mkTpd a d, a))) | fate_tac]).
  assert (X : fater F new_ext) by (unfold new_ext; fate_tac). assert (P : fater F read_pcr) by (unfold read_pcr; fate_tac).
  assert (J : forall n, fater F (fun r => match read_bytes n r with (Err EEOF, r') => (Err EUnexpectedEOF, r') | x => x end)).
  { intros n r Hr. pose proof (bytes_eof _ F n (fun d => d) r Hr) as B. cbv beta in B. destruct (read_bytes n r) as [ [d|e| |] r']; [exact B | destruct e; exact B | exact B | exact B]. }
  unfold new_af. fate_tac.
Qed.
Lemma fate_loop : forall k r, rlater r = [] -> match realign_loop k r with
  | (Err e, r') => exists c, after r c r' /\ (stopped r e (rbits r') \/ e = ErrNoSyncByte /\ exists bs, c = bb bs /\ length bs = k /\ bytes bs /\ ~ In 71 bs)
  | (_, r') => exists c, after r c r' end.
Proof.
  induction k as [|k IH]; intros r Hr; cbn [realign_loop].
  - cbn. exists []. split; [apply after_nil|]. right. split; [reflexivity|]. exists []. split; [reflexivity|]. split; [reflexivity|]. split; [constructor | intros []].
  - pose proof (fate_peek_n (fun _ _ _ => False) 8 ltac:(lia) r Hr) as P. pose proof (fate_skip_n (fun _ _ _ => False) 8 ltac:(lia) r Hr) as K. unfold bind at 1. destruct (peek_n 8 r) as [ [v|e| |] r1] eqn:E; auto.
    + apply peek_after in E. destruct E as (-> & B & t & Q). destruct (Z.eqb_spec v SyncByte) as [Ev|Nv]; [cbn; exists []; apply after_nil|].
      unfold bind. destruct (skip_n 8 r) as [ [u|e| |] r2] eqn:E2; auto.
      * apply skip_after in E2. destruct E2 as (w & _ & A). pose proof (after_seen _ _ _ _ _ _ Q A) as A1. assert (R2 : rlater r2 = []) by (rewrite (after_later _ _ _ A1); exact Hr).
        specialize (IH r2 R2). destruct (realign_loop k r2) as [ [u2|e| |] r3]; try (destruct IH as (c & A2); exists (enc 8 v ++ c); eapply after_app; eauto; fail).
        -- destruct IH as (c & A2 & H). exists (enc 8 v ++ c). split; [eapply after_app; eauto|]. destruct H as [H|(-> & bs & -> & L & Y & N)]; [left; eapply stopped_after; eauto|]. right. split; [reflexivity|].
           exists (v :: bs). split; [reflexivity|]. split; [cbn; now rewrite L|]. split; [constructor; [exact B | exact Y]|]. intros [H|H]; [unfold SyncByte in Nv; congruence | exact (N H)].
      * destruct K as (c & A & [K|(c1 & c2 & _ & K)]); [exists c; auto | destruct K].
    + destruct P as (c & A & [P|(c1 & c2 & _ & P)]); [exists c; auto | destruct P].
Qed.
Lemma fate_realign : fater ts_fault realign.
Proof.
  intros r Hr. unfold realign. assert (A0 : exists c, after r c (if negb (is_aligned r) then align r else r)).
  { destruct (is_aligned r); cbn [negb]; [exists []; apply after_nil|]. exists (firstn (length (rbits r) mod 8) (rbits r)). apply after_intro; [unfold align; rewrite rbits_setb; symmetry; apply firstn_skipn | reflexivity]. }
  destruct A0 as (c0 & A0). set (r0 := if negb (is_aligned r) then align r else r) in *. assert (R0 : rlater r0 = []) by (rewrite (after_later _ _ _ A0); exact Hr).
  pose proof (fate_loop 188 r0 R0) as L. destruct (realign_loop 188 r0) as [ [u|e| |] r1]; try (destruct L as (c & A); exists (c0 ++ c); eapply after_app; eauto; fail).
  - destruct L as (c & A & L). exists (c0 ++ c). split; [eapply after_app; eauto|]. destruct L as [L|(-> & bs & -> & N & B & I)]; [left; eapply stopped_after; eauto|]. right. exists c0, (bb bs). split; [reflexivity|]. now apply no_sync.
Qed.
Lemma fate_payload : forall F n, fates F (read_payload n).
Proof.
  intros F n [p r] Hr. unfold read_payload. destruct (MaxPayloadSize <? n); [exists []; apply after_nil|]. cbn [fst snd] in *. destruct (read_full n r) as [ [bs e] r'] eqn:E. destruct (full_fate _ _ _ _ _ Hr E) as ((c & A0) & X). destruct e as [e|]; [|eauto].
  destruct (X e eq_refl) as (L & Y).
  assert (Z : exists c, after r c r' /\ ((stopped r (match e with EEOF => EUnexpectedEOF | e => e end) (rbits r')) \/ (exists c1 c2, c = c1 ++ c2 /\ F (match e with EEOF => EUnexpectedEOF | e => e end) c2 (rbits r')))).
  { exists c. split; [exact A0|]. left. left. split; [exact L|]. destruct Y as [->|(Y & ->)]; [destruct (rfin r) eqn:Q; auto | auto]. }
  destruct e; exact Z.
Qed.
Lemma fate_ts : fates ts_fault packet_next.
Proof.
  assert (A : fater ts_fault ts_is_aligned).
  { intros r Hr. unfold ts_is_aligned. destruct (negb (is_aligned r)); [exists []; apply after_nil|]. exact (fate_bind _ _ _ _ _ _ _ (fate_peek_n ts_fault 8 ltac:(lia)) (fun v => fate_ret _ _ ts_fault _ (v =? SyncByte)) r Hr). }
  assert (F : forall k : afield -> Z -> Z, fates ts_fault (fun s => match new_af (snd s) with
                | (Ok (a, l), r') => (Ok (k a l), (set_af (Some a) (fst s), r')) | (Err e, r') => (Err e, (set_af None (fst s), r'))
                | (Panic, r') => (Panic, (fst s, r')) | (OutOfFuel, r') => (OutOfFuel, (fst s, r')) end)).
  { intros k [p r] Hr. cbn [fst snd] in *. pose proof (fate_af ts_fault r Hr) as X. destruct (new_af r) as [ [ [a l]|e| |] r']; auto. }
  pose proof fate_realign. pose proof (fate_payload ts_fault). unfold packet_next. fate_tac.
Qed.

(** * pes *)
Lemma fate_expect : forall n m, (n <= 4)%nat -> In (n, m) [(2, 2); (4, 1); (4, 2); (4, 3); (1, 1); (2, 1)]%nat -> fater pes_fault (expect n (Z.of_nat m) ErrMarkerNotFound).
Proof.
  intros n m Hn Hi r Hr. unfold expect. pose proof (fate_read_n (fun _ _ _ => False) n ltac:(lia) r Hr) as K. destruct (read_n n r) as [ [v|e| |] r1] eqn:E; auto.
  - apply read_after in E. destruct E as (B & A). destruct (Z.eqb_spec v (Z.of_nat m)); [eauto|]. exists (enc n v). split; [exact A|]. right. exists [], (enc n v). split; [reflexivity|]. eapply bad_marker; eauto.
  - unfold read_n in E. destruct (Nat.leb_spec n (length (rbits r))); [discriminate|]. destruct (short_fate Z n r ltac:(lia) Hr ltac:(lia)) as (e' & Es & _). rewrite Es in E. injection E as -> ->.
    exists []. split; [apply after_nil|]. right. exists [], []. split; [reflexivity|]. apply cut_marker. lia.
Qed.
Lemma fate_header : fater pes_fault read_header.
Proof.
  pose proof (fate_expect 2 2 ltac:(lia) ltac:(cbn; tauto)) as E22. pose proof (fate_expect 1 1 ltac:(lia) ltac:(cbn; tauto)) as E11. pose proof (fate_expect 2 1 ltac:(lia) ltac:(cbn; tauto)) as E21.
  change (Z.of_nat 2) with 2 in *. change (Z.of_nat 1) with 1 in *.
  assert (T : forall m, In m [1; 2; 3]%nat -> fater pes_fault (read_time_stamp (Z.of_nat m))).
  { intros m Hm. unfold read_time_stamp. cbv zeta. apply fate_bind; [apply fate_expect; [lia | cbn in *; intuition congruence]|]. intro. fate_tac. }
  pose proof (T 1%nat ltac:(cbn; tauto)) as T1. pose proof (T 2%nat ltac:(cbn; tauto)) as T2. pose proof (T 3%nat ltac:(cbn; tauto)) as T3. change (Z.of_nat 2) with 2 in *. change (Z.of_nat 1) with 1 in *. change (Z.of_nat 3) with 3 in *.
  assert (X : fater pes_fault read_extension) by (unfold read_extension; fate_tac).
  assert (S : forall k, fater pes_fault (stuffing_loop k)).
  { induction k as [|k IH]; cbn [stuffing_loop]; [apply fate_ret|]. intros r Hr. unfold bind. pose proof (fate_read_n pes_fault 8 ltac:(lia) r Hr) as K. destruct (read_n 8 r) as [ [v|e| |] r1] eqn:E; auto.
    apply read_after in E. destruct E as (B & A). change (2 ^ Z.of_nat 8) with 256 in B. assert (R1 : rlater r1 = []) by (rewrite (after_later _ _ _ A); exact Hr). destruct (Z.eqb_spec v 255).
    - specialize (IH r1 R1). destruct (stuffing_loop k r1) as [ [u|e2| |] r2]; try (destruct IH as (c & A2); exists (enc 8 v ++ c); eapply after_app; eauto; fail).
      + destruct IH as (c & A2 & H). exists (enc 8 v ++ c). split; [eapply after_app; eauto|]. destruct H as [H | (c1 & c2 & Q & T')]; [left; eapply stopped_after; eauto|]. right. exists (enc 8 v ++ c1), c2. split; [rewrite Q, app_assoc; reflexivity | exact T'].
    - cbn. exists (enc 8 v). split; [exact A|]. right. exists [], (enc 8 v). split; [reflexivity|]. apply bad_stuffing. lia. }
  unfold read_header, read_stuffing. cbv zeta. fate_tac.
Qed.
Lemma fate_pes : fates pes_fault pes_next.
Proof.
  assert (H : fates pes_fault pes_header).
  { intros [p r] Hr. unfold pes_header. cbn [fst snd] in *. pose proof (fate_header r Hr) as X. destruct (read_header r) as [ [ [a l]|e| |] r']; auto. }
  assert (B : forall n, fates pes_fault (pes_bounded n)).
  { intros n [p r] Hr. unfold pes_bounded. cbn [fst snd] in *. destruct (read_full n r) as [ [bs e] r'] eqn:E. destruct (full_fate _ _ _ _ _ Hr E) as ((c & A0) & X). destruct e as [e|]; [|eauto].
    exists c. split; [exact A0|]. left. left. exact (X e eq_refl). }
  assert (U : fates pes_fault pes_unbounded).
  { intros [p r] Hr. unfold pes_unbounded, read_all. cbn [fst snd] in *. assert (A : after r (rbits r) (advance r)) by (unfold advance; rewrite Hr; apply after_intro; rewrite rbits_setb; [now rewrite app_nil_r | reflexivity]).
    assert (E : rbits (advance r) = []) by (unfold advance; now rewrite Hr).
    assert (S : forall e, e = rfin r -> exists c, after r c (advance r) /\ (stopped r e (rbits (advance r)) \/ exists c1 c2, c = c1 ++ c2 /\ pes_fault e c2 (rbits (advance r)))) by (intros e ->; exists (rbits r); split; [exact A|]; left; left; auto).
    destruct (rfin r); try exact (S _ eq_refl); eauto. }
  intros [p r]. unfold pes_next. intros Hr. unfold bind at 1. unfold onr at 1. cbn [fst snd] in *. pose proof (fate_peek_n pes_fault 24 ltac:(lia) r Hr) as K.
  destruct (peek_n 24 r) as [ [v|e| |] r1] eqn:E; auto. apply peek_after in E. destruct E as (-> & V & t & Q). destruct (Z.eqb_spec v StartCodePrefix) as [->|N].
  - match goal with |- context [?m (p, r)] => assert (X : fates pes_fault m) by fate_tac; exact (X (p, r) Hr) end.
  - cbn. exists []. split; [apply after_nil|]. right. exists [], []. split; [reflexivity|]. apply no_start. exists v, t. auto.
Qed.

(** * ps *)
Lemma fate_marker : forall n m, (n <= 4)%nat -> In (n, m) [(2, 1); (1, 1); (2, 3)]%nat -> fater ps_fault (marker n (Z.of_nat m)).
Proof.
  intros n m Hn Hi r Hr. unfold marker, bind. pose proof (fate_read_n ps_fault n ltac:(lia) r Hr) as K. destruct (read_n n r) as [ [v|e| |] r1] eqn:E; auto.
  apply read_after in E. destruct E as (B & A). destruct (Z.eqb_spec v (Z.of_nat m)); [cbn; eauto|]. cbn. exists (enc n v). split; [exact A|]. right. exists [], (enc n v). split; [reflexivity|]. eapply bad_ps_marker; eauto.
Qed.
Lemma fate_pack : fater ps_fault new_pack_header.
Proof.
  pose proof (fate_marker 2 1 ltac:(lia) ltac:(cbn; tauto)) as M21. pose proof (fate_marker 1 1 ltac:(lia) ltac:(cbn; tauto)) as M11. pose proof (fate_marker 2 3 ltac:(lia) ltac:(cbn; tauto)) as M23.
  change (Z.of_nat 1) with 1 in *. change (Z.of_nat 3) with 3 in *.
  assert (A : fater ps_fault (ps_assert PackStartCode)).
  { intros r Hr. unfold ps_assert, ps_check. pose proof (fate_peek_n ps_fault 32 ltac:(lia) r Hr) as K. unfold bind. destruct (peek_n 32 r) as [ [v|e| |] r1] eqn:E; auto. apply peek_after in E. destruct E as (-> & V & t & Q). cbn [ret].
    destruct (Z.eqb_spec v PackStartCode); [exact (fate_skip_n ps_fault 32 ltac:(lia) r Hr)|]. cbn. exists []. split; [apply after_nil|]. right. exists [], []. split; [reflexivity|]. apply no_pack. exists v, t. auto. }
  assert (L : forall f acc, fater ps_fault (streams_loop f acc)) by (induction f as [|f IH]; intro; cbn [streams_loop]; fate_tac).
  assert (S : fater ps_fault read_system_header).
  { unfold read_system_header. fate_tac. apply (fate_fun _ _ _ _ (fun r => S (length (rbits r))) (fun n => streams_loop n [])). intro. apply L. }
  assert (K : forall k, fater ps_fault (stuffing_skip k)) by (induction k as [|k IH]; cbn [stuffing_skip]; fate_tac).
  unfold new_pack_header, ps_check. cbv zeta. fate_tac.
Qed.
