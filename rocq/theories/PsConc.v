(** PsConc: the goroutines of package ps - the decoder (decoder.go) and one goroutine for each pack (pack.go) -
    as a transition system.  One transition per operation on a channel or group of calls of the bit reader.
    Channels are unbuffered: a send and a receive happen together. *)
From Verif Require Import Base BitReader Exec Local TsLocal TsRobust Mono PesModel SpecPes PesProofs PesLocal PsModel SpecPs PsProofs Conc.

(** Where the goroutine of a pack (pack.go:30-55) is. *)
Inductive ppc : Type :=
| PLook                 (* lines 37-49: about to use the bit reader *)
| PSendPkt (p : ppacket) (* line 52: about to send on pack.packs *)
| PClosePkts            (* line 33, deferred: about to close pack.packs *)
| PComplete             (* line 32, deferred: about to send on packComplete *)
| PCloseC               (* line 31, deferred: about to close packComplete *)
| PEnded.
(** pack.go:6-9, 17-22: a pack, its channels and its goroutine *)
Record pproc : Type := mkQ {
  q_pc : ppc; q_head : packheader; q_panic : bool; q_closed : bool;
  q_wait : nat;           (* receivers waiting on Packets() of this pack *)
  q_log : list ppacket    (* packets received from it so far *)
}.

(** Where the goroutine of Go (decoder.go:20-51) is. *)
Inductive gpc : Type :=
| DHead          (* line 26: about to call readPack, which uses the bit reader *)
| DSend (i : nat) (* line 32: about to send pack i *)
| DWait (i : nat) (* line 34: about to receive from the packComplete of pack i *)
| DPeek          (* line 36: about to use the bit reader *)
| DPeekEnd       (* line 44: about to use the bit reader *)
| DClose         (* line 23, deferred: about to close packs *)
| DDone          (* line 22, deferred: about to send on done *)
| DCloseDone     (* line 21, deferred: about to close done *)
| DEnd.
(** decoder.go:11-15: the decoder, its channels, its goroutine, and the packs so far *)
Record gstate : Type := mkG {
  g_pc : gpc; g_br : reader; g_err : option err; g_procs : list pproc;
  g_closed : bool;        (* Packs() is closed *)
  g_doneclosed : bool;
  g_wait : nat;           (* receivers waiting on Packs() *)
  g_waitdone : nat;       (* receivers waiting on done *)
  g_log : list nat;       (* packs received so far, by number *)
  g_dones : list bool;    (* values received from done *)
  g_crash : bool          (* a goroutine has panicked and ended: the program is dead *)
}.
(** decoder.go:11-19, 64-70 (NewDecoder, Go): the start *)
Definition g_init (r : reader) : gstate := mkG DHead r None [] false false 0 0 [] [] false.

(** Assignments to the state of decoder.go:20-51 *)
Definition g_at (s : gstate) (pc : gpc) (r : reader) (e : option err) (ps : list pproc) : gstate :=
  mkG pc r e ps (g_closed s) (g_doneclosed s) (g_wait s) (g_waitdone s) (g_log s) (g_dones s) (g_crash s).
(** ... and of pack.go:30-55 *)
Definition q_at (q : pproc) (pc : ppc) (pn : bool) : pproc := mkQ pc (q_head q) pn (q_closed q) (q_wait q) (q_log q).

(** Replacing the state of one pack's goroutine (pack.go:30) *)
Fixpoint set_nth {A} (l : list A) (i : nat) (x : A) : list A :=
  match l, i with
  | [], _ => []
  | _ :: t, O => x :: t
  | y :: t, S j => y :: set_nth t j x
  end.

(** pack.go:37-49: one round of the loop up to the packet: None when the loop ends. *)
Definition look (r : reader) : res (option ppacket) * reader :=
  match peek_n 24 r with
  | (Ok v, r1) =>
      if negb (v =? 1) then (Ok None, r1) else
      match peek_n 32 r1 with
      | (Ok v, r2) =>
          if (v =? PackStartCode) || (v =? ProgramEndCode) then (Ok None, r2) else
          match new_pes r2 with
          | (Ok _, (p, r3)) => (Ok (Some p), r3)
          | (Err _, (_, r3)) => (Ok None, r3)
          | (Panic, (_, r3)) => (Panic, r3)
          | (OutOfFuel, (_, r3)) => (OutOfFuel, r3)
          end
      | (_, r2) => (Ok None, r2)
      end
  | (_, r1) => (Ok None, r1)
  end.

(** decoder.go:20-51 and pack.go:30-55: steps of the decoder's goroutine and of the goroutines of the packs. *)
Inductive gown (s : gstate) : gstate -> Prop :=
| g_head : forall h r', g_pc s = DHead -> new_pack_header (g_br s) = (Ok h, r') ->      (* lines 26, pack.go:21-30 *)
    gown s (g_at s (DSend (length (g_procs s))) r' (g_err s) (g_procs s ++ [mkQ PLook h false false 0 []]))
| g_headerr : forall e r', g_pc s = DHead -> new_pack_header (g_br s) = (Err e, r') ->  (* lines 27-30 *)
    gown s (g_at s DClose r' (Some e) (g_procs s))
| g_send : forall i, g_pc s = DSend i -> (0 < g_wait s)%nat ->                          (* line 32 *)
    gown s (mkG (DWait i) (g_br s) (g_err s) (g_procs s) (g_closed s) (g_doneclosed s) (pred (g_wait s))
              (g_waitdone s) (g_log s ++ [i]) (g_dones s) (g_crash s))
| g_complete : forall i q, g_pc s = DWait i -> nth_error (g_procs s) i = Some q -> q_pc q = PComplete -> (* line 34, pack.go:32 *)
    gown s (g_at s DPeek (g_br s) (g_err s) (set_nth (g_procs s) i (q_at q PCloseC (q_panic q))))
| g_peekerr : forall e r', g_pc s = DPeek -> peek_n 32 (g_br s) = (Err e, r') ->        (* lines 36-38 *)
    gown s (g_at s DClose r' (Some e) (g_procs s))
| g_peekpack : forall v r', g_pc s = DPeek -> peek_n 32 (g_br s) = (Ok v, r') -> v = PackStartCode ->
    gown s (g_at s DHead r' (g_err s) (g_procs s))
| g_peekother : forall v r', g_pc s = DPeek -> peek_n 32 (g_br s) = (Ok v, r') -> v <> PackStartCode -> (* line 39 *)
    gown s (g_at s DPeekEnd r' (g_err s) (g_procs s))
| g_enderr : forall e r', g_pc s = DPeekEnd -> peek_n 32 (g_br s) = (Err e, r') ->      (* lines 44-46 *)
    gown s (g_at s DClose r' (Some e) (g_procs s))
| g_endok : forall v r', g_pc s = DPeekEnd -> peek_n 32 (g_br s) = (Ok v, r') -> v = ProgramEndCode ->
    gown s (g_at s DClose r' (g_err s) (g_procs s))
| g_endbad : forall v r', g_pc s = DPeekEnd -> peek_n 32 (g_br s) = (Ok v, r') -> v <> ProgramEndCode -> (* lines 47-49 *)
    gown s (g_at s DClose r' (Some ErrProgramEndCodeNotFound) (g_procs s))
| g_close : g_pc s = DClose ->                                                          (* line 23 *)
    gown s (mkG DDone (g_br s) (g_err s) (g_procs s) true (g_doneclosed s) (g_wait s)
              (g_waitdone s) (g_log s) (g_dones s) (g_crash s))
| g_done : g_pc s = DDone -> (0 < g_waitdone s)%nat ->                                  (* line 22 *)
    gown s (mkG DCloseDone (g_br s) (g_err s) (g_procs s) (g_closed s) (g_doneclosed s) (g_wait s)
              (pred (g_waitdone s)) (g_log s) (g_dones s ++ [match g_err s with None => true | Some _ => false end]) (g_crash s))
| g_closedone : g_pc s = DCloseDone ->                                                  (* line 21 *)
    gown s (mkG DEnd (g_br s) (g_err s) (g_procs s) (g_closed s) true (g_wait s)
              (g_waitdone s) (g_log s) (g_dones s) (g_crash s))
(* pack goroutine j *)
| p_packet : forall j q p r', nth_error (g_procs s) j = Some q -> q_pc q = PLook -> look (g_br s) = (Ok (Some p), r') ->
    gown s (g_at s (g_pc s) r' (g_err s) (set_nth (g_procs s) j (q_at q (PSendPkt p) (q_panic q))))
| p_leave : forall j q r', nth_error (g_procs s) j = Some q -> q_pc q = PLook -> look (g_br s) = (Ok None, r') ->
    gown s (g_at s (g_pc s) r' (g_err s) (set_nth (g_procs s) j (q_at q PClosePkts (q_panic q))))
| p_panics : forall j q r', nth_error (g_procs s) j = Some q -> q_pc q = PLook -> look (g_br s) = (Panic, r') ->
    gown s (g_at s (g_pc s) r' (g_err s) (set_nth (g_procs s) j (q_at q PClosePkts true)))
| p_send : forall j q p, nth_error (g_procs s) j = Some q -> q_pc q = PSendPkt p -> (0 < q_wait q)%nat ->  (* line 52 *)
    gown s (g_at s (g_pc s) (g_br s) (g_err s)
      (set_nth (g_procs s) j (mkQ PLook (q_head q) (q_panic q) (q_closed q) (pred (q_wait q)) (q_log q ++ [p]))))
| p_close : forall j q, nth_error (g_procs s) j = Some q -> q_pc q = PClosePkts ->      (* line 33 *)
    gown s (g_at s (g_pc s) (g_br s) (g_err s)
      (set_nth (g_procs s) j (mkQ PComplete (q_head q) (q_panic q) true (q_wait q) (q_log q))))
| p_end : forall j q, nth_error (g_procs s) j = Some q -> q_pc q = PCloseC ->           (* line 31 *)
    gown s (mkG (g_pc s) (g_br s) (g_err s) (set_nth (g_procs s) j (q_at q PEnded (q_panic q))) (g_closed s) (g_doneclosed s)
              (g_wait s) (g_waitdone s) (g_log s) (g_dones s) (g_crash s || q_panic q)).

(** Steps of the consumers of decoder.go:56-58 Packs and pack.go:11-13 Packets: a receiver begins to wait on Packs(), on the packets of a pack, on done.  (A receive
    that finds its channel closed changes nothing and is left out.) *)
Inductive genv (s : gstate) : gstate -> Prop :=
| e_packs : genv s (mkG (g_pc s) (g_br s) (g_err s) (g_procs s) (g_closed s) (g_doneclosed s) (S (g_wait s))
              (g_waitdone s) (g_log s) (g_dones s) (g_crash s))
| e_done : genv s (mkG (g_pc s) (g_br s) (g_err s) (g_procs s) (g_closed s) (g_doneclosed s) (g_wait s)
              (S (g_waitdone s)) (g_log s) (g_dones s) (g_crash s))
| e_packets : forall j q, nth_error (g_procs s) j = Some q ->
    genv s (g_at s (g_pc s) (g_br s) (g_err s)
      (set_nth (g_procs s) j (mkQ (q_pc q) (q_head q) (q_panic q) (q_closed q) (S (q_wait q)) (q_log q)))).

(** The steps of decoder.go and pack.go; a dead program makes no step. *)
Definition gstep (s s' : gstate) : Prop := g_crash s = false /\ (gown s s' \/ genv s s').
(** A run with [k] steps of the decoder's goroutines (decoder.go:20, pack.go:30). *)
Inductive grun : nat -> gstate -> gstate -> Prop :=
| gr_refl : forall s, grun 0 s s
| gr_own : forall k s t u, grun k s t -> g_crash t = false -> gown t u -> grun (S k) s u
| gr_env : forall k s t u, grun k s t -> g_crash t = false -> genv t u -> grun k s u.

(** ** Lists *)
Lemma set_nth_length : forall A (l : list A) i x, length (set_nth l i x) = length l.
Proof. induction l; intros [|i] x; cbn; auto. Qed.
Lemma nth_set_same : forall A (l : list A) i x y, nth_error l i = Some y -> nth_error (set_nth l i x) i = Some x.
Proof. induction l; intros [|i] x y H; cbn in *; try discriminate; eauto. Qed.
Lemma nth_set_other : forall A (l : list A) i j x, i <> j -> nth_error (set_nth l i x) j = nth_error l j.
Proof. induction l; intros [|i] [|j] x H; cbn; auto; try congruence. Qed.
Lemma nth_set : forall A (l : list A) i j x y, nth_error (set_nth l i x) j = Some y ->
  (i = j /\ y = x) \/ (i <> j /\ nth_error l j = Some y).
Proof.
  intros A l i j x y H. destruct (Nat.eq_dec i j) as [->|N].
  - left. split; auto. assert (exists z, nth_error l j = Some z) as [z Hz].
    { destruct (nth_error l j) eqn:E; eauto. apply nth_error_None in E.
      assert (nth_error (set_nth l j x) j <> None) by congruence. apply nth_error_Some in H0.
      rewrite set_nth_length in H0. lia. }
    rewrite (nth_set_same _ _ _ _ _ Hz) in H. congruence.
  - right. split; auto. now rewrite nth_set_other in H.
Qed.
Lemma nth_snoc : forall A (l : list A) x j y, nth_error (l ++ [x]) j = Some y ->
  (j = length l /\ y = x) \/ (j < length l /\ nth_error l j = Some y)%nat.
Proof.
  intros A l x j y H. destruct (Nat.lt_ge_cases j (length l)) as [L|L].
  - right. split; auto. now rewrite nth_error_app1 in H.
  - rewrite nth_error_app2 in H by auto. destruct (j - length l)%nat as [|k] eqn:E.
    + left. split; [lia|]. cbn in H. congruence.
    + cbn in H. destruct k; discriminate.
Qed.

(** ** Who is where: at most the last pack's goroutine is active, and only while the decoder waits *)
Definition active (q : pproc) : Prop :=
  match q_pc q with PLook | PSendPkt _ | PClosePkts | PComplete => True | _ => False end.
Definition inside (s : gstate) (i : nat) : Prop := g_pc s = DSend i \/ g_pc s = DWait i.

Record gInv (s : gstate) : Prop := {
  i_last : forall i, inside s i -> S i = length (g_procs s);
  i_cur : forall i q, inside s i -> nth_error (g_procs s) i = Some q -> active q;
  i_old : forall j q, ~ inside s j -> nth_error (g_procs s) j = Some q -> ~ active q;
  i_log : g_log s = seq 0 (match g_pc s with DSend i => i | _ => length (g_procs s) end);
  i_done : match g_pc s with
           | DCloseDone | DEnd => g_closed s = true /\ g_dones s = [match g_err s with None => true | Some _ => false end]
           | DDone => g_closed s = true /\ g_dones s = []
           | _ => g_closed s = false /\ g_dones s = []
           end;
  i_doneclosed : g_doneclosed s = match g_pc s with DEnd => true | _ => false end;
  i_err : match g_pc s with DHead | DSend _ | DWait _ | DPeek | DPeekEnd => g_err s = None | _ => True end
}.

Lemma gInv_init : forall r, gInv (g_init r).
Proof.
  intro r. constructor; cbn.
  - intros i [H|H]; discriminate.
  - intros i q [H|H]; discriminate.
  - intros j q _ H. destruct j; discriminate.
  - reflexivity.
  - auto.
  - reflexivity.
  - reflexivity.
Qed.

Lemma inside_dec : forall s i, inside s i \/ ~ inside s i.
Proof.
  intros s i. unfold inside. destruct (g_pc s); try (right; intros [H|H]; discriminate).
  - destruct (Nat.eq_dec i i0) as [->|N]; [auto | right; intros [H|H]; congruence].
  - destruct (Nat.eq_dec i i0) as [->|N]; [auto | right; intros [H|H]; congruence].
Qed.

(** Replacing a proc by one with the same activity. *)
Lemma gInv_proc : forall s j q q' r', gInv s -> nth_error (g_procs s) j = Some q -> (active q <-> active q') ->
  gInv (g_at s (g_pc s) r' (g_err s) (set_nth (g_procs s) j q')).
Proof.
  intros s j q q' r' [H1 H2 H3 H4 H5 H5' H6] Hq HA. constructor; cbn [g_at g_pc g_procs g_err g_closed g_doneclosed g_dones g_log]; auto.
  - intros i Hi. rewrite set_nth_length. apply H1. exact Hi.
  - intros i p Hi Hp. apply nth_set in Hp as [[-> ->]|[N Hp]].
    + apply HA. eapply H2; eauto.
    + eapply H2; eauto.
  - intros i p Hi Hp. apply nth_set in Hp as [[-> ->]|[N Hp]].
    + intro A. apply HA in A. revert A. eapply H3; eauto.
    + eapply H3; eauto.
  - rewrite set_nth_length. exact H4.
Qed.

Lemma gInv_env : forall s s', gInv s -> genv s s' -> gInv s'.
Proof.
  intros s s' H E. inversion E; subst; clear E.
  - destruct H. constructor; auto.
  - destruct H. constructor; auto.
  - eapply gInv_proc; eauto. unfold active. cbn. tauto.
Qed.

(** An active proc is the one the decoder waits for. *)
Lemma active_inside : forall s j q, gInv s -> nth_error (g_procs s) j = Some q -> active q -> inside s j.
Proof.
  intros s j q H Hq HA. destruct (inside_dec s j) as [I|N]; auto. exfalso. revert HA. eapply i_old; eauto.
Qed.

Ltac noin := let H := fresh in intros ? H; unfold inside in H; cbn in H; destruct H as [H|H]; discriminate.

(** Steps of the decoder between two places outside [DSend]/[DWait]. *)
Lemma gInv_goto : forall s pc r' e, gInv s ->
  match g_pc s with DHead | DPeek | DPeekEnd => True | _ => False end ->
  (pc = DHead /\ e = None) \/ (pc = DPeekEnd /\ e = None) \/ pc = DClose ->
  gInv (g_at s pc r' e (g_procs s)).
Proof.
  intros s pc r' e [H1 H2 H3 H4 H5 H5' H6] Hpc Hto.
  assert (N : forall i, ~ inside s i) by (intros i [K|K]; rewrite K in Hpc; exact Hpc).
  assert (N' : forall i, ~ inside (g_at s pc r' e (g_procs s)) i).
  { intros i [K|K]; cbn in K; destruct Hto as [[-> _]|[[-> _]| ->]]; discriminate. }
  constructor.
  - intros i K. destruct (N' i K).
  - intros i q K. destruct (N' i K).
  - intros j q _ Hq. cbn in Hq. eapply H3; eauto.
  - cbn. rewrite H4. destruct (g_pc s); destruct Hto as [[-> _]|[[-> _]| ->]]; tauto || reflexivity.
  - cbn. destruct (g_pc s); destruct Hto as [[-> _]|[[-> _]| ->]]; tauto.
  - cbn. rewrite H5'. destruct (g_pc s); destruct Hto as [[-> _]|[[-> _]| ->]]; tauto.
  - cbn. destruct Hto as [[-> ->]|[[-> ->]| ->]]; auto.
Qed.

Lemma gInv_own : forall s s', gInv s -> gown s s' -> gInv s'.
Proof.
  intros s s' H E. pose proof H as [H1 H2 H3 H4 H5 H5' H6].
  inversion E as [h r' K Kn|e r' K Kn|i K Kw|i q K Kq Kp|e r' K Kn|v r' K Kn Kv|v r' K Kn Kv|e r' K Kn|v r' K Kn Kv|v r' K Kn Kv
    |K|K Kw|K|j q p r' Kq Kp Kl|j q r' Kq Kp Kl|j q r' Kq Kp Kl|j q p Kq Kp Kw|j q Kq Kp|j q Kq Kp]; subst s'; clear E.
  - (* head *) rewrite K in *.
    assert (N : forall i, ~ inside s i) by (intros i [Q|Q]; congruence).
    constructor; cbn [g_at g_pc g_procs g_err g_closed g_doneclosed g_dones g_log].
    + intros i [Q|Q]; cbn in Q; inversion Q; subst. rewrite app_length. cbn. lia.
    + intros i q [Q|Q] Hq; cbn in Q; inversion Q; subst.
      apply nth_snoc in Hq as [[_ ->]|[L _]]; [exact I | lia].
    + intros j q NI Hq. apply nth_snoc in Hq as [[-> _]|[L Hq]].
      * exfalso. apply NI. left. reflexivity.
      * eapply H3; eauto.
    + exact H4.
    + exact H5.
    + exact H5'.
    + exact H6.
  - apply gInv_goto; auto. now rewrite K.
  - (* send *) rewrite K in *.
    constructor; cbn [g_at g_pc g_procs g_err g_closed g_doneclosed g_dones g_log]; auto.
    + intros k [Q|Q]; cbn in Q; inversion Q; subst. apply H1. left. exact K.
    + intros k q [Q|Q] Hq; cbn in Q; inversion Q; subst. eapply H2; [left; exact K | exact Hq].
    + intros j q NI Hq. eapply H3; [|exact Hq]. intros [Q|Q]; rewrite K in Q; inversion Q; subst.
      apply NI. right. reflexivity.
    + rewrite H4. rewrite <- (H1 i (or_introl K)). rewrite seq_S. reflexivity.
  - (* complete *) rewrite K in *.
    constructor; cbn [g_at g_pc g_procs g_err g_closed g_doneclosed g_dones g_log]; auto.
    + noin.
    + intros k p [Q|Q]; discriminate.
    + intros j p _ Hp. apply nth_set in Hp as [[-> ->]|[N Hp]].
      * intro A. exact A.
      * eapply H3; [|exact Hp]. intros [Q|Q]; rewrite K in Q; congruence.
    + rewrite set_nth_length. exact H4.
  - apply gInv_goto; auto. now rewrite K.
  - apply gInv_goto; auto. { now rewrite K. } left. rewrite K in H6. auto.
  - apply gInv_goto; auto. { now rewrite K. } right. left. rewrite K in H6. auto.
  - apply gInv_goto; auto. now rewrite K.
  - apply gInv_goto; auto. now rewrite K.
  - apply gInv_goto; auto. now rewrite K.
  - (* close *) rewrite K in *.
    constructor; cbn [g_at g_pc g_procs g_err g_closed g_doneclosed g_dones g_log]; auto.
    + noin.
    + intros k p [Q|Q]; discriminate.
    + intros j p _ Hp. eapply H3; [|exact Hp]. intros [Q|Q]; congruence.
    + tauto.
  - rewrite K in *.
    constructor; cbn [g_at g_pc g_procs g_err g_closed g_doneclosed g_dones g_log]; auto.
    + noin.
    + intros k p [Q|Q]; discriminate.
    + intros j p _ Hp. eapply H3; [|exact Hp]. intros [Q|Q]; congruence.
    + destruct H5 as [? ->]. auto.
  - rewrite K in *.
    constructor; cbn [g_at g_pc g_procs g_err g_closed g_doneclosed g_dones g_log]; auto.
    + noin.
    + intros k p [Q|Q]; discriminate.
    + intros j p _ Hp. eapply H3; [|exact Hp]. intros [Q|Q]; congruence.
  - eapply gInv_proc; eauto. unfold active. cbn. rewrite Kp. tauto.
  - eapply gInv_proc; eauto. unfold active. cbn. rewrite Kp. tauto.
  - eapply gInv_proc; eauto. unfold active. cbn. rewrite Kp. tauto.
  - eapply gInv_proc; eauto. unfold active. cbn. rewrite Kp. tauto.
  - eapply gInv_proc; eauto. unfold active. cbn. rewrite Kp. tauto.
  - assert (P : gInv (g_at s (g_pc s) (g_br s) (g_err s) (set_nth (g_procs s) j (q_at q PEnded (q_panic q))))).
    { eapply gInv_proc; eauto. unfold active. cbn. rewrite Kp. tauto. }
    destruct P. constructor; auto.
Qed.

Lemma gInv_reach : forall r s, star gstep (g_init r) s -> gInv s.
Proof.
  intros r s H. remember (g_init r) as s0. induction H; subst; [apply gInv_init|].
  destruct H0 as [_ [O|V]]; [eapply gInv_own | eapply gInv_env]; eauto.
Qed.

(** ** Use of the bit reader *)
(** [None]: the decoder's goroutine; [Some j]: that of pack j. *)
Definition uses (s : gstate) (g : option nat) : Prop :=
  match g with
  | None => match g_pc s with DHead | DPeek | DPeekEnd => True | _ => False end
  | Some j => exists q, nth_error (g_procs s) j = Some q /\ q_pc q = PLook
  end.
Lemma one_user : forall s a b, gInv s -> uses s a -> uses s b -> a = b.
Proof.
  intros s a b H Ha Hb.
  assert (G : forall j, uses s (Some j) -> inside s j).
  { intros j (q & Hq & HP). eapply active_inside; eauto. unfold active. now rewrite HP. }
  destruct a as [i|], b as [j|]; auto.
  - apply G in Ha, Hb. pose proof (i_last s H i Ha). pose proof (i_last s H j Hb). f_equal. lia.
  - apply G in Ha. exfalso. cbn in Hb. destruct Ha as [K|K]; rewrite K in Hb; exact Hb.
  - apply G in Hb. exfalso. cbn in Ha. destruct Hb as [K|K]; rewrite K in Ha; exact Ha.
Qed.

(** ** Progress and termination *)
Lemma mono_marker : forall n w, mono (marker n w).
Proof. intros. unfold marker. mono_tac. Qed.
Global Hint Resolve mono_marker : mono.
Lemma mono_streams : forall fuel acc, mono (streams_loop fuel acc).
Proof. induction fuel; intro acc; cbn [streams_loop]; mono_tac. Qed.
Global Hint Resolve mono_streams : mono.
Lemma mono_system : mono read_system_header.
Proof.
  unfold read_system_header. mono_tac.
  intros r x r' Hr H. eapply mono_streams; eauto.
Qed.
Global Hint Resolve mono_system : mono.
Lemma mono_stuffing_skip : forall k, mono (stuffing_skip k).
Proof. induction k; cbn [stuffing_skip]; mono_tac. Qed.
Lemma mono_ps_check : forall c, mono (ps_check c).
Proof. intro. unfold ps_check. mono_tac. Qed.
Global Hint Resolve mono_stuffing_skip mono_ps_check : mono.
Lemma mono_ps_assert : forall c, mono (ps_assert c).
Proof. intro. unfold ps_assert. mono_tac. Qed.
Global Hint Resolve mono_ps_assert : mono.
Lemma mono_pack_header : mono new_pack_header.
Proof. unfold new_pack_header. mono_tac. Qed.

Lemma skip_n_strict : forall n r a r', skip_n n r = (Ok a, r') -> (left r = left r' + n)%nat.
Proof.
  intros n r a r' H. unfold skip_n in H. apply bind_ok_inv in H as (v & r1 & E & H). inversion H; subst.
  eapply read_n_strict; eauto.
Qed.
Lemma ps_assert_strict : forall c r r', ps_assert c r = (Ok tt, r') -> (left r = left r' + 32)%nat.
Proof.
  intros c r r' H. unfold ps_assert in H. apply bind_ok_inv in H as (v & r1 & E & H).
  unfold ps_check in E. apply bind_ok_inv in E as (w & r2 & E & E'). inversion E'; subst; clear E'.
  apply peek_n_ok_inv in E as (_ & _ & ->). destruct (w =? c); [|discriminate]. eapply skip_n_strict; eauto.
Qed.
Lemma pack_header_strict : forall r h r', rlater r = [] -> new_pack_header r = (Ok h, r') ->
  rlater r' = [] /\ (left r' + 32 <= left r)%nat.
Proof.
  intros r h r' Hr H. unfold new_pack_header in H. apply bind_ok_inv in H as ([] & r1 & E & H).
  destruct (mono_ps_assert _ _ _ _ Hr E) as (A1 & _ & _). apply ps_assert_strict in E.
  match type of H with ?m r1 = _ => assert (Q : mono m) by mono_tac end.
  destruct (Q _ _ _ A1 H) as (B1 & _ & B3). split; auto. lia.
Qed.

(** NewPackHeader always returns a header or an error. *)
Lemma streams_total : forall fuel acc r, (left r < fuel)%nat ->
  match fst (streams_loop fuel acc r) with Ok _ | Err _ => True | _ => False end.
Proof.
  induction fuel; intros acc r H; [lia|]. cbn [streams_loop].
  unfold bind at 1. pose proof (safe_peek_n 1 r) as S1. destruct (peek_n 1 r) as [[b|e| |] r1] eqn:E1; auto.
  apply peek_n_ok_inv in E1 as (_ & _ & ->). destruct (negb (b =? 1)); [exact I|].
  unfold bind at 1. pose proof (safe_read_n 8 r) as S2. destruct (read_n 8 r) as [[sid|e| |] r2] eqn:E2; auto.
  unfold bind at 1. assert (S3 : safe (marker 2 3)) by (unfold marker; safe_tac). specialize (S3 r2).
  destruct (marker 2 3 r2) as [[[]|e| |] r3] eqn:E3; auto.
  unfold bind at 1. pose proof (safe_read1 r3) as S4. destruct (read1 r3) as [[sc|e| |] r4] eqn:E4; auto.
  unfold bind at 1. pose proof (safe_read_n 13 r4) as S5. destruct (read_n 13 r4) as [[sz|e| |] r5] eqn:E5; auto.
  apply IHfuel.
  apply read_n_strict in E2, E5. unfold marker in E3. apply bind_ok_inv in E3 as (w & r3' & E3 & E3').
  apply read_n_strict in E3. destruct (w =? 3); inversion E3'; subst r3'.
  unfold read1 in E4. apply bind_ok_inv in E4 as (w' & r4' & E4 & E4'). apply read_n_strict in E4.
  inversion E4'; subst r4'. lia.
Qed.
Lemma safe_marker : forall n w, safe (marker n w).
Proof. intros. unfold marker. safe_tac. Qed.
Lemma safe_ps_check : forall c, safe (ps_check c).
Proof. intros. unfold ps_check. safe_tac. Qed.
Lemma safe_ps_assert : forall c, safe (ps_assert c).
Proof. intros. unfold ps_assert. apply safe_bind; [apply safe_ps_check|]. intro. safe_tac. Qed.
Lemma safe_system : safe read_system_header.
Proof.
  unfold read_system_header.
  repeat first [apply safe_marker | apply safe_read_n | apply safe_read1 | apply safe_skip_n | apply safe_ret
               | apply safe_bind; [|intro]].
  intro r. apply streams_total. unfold left. lia.
Qed.
Lemma safe_stuffing_skip : forall k, safe (stuffing_skip k).
Proof. induction k; cbn [stuffing_skip]; safe_tac. apply IHk. Qed.
Lemma pack_header_total : safe new_pack_header.
Proof.
  unfold new_pack_header. cbv zeta.
  repeat first [apply safe_marker | apply safe_ps_assert | apply safe_ps_check | apply safe_stuffing_skip | apply safe_system
               | apply safe_read_n | apply safe_read1 | apply safe_skip_n | apply safe_ret | apply safe_if
               | apply safe_bind; [|intro]].
Qed.

Lemma monop_pes_next : monop pes_next.
Proof. unfold pes_next. monop_tac. Qed.
Lemma look_mono : forall r x r', rlater r = [] -> look r = (x, r') ->
  rlater r' = [] /\ (left r' <= left r)%nat /\ (forall p, x = Ok (Some p) -> left r' + 24 <= left r)%nat.
Proof.
  intros r x r' Hr H. unfold look in H.
  pose proof (safe_peek_n 24 r) as S1. pose proof (mono_peek_n 24 r) as M1.
  destruct (peek_n 24 r) as [[v|e| |] r1] eqn:E1; cbn in S1; try tauto.
  2:{ inversion H; subst. destruct (M1 _ _ Hr eq_refl) as (? & ? & ?). repeat split; auto. discriminate. }
  destruct (M1 _ _ Hr eq_refl) as (A1 & _ & A3). clear M1.
  destruct (negb (v =? 1)); [inversion H; subst; repeat split; auto; discriminate|].
  pose proof (safe_peek_n 32 r1) as S2. pose proof (mono_peek_n 32 r1) as M2.
  destruct (peek_n 32 r1) as [[v2|e| |] r2] eqn:E2; cbn in S2; try tauto.
  2:{ inversion H; subst. destruct (M2 _ _ A1 eq_refl) as (? & ? & ?). repeat split; auto; try lia. discriminate. }
  destruct (M2 _ _ A1 eq_refl) as (B1 & _ & B3). clear M2.
  destruct (_ || _); [inversion H; subst; repeat split; auto; try lia; discriminate|].
  unfold new_pes in H. pose proof (monop_pes_next (zero_pp, r2)) as MP.
  destruct (pes_next (zero_pp, r2)) as [[[]|e| |] [p r3]] eqn:EP; inversion H; subst; clear H;
    (specialize (MP _ _ B1 eq_refl); cbn in MP; destruct MP as (C1 & C2 & C3)).
  - destruct (pes_next_strict _ _ _ _ B1 EP) as (D & _). repeat split; auto; [lia | intros; lia].
  - repeat split; auto; [lia | discriminate].
  - repeat split; auto; [lia | discriminate].
  - repeat split; auto; [lia | discriminate].
Qed.
Lemma look_fuel : forall r, fst (look r) <> OutOfFuel.
Proof.
  intro r. unfold look. destruct (peek_n 24 r) as [[v|e| |] r1]; cbn; try discriminate.
  destruct (negb (v =? 1)); cbn; try discriminate.
  destruct (peek_n 32 r1) as [[v2|e| |] r2]; cbn; try discriminate.
  destruct (_ || _); cbn; try discriminate.
  unfold new_pes. pose proof (pes_next_fuel (zero_pp, r2)). destruct (pes_next (zero_pp, r2)) as [[[]|e| |] [p r3]]; cbn in *; auto; discriminate.
Qed.

Definition rankD (pc : gpc) : nat :=
  match pc with
  | DHead => 5 | DSend _ => 20 | DWait _ => 19 | DPeek => 6 | DPeekEnd => 5 | DClose => 4 | DDone => 3 | DCloseDone => 2 | DEnd => 1
  end.
Definition rankP (q : pproc) : nat :=
  match q_pc q with PLook => 5 | PSendPkt _ => 6 | PClosePkts => 4 | PComplete => 3 | PCloseC => 2 | PEnded => 1 end.
Definition total (l : list pproc) : nat := fold_right (fun q n => rankP q + n)%nat 0%nat l.
Definition weight (s : gstate) : nat := (left (g_br s) + rankD (g_pc s) + total (g_procs s))%nat.
Lemma total_app : forall a b, total (a ++ b) = (total a + total b)%nat.
Proof. unfold total. induction a; intros; cbn [app fold_right]; auto. rewrite IHa. lia. Qed.
Lemma total_set : forall l j q q', nth_error l j = Some q -> (total (set_nth l j q') + rankP q = total l + rankP q')%nat.
Proof.
  unfold total. induction l; intros [|j] q q' H; cbn [set_nth nth_error fold_right] in *; try discriminate.
  - inversion H; subst. lia.
  - specialize (IHl j q q' H). lia.
Qed.

Lemma weight_own : forall s s', rlater (g_br s) = [] -> gown s s' ->
  rlater (g_br s') = [] /\ (weight s' < weight s)%nat.
Proof.
  intros s s' Hr E. unfold weight.
  inversion E as [h r' K Kn|e r' K Kn|i K Kw|i q K Kq Kp|e r' K Kn|v r' K Kn Kv|v r' K Kn Kv|e r' K Kn|v r' K Kn Kv|v r' K Kn Kv
    |K|K Kw|K|j q p r' Kq Kp Kl|j q r' Kq Kp Kl|j q r' Kq Kp Kl|j q p Kq Kp Kw|j q Kq Kp|j q Kq Kp]; subst s'; clear E;
  cbn [g_at g_pc g_br g_procs]; rewrite ?K; cbn [rankD].
  - destruct (pack_header_strict _ _ _ Hr Kn). split; auto. rewrite total_app. cbn. lia.
  - destruct (mono_pack_header _ _ _ Hr Kn) as (? & _ & ?). split; auto. lia.
  - split; auto. lia.
  - split; auto. pose proof (total_set (g_procs s) i q (q_at q PCloseC (q_panic q)) Kq) as T.
    unfold rankP in T at 1 2. cbn [q_at q_pc] in T. rewrite Kp in T. lia.
  - destruct (mono_peek_n _ _ _ _ Hr Kn) as (? & _ & ?). split; auto. lia.
  - destruct (mono_peek_n _ _ _ _ Hr Kn) as (? & _ & ?). split; auto. lia.
  - destruct (mono_peek_n _ _ _ _ Hr Kn) as (? & _ & ?). split; auto. lia.
  - destruct (mono_peek_n _ _ _ _ Hr Kn) as (? & _ & ?). split; auto. lia.
  - destruct (mono_peek_n _ _ _ _ Hr Kn) as (? & _ & ?). split; auto. lia.
  - destruct (mono_peek_n _ _ _ _ Hr Kn) as (? & _ & ?). split; auto. lia.
  - split; auto. lia.
  - split; auto. lia.
  - split; auto. lia.
  - destruct (look_mono _ _ _ Hr Kl) as (A & B & C). specialize (C p eq_refl). split; auto.
    pose proof (total_set (g_procs s) j q (q_at q (PSendPkt p) (q_panic q)) Kq) as T.
    unfold rankP in T at 1 2. cbn [q_at q_pc] in T. rewrite Kp in T. lia.
  - destruct (look_mono _ _ _ Hr Kl) as (A & B & C). split; auto.
    pose proof (total_set (g_procs s) j q (q_at q PClosePkts (q_panic q)) Kq) as T.
    unfold rankP in T at 1 2. cbn [q_at q_pc] in T. rewrite Kp in T. lia.
  - destruct (look_mono _ _ _ Hr Kl) as (A & B & C). split; auto.
    pose proof (total_set (g_procs s) j q (q_at q PClosePkts true) Kq) as T.
    unfold rankP in T at 1 2. cbn [q_at q_pc] in T. rewrite Kp in T. lia.
  - split; auto.
    match goal with |- context [set_nth (g_procs s) j ?x] => pose proof (total_set (g_procs s) j q x Kq) as T end.
    unfold rankP in T at 1 2. cbn [q_at q_pc] in T. rewrite Kp in T. lia.
  - split; auto.
    match goal with |- context [set_nth (g_procs s) j ?x] => pose proof (total_set (g_procs s) j q x Kq) as T end.
    unfold rankP in T at 1 2. cbn [q_at q_pc] in T. rewrite Kp in T. lia.
  - split; auto.
    match goal with |- context [set_nth (g_procs s) j ?x] => pose proof (total_set (g_procs s) j q x Kq) as T end.
    unfold rankP in T at 1 2. cbn [q_at q_pc] in T. rewrite Kp in T. lia.
Qed.
Lemma weight_env : forall s s', genv s s' -> rlater (g_br s') = rlater (g_br s) /\ weight s' = weight s.
Proof.
  intros s s' E. unfold weight. inversion E as [| |j q Kq]; subst; cbn [g_at g_br g_pc g_procs]; auto. split; auto.
  pose proof (total_set (g_procs s) j q (mkQ (q_pc q) (q_head q) (q_panic q) (q_closed q) (S (q_wait q)) (q_log q)) Kq) as T.
  unfold rankP in T at 1 2. cbn [q_pc] in T. lia.
Qed.
Lemma run_bound : forall k s s', grun k s s' -> rlater (g_br s) = [] ->
  rlater (g_br s') = [] /\ (k + weight s' <= weight s)%nat.
Proof.
  intros k s s' H Hr. induction H.
  - split; auto.
  - destruct (IHgrun Hr) as [A B]. destruct (weight_own _ _ A H1). split; auto. lia.
  - destruct (IHgrun Hr) as [A B]. destruct (weight_env _ _ H1) as [C D]. rewrite C, D. auto.
Qed.

(** Somebody waits on every channel. *)
Definition all_waiting (s : gstate) : Prop :=
  (0 < g_wait s)%nat /\ (0 < g_waitdone s)%nat /\ Forall (fun q => 0 < q_wait q)%nat (g_procs s).
Definition finished (s : gstate) : Prop := g_pc s = DEnd /\ Forall (fun q => q_pc q = PEnded) (g_procs s).

Lemma proc_moves : forall s j q, nth_error (g_procs s) j = Some q -> (0 < q_wait q)%nat ->
  q_pc q <> PComplete -> q_pc q <> PEnded -> exists s', gown s s'.
Proof.
  intros s j q Hq Hw N1 N2. destruct (q_pc q) eqn:EP; try congruence.
  - pose proof (look_fuel (g_br s)) as F.
    destruct (look (g_br s)) as [[[p|]|e| |] r'] eqn:EL; cbn in F; try congruence.
    + eexists. eapply p_packet; eauto.
    + eexists. eapply p_leave; eauto.
    + exfalso. unfold look in EL. destruct (peek_n 24 (g_br s)) as [[]]; try (destruct (negb _)); try discriminate.
      destruct (peek_n 32 r) as [[]]; try discriminate. destruct (_ || _); [discriminate|].
      destruct (new_pes r0) as [[] []]; discriminate.
    + eexists. eapply p_panics; eauto.
  - eexists. eapply p_send; eauto.
  - eexists. eapply p_close; eauto.
  - eexists. eapply p_end; eauto.
Qed.

Lemma no_deadlock : forall s, gInv s -> all_waiting s -> finished s \/ exists s', gown s s'.
Proof.
  intros s H (W1 & W2 & W3).
  assert (WQ : forall j q, nth_error (g_procs s) j = Some q -> (0 < q_wait q)%nat).
  { intros j q Hq. rewrite Forall_forall in W3. apply W3. eapply nth_error_In; eauto. }
  destruct (g_pc s) eqn:K.
  - right. pose proof (pack_header_total (g_br s)) as T. destruct (new_pack_header (g_br s)) as [[h|e| |] r'] eqn:E; try (cbn in T; tauto).
    + eexists. eapply g_head; eauto.
    + eexists. eapply g_headerr; eauto.
  - right. eexists. eapply g_send; eauto.
  - right. assert (I : inside s i) by (right; exact K). pose proof (i_last s H i I) as L.
    destruct (nth_error (g_procs s) i) as [q|] eqn:Q.
    2:{ apply nth_error_None in Q. lia. }
    pose proof (i_cur s H i q I Q) as A. unfold active in A.
    destruct (q_pc q) eqn:EP; try tauto.
    + eapply proc_moves; eauto; congruence.
    + eapply proc_moves; eauto; congruence.
    + eapply proc_moves; eauto; congruence.
    + eexists. eapply g_complete; eauto.
  - right. pose proof (safe_peek_n 32 (g_br s)) as T. destruct (peek_n 32 (g_br s)) as [[v|e| |] r'] eqn:E; try (cbn in T; tauto).
    + destruct (Z.eq_dec v PackStartCode); eexists; [eapply g_peekpack | eapply g_peekother]; eauto.
    + eexists. eapply g_peekerr; eauto.
  - right. pose proof (safe_peek_n 32 (g_br s)) as T. destruct (peek_n 32 (g_br s)) as [[v|e| |] r'] eqn:E; try (cbn in T; tauto).
    + destruct (Z.eq_dec v ProgramEndCode); eexists; [eapply g_endok | eapply g_endbad]; eauto.
    + eexists. eapply g_enderr; eauto.
  - right. eexists. eapply g_close; eauto.
  - right. eexists. eapply g_done; eauto.
  - right. eexists. eapply g_closedone; eauto.
  - assert (D : Forall (fun q => q_pc q = PEnded) (g_procs s) \/ exists j q, nth_error (g_procs s) j = Some q /\ q_pc q <> PEnded).
    { clear. induction (g_procs s) as [|q l IH]; [left; constructor|].
      assert (DD : q_pc q = PEnded \/ q_pc q <> PEnded) by (destruct (q_pc q); auto; right; discriminate).
      destruct DD as [E|N].
      - destruct IH as [IH|(j & p & A & B)]; [left; now constructor | right; exists (S j), p; auto].
      - right. exists 0%nat, q. auto. }
    destruct D as [D|(j & q & A & B)]; [left; split; auto|]. right.
    eapply proc_moves; eauto. intro C. assert (X : active q) by (unfold active; now rewrite C).
    revert X. eapply i_old; eauto. intros [Q|Q]; congruence.
Qed.

(** ** Every run that does not panic can be completed *)
Lemma star_trans : forall S (R : S -> S -> Prop) a b c, star R a b -> star R b c -> star R a c.
Proof. intros S R a b c H1 H2. induction H2; auto. eapply star_step; [apply IHstar; exact H1 | exact H]. Qed.
Lemma star_one : forall S (R : S -> S -> Prop) a b, R a b -> star R a b.
Proof. intros. econstructor; [constructor | auto]. Qed.

Lemma feed_procs : forall k s, (k <= length (g_procs s))%nat -> g_crash s = false ->
  exists s', star gstep s s' /\ g_wait s' = g_wait s /\ g_waitdone s' = g_waitdone s /\ length (g_procs s') = length (g_procs s) /\
    g_crash s' = false /\ weight s' = weight s /\ rlater (g_br s') = rlater (g_br s) /\
    forall j q, (j < k)%nat -> nth_error (g_procs s') j = Some q -> (0 < q_wait q)%nat.
Proof.
  induction k; intros s Hk Hc.
  - exists s. repeat split; auto. constructor. lia.
  - destruct (IHk s ltac:(lia) Hc) as (s1 & S1 & A1 & A2 & A3 & A4 & A5 & A6 & A7).
    destruct (nth_error (g_procs s1) k) as [q|] eqn:E.
    2:{ apply nth_error_None in E. lia. }
    pose proof (e_packets s1 k q E) as V. destruct (weight_env _ _ V) as [V1 V2].
    eexists. split. { eapply star_step; [exact S1|]. split; [exact A4 | right; exact V]. }
    rewrite V2. rewrite V1. cbn [g_at g_wait g_waitdone g_procs g_crash]. rewrite set_nth_length. repeat split; auto.
    intros j p Hj Hp. apply nth_set in Hp as [[-> ->]|[N Hp]]; [cbn; lia|]. apply (A7 j); auto. lia.
Qed.
Lemma feed : forall s, g_crash s = false ->
  exists s', star gstep s s' /\ all_waiting s' /\ g_crash s' = false /\ weight s' = weight s /\ rlater (g_br s') = rlater (g_br s).
Proof.
  intros s Hc. pose proof (e_packs s) as V1. destruct (weight_env _ _ V1) as [B1 B2].
  match type of V1 with genv _ ?x => set (s1 := x) in * end.
  pose proof (e_done s1) as V2. destruct (weight_env _ _ V2) as [C1 C2].
  match type of V2 with genv _ ?x => set (s2 := x) in * end.
  destruct (feed_procs (length (g_procs s2)) s2 (le_n _) Hc) as (s3 & S3 & A1 & A2 & A3 & A4 & A5 & A6 & A7).
  exists s3. split.
  { eapply star_trans; [|exact S3]. eapply star_step; [eapply star_step; [constructor|]|].
    - split; [exact Hc | right; exact V1].
    - split; [exact Hc | right; exact V2]. }
  split.
  { split; [rewrite A1; cbn; lia|]. split; [rewrite A2; cbn; lia|].
    apply Forall_forall. intros q Hq. apply In_nth_error in Hq as [j Hj]. apply (A7 j); auto.
    rewrite <- A3. apply nth_error_Some. congruence. }
  split; [auto|]. split; congruence.
Qed.
Lemma can_end : forall r s, rlater r = [] -> star gstep (g_init r) s ->
  (forall t, star gstep (g_init r) t -> g_crash t = false) ->
  exists s', star gstep s s' /\ finished s'.
Proof.
  intros r s Hr H NC.
  assert (RL : forall t, star gstep (g_init r) t -> rlater (g_br t) = []).
  { intros t Ht. remember (g_init r) as s0. induction Ht; subst; [exact Hr|].
    specialize (IHHt eq_refl H NC). destruct H0 as [_ [O|V]].
    - now apply (weight_own _ _ IHHt O).
    - destruct (weight_env _ _ V) as [-> _]. exact IHHt. }
  assert (K : forall n t, (weight t <= n)%nat -> star gstep (g_init r) t -> exists s', star gstep t s' /\ finished s').
  { induction n as [|n IH]; intros t Hn Ht.
    - exfalso. unfold weight in Hn. assert (0 < rankD (g_pc t))%nat by (destruct (g_pc t); cbn; lia). lia.
    - destruct (feed t (NC t Ht)) as (t1 & S1 & W1 & C1 & E1 & _).
      assert (Ht1 := star_trans _ _ _ _ _ Ht S1).
      destruct (no_deadlock t1 (gInv_reach r t1 Ht1) W1) as [F|[t2 O]]; [eauto|].
      destruct (weight_own _ _ (RL t1 Ht1) O) as [_ L].
      assert (S2 : star gstep t t2) by (eapply star_step; [exact S1 | split; auto]).
      destruct (IH t2 ltac:(lia) (star_trans _ _ _ _ _ Ht S2)) as (s' & S3 & F). exists s'. split; auto.
      eapply star_trans; eauto. }
  eapply K; eauto.
Qed.

(** ** How it ends *)
Definition ended (s : gstate) : Prop := match g_pc s with DClose | DDone | DCloseDone | DEnd => True | _ => False end.
Definition how_ended (s : gstate) : Prop :=
  (g_err s = None /\ exists t, rbits (g_br s) = enc 32 441 ++ t) \/
  (g_err s = Some ErrProgramEndCodeNotFound /\ exists v t, 0 <= v < 2 ^ 32 /\ v <> 441 /\ rbits (g_br s) = enc 32 v ++ t) \/
  (exists e b, g_err s = Some e /\ (peek_n 32 b = (Err e, g_br s) \/ new_pack_header b = (Err e, g_br s))).
Lemma peeked : forall b v b', peek_n 32 b = (Ok v, b') -> 0 <= v < 2 ^ 32 /\ exists t, rbits b' = enc 32 v ++ t.
Proof.
  intros b v b' H. unfold peek_n in H. destruct (Nat.leb_spec 32 (length (rbits b))) as [L|L].
  - assert (v = dec (firstn 32 (rbits b)) /\ b = b') as (-> & <-) by (split; congruence). split.
    + pose proof (dec_range (firstn 32 (rbits b))) as D. rewrite firstn_length, Nat.min_l in D by exact L. exact D.
    + exists (skipn 32 (rbits b)). rewrite <- (firstn_skipn 32 (rbits b)) at 1. f_equal. replace 32%nat with (length (firstn 32 (rbits b))) at 2 by (rewrite firstn_length; lia). symmetry. apply enc_dec.
  - unfold short in H. destruct (rbits b); discriminate.
Qed.
Lemma ended_own : forall s s', gInv s -> (ended s -> how_ended s) -> gown s s' -> ended s' -> how_ended s'.
Proof.
  intros s s' G H E. inversion E as [h r' K Kn|e r' K Kn|i K Kw|i q K Kq Kp|e r' K Kn|v r' K Kn Kv|v r' K Kn Kv|e r' K Kn|v r' K Kn Kv|v r' K Kn Kv
    |K|K Kw|K|j q p r' Kq Kp Kl|j q r' Kq Kp Kl|j q r' Kq Kp Kl|j q p Kq Kp Kw|j q Kq Kp|j q Kq Kp]; subst s'; clear E; unfold ended in *; cbn [g_at g_pc]; try rewrite K in *; try tauto; intro X.
  - right. right. exists e, (g_br s). cbn [g_at g_err g_br]. auto.
  - right. right. exists e, (g_br s). cbn [g_at g_err g_br]. auto.
  - right. right. exists e, (g_br s). cbn [g_at g_err g_br]. auto.
  - left. cbn [g_at g_err g_br]. pose proof (i_err s G) as Q. rewrite K in Q. split; [exact Q|]. apply peeked in Kn. destruct Kn as (_ & t & Kn). exists t. rewrite Kn, Kv. reflexivity.
  - right. left. cbn [g_at g_err g_br]. split; [reflexivity|]. apply peeked in Kn. destruct Kn as (B & t & Kn). exists v, t. split; [exact B|]. split; [exact Kv | exact Kn].
  - exfalso. assert (I : inside s j) by (eapply active_inside; eauto; unfold active; now rewrite Kp). destruct I as [I|I]; rewrite I in X; exact X.
  - exfalso. assert (I : inside s j) by (eapply active_inside; eauto; unfold active; now rewrite Kp). destruct I as [I|I]; rewrite I in X; exact X.
  - exfalso. assert (I : inside s j) by (eapply active_inside; eauto; unfold active; now rewrite Kp). destruct I as [I|I]; rewrite I in X; exact X.
Qed.
Lemma ended_reach : forall r s, star gstep (g_init r) s -> ended s -> how_ended s.
Proof.
  intros r s H. remember (g_init r) as s0. induction H; subst; [intros []|]. specialize (IHstar eq_refl). destruct H0 as [_ [O|V]].
  - eapply ended_own; eauto. eapply gInv_reach; eauto.
  - inversion V; subst; exact IHstar.
Qed.
