(** PropertiesReceivers: C15, C17, C18 - what becomes of every receive on a channel of the demuxer or of an adapter. *)
From Coq Require Import Lia.
From Verif Require Import Base BitReader TsModel Conc ConcProofs SpecTs TsProofs PropertiesTs PropertiesTsConc.

(** A run of the demuxer and its receivers, with the channels on which receives were started, in order *)
Inductive run_with (ts : list tester) (skip take : tester) (s : dstate) : list nat -> dstate -> Prop :=
| rw_start : run_with ts skip take s [] s
| rw_own : forall a t u, run_with ts skip take s a t -> down ts skip take t u -> run_with ts skip take s a u
| rw_arrive : forall a t i, run_with ts skip take s a t -> run_with ts skip take s (a ++ [i]) (d_arrive t i)
| rw_arrive_done : forall a t, run_with ts skip take s a t -> run_with ts skip take s a (d_arrive_done t)
| rw_eof : forall a t i, run_with ts skip take s a t -> (i < d_closed t)%nat -> (0 < d_wait t i)%nat -> run_with ts skip take s a (d_eof t i).
Definition times (i : nat) (l : list nat) : nat := length (filter (Nat.eqb i) l).

Lemma times_app : forall i a b, times i (a ++ b) = (times i a + times i b)%nat.
Proof. intros. unfold times. now rewrite filter_app, app_length. Qed.
Lemma times_one : forall i j, times i [j] = (if Nat.eqb i j then 1 else 0)%nat.
Proof. intros. unfold times. cbn. now destruct (Nat.eqb i j). Qed.
Lemma received_one : forall i j p, length (received i [(j, p)]) = (if Nat.eqb j i then 1 else 0)%nat.
Proof. intros. unfold received. cbn. now destruct (Nat.eqb j i). Qed.

(** The runs of C15 are these runs. *)
Theorem C15_runs : forall ts skip take s t, star (dstep ts skip take) s t <-> exists a, run_with ts skip take s a t.
Proof.
  intros ts skip take s t. split.
  - induction 1 as [|s t u H (a & IH) [K | K] ]; [exists []; constructor | exists a; econstructor; eauto|].
    destruct K; [exists (a ++ [i]); now constructor | exists a; now constructor | exists a; now constructor].
  - intros (a & H). induction H; [apply star_refl | | | |]; (eapply star_step; [eassumption|]); [left; assumption | right; constructor | right; constructor | right; now constructor].
Qed.
(** Every receive that was started on a channel either still waits, or got exactly one packet, or found the channel closed:
    none is lost, and none is served for another. *)
Theorem C15_receivers : forall ts skip take r a s i, run_with ts skip take (d_init r) a s ->
  times i a = (d_wait s i + length (received i (d_log s)) + times i (d_eofs s))%nat.
Proof.
  intros ts skip take r a s i H. induction H as [|a t u H IH K | a t j H IH | a t H IH | a t j H IH C W]; [reflexivity | | | exact IH |].
  - destruct K as [E | j t' E E1 E2 | j t' E E1 E2 W | j E E1 | j t' E E1 | j E E1 | E W]; try exact IH.
    + unfold d_next. destruct (packet_next (d_pkt t, d_br t)) as [ [ [] | e | | ] [p q] ]; try exact IH. destruct (d_skipping t); [destruct (skip p) | destruct (take p)]; exact IH.
    + cbn [d_recv d_wait d_log d_eofs]. rewrite received_app, app_length, received_one. unfold drop1. destruct (Nat.eqb_spec j i) as [->|]; lia.
  - cbn [d_arrive d_wait d_log d_eofs]. rewrite times_app, times_one. unfold bump. rewrite (Nat.eqb_sym i j). destruct (Nat.eqb_spec j i) as [->|]; lia.
  - cbn [d_eof d_wait d_log d_eofs]. rewrite times_app, times_one. unfold drop1. rewrite (Nat.eqb_sym i j). destruct (Nat.eqb_spec j i) as [->|]; lia.
Qed.
Example C15_receivers_hyp : exists a s, run_with [IsPID 256; always_true] always_true always_true (d_init (setb ex_src (enc_sps [ex_p1; ex_p3]))) a s /\ (1 <= times 0 a)%nat /\ (2 <= times 1 a)%nat.
Proof.
  destruct C15_run as (ps & s & _ & H & _ & L0 & L1). apply C15_runs in H. destruct H as (a & H). exists a, s. split; [exact H|].
  pose proof (C15_receivers _ _ _ _ _ _ 0 H) as E0. pose proof (C15_receivers _ _ _ _ _ _ 1 H) as E1. lia.
Qed.
Print Assumptions C15_receivers.

(** ** The same of the adapters: runs of an adapter whose loop body is [f], with the number of receives started on its output *)
Inductive arun_with {T A B} (f : T -> A -> T * option B) (s : astate T A B) : nat -> astate T A B -> Prop :=
| arw_start : arun_with f s 0 s
| arw_arrive : forall k t, arun_with f s k t ->
    arun_with f s (S k) (mkA (a_pc t) (a_own t) (a_todo t) (a_closed t) (S (a_wait t)) (a_log t) (a_eofs t))
| arw_other : forall k t u, arun_with f s k t -> astep f t u -> (a_wait u <= a_wait t)%nat -> arun_with f s k u.

(** The runs of C17 and C18 are these runs. *)
Theorem C17_runs : forall T A B (f : T -> A -> T * option B) s t, star (astep f) s t <-> exists k, arun_with f s k t.
Proof.
  intros T A B f s t. split.
  - induction 1 as [|s t u H (k & IH) K]; [exists 0%nat; constructor|].
    destruct (le_lt_dec (a_wait u) (a_wait t)) as [L|L]; [exists k; eapply arw_other; eauto|]. exists (S k).
    destruct K; cbn [a_wait] in L; try lia. now constructor.
  - intros (k & H). induction H; [apply star_refl | |]; (eapply star_step; [eassumption|]); [constructor | assumption].
Qed.
(** Every receive that was started on the output of PayloadOnly either still waits, or got exactly one payload, or found the
    output closed. *)
Theorem C17_receivers : forall A (payload : A -> list Z) input k s, arun_with (payload_only payload) (a_init tt input) k s ->
  k = (a_wait s + length (a_log s) + a_eofs s)%nat.
Proof.
  intros A payload input k s H. induction H as [|k t H IH|k t u H IH K L]; [reflexivity | cbn [a_wait a_log a_eofs]; lia|].
  destruct K; cbn [a_wait a_log a_eofs] in *; rewrite ?app_length; cbn [length]; lia.
Qed.
(** On that of PayloadUnit none gets anything (C18): it waits or finds the output closed. *)
Theorem C18_receivers_partial : forall input k s, arun_with payload_unit (a_init ([], false) input) k s -> k = (a_wait s + a_eofs s)%nat.
Proof.
  intros input k s H. assert (E : a_log s = []) by (apply (C18_refuted input s), C17_runs; eauto).
  assert (N : k = (a_wait s + length (a_log s) + a_eofs s)%nat); [|rewrite E in N; cbn [length] in N; lia]. clear E.
  induction H as [|k t H IH|k t u H IH K L]; [reflexivity | cbn [a_wait a_log a_eofs]; lia|].
  destruct K; cbn [a_wait a_log a_eofs] in *; rewrite ?app_length; cbn [length]; lia.
Qed.
Example C17_receivers_hyp : exists k s, arun_with (payload_only pk_payload) (a_init tt [go_packet ex_p1]) k s /\ (1 <= k)%nat.
Proof.
  destruct C17_run as (s & H & _ & L). apply C17_runs in H. destruct H as (k & H). exists k, s. split; [exact H|].
  pose proof (C17_receivers _ _ _ _ _ H) as E. rewrite L in E. cbn [length] in E. lia.
Qed.
Print Assumptions C17_receivers.
Print Assumptions C18_receivers_partial.
