(** ConcProofs: invariants of the demuxer and of the channel adapters, for every schedule. *)
From Verif Require Import Base BitReader Exec Local TsModel SpecTs TsProofs TsLocal TsRobust TsReaders Mono Conc.

(** * Specification of the demuxer *)

(** The packets that successive calls of Next read, and how the stream ends. *)
Inductive parsed : packet * reader -> list packet -> res unit -> Prop :=
| parsed_end : forall st x st', packet_next st = (x, st') -> x <> Ok tt -> parsed st [] x
| parsed_cons : forall st st' ps x, packet_next st = (Ok tt, st') -> parsed st' ps x ->
    parsed st (fst st' :: ps) x.

Fixpoint from_first (f : tester) (ps : list packet) : list packet :=
  match ps with [] => [] | p :: t => if f p then p :: t else from_first f t end.
Fixpoint take_while (f : tester) (ps : list packet) : list packet :=
  match ps with [] => [] | p :: t => if f p then p :: take_while f t else [] end.

(** The window: from the first packet satisfying [skip] to before the first later one failing [take]. *)
Definition window (skip take : tester) (ps : list packet) : list packet :=
  match from_first skip ps with [] => [] | p :: t => p :: take_while take t end.
(** Whether TakeWhile ends it. *)
Definition stopped (skip take : tester) (ps : list packet) : bool :=
  match from_first skip ps with [] => false | p :: t => existsb (fun q => negb (take q)) t end.

(** * Invariant *)
Fixpoint deliv (i : nat) (ts : list tester) (p : packet) : list (nat * packet) :=
  match ts with [] => [] | t :: r => (if t p then [(i, p)] else []) ++ deliv (S i) r p end.

Definition win (sk : bool) (skip take : tester) (ps : list packet) : list packet :=
  if sk then window skip take ps else take_while take ps.
Definition stp (sk : bool) (skip take : tester) (ps : list packet) : bool :=
  if sk then stopped skip take ps else existsb (fun q => negb (take q)) ps.

Definition final_err (st : bool) (x : res unit) : option err :=
  if st then None else match x with Err e => Some e | _ => None end.
Definition final_panic (st : bool) (x : res unit) : bool :=
  if st then false else match x with Panic => true | _ => false end.

Definition d_inv (ts : list tester) (skip take : tester) (E : list (nat * packet)) (st : bool) (x : res unit)
  (s : dstate) : Prop :=
  match d_pc s with
  | PNext => exists rest, parsed (d_pkt s, d_br s) rest x /\
      E = d_log s ++ flat_map (deliv 0 ts) (win (d_skipping s) skip take rest) /\
      st = stp (d_skipping s) skip take rest /\
      d_err s = None /\ d_panic s = false /\ d_closed s = 0%nat /\ d_dones s = 0%nat
  | PSend i => exists rest, parsed (d_pkt s, d_br s) rest x /\
      E = d_log s ++ deliv i (skipn i ts) (d_pkt s) ++ flat_map (deliv 0 ts) (take_while take rest) /\
      st = existsb (fun q => negb (take q)) rest /\ d_skipping s = false /\
      d_err s = None /\ d_panic s = false /\ d_closed s = 0%nat /\ d_dones s = 0%nat
  | PClose i => E = d_log s /\ d_err s = final_err st x /\ d_panic s = final_panic st x /\
      d_closed s = i /\ (i <= length ts)%nat /\ d_dones s = 0%nat
  | PDone => E = d_log s /\ d_err s = final_err st x /\ d_panic s = final_panic st x /\
      d_closed s = length ts /\ d_dones s = 0%nat
  | PEnd => E = d_log s /\ d_err s = final_err st x /\ d_panic s = final_panic st x /\
      d_closed s = length ts /\ d_dones s = 1%nat
  end.

Lemma parsed_fun : forall st ps x, parsed st ps x -> 
  match packet_next st with
  | (Ok tt, st') => exists t, ps = fst st' :: t /\ parsed st' t x
  | (y, _) => ps = [] /\ x = y
  end.
Proof.
  intros st ps x H. inversion H; subst.
  - rewrite H0. destruct x as [[]| | |]; try congruence; auto.
  - rewrite H0. eauto.
Qed.

Lemma skipn_nth : forall A (l : list A) i a, nth_error l i = Some a -> skipn i l = a :: skipn (S i) l.
Proof.
  induction l as [|b l IH]; intros [|i] a H; try discriminate.
  - cbn in H. inversion H. reflexivity.
  - cbn [skipn]. now apply IH.
Qed.
Lemma skipn_none : forall A (l : list A) i, nth_error l i = None -> skipn i l = [].
Proof. intros A l i H. apply nth_error_None in H. now apply skipn_all2. Qed.

Lemma window_cons : forall skip take p ps, window skip take (p :: ps) =
  if skip p then p :: take_while take ps else window skip take ps.
Proof. intros. unfold window. cbn [from_first]. destruct (skip p); reflexivity. Qed.
Lemma stopped_cons : forall skip take p ps, stopped skip take (p :: ps) =
  if skip p then existsb (fun q => negb (take q)) ps else stopped skip take ps.
Proof. intros. unfold stopped. cbn [from_first]. destruct (skip p); reflexivity. Qed.

Lemma d_inv_step : forall ts skip take E st x s s',
  d_inv ts skip take E st x s -> dstep ts skip take s s' -> d_inv ts skip take E st x s'.
Proof.
  intros ts skip take E st x s s' H Hs. destruct Hs as [Hs|Hs]; destruct Hs.
  - (* Next *)
    unfold d_inv in H. rewrite H0 in H. destruct H as (rest & HP & HE & Hst & He & Hp & Hc & Hd).
    pose proof (parsed_fun _ _ _ HP) as F. unfold d_next.
    destruct (packet_next (d_pkt s, d_br s)) as [[[]|e| |] [p r]] eqn:EN.
    + destruct F as (t & -> & HP'). cbn [fst] in *.
      destruct (d_skipping s) eqn:ESK; cbn [win stp] in *.
      * rewrite window_cons in HE. rewrite stopped_cons in Hst. destruct (skip p).
        -- unfold d_inv, d_at; cbn. exists t. cbn [flat_map] in HE. repeat split; auto.
        -- unfold d_inv, d_at; cbn. exists t. cbn [flat_map] in HE. repeat split; auto.
      * cbn [take_while existsb] in *. destruct (take p); cbn [negb orb] in *.
        -- unfold d_inv, d_at; cbn. exists t. cbn [flat_map] in HE. repeat split; auto.
        -- unfold d_inv, d_at; cbn. rewrite HE. cbn [flat_map]. rewrite app_nil_r. subst st.
           repeat split; auto; lia.
    + destruct F as [-> ->]. unfold d_inv, d_at; cbn.
      assert (st = false) by (subst st; destruct (d_skipping s); reflexivity). subst st. rewrite H.
      rewrite HE. assert (win (d_skipping s) skip take [] = []) as -> by (destruct (d_skipping s); reflexivity).
      cbn. rewrite app_nil_r. repeat split; auto; lia.
    + destruct F as [-> ->]. unfold d_inv, d_at; cbn.
      assert (st = false) by (subst st; destruct (d_skipping s); reflexivity). subst st. rewrite H.
      rewrite HE. assert (win (d_skipping s) skip take [] = []) as -> by (destruct (d_skipping s); reflexivity).
      cbn. rewrite app_nil_r. repeat split; auto; lia.
    + exfalso. eapply packet_next_fuel; eauto.
  - unfold d_inv in H. rewrite H0 in H. destruct H as (rest & HP & HE & H).
    unfold d_inv, d_goto; cbn [d_pc d_pkt d_br d_log d_skipping d_err d_panic d_closed d_dones].
    exists rest. rewrite (skipn_nth _ _ _ _ H1) in HE. cbn [deliv] in HE. rewrite H2 in HE. auto.
  - unfold d_inv in H. rewrite H0 in H. destruct H as (rest & HP & HE & H).
    unfold d_inv, d_recv; cbn [d_pc d_pkt d_br d_log d_skipping d_err d_panic d_closed d_dones].
    exists rest. rewrite (skipn_nth _ _ _ _ H1) in HE. cbn [deliv] in HE. rewrite H2 in HE.
    split; auto. split; auto. rewrite HE, <- !app_assoc. reflexivity.
  - unfold d_inv in H. rewrite H0 in H. destruct H as (rest & HP & HE & Hst & Hk & H).
    unfold d_inv, d_goto; cbn [d_pc d_pkt d_br d_log d_skipping d_err d_panic d_closed d_dones].
    exists rest. rewrite (skipn_none _ _ _ H1) in HE. rewrite Hk. cbn [win stp]. auto.
  - unfold d_inv in H. rewrite H0 in H. unfold d_inv, d_close; cbn.
    destruct H as (?&?&?&?&?&?). repeat split; auto.
    assert (i < length ts)%nat by (apply nth_error_Some; congruence). lia.
  - unfold d_inv in H. rewrite H0 in H. unfold d_inv, d_goto; cbn.
    destruct H as (?&?&?&?&?&?). repeat split; auto. apply nth_error_None in H1. lia.
  - unfold d_inv in H. rewrite H0 in H. unfold d_inv, d_finish; cbn.
    destruct H as (?&?&?&?&?). repeat split; auto.
  - exact H.
  - exact H.
  - exact H.
Qed.

Lemma d_inv_star : forall ts skip take ps x r s, parsed (zero_packet, r) ps x ->
  star (dstep ts skip take) (d_init r) s ->
  d_inv ts skip take (flat_map (deliv 0 ts) (window skip take ps)) (stopped skip take ps) x s.
Proof.
  intros ts skip take ps x r s HP H.
  remember (d_init r) as s0 eqn:E0. induction H; subst.
  - unfold d_inv; cbn. exists ps. repeat split; auto.
  - eapply d_inv_step; eauto.
Qed.

(** What channel [i] received. *)
Definition received (i : nat) (log : list (nat * packet)) : list packet :=
  map snd (filter (fun e => Nat.eqb (fst e) i) log).

Lemma received_app : forall i a b, received i (a ++ b) = received i a ++ received i b.
Proof. intros. unfold received. now rewrite filter_app, map_app. Qed.
Lemma received_deliv : forall ts k i t p, nth_error ts i = Some t ->
  received (k + i) (deliv k ts p) = if t p then [p] else [].
Proof.
  assert (Z : forall ts k i p, (i < k)%nat -> received i (deliv k ts p) = []).
  { induction ts as [|u ts IH]; intros k i p H; [reflexivity|]. cbn [deliv]. rewrite received_app, IH by lia.
    destruct (u p); [|reflexivity]. unfold received; cbn. destruct (Nat.eqb_spec k i); [lia|]. reflexivity. }
  induction ts as [|u ts IH]; intros k i t p H; [destruct i; discriminate|].
  cbn [deliv]. rewrite received_app. destruct i as [|i]; cbn [nth_error] in H.
  - inversion H; subst. rewrite Z by lia. rewrite app_nil_r, Nat.add_0_r.
    destruct (t p); [|reflexivity]. unfold received; cbn. now rewrite Nat.eqb_refl.
  - replace (k + S i)%nat with (S k + i)%nat by lia. rewrite (IH (S k) i t p H).
    destruct (u p); [|reflexivity]. unfold received; cbn [filter fst].
    destruct (Nat.eqb_spec k (S k + i)); [lia|]. reflexivity.
Qed.
Lemma received_all : forall ts i t ps, nth_error ts i = Some t ->
  received i (flat_map (deliv 0 ts) ps) = filter t ps.
Proof.
  intros ts i t ps H. induction ps as [|p ps IH]; [reflexivity|].
  cbn [flat_map filter]. rewrite received_app, IH.
  pose proof (received_deliv ts 0 i t p H) as R. cbn [Nat.add] in R. rewrite R.
  destruct (t p); reflexivity.
Qed.

(** * Progress *)
(** The goroutine is never stuck by itself: it can step, or it waits for a receiver, or it has ended. *)
Lemma d_progress : forall ts skip take s,
  (exists s', down ts skip take s s') \/
  (exists i t, d_pc s = PSend i /\ nth_error ts i = Some t /\ d_wait s i = 0%nat) \/
  (d_pc s = PDone /\ d_waitdone s = 0%nat) \/ d_pc s = PEnd.
Proof.
  intros ts skip take s. destruct (d_pc s) as [|i|i| |] eqn:E.
  - left. eexists. apply st_next; auto.
  - destruct (nth_error ts i) as [t|] eqn:EN.
    + destruct (t (d_pkt s)) eqn:ET.
      * destruct (d_wait s i) eqn:EW.
        -- right. left. eauto.
        -- left. eexists. eapply st_send; eauto; lia.
      * left. eexists. eapply st_skip; eauto.
    + left. eexists. eapply st_loop; eauto.
  - destruct (nth_error ts i) as [t|] eqn:EN.
    + left. eexists. eapply st_close; eauto.
    + left. eexists. eapply st_closed; eauto.
  - destruct (d_waitdone s) eqn:EW; auto.
    left. eexists. apply st_done; auto; lia.
  - auto.
Qed.

(** A bound on the steps left. *)
Definition d_left (ts : list tester) (x : res unit) (s : dstate) (m : nat) : Prop :=
  let n := length ts in
  match d_pc s with
  | PNext => exists rest, parsed (d_pkt s, d_br s) rest x /\ m = (length rest * (n + 2) + n + 3)%nat
  | PSend i => exists rest, parsed (d_pkt s, d_br s) rest x /\ (i <= n)%nat /\
      m = (n - i + 1 + (length rest * (n + 2) + n + 3))%nat
  | PClose i => (i <= n)%nat /\ m = (n - i + 2)%nat
  | PDone => m = 1%nat
  | PEnd => m = 0%nat
  end.
Lemma d_left_own : forall ts skip take x s s' m, d_left ts x s m -> down ts skip take s s' ->
  exists m', d_left ts x s' m' /\ (m' < m)%nat.
Proof.
  intros ts skip take x s s' m H Hs. destruct Hs; unfold d_left in H; rewrite H0 in H.
  - destruct H as (rest & HP & Hm). pose proof (parsed_fun _ _ _ HP) as F. unfold d_next.
    destruct (packet_next (d_pkt s, d_br s)) as [[[]|e| |] [p r]] eqn:EN.
    + destruct F as (t & -> & HP'). cbn [fst length] in *.
      assert (A : forall sk, exists m', d_left ts x (d_at s (PSend 0) p r sk (d_err s) (d_panic s)) m' /\ (m' < m)%nat).
      { intro. eexists. split; [unfold d_left, d_at; cbn; exists t; repeat split; auto; lia|]. nia. }
      assert (B : forall sk, exists m', d_left ts x (d_at s PNext p r sk (d_err s) (d_panic s)) m' /\ (m' < m)%nat).
      { intro. eexists. split; [unfold d_left, d_at; cbn; exists t; repeat split; auto; lia|]. nia. }
      assert (C : forall sk e pn, exists m', d_left ts x (d_at s (PClose 0) p r sk e pn) m' /\ (m' < m)%nat).
      { intros. eexists. split; [unfold d_left, d_at; cbn; repeat split; auto; lia|]. nia. }
      destruct (d_skipping s).
      * destruct (skip p); auto.
      * destruct (take p); auto.
    + eexists. split; [unfold d_left, d_at; cbn; repeat split; auto; lia|]. nia.
    + eexists. split; [unfold d_left, d_at; cbn; repeat split; auto; lia|]. nia.
    + exfalso. eapply packet_next_fuel; eauto.
  - destruct H as (rest & HP & Hi & Hm).
    assert (i < length ts)%nat by (apply nth_error_Some; congruence).
    eexists. split; [unfold d_left, d_goto; cbn; exists rest; repeat split; auto; lia|]. nia.
  - destruct H as (rest & HP & Hi & Hm).
    assert (i < length ts)%nat by (apply nth_error_Some; congruence).
    eexists. split; [unfold d_left, d_recv; cbn; exists rest; repeat split; auto; lia|]. nia.
  - destruct H as (rest & HP & Hi & Hm).
    eexists. split; [unfold d_left, d_goto; cbn; exists rest; repeat split; auto; lia|]. nia.
  - destruct H as (Hi & Hm). assert (i < length ts)%nat by (apply nth_error_Some; congruence).
    eexists. split; [unfold d_left, d_close; cbn; repeat split; auto; lia|]. nia.
  - destruct H as (Hi & Hm). eexists. split; [unfold d_left, d_goto; cbn; reflexivity|]. lia.
  - eexists. split; [unfold d_left, d_finish; cbn; reflexivity|]. lia.
Qed.
Lemma d_left_env : forall ts x s s' m, d_left ts x s m -> denv s s' -> d_left ts x s' m.
Proof. intros ts x s s' m H Hs. destruct Hs; exact H. Qed.
Lemma d_run_bound : forall ts skip take ps x r k s, parsed (zero_packet, r) ps x ->
  drun ts skip take k (d_init r) s -> exists m, d_left ts x s m /\ (k + m <= length ps * (length ts + 2) + length ts + 3)%nat.
Proof.
  intros ts skip take ps x r k s HP H. remember (d_init r) as s0 eqn:E0. induction H; subst.
  - eexists. split; [unfold d_left, d_init; cbn; exists ps; auto|]. lia.
  - destruct (IHdrun eq_refl) as (m & HL & Hm). destruct (d_left_own _ _ _ _ _ _ _ HL H0) as (m' & HL' & Hm').
    exists m'. split; auto. lia.
  - destruct (IHdrun eq_refl) as (m & HL & Hm). exists m. split; auto. eapply d_left_env; eauto.
Qed.

Lemma star_trans : forall S (R : S -> S -> Prop) a b c, star R a b -> star R b c -> star R a c.
Proof. intros S R a b c H1 H2. revert H1. induction H2; intro H1; auto. eapply star_step; [apply IHstar; auto | auto]. Qed.
Lemma star_one : forall S (R : S -> S -> Prop) a b, R a b -> star R a b.
Proof. intros. eapply star_step; [apply star_refl | auto]. Qed.

(** From every state the end can be reached, if receivers come. *)
Lemma d_can_end : forall ts skip take x m s, d_left ts x s m ->
  exists s', star (dstep ts skip take) s s' /\ d_pc s' = PEnd.
Proof.
  intros ts skip take x m. induction m as [m IH] using lt_wf_ind. intros s HL.
  assert (Own : forall s1, d_left ts x s1 m -> (exists s2, down ts skip take s1 s2) ->
    exists s', star (dstep ts skip take) s1 s' /\ d_pc s' = PEnd).
  { intros s1 HL1 (s2 & Hd). destruct (d_left_own _ _ _ _ _ _ _ HL1 Hd) as (m' & HL' & Hm').
    destruct (IH m' Hm' s2 HL') as (s' & Hst & Hpc). exists s'. split; auto.
    eapply star_trans; [apply star_one; left; exact Hd | exact Hst]. }
  destruct (d_progress ts skip take s) as [H|[(i & t & Hpc & Ht & Hw)|[(Hpc & Hw)|H]]].
  - auto.
  - set (s1 := d_arrive s i).
    assert (E : denv s s1) by apply st_arrive.
    assert (HL1 : d_left ts x s1 m) by (eapply d_left_env; eauto).
    destruct (Own s1 HL1) as (s' & Hst & He).
    { destruct (t (d_pkt s)) eqn:ET.
      - eexists. eapply (st_send _ _ _ s1 i t); auto. unfold s1, d_arrive; cbn. unfold bump. rewrite Nat.eqb_refl. lia.
      - eexists. eapply (st_skip _ _ _ s1 i t); auto. }
    exists s'. split; auto. eapply star_trans; [apply star_one; right; exact E | exact Hst].
  - set (s1 := d_arrive_done s).
    assert (E : denv s s1) by apply st_arrive_done.
    assert (HL1 : d_left ts x s1 m) by (eapply d_left_env; eauto).
    destruct (Own s1 HL1) as (s' & Hst & He).
    { eexists. apply st_done; auto. unfold s1, d_arrive_done; cbn. lia. }
    exists s'. split; auto. eapply star_trans; [apply star_one; right; exact E | exact Hst].
  - exists s. split; auto. apply star_refl.
Qed.
Lemma d_star_run : forall ts skip take a b, star (dstep ts skip take) a b -> exists k, drun ts skip take k a b.
Proof.
  intros ts skip take a b H. induction H as [|a b c H (k & IH) [Hs|Hs]].
  - exists 0%nat. constructor.
  - exists (S k). eapply run_own; eauto.
  - exists k. eapply run_env; eauto.
Qed.

(** * The stream is parsed to its end *)
Lemma parsed_enc : forall ps p r, rlater r = [] -> Forall wf_sp ps ->
  exists l, parsed (p, setb r (enc_sps ps)) l (Err (rfin r)) /\
    map view l = map (fun s => view (go_packet s)) ps.
Proof.
  induction ps as [|s ps IH]; intros p r Hr Hwf.
  - exists []. split; [|reflexivity]. eapply parsed_end; [|discriminate].
    change (enc_sps []) with (@nil bool). now apply next_nil.
  - inversion Hwf; subst. destruct (IH (over_packet p s) r Hr H2) as (l & HP & HV).
    exists (over_packet p s :: l). split.
    + eapply (parsed_cons (p, setb r (enc_sps (s :: ps))) (over_packet p s, setb r (enc_sps ps))); auto.
      now apply next_cons.
    + cbn [map]. now rewrite HV, over_view.
Qed.

(** Every finite source is parsed to its end. *)
Lemma parsed_total : forall r p, rlater r = [] -> exists ps x, parsed (p, r) ps x.
Proof.
  intros r. remember (left r) as n eqn:En. revert r En. induction n as [n IH] using lt_wf_ind. intros r En p Hr.
  destruct (packet_next (p, r)) as [x [p' r']] eqn:E.
  assert (D : x = Ok tt \/ x <> Ok tt) by (destruct x as [[]| | |]; auto; right; discriminate).
  destruct D as [->|N].
  - destruct (packet_next_strict _ _ _ _ Hr E) as (L & R & _).
    destruct (IH (left r') ltac:(lia) r' eq_refl p' R) as (ps & y & HP).
    exists (p' :: ps), y. eapply (parsed_cons (p, r) (p', r')); eauto.
  - exists [], x. eapply parsed_end; eauto.
Qed.

(** * Adapters *)
Definition a_sent {B} (pc : apc B) : list B := match pc with ASend b => [b] | _ => [] end.

Fixpoint outputs {T A B} (f : T -> A -> T * option B) (own : T) (l : list A) : list B :=
  match l with
  | [] => []
  | x :: t => let '(own', o) := f own x in
              match o with Some b => b :: outputs f own' t | None => outputs f own' t end
  end.

Definition a_inv {T A B} (f : T -> A -> T * option B) (E : list B) (s : astate T A B) : Prop :=
  E = a_log s ++ a_sent (a_pc s) ++ outputs f (a_own s) (a_todo s) /\
  (a_pc s = AClose \/ a_pc s = AEnd -> a_todo s = []) /\ (a_closed s = true <-> a_pc s = AEnd) /\
  (a_closed s = false -> a_eofs s = 0%nat).

Lemma a_inv_step : forall T A B (f : T -> A -> T * option B) E s s', a_inv f E s -> astep f s s' -> a_inv f E s'.
Proof.
  intros T A B f E s s' (H1 & H2 & H3 & H4) Hs.
  destruct Hs; unfold a_inv; cbn [a_pc a_own a_todo a_closed a_wait a_log a_eofs a_sent] in *; subst E.
  - rewrite H, H0. cbn [a_sent outputs app]. rewrite H5. repeat split; auto.
    + intros [|]; discriminate.
    + intro C. apply H3 in C. congruence.
    + discriminate.
  - rewrite H, H0. cbn [a_sent outputs app]. rewrite H5. repeat split; auto.
    + intros [|]; discriminate.
    + intro C. apply H3 in C. congruence.
    + discriminate.
  - rewrite H, H0. cbn. repeat split; auto.
    + intro C. apply H3 in C. congruence.
    + discriminate.
  - rewrite H. cbn [a_sent app]. rewrite <- app_assoc. cbn [app]. repeat split; auto.
    + intros [|]; discriminate.
    + intro C. apply H3 in C. congruence.
    + discriminate.
  - rewrite H. cbn [a_sent app]. repeat split; auto. discriminate.
  - repeat split; auto; tauto.
  - repeat split; auto; try tauto. congruence.
Qed.
Lemma a_inv_star : forall T A B (f : T -> A -> T * option B) own input s,
  star (astep f) (a_init own input) s -> a_inv f (outputs f own input) s.
Proof.
  intros T A B f own input s H. remember (a_init own input) as s0 eqn:E0. induction H; subst.
  - unfold a_inv, a_init; cbn. repeat split; auto; try discriminate. intros [|]; discriminate.
  - eapply a_inv_step; eauto.
Qed.

Lemma outputs_payload_only : forall A (payload : A -> list Z) l,
  outputs (payload_only payload) tt l = map payload l.
Proof. induction l as [|x l IH]; [reflexivity|]. cbn. f_equal. exact IH. Qed.
Lemma outputs_payload_unit : forall l own, outputs payload_unit own l = [].
Proof.
  induction l as [|x l IH]; intros [buf st]; [reflexivity|]. cbn [outputs payload_unit].
  destruct (pk_pusi x), st; cbn; apply IH.
Qed.

Lemma a_progress : forall T A B (f : T -> A -> T * option B) s,
  (exists s', astep f s s' /\ a_pc s <> AEnd) \/ (exists b, a_pc s = ASend b /\ a_wait s = 0%nat) \/ a_pc s = AEnd.
Proof.
  intros T A B f s. destruct (a_pc s) as [|b| |] eqn:E.
  - destruct (a_todo s) as [|x t] eqn:ET.
    + left. eexists. split; [eapply as_inclosed; eauto | discriminate].
    + destruct (f (a_own s) x) as [own' [b|]] eqn:EF; left; eexists; (split; [|discriminate]).
      * eapply as_recv; eauto.
      * eapply as_quiet; eauto.
  - destruct (a_wait s) eqn:EW; eauto.
    left. eexists. split; [eapply as_send; eauto; lia | discriminate].
  - left. eexists. split; [eapply as_close; eauto | discriminate].
  - auto.
Qed.
