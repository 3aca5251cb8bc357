(** Local: a parser that succeeds on some input gives the same result on every extension of
    it.  Consequence: if a parser consumes an encoding completely then every strict prefix
    of the encoding is reported as an error.  Also: computations that never panic. *)
From Verif Require Import Base BitReader.

(** ** Computations that return a value or an error (no panic, no lack of fuel) *)
Definition safe {S A} (m : M S A) : Prop :=
  forall s, match fst (m s) with Ok _ | Err _ => True | _ => False end.

Lemma safe_ret : forall S A (a : A), safe (S := S) (ret a).
Proof. intros S A a s. exact I. Qed.
Lemma safe_fail : forall S A e, safe (S := S) (A := A) (fail e).
Proof. intros S A e s. exact I. Qed.
Lemma safe_bind : forall S A B (m : M S A) (k : A -> M S B),
  safe m -> (forall a, safe (k a)) -> safe (bind m k).
Proof.
  intros S A B m k Hm Hk s. unfold bind. specialize (Hm s).
  destruct (m s) as [[a|e| |] s']; simpl in *; auto. apply Hk.
Qed.
Lemma safe_short : forall A n r, match fst (@short A n r) with Ok _ | Err _ => True | _ => False end.
Proof. intros. unfold short. destruct (rbits r); exact I. Qed.
Lemma safe_read_n : forall n, safe (read_n n).
Proof. intros n r. unfold read_n. destruct (Nat.leb _ _); [exact I | apply safe_short]. Qed.
Lemma safe_peek_n : forall n, safe (peek_n n).
Proof. intros n r. unfold peek_n. destruct (Nat.leb _ _); [exact I | apply safe_short]. Qed.
Lemma safe_read1 : safe read1.
Proof. apply safe_bind; [apply safe_read_n | intro; apply safe_ret]. Qed.
Lemma safe_peek1 : safe peek1.
Proof. apply safe_bind; [apply safe_peek_n | intro; apply safe_ret]. Qed.
Lemma safe_skip_n : forall n, safe (skip_n n).
Proof. intro. apply safe_bind; [apply safe_read_n | intro; apply safe_ret]. Qed.
Lemma safe_read_bytes : forall n, safe (read_bytes n).
Proof.
  intros n r. unfold read_bytes. destruct (read_full n r) as [[bs [e|]] r']; exact I.
Qed.
Lemma safe_ignore : forall S A d (m : M S A), safe m -> safe (ignore_err d m).
Proof.
  intros S A d m H s. specialize (H s). unfold ignore_err.
  destruct (m s) as [[a|e| |] s']; simpl in *; auto.
Qed.
Lemma safe_if : forall S A (c : bool) (x y : M S A), safe x -> safe y -> safe (if c then x else y).
Proof. intros. destruct c; auto. Qed.
Lemma safe_onr : forall T R A (m : M R A), safe m -> safe (onr (T := T) m).
Proof.
  intros T R A m H s. unfold onr. specialize (H (snd s)). destruct (m (snd s)) as [a r']. exact H.
Qed.
Lemma safe_onrz : forall T R A z (m : M R A), safe m -> safe (onrz (T := T) z m).
Proof.
  intros T R A z m H s. unfold onrz. specialize (H (snd s)). destruct (m (snd s)) as [[a|e| |] r']; exact H.
Qed.
Lemma safe_upd : forall T R (f : T -> T), safe (S := T * R) (upd f).
Proof. intros T R f s. exact I. Qed.

Ltac safe_tac :=
  repeat first
    [ apply safe_ret | apply safe_fail | apply safe_read_n | apply safe_peek_n | apply safe_read1
    | apply safe_peek1 | apply safe_skip_n | apply safe_read_bytes | apply safe_ignore
    | apply safe_onr | apply safe_onrz | apply safe_upd | apply safe_if
    | (apply safe_bind; [ | intro ])
    | match goal with |- safe (match ?x with (_, _) => _ end) => destruct x end ].

(** ** Locality *)
Definition lmod (l : list bool) : nat := Nat.modulo (length l) 8.

(** [local P m Q]: [m], started with a number of remaining bits satisfying [P] modulo 8,
    gives the same outcome when more whole bytes follow; on success the number of remaining
    bits satisfies [Q]. *)
Definition local {A} (P : nat -> Prop) (m : M reader A) (Q : nat -> Prop) : Prop :=
  forall r l x, rlater r = [] -> P (lmod l) -> lmod x = 0%nat ->
  match m (setb r l) with
  | (Ok a, r') => exists l', r' = setb r l' /\ Q (lmod l') /\
                    m (setb r (l ++ x)) = (Ok a, setb r (l' ++ x))
  | (Err _, _) => True
  | (Panic, _) => fst (m (setb r (l ++ x))) = Panic
  | (OutOfFuel, _) => fst (m (setb r (l ++ x))) = OutOfFuel
  end.

Definition at8 (a : nat) : nat -> Prop := fun n => n = a.
Definition any8 : nat -> Prop := fun _ => True.

Lemma local_weaken : forall A (P P' Q Q' : nat -> Prop) (m : M reader A),
  local P m Q -> (forall n, P' n -> P n) -> (forall n, Q n -> Q' n) -> local P' m Q'.
Proof.
  intros A P P' Q Q' m H HP HQ r l x Hr Hl Hx. specialize (H r l x Hr (HP _ Hl) Hx).
  destruct (m (setb r l)) as [[a|e| |] r']; auto.
  destruct H as (l' & H1 & H2 & H3). exists l'. auto.
Qed.

Lemma local_ret : forall A (a : A) P, local P (ret a) P.
Proof. intros A a P r l x Hr Hl Hx. simpl. exists l. auto. Qed.

Lemma local_fail : forall A e P Q, local (A := A) P (fail e) Q.
Proof. intros A e P Q r l x Hr Hl Hx. exact I. Qed.

Lemma local_bind : forall A B (m : M reader A) (k : A -> M reader B) P Q R,
  local P m Q -> (forall a, local Q (k a) R) -> local P (bind m k) R.
Proof.
  intros A B m k P Q R Hm Hk r l x Hr Hl Hx. unfold bind.
  specialize (Hm r l x Hr Hl Hx).
  destruct (m (setb r l)) as [[a|e| |] r'].
  - destruct Hm as (l' & -> & HQ & E). rewrite E.
    specialize (Hk a r l' x Hr HQ Hx). exact Hk.
  - exact I.
  - destruct (m (setb r (l ++ x))) as [[a|e| |] r'']; simpl in *; congruence.
  - destruct (m (setb r (l ++ x))) as [[a|e| |] r'']; simpl in *; congruence.
Qed.

Lemma local_if : forall A (c : bool) (a b : M reader A) P Q,
  local P a Q -> local P b Q -> local P (if c then a else b) Q.
Proof. intros. destruct c; auto. Qed.

Lemma short_is_err : forall A n r, exists e r', @short A n r = (Err e, r').
Proof. intros. unfold short. destruct (rbits r); eauto. Qed.

Lemma lmod_skipn : forall n l, (n <= length l)%nat ->
  lmod (skipn n l) = ((lmod l + (8 - n mod 8)) mod 8)%nat.
Proof.
  intros n l H. unfold lmod. rewrite skipn_length.
  pose proof (Nat.div_mod (length l) 8 ltac:(lia)).
  pose proof (Nat.div_mod n 8 ltac:(lia)).
  pose proof (Nat.mod_upper_bound (length l) 8 ltac:(lia)).
  pose proof (Nat.mod_upper_bound n 8 ltac:(lia)).
  set (a := (length l mod 8)%nat) in *. set (b := (n mod 8)%nat) in *.
  set (q := (length l / 8)%nat) in *. set (p := (n / 8)%nat) in *.
  replace (length l - n)%nat with ((8 * (q - p) + a) - b)%nat by nia.
  destruct (Nat.le_gt_cases b a).
  - replace (8 * (q - p) + a - b)%nat with ((a - b) + (q - p) * 8)%nat by lia.
    rewrite Nat.mod_add by lia.
    replace (a + (8 - b))%nat with ((a - b) + 1 * 8)%nat by lia.
    now rewrite Nat.mod_add by lia.
  - assert (p < q)%nat by nia.
    replace (8 * (q - p) + a - b)%nat with ((a + (8 - b)) + (q - p - 1) * 8)%nat by lia.
    now rewrite Nat.mod_add by lia.
Qed.

Definition shift8 (n : nat) (P : nat -> Prop) : nat -> Prop :=
  fun m => exists a, P a /\ m = ((a + (8 - n mod 8)) mod 8)%nat.

Lemma local_read_n : forall n P, local P (read_n n) (shift8 n P).
Proof.
  intros n P r l x Hr Hl Hx. unfold read_n. rewrite !rbits_setb.
  destruct (Nat.leb_spec n (length l)).
  - exists (skipn n l). split; [reflexivity|]. split.
    { exists (lmod l). split; auto. now apply lmod_skipn. }
    rewrite app_length, (proj2 (Nat.leb_le _ _)) by lia.
    rewrite firstn_app, skipn_app.
    replace (n - length l)%nat with 0%nat by lia. simpl. now rewrite app_nil_r.
  - destruct (short_is_err Z n (setb r l)) as (e & r' & ->). exact I.
Qed.

Lemma local_peek_n : forall n P, local P (peek_n n) P.
Proof.
  intros n P r l x Hr Hl Hx. unfold peek_n. rewrite !rbits_setb.
  destruct (Nat.leb_spec n (length l)).
  - exists l. split; [reflexivity|]. split; auto.
    rewrite app_length, (proj2 (Nat.leb_le _ _)) by lia.
    rewrite firstn_app.
    replace (n - length l)%nat with 0%nat by lia. simpl. now rewrite app_nil_r.
  - destruct (short_is_err Z n (setb r l)) as (e & r' & ->). exact I.
Qed.

Lemma local_skip_n : forall n P, local P (skip_n n) (shift8 n P).
Proof. intros. eapply local_bind; [apply local_read_n | intro; apply local_ret]. Qed.
Lemma local_read1 : forall P, local P read1 (shift8 1 P).
Proof. intros. eapply local_bind; [apply local_read_n | intro; apply local_ret]. Qed.
Lemma local_peek1 : forall P, local P peek1 P.
Proof. intros. eapply local_bind; [apply local_peek_n | intro; apply local_ret]. Qed.

Lemma get_bytes_firstn : forall n l x, (8 * n <= length l)%nat -> get_bytes n (l ++ x) = get_bytes n l.
Proof.
  induction n; intros l x H; auto. cbn [get_bytes]. f_equal.
  - rewrite firstn_app. replace (8 - length l)%nat with 0%nat by lia. rewrite firstn_O. now rewrite app_nil_r.
  - rewrite skipn_app. replace (8 - length l)%nat with 0%nat by lia. rewrite skipn_O.
    apply IHn. rewrite skipn_length. lia.
Qed.

Lemma read_full_ext : forall n r l x, n <= avail (setb r l) ->
  read_full n (setb r (l ++ x)) =
  (fst (read_full n (setb r l)), setb r (rbits (snd (read_full n (setb r l))) ++ x)).
Proof.
  intros n r l x H. unfold read_full. destruct (n <=? 0) eqn:E0; [reflexivity|].
  apply Z.leb_gt in E0.
  rewrite (proj2 (Z.leb_le n (avail (setb r l)))) by auto.
  rewrite !avail_setb in *.
  assert (HH : (8 * Z.to_nat n <= length l)%nat).
  { assert (8 * n <= 8 * (Z.of_nat (length l) / 8)) by lia.
    pose proof (Z.mul_div_le (Z.of_nat (length l)) 8). lia. }
  rewrite (proj2 (Z.leb_le n _)).
  2:{ rewrite app_length. apply Z.div_le_lower_bound; lia. }
  cbn [fst snd]. rewrite !rbits_setb. rewrite get_bytes_firstn by auto.
  rewrite skipn_app. replace (8 * Z.to_nat n - length l)%nat with 0%nat by lia. reflexivity.
Qed.

Lemma read_full_ok : forall n r, n <= avail r -> exists bs l',
  read_full n r = ((bs, None), setb r l') /\ lmod l' = lmod (rbits r).
Proof.
  intros n r H. unfold read_full. destruct (n <=? 0) eqn:E0.
  - exists [], (rbits r). rewrite setb_rbits. auto.
  - rewrite (proj2 (Z.leb_le _ _)) by auto. eexists _, _. split; [reflexivity|].
    apply Z.leb_gt in E0.
    assert (HH : (8 * Z.to_nat n <= length (rbits r))%nat).
    { unfold avail in H. pose proof (Z.mul_div_le (Z.of_nat (length (rbits r))) 8). lia. }
    unfold lmod. rewrite skipn_length.
    pose proof (Nat.div_mod (length (rbits r)) 8 ltac:(lia)).
    pose proof (Nat.mod_upper_bound (length (rbits r)) 8 ltac:(lia)).
    set (q := (length (rbits r) / 8)%nat) in *.
    set (a := (length (rbits r) mod 8)%nat) in *.
    assert (Z.to_nat n <= q)%nat by lia.
    replace (length (rbits r) - 8 * Z.to_nat n)%nat
      with (a + (q - Z.to_nat n) * 8)%nat by lia.
    rewrite Nat.mod_add by lia. apply Nat.mod_small. lia.
Qed.

Lemma read_full_err : forall n r, avail r < n -> exists bs e r',
  read_full n r = ((bs, Some e), r').
Proof.
  intros n r H. unfold read_full. unfold avail in *.
  assert (0 <= Z.of_nat (length (rbits r)) / 8) by (apply Z.div_pos; lia).
  rewrite (proj2 (Z.leb_gt n 0)) by lia. rewrite (proj2 (Z.leb_gt n _)) by lia. eauto.
Qed.

Lemma local_read_bytes : forall n P, local P (read_bytes n) P.
Proof.
  intros n P r l x Hr Hl Hx. unfold read_bytes.
  destruct (Z.le_gt_cases n (avail (setb r l))) as [H|H].
  - rewrite read_full_ext by auto.
    destruct (read_full_ok _ _ H) as (bs & l' & E & EL). rewrite E. cbn [fst snd].
    exists l'. rewrite EL. auto.
  - destruct (read_full_err _ _ H) as (bs & e & r' & E). rewrite E. exact I.
Qed.

(** A discarded skip that cannot fail because of alignment. *)
Lemma local_ign_skip : forall n a, (n <= a < 8)%nat ->
  local (at8 a) (ignore_err tt (skip_n n)) (shift8 n (at8 a)).
Proof.
  intros n a Ha r l x Hr Hl Hx.
  assert (n <= length l)%nat.
  { unfold at8, lmod in Hl. pose proof (Nat.mod_le (length l) 8). lia. }
  pose proof (local_skip_n n (at8 a) r l x Hr Hl Hx) as L.
  unfold ignore_err.
  destruct (skip_n n (setb r l)) as [[u|e| |] r'] eqn:E.
  - destruct L as (l' & -> & HQ & ->). exists l'. auto.
  - exfalso. revert E. unfold skip_n, bind, read_n. rewrite rbits_setb.
    rewrite (proj2 (Nat.leb_le _ _)) by auto. discriminate.
  - exfalso. revert E. unfold skip_n, bind, read_n. rewrite rbits_setb.
    rewrite (proj2 (Nat.leb_le _ _)) by auto. discriminate.
  - exfalso. revert E. unfold skip_n, bind, read_n. rewrite rbits_setb.
    rewrite (proj2 (Nat.leb_le _ _)) by auto. discriminate.
Qed.

(** ** Truncation *)
Theorem local_truncated : forall A (m : M reader A) P Q r c x a,
  local P m Q -> rlater r = [] -> P (lmod c) -> lmod x = 0%nat -> x <> [] ->
  m (setb r (c ++ x)) = (Ok a, setb r []) ->
  exists e r', m (setb r c) = (Err e, r').
Proof.
  intros A m P Q r c x a L Hr HP Hx Hne E.
  specialize (L r c x Hr HP Hx).
  destruct (m (setb r c)) as [[b|e| |] r'].
  - destruct L as (l' & _ & _ & E'). rewrite E in E'. exfalso.
    assert (E2 : [] = l' ++ x) by (apply (f_equal (fun y => rbits (snd y))) in E'; exact E'). symmetry in E2. apply app_eq_nil in E2. tauto.
  - eauto.
  - rewrite E in L. discriminate.
  - rewrite E in L. discriminate.
Qed.

(** ** Locality for computations on a pair state *)
Definition pair_m {T A} (m : M (T * reader) A) (t : T) : M reader (A * T) := fun r =>
  match m (t, r) with
  | (Ok a, (t', r')) => (Ok (a, t'), r')
  | (Err e, (_, r')) => (Err e, r')
  | (Panic, (_, r')) => (Panic, r')
  | (OutOfFuel, (_, r')) => (OutOfFuel, r')
  end.

Definition localp {T A} (P : nat -> Prop) (m : M (T * reader) A) (Q : nat -> Prop) : Prop :=
  forall t, local P (pair_m m t) Q.

Lemma local_ext : forall A (m m' : M reader A) P Q,
  (forall r, m r = m' r) -> local P m Q -> local P m' Q.
Proof.
  intros A m m' P Q E H r l x Hr Hl Hx. rewrite <- !E. now apply H.
Qed.

Lemma localp_bind : forall T A B (m : M (T * reader) A) (k : A -> M (T * reader) B) P Q R,
  localp P m Q -> (forall a, localp Q (k a) R) -> localp P (bind m k) R.
Proof.
  intros T A B m k P Q R Hm Hk t.
  apply local_ext with (m := bind (pair_m m t) (fun x => pair_m (k (fst x)) (snd x))).
  - intro r. unfold pair_m, bind. destruct (m (t, r)) as [[a|e| |] [t' r']]; reflexivity.
  - eapply local_bind; [apply Hm|]. intros [a t']. apply Hk.
Qed.

Lemma localp_onr : forall T A (m : M reader A) P Q, local P m Q -> localp (T := T) P (onr m) Q.
Proof.
  intros T A m P Q H t.
  apply local_ext with (m := bind m (fun a => ret (a, t))).
  - intro r. unfold pair_m, bind, onr. cbn [fst snd]. destruct (m r) as [[a|e| |] r']; reflexivity.
  - eapply local_bind; [apply H|]. intro. apply local_ret.
Qed.

Lemma localp_onrz : forall T A z (m : M reader A) P Q, local P m Q -> localp (T := T) P (onrz z m) Q.
Proof.
  intros T A z m P Q H t.
  apply local_ext with (m := bind m (fun a => ret (a, t))).
  - intro r. unfold pair_m, bind, onrz. cbn [fst snd]. destruct (m r) as [[a|e| |] r']; reflexivity.
  - eapply local_bind; [apply H|]. intro. apply local_ret.
Qed.

Lemma localp_upd : forall T (f : T -> T) P, localp P (upd f) P.
Proof. intros T f P t. apply (local_ret _ (tt, f t)). Qed.
Lemma localp_ret : forall T A (a : A) P, localp (T := T) P (ret a) P.
Proof. intros T A a P t. apply (local_ret _ (a, t)). Qed.
Lemma localp_if : forall T A (c : bool) (a b : M (T * reader) A) P Q,
  localp P a Q -> localp P b Q -> localp P (if c then a else b) Q.
Proof. intros. destruct c; auto. Qed.
Lemma localp_weaken : forall T A (P P' Q Q' : nat -> Prop) (m : M (T * reader) A),
  localp P m Q -> (forall n, P' n -> P n) -> (forall n, Q n -> Q' n) -> localp P' m Q'.
Proof. intros. intro t. eapply local_weaken; eauto. Qed.

Theorem localp_truncated : forall T A (m : M (T * reader) A) P Q t r c x a t',
  localp P m Q -> rlater r = [] -> P (lmod c) -> lmod x = 0%nat -> x <> [] ->
  m (t, setb r (c ++ x)) = (Ok a, (t', setb r [])) ->
  exists e s', m (t, setb r c) = (Err e, s').
Proof.
  intros T A m P Q t r c x a t' L Hr HP Hx Hne E.
  destruct (local_truncated _ (pair_m m t) P Q r c x (a, t') (L t) Hr HP Hx Hne) as (e & r' & H).
  { unfold pair_m. now rewrite E. }
  unfold pair_m in H. destruct (m (t, setb r c)) as [[b|e'| |] [t2 r2]]; inversion H; eauto.
Qed.
