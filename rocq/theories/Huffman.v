(** Huffman: the interface [huffman.HuffmanDecoder] as package video uses it.

    The package github.com/32bitkid/huffman is not part of /repo.  This file states what is
    assumed of it (see DESIGN.md, trusted base): [NewHuffmanDecoder] builds the binary tree
    of the codes of its table, blanks in a code being ignored, and [Decode] walks it: at a
    leaf it returns the value, at an inner node it reads one bit with [Read1] (an error of the
    reader is returned), and where the tree has no branch for the bit it returns
    [ErrMissingHuffmanValue]. *)
From Coq Require Import String Ascii.
From Verif Require Import Base BitReader Exec Local Mono TsRobust.

(** The bits of a code written as in the source, "0000 11". *)
Fixpoint bits_of (s : string) : list bool :=
  match s with
  | EmptyString => []
  | String "0" s => false :: bits_of s
  | String "1" s => true :: bits_of s
  | String _ s => bits_of s
  end.

(** huffman.HuffmanTable: from codes to values. *)
Definition htable (A : Type) : Type := list (string * A).

(** The same with the codes as bits. *)
Definition codes (A : Type) : Type := list (list bool * A).
Definition codes_of {A} (t : htable A) : codes A := map (fun e => (bits_of (fst e), snd e)) t.

(** The value at the root, if the root is a leaf. *)
Fixpoint leaf {A} (t : codes A) : option A :=
  match t with
  | [] => None
  | ([], a) :: _ => Some a
  | _ :: t => leaf t
  end.

(** The subtree below the branch [b]. *)
Fixpoint branch {A} (b : bool) (t : codes A) : codes A :=
  match t with
  | [] => []
  | (c :: l, a) :: t => if Bool.eqb b c then (l, a) :: branch b t else branch b t
  | ([], _) :: t => branch b t
  end.

Fixpoint maxlen {A} (t : codes A) : nat :=
  match t with [] => 0 | (c, _) :: t => Nat.max (length c) (maxlen t) end.

(** The walk; the fuel bounds the depth of the tree. *)
Fixpoint hwalk {A} (fuel : nat) (t : codes A) : M reader A :=
  match fuel with
  | O => nofuel
  | S fuel =>
      match leaf t with
      | Some a => ret a
      | None =>
          match t with
          | [] => fail ErrMissingHuffmanValue
          | _ => b <- read1 ;; hwalk fuel (branch b t)
          end
      end
  end.

(** HuffmanDecoder.Decode *)
Definition hdecode {A} (t : htable A) : M reader A :=
  hwalk (2 + maxlen (codes_of t)) (codes_of t).

(** * Prefix codes *)

Fixpoint is_prefix (a b : list bool) : bool :=
  match a, b with
  | [], _ => true
  | x :: a, y :: b => Bool.eqb x y && is_prefix a b
  | _, _ => false
  end.

Fixpoint prefix_free {A} (t : codes A) : bool :=
  match t with
  | [] => true
  | (c, _) :: t =>
      forallb (fun e => negb (is_prefix c (fst e)) && negb (is_prefix (fst e) c)) t && prefix_free t
  end.

Lemma is_prefix_spec : forall a b, is_prefix a b = true <-> exists l, b = a ++ l.
Proof.
  induction a; intros b; cbn.
  - split; eauto.
  - destruct b as [|y b]; [split; [discriminate | intros [l E]; discriminate]|].
    rewrite Bool.andb_true_iff, Bool.eqb_true_iff, IHa. split.
    + intros [-> [l ->]]. now exists l.
    + intros [l E]. injection E as -> ->. eauto.
Qed.

Definition pfree {A} (t : codes A) : Prop :=
  forall c d a b, In (c, a) t -> In (d, b) t -> is_prefix c d = true -> c = d /\ a = b.

Lemma prefix_free_pfree : forall A (t : codes A), prefix_free t = true -> pfree t.
Proof.
  induction t as [|[c a] t IH]; cbn; intros H x y u v Hx Hy Hp; [contradiction|].
  apply Bool.andb_true_iff in H. destruct H as [H1 H2]. rewrite forallb_forall in H1.
  destruct Hx as [E|Hx]; [|destruct Hy as [E|Hy]].
  - assert (x = c /\ u = a) as [-> ->] by (split; congruence). clear E.
    destruct Hy as [E|Hy]; [split; congruence|].
    specialize (H1 _ Hy). cbn in H1. rewrite Hp in H1. discriminate.
  - assert (y = c) as -> by congruence.
    specialize (H1 _ Hx). cbn in H1. rewrite Hp, Bool.andb_false_r in H1. discriminate.
  - now apply (IH H2 x y u v).
Qed.

Lemma in_branch : forall A b l (a : A) t, In (l, a) (branch b t) <-> In (b :: l, a) t.
Proof.
  induction t as [|[c x] t IH]; [cbn; tauto|].
  destruct c as [|c0 c]; cbn.
  - rewrite IH. split; [tauto | intros [E|H]; [discriminate|auto]].
  - destruct (Bool.eqb b c0) eqn:Eb; cbn; rewrite ?IH.
    + apply Bool.eqb_prop in Eb. subst c0.
      split; (intros [E|H]; [left; congruence | now right]).
    + apply Bool.eqb_false_iff in Eb.
      split; [tauto | intros [E|H]; [congruence|auto]].
Qed.

Lemma leaf_in : forall A (t : codes A) a, leaf t = Some a -> In ([], a) t.
Proof.
  induction t as [|[c x] t IH]; cbn; intros a H; [discriminate|].
  destruct c; [left; congruence | right; auto].
Qed.

Lemma leaf_none : forall A (t : codes A) a, leaf t = None -> ~ In ([], a) t.
Proof.
  induction t as [|[c x] t IH]; cbn; intros a H; [tauto|].
  destruct c; [discriminate|]. intros [E|Hi]; [discriminate|]. now apply (IH a).
Qed.

Lemma pfree_branch : forall A b (t : codes A), pfree t -> pfree (branch b t).
Proof.
  intros A b t H c d x y Hc Hd Hp. apply in_branch in Hc, Hd.
  destruct (H _ _ _ _ Hc Hd) as [E ->]; [cbn; now rewrite Bool.eqb_reflx|].
  injection E as ->. auto.
Qed.

Lemma maxlen_in : forall A (t : codes A) c a, In (c, a) t -> (length c <= maxlen t)%nat.
Proof.
  induction t as [|[d x] t IH]; cbn; intros c a H; [contradiction|].
  destruct H as [E|H]; [assert (d = c) as -> by congruence; lia|]. specialize (IH _ _ H). lia.
Qed.

Lemma maxlen_le : forall A (t : codes A) n, (forall c a, In (c, a) t -> (length c <= n)%nat) -> (maxlen t <= n)%nat.
Proof.
  induction t as [|[d x] t IH]; cbn; intros n H; [lia|].
  assert (length d <= n)%nat by eauto. assert (maxlen t <= n)%nat by eauto. lia.
Qed.

Lemma maxlen_branch : forall A b (t : codes A), branch b t <> [] -> (S (maxlen (branch b t)) <= maxlen t)%nat.
Proof.
  intros A b t Hne.
  assert (H : (maxlen (branch b t) <= pred (maxlen t))%nat).
  { apply maxlen_le. intros c a H. apply in_branch, maxlen_in in H. cbn in H. lia. }
  destruct (branch b t) as [|[c a] u] eqn:E; [congruence|].
  assert (Hi : In (c, a) (branch b t)) by (rewrite E; now left).
  apply in_branch, maxlen_in in Hi. cbn in Hi. lia.
Qed.

(** A code of the table is decoded to its value and consumed exactly. *)
Lemma hwalk_code : forall A f (t : codes A) c a r l,
  pfree t -> In (c, a) t -> (length c < f)%nat ->
  hwalk f t (setb r (c ++ l)) = (Ok a, setb r l).
Proof.
  induction f; intros t c a r l Hp Hi Hf; [lia|]. cbn [hwalk].
  destruct (leaf t) as [x|] eqn:El.
  - apply leaf_in in El. destruct (Hp _ _ _ _ El Hi eq_refl) as [<- <-]. reflexivity.
  - destruct c as [|b c]; [now apply (leaf_none _ _ a) in El|].
    destruct t as [|e t]; [contradiction|].
    change ((b :: c) ++ l) with (b :: (c ++ l)).
    rewrite (bind_ok _ _ _ _ _ _ _ _ (read1_cons b r (c ++ l))).
    apply IHf; [now apply pfree_branch | now apply in_branch | cbn in Hf; lia].
Qed.

(** Conversely what is decoded was a code of the table. *)
Lemma hwalk_ok_inv : forall A f (t : codes A) r a r',
  hwalk f t r = (Ok a, r') -> exists c, In (c, a) t /\ rbits r = c ++ rbits r' /\ r' = setb r (rbits r').
Proof.
  induction f; intros t r a r' H; [discriminate|]. cbn [hwalk] in H.
  destruct (leaf t) as [x|] eqn:El.
  - assert (x = a /\ r = r') as [-> ->] by (unfold ret in H; split; congruence).
    exists []. apply leaf_in in El. rewrite setb_rbits. auto.
  - destruct t as [|e t]; [discriminate|].
    remember (e :: t) as t0. apply bind_ok_inv in H. destruct H as (b & s & H1 & H2).
    apply IHf in H2. destruct H2 as (c & Hi & Hr & Hs). apply in_branch in Hi.
    exists (b :: c). split; [exact Hi|].
    destruct (rbits r) as [|b0 l] eqn:Eb.
    + unfold read1, bind, read_n, short in H1. rewrite Eb in H1. discriminate.
    + assert (E : read1 (setb r (b0 :: l)) = (Ok b, s)) by (rewrite <- Eb, setb_rbits; exact H1).
      rewrite read1_cons in E.
      assert (b0 = b /\ setb r l = s) as [-> <-] by (split; congruence).
      rewrite rbits_setb in Hr. cbn. rewrite <- Hr. split; [reflexivity|]. exact Hs.
Qed.

(** The walk always ends with a value or an error. *)
Lemma hwalk_safe : forall A f (t : codes A), (maxlen t + 2 <= f)%nat -> safe (hwalk f t).
Proof.
  assert (H : forall A f (t : codes A), ((t = [] /\ 1 <= f) \/ maxlen t + 2 <= f)%nat -> safe (hwalk f t)).
  { induction f; intros t Hf; [lia|]. cbn [hwalk].
    destruct (leaf t); [apply safe_ret|].
    destruct t as [|e t]; [apply safe_fail|].
    apply safe_bind; [apply safe_read1|]. intros b. apply IHf.
    destruct (branch b (e :: t)) eqn:Eb; [left; split; [reflexivity|]|right].
    - destruct Hf as [[? _]|Hf]; [discriminate|lia].
    - rewrite <- Eb. assert (S (maxlen (branch b (e :: t))) <= maxlen (e :: t))%nat
        by (apply maxlen_branch; congruence).
      destruct Hf as [[? _]|Hf]; [discriminate|lia]. }
  intros. apply H. auto.
Qed.

Lemma mono_hwalk : forall A f (t : codes A), mono (hwalk f t).
Proof.
  induction f; intros t; cbn [hwalk]; [apply mono_nofuel|].
  destruct (leaf t); [apply mono_ret|]. destruct t; [apply mono_fail|].
  apply mono_bind; [apply mono_read1|auto].
Qed.

Lemma mono_hdecode : forall A (t : htable A), mono (hdecode t).
Proof. intros. apply mono_hwalk. Qed.

Lemma hdecode_safe : forall A (t : htable A), safe (hdecode t).
Proof. intros. apply hwalk_safe. lia. Qed.

Lemma hdecode_code : forall A (t : htable A) c a r l,
  prefix_free (codes_of t) = true -> In (c, a) (codes_of t) ->
  hdecode t (setb r (c ++ l)) = (Ok a, setb r l).
Proof.
  intros. apply hwalk_code; auto using prefix_free_pfree.
  apply maxlen_in in H0. lia.
Qed.

Lemma hdecode_ok_inv : forall A (t : htable A) r a r', hdecode t r = (Ok a, r') ->
  exists c, In (c, a) (codes_of t) /\ rbits r = c ++ rbits r' /\ r' = setb r (rbits r').
Proof. intros A t r a r'. apply hwalk_ok_inv. Qed.

Definition bits_eqb (a b : list bool) : bool := is_prefix a b && is_prefix b a.

Lemma bits_eqb_eq : forall a b, bits_eqb a b = true -> a = b.
Proof.
  unfold bits_eqb. induction a; destruct b; cbn; auto; try discriminate.
  rewrite !Bool.andb_true_iff, !Bool.eqb_true_iff. intros [[-> H1] [_ H2]].
  f_equal. apply IHa. now rewrite H1, H2.
Qed.

(** A table is the same code as a list of (code, value) given independently: checked by
    computation in both directions. *)
Lemma codes_incl_dec : forall A (eqb : A -> A -> bool) (s t : codes A),
  (forall a b, eqb a b = true -> a = b) ->
  forallb (fun e => existsb (fun e' => bits_eqb (fst e) (fst e') && eqb (snd e) (snd e')) t) s = true ->
  forall c a, In (c, a) s -> In (c, a) t.
Proof.
  intros A eqb s t He H c a Hi. rewrite forallb_forall in H. specialize (H _ Hi).
  apply existsb_exists in H. destruct H as ([d b] & Hd & Hx). cbn in Hx.
  apply Bool.andb_true_iff in Hx. destruct Hx as [H1 H2].
  apply bits_eqb_eq in H1. apply He in H2. now subst.
Qed.

Lemma safe_hdecode : forall A (t : htable A), safe (hdecode t).
Proof. exact hdecode_safe. Qed.
Global Hint Resolve mono_hdecode : mono.
