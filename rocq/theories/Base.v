(** Base: numbers, bits, outcomes and the state monad used by the model. *)
From Coq Require Export ZArith List Lia Bool.
Export ListNotations.
Open Scope Z_scope.

(** * Errors

    One type for every Go error value the modelled code can return.
    [ESource] stands for any other error the underlying [io.Reader] may return. *)
Inductive err : Type :=
| EEOF                       (* io.EOF *)
| EUnexpectedEOF             (* io.ErrUnexpectedEOF *)
| EOP                        (* ts/payload_unit_reader.go:11 *)
| ErrNoSyncByte              (* ts/packet.go:16 *)
| ErrStartCodePrefixNotFound (* pes/pes.go *)
| ErrMarkerNotFound          (* pes/pes.go, ps/ps.go *)
| ErrInvalidStuffingByte     (* pes/header.go *)
| ErrProgramEndCodeNotFound  (* ps *)
| ErrPsUnexpectedStartCode   (* ps/start_code.go *)
| ErrUnexpectedNonZeroByte   (* video/next_start_code.go *)
| ErrMissingMarkerBit        (* video *)
| ErrUnexpectedStartCode     (* video/start_codes.go *)
| ErrUnexpectedExtensionID   (* video/extension_id.go *)
| ErrInvalidReservedBits     (* video *)
| ErrUnsupported             (* video: ErrUnsupportedVideoStream_ISO_IEC_11172_2 *)
| EOS                        (* video: end of sequence *)
| ErrUnexpectedDecodedValueType (* video/dtc_coefficients.go *)
| ErrMissingHuffmanValue     (* github.com/32bitkid/huffman *)
| ESource (k : nat).

Definition err_eqb (a b : err) : bool :=
  match a, b with
  | EEOF, EEOF | EUnexpectedEOF, EUnexpectedEOF | EOP, EOP
  | ErrNoSyncByte, ErrNoSyncByte
  | ErrStartCodePrefixNotFound, ErrStartCodePrefixNotFound
  | ErrMarkerNotFound, ErrMarkerNotFound
  | ErrInvalidStuffingByte, ErrInvalidStuffingByte
  | ErrProgramEndCodeNotFound, ErrProgramEndCodeNotFound
  | ErrPsUnexpectedStartCode, ErrPsUnexpectedStartCode
  | ErrUnexpectedNonZeroByte, ErrUnexpectedNonZeroByte
  | ErrMissingMarkerBit, ErrMissingMarkerBit
  | ErrUnexpectedStartCode, ErrUnexpectedStartCode
  | ErrUnexpectedExtensionID, ErrUnexpectedExtensionID
  | ErrInvalidReservedBits, ErrInvalidReservedBits
  | ErrUnsupported, ErrUnsupported
  | EOS, EOS
  | ErrUnexpectedDecodedValueType, ErrUnexpectedDecodedValueType
  | ErrMissingHuffmanValue, ErrMissingHuffmanValue => true
  | ESource j, ESource k => Nat.eqb j k
  | _, _ => false
  end.

Lemma err_eqb_eq : forall a b, err_eqb a b = true <-> a = b.
Proof.
  intros a b; split.
  - destruct a, b; simpl; intro H; try discriminate; try reflexivity.
    apply Nat.eqb_eq in H; now subst.
  - intros ->; destruct b; simpl; auto using Nat.eqb_refl.
Qed.

Lemma err_eqb_refl : forall a, err_eqb a a = true.
Proof. intro; now apply err_eqb_eq. Qed.

(** * Outcomes of a call *)
Inductive res (A : Type) : Type :=
| Ok (a : A)
| Err (e : err)
| Panic
| OutOfFuel.
Arguments Ok {A}. Arguments Err {A}. Arguments Panic {A}. Arguments OutOfFuel {A}.

(** State and outcome monad: the state survives errors and panics. *)
Definition M (S A : Type) : Type := S -> res A * S.

Definition ret {S A} (a : A) : M S A := fun s => (Ok a, s).
Definition fail {S A} (e : err) : M S A := fun s => (Err e, s).
Definition panic {S A} : M S A := fun s => (Panic, s).
Definition nofuel {S A} : M S A := fun s => (OutOfFuel, s).
Definition bind {S A B} (m : M S A) (k : A -> M S B) : M S B := fun s =>
  match m s with
  | (Ok a, s') => k a s'
  | (Err e, s') => (Err e, s')
  | (Panic, s') => (Panic, s')
  | (OutOfFuel, s') => (OutOfFuel, s')
  end.

Declare Scope m_scope.
Delimit Scope m_scope with m.
Notation "x <- m ;; k" := (bind m (fun x => k))
  (at level 61, m at next level, right associativity) : m_scope.
Notation "' p <- m ;; k" := (bind m (fun p => k))
  (at level 61, p pattern, m at next level, right associativity) : m_scope.
Notation "m ;; k" := (bind m (fun _ => k))
  (at level 61, right associativity) : m_scope.
Open Scope m_scope.

(** A Go call whose error result is discarded. *)
Definition ignore_err {S A} (d : A) (m : M S A) : M S A := fun s =>
  match m s with
  | (Err _, s') => (Ok d, s')
  | x => x
  end.

Definition get {S} : M S S := fun s => (Ok s, s).
Definition put {S} (x : S) : M S unit := fun _ => (Ok tt, x).
Definition modify {S} (f : S -> S) : M S unit := fun s => (Ok tt, f s).

(** Use of a computation on the second component of a pair state. *)
Definition onr {T R A} (m : M R A) : M (T * R) A := fun s =>
  let '(a, r') := m (snd s) in (a, (fst s, r')).
(** [x.f, err = m(..); if err != nil { return }]: on an error the field still gets the value
    returned beside the error, the zero value for Read1 and Read32; [z] stores it. *)
Definition onrz {T R A} (z : T -> T) (m : M R A) : M (T * R) A := fun s =>
  match m (snd s) with
  | (Err e, r') => (Err e, (z (fst s), r'))
  | (a, r') => (a, (fst s, r'))
  end.
(** Update of the first component. *)
Definition upd {T R} (f : T -> T) : M (T * R) unit := fun s => (Ok tt, (f (fst s), snd s)).

Lemma bind_ok : forall S A B (m : M S A) (k : A -> M S B) s a s',
  m s = (Ok a, s') -> bind m k s = k a s'.
Proof. intros. unfold bind. now rewrite H. Qed.
Lemma bind_err : forall S A B (m : M S A) (k : A -> M S B) s e s',
  m s = (Err e, s') -> bind m k s = (Err e, s').
Proof. intros. unfold bind. now rewrite H. Qed.
Lemma bind_panic : forall S A B (m : M S A) (k : A -> M S B) s s',
  m s = (Panic, s') -> bind m k s = (Panic, s').
Proof. intros. unfold bind. now rewrite H. Qed.
Lemma onr_ok : forall T R A (m : M R A) (t : T) r a r',
  m r = (a, r') -> onr m (t, r) = (a, (t, r')).
Proof. intros. unfold onr; simpl. now rewrite H. Qed.

(** * Fixed width arithmetic *)
Definition u8 (x : Z) : Z := x mod 256.
Definition u16 (x : Z) : Z := x mod 65536.
Definition u32 (x : Z) : Z := x mod 4294967296.
Definition i32 (x : Z) : Z := (x + 2147483648) mod 4294967296 - 2147483648.

Lemma u32_small : forall x, 0 <= x < 4294967296 -> u32 x = x.
Proof. intros; unfold u32; now apply Z.mod_small. Qed.
Lemma i32_small : forall x, -2147483648 <= x < 2147483648 -> i32 x = x.
Proof. intros; unfold i32; rewrite Z.mod_small; lia. Qed.

(** * Bits *)

(** [enc n v]: the [n] low bits of [v], most significant first. *)
Fixpoint enc (n : nat) (v : Z) : list bool :=
  match n with
  | O => []
  | S k => Z.testbit v (Z.of_nat k) :: enc k v
  end.

(** [dec l]: the unsigned number written by [l], most significant first. *)
Definition dec (l : list bool) : Z := fold_left (fun a b => 2 * a + Z.b2z b) l 0.

Lemma enc_length : forall n v, length (enc n v) = n.
Proof. induction n; simpl; auto. Qed.

Lemma dec_acc : forall l a,
  fold_left (fun a b => 2 * a + Z.b2z b) l a = a * 2 ^ Z.of_nat (length l) + dec l.
Proof.
  unfold dec. induction l as [|b l IH]; intros a.
  - simpl. lia.
  - cbn [fold_left length]. rewrite IH. rewrite (IH (2 * 0 + Z.b2z b)).
    rewrite Nat2Z.inj_succ, Z.pow_succ_r by lia. ring.
Qed.

Lemma dec_cons : forall b l, dec (b :: l) = Z.b2z b * 2 ^ Z.of_nat (length l) + dec l.
Proof.
  intros. unfold dec at 1. cbn [fold_left]. rewrite dec_acc. f_equal; try ring.
Qed.

Lemma dec_app : forall a b, dec (a ++ b) = dec a * 2 ^ Z.of_nat (length b) + dec b.
Proof. intros. unfold dec at 1. rewrite fold_left_app. apply dec_acc. Qed.

Lemma dec_range : forall l, 0 <= dec l < 2 ^ Z.of_nat (length l).
Proof.
  induction l as [|b l IH].
  - unfold dec; simpl; lia.
  - rewrite dec_cons. cbn [length]. rewrite Nat2Z.inj_succ, Z.pow_succ_r by lia.
    destruct b; cbn [Z.b2z]; lia.
Qed.

Lemma dec_enc_mod : forall n v, dec (enc n v) = v mod 2 ^ Z.of_nat n.
Proof.
  induction n; intros v.
  - unfold dec; simpl. now rewrite Z.mod_1_r.
  - cbn [enc]. rewrite dec_cons, enc_length, IHn.
    rewrite Nat2Z.inj_succ, Z.pow_succ_r by lia.
    rewrite (Z.mul_comm 2).
    rewrite Z.rem_mul_r by lia.
    rewrite Z.testbit_spec' by lia. ring.
Qed.

Lemma dec_enc : forall n v, 0 <= v < 2 ^ Z.of_nat n -> dec (enc n v) = v.
Proof. intros. rewrite dec_enc_mod. now apply Z.mod_small. Qed.

Lemma enc_dec : forall l, enc (length l) (dec l) = l.
Proof.
  assert (G : forall l n v, (n = length l)%nat -> 0 <= v ->
     enc n (v * 2 ^ Z.of_nat n + dec l) = l).
  { induction l as [|b l IH]; intros n v -> Hv.
    - reflexivity.
    - cbn [length enc]. f_equal.
      + rewrite dec_cons.
        pose proof (dec_range l).
        rewrite Nat2Z.inj_succ, Z.pow_succ_r by lia.
        apply Bool.eq_iff_eq_true. rewrite Z.testbit_true by lia.
        replace (v * (2 * 2 ^ Z.of_nat (length l)) + (Z.b2z b * 2 ^ Z.of_nat (length l) + dec l))
          with (dec l + (v * 2 + Z.b2z b) * 2 ^ Z.of_nat (length l)) by ring.
        rewrite Z.div_add by lia. rewrite (Z.div_small (dec l)) by lia.
        rewrite Z.add_0_l, Z.add_comm, Z.mod_add by lia.
        destruct b; cbn; split; congruence.
      + rewrite dec_cons, Nat2Z.inj_succ, Z.pow_succ_r by lia.
        replace (v * (2 * 2 ^ Z.of_nat (length l)) + (Z.b2z b * 2 ^ Z.of_nat (length l) + dec l))
          with ((v * 2 + Z.b2z b) * 2 ^ Z.of_nat (length l) + dec l) by ring.
        apply IH; [reflexivity | destruct b; cbn [Z.b2z]; lia]. }
  intros l. specialize (G l (length l) 0 eq_refl (Z.le_refl 0)).
  rewrite Z.mul_0_l, Z.add_0_l in G. exact G.
Qed.

Lemma enc_inj : forall n v w, 0 <= v < 2 ^ Z.of_nat n -> 0 <= w < 2 ^ Z.of_nat n ->
  enc n v = enc n w -> v = w.
Proof. intros n v w Hv Hw H. rewrite <- (dec_enc n v), <- (dec_enc n w) by auto. now rewrite H. Qed.

Lemma enc_app : forall a b v, enc (a + b) v = enc a (v / 2 ^ Z.of_nat b) ++ enc b v.
Proof.
  induction a; intros b v; cbn [enc Nat.add app]; auto.
  rewrite IHa. f_equal. rewrite Z.div_pow2_bits by lia. f_equal. lia.
Qed.

Lemma enc_ext_mod : forall n v, enc n (v mod 2 ^ Z.of_nat n) = enc n v.
Proof.
  intros. rewrite <- dec_enc_mod. rewrite <- (enc_length n v) at 1. apply enc_dec.
Qed.

(** One flag bit. *)
Definition bit (b : bool) : list bool := [b].

(** * Bytes *)
Definition byte (b : Z) : Prop := 0 <= b < 256.
Definition bytes (l : list Z) : Prop := Forall byte l.
Definition bb (l : list Z) : list bool := flat_map (enc 8) l.

Lemma bb_app : forall a b, bb (a ++ b) = bb a ++ bb b.
Proof. intros; apply flat_map_app. Qed.
Lemma bb_cons : forall a b, bb (a :: b) = enc 8 a ++ bb b.
Proof. reflexivity. Qed.
Lemma bb_length : forall l, length (bb l) = (8 * length l)%nat.
Proof. induction l; auto. rewrite bb_cons, app_length, enc_length, IHl. cbn [length]. lia. Qed.

(** The first [n] bytes of a bit list. *)
Fixpoint get_bytes (n : nat) (l : list bool) : list Z :=
  match n with
  | O => []
  | S k => dec (firstn 8 l) :: get_bytes k (skipn 8 l)
  end.

Lemma firstn_app_exact : forall A n (a b : list A), length a = n -> firstn n (a ++ b) = a.
Proof. intros; subst. rewrite firstn_app, firstn_all, Nat.sub_diag. simpl. apply app_nil_r. Qed.
Lemma skipn_app_exact : forall A n (a b : list A), length a = n -> skipn n (a ++ b) = b.
Proof. intros; subst. rewrite skipn_app, skipn_all, Nat.sub_diag. reflexivity. Qed.

Lemma get_bytes_bb : forall bs rest, bytes bs -> get_bytes (length bs) (bb bs ++ rest) = bs.
Proof.
  induction bs as [|b bs IH]; intros rest H; auto.
  inversion H as [|? ? Hb Hbs]; subst. cbn [length get_bytes].
  rewrite bb_cons, <- app_assoc.
  rewrite firstn_app_exact, skipn_app_exact by apply enc_length.
  rewrite IH by auto. now rewrite dec_enc by exact Hb.
Qed.

Lemma get_bytes_length : forall n l, length (get_bytes n l) = n.
Proof. induction n; simpl; auto. Qed.

Lemma get_bytes_bytes : forall n l, bytes (get_bytes n l).
Proof.
  induction n; intro l; cbn [get_bytes]; constructor; auto.
  - unfold byte. pose proof (dec_range (firstn 8 l)).
    assert (length (firstn 8 l) <= 8)%nat by (rewrite firstn_length; lia).
    assert (2 ^ Z.of_nat (length (firstn 8 l)) <= 2 ^ 8) by (apply Z.pow_le_mono_r; lia).
    change (2 ^ 8) with 256 in *. lia.
  - apply IHn.
Qed.

Lemma bb_get_bytes : forall n l, (8 * n <= length l)%nat -> bb (get_bytes n l) = firstn (8 * n) l.
Proof.
  induction n; intros l H; auto.
  cbn [get_bytes]. rewrite bb_cons, IHn by (rewrite skipn_length; lia).
  assert (E : length (firstn 8 l) = 8%nat) by (rewrite firstn_length; lia).
  replace (8 * S n)%nat with (8 + 8 * n)%nat by lia.
  rewrite <- (firstn_skipn 8 l) at 3.
  rewrite firstn_app, E.
  rewrite (firstn_all2 (n := (8 + 8 * n)%nat) (firstn 8 l)) by lia.
  replace (8 + 8 * n - 8)%nat with (8 * n)%nat by lia.
  f_equal. rewrite <- E at 1. apply enc_dec.
Qed.

Definition blen (l : list Z) : Z := Z.of_nat (length l).

(** What the Go expression [copy(dst, src)] leaves in [dst]. *)
Definition copy_into (dst src : list Z) : list Z := src ++ skipn (length src) dst.

Global Hint Rewrite app_length enc_length bb_length firstn_length skipn_length : len.
