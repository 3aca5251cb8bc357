(** BitReader: the interface [bitreader.BitReader] as the code uses it.

    The package github.com/32bitkid/bitreader is not part of /repo.  This file states what
    is assumed of it (see DESIGN.md, trusted base).  The source is a sequence of whole
    bytes ended by an error; a source such as the payload unit reader can go on after an
    error (EOP), hence the list of later segments.  The definitions below have no lines in /repo to cite; they model the
    methods of the interface as called, for example, in ts/packet.go:74-130 (Skip, Read1, Read32, io.ReadFull), ts/packet.go:141-172
    (IsAligned, Align, Peek32), pes/packet.go:57-105 (ReadAtLeast, ReadAll), video/picture_header.go:72 (Peek1). *)
From Verif Require Import Base.

Record reader : Type := mkR {
  rbits  : list bool;              (* bits not yet read of the current segment *)
  rfin   : err;                    (* error the source reports at the end of the segment *)
  rlater : list (list bool * err); (* what the source delivers after having reported it *)
  rshort : nat -> nat -> err       (* error of a bit read of n bits when 0 < k < n are left *)
}.

Definition setb (r : reader) (l : list bool) : reader :=
  mkR l (rfin r) (rlater r) (rshort r).

(** The end of the segment has been reported: go on with what follows. *)
Definition advance (r : reader) : reader :=
  match rlater r with
  | [] => setb r []
  | (b, e) :: t => mkR b e t (rshort r)
  end.

(** A bit read or peek that cannot be satisfied: with no bit left the error is the source's own
    and it has been taken from the source; with some bits left they stay.  The value returned
    beside the error is taken to be zero (false for Read1); callers that store it before testing
    the error are modelled with [onrz]. *)
Definition short {A} (n : nat) (r : reader) : res A * reader :=
  match rbits r with
  | [] => (Err (rfin r), advance r)
  | _ => (Err (rshort r n (length (rbits r))), r)
  end.

(** Read8/Read16/Read32/Read64(n) *)
Definition read_n (n : nat) : M reader Z := fun r =>
  if Nat.leb n (length (rbits r))
  then (Ok (dec (firstn n (rbits r))), setb r (skipn n (rbits r)))
  else short n r.

(** Peek8/Peek16/Peek32(n) *)
Definition peek_n (n : nat) : M reader Z := fun r =>
  if Nat.leb n (length (rbits r))
  then (Ok (dec (firstn n (rbits r))), r)
  else short n r.

(** Read1, Peek1 *)
Definition read1 : M reader bool := b <- read_n 1 ;; ret (Z.eqb b 1).
Definition peek1 : M reader bool := b <- peek_n 1 ;; ret (Z.eqb b 1).

(** Skip(n) *)
Definition skip_n (n : nat) : M reader unit := read_n n ;; ret tt.

(** IsAligned: the source is made of whole bytes, so alignment shows in what is left. *)
Definition is_aligned (r : reader) : bool := Nat.eqb (Nat.modulo (length (rbits r)) 8) 0.

(** Align: skip to the next byte boundary (nothing when aligned). *)
Definition align (r : reader) : reader :=
  setb r (skipn (Nat.modulo (length (rbits r)) 8) (rbits r)).
Definition align_m : M reader unit := fun r => (Ok tt, align r).

(** Number of whole bytes left. *)
Definition avail (r : reader) : Z := Z.of_nat (length (rbits r)) / 8.

(** io.ReadFull(br, p) with len(p) = n: bytes copied to p, and the error. *)
Definition read_full (n : Z) (r : reader) : (list Z * option err) * reader :=
  if n <=? 0 then (([], None), r)
  else if n <=? avail r then
    ((get_bytes (Z.to_nat n) (rbits r), None), setb r (skipn (8 * Z.to_nat n) (rbits r)))
  else
    ((get_bytes (Z.to_nat (avail r)) (rbits r),
      Some (match rfin r with
            | EEOF => if avail r =? 0 then EEOF else EUnexpectedEOF
            | e => e
            end)),
     advance r).

(** The same as a computation that only cares for the bytes on success. *)
Definition read_bytes (n : Z) : M reader (list Z) := fun r =>
  let '((bs, e), r') := read_full n r in
  match e with None => (Ok bs, r') | Some e => (Err e, r') end.

(** ioutil.ReadAll(br): everything up to the error; io.EOF becomes nil. *)
Definition read_all (r : reader) : (list Z * option err) * reader :=
  ((get_bytes (Z.to_nat (avail r)) (rbits r),
    match rfin r with EEOF => None | e => Some e end),
   advance r).

(** * Lemmas *)

Lemma setb_setb : forall r a b, setb (setb r a) b = setb r b.
Proof. reflexivity. Qed.
Lemma rbits_setb : forall r a, rbits (setb r a) = a.
Proof. reflexivity. Qed.
Lemma setb_rbits : forall r, setb r (rbits r) = r.
Proof. destruct r; reflexivity. Qed.

Lemma read_n_app : forall n r a l, length a = n ->
  read_n n (setb r (a ++ l)) = (Ok (dec a), setb r l).
Proof.
  intros. unfold read_n. rewrite rbits_setb.
  rewrite firstn_app_exact, skipn_app_exact by auto.
  rewrite app_length, (proj2 (Nat.leb_le _ _)) by lia. reflexivity.
Qed.

Lemma read_enc : forall n v r l, 0 <= v < 2 ^ Z.of_nat n ->
  read_n n (setb r (enc n v ++ l)) = (Ok v, setb r l).
Proof. intros. rewrite read_n_app by apply enc_length. now rewrite dec_enc. Qed.

Lemma peek_n_app : forall n r a l, length a = n ->
  peek_n n (setb r (a ++ l)) = (Ok (dec a), setb r (a ++ l)).
Proof.
  intros. unfold peek_n. rewrite rbits_setb.
  rewrite firstn_app_exact by auto.
  rewrite app_length, (proj2 (Nat.leb_le _ _)) by lia. reflexivity.
Qed.

Lemma peek_enc : forall n v r l, 0 <= v < 2 ^ Z.of_nat n ->
  peek_n n (setb r (enc n v ++ l)) = (Ok v, setb r (enc n v ++ l)).
Proof. intros. rewrite peek_n_app by apply enc_length. now rewrite dec_enc. Qed.

Lemma read1_bit : forall b r l, read1 (setb r (bit b ++ l)) = (Ok b, setb r l).
Proof. intros. destruct b; reflexivity. Qed.

Lemma read1_cons : forall b r l, read1 (setb r (b :: l)) = (Ok b, setb r l).
Proof. intros. destruct b; reflexivity. Qed.

Lemma peek1_cons : forall b r l, peek1 (setb r (b :: l)) = (Ok b, setb r (b :: l)).
Proof. intros. destruct b; reflexivity. Qed.

Lemma skip_app : forall n r a l, length a = n ->
  skip_n n (setb r (a ++ l)) = (Ok tt, setb r l).
Proof. intros. unfold skip_n, bind. now rewrite read_n_app. Qed.

Lemma skip_enc : forall n v r l, skip_n n (setb r (enc n v ++ l)) = (Ok tt, setb r l).
Proof. intros. apply skip_app. apply enc_length. Qed.

Lemma avail_setb : forall r l, avail (setb r l) = Z.of_nat (length l) / 8.
Proof. reflexivity. Qed.

Lemma read_full_bb : forall bs r l, bytes bs ->
  read_full (blen bs) (setb r (bb bs ++ l)) = ((bs, None), setb r l).
Proof.
  intros bs r l H. unfold read_full, blen.
  destruct (Z.of_nat (length bs) <=? 0) eqn:E.
  - destruct bs; [reflexivity|]. apply Z.leb_le in E. cbn [length] in E. lia.
  - rewrite avail_setb, app_length, bb_length.
    rewrite (proj2 (Z.leb_le _ _)).
    2:{ apply Z.div_le_lower_bound; lia. }
    rewrite Nat2Z.id, rbits_setb. rewrite get_bytes_bb by auto.
    rewrite skipn_app_exact by apply bb_length. reflexivity.
Qed.

Lemma read_bytes_bb : forall bs r l, bytes bs ->
  read_bytes (blen bs) (setb r (bb bs ++ l)) = (Ok bs, setb r l).
Proof. intros. unfold read_bytes. now rewrite read_full_bb. Qed.

Lemma is_aligned_setb : forall r l, is_aligned (setb r l) = Nat.eqb (length l mod 8) 0.
Proof. reflexivity. Qed.

Lemma align_aligned : forall r, is_aligned r = true -> align r = r.
Proof.
  intros r H. unfold is_aligned in H. apply Nat.eqb_eq in H.
  unfold align. rewrite H. simpl. apply setb_rbits.
Qed.

Lemma read_enc_mod : forall n v r l,
  read_n n (setb r (enc n v ++ l)) = (Ok (v mod 2 ^ Z.of_nat n), setb r l).
Proof. intros. rewrite read_n_app by apply enc_length. now rewrite dec_enc_mod. Qed.
