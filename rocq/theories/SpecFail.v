(** SpecFail: what the errors of ts, pes and ps packets say about the bytes (C106), on bits alone. *)
From Verif Require Import Base BitReader SpecError.

(** The source has come to its end: everything has been read and the error is that of the source (or io.ErrUnexpectedEOF for
    io.EOF, when part of what was asked for was there), or fewer bits are left than the at most 33 that were asked for. *)
Definition stopped (r : reader) (e : err) (l : list bool) : Prop :=
  (l = [] /\ (e = rfin r \/ rfin r = EEOF /\ e = EUnexpectedEOF)) \/ exists n, (0 < length l < n)%nat /\ (n <= 33)%nat /\ e = rshort r n (length l).

(** In each case [c] are the last bits that were read, [l] are the next. *)
Inductive ts_fault : err -> list bool -> list bool -> Prop :=
(* 188 bytes, none of them a sync byte *)
| no_sync : forall bs l, length bs = 188%nat -> bytes bs -> ~ In 71 bs -> ts_fault ErrNoSyncByte (bb bs) l.

Inductive pes_fault : err -> list bool -> list bool -> Prop :=
(* The packet does not begin with 0x000001; nothing of it was read. *)
| no_start : forall l, next_bits 24 (fun v => v <> 1) l -> pes_fault ErrStartCodePrefixNotFound [] l
(* A marker that has another value: of the header, of a time stamp (its first, or a single bit) or of the P-STD buffer *)
| bad_marker : forall n m v l, In (n, m) [(2, 2); (4, 1); (4, 2); (4, 3); (1, 1); (2, 1)]%nat -> 0 <= v < 2 ^ Z.of_nat n -> v <> Z.of_nat m -> pes_fault ErrMarkerNotFound (enc n v) l
(* The source ends in a marker, which the error does not tell. *)
| cut_marker : forall l, (length l < 4)%nat -> pes_fault ErrMarkerNotFound [] l
(* A stuffing byte other than 0xFF *)
| bad_stuffing : forall v l, 0 <= v < 255 -> pes_fault ErrInvalidStuffingByte (enc 8 v) l.

Inductive ps_fault : err -> list bool -> list bool -> Prop :=
(* There is no pack start code; nothing was read. *)
| no_pack : forall l, next_bits 32 (fun v => v <> 442) l -> ps_fault ErrPsUnexpectedStartCode [] l
(* A marker of the pack header or the system header that has another value *)
| bad_ps_marker : forall n m v l, In (n, m) [(2, 1); (1, 1); (2, 3)]%nat -> 0 <= v < 2 ^ Z.of_nat n -> v <> Z.of_nat m -> ps_fault ErrMarkerNotFound (enc n v) l.

(** The error [e], returned when of the reader [r] the reader [r'] is left, is explained by the bits between and after. *)
Definition explained (F : err -> list bool -> list bool -> Prop) (r : reader) (e : err) (r' : reader) : Prop :=
  exists c, rbits r = c ++ rbits r' /\ (stopped r e (rbits r') \/ exists c1 c2, c = c1 ++ c2 /\ F e c2 (rbits r')).
