(** SpecFaults: what a reader over a tape of bytes and errors returns, whatever the sizes of the reads. *)
From Verif Require Import Base.

(** What comes next on the tape: a byte of data or an error. *)
Inductive symbol : Type := Byte (b : Z) | Fault (e : err).

(** One read of [n] bytes: it takes bytes until it has [n] of them or until it takes an error, which it
    returns together with the bytes before it.  The rest of the tape is for the reads that follow.
    [None]: the tape is too short to tell. *)
Fixpoint tape_read (n : nat) (tape : list symbol) : option ((list Z * option err) * list symbol) :=
  match n with
  | O => Some (([], None), tape)
  | S m =>
      match tape with
      | [] => None
      | Fault e :: t => Some (([], Some e), t)
      | Byte b :: t =>
          match tape_read m t with
          | None => None
          | Some ((bs, e), t') => Some ((b :: bs, e), t')
          end
      end
  end.

(** Reads of the given sizes, one after the other. *)
Fixpoint tape_reads (sizes : list nat) (tape : list symbol) : option (list (list Z * option err)) :=
  match sizes with
  | [] => Some []
  | n :: t =>
      match tape_read n tape with
      | None => None
      | Some (out, tape') =>
          match tape_reads t tape' with
          | None => None
          | Some outs => Some (out :: outs)
          end
      end
  end.

(** The bytes and errors that calling [next] [k] times writes on the tape, [shows] being the bytes a
    packet that was read without error adds.  [p] is the packet the calls overwrite, [src] the source. *)
Inductive calls {P R} (next : P * R -> res unit * (P * R)) (shows : P -> list Z) : nat -> P * R -> list symbol -> P * R -> Prop :=
| calls_none : forall s, calls next shows 0 s [] s
| calls_ok : forall k s p src tape s', next s = (Ok tt, (p, src)) -> calls next shows k (p, src) tape s' ->
    calls next shows (S k) s (map Byte (shows p) ++ tape) s'
| calls_error : forall k s e s1 tape s', next s = (Err e, s1) -> calls next shows k s1 tape s' ->
    calls next shows (S k) s (Fault e :: tape) s'.
