(** SpecPackTape: what ps.NewPackReader returns over any bytes, whatever the sizes of the reads. *)
From Verif Require Import Base BitReader PesModel PsModel.

(** What comes next on the tape: a byte of data; something at which the Read in progress gives up, forgets what it
    has copied and returns 0 bytes with an error or with none; or the end of the program. *)
Inductive mark : Type := Data (b : Z) | Lose (e : option err) | TheEnd.

(** One Read of [n] bytes that has copied [got]: it takes marks until its buffer is full or until it takes one
    that is no byte.  The rest of the tape is for the reads that follow.  [None]: the tape is too short to tell. *)
Fixpoint pack_read (n : nat) (got : list Z) (tape : list mark) : option ((list Z * option err) * list mark) :=
  match n with
  | O => Some ((got, None), tape)
  | S m =>
      match tape with
      | [] => None
      | Data b :: t => pack_read m (got ++ [b]) t
      | Lose e :: t => Some (([], e), t)
      | TheEnd :: t => Some ((got, Some EEOF), t)
      end
  end.

(** Reads of the given sizes, one after the other. *)
Fixpoint pack_reads (sizes : list nat) (tape : list mark) : option (list (list Z * option err)) :=
  match sizes with
  | [] => Some []
  | n :: t =>
      match pack_read n [] tape with
      | None => None
      | Some (out, tape') =>
          match pack_reads t tape' with
          | None => None
          | Some outs => Some (out :: outs)
          end
      end
  end.

(** The marks of the source [r], read part by part, and the source that is left.  The calls are those a user makes:
    Peek32(32), NewPackHeader, pes.NewPacket. *)
Inductive part : reader -> list mark -> reader -> Prop :=
| part_short : forall r e r', peek_n 32 r = (Err e, r') -> part r [Lose None] r'                   (* fewer than 32 bits *)
| part_end : forall r r', peek_n 32 r = (Ok 441, r) -> snd (skip_n 32 r) = r' -> part r [TheEnd] r'  (* 00 00 01 B9 *)
| part_header : forall r e r', peek_n 32 r = (Ok 442, r) -> new_pack_header r = (Err e, r') ->
    part r [Lose (Some e)] r'                                                                       (* 00 00 01 BA *)
| part_pack : forall r h r1 ms r', peek_n 32 r = (Ok 442, r) -> new_pack_header r = (Ok h, r1) -> packet r1 ms r' ->
    part r ms r'
| part_packet : forall r v ms r', peek_n 32 r = (Ok v, r) -> v <> 441 -> v <> 442 -> packet r ms r' -> part r ms r'
with packet : reader -> list mark -> reader -> Prop :=
| packet_ok : forall r p r', new_pes r = (Ok tt, (p, r')) -> packet r (map Data (pp_payload p)) r'
| packet_error : forall r e p r', new_pes r = (Err e, (p, r')) -> packet r [Lose None] r'.

(** [k] parts, one after the other. *)
Inductive parts : nat -> reader -> list mark -> reader -> Prop :=
| parts_none : forall r, parts 0 r [] r
| parts_more : forall k r ms r1 tape r', part r ms r1 -> parts k r1 tape r' -> parts (S k) r (ms ++ tape) r'.

(** The bytes of a tape. *)
Fixpoint data_of (tape : list mark) : list Z :=
  match tape with [] => [] | Data b :: t => b :: data_of t | _ :: t => data_of t end.

(** [within l m]: [l] is [m] with some elements left out. *)
Inductive within {A} : list A -> list A -> Prop :=
| within_none : within [] []
| within_both : forall a l m, within l m -> within (a :: l) (a :: m)
| within_skip : forall a l m, within l m -> within l (a :: m).

(** The answer to a Read of one byte, mark by mark. *)
Definition alone (m : mark) : list Z * option err :=
  match m with Data b => ([b], None) | Lose e => ([], e) | TheEnd => ([], Some EEOF) end.
