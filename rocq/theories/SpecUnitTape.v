(** SpecUnitTape: what ts.NewPayloadUnitReader returns over any bytes, whatever the sizes of the reads. *)
From Verif Require Import Base TsModel.

(** Calls of [next] on one and the same packet: the packet as each call leaves it, and its error. *)
Inductive log {P R} (next : P * R -> res unit * (P * R)) : nat -> P * R -> list (P * option err) -> P * R -> Prop :=
| log_none : forall s, log next 0 s [] s
| log_ok : forall k s p src l s', next s = (Ok tt, (p, src)) -> log next k (p, src) l s' -> log next (S k) s ((p, None) :: l) s'
| log_error : forall k s e p src l s', next s = (Err e, (p, src)) -> log next k (p, src) l s' -> log next (S k) s ((p, Some e) :: l) s'.

(** What the reader makes of the calls: units and errors. *)
Inductive piece : Type := Whole (bytes : list Z) | Broken (e : err).

(** A unit begins at an accepted packet with payload_unit_start_indicator. *)
Definition begins (w : tester) (p : packet) : bool := w p && pk_pusi p.
(** What a packet adds to the unit *)
Definition adds (w : tester) (p : packet) : list Z := if w p then pk_payload p else [].

(** Inside a unit: [p] is the last packet, which is still to be added to [got].  After an error, too, it is the
    packet as the call has left it that is added. *)
Fixpoint gather (w : tester) (p : packet) (got : list Z) (l : list (packet * option err)) : list piece :=
  match l with
  | [] => []
  | (q, Some e) :: t => Broken e :: gather w q (got ++ adds w p) t
  | (q, None) :: t =>
      if begins w q then Whole (got ++ adds w p) :: gather w q [] t
      else gather w q (got ++ adds w p) t
  end.
(** Before the first unit: an error ends the search, and what follows is taken for a unit. *)
Fixpoint search (w : tester) (l : list (packet * option err)) : list piece :=
  match l with
  | [] => []
  | (q, Some e) :: t => Broken e :: gather w q [] t
  | (q, None) :: t => if begins w q then gather w q [] t else search w t
  end.

(** One Read of [n] bytes, [cur] being the rest of the unit that is being read, if any.  A unit ends with EOP, when a
    Read asks for more than is left of it.  [None]: the pieces are too few to tell. *)
Definition piece_read (n : nat) (cur : option (list Z)) (ps : list piece)
  : option ((list Z * option err) * (option (list Z) * list piece)) :=
  let serve b ps := if (n <=? length b)%nat then Some ((firstn n b, None), (Some (skipn n b), ps)) else Some ((b, Some EOP), (None, ps)) in
  match cur, ps with
  | Some b, _ => serve b ps
  | None, Whole b :: t => serve b t
  | None, Broken e :: t => Some (([], Some e), (None, t))
  | None, [] => None
  end.
Fixpoint piece_reads (sizes : list nat) (cur : option (list Z)) (ps : list piece) : option (list (list Z * option err)) :=
  match sizes with
  | [] => Some []
  | n :: t =>
      match piece_read n cur ps with
      | None => None
      | Some (out, (cur', ps')) =>
          match piece_reads t cur' ps' with
          | None => None
          | Some outs => Some (out :: outs)
          end
      end
  end.
