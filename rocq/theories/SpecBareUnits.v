(** SpecBareUnits: what a payload unit reader makes of packets without payload.  Packets are those of SpecTs. *)
From Verif Require Import Base SpecTs.

(** The packets of PID [a]: whether a unit starts with it, and its bytes - its payload or, if it has none, the payload [last] of
    the packet before it that had one, of whatever PID *)
Fixpoint taken (a : Z) (last : list Z) (ps : list spacket) : list (bool * list Z) :=
  match ps with
  | [] => []
  | s :: ps => let d := if has_payload s then sp_payload s else last in
      (if sp_pid s =? a then [(sp_pusi s, d)] else []) ++ taken a d ps
  end.
(** Cut into units at the starts; what comes before the first start is left out, and so is the last unit, whose end is not known.
    [unit]: what there is of the unit already. *)
Fixpoint cut (unit : option (list Z)) (l : list (bool * list Z)) : list (list Z) :=
  match l with
  | [] => []
  | (true, d) :: t => match unit with Some u => [u] | None => [] end ++ cut (Some d) t
  | (false, d) :: t => cut (option_map (fun u => u ++ d) unit) t
  end.
(** What they should be: a packet without payload has no bytes. *)
Definition meant (a : Z) (ps : list spacket) : list (bool * list Z) :=
  map (fun s => (sp_pusi s, sp_payload s)) (filter (fun s => sp_pid s =? a) ps).
