(** SpecBare: what a payload reader makes of packets without payload.  Packets are those of SpecTs. *)
From Verif Require Import Base SpecTs.

(** The bytes of the packets of PID [a] - each with its payload or, if it has none, the payload [last] of the packet
    before it that had one, of whatever PID *)
Fixpoint carried (a : Z) (last : list Z) (ps : list spacket) : list Z :=
  match ps with
  | [] => []
  | s :: ps => let d := if has_payload s then sp_payload s else last in
      (if sp_pid s =? a then d else []) ++ carried a d ps
  end.
(** What they should be *)
Definition content (a : Z) (ps : list spacket) : list Z := concat (map sp_payload (filter (fun s => sp_pid s =? a) ps)).
