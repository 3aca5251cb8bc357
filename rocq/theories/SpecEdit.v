(** SpecEdit: sequences joined, and sequence headers repeated, for C122 and C123. *)
From Verif Require Import Base SpecMotion SpecVid SpecNext SpecSplice.

(** A sequence that starts with a closed group *)
Definition starts_closed (gs : list sgroup) : Prop := match gs with g :: _ => closed g | [] => True end.
(** A group with the sequence header [s] in front of it, or with none *)
Definition with_start (s : option sstart) (g : sgroup) : sgroup := mkGroup s (gr_hdr g) (gr_k g) (gr_items g) (gr_pics g).
(** The groups of a sequence, the first of them and some others with the sequence header [s] *)
Definition with_headers (s : sstart) (g : sgroup) (l : list choice) : list sgroup :=
  with_start (Some s) g :: map (fun x : choice => with_start (if fst x then Some s else None) (snd x)) l.
(** Pictures without extensions that could change the matrices *)
Definition no_matrices (g : sgroup) : Prop := Forall (fun p => pi_items p = []) (gr_pics g).
