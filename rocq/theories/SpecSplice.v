(** SpecSplice: sequences from which groups are cut out, for C120. *)
From Verif Require Import Base SpecMotion SpecVid SpecNext.

(** The groups of a sequence, each with whether it is kept *)
Definition choice : Type := bool * sgroup.
Definition kept (l : list choice) : list sgroup := map snd (filter fst l).
(** A closed group: the picture that is coded after its I picture, if there is one, is no B picture.  (B pictures there
    would be predicted from the group before.) *)
Definition closed (g : sgroup) : Prop := match gr_pics g with _ :: q :: _ => p_type (pi_hdr q) <> 3 | _ => True end.
(** A group that brings no sequence header, and pictures without extensions that could change the matrices *)
Definition unassuming (g : sgroup) : bool :=
  match gr_start g with
  | Some _ => false
  | None => forallb (fun p => match pi_items p with [] => true | _ => false end) (gr_pics g)
  end.
(** What may be cut out: a group that follows a cut must be closed; and if more than unassuming groups were cut out, it
    must come with a sequence header.  [cx]: nothing but unassuming groups were cut out just before; [rf]: nothing was cut out just before. *)
Fixpoint may_cut (cx rf : bool) (l : list choice) : Prop :=
  match l with
  | [] => True
  | (true, g) :: l => (cx = true \/ gr_start g <> None) /\ (rf = true \/ closed g) /\ may_cut true true l
  | (false, g) :: l => may_cut (cx && unassuming g) false l
  end.
