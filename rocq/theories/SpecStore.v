(** SpecStore: histories of pictures and groups of pictures, and the display order of reference pictures
    (ISO/IEC 13818-2 6.1.1.11, 6.3.9) - what C52 needs, independently of the model's functions. *)
From Verif Require Import Base VidModel.

(** What a decoder meets: a group of pictures header, a reference picture (I or P) with its frame and
    temporal_reference, a B picture with its temporal_reference *)
Inductive happening : Type := NewGroup | Reference (f : image) (tr : Z) | Bidirectional (tr : Z).

(** The group that is current after a history: the number of group headers in it *)
Definition group_after (h : list happening) : Z :=
  Z.of_nat (length (filter (fun x => match x with NewGroup => true | _ => false end) h)).
(** Pictures are displayed group by group, within a group by temporal_reference. *)
Definition position : Type := (Z * Z)%type.
Definition shown_before (a b : position) : Prop := fst a < fst b \/ (fst a = fst b /\ snd a < snd b).
(** The references of a history with their positions, in coding order; [g] is the current group *)
Fixpoint refs_from (g : Z) (h : list happening) : list (position * image) :=
  match h with
  | [] => []
  | NewGroup :: h => refs_from (g + 1) h
  | Reference f tr :: h => ((g, tr), f) :: refs_from g h
  | Bidirectional _ :: h => refs_from g h
  end.
Definition refs (h : list happening) : list (position * image) := refs_from 0 h.

(** The references next to position [x] in display order *)
Definition nearest_before (l : list (position * image)) (x : position) (f : image) : Prop :=
  exists p, In (p, f) l /\ shown_before p x /\ forall q g, In (q, g) l -> shown_before q x -> q = p \/ shown_before q p.
Definition nearest_after (l : list (position * image)) (x : position) (f : image) : Prop :=
  exists p, In (p, f) l /\ shown_before x p /\ forall q g, In (q, g) l -> shown_before x q -> q = p \/ shown_before p q.

(** Coding order: references are coded in display order, and when a picture is coded, only the last of the
    references coded before it may be displayed after it. *)
Fixpoint in_order (l : list position) : Prop :=
  match l with [] => True | a :: l => Forall (shown_before a) l /\ in_order l end.
Definition coding_order (h : list happening) (x : position) : Prop :=
  in_order (map fst (refs h)) /\
  forall l p f, refs h = l ++ [(p, f)] -> Forall (fun r => shown_before (fst r) x) l /\ (shown_before p x \/ shown_before x p).
