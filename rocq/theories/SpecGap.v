(** SpecGap: sequences of which pictures are missing, for C119. *)
From Verif Require Import Base SpecMotion SpecVid SpecNext.

(** The numbers of the pictures (temporal_reference) rise from one picture to the next, with or without gaps. *)
Fixpoint rising (l : list spicture) : Prop :=
  match l with [] => True | p :: l => (forall q, In q l -> tref p < tref q) /\ rising l end.
(** A group that starts with an I picture, and whose pictures in display order have rising numbers *)
Definition gap_group (g : sgroup) : Prop :=
  rising (display (gr_pics g)) /\ exists p ps, gr_pics g = p :: ps /\ p_type (pi_hdr p) = 1.
Definition gap_sequence (D : context -> known -> known -> spicture -> Prop) (gs : list sgroup) : Prop :=
  Forall wf_group gs /\ Forall gap_group gs /\ groups_all D None Unknown Unknown gs.
(** The pictures of a list as long as their numbers are [n], [n + 1], ... *)
Fixpoint upto (n : Z) (l : list spicture) : list spicture :=
  match l with [] => [] | p :: l => if tref p =? n then p :: upto (n + 1) l else [] end.
(** What is shown of such a sequence: of each group, the pictures in display order before the first gap *)
Definition shown_upto (gs : list sgroup) : list canvas := map pi_frame (flat_map (fun g => upto 0 (display (gr_pics g))) gs).

(** A group and the numbers of its pictures that do not arrive.  Only B pictures that change no quantiser matrix may be
    missing. *)
Definition holed : Type := sgroup * (Z -> bool).
Definition may_miss (h : holed) : Prop :=
  forall p, In p (gr_pics (fst h)) -> snd h (tref p) = true -> p_type (pi_hdr p) = 3 /\ pi_items p = [].
Definition arriving (h : holed) : sgroup :=
  mkGroup (gr_start (fst h)) (gr_hdr (fst h)) (gr_k (fst h)) (gr_items (fst h)) (filter (fun p => negb (snd h (tref p))) (gr_pics (fst h))).
(** The elements of a list before the first that satisfies [f] *)
Fixpoint before_first {A} (f : A -> bool) (l : list A) : list A :=
  match l with [] => [] | x :: l => if f x then [] else x :: before_first f l end.
(** What is left to show: of each group, the frames in display order before the first missing one *)
Definition left_to_show (hs : list holed) : list canvas :=
  map pi_frame (flat_map (fun h => before_first (fun p => snd h (tref p)) (display (gr_pics (fst h)))) hs).
