(** SpecOpenCut: sequences from which groups are cut out before open groups, for C121. *)
From Verif Require Import Base SpecMotion SpecVid SpecNext SpecSplice VidModel.

(** The number of pictures of a group that are displayed before its I picture: its temporal_reference *)
Definition before_i (g : sgroup) : nat := match gr_pics g with p :: _ => Z.to_nat (p_tr (pi_hdr p)) | [] => O end.
(** What may be cut out: as in [may_cut], but a group that follows a cut of unassuming groups need not be closed. *)
Fixpoint may_cut_open (cx rf : bool) (l : list choice) : Prop :=
  match l with
  | [] => True
  | (true, g) :: l => (cx = true \/ gr_start g <> None) /\ (cx = true \/ rf = true \/ closed g) /\ may_cut_open true true l
  | (false, g) :: l => may_cut_open (cx && unassuming g) false l
  end.
(** The frames that are left, [None] for those that lost a picture they are predicted from: the ones displayed before the I
    picture of an open group that follows a cut. *)
Fixpoint left_of (rf : bool) (l : list choice) : list (option canvas) :=
  match l with
  | [] => []
  | (true, g) :: l =>
      let fs := map pi_frame (display (gr_pics g)) in
      (if rf then map Some fs else repeat None (before_i g) ++ map Some (skipn (before_i g) fs)) ++ left_of true l
  | (false, g) :: l => left_of false l
  end.
(** A frame that is returned shows the picture, if it has to. *)
Definition looks_if (f : image) (c : option canvas) : Prop := match c with Some c => looks f c | None => True end.
