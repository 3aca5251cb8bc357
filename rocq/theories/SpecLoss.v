(** SpecLoss: video sequences whose pictures lose slices, and where the frames may differ from the ones of the whole
    sequence for it.  Sequences, pictures and slices are those of SpecNext and SpecPicture. *)
From Verif Require Import Base SpecVid VidModel MbModel SpecMotion SpecNext SpecPicture.

(** The slices of a picture, as bits, and whether they arrive *)
Definition cuts : Type := list (bool * list bool).
Definition arrived (K : cuts) : list bool := concat (map snd (filter fst K)).
(** A slice of macroblock row [r] begins with the start code of that row (6.3.16). *)
Definition of_row (r : Z) (c : list bool) : Prop := exists t, c = code (r + 1) ++ t.
(** Row [r] has lost a slice; row [r] has no slice that arrives. *)
Definition lost (K : cuts) (r : Z) : Prop := exists c, In (false, c) K /\ of_row r c.
Definition gone (K : cuts) (r : Z) : Prop := forall c, In (true, c) K -> ~ of_row r c.

(** [K] are the slices of the picture [p], which is coded as in SpecPicture; at least one of them arrives. *)
Definition picture_cut (c : context) (o l : known) (p : spicture) (K : cuts) : Prop :=
  picture_coded c o l p /\
  (exists ls, Forall2 (slice_code (params_of c o l p)) ls (map snd K) /\ pi_frame p = picture_paint (params_of c o l p) ls) /\
  pi_data p = concat (map snd K) /\ Exists (fun x => fst x = true) K.
(** What arrives of the picture.  ([pi_frame] is not part of the stream.) *)
Definition thin (pk : spicture * cuts) : spicture :=
  let '(p, K) := pk in mkPicture (pi_hdr p) (pi_k1 p) (pi_pce p) (pi_k2 p) (pi_items p) (arrived K) (pi_frame p).

(** Groups of pictures with their losses *)
Definition lgroup : Type := sgroup * list cuts.
Definition pairs (g : lgroup) : list (spicture * cuts) := combine (gr_pics (fst g)) (snd g).
Definition thin_group (g : lgroup) : sgroup :=
  mkGroup (gr_start (fst g)) (gr_hdr (fst g)) (gr_k (fst g)) (gr_items (fst g)) (map thin (pairs g)).

(** Every picture with its context and references, as in [pictures_all] and [groups_all] *)
Fixpoint pictures_cut (c : context) (o l : known) (ps : list (spicture * cuts)) : Prop :=
  match ps with
  | [] => True
  | (p, K) :: ps => let c := ctx_items c (pi_items p) in
      picture_cut c o l p K /\ pictures_cut c (older o l p) (latest l p) ps
  end.
Fixpoint groups_cut (c : option context) (o l : known) (gs : list lgroup) : Prop :=
  match gs with
  | [] => True
  | g :: gs =>
      match (match gr_start (fst g) with Some s => Some (ctx_start s) | None => c end) with
      | None => False
      | Some c =>
          length (snd g) = length (gr_pics (fst g)) /\ pictures_cut c o l (pairs g) /\
          let '(c, o, l) := after_pictures c o l (gr_pics (fst g)) in groups_cut (Some c) o l gs
      end
  end.
Definition sequence_cut (gs : list lgroup) : Prop :=
  Forall wf_group (map fst gs) /\ Forall valid_group (map fst gs) /\ groups_cut None Unknown Unknown gs.

(** * Where a frame may differ *)

(** The rows of macroblocks of a picture that may differ: those that lost a slice; and all of them if the picture is
    predicted and one of its references - [o] and [l] are the rows of the last two reference pictures - has such rows. *)
Definition damage (o l : Z -> Prop) (p : spicture) (K : cuts) : Z -> Prop := fun r =>
  lost K r \/ (p_type (pi_hdr p) = 2 /\ exists r', l r') \/ (p_type (pi_hdr p) = 3 /\ exists r', o r' \/ l r').
(** Pictures in coding order, with their slices and the rows that may differ *)
Record hurt : Type := mkHurt { hu_pic : spicture; hu_cuts : cuts; hu_rows : Z -> Prop }.
Fixpoint hurt_pictures (o l : Z -> Prop) (ps : list (spicture * cuts)) : list hurt :=
  match ps with
  | [] => []
  | (p, K) :: ps => let d := damage o l p K in
      mkHurt p K d :: hurt_pictures (if is_ref p then l else o) (if is_ref p then d else l) ps
  end.
Fixpoint after_hurt (o l : Z -> Prop) (ps : list (spicture * cuts)) : (Z -> Prop) * (Z -> Prop) :=
  match ps with
  | [] => (o, l)
  | (p, K) :: ps => after_hurt (if is_ref p then l else o) (if is_ref p then damage o l p K else l) ps
  end.
(** Display order, as [reorder] *)
Fixpoint reorder_hurt (held : option hurt) (l : list hurt) : list hurt :=
  match l with
  | [] => match held with Some r => [r] | None => [] end
  | h :: l =>
      if is_ref (hu_pic h) then match held with Some r => [r] | None => [] end ++ reorder_hurt (Some h) l
      else h :: reorder_hurt held l
  end.
Fixpoint hurt_shown (o l : Z -> Prop) (gs : list lgroup) : list hurt :=
  match gs with
  | [] => []
  | g :: gs => reorder_hurt None (hurt_pictures o l (pairs g)) ++
      let '(o, l) := after_hurt o l (pairs g) in hurt_shown o l gs
  end.
Definition unhurt : Z -> Prop := fun _ => False.

(** A frame [f] shows the picture of [h] in all rows but those that may differ, and zeros in the rows of which no
    slice arrives. *)
Definition looks_but (f : image) (h : hurt) : Prop :=
  let c := pi_frame (hu_pic h) in
  frame420 f (cv_w c) (cv_h c) /\ im_w f = cv_w c /\ im_h f = cv_h c /\
  (forall x y, 0 <= x < cv_w c -> 0 <= y < cv_h c ->
     (~ hu_rows h (y / 16) -> luma f x y = cv_y c x y) /\ (gone (hu_cuts h) (y / 16) -> luma f x y = 0)) /\
  (forall x y, 0 <= x < cv_w c / 2 -> 0 <= y < cv_h c / 2 ->
     (~ hu_rows h (y / 8) -> blue f x y = cv_b c x y /\ red f x y = cv_r c x y) /\
     (gone (hu_cuts h) (y / 8) -> blue f x y = 0 /\ red f x y = 0)).

(** A group that lost nothing *)
Definition whole_group (g : lgroup) : Prop := Forall (Forall (fun x : bool * list bool => fst x = true)) (snd g).
