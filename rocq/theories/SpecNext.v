(** SpecNext: video sequences - groups of pictures, pictures in coding order, display order (ISO/IEC 13818-2
    6.1.1.11), what is in force for a picture, and which references it has - independently of the model's
    functions, except for [picture_data], whose result for one picture is a parameter. *)
From Verif Require Import Base BitReader VidModel SpecVid VidProofs MbModel SpecMotion.

(** * Pictures to look at *)

(** A picture of w x h luma samples, 4:2:0 *)
Record canvas : Type := mkCanvas { cv_w : Z; cv_h : Z; cv_y : Z -> Z -> Z; cv_b : Z -> Z -> Z; cv_r : Z -> Z -> Z }.
(** A frame shows it: the size, and every sample. *)
Definition looks (f : image) (c : canvas) : Prop :=
  frame420 f (cv_w c) (cv_h c) /\ im_w f = cv_w c /\ im_h f = cv_h c /\
  (forall x y, 0 <= x < cv_w c -> 0 <= y < cv_h c -> luma f x y = cv_y c x y /\ 0 <= cv_y c x y <= 255) /\
  (forall x y, 0 <= x < cv_w c / 2 -> 0 <= y < cv_h c / 2 -> blue f x y = cv_b c x y /\ 0 <= cv_b c x y <= 255) /\
  (forall x y, 0 <= x < cv_w c / 2 -> 0 <= y < cv_h c / 2 -> red f x y = cv_r c x y /\ 0 <= cv_r c x y <= 255).
(** What is known about a reference frame of the decoder: nothing, that there is none, or what it shows *)
Inductive known : Type := Unknown | Missing | Is (c : canvas).
Definition serves (f : option image) (k : known) : Prop :=
  match k with Is c => exists g, f = Some g /\ looks g c | Missing => f = None | Unknown => True end.

(** * Syntax *)

(** A coded picture: its header, its coding extension, extensions and user data, and its slices, that
    decode to [pi_frame].  [pi_k] are numbers of stuffing bytes. *)
Record spicture : Type := mkPicture {
  pi_hdr : spic; pi_k1 : nat; pi_pce : spce; pi_k2 : nat; pi_items : list xitem; pi_data : list bool; pi_frame : canvas }.
Definition enc_picture (p : spicture) : list bool :=
  stuffed (enc_pic (pi_hdr p)) (pi_k1 p) ++ stuffed (enc_pce (pi_pce p)) (pi_k2 p) ++ enc_xitems (pi_items p) ++ pi_data p.
Definition wf_picture (p : spicture) : Prop :=
  wf_pic (pi_hdr p) /\ wf_pce (pi_pce p) /\ Forall (allowed 2) (pi_items p) /\ Forall wf_xitem (pi_items p) /\
  (1 <= p_type (pi_hdr p) <= 3) /\
  exists b t, pi_data p = code b ++ t /\ 1 <= b <= 175 /\ (length t mod 8 = 0)%nat.

(** A sequence header with its extension, at the start and repeated at will *)
Record sstart : Type := mkStart { st_seq : sseq; st_k1 : nat; st_ext : ssext; st_k2 : nat; st_items : list xitem }.
Definition enc_start (s : sstart) : list bool :=
  stuffed (enc_seq (st_seq s)) (st_k1 s) ++ stuffed (enc_sext (st_ext s)) (st_k2 s) ++ enc_xitems (st_items s).
Definition wf_start (s : sstart) : Prop :=
  wf_seq (st_seq s) /\ wf_sext (st_ext s) /\ Forall (allowed 0) (st_items s) /\ Forall wf_xitem (st_items s).

(** A group of pictures, perhaps after a sequence header *)
Record sgroup : Type := mkGroup { gr_start : option sstart; gr_hdr : sgop; gr_k : nat; gr_items : list xitem; gr_pics : list spicture }.
Definition enc_group (g : sgroup) : list bool :=
  match gr_start g with Some s => enc_start s | None => [] end ++
  stuffed (enc_gop (gr_hdr g)) (gr_k g) ++ enc_xitems (gr_items g) ++ flat_map enc_picture (gr_pics g).
Definition wf_group (g : sgroup) : Prop :=
  match gr_start g with Some s => wf_start s | None => True end /\
  wf_gop (gr_hdr g) /\ Forall (allowed 1) (gr_items g) /\ Forall wf_xitem (gr_items g) /\ Forall wf_picture (gr_pics g).

(** A sequence ends with its end code; [k] zero bytes may come first. *)
Definition enc_sequence (k : nat) (gs : list sgroup) : list bool :=
  bb (repeat 0 k) ++ flat_map enc_group gs ++ code sequence_end_code.

(** * Order *)

(** I and P pictures are references. *)
Definition is_ref (p : spicture) : bool := negb (p_type (pi_hdr p) =? 3).
Definition tref (p : spicture) : Z := p_tr (pi_hdr p).
(** Display order (6.1.1.11): a B picture is displayed at once, a reference when the next reference or the end
    comes. *)
Fixpoint reorder (held : option spicture) (l : list spicture) : list spicture :=
  match l with
  | [] => match held with Some r => [r] | None => [] end
  | p :: l =>
      if is_ref p then match held with Some r => [r] | None => [] end ++ reorder (Some p) l
      else p :: reorder held l
  end.
Definition display (l : list spicture) : list spicture := reorder None l.
(** temporal_reference counts the pictures of a group in display order (6.3.9); a group starts with an I
    picture. *)
Definition numbers (n : nat) : list Z := map Z.of_nat (seq 0 n).
Definition valid_group (g : sgroup) : Prop :=
  map tref (display (gr_pics g)) = numbers (length (gr_pics g)) /\
  exists p ps, gr_pics g = p :: ps /\ p_type (pi_hdr p) = 1.

(** * What is in force for a picture *)

Record context : Type := mkCtx { c_seq : sseq; c_ext : ssext; c_m0 : list Z; c_m1 : list Z; c_m2 : list Z; c_m3 : list Z }.
Definition given (d : list Z) (m : option (list Z)) : list Z := match m with Some l => l | None => d end.
Definition ctx_item (c : context) (x : xitem) : context :=
  match x with
  | XQuant s _ => mkCtx (c_seq c) (c_ext c) (given (c_m0 c) (m_intra s)) (given (c_m1 c) (m_non_intra s))
      (given (given (c_m2 c) (m_intra s)) (m_chroma_intra s)) (given (given (c_m3 c) (m_non_intra s)) (m_chroma_non_intra s))
  | _ => c
  end.
Definition ctx_items (c : context) (xs : list xitem) : context := fold_left ctx_item xs c.
Definition ctx_start (s : sstart) : context :=
  let i := given std_intra_matrix (q_intra (st_seq s)) in
  let n := given std_non_intra_matrix (q_non_intra (st_seq s)) in
  ctx_items (mkCtx (st_seq s) (st_ext s) i n i n) (st_items s).
Definition in_force (c : context) (v : vidseq) : Prop :=
  (exists h, v_sh v = Some h /\ seq_holds (c_seq c) h) /\ (exists h, v_se v = Some h /\ sext_holds (c_ext c) h) /\
  v_q0 v = c_m0 c /\ v_q1 v = c_m1 c /\ v_q2 v = c_m2 c /\ v_q3 v = c_m3 c.

(** The references: the last two reference pictures before it in coding order, [o] and then [l].  A B picture
    is predicted from [o] as its past and [l] as its future frame, a P picture from [l] as its past frame. *)
Definition references (p : spicture) (o l : known) (v : vidseq) : Prop :=
  (p_type (pi_hdr p) = 2 -> serves (fs_past (v_fs v)) l) /\
  (p_type (pi_hdr p) = 3 -> serves (fs_past (v_fs v)) o /\ serves (fs_future (v_fs v)) l).

(** What comes after a picture: another picture, a sequence header, a group, or the end. *)
Definition at_unit (l : list bool) : Prop :=
  exists b t, l = code b ++ t /\ (length t mod 8 = 0)%nat /\ In b [picture_code; sequence_header_code; group_code; sequence_end_code].

(** The slices of the picture decode to its frame whenever its headers are in force and its references are
    the past and the future frame. *)
Definition picture_decodes (c : context) (o l : known) (p : spicture) : Prop :=
  forall v rd rest, in_force c v ->
  (exists h, v_ph v = Some h /\ pic_holds (pi_hdr p) h) -> (exists h, v_pce v = Some h /\ pce_holds (pi_pce p) h) ->
  references p o l v -> at_unit rest ->
  exists f, picture_data v (setb rd (pi_data p ++ rest)) = (Ok f, setb rd rest) /\ looks f (pi_frame p).

Definition older (o l : known) (p : spicture) : known := if is_ref p then l else o.
Definition latest (l : known) (p : spicture) : known := if is_ref p then Is (pi_frame p) else l.
(** [D] holds of every picture with its context and the two reference pictures before it. *)
Fixpoint pictures_all (D : context -> known -> known -> spicture -> Prop) (c : context) (o l : known) (ps : list spicture) : Prop :=
  match ps with
  | [] => True
  | p :: ps => let c := ctx_items c (pi_items p) in
      D c o l p /\ pictures_all D c (older o l p) (latest l p) ps
  end.
Fixpoint after_pictures (c : context) (o l : known) (ps : list spicture) : context * known * known :=
  match ps with
  | [] => (c, o, l)
  | p :: ps => after_pictures (ctx_items c (pi_items p)) (older o l p) (latest l p) ps
  end.
Fixpoint groups_all (D : context -> known -> known -> spicture -> Prop) (c : option context) (o l : known) (gs : list sgroup) : Prop :=
  match gs with
  | [] => True
  | g :: gs =>
      match (match gr_start g with Some s => Some (ctx_start s) | None => c end) with
      | None => False                      (* a sequence starts with a sequence header *)
      | Some c =>
          pictures_all D c o l (gr_pics g) /\
          let '(c, o, l) := after_pictures c o l (gr_pics g) in groups_all D (Some c) o l gs
      end
  end.

(** A sequence with [D] for all of its pictures *)
Definition sequence_of (D : context -> known -> known -> spicture -> Prop) (gs : list sgroup) : Prop :=
  Forall wf_group gs /\ Forall valid_group gs /\ groups_all D None Unknown Unknown gs.
(** A sequence all of whose pictures decode *)
Definition valid_sequence (gs : list sgroup) : Prop := sequence_of picture_decodes gs.
(** Its pictures in display order *)
Definition shown (gs : list sgroup) : list canvas := map pi_frame (flat_map (fun g => display (gr_pics g)) gs).
