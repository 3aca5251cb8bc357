(** SpecCore: what in a sequence matters for its frames, for C124. *)
From Verif Require Import Base SpecMotion SpecVid SpecNext.

(** The quantiser matrix extensions among extensions and user data *)
Definition quants (xs : list xitem) : list squant := flat_map (fun x => match x with XQuant s _ => [s] | _ => [] end) xs.
(** Two picture coding extensions that differ at most in top_field_first, repeat_first_field, chroma_420_type, progressive_frame
    and the composite display *)
Definition same_pce (e e' : spce) : Prop :=
  e_f00 e' = e_f00 e /\ e_f01 e' = e_f01 e /\ e_f10 e' = e_f10 e /\ e_f11 e' = e_f11 e /\ e_dc e' = e_dc e /\ e_struct e' = e_struct e /\
  e_fpfd e' = e_fpfd e /\ e_conceal e' = e_conceal e /\ e_qtype e' = e_qtype e /\ e_vlc e' = e_vlc e /\ e_alt e' = e_alt e.
(** Two pictures that differ at most in that, in stuffing, user data, display and scalability extensions, vbv_delay, the vectors' ranges of
    MPEG-1 and the extra information of the picture header *)
Definition same_picture (p p' : spicture) : Prop :=
  p_tr (pi_hdr p') = p_tr (pi_hdr p) /\ p_type (pi_hdr p') = p_type (pi_hdr p) /\ same_pce (pi_pce p) (pi_pce p') /\ quants (pi_items p') = quants (pi_items p) /\
  pi_data p' = pi_data p /\ pi_frame p' = pi_frame p.
(** Two sequence headers with extensions that have the same size, chroma format and matrices: they may differ in
    aspect ratio, frame rate, bit rate, buffer size, profile and level, display extension, user data and stuffing. *)
Definition same_start (s s' : sstart) : Prop :=
  q_horizontal (st_seq s') = q_horizontal (st_seq s) /\ q_vertical (st_seq s') = q_vertical (st_seq s) /\
  q_intra (st_seq s') = q_intra (st_seq s) /\ q_non_intra (st_seq s') = q_non_intra (st_seq s) /\
  x_h (st_ext s') = x_h (st_ext s) /\ x_v (st_ext s') = x_v (st_ext s) /\ x_chroma (st_ext s') = x_chroma (st_ext s) /\
  quants (st_items s') = quants (st_items s).
(** Two groups: the time code and flags of the header, its user data and stuffing may differ. *)
Definition same_group (g g' : sgroup) : Prop :=
  match gr_start g, gr_start g' with Some s, Some s' => same_start s s' | None, None => True | _, _ => False end /\
  Forall2 same_picture (gr_pics g) (gr_pics g').
