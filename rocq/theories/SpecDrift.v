(** SpecDrift: the pictures the standard's arithmetic makes of the same coded data.

    The decoder rounds the means of a prediction down and halves chroma vectors by rounding down (C70).  Here is the same reconstruction
    as in SpecPicture with the arithmetic of ISO/IEC 13818-2 7.6.3.7 and 7.6.4: means are rounded to the nearest integer, halves up, and
    chroma vectors are halved towards zero.  The inverse DCT is the same on both sides; its distance from the exact transform is C74. *)
From Verif Require Import Base SpecVid SpecMotion SpecNext SpecPicture.

(** * Prediction *)
Definition cpredict1_std (c : canvas) (i : Z) (mv : Z * Z) (x y : Z) : Z :=
  half_sample_std (csample c i) (2 * x + block_vector_std i (fst mv)) (2 * y + block_vector_std i (snd mv)).
Definition cpredict_std (past future : option (canvas * (Z * Z))) (i x y : Z) : Z :=
  match past, future with
  | Some (f, a), Some (g, b) => (cpredict1_std f i a x y + cpredict1_std g i b x y + 1) / 2
  | Some (f, a), None => cpredict1_std f i a x y
  | None, Some (g, b) => cpredict1_std g i b x y
  | None, None => 0
  end.

(** * Macroblocks, slices, pictures: as in SpecPicture, with this prediction *)
Definition paint_mb_std (P : params) (row col : Z) (s : pstate) (b : smb) (c : canvas) : canvas :=
  let r := residuals P (ps_q s) (b_body b) in
  let p := cpredict_std (past_of P s) (future_of P s) in
  paint c row col 1
    (fun x y => clamp255 (mb_luma (field_dct (b_body b)) r (x - 16 * col) (y - 16 * row) + p 0 x y))
    (fun x y => clamp255 (nth (Z.to_nat (8 * (y - 8 * row) + (x - 8 * col))) (nth 4 r []) 0 + p 4 x y))
    (fun x y => clamp255 (nth (Z.to_nat (8 * (y - 8 * row) + (x - 8 * col))) (nth 5 r []) 0 + p 5 x y)).
Definition paint_skipped_std (P : params) (row col n : Z) (s : pstate) (c : canvas) : canvas :=
  if n <=? 0 then c else
  if pp_type P =? 2 then match pp_past P with Is past => paint c row col n (cv_y past) (cv_b past) (cv_r past) | _ => c end
  else let p := cpredict_std (past_of P s) (future_of P s) in paint c row col n (p 0) (p 4) (p 5).
Fixpoint mbs_paint_std (P : params) (row addr : Z) (s : pstate) (mbs : list smb) (c : canvas) : canvas :=
  match mbs with
  | [] => c
  | b :: mbs =>
      let c := if addr =? -1 then c else paint_skipped_std P row (addr + 1) (b_incr b - 1) s c in
      mbs_paint_std P row (addr + b_incr b) (ps_after P s b) mbs
        (paint_mb_std P row (addr + b_incr b) (ps_after P s b) b c)
  end.
Definition slice_paint_std (P : params) (l : sslice) (c : canvas) : canvas :=
  mbs_paint_std P (sl_row l) (-1) (ps_start P (sl_q l)) (sl_mbs l) c.
Definition picture_paint_std (P : params) (ls : list sslice) : canvas := fold_left (fun c l => slice_paint_std P l c) ls (blank P).

(** * Sequences *)

(** Two descriptions of the same coded picture: all but the frame is the same. *)
Definition same_coding (p q : spicture) : Prop :=
  q = mkPicture (pi_hdr p) (pi_k1 p) (pi_pce p) (pi_k2 p) (pi_items p) (pi_data p) (pi_frame q).
Definition same_group (g h : sgroup) : Prop :=
  h = mkGroup (gr_start g) (gr_hdr g) (gr_k g) (gr_items g) (gr_pics h).

(** The pictures [ps] and [qs] are the same coded pictures; the frames of [ps] are what their slices stand for in the decoder's
    arithmetic, after the reference pictures [o] and [l], those of [qs] in the standard's, after its own reference pictures [so] and
    [sl].  [V] may ask more of the slices. *)
Fixpoint pictures_twice (V : list sslice -> Prop) (c : context) (o l so sl : known) (ps qs : list spicture) : Prop :=
  match ps, qs with
  | [], [] => True
  | p :: ps, q :: qs =>
      let c := ctx_items c (pi_items p) in
      same_coding p q /\
      (exists ls, V ls /\ slices_code (params_of c o l p) ls (pi_data p) /\
         pi_frame p = picture_paint (params_of c o l p) ls /\ pi_frame q = picture_paint_std (params_of c so sl p) ls) /\
      pictures_twice V c (older o l p) (latest l p) (older so sl q) (latest sl q) ps qs
  | _, _ => False
  end.
Fixpoint groups_twice (V : list sslice -> Prop) (c : option context) (o l so sl : known) (gs hs : list sgroup) : Prop :=
  match gs, hs with
  | [], [] => True
  | g :: gs, h :: hs =>
      same_group g h /\
      match (match gr_start g with Some s => Some (ctx_start s) | None => c end) with
      | None => False
      | Some c =>
          pictures_twice V c o l so sl (gr_pics g) (gr_pics h) /\
          let '(c', o, l) := after_pictures c o l (gr_pics g) in
          let '(_, so, sl) := after_pictures c so sl (gr_pics h) in
          groups_twice V (Some c') o l so sl gs hs
      end
  | _, _ => False
  end.
(** [hs] is the sequence [gs] as the standard reconstructs it. *)
Definition standard_of (V : list sslice -> Prop) (gs hs : list sgroup) : Prop := groups_twice V None Unknown Unknown Unknown Unknown gs hs.

(** Vectors whose chroma vectors do not depend on the direction of rounding: no component is negative and odd. *)
Definition halves (v : option (Z * Z)) : Prop :=
  match v with Some (a, b) => (0 <= a \/ Z.even a = true) /\ (0 <= b \/ Z.even b = true) | None => True end.
Definition vectors_halve (ls : list sslice) : Prop :=
  Forall (fun l => Forall (fun b => halves (b_forward b) /\ halves (b_backward b)) (sl_mbs l)) ls.

(** No picture is more than [n] P pictures away from the I picture before it.  [k] is the distance of the last reference. *)
Fixpoint within (n k : Z) (ps : list spicture) : Prop :=
  match ps with
  | [] => True
  | p :: ps =>
      let t := p_type (pi_hdr p) in
      let k := if t =? 1 then 0 else if t =? 2 then k + 1 else k in
      k <= n /\ within n k ps
  end.
(** How far the samples may be off: not at all in I pictures, by one for every P picture since, by two more in B pictures. *)
Definition drift (n : Z) (p : spicture) : Z :=
  let t := p_type (pi_hdr p) in if t =? 1 then 0 else if t =? 2 then n else n + 2.
(** The pictures of a sequence in display order *)
Definition displayed (gs : list sgroup) : list spicture := flat_map (fun g => display (gr_pics g)) gs.
