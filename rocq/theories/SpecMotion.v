(** SpecMotion: motion vectors, prediction and the layout of a frame as ISO/IEC 13818-2 describes them
    (6.1.1.8, 6.1.3, 7.6), independently of the model's functions. *)
From Verif Require Import Base VidModel SpecVlc.

(** * Motion vectors (7.6.3.1) *)

(** f_code n gives vectors in [-16f, 16f) half samples, f = 2^(n-1). *)
Definition mv_f (fc : Z) : Z := 2 ^ (fc - 1).
Definition mv_range (fc v : Z) : Prop := -16 * mv_f fc <= v < 16 * mv_f fc.

(** The code of a difference: motion_code, whose magnitude counts steps of f, and motion_residual with the
    rest in f_code-1 bits. *)
Inductive delta_code (fc : Z) : Z -> list bool -> Prop :=
| delta_zero : forall c, motion_code_code c 0 -> delta_code fc 0 c
| delta_up : forall c m res, motion_code_code c m -> 0 < m -> 0 <= res < mv_f fc ->
    delta_code fc ((m - 1) * mv_f fc + res + 1) (c ++ enc (Z.to_nat (fc - 1)) res)
| delta_down : forall c m res, motion_code_code c (- m) -> 0 < m -> 0 <= res < mv_f fc ->
    delta_code fc (- ((m - 1) * mv_f fc + res + 1)) (c ++ enc (Z.to_nat (fc - 1)) res).

(** The vector [v] is coded against the prediction [p] by any difference that leads from [p] to [v] modulo
    the size of the range. *)
Definition vector_code (fc p v : Z) (c : list bool) : Prop :=
  exists delta k, delta_code fc delta c /\ p + delta = v + 32 * mv_f fc * k.

(** A vector (horizontal, vertical) after its prediction *)
Definition pair_code (fx fy : Z) (p v : Z * Z) (c : list bool) : Prop :=
  exists cx cy, c = cx ++ cy /\ mv_range fx (fst v) /\ mv_range fy (snd v) /\
    vector_code fx (fst p) (fst v) cx /\ vector_code fy (snd p) (snd v) cy.
(** Vectors one after the other, each the prediction of the next *)
Inductive pairs_code (fx fy : Z) : Z * Z -> list (Z * Z) -> list bool -> Prop :=
| pairs_nil : forall p, pairs_code fx fy p [] []
| pairs_cons : forall p v vs c d, pair_code fx fy p v c -> pairs_code fx fy v vs d -> pairs_code fx fy p (v :: vs) (c ++ d).

(** * The frame (4:2:0) *)

(** The sample in column x, line y of a plane *)
Definition pix (p : plane) (stride x y : Z) : Z := pl_at p (y * stride + x).
Definition luma (f : image) (x y : Z) : Z := pix (im_y f) (im_ys f) x y.
Definition blue (f : image) (x y : Z) : Z := pix (im_cb f) (im_cs f) x y.
Definition red (f : image) (x y : Z) : Z := pix (im_cr f) (im_cs f) x y.

(** A frame of w x h luma samples, both multiples of 16, with chroma planes of half the size *)
Definition frame420 (f : image) (w h : Z) : Prop :=
  0 < w /\ 0 < h /\ w mod 16 = 0 /\ h mod 16 = 0 /\
  im_ys f = w /\ im_cs f = w / 2 /\
  pl_len (im_y f) = w * h /\ pl_len (im_cb f) = (w / 2) * (h / 2) /\ pl_len (im_cr f) = (w / 2) * (h / 2).

(** Blocks 0 to 3 of a macroblock are the quarters of its luma samples, 4 is Cb and 5 is Cr: the plane and
    the position of the first sample of a block of macroblock [col] of row [row] *)
Definition sample (f : image) (i : Z) : Z -> Z -> Z := if i <? 4 then luma f else if i =? 4 then blue f else red f.
Definition block_x (i col : Z) : Z := if i <? 4 then 16 * col + 8 * (i mod 2) else 8 * col.
Definition block_y (i row : Z) : Z := if i <? 4 then 16 * row + 8 * (i / 2) else 8 * row.
Definition plane_w (i w : Z) : Z := if i <? 4 then w else w / 2.
Definition plane_h (i h : Z) : Z := if i <? 4 then h else h / 2.
(** The macroblock is in the frame *)
Definition mb_in (w h row col : Z) : Prop := 0 <= row /\ 16 * row + 16 <= h /\ 0 <= col /\ 16 * col + 16 <= w.

(** * Prediction (7.6.4) *)

(** The mean of the samples around a position given in half samples, rounded down *)
Definition half_sample (at_ : Z -> Z -> Z) (x2 y2 : Z) : Z :=
  let x := x2 / 2 in let y := y2 / 2 in
  let dx := x2 mod 2 in let dy := y2 mod 2 in
  (at_ x y + at_ (x + dx) y + at_ x (y + dy) + at_ (x + dx) (y + dy)) / 4.

(** The vector for block i: chroma vectors are halved, rounding down *)
Definition block_vector (i v : Z) : Z := if i <? 4 then v else v / 2.

(** Prediction of the sample (x,y) of the plane of block i from one frame *)
Definition predict1_at (f : image) (i : Z) (mv : Z * Z) (x y : Z) : Z :=
  half_sample (sample f i) (2 * x + block_vector i (fst mv)) (2 * y + block_vector i (snd mv)).
(** From a past frame with a vector, a future frame with a vector, both or neither *)
Definition predict_at (past future : option (image * (Z * Z))) (i x y : Z) : Z :=
  match past, future with
  | Some (f, a), Some (g, b) => (predict1_at f i a x y + predict1_at g i b x y) / 2
  | Some (f, a), None => predict1_at f i a x y
  | None, Some (g, b) => predict1_at g i b x y
  | None, None => 0
  end.
(** The same for sample (u,v) of block i of a macroblock *)
Definition predict1 (f : image) (i row col : Z) (mv : Z * Z) (u v : Z) : Z :=
  predict1_at f i mv (block_x i col + u) (block_y i row + v).
Definition predict (past future : option (image * (Z * Z))) (i row col u v : Z) : Z :=
  predict_at past future i (block_x i col + u) (block_y i row + v).
(** The samples a prediction of block i needs are in the frame. *)
Definition vector_in (w h i row col : Z) (mv : Z * Z) : Prop :=
  0 <= 2 * block_x i col + block_vector i (fst mv) /\
  2 * (block_x i col + 7) + block_vector i (fst mv) <= 2 * (plane_w i w - 1) /\
  0 <= 2 * block_y i row + block_vector i (snd mv) /\
  2 * (block_y i row + 7) + block_vector i (snd mv) <= 2 * (plane_h i h - 1).
Definition reference_in (w h i row col : Z) (ref : option (image * (Z * Z))) : Prop :=
  match ref with Some (f, mv) => frame420 f w h /\ vector_in w h i row col mv | None => True end.

(** ** What the standard computes (7.6.3.7, 7.6.4): means are rounded to the nearest integer, halves up, and
    chroma vectors are halved towards zero *)
Definition half_sample_std (at_ : Z -> Z -> Z) (x2 y2 : Z) : Z :=
  let x := x2 / 2 in let y := y2 / 2 in
  let dx := x2 mod 2 in let dy := y2 mod 2 in
  (at_ x y + at_ (x + dx) y + at_ x (y + dy) + at_ (x + dx) (y + dy) + 2) / 4.
Definition block_vector_std (i v : Z) : Z := if i <? 4 then v else Z.quot v 2.
Definition predict1_std (f : image) (i : Z) (mv : Z * Z) (x y : Z) : Z :=
  half_sample_std (sample f i) (2 * x + block_vector_std i (fst mv)) (2 * y + block_vector_std i (snd mv)).
Definition predict_std (past future : option (image * (Z * Z))) (i x y : Z) : Z :=
  match past, future with
  | Some (f, a), Some (g, b) => (predict1_std f i a x y + predict1_std g i b x y + 1) / 2
  | Some (f, a), None => predict1_std f i a x y
  | None, Some (g, b) => predict1_std g i b x y
  | None, None => 0
  end.
(** Field prediction in a frame picture (7.6.4): the lines of either parity are predicted with their own
    vector from the lines of the selected parity of the reference *)
Definition field_sample (f : image) (parity : bool) (x y : Z) : Z := luma f x (2 * y + Z.b2z parity).
Definition predict_field_luma (f : image) (top bottom : bool * (Z * Z)) (x y : Z) : Z :=
  let '(select, (vx, vy)) := if y mod 2 =? 0 then top else bottom in
  half_sample_std (field_sample f select) (2 * x + vx) (2 * (y / 2) + vy).

(** * Macroblocks *)

(** The sample (x,y), 0 <= x, y < 16, of a macroblock with luma blocks [bl]: in frame order the blocks are
    the quarters; in field order blocks 0 and 1 are the even lines and blocks 2 and 3 the odd ones. *)
Definition mb_luma (field : bool) (bl : list (list Z)) (x y : Z) : Z :=
  if field then nth (Z.to_nat (8 * (y / 2) + x mod 8)) (nth (Z.to_nat (2 * (y mod 2) + x / 8)) bl []) 0
  else nth (Z.to_nat (8 * (y mod 8) + x mod 8)) (nth (Z.to_nat (2 * (y / 8) + x / 8)) bl []) 0.
(** Samples are stored in 8 bits. *)
Definition clamp255 (z : Z) : Z := Z.max 0 (Z.min 255 z).
(** (x,y) belongs to n macroblocks of [size] samples from [col] on in row [row]. *)
Definition in_mbs (size row col n x y : Z) : bool :=
  (size * col <=? x) && (x <? size * (col + n)) && (size * row <=? y) && (y <? size * row + size).

(** [f'] is [f] but for the macroblocks [col, col+n) of row [row], where the samples are those of
    [ly], [lb] and [lr]. *)
Definition replaces (w h : Z) (f f' : image) (row col n : Z) (ly lb lr : Z -> Z -> Z) : Prop :=
  frame420 f' w h /\ im_w f' = im_w f /\ im_h f' = im_h f /\
  (forall x y, 0 <= x < w -> 0 <= y < h -> luma f' x y = if in_mbs 16 row col n x y then ly x y else luma f x y) /\
  (forall x y, 0 <= x < w / 2 -> 0 <= y < h / 2 -> blue f' x y = if in_mbs 8 row col n x y then lb x y else blue f x y) /\
  (forall x y, 0 <= x < w / 2 -> 0 <= y < h / 2 -> red f' x y = if in_mbs 8 row col n x y then lr x y else red f x y).

(** * Macroblock addresses (6.2.5): macroblock_escape *)
Definition mb_escape : list bool := enc 11 8.
