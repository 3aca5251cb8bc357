(** SpecAround: predictions with any vector - the samples beyond the left and the right edge. *)
From Verif Require Import Base VidModel SpecVlc SpecMotion.

(** The lines of a plane of width [w] one after the other: to the right of the last sample of a line comes the first of the
    line below it, to the left of the first the last of the line above. *)
Definition around (w : Z) (at_ : Z -> Z -> Z) (x y : Z) : Z := at_ (x mod w) (y + x / w).
(** As [predict1_at] and [predict] (SpecMotion), for any vector *)
Definition predict1_around (w : Z) (f : image) (i row col : Z) (mv : Z * Z) (u v : Z) : Z :=
  half_sample (around (plane_w i w) (sample f i)) (2 * (block_x i col + u) + block_vector i (fst mv)) (2 * (block_y i row + v) + block_vector i (snd mv)).
Definition predict_around (w : Z) (past future : option (image * (Z * Z))) (i row col u v : Z) : Z :=
  match past, future with
  | Some (f, a), Some (g, b) => (predict1_around w f i row col a u v + predict1_around w g i row col b u v) / 2
  | Some (f, a), None => predict1_around w f i row col a u v
  | None, Some (g, b) => predict1_around w g i row col b u v
  | None, None => 0
  end.
(** The samples that sample (u, v) of block [i] is predicted from: one, two or four around a position in half samples *)
Definition needed (i row col : Z) (mv : Z * Z) (u v x y : Z) : Prop :=
  let mx := block_vector i (fst mv) in let my := block_vector i (snd mv) in
  (x = block_x i col + u + mx / 2 \/ x = block_x i col + u + mx / 2 + mx mod 2) /\
  (y = block_y i row + v + my / 2 \/ y = block_y i row + v + my / 2 + my mod 2).
(** All of them, for the 64 samples of the block, are on one of the lines of the reference. *)
Definition on_lines (w h i row col : Z) (ref : option (image * (Z * Z))) : Prop :=
  match ref with
  | Some (_, mv) => forall u v x y, 0 <= u < 8 -> 0 <= v < 8 -> needed i row col mv u v x y -> 0 <= y + x / plane_w i w < plane_h i h
  | None => True
  end.
Definition sized_ref (w h : Z) (ref : option (image * (Z * Z))) : Prop := match ref with Some (f, _) => frame420 f w h | None => True end.
