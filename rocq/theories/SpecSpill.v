(** SpecSpill: predictions from above or below the reference frame - a description of the stream alone. *)
From Verif Require Import Base SpecVid SpecVlc SpecBlock SpecMotion SpecNext SpecStore SpecPicture SpecSyntax SpecRules SpecAround.

(** The reference has the size of the picture, and one of the six blocks of macroblock [col] in row [row] is to be predicted
    from a sample - at (x, y), counted on from line to line where x is beyond the left or the right edge (SpecAround) - that
    is above the first line of the reference or below its last. *)
Definition beyond (P : params) (row col : Z) (ref : option (canvas * (Z * Z))) : Prop :=
  match ref with
  | Some (c, mv) => cv_w c = pp_w P /\ cv_h c = pp_h P /\ exists i u v x y, 0 <= i < 6 /\ 0 <= u < 8 /\ 0 <= v < 8 /\
      needed i row col mv u v x y /\ ~ 0 <= y + x / plane_w i (pp_w P) < plane_h i (pp_h P)
  | None => False
  end.
(** Between the left and the right edge, some samples being above or below; coordinates in half samples, as in [vector_in].
    This is one of these cases (C116_vertical). *)
Definition vertical (P : params) (row col : Z) (ref : option (canvas * (Z * Z))) : Prop :=
  match ref with
  | Some (c, mv) => cv_w c = pp_w P /\ cv_h c = pp_h P /\ exists i, 0 <= i < 6 /\
      0 <= 2 * block_x i col + block_vector i (fst mv) /\ 2 * (block_x i col + 7) + block_vector i (fst mv) <= 2 * (plane_w i (pp_w P) - 1) /\
      (2 * block_y i row + block_vector i (snd mv) < 0 \/ 2 * (plane_h i (pp_h P) - 1) < 2 * (block_y i row + 7) + block_vector i (snd mv))
  | None => False
  end.
(** Where a macroblock begins, with the bits [c] from there on: a macroblock - the rest of whose data may be of any kind the
    syntax allows - with such a vector; or skipped macroblocks of a B picture, which take over such a vector.  [addr] is the
    address of the macroblock before in its row (-1: none), [s] the state before it. *)
Inductive mb_spill (P : params) (row addr : Z) (s : pstate) (c : list bool) : Prop :=
| spill_vector : forall b c1 c2, c = c1 ++ c2 -> formed P b -> mb_code P s b c1 ->
    beyond P row (addr + b_incr b) (past_of P (ps_after P s b)) \/ beyond P row (addr + b_incr b) (future_of P (ps_after P s b)) ->
    mb_spill P row addr s c
| spill_skipped : forall n c1 c2 col, c = c1 ++ c2 -> incr_code n c1 -> 0 <= addr -> pp_type P = 3 -> addr < col < addr + n ->
    beyond P row col (past_of P s) \/ beyond P row col (future_of P s) ->
    mb_spill P row addr s c.
(** In a slice, after any number of right macroblocks *)
Definition slice_spill (P : params) (c : list bool) : Prop :=
  exists row q fl mbs c1 c2, 0 <= row < 175 /\ 0 <= q < 32 /\ match fl with Some (_, extra) => bytes extra | None => True end /\
    c = code (row + 1) ++ enc 5 q ++ flags_code fl ++ c1 ++ c2 /\ mbs_code P row (-1) (ps_start P q) mbs c1 /\
    let '(addr, s) := after_mbs P (-1) (ps_start P q) mbs in mb_spill P row addr s c2.
(** In the slices of a picture: in one of them, after any number of right ones *)
Definition slices_spill (P : params) (c : list bool) : Prop :=
  exists c1 c2, c = c1 ++ c2 /\ (c1 = [] \/ exists ls, slices_code P ls c1) /\ slice_spill P c2.
