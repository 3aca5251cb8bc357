(** SpecBlock: how ISO/IEC 13818-2 7.2 codes a block of coefficients. *)
From Verif Require Import Base BitReader SpecVid SpecVlc.

(** The coefficients, in scan order, that a sequence of run/level pairs stands for. *)
Definition expand (rls : list (Z * Z)) : list Z :=
  flat_map (fun p => repeat 0 (Z.to_nat (fst p)) ++ [snd p]) rls.

(** [syms one n rls bits]: [bits] is a coding of the pairs [rls], the first of which is for
    coefficient [n]; every pair may be coded with its code or with the escape. *)
Inductive syms (one : bool) : Z -> list (Z * Z) -> list bool -> Prop :=
| syms_nil : forall n, syms one n [] []
| syms_cons : forall n run level rls c bits,
    dct_code one (n =? 0) c (RunLevel run level) ->
    syms one (n + run + 1) rls bits ->
    syms one n ((run, level) :: rls) (c ++ bits).

(** The rest of a block from coefficient [n] on: pairs and the end of block.  (A block that
    starts at coefficient 0 holds at least one pair.) *)
Definition coded_from (one : bool) (n : Z) (rls : list (Z * Z)) (bits : list bool) : Prop :=
  (n = 0 -> rls <> []) /\
  exists body, syms one n rls body /\ bits = body ++ (if one then b15_eob else b14_eob).

(** The code of a DC difference (7.2.1): the size of its magnitude, then that many bits; a
    negative difference [d] of size [n] is sent as [d + 2^n - 1]. *)
Definition dc_code (luma : bool) (bits : list bool) (d : Z) : Prop :=
  exists n s, (if luma then dc_size_luma_code else dc_size_chroma_code) s n /\
    (if n =? 0 then d = 0 /\ bits = s
     else 2 ^ (n - 1) <= Z.abs d < 2 ^ n /\
          bits = s ++ enc (Z.to_nat n) (if 0 <? d then d else d + 2 ^ n - 1)).

(** The predictors at the start of a slice and wherever they are reset: 2^(7+precision). *)
Definition dc_reset_value (intra_dc_precision : Z) : Z := 2 ^ (7 + intra_dc_precision).

(** * Inverse scan and inverse quantisation (7.3, 7.4) *)
(** The order in which the coefficients of a block are coded, as raster positions 8*v+u: the
    zig-zag scan (figure 7-2, generated from its definition in SpecVid) and the alternate scan
    (figure 7-3). *)
Definition alternate_order : list nat := [
   0;  8; 16; 24;  1;  9;  2; 10; 17; 25; 32; 40; 48; 56; 57; 49;
  41; 33; 26; 18;  3; 11;  4; 12; 19; 27; 34; 42; 50; 58; 35; 43;
  51; 59; 20; 28;  5; 13;  6; 14; 21; 29; 36; 44; 52; 60; 37; 45;
  53; 61; 22; 30;  7; 15; 23; 31; 38; 46; 54; 62; 39; 47; 55; 63]%nat.
Definition scan_order (alternate : bool) : list nat := if alternate then alternate_order else zigzag.

(** Table 7-6 *)
Definition iso_quantiser_scale (q_scale_type code : Z) : Z :=
  if q_scale_type =? 0 then 2 * code
  else if code <=? 8 then code
  else if code <=? 16 then 8 + 2 * (code - 8)
  else if code <=? 24 then 24 + 4 * (code - 16)
  else 56 + 8 * (code - 24).

(** 7.4.1, 7.4.2: the coefficient [q] at raster position [p], of weight [w] *)
Definition iso_dequant (intra : bool) (precision qs : Z) (p : nat) (w q : Z) : Z :=
  if intra then if Nat.eqb p 0 then 2 ^ (3 - precision) * q else Z.quot (q * w * qs * 2) 32
  else Z.quot ((2 * q + Z.sgn q) * w * qs) 32.

(** 7.4.3 *)
Definition iso_saturate (x : Z) : Z := Z.max (-2048) (Z.min 2047 x).

(** The sum of a block *)
Definition sum (l : list Z) : Z := fold_right Z.add 0 l.
