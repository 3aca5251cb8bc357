(** SpecPicture: the slices of a 4:2:0 frame picture - their syntax (ISO/IEC 13818-2 6.2.4, 6.2.5, 6.2.6) and
    the samples they stand for (7.2-7.6), independently of the model's functions, with two exceptions:
    the inverse DCT is the model's [idct], and predictions are those of SpecMotion, which round down (see C70).
    Frame pictures, and in them macroblocks with frame prediction; field DCT in intra macroblocks; concealment
    vectors where frame_pred_frame_dct is set (see C84 for where it is not). *)
From Verif Require Import Base BitReader SpecVid SpecVlc SpecBlock SpecMotion SpecNext VidModel BlockModel.

(** * Samples *)

Definition csample (c : canvas) (i : Z) : Z -> Z -> Z := if i <? 4 then cv_y c else if i =? 4 then cv_b c else cv_r c.
(** Predictions as in SpecMotion, from canvases *)
Definition cpredict1 (c : canvas) (i : Z) (mv : Z * Z) (x y : Z) : Z :=
  half_sample (csample c i) (2 * x + block_vector i (fst mv)) (2 * y + block_vector i (snd mv)).
Definition cpredict (past future : option (canvas * (Z * Z))) (i x y : Z) : Z :=
  match past, future with
  | Some (f, a), Some (g, b) => (cpredict1 f i a x y + cpredict1 g i b x y) / 2
  | Some (f, a), None => cpredict1 f i a x y
  | None, Some (g, b) => cpredict1 g i b x y
  | None, None => 0
  end.
(** Painting n macroblocks of a row *)
Definition paint (c : canvas) (row col n : Z) (ly lb lr : Z -> Z -> Z) : canvas :=
  mkCanvas (cv_w c) (cv_h c)
    (fun x y => if in_mbs 16 row col n x y then ly x y else cv_y c x y)
    (fun x y => if in_mbs 8 row col n x y then lb x y else cv_b c x y)
    (fun x y => if in_mbs 8 row col n x y then lr x y else cv_r c x y).

(** * The picture *)

(** What the slices of a picture depend on: type, coding extension, matrices (raster order), size in whole
    macroblocks and references *)
Record params : Type := mkParams {
  pp_type : Z; pp_pce : spce; pp_intra : list Z; pp_non_intra : list Z; pp_w : Z; pp_h : Z;
  pp_past : known; pp_future : known }.

(** * Blocks: 7.3, 7.4 *)

(** The coefficients [Q], in the order they are coded, in raster order, dequantised, and with mismatch
    control *)
Fixpoint index_of (p : nat) (l : list nat) : nat :=
  match l with [] => O | x :: l => if Nat.eqb x p then O else S (index_of p l) end.
Definition iso_coefficients (P : params) (qcode : Z) (intra : bool) (Q : list Z) : list Z :=
  let e := pp_pce P in
  let W := if intra then pp_intra P else pp_non_intra P in
  let at_ p := iso_saturate (iso_dequant intra (e_dc e) (iso_quantiser_scale (Z.b2z (e_qtype e)) qcode) p
                               (nth p W 0) (nth (index_of p (scan_order (e_alt e))) Q 0)) in
  let total := sum (map at_ (seq 0 64)) in
  map (fun p => if Nat.eqb p 63 && Z.even total then if Z.odd (at_ p) then at_ p - 1 else at_ p + 1 else at_ p) (seq 0 64).
Definition residual (P : params) (qcode : Z) (intra : bool) (Q : list Z) : list Z := idct (iso_coefficients P qcode intra Q).
Definition no_residual : list Z := repeat 0 64.
(** The 64 coefficients of a block *)
Definition fill (l : list Z) : list Z := l ++ repeat 0 (64 - length l).

(** * Macroblocks *)

Inductive body : Type :=
| Intra (field_dct : bool) (blocks : list (Z * list (Z * Z)))   (* six times a DC value and run/level pairs *)
| Coded (blocks : list (option (list (Z * Z))))                 (* six blocks, some of them coded *)
| NotCoded.
Record smb : Type := mkMb {
  b_incr : Z;                       (* the address increment *)
  b_quant : option Z;               (* a new quantiser_scale_code *)
  b_forward : option (Z * Z); b_backward : option (Z * Z);   (* vectors; of an intra macroblock, the concealment vector *)
  b_body : body }.
Definition some {A} (x : option A) : bool := match x with Some _ => true | None => false end.
Definition is_intra (b : smb) : bool := match b_body b with Intra _ _ => true | _ => false end.
(** macroblock_motion_forward: concealment vectors do not count. *)
Definition is_forward (b : smb) : bool := some (b_forward b) && negb (is_intra b).
Definition is_coded (b : smb) : bool := match b_body b with Coded _ => true | _ => false end.
(** coded_block_pattern: bit 5-i says whether block i is coded. *)
Definition pattern_of (blocks : list (option (list (Z * Z)))) : Z :=
  fold_left (fun a x => 2 * a + Z.b2z (some x)) blocks 0.

(** ** State: the DC predictions, the vector predictions (PMV), the quantiser scale, and the directions of the
    last prediction *)
Record pstate : Type := mkPS { ps_dc : nat -> Z; ps_fwd : Z * Z; ps_bwd : Z * Z; ps_q : Z; ps_dirs : bool * bool }.
Definition ps_start (P : params) (q : Z) : pstate :=
  mkPS (fun _ => dc_reset_value (e_dc (pp_pce P))) (0, 0) (0, 0) q (false, false).

(** 7.2.1, 7.6.3.4, and 7.6.6 for P pictures: what is reset before a macroblock *)
Definition ps_before (P : params) (s : pstate) (b : smb) : pstate :=
  let skipped := 1 <? b_incr b in
  let pmv_reset := ((pp_type P =? 2) && skipped) || (is_intra b && negb (e_conceal (pp_pce P))) ||
                   ((pp_type P =? 2) && negb (is_intra b) && negb (is_forward b)) in
  mkPS (if skipped || negb (is_intra b) then fun _ => dc_reset_value (e_dc (pp_pce P)) else ps_dc s)
    (if pmv_reset then (0, 0) else ps_fwd s) (if pmv_reset then (0, 0) else ps_bwd s)
    (match b_quant b with Some q => q | None => ps_q s end)
    (ps_dirs s).
Definition vector_or (d : Z * Z) (v : option (Z * Z)) : Z * Z := match v with Some v => v | None => d end.
Definition set_dc (p : nat -> Z) (cc : nat) (v : Z) : nat -> Z := fun i => if Nat.eqb i cc then v else p i.
(** The colour component of block i *)
Definition component (i : nat) : nat := match i with 4%nat => 1%nat | 5%nat => 2%nat | _ => 0%nat end.
Fixpoint dc_after (p : nat -> Z) (i : nat) (blocks : list (Z * list (Z * Z))) : nat -> Z :=
  match blocks with [] => p | (dc, _) :: blocks => dc_after (set_dc p (component i) dc) (S i) blocks end.
(** The state after a macroblock *)
Definition ps_after (P : params) (s : pstate) (b : smb) : pstate :=
  let s := ps_before P s b in
  mkPS (match b_body b with Intra _ blocks => dc_after (ps_dc s) 0 blocks | _ => ps_dc s end)
    (vector_or (ps_fwd s) (b_forward b)) (vector_or (ps_bwd s) (b_backward b)) (ps_q s)
    (if is_intra b then (false, false) else if pp_type P =? 2 then (true, false) else (is_forward b, some (b_backward b))).

(** ** Samples *)

(** The references of a prediction in state [s].  What there is not is left out of a prediction. *)
Definition with_vector (k : known) (v : Z * Z) : option (canvas * (Z * Z)) := match k with Is c => Some (c, v) | _ => None end.
Definition past_of (P : params) (s : pstate) : option (canvas * (Z * Z)) :=
  if fst (ps_dirs s) then with_vector (pp_past P) (ps_fwd s) else None.
Definition future_of (P : params) (s : pstate) : option (canvas * (Z * Z)) :=
  if snd (ps_dirs s) then with_vector (pp_future P) (ps_bwd s) else None.
(** The residuals of the six blocks *)
Definition residuals (P : params) (q : Z) (b : body) : list (list Z) :=
  match b with
  | Intra _ blocks => map (fun x => residual P q true (fill (fst x :: expand (snd x)))) blocks
  | Coded blocks => map (fun x => match x with Some rls => residual P q false (fill (expand rls)) | None => no_residual end) blocks
  | NotCoded => repeat no_residual 6
  end.
Definition field_dct (b : body) : bool := match b with Intra f _ => f | _ => false end.
(** Macroblock [col] of row [row]: the sum of residual and prediction, clamped to 8 bits *)
Definition paint_mb (P : params) (row col : Z) (s : pstate) (b : smb) (c : canvas) : canvas :=
  let r := residuals P (ps_q s) (b_body b) in
  let p := cpredict (past_of P s) (future_of P s) in
  paint c row col 1
    (fun x y => clamp255 (mb_luma (field_dct (b_body b)) r (x - 16 * col) (y - 16 * row) + p 0 x y))
    (fun x y => clamp255 (nth (Z.to_nat (8 * (y - 8 * row) + (x - 8 * col))) (nth 4 r []) 0 + p 4 x y))
    (fun x y => clamp255 (nth (Z.to_nat (8 * (y - 8 * row) + (x - 8 * col))) (nth 5 r []) 0 + p 5 x y)).
(** The n macroblocks from [col] on that are skipped (7.6.6): in a P picture copies of the past picture, in a B
    picture the prediction of the macroblock before them.  [s] is the state before them. *)
Definition paint_skipped (P : params) (row col n : Z) (s : pstate) (c : canvas) : canvas :=
  if n <=? 0 then c else
  if pp_type P =? 2 then match pp_past P with Is past => paint c row col n (cv_y past) (cv_b past) (cv_r past) | _ => c end
  else let p := cpredict (past_of P s) (future_of P s) in paint c row col n (p 0) (p 4) (p 5).

(** ** What is required *)
Definition cvector_in (P : params) (row col : Z) (ref : option (canvas * (Z * Z))) : Prop :=
  match ref with
  | Some (c, mv) => cv_w c = pp_w P /\ cv_h c = pp_h P /\ forall i, 0 <= i < 6 -> vector_in (pp_w P) (pp_h P) i row col mv
  | None => True
  end.
(** The references of a prediction are known - to be missing, at worst, which only happens when decoding starts in the
    middle of a stream (C83). *)
Definition available (P : params) (s : pstate) : Prop :=
  (fst (ps_dirs s) = true -> pp_past P <> Unknown) /\ (snd (ps_dirs s) = true -> pp_future P <> Unknown).
Definition pairs_ok (rls : list (Z * Z)) : Prop := Forall (fun p => 0 <= fst p < 64 /\ -2048 <= snd p < 2048) rls.
Definition body_ok (P : params) (b : body) : Prop :=
  match b with
  | Intra f blocks => length blocks = 6%nat /\ (e_fpfd (pp_pce P) = true -> f = false) /\
      Forall (fun x => 0 <= fst x < 2 ^ (8 + e_dc (pp_pce P)) /\ pairs_ok (snd x) /\ (length (expand (snd x)) <= 63)%nat) blocks
  | Coded blocks => length blocks = 6%nat /\
      Forall (fun x => match x with Some rls => pairs_ok rls /\ (length (expand rls) <= 64)%nat | None => True end) blocks
  | NotCoded => True
  end.
(** [addr] is the address of the macroblock before in the slice, -1 at its start. *)
Definition mb_ok (P : params) (row addr : Z) (s : pstate) (b : smb) : Prop :=
  1 <= b_incr b /\ mb_in (pp_w P) (pp_h P) row (addr + b_incr b) /\ body_ok P (b_body b) /\
  (is_intra b = true -> some (b_forward b) = e_conceal (pp_pce P)) /\
  match b_quant b with Some q => 1 <= q < 32 | None => True end /\
  let s' := ps_after P s b in
  available P s' /\ cvector_in P row (addr + b_incr b) (past_of P s') /\ cvector_in P row (addr + b_incr b) (future_of P s') /\
  (0 <= addr -> 1 < b_incr b ->
     pp_type P <> 1 /\ (pp_type P = 2 -> exists c, pp_past P = Is c /\ cv_w c = pp_w P /\ cv_h c = pp_h P) /\
     (pp_type P = 3 -> forall col, addr < col < addr + b_incr b ->
        cvector_in P row col (past_of P s) /\ cvector_in P row col (future_of P s))).

(** ** Bits *)
Definition incr_code (n : Z) (c : list bool) : Prop :=
  exists k i c0, n = 33 * Z.of_nat k + i /\ mba_code c0 i /\ c = concat (repeat mb_escape k) ++ c0.
Definition type_table (t : Z) : list mbt_row := if t =? 1 then b2 else if t =? 2 then b3 else b4.
Definition opt_vector (fx fy : Z) (p : Z * Z) (v : option (Z * Z)) (c : list bool) : Prop :=
  match v with Some v => pair_code fx fy p v c | None => c = [] end.
Fixpoint intra_code (P : params) (p : nat -> Z) (i : nat) (blocks : list (Z * list (Z * Z))) (c : list bool) : Prop :=
  match blocks with
  | [] => c = []
  | (dc, rls) :: blocks => exists c1 c2 c3, c = c1 ++ c2 ++ c3 /\
      dc_code (Nat.eqb (component i) 0) c1 (dc - p (component i)) /\ coded_from (e_vlc (pp_pce P)) 1 rls c2 /\
      intra_code P (set_dc p (component i) dc) (S i) blocks c3
  end.
Fixpoint inter_code (blocks : list (option (list (Z * Z)))) (c : list bool) : Prop :=
  match blocks with
  | [] => c = []
  | Some rls :: blocks => exists c1 c2, c = c1 ++ c2 /\ coded_from false 0 rls c1 /\ inter_code blocks c2
  | None :: blocks => inter_code blocks c
  end.
Definition body_code (P : params) (s : pstate) (b : body) (c : list bool) : Prop :=
  match b with
  | Intra _ blocks => intra_code P (ps_dc s) 0 blocks c
  | Coded blocks => exists c1 c2, c = c1 ++ c2 /\ cbp_code c1 (pattern_of blocks) /\ inter_code blocks c2
  | NotCoded => c = []
  end.
(** 6.2.5: [s] is the state before the macroblock. *)
Definition mb_code (P : params) (s : pstate) (b : smb) (c : list bool) : Prop :=
  let e := pp_pce P in
  let s := ps_before P s b in
  let motion := is_forward b || some (b_backward b) in
  exists c_incr c_type c_fwd c_bwd c_body,
    incr_code (b_incr b) c_incr /\
    mbt_code (type_table (pp_type P)) c_type (some (b_quant b), is_forward b, some (b_backward b), is_coded b, is_intra b) /\
    opt_vector (e_f00 e) (e_f01 e) (ps_fwd s) (b_forward b) c_fwd /\
    opt_vector (e_f10 e) (e_f11 e) (ps_bwd s) (b_backward b) c_bwd /\
    body_code P s (b_body b) c_body /\
    c = c_incr ++ c_type ++
        (if motion && negb (e_fpfd e) then enc 2 2 else []) ++                                          (* frame_motion_type *)
        (if negb (e_fpfd e) && (is_intra b || is_coded b) then [field_dct (b_body b)] else []) ++      (* dct_type *)
        (match b_quant b with Some q => enc 5 q | None => [] end) ++ c_fwd ++ c_bwd ++
        (if is_intra b && e_conceal e then [true] else []) ++ c_body.                                   (* marker_bit *)

(** * Slices *)

(** The macroblocks after address [addr] *)
Fixpoint mbs_code (P : params) (row addr : Z) (s : pstate) (mbs : list smb) (c : list bool) : Prop :=
  match mbs with
  | [] => c = []
  | b :: mbs => mb_ok P row addr s b /\ exists c1 c2, c = c1 ++ c2 /\ mb_code P s b c1 /\
      mbs_code P row (addr + b_incr b) (ps_after P s b) mbs c2
  end.
Fixpoint mbs_paint (P : params) (row addr : Z) (s : pstate) (mbs : list smb) (c : canvas) : canvas :=
  match mbs with
  | [] => c
  | b :: mbs =>
      let c := if addr =? -1 then c else paint_skipped P row (addr + 1) (b_incr b - 1) s c in
      mbs_paint P row (addr + b_incr b) (ps_after P s b) mbs
        (paint_mb P row (addr + b_incr b) (ps_after P s b) b c)
  end.
(** A slice: its row, the quantiser scale, optional flags with extra bytes, and macroblocks.
    [sl_k] is a number of stuffing bytes after it. *)
Record sslice : Type := mkSlice { sl_row : Z; sl_q : Z; sl_flags : option (bool * list Z); sl_mbs : list smb; sl_k : nat }.
Definition flags_code (x : option (bool * list Z)) : list bool :=
  match x with
  | None => []
  | Some (intra_slice, extra) => [true; intra_slice] ++ enc 7 0 ++ flat_map (fun b => [true] ++ enc 8 b) extra
  end ++ [false].
Definition slice_code (P : params) (l : sslice) (c : list bool) : Prop :=
  0 <= sl_row l < 175 /\ 16 * sl_row l + 16 <= pp_h P /\ 1 <= sl_q l < 32 /\ sl_mbs l <> [] /\
  match sl_flags l with Some (_, extra) => Forall (fun b => 0 <= b < 256) extra | None => True end /\
  exists c1, mbs_code P (sl_row l) (-1) (ps_start P (sl_q l)) (sl_mbs l) c1 /\
    c = stuffed (code (sl_row l + 1) ++ enc 5 (sl_q l) ++ flags_code (sl_flags l) ++ c1) (sl_k l).
Definition slice_paint (P : params) (l : sslice) (c : canvas) : canvas :=
  mbs_paint P (sl_row l) (-1) (ps_start P (sl_q l)) (sl_mbs l) c.

(** * Pictures *)
Definition blank (P : params) : canvas := mkCanvas (pp_w P) (pp_h P) (fun _ _ => 0) (fun _ _ => 0) (fun _ _ => 0).
Definition whole (n : Z) : Z := 16 * ((n + 15) / 16).
Definition matrix_ok (W : list Z) : Prop := length W = 64%nat /\ Forall (fun w => 0 <= w < 256) W.
Definition params_ok (P : params) : Prop :=
  1 <= pp_type P <= 3 /\ e_struct (pp_pce P) = 3 /\ (e_conceal (pp_pce P) = true -> e_fpfd (pp_pce P) = true) /\ 0 <= e_dc (pp_pce P) <= 3 /\
  1 <= e_f00 (pp_pce P) /\ 1 <= e_f01 (pp_pce P) /\ 1 <= e_f10 (pp_pce P) /\ 1 <= e_f11 (pp_pce P) /\
  matrix_ok (pp_intra P) /\ matrix_ok (pp_non_intra P).
Inductive slices_code (P : params) : list sslice -> list bool -> Prop :=
| slices_one : forall l c, slice_code P l c -> slices_code P [l] c
| slices_cons : forall l ls c d, slice_code P l c -> slices_code P ls d -> slices_code P (l :: ls) (c ++ d).
Definition picture_paint (P : params) (ls : list sslice) : canvas := fold_left (fun c l => slice_paint P l c) ls (blank P).

(** A picture of a sequence, in context [c], after the reference pictures [o] and [l] (SpecNext) *)
Definition params_of (c : context) (o l : known) (p : spicture) : params :=
  let t := p_type (pi_hdr p) in
  mkParams t (pi_pce p) (c_m0 c) (c_m1 c)
    (whole (4096 * x_h (c_ext c) + q_horizontal (c_seq c))) (whole (4096 * x_v (c_ext c) + q_vertical (c_seq c)))
    (if t =? 2 then l else if t =? 3 then o else Unknown) (if t =? 3 then l else Unknown).
(** Its data is a coding of slices, its frame what they stand for.  4:2:0 sequences, of at most 2800 lines
    (see C82 for taller ones). *)
Definition picture_coded (c : context) (o l : known) (p : spicture) : Prop :=
  let P := params_of c o l p in
  wf_seq (c_seq c) /\ wf_sext (c_ext c) /\ x_chroma (c_ext c) = 1 /\ 4096 * x_v (c_ext c) + q_vertical (c_seq c) <= 2800 /\
  0 < 4096 * x_h (c_ext c) + q_horizontal (c_seq c) /\ 0 < 4096 * x_v (c_ext c) + q_vertical (c_seq c) /\
  params_ok P /\ exists ls, slices_code P ls (pi_data p) /\ pi_frame p = picture_paint P ls.
