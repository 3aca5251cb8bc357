(** BlockModel: package video - VLC decoders, coefficient blocks, inverse quantisation, IDCT. *)
From Verif Require Import Base BitReader Huffman VlcTables.

(** * Decoders over the tables *)

(** macroblock_addressing.go:46-59.  The tables are typed here, so the branch
    ErrUnexpectedDecodedValueType of this and the following decoders does not exist. *)
Definition mba_decode : M reader Z := hdecode mba_table.

(** macroblock_type.go:8-20,71-79 *)
Definition mbtype_decode_I : M reader mbtype := hdecode mbtype_table_I.
Definition mbtype_decode_P : M reader mbtype := hdecode mbtype_table_P.
Definition mbtype_decode_B : M reader mbtype := hdecode mbtype_table_B.

(** coding_block_pattern.go:113-122: decodeCpb *)
Definition cbp_decode : M reader Z := hdecode cbp_table.

(** motion_vectors.go:193-202: decodeMotionCode *)
Definition motion_code_decode : M reader Z := hdecode motion_code_table.

(** dtc_coefficients.go:542-557,590-596 *)
Definition dc_size_luma : M reader Z := hdecode dc_size_luma_table.
Definition dc_size_chroma : M reader Z := hdecode dc_size_chroma_table.

(** dtc_coefficients.go:16-65: the function returned by newDCTCoefficientDecoder; its results
    (run, level, end). *)
Definition dct_decode (first rest : htable dctval) (n : Z) : M reader (Z * Z * bool) :=
  v <- hdecode (if n =? 0 then first else rest) ;;
  match v with
  | DctEndOfBlock => ret (0, 0, true)
  | DctEscape =>
      run <- read_n 6 ;;
      sign <- read1 ;;
      val <- read_n 11 ;;
      ret (run, i32 ((if sign then -2048 else 0) + i32 val), false)
  | DctCoef run level =>
      sign <- read1 ;;
      ret (run, (if sign then i32 (level * -1) else level), false)
  end.

(** dtc_coefficients.go:598-605: dctCoefficientDecoders *)
Definition dct_table_zero : Z -> M reader (Z * Z * bool) := dct_decode dct_table_0_first dct_table_0_rest.
Definition dct_table_one : Z -> M reader (Z * Z * bool) := dct_decode dct_table_1_first dct_table_1_rest.

(** * Blocks (block.go) *)

(** block.go:5-8 *)
Definition blockSize : nat := 64.

(** block.go:10-12: the arrays block and clampedblock are lists of 64 numbers. *)
Definition block : Type := list Z.

(** a[i] = v on an array, i in range (block.go:73-74, motion_vectors.go:89-90) *)
Fixpoint set_nth {A} (i : nat) (v : A) (l : list A) : list A :=
  match l, i with
  | [], _ => []
  | _ :: l, O => v :: l
  | x :: l, S i => x :: set_nth i v l
  end.

(** block.go:14-18: sum *)
Definition block_sum (dest other : block) : block :=
  map (fun p => i32 (fst p + snd p)) (combine dest other).

(** block.go:20-24: zero *)
Definition block_zero : block := repeat 0 blockSize.

(** block.go:26-36: clamp *)
Definition clamp1 (x : Z) : Z :=
  if x >? 255 then 255 else if x <? 0 then 0 else u8 x.
Definition block_clamp (src : block) : block := map clamp1 src.

(** The variables block.read changes: the block, and the DC predictors
    (dc_dct_predictors.go:3: dcDctPredictors). *)
Record bstate : Type := mkBS { bs_block : block; bs_pred : list Z }.

(** block.go:73, 93, 98, 101: QFS[i] = v, a panic when i is out of range. *)
Definition bwrite (i : Z) (v : Z) : M (bstate * reader) unit := fun s =>
  if (0 <=? i) && (i <? Z.of_nat blockSize)
  then (Ok tt, (mkBS (set_nth (Z.to_nat i) v (bs_block (fst s))) (bs_pred (fst s)), snd s))
  else (Panic, s).

(** block.go:92-95, 97-100: [k] zeros from index [n] *)
Fixpoint bzeros (k : nat) (n : Z) : M (bstate * reader) unit :=
  match k with
  | O => ret tt
  | S k => bwrite n 0 ;; bzeros k (n + 1)
  end.

(** block.go:61-71: the differential of the DC coefficient *)
Definition dct_diff (size differential : Z) : Z :=
  if size =? 0 then 0
  else
    let half_range := u32 (Z.shiftl 1 (size - 1)) in
    if differential >=? half_range then i32 differential
    else i32 (i32 (u32 (differential + 1)) - i32 (u32 (2 * half_range))).

(** block.go:78-104: the loop.  Every pass but the last writes at least one coefficient and a
    write past the block panics, so 66 passes are enough fuel. *)
Fixpoint block_coeffs (fuel : nat) (decoder : Z -> M reader (Z * Z * bool)) (n : Z)
  : M (bstate * reader) unit :=
  match fuel with
  | O => nofuel
  | S fuel =>
      ' (run, level, fin) <- onr (decoder n) ;;
      if fin : bool then bzeros (Z.to_nat (Z.of_nat blockSize - n)) n
      else
        bzeros (Z.to_nat run) n ;;
        bwrite (n + run) level ;;
        block_coeffs fuel decoder (n + run + 1)
  end.

(** block.go:43-76: the DC coefficient of an intra block *)
Definition block_dc (cc : nat) : M (bstate * reader) unit :=
  size <- onr (if Nat.eqb cc 0 then dc_size_luma else dc_size_chroma) ;;
  differential <- onr (read_n (Z.to_nat size)) ;;
  fun s =>
    let dc := i32 (nth cc (bs_pred (fst s)) 0 + dct_diff size differential) in
    (Ok tt, (mkBS (set_nth 0 dc (bs_block (fst s))) (set_nth cc dc (bs_pred (fst s))), snd s)).

(** block.go:38-107: read *)
Definition block_read (intra_vlc_format : Z) (cc : nat) (macroblock_intra : bool)
  : M (bstate * reader) unit :=
  let decoder := if macroblock_intra && (intra_vlc_format =? 1) then dct_table_one else dct_table_zero in
  if macroblock_intra
  then block_dc cc ;; block_coeffs 66 decoder 1
  else block_coeffs 66 decoder 0.

(** dc_dct_predictors.go:6-13: createResetter and the function it returns *)
Definition dc_reset (intra_dc_precision : Z) : list Z :=
  let v := i32 (Z.shiftl 1 (7 + intra_dc_precision)) in [v; v; v].

(** * Inverse scan and quantisation (decode_block.go, quantiser_scale_table.go) *)

(** decode_block.go:3-24: scan *)
Definition scan_0 : list (list nat) := [
  [0; 1; 5; 6; 14; 15; 27; 28];
  [2; 4; 7; 13; 16; 26; 29; 42];
  [3; 8; 12; 17; 25; 30; 41; 43];
  [9; 11; 18; 24; 31; 40; 44; 53];
  [10; 19; 23; 32; 39; 45; 52; 54];
  [20; 22; 33; 38; 46; 51; 55; 60];
  [21; 34; 37; 47; 50; 56; 59; 61];
  [35; 36; 48; 49; 57; 58; 62; 63]
]%nat.
Definition scan_1 : list (list nat) := [
  [0; 4; 6; 20; 22; 36; 38; 52];
  [1; 5; 7; 21; 23; 37; 39; 53];
  [2; 8; 19; 24; 34; 40; 50; 54];
  [3; 9; 18; 25; 35; 41; 51; 55];
  [10; 17; 26; 30; 42; 46; 56; 60];
  [11; 16; 27; 31; 43; 47; 57; 61];
  [12; 15; 28; 32; 44; 48; 58; 62];
  [13; 14; 29; 33; 45; 49; 59; 63]
]%nat.
Definition scan (alternate_scan : Z) : list (list nat) := if alternate_scan =? 0 then scan_0 else scan_1.

(** quantiser_scale_table.go:5-18 *)
Definition quantiser_scale_table_0 : list Z := [
  0; 2; 4; 6; 8; 10; 12; 14;
  16; 18; 20; 22; 24; 26; 28; 30;
  32; 34; 36; 38; 40; 42; 44; 46;
  48; 50; 52; 54; 56; 58; 60; 62 ].
Definition quantiser_scale_table_1 : list Z := [
  0; 1; 2; 3; 4; 5; 6; 7;
  8; 10; 12; 14; 16; 18; 20; 22;
  24; 28; 32; 36; 40; 44; 48; 52;
  56; 64; 72; 80; 88; 96; 104; 112 ].
Definition quantiser_scale (q_scale_type code : Z) : Z :=
  nth (Z.to_nat code) (if q_scale_type =? 0 then quantiser_scale_table_0 else quantiser_scale_table_1) 0.

(** decode_block.go:26-33 *)
Definition signInt32 (i : Z) : Z := if i >? 0 then 1 else if i <? 0 then -1 else 0.

(** decode_block.go:67-88: which matrix.  [c420]: chroma_format is 4:2:0. *)
Definition matrix_index (cc : nat) (c420 macroblock_intra : bool) : nat :=
  if Nat.eqb cc 0 || c420
  then if macroblock_intra then 0 else 1
  else if macroblock_intra then 2 else 3.

(** decode_block.go:94-105: one coefficient; [pos] = 8*v+u, [w] the matrix weight.
    Go's / truncates towards zero; int32 arithmetic wraps. *)
Definition dequant1 (intra : bool) (intra_dc_precision qs : Z) (pos : nat) (w q : Z) : Z :=
  if Nat.eqb pos 0 && intra
  then i32 (i32 (Z.shiftl 1 (3 - intra_dc_precision)) * q)
  else if intra
  then Z.quot (i32 (i32 (i32 (q * w) * qs) * 2)) 32
  else Z.quot (i32 (i32 (i32 (i32 (q * 2) + signInt32 q) * w) * qs)) 32.

(** decode_block.go:115-121: saturation *)
Definition saturate (x : Z) : Z :=
  if x >? 2047 then 2047 else if x <? -2048 then -2048 else x.

(** The sum of decode_block.go:122, wrapping *)
Definition isum (l : list Z) : Z := fold_left (fun a x => i32 (a + x)) l 0.

(** decode_block.go:128-134: mismatch control on the last coefficient.  x & 1 of an int32 is the
    parity of x. *)
Definition mismatch (F : block) : block :=
  if Z.even (isum F)
  then set_nth 63 (let x := nth 63 F 0 in if Z.odd x then i32 (x - 1) else i32 (x + 1)) F
  else F.

(** decode_block.go:35-136: decode_block.  The parameters are the fields it reads: the matrix
    W[w] in raster order, alternate_scan, q_scale_type, intra_dc_precision. *)
Definition inverse_scan (alternate_scan : Z) (QFS : block) : block :=
  map (fun n => nth n QFS 0) (concat (scan alternate_scan)).

(** decode_block.go:92-107: every coefficient *)
Definition dequant (intra : bool) (intra_dc_precision qs : Z) (W : list Z) (QF : block) : block :=
  map (fun e => dequant1 intra intra_dc_precision qs (fst e) (fst (snd e)) (snd (snd e)))
      (combine (seq 0 64) (combine W QF)).

(** decode_block.go:35-136 in one: inverse scan (52-60), inverse quantisation (62-108), saturation and mismatch control (110-135) *)
Definition decode_block (W : list Z) (alternate_scan q_scale_type intra_dc_precision code : Z)
    (intra : bool) (QFS : block) : block :=
  mismatch (map saturate
    (dequant intra intra_dc_precision (quantiser_scale q_scale_type code) W
       (inverse_scan alternate_scan QFS))).

(** * Inverse DCT (idct.go) *)

(** idct.go:40-56 *)
Definition w1 : Z := 2841.
Definition w2 : Z := 2676.
Definition w3 : Z := 2408.
Definition w5 : Z := 1609.
Definition w6 : Z := 1108.
Definition w7 : Z := 565.
Definition w1pw7 : Z := w1 + w7.
Definition w1mw7 : Z := w1 - w7.
Definition w2pw6 : Z := w2 + w6.
Definition w2mw6 : Z := w2 - w6.
Definition w3pw5 : Z := w3 + w5.
Definition w3mw5 : Z := w3 - w5.
Definition r2 : Z := 181.

(** The int32 operations of idct.go:68-188 - addition, subtraction, multiplication, shifts: they wrap *)
Definition add32 (a b : Z) : Z := i32 (a + b).
Definition sub32 (a b : Z) : Z := i32 (a - b).
Definition mul32 (a b : Z) : Z := i32 (a * b).
Definition shl32 (a n : Z) : Z := i32 (Z.shiftl a n).
Definition shr32 (a n : Z) : Z := Z.shiftr a n.

(** idct.go:73-132: one row [s0..s7] *)
Definition idct_row (s0 s1 s2 s3 s4 s5 s6 s7 : Z) : list Z :=
  if (s1 =? 0) && (s2 =? 0) && (s3 =? 0) && (s4 =? 0) && (s5 =? 0) && (s6 =? 0) && (s7 =? 0)
  then repeat (shl32 s0 3) 8
  else
    (* Prescale *)
    let x0 := add32 (shl32 s0 11) 128 in
    let x1 := shl32 s4 11 in
    let x2 := s6 in
    let x3 := s2 in
    let x4 := s1 in
    let x5 := s7 in
    let x6 := s5 in
    let x7 := s3 in
    (* Stage 1 *)
    let x8 := mul32 w7 (add32 x4 x5) in
    let x4 := add32 x8 (mul32 w1mw7 x4) in
    let x5 := sub32 x8 (mul32 w1pw7 x5) in
    let x8 := mul32 w3 (add32 x6 x7) in
    let x6 := sub32 x8 (mul32 w3mw5 x6) in
    let x7 := sub32 x8 (mul32 w3pw5 x7) in
    (* Stage 2 *)
    let x8 := add32 x0 x1 in
    let x0 := sub32 x0 x1 in
    let x1 := mul32 w6 (add32 x3 x2) in
    let x2 := sub32 x1 (mul32 w2pw6 x2) in
    let x3 := add32 x1 (mul32 w2mw6 x3) in
    let x1 := add32 x4 x6 in
    let x4 := sub32 x4 x6 in
    let x6 := add32 x5 x7 in
    let x5 := sub32 x5 x7 in
    (* Stage 3 *)
    let x7 := add32 x8 x3 in
    let x8 := sub32 x8 x3 in
    let x3 := add32 x0 x2 in
    let x0 := sub32 x0 x2 in
    let x2 := shr32 (add32 (mul32 r2 (add32 x4 x5)) 128) 8 in
    let x4 := shr32 (add32 (mul32 r2 (sub32 x4 x5)) 128) 8 in
    (* Stage 4 *)
    [shr32 (add32 x7 x1) 8; shr32 (add32 x3 x2) 8; shr32 (add32 x0 x4) 8; shr32 (add32 x8 x6) 8;
     shr32 (sub32 x8 x6) 8; shr32 (sub32 x0 x4) 8; shr32 (sub32 x3 x2) 8; shr32 (sub32 x7 x1) 8].

(** The x4 of line 122 is computed from the x4 of line 112, not from line 121's result: line 121
    assigns x2, so both read the same x4 and x5. *)

(** idct.go:141-186: one column [s0..s7] *)
Definition idct_col (s0 s1 s2 s3 s4 s5 s6 s7 : Z) : list Z :=
  (* Prescale *)
  let y0 := add32 (shl32 s0 8) 8192 in
  let y1 := shl32 s4 8 in
  let y2 := s6 in
  let y3 := s2 in
  let y4 := s1 in
  let y5 := s7 in
  let y6 := s5 in
  let y7 := s3 in
  (* Stage 1 *)
  let y8 := add32 (mul32 w7 (add32 y4 y5)) 4 in
  let y4 := shr32 (add32 y8 (mul32 w1mw7 y4)) 3 in
  let y5 := shr32 (sub32 y8 (mul32 w1pw7 y5)) 3 in
  let y8 := add32 (mul32 w3 (add32 y6 y7)) 4 in
  let y6 := shr32 (sub32 y8 (mul32 w3mw5 y6)) 3 in
  let y7 := shr32 (sub32 y8 (mul32 w3pw5 y7)) 3 in
  (* Stage 2 *)
  let y8 := add32 y0 y1 in
  let y0 := sub32 y0 y1 in
  let y1 := add32 (mul32 w6 (add32 y3 y2)) 4 in
  let y2 := shr32 (sub32 y1 (mul32 w2pw6 y2)) 3 in
  let y3 := shr32 (add32 y1 (mul32 w2mw6 y3)) 3 in
  let y1 := add32 y4 y6 in
  let y4 := sub32 y4 y6 in
  let y6 := add32 y5 y7 in
  let y5 := sub32 y5 y7 in
  (* Stage 3 *)
  let y7 := add32 y8 y3 in
  let y8 := sub32 y8 y3 in
  let y3 := add32 y0 y2 in
  let y0 := sub32 y0 y2 in
  let y2 := shr32 (add32 (mul32 r2 (add32 y4 y5)) 128) 8 in
  let y4 := shr32 (add32 (mul32 r2 (sub32 y4 y5)) 128) 8 in
  (* Stage 4 *)
  [shr32 (add32 y7 y1) 14; shr32 (add32 y3 y2) 14; shr32 (add32 y0 y4) 14; shr32 (add32 y8 y6) 14;
   shr32 (sub32 y8 y6) 14; shr32 (sub32 y0 y4) 14; shr32 (sub32 y3 y2) 14; shr32 (sub32 y7 y1) 14].

(** idct.go:68-188: the rows, then the columns *)
Definition apply8 (f : Z -> Z -> Z -> Z -> Z -> Z -> Z -> Z -> list Z) (g : nat -> Z) : list Z :=
  f (g 0%nat) (g 1%nat) (g 2%nat) (g 3%nat) (g 4%nat) (g 5%nat) (g 6%nat) (g 7%nat).
Definition idct_rows (b : block) : block :=
  flat_map (fun y => apply8 idct_row (fun x => nth (8 * y + x) b 0)) (seq 0 8).
Definition idct_cols (b : block) : block :=
  let cols := map (fun x => apply8 idct_col (fun y => nth (8 * y + x) b 0)) (seq 0 8) in
  flat_map (fun y => map (fun x => nth y (nth x cols []) 0) (seq 0 8)) (seq 0 8).
Definition idct (b : block) : block := idct_cols (idct_rows b).
