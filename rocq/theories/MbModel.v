(** MbModel: package video - motion vectors, motion compensation, macroblocks, slices, pictures, the frame
    store and Next. *)
From Verif Require Import Base BitReader VidModel Huffman VlcTables BlockModel.

(** The first component of the state: reading fields of the receiver (video_sequence.go:7-27) or the local variables of slice.go:28-49 *)
Definition own {T R} : M (T * R) T := fun s => (Ok (fst s), s).
(** A pointer that is nil panics when it is used (such as br.PictureCodingExtension, slice.go:29; br.SequenceHeader, slice.go:51;
    self.SequenceExtension, picture_data.go:28). *)
Definition deref {S A} (x : option A) : M S A := match x with Some a => ret a | None => panic end.

(** The loops over blocks and lines (macroblock.go:150-166, motion_compensation.go:106-155) as iteration of a computation over a list *)
Fixpoint mapM {S A B} (f : A -> M S B) (l : list A) : M S (list B) :=
  match l with
  | [] => ret []
  | x :: l => b <- f x ;; bs <- mapM f l ;; ret (b :: bs)
  end.
(** The same without results (copy_macroblocks.go:38-45) *)
Fixpoint iterM {S A} (f : A -> M S unit) (l : list A) : M S unit :=
  match l with
  | [] => ret tt
  | x :: l => f x ;; iterM f l
  end.

(** * chroma_format.go:40-45, picture_structure.go:5-10 *)
Definition ChromaFormat420 : Z := 1.
Definition ChromaFormat422 : Z := 2.
Definition ChromaFormat444 : Z := 3.
Definition FramePicture : Z := 3.

(** * frame_store.go *)

(** frame_store.go:17-20 gop *)
Definition ref_prev (x : refframe) : refframe := mkRef (rf_frame x) (rf_tr x) true.
Definition fs_gop (fs : framestore) : framestore :=
  mkFS (ref_prev (fs_0 fs)) (ref_prev (fs_1 fs)) (fs_past fs) (fs_future fs).
(** frame_store.go:22-33 set, for one frame *)
Definition fs_set1 (tr : Z) (x : refframe) (fs : framestore) : framestore :=
  match rf_frame x with
  | None => fs
  | Some f =>
      if rf_prev x || (rf_tr x <? tr)
      then mkFS (fs_0 fs) (fs_1 fs) (Some f) (fs_future fs)
      else mkFS (fs_0 fs) (fs_1 fs) (fs_past fs) (Some f)
  end.
(** frame_store.go:22-33 set *)
Definition fs_set (tr : Z) (fs : framestore) : framestore :=
  fs_set1 tr (fs_1 fs) (fs_set1 tr (fs_0 fs) fs).
(** frame_store.go:35-38 add *)
Definition fs_add (f : image) (tr : Z) (fs : framestore) : framestore :=
  mkFS (fs_1 fs) (mkRef (Some f) tr false) (fs_past fs) (fs_future fs).
(** frame_store.go:40-47 tryGet *)
Definition ref_get (tr : Z) (x : refframe) : option image :=
  match rf_frame x with
  | None => None
  | Some f => if negb (rf_prev x) && (rf_tr x =? tr) then Some f else None
  end.
Definition fs_tryget (tr : Z) (fs : framestore) : option image :=
  match ref_get tr (fs_0 fs) with Some f => Some f | None => ref_get tr (fs_1 fs) end.

(** * motion_vectors.go, motion_vector_info.go *)

(** motion_vectors.go:42-51 motionVectorData: the predictions and the actual vectors, each [r][s][t] at
    index 4r+2s+t; [mv_fwd], [mv_bwd] are the bits of [previous].  [info], [code], [residual] and
    [vertical_field_select] do not outlive a call of motion_vectors (a residual is used only when it has
    just been read). *)
Record mvdata : Type := mkMV { mv_pred : list Z; mv_act : list Z; mv_fwd : bool; mv_bwd : bool }.
Definition mvi (r s t : nat) : nat := (4 * r + 2 * s + t)%nat.

(** motion_vectors.go:99-120 reset *)
Definition mv_reset (m : mvdata) : mvdata := mkMV (repeat 0 8) (repeat 0 8) (mv_fwd m) (mv_bwd m).
(** The zero value, after reset *)
Definition mv_zero : mvdata := mkMV (repeat 0 8) (repeat 0 8) false false.

(** motion_vectors.go:24-40 set *)
Definition mv_previous (t : mbtype) (pct : Z) (m : mvdata) : mvdata :=
  if mb_intra t then mkMV (mv_pred m) (mv_act m) false false
  else if (pct =? PFrame) && negb (mb_motion_forward t) && negb (mb_motion_backward t)
  then mkMV (mv_pred m) (mv_act m) true false
  else if mb_motion_forward t && mb_motion_backward t then mkMV (mv_pred m) (mv_act m) true true
  else if mb_motion_forward t then mkMV (mv_pred m) (mv_act m) true false
  else if mb_motion_backward t then mkMV (mv_pred m) (mv_act m) false true
  else m.

(** motion_vectors.go:53-97, update_actual without the arrays: the new prediction and the vector, from the
    prediction, the code and the residual; absInt (lines 9-14) is Z.abs.  [halved]: field format, vertical, frame picture.  The values
    are int (64 bits) and small.  For f_code = 0 the shift 1 << (2^32-1) gives 0. *)
Definition mv_update (f_code : Z) (halved : bool) (code residual prediction : Z) : Z * Z :=
  let f := if f_code =? 0 then 0 else Z.shiftl 1 (f_code - 1) in
  let high := 16 * f - 1 in
  let low := -16 * f in
  let range := 32 * f in
  let delta :=
    if (f =? 1) || (code =? 0) then code
    else let d := (Z.abs code - 1) * f + residual + 1 in if code <? 0 then - d else d in
  let prediction := if halved then Z.shiftr prediction 1 else prediction in
  let vector := prediction + delta in
  let vector := if vector <? low then vector + range else vector in
  let vector := if vector >? high then vector - range else vector in
  ((if halved then Z.shiftl vector 1 else vector), vector).

(** picture_coding_extension.go:5 f_code[s][t] *)
Definition f_code (e : piccodext) (s t : nat) : Z :=
  match s, t with
  | O, O => pc_f00 e | O, _ => pc_f01 e | _, O => pc_f10 e | _, _ => pc_f11 e
  end.

(** macroblock.go:7-16 Macroblock (the fields that are used after macroblock_mode) *)
Record mbmode : Type := mkMode { mo_type : mbtype; mo_frame_motion : Z; mo_field_motion : Z; mo_dct : bool }.

(** motion_vector_info.go:17-41 mv_info: count, field format, dmv *)
Definition mv_info {S} (e : piccodext) (mb : mbmode) : M S (Z * bool * bool) :=
  if pc_fpfd e =? 1 then ret (1, false, false)
  else if mo_frame_motion mb =? 1 then ret (2, true, false)
  else if mo_frame_motion mb =? 2 then ret (1, false, false)
  else if mo_frame_motion mb =? 3 then ret (1, true, true)
  else if mo_field_motion mb =? 1 then ret (1, true, false)
  else if mo_field_motion mb =? 2 then ret (2, true, false)
  else if mo_field_motion mb =? 3 then ret (1, true, true)
  else panic.

(** What macroblock() and the functions it calls change: the DC predictors, the motion vectors, the
    quantiser scale code, and the frame.  The slice frameSlice of slice.go:42-49 is the frame from the
    row on, see [chan]. *)
Record mstate : Type := mkMS { ms_dcp : list Z; ms_mvd : mvdata; ms_qsc : Z; ms_frame : image }.
Definition ms_set_dcp (x : list Z) (m : mstate) := mkMS x (ms_mvd m) (ms_qsc m) (ms_frame m).
Definition ms_set_mvd (x : mvdata) (m : mstate) := mkMS (ms_dcp m) x (ms_qsc m) (ms_frame m).
Definition ms_set_qsc (x : Z) (m : mstate) := mkMS (ms_dcp m) (ms_mvd m) x (ms_frame m).
Definition ms_set_frame (x : image) (m : mstate) := mkMS (ms_dcp m) (ms_mvd m) (ms_qsc m) x.
Definition MB (A : Type) : Type := M (mstate * reader) A.

(** motion_vectors.go:89-96: the assignments to predictions[r][s][t] and actual[r][s][t] *)
Definition mv_store (r s t : nat) (pa : Z * Z) (m : mvdata) : mvdata :=
  mkMV (set_nth (mvi r s t) (fst pa) (mv_pred m)) (set_nth (mvi r s t) (snd pa) (mv_act m)) (mv_fwd m) (mv_bwd m).

(** motion_vectors.go:128-150 motion_vector_part.  With f_code = 0 and a code other than 0, Read32 is asked
    for 2^32-1 bits; that is taken to panic. *)
Definition motion_vector_part (e : piccodext) (field dmv : bool) (r s t : nat) : MB unit :=
  code <- onr motion_code_decode ;;
  residual <- (if negb (f_code e s t =? 1) && negb (code =? 0)
               then if f_code e s t =? 0 then panic else onr (read_n (Z.to_nat (f_code e s t - 1)))
               else ret 0) ;;
  if dmv then panic else
  upd (fun m => ms_set_mvd
    (mv_store r s t (mv_update (f_code e s t) (field && Nat.eqb t 1 && (pc_struct e =? FramePicture)) code residual
                       (nth (mvi r s t) (mv_pred (ms_mvd m)) 0)) (ms_mvd m)) m).
(** motion_vectors.go:152-160 motion_vector *)
Definition motion_vector (e : piccodext) (field dmv : bool) (r s : nat) : MB unit :=
  motion_vector_part e field dmv r s 0 ;; motion_vector_part e field dmv r s 1.
(** motion_vectors.go:122-191 motion_vectors *)
Definition motion_vectors (e : piccodext) (mb : mbmode) (s : nat) : MB unit :=
  ' (count, field, dmv) <- mv_info e mb ;;
  if count =? 1 then
    (if field && negb dmv then onr (read_n 1) ;; ret tt else ret tt) ;;
    motion_vector e field dmv 0 s
  else
    onr (read_n 1) ;; motion_vector e field dmv 0 s ;;
    onr (read_n 1) ;; motion_vector e field dmv 1 s.

(** * motion_compensation.go *)

(** motion_compensation.go:106-155: channel[i], a panic when i is out of range *)
Definition pl_get {S} (p : plane) (i : Z) : M S Z :=
  if (0 <=? i) && (i <? pl_len p) then ret (pl_at p i) else panic.
(** macroblock.go:173-176, motion_compensation.go:41-49, 83-91: the nil slice that channel is when i > 5 *)
Definition nil_plane : plane := mkPlane 0 (fun _ => 0).
(** motion_compensation.go:42-49, macroblock.go:180-187: the channel of block i *)
Definition channel (f : image) (i : Z) : plane :=
  if i <? 4 then im_y f else if i =? 4 then im_cb f else if i =? 5 then im_cr f else nil_plane.
(** motion_compensation.go:52-59: stride and index (0 for i > 5) *)
Definition mc_stride (f : image) (i : Z) : Z := if i <? 4 then im_ys f else if i <? 6 then im_cs f else 0.
Definition mc_index (f : image) (i mb_row mb_addr : Z) : Z :=
  if i <? 4 then (mb_row * 16 + Z.shiftl (Z.land i 2) 2) * im_ys f + mb_addr * 16 + Z.shiftl (Z.land i 1) 3
  else if i <? 6 then mb_row * 8 * im_cs f + mb_addr * 8 else 0.

(** motion_compensation.go:110-129, 130-151: one sample; [i] is its index before interpolation *)
Definition mc_sample {S} (p : plane) (stride : Z) (h_half v_half : bool) (i : Z) : M S Z :=
  if negb h_half && negb v_half then pl_get p i
  else if h_half && negb v_half then a <- pl_get p i ;; b <- pl_get p (i + 1) ;; ret (Z.quot (a + b) 2)
  else if negb h_half && v_half then a <- pl_get p i ;; b <- pl_get p (i + stride) ;; ret (Z.quot (a + b) 2)
  else a <- pl_get p i ;; b <- pl_get p (i + 1) ;; c <- pl_get p (i + stride) ;; d <- pl_get p (i + stride + 1) ;;
       ret (Z.quot (a + b + c + d) 4).

(** motion_compensation.go:24-63, 66-104 and the use of the state for sample (v, u) *)
Definition mc_pel {S} (f : image) (i mb_row mb_addr horizontal vertical : Z) (v u : Z) : M S Z :=
  let '(horizontal, vertical) :=
    if (i =? 4) || (i =? 5) then (Z.shiftr horizontal 1, Z.shiftr vertical 1) else (horizontal, vertical) in
  let h_half := Z.land horizontal 1 =? 1 in
  let v_half := Z.land vertical 1 =? 1 in
  let stride := mc_stride f i in
  let base := mc_index f i mb_row mb_addr + Z.shiftr vertical 1 * stride + Z.shiftr horizontal 1 in
  mc_sample (channel f i) stride h_half v_half (base + v * stride + u).

(** motion_compensation.go:14-21: active *)
Definition mc_ref (formed : bool) (f : option image) : option image := if formed then f else None.

(** motion_compensation.go:12-155 motion_compensation: the samples 8v+u one after the other *)
Definition motion_compensation {S} (m : mvdata) (i mb_row mb_addr : Z) (fs : framestore) (b : block) : M S block :=
  let past := mc_ref (mv_fwd m) (fs_past fs) in
  let future := mc_ref (mv_bwd m) (fs_future fs) in
  mapM (fun k =>
    let v := Z.of_nat k / 8 in
    let u := Z.of_nat k mod 8 in
    pf <- (match past with
           | Some f => x <- mc_pel f i mb_row mb_addr (nth (mvi 0 0 0) (mv_act m) 0) (nth (mvi 0 0 1) (mv_act m) 0) v u ;;
                       ret (x, 1)
           | None => ret (0, 0) end) ;;
    pb <- (match future with
           | Some f => x <- mc_pel f i mb_row mb_addr (nth (mvi 0 1 0) (mv_act m) 0) (nth (mvi 0 1 1) (mv_act m) 0) v u ;;
                       ret (x, 1)
           | None => ret (0, 0) end) ;;
    let pel := fst pf + fst pb in
    let samples := snd pf + snd pb in
    (* pel >> (samples-1); a shift by 2^64-1 of 0 is 0 *)
    ret (i32 (nth k b 0 + (if samples =? 0 then 0 else Z.shiftr pel (samples - 1)))))
    (seq 0 64).

(** * Writing to the frame *)

(** macroblock.go:238-242, copy_macroblocks.go:12-30: copy(channel[di:di+len(src)], src) on the part of a plane from [off] on (slice.go:43-45 slices the
    planes, off in range): the slice expression panics when it is out of range. *)
Definition pl_write {S} (p : plane) (off di : Z) (src : list Z) : M S plane :=
  let n := Z.of_nat (length src) in
  if (0 <=? di) && (off + di + n <=? pl_len p)
  then ret (mkPlane (pl_len p) (fun k => if (off + di <=? k) && (k <? off + di + n)
                                         then nth (Z.to_nat (k - (off + di))) src 0 else pl_at p k))
  else panic.

(** macroblock.go:180-187: the plane of block i with new content *)
Definition set_channel (f : image) (i : Z) (p : plane) : image :=
  if i <? 4 then mkImage p (im_cb f) (im_cr f) (im_ys f) (im_cs f) (im_w f) (im_h f)
  else if i =? 4 then mkImage (im_y f) p (im_cr f) (im_ys f) (im_cs f) (im_w f) (im_h f)
  else if i =? 5 then mkImage (im_y f) (im_cb f) p (im_ys f) (im_cs f) (im_w f) (im_h f)
  else f.

(** slice.go:43-45: where frameSlice's planes begin (0 for the nil channel of i > 5) *)
Definition slice_off (f : image) (i mb_row : Z) : Z :=
  if i <? 4 then 16 * mb_row * im_ys f else if i <? 6 then 8 * mb_row * im_cs f else 0.

(** macroblock.go:189-235: base address and stride *)
Definition slice_pos (f : image) (i mb_address : Z) (interlaced : bool) : Z * Z :=
  if i <? 4 then
    let stride := im_ys f in
    let base := mb_address * 16 + Z.shiftl (Z.land i 1) 3 in
    if interlaced then (base + Z.shiftr (Z.land i 2) 1 * stride, stride * 2)
    else (base + Z.shiftl (Z.land i 2) 2 * stride, stride)
  else if i <? 6 then (mb_address * 8, im_cs f)
  else (0, 0).

(** macroblock.go:238-242: the rows of the block *)
Fixpoint write_rows {S} (p : plane) (off base stride : Z) (y : Z) (rows : list (list Z)) : M S plane :=
  match rows with
  | [] => ret p
  | row :: rows => p' <- pl_write p off (base + y * stride) row ;; write_rows p' off base stride (y + 1) rows
  end.
Definition rows8 (cb : list Z) : list (list Z) := map (fun y => firstn 8 (skipn (8 * y) cb)) (seq 0 8).

(** macroblock.go:171-244 updateFrameSlice *)
Definition update_frame_slice {S} (mb_row i mb_address : Z) (interlaced : bool) (f : image) (cb : list Z) : M S image :=
  let '(base, stride) := slice_pos f i mb_address interlaced in
  p <- write_rows (channel f i) (slice_off f i mb_row) base stride 0 (rows8 cb) ;;
  ret (set_channel f i p).

(** * copy_macroblocks.go *)

(** copy_macroblocks.go:12-16, 25-30: src[si:si+w] *)
Definition pl_slice {S} (p : plane) (si w : Z) : M S (list Z) :=
  if (0 <=? si) && (0 <=? w) && (si + w <=? pl_len p)
  then ret (map (fun k => pl_at p (si + Z.of_nat k)) (seq 0 (Z.to_nat w))) else panic.

(** copy_macroblocks.go:12-16, 25-30: [n] lines *)
Fixpoint copy_lines {S} (n : nat) (v : Z) (src dst : plane) (off srcoff sstride dstride x w : Z) : M S plane :=
  match n with
  | O => ret dst
  | S n =>
      l <- pl_slice src (srcoff + v * sstride + x) w ;;
      d <- pl_write dst off (v * dstride + x) l ;;
      copy_lines n (v + 1) src d off srcoff sstride dstride x w
  end.

(** copy_macroblocks.go:5-32 pframe_copy_macroblocks.  Go copies a line of Cb and of Cr by turns; the
    planes are independent. *)
Definition pframe_copy_macroblocks {S} (row col n : Z) (dest src : image) : M S image :=
  y <- copy_lines 16 0 (im_y src) (im_y dest) (slice_off dest 0 row) (row * 16 * im_ys src) (im_ys src) (im_ys dest) (col * 16) (n * 16) ;;
  cb <- copy_lines 8 0 (im_cb src) (im_cb dest) (slice_off dest 4 row) (row * 8 * im_cs src) (im_cs src) (im_cs dest) (col * 8) (n * 8) ;;
  cr <- copy_lines 8 0 (im_cr src) (im_cr dest) (slice_off dest 5 row) (row * 8 * im_cs src) (im_cs src) (im_cs dest) (col * 8) (n * 8) ;;
  ret (mkImage y cb cr (im_ys dest) (im_cs dest) (im_w dest) (im_h dest)).

(** One block of a macroblock: motion compensation, clamping, writing (copy_macroblocks.go:41-44,
    macroblock.go:163-165) *)
Definition put_block {S} (m : mvdata) (fs : framestore) (mb_row mb_addr i : Z) (interlaced : bool) (b : block) (f : image) : M S (block * image) :=
  b' <- motion_compensation m i mb_row mb_addr fs b ;;
  f' <- update_frame_slice mb_row i mb_addr interlaced f (block_clamp b') ;;
  ret (b', f').

(** copy_macroblocks.go:40-45: the blocks [is] of one macroblock *)
Fixpoint bframe_blocks {S} (m : mvdata) (fs : framestore) (mb_row mb_addr : Z) (is : list Z) (f : image) : M S image :=
  match is with
  | [] => ret f
  | i :: is => bf <- put_block m fs mb_row mb_addr i false block_zero f ;; bframe_blocks m fs mb_row mb_addr is (snd bf)
  end.
(** copy_macroblocks.go:34-47 bframe_copy_macroblocks: [n] macroblocks from [mb_addr] on *)
Fixpoint bframe_copy_macroblocks {S} (n : nat) (m : mvdata) (fs : framestore) (mb_row mb_addr : Z) (f : image) : M S image :=
  match n with
  | O => ret f
  | S n => f' <- bframe_blocks m fs mb_row mb_addr [0; 1; 2; 3; 4; 5] f ;; bframe_copy_macroblocks n m fs mb_row (mb_addr + 1) f'
  end.

(** * coding_block_pattern.go *)

(** coding_block_pattern.go:9-20 coded_block_pattern: the panics come before the error is looked at *)
Definition coded_block_pattern (chroma_format : Z) : M reader Z := fun r =>
  let '(x, r') := cbp_decode r in
  if (chroma_format =? ChromaFormat422) || (chroma_format =? ChromaFormat444) then (Panic, r') else (x, r').

(** coding_block_pattern.go:22-44 decode: pattern_code[0..11] *)
Definition pattern_code {S} (cbp : Z) (intra pattern : bool) (chroma_format : Z) : M S (list bool) :=
  if pattern && ((chroma_format =? ChromaFormat422) || (chroma_format =? ChromaFormat444)) then panic
  else ret (map (fun i => intra ||
                   (pattern && (i <? 6) && (Z.land cbp (Z.shiftl 1 (5 - i)) =? Z.shiftl 1 (5 - i))))
                (map Z.of_nat (seq 0 12))).

(** * macroblock.go *)

(** macroblock.go:246-300 macroblock_mode *)
Definition macroblock_mode (pct : Z) (e : piccodext) : M reader mbmode :=
  t <- (if pct =? IFrame then mbtype_decode_I
        else if pct =? PFrame then mbtype_decode_P
        else if pct =? BFrame then mbtype_decode_B
        else panic) ;;
  ' (frame_motion, field_motion) <-
    (if mb_motion_forward t || mb_motion_backward t then
       if pc_struct e =? FramePicture then
         if pc_fpfd e =? 0 then x <- read_n 2 ;; ret (x, 0) else ret (0, 0)
       else x <- read_n 2 ;; ret (0, x)
     else ret (0, 0)) ;;
  dct <- (if (pc_struct e =? FramePicture) && (pc_fpfd e =? 0) && (mb_intra t || mb_pattern t) then read1 else ret false) ;;
  ret (mkMode t frame_motion field_motion dct).

(** macroblock.go:29-38: the escapes, 33 each; every pass reads 11 bits *)
Fixpoint mba_escapes (fuel : nat) (incr : Z) : M reader Z :=
  match fuel with
  | O => nofuel
  | S f =>
      nextbits <- peek_n 11 ;;
      if nextbits =? 8 then ignore_err tt (skip_n 11) ;; mba_escapes f (incr + 33) else ret incr
  end.
(** macroblock.go:29-44: macroblock_address_increment *)
Definition mb_increment : M reader Z := fun r =>
  (e <- mba_escapes (S (length (rbits r))) 0 ;; i <- mba_decode ;; ret (e + i)) r.

(** macroblock.go:5 *)
Definition color_channel : list nat := [0; 0; 0; 0; 1; 2; 1; 2; 1; 2; 1; 2]%nat.

(** b.read(br, dcp, ...), block.go:38 *)
Definition mb_block_read (ivf : Z) (cc : nat) (intra : bool) (b : block) : MB block := fun s =>
  match block_read ivf cc intra (mkBS b (ms_dcp (fst s)), snd s) with
  | (Ok _, (bs, r)) => (Ok (bs_block bs), (ms_set_dcp (bs_pred bs) (fst s), r))
  | (Err e, (bs, r)) => (Err e, (ms_set_dcp (bs_pred bs) (fst s), r))
  | (Panic, (bs, r)) => (Panic, (ms_set_dcp (bs_pred bs) (fst s), r))
  | (OutOfFuel, (bs, r)) => (OutOfFuel, (ms_set_dcp (bs_pred bs) (fst s), r))
  end.

(** decode_block.go:67-88: the matrix *)
Definition qmat (v : vidseq) (n : nat) : qmatrix :=
  match n with 0 => v_q0 v | 1 => v_q1 v | 2 => v_q2 v | _ => v_q3 v end%nat.

(** macroblock.go:150-166, from block [i] on; [b] is the variable, [coded] what is left of pattern_code *)
Fixpoint mb_blocks (v : vidseq) (e : piccodext) (se : seqext) (mb : mbmode) (mb_row mb_address : Z)
    (i : Z) (coded : list bool) (b : block) : MB unit :=
  match coded with
  | [] => ret tt
  | c :: coded =>
      let cc := nth (Z.to_nat i) color_channel 0%nat in
      let intra := mb_intra (mo_type mb) in
      b <- (if c : bool then
              b <- mb_block_read (pc_vlc e) cc intra b ;;
              m <- own ;;
              ret (idct (decode_block (qmat v (matrix_index cc (se_chroma se =? ChromaFormat420) intra))
                           (pc_alt e) (pc_qtype e) (pc_dc e) (ms_qsc m) intra b))
            else ret block_zero) ;;
      m <- own ;;
      bf <- put_block (ms_mvd m) (v_fs v) mb_row mb_address i (mo_dct mb) b (ms_frame m) ;;
      upd (ms_set_frame (snd bf)) ;;
      mb_blocks v e se mb mb_row mb_address (i + 1) coded (fst bf)
  end.

(** macroblock.go:66, 81: resetDCPredictors() (dc_dct_predictors.go:6-13) *)
Definition reset_dc (e : piccodext) : MB unit := upd (ms_set_dcp (dc_reset (pc_dc e))).
(** macroblock.go:72, 87, 94: mvd.reset() (motion_vectors.go:99-110) *)
Definition reset_mv : MB unit := upd (fun m => ms_set_mvd (mv_reset (ms_mvd m)) m).
(** An if without else (macroblock.go:65, 70, 80, 85, 91, 97, 105, 112, 120; slice.go:51) *)
Definition when {S} (c : bool) (m : M S unit) : M S unit := if c then m else ret tt.

(** macroblock.go:46-62: the skipped macroblocks *)
Definition copy_skipped (v : vidseq) (pct mb_row mb_address incr : Z) : MB unit :=
  if negb (mb_address =? -1) && (incr >? 1) then
    if pct =? PFrame then
      past <- deref (fs_past (v_fs v)) ;;
      m <- own ;;
      f <- pframe_copy_macroblocks mb_row (mb_address + 1) (incr - 1) (ms_frame m) past ;;
      upd (ms_set_frame f)
    else if pct =? BFrame then
      m <- own ;;
      f <- bframe_copy_macroblocks (Z.to_nat (incr - 1)) (ms_mvd m) (v_fs v) mb_row (mb_address + 1) (ms_frame m) ;;
      upd (ms_set_frame f)
    else ret tt
  else ret tt.

(** macroblock.go:134-142 *)
Definition block_count (chroma_format : Z) : nat :=
  if chroma_format =? ChromaFormat420 then 6
  else if chroma_format =? ChromaFormat422 then 8
  else if chroma_format =? ChromaFormat444 then 12
  else 0.

(** macroblock.go:18-169 macroblock: the new mb_address.  Line 128 returns 0 and no error when the coded
    block pattern cannot be decoded. *)
Definition macroblock (v : vidseq) (mb_row mb_address : Z) : MB Z :=
  incr <- onr mb_increment ;;
  ph <- deref (v_ph v) ;;
  e <- deref (v_pce v) ;;
  let pct := ph_type ph in
  copy_skipped v pct mb_row mb_address incr ;;
  when (incr >? 1) (reset_dc e) ;;
  when ((pct =? PFrame) && (incr >? 1)) reset_mv ;;
  mb <- onr (macroblock_mode pct e) ;;
  let t := mo_type mb in
  when (negb (mb_intra t)) (reset_dc e) ;;
  when (mb_intra t && negb (pc_conceal e)) reset_mv ;;
  when ((pct =? PFrame) && negb (mb_intra t) && negb (mb_motion_forward t)) reset_mv ;;
  when (mb_quant t) (q <- onr (read_n 5) ;; upd (ms_set_qsc q)) ;;
  when (mb_motion_forward t || (mb_intra t && pc_conceal e)) (motion_vectors e mb 0) ;;
  when (mb_motion_backward t) (motion_vectors e mb 1) ;;
  upd (fun m => ms_set_mvd (mv_previous t pct (ms_mvd m)) m) ;;
  when (mb_intra t && pc_conceal e) (onr marker_bit) ;;
  se <- deref (v_se v) ;;
  cbp <- (if mb_pattern t
          then ignore_err None (c <- onr (coded_block_pattern (se_chroma se)) ;; ret (Some c))
          else ret (Some 0)) ;;
  match cbp with
  | None => ret 0
  | Some cbp =>
      pc <- pattern_code cbp (mb_intra t) (mb_pattern t) (se_chroma se) ;;
      mb_blocks v e se mb mb_row (mb_address + incr) 0 (firstn (block_count (se_chroma se)) pc) block_zero ;;
      ret (mb_address + incr)
  end.

(** * slice.go *)

(** slice.go:94-108: extra_information_slice, nine bits per pass *)
Fixpoint slice_extra (fuel : nat) : M reader unit :=
  match fuel with
  | O => nofuel
  | S f =>
      b <- peek_n 1 ;;
      if negb (b =? 1) then ret tt else skip_n 1 ;; read_n 8 ;; slice_extra f
  end.
(** slice.go:75-113 *)
Definition slice_flags : M reader unit :=
  b <- peek_n 1 ;;
  (if b =? 1 then
     read1 ;; read1 ;;
     reserved <- read_n 7 ;;
     (if negb (reserved =? 0) then fail ErrInvalidReservedBits else ret tt) ;;
     (fun r => slice_extra (S (length (rbits r))) r)
   else ret tt) ;;
  skip_n 1.

(** slice.go:116-133: the macroblocks; each reads at least one bit *)
Fixpoint slice_loop (fuel : nat) (v : vidseq) (mb_row mb_address : Z) : MB unit :=
  match fuel with
  | O => nofuel
  | S f =>
      mb_address <- macroblock v mb_row mb_address ;;
      nextbits <- onr (peek_n 23) ;;
      if nextbits =? 0 then ret tt else slice_loop f v mb_row mb_address
  end.

(** slice.go:17-136 slice.  The slices of lines 43-45 panic when the row is beyond the frame; reading
    slice_vertical_position_extension has no effect. *)
Definition slice (v : vidseq) (frame : image) : M reader image := fun r =>
  match
    (code <- read_n 32 ;;
     if negb (is_slice code) then fail ErrUnexpectedStartCode else
     e <- deref (v_pce v) ;;
     let mb_row := u32 (Z.land code 255 - 1) in
     if (16 * mb_row * im_ys frame <=? pl_len (im_y frame)) && (8 * mb_row * im_cs frame <=? pl_len (im_cb frame))
        && (8 * mb_row * im_cs frame <=? pl_len (im_cr frame))
     then
       sh <- deref (v_sh v) ;;
       when (sh_vertical sh >? 2800) (read_n 3 ;; ret tt) ;;
       qsc <- read_n 5 ;;
       slice_flags ;;
       ret (e, mb_row, qsc)
     else panic) r
  with
  | (Ok (e, mb_row, qsc), r) =>
      match (fun s => slice_loop (S (length (rbits (snd s)))) v mb_row (-1) s)
              (mkMS (dc_reset (pc_dc e)) mv_zero qsc frame, r) with
      | (Ok _, (m, r)) => (next_start_code ;; ret (ms_frame m)) r
      | (Err er, (_, r)) => (Err er, r)
      | (Panic, (_, r)) => (Panic, r)
      | (OutOfFuel, (_, r)) => (OutOfFuel, r)
      end
  | (Err er, r) => (Err er, r)
  | (Panic, r) => (Panic, r)
  | (OutOfFuel, r) => (OutOfFuel, r)
  end.

(** * picture_data.go *)

(** picture_data.go:22: image.NewYCbCr for a rectangle (0,0)-(w,h): planes of zeros *)
Definition zero_plane (n : Z) : plane := mkPlane n (fun _ => 0).
Definition new_ycbcr (w h : Z) (cw ch : Z) : image :=
  mkImage (zero_plane (w * h)) (zero_plane (cw * ch)) (zero_plane (cw * ch)) w cw w h.
(** picture_data.go:5-23 createFrameBuffer.  An unknown chroma format leaves the ratio 0, which is 4:4:4. *)
Definition create_frame_buffer (w h chroma_format : Z) : image :=
  let w' := Z.shiftl (Z.shiftr (w + 15) 4) 4 in
  let h' := Z.shiftl (Z.shiftr (h + 15) 4) 4 in
  if chroma_format =? ChromaFormat420 then new_ycbcr w' h' (Z.quot (w' + 1) 2) (Z.quot (h' + 1) 2)
  else if chroma_format =? ChromaFormat422 then new_ycbcr w' h' (Z.quot (w' + 1) 2) h'
  else new_ycbcr w' h' w' h'.

(** picture_data.go:30-40: the slices; each reads 32 bits *)
Fixpoint slices (fuel : nat) (v : vidseq) (frame : image) : M reader image :=
  match fuel with
  | O => nofuel
  | S f =>
      frame <- slice v frame ;;
      nextbits <- peek_n 32 ;;
      if is_slice nextbits then slices f v frame else ret frame
  end.
(** picture_data.go:25-43 picture_data *)
Definition picture_data (v : vidseq) : M reader image := fun r =>
  (let '(w, h) := size v in
   se <- deref (v_se v) ;;
   frame <- slices (S (length (rbits r))) v (create_frame_buffer w h (se_chroma se)) ;;
   next_start_code ;;
   ret frame) r.

(** * frame_provider.go *)

(** frame_provider.go:55-57: GroupOfPicturesHeader, the frame store and the counter *)
Definition start_gop (g : gophdr) (v : vidseq) : vidseq := set_fc 0 (set_fs (fs_gop (v_fs v)) (set_gop (Some g) v)).

(** frame_provider.go:47-86 MORE_FRAMES *)
Definition more_frames : V image :=
  nextbits <- onr (peek_n 32) ;;
  (if nextbits =? GroupStartCode then
     gop <- onr read_gop_header ;;
     upd (start_gop gop) ;;
     extension_and_user_data 1
   else ret tt) ;;
  vs_picture_header ;;
  vs_picture_coding_extension ;;
  extension_and_user_data 2 ;;
  v <- own ;;
  ph <- deref (v_ph v) ;;
  upd (fun v => set_fs (fs_set (ph_tr ph) (v_fs v)) v) ;;
  v <- own ;;
  frame <- onr (picture_data v) ;;
  (if (ph_type ph =? IFrame) || (ph_type ph =? PFrame)
   then upd (fun v => set_fs (fs_add frame (ph_tr ph) (v_fs v)) v) else ret tt) ;;
  ret frame.
(** frame_provider.go:41-45 CONTINUE *)
Definition continue_frames : V image := extension_and_user_data 0 ;; more_frames.

(** frame_provider.go:13-120 step *)
Definition step : V image :=
  v <- own ;;
  match v_sh v with
  | None =>
      onr next_start_code ;;
      vs_sequence_header ;;
      val <- onr (peek_n 32) ;;
      if negb (val =? ExtensionStartCode) then fail ErrUnsupported else
      vs_sequence_extension ;;
      continue_frames
  | Some _ => (* RESUME *)
      nextbits <- onr (peek_n 32) ;;
      if (nextbits =? PictureStartCode) || (nextbits =? GroupStartCode) then more_frames else
      nextbits <- onr (peek_n 32) ;;
      if nextbits =? SequenceEndStartCode then onr (skip_n 32) ;; fail EOS else
      vs_sequence_header ;;
      vs_sequence_extension ;;
      continue_frames
  end.

(** * video_sequence.go: Next *)

(** video_sequence.go:90-98; a step that returns a frame reads at least its picture header *)
Fixpoint next_loop (fuel : nat) : V image :=
  match fuel with
  | O => nofuel
  | S f =>
      img <- step ;;
      v <- own ;;
      ph <- deref (v_ph v) ;;
      if ph_tr ph =? v_fc v then upd (fun v => set_fc (u32 (v_fc v + 1)) v) ;; ret img
      else next_loop f
  end.
(** video_sequence.go:83-99 Next *)
Definition next : V image :=
  v <- own ;;
  match fs_tryget (v_fc v) (v_fs v) with
  | Some img => upd (fun v => set_fc (u32 (v_fc v + 1)) v) ;; ret img
  | None => fun s => next_loop (S (length (rbits (snd s)))) s
  end.
