(** VidModel: package video - start codes, headers and extensions. *)
From Verif Require Import Base BitReader.

(** * start_codes.go *)

(** start_codes.go:15 *)
Definition StartCodePrefix : Z := 1.
(** start_codes.go:17-27 *)
Definition PictureStartCode : Z := Z.lor (Z.shiftl StartCodePrefix 8) 0.
Definition MinSliceStartCode : Z := Z.lor (Z.shiftl StartCodePrefix 8) 1.
Definition MaxSliceStartCode : Z := Z.lor (Z.shiftl StartCodePrefix 8) 175.
Definition UserDataStartCode : Z := Z.lor (Z.shiftl StartCodePrefix 8) 178.
Definition SequenceHeaderStartCode : Z := Z.lor (Z.shiftl StartCodePrefix 8) 179.
Definition ExtensionStartCode : Z := Z.lor (Z.shiftl StartCodePrefix 8) 181.
Definition SequenceEndStartCode : Z := Z.lor (Z.shiftl StartCodePrefix 8) 183.
Definition GroupStartCode : Z := Z.lor (Z.shiftl StartCodePrefix 8) 184.

(** start_codes.go:35-37 IsSlice *)
Definition is_slice (c : Z) : bool := (MinSliceStartCode <=? c) && (c <=? MaxSliceStartCode).
(** start_codes.go:42-48 Check *)
Definition sc_check (c : Z) : M reader bool := v <- peek_n 32 ;; ret (v =? c).
(** start_codes.go:52-62 Assert *)
Definition sc_assert (c : Z) : M reader unit :=
  t <- sc_check c ;; if t then skip_n 32 else fail ErrUnexpectedStartCode.

(** * extension_id.go *)

(** extension_id.go:10-26 *)
Definition SequenceExtensionID : Z := 1.
Definition SequenceDisplayExtensionID : Z := 2.
Definition QuantMatrixExtensionID : Z := 3.
Definition CopyrightExtensionID : Z := 4.
Definition SequenceScalableExtensionID : Z := 5.
Definition PictureDisplayExtensionID : Z := 7.
Definition PictureCodingExtensionID : Z := 8.
Definition PictureSpatialScalableExtensionID : Z := 9.
Definition PictureTemporalScalableExtensionID : Z := 10.

(** extension_id.go:32-36 IsReserved *)
Definition is_reserved (id : Z) : bool := (id =? 0) || (id =? 6) || (11 <? id).
(** extension_id.go:41-47 Check *)
Definition id_check (c : Z) : M reader bool := v <- peek_n 4 ;; ret (v =? c).
(** extension_id.go:52-62 Assert *)
Definition id_assert (c : Z) : M reader unit :=
  t <- id_check c ;; if t then skip_n 4 else fail ErrUnexpectedExtensionID.

(** * next_start_code.go *)

(** next_start_code.go:15-19, video_sequence.go:37-41: align unless aligned *)
Definition vid_align : M reader unit := fun r => if is_aligned r then (Ok tt, r) else align_m r.

(** next_start_code.go:21-33.  Each iteration reads 8 bits, so fuel above the number of bits left is never
    used up. *)
Fixpoint nsc_loop (fuel : nat) : M reader unit :=
  match fuel with
  | O => nofuel
  | S f =>
    v <- peek_n 24 ;;
    if v =? StartCodePrefix then ret tt else
    b <- read_n 8 ;;
    if negb (b =? 0) then fail ErrUnexpectedNonZeroByte else
    nsc_loop f
  end.
(** next_start_code.go:14-34 *)
Definition next_start_code : M reader unit :=
  vid_align ;; (fun r => nsc_loop (S (length (rbits r))) r).

(** next_start_code.go:36-43 *)
Definition marker_bit : M reader unit :=
  m <- read1 ;; if m then ret tt else fail ErrMissingMarkerBit.

(** * video_sequence.go: AlignTo *)

(** video_sequence.go:43-51 *)
Fixpoint align_to_loop (fuel : nat) (c : Z) : M reader unit :=
  match fuel with
  | O => nofuel
  | S f => v <- peek_n 32 ;; if v =? c then ret tt else skip_n 8 ;; align_to_loop f c
  end.
(** video_sequence.go:36-52 *)
Definition align_to (c : Z) : M reader unit :=
  vid_align ;; (fun r => align_to_loop (S (length (rbits r))) c r).

(** * Quantisation matrices *)

(** quantisation_matrix.go:3 [8][8]uint8: the rows one after the other; entry [v][u] is element 8v+u *)
Definition qmatrix : Type := list Z.
Definition zero_matrix : qmatrix := repeat 0 64.

(** The double loop reading a matrix (sequence_header.go:73-81, 89-97; quant_matrix_extension.go:28-36,
    45-53, 62-70, 78-86): [v][u] is read in row order. *)
Fixpoint read_entries (n : nat) : M reader (list Z) :=
  match n with O => ret [] | S k => v <- read_n 8 ;; t <- read_entries k ;; ret (u8 v :: t) end.
Definition read_matrix : M reader qmatrix := read_entries 64.

(** quantisation_matrix.go:5-29 *)
Definition default_intra : qmatrix :=
  [8; 16; 19; 22; 26; 27; 29; 34;
   16; 16; 22; 24; 27; 29; 34; 37;
   19; 22; 26; 27; 29; 34; 34; 38;
   22; 22; 26; 27; 29; 34; 37; 40;
   22; 26; 27; 29; 32; 35; 40; 48;
   26; 27; 29; 32; 35; 40; 48; 58;
   26; 27; 29; 34; 38; 46; 56; 69;
   27; 29; 35; 38; 46; 56; 69; 83].
Definition default_non_intra : qmatrix := repeat 16 64.

(** * sequence_header.go *)

(** sequence_header.go:8-22 *)
Record seqheader : Type := mkSeqH {
  sh_horizontal : Z; sh_vertical : Z; sh_aspect : Z; sh_frame_rate : Z; sh_bit_rate : Z; sh_vbv : Z;
  sh_constrained : bool; sh_load_intra : bool; sh_load_non_intra : bool;
  sh_intra : qmatrix; sh_non_intra : qmatrix }.

(** sequence_header.go:25-98: ReadSequenceHeader up to next_start_code *)
Definition sequence_header_fields : M reader seqheader :=
  sc_assert SequenceHeaderStartCode ;;
  h <- read_n 12 ;; v <- read_n 12 ;; a <- read_n 4 ;; f <- read_n 4 ;; b <- read_n 18 ;;
  marker_bit ;;
  vbv <- read_n 10 ;; c <- read1 ;;
  li <- read1 ;;
  mi <- (if li : bool then read_matrix else ret zero_matrix) ;;
  ln <- read1 ;;
  mn <- (if ln : bool then read_matrix else ret zero_matrix) ;;
  ret (mkSeqH h v a f b vbv c li ln mi mn).
(** sequence_header.go:25-101 ReadSequenceHeader.  When only next_start_code fails, Go returns the structure
    beside the error. *)
Definition read_sequence_header : M reader seqheader :=
  x <- sequence_header_fields ;; next_start_code ;; ret x.

(** * sequence_extension.go *)

(** sequence_extension.go:5-16 *)
Record seqext : Type := mkSeqE {
  se_profile : Z; se_progressive : Z; se_chroma : Z; se_hext : Z; se_vext : Z; se_bit_rate : Z;
  se_vbv : Z; se_low_delay : Z; se_frame_n : Z; se_frame_d : Z }.
(** sequence_extension.go:18-86 *)
Definition sequence_extension_fields : M reader seqext :=
  sc_assert ExtensionStartCode ;; id_assert SequenceExtensionID ;;
  p <- read_n 8 ;; g <- read_n 1 ;; c <- read_n 2 ;; h <- read_n 2 ;; v <- read_n 2 ;; b <- read_n 12 ;;
  marker_bit ;;
  vbv <- read_n 8 ;; l <- read_n 1 ;; n <- read_n 2 ;; d <- read_n 5 ;;
  ret (mkSeqE p g c h v b vbv l n d).

(** * sequence_display_extension.go *)

(** sequence_display_extension.go:5-13 *)
Record dispext : Type := mkDisp {
  de_format : Z; de_colour : bool; de_primaries : Z; de_transfer : Z; de_matrix : Z; de_h : Z; de_v : Z }.
(** sequence_display_extension.go:15-63: the error of Read1 on line 28 is overwritten by the next read (whose
    value then is false). *)
Definition sequence_display_extension : M reader dispext :=
  id_assert SequenceDisplayExtensionID ;;
  f <- read_n 3 ;;
  cd <- ignore_err false read1 ;;
  '(p, t, m) <- (if cd : bool
                 then p <- read_n 8 ;; t <- read_n 8 ;; m <- read_n 8 ;; ret (p, t, m)
                 else ret (0, 0, 0)) ;;
  h <- read_n 14 ;; marker_bit ;; v <- read_n 14 ;;
  next_start_code ;;
  ret (mkDisp f cd p t m h v).

(** * sequence_scalable_extension.go:32-52: always a panic unless an error comes first *)
Definition sequence_scalable_extension : M reader unit :=
  id_assert SequenceScalableExtensionID ;; read_n 2 ;; read_n 4 ;; panic.

(** * picture_header.go *)

(** picture_coding_type.go:46-60 *)
Definition IFrame : Z := 1.
Definition PFrame : Z := 2.
Definition BFrame : Z := 3.

(** picture_header.go:6-16 *)
Record pichdr : Type := mkPH {
  ph_tr : Z; ph_type : Z; ph_vbv : Z; ph_fpf : Z; ph_ffc : Z; ph_fpb : Z; ph_bfc : Z; ph_extra : list Z }.

(** picture_header.go:71-88: the extra_information loop, nine bits per iteration *)
Fixpoint extra_loop (fuel : nat) (acc : list Z) : M reader (list Z) :=
  match fuel with
  | O => nofuel
  | S f =>
    b <- peek1 ;;
    if negb b then ret acc else
    skip_n 1 ;; d <- read_n 8 ;; extra_loop f (acc ++ [u8 d])
  end.
(** picture_header.go:22-92 *)
Definition picture_header_fields : M reader pichdr :=
  sc_assert PictureStartCode ;;
  tr <- read_n 10 ;; ty <- read_n 3 ;; vbv <- read_n 16 ;;
  '(fpf, ffc) <- (if (ty =? PFrame) || (ty =? BFrame)
                  then a <- read_n 1 ;; b <- read_n 3 ;; ret (a, b) else ret (0, 0)) ;;
  '(fpb, bfc) <- (if ty =? BFrame
                  then a <- read_n 1 ;; b <- read_n 3 ;; ret (a, b) else ret (0, 0)) ;;
  ex <- (fun r => extra_loop (S (length (rbits r))) [] r) ;;
  skip_n 1 ;;
  ret (mkPH tr ty vbv fpf ffc fpb bfc ex).

(** * picture_coding_extension.go *)

(** picture_coding_extension.go:5-27; f_code[s][t] *)
Record piccodext : Type := mkPCE {
  pc_f00 : Z; pc_f01 : Z; pc_f10 : Z; pc_f11 : Z; pc_dc : Z; pc_struct : Z; pc_tff : bool; pc_fpfd : Z;
  pc_conceal : bool; pc_qtype : Z; pc_vlc : Z; pc_alt : Z; pc_rff : bool; pc_c420 : bool; pc_prog : bool;
  pc_comp : bool; pc_vaxis : bool; pc_fseq : Z; pc_subc : bool; pc_burst : Z; pc_phase : Z }.
(** picture_coding_extension.go:29-142 *)
Definition picture_coding_extension_fields : M reader piccodext :=
  sc_assert ExtensionStartCode ;; id_assert PictureCodingExtensionID ;;
  f00 <- read_n 4 ;; f01 <- read_n 4 ;; f10 <- read_n 4 ;; f11 <- read_n 4 ;;
  dc <- read_n 2 ;; st <- read_n 2 ;;
  tff <- read1 ;; fpfd <- read_n 1 ;; con <- read1 ;; qt <- read_n 1 ;; vlc <- read_n 1 ;; alt <- read_n 1 ;;
  rff <- read1 ;; c420 <- read1 ;; prog <- read1 ;; comp <- read1 ;;
  '(va, fs, sc, ba, sp) <-
    (if comp : bool
     then va <- read1 ;; fs <- read_n 3 ;; sc <- read1 ;; ba <- read_n 7 ;; sp <- read_n 8 ;;
          ret (va, fs, sc, ba, sp)
     else ret (false, 0, false, 0, 0)) ;;
  ret (mkPCE f00 f01 f10 f11 dc st tff fpfd con qt vlc alt rff c420 prog comp va fs sc ba sp).

(** * group_of_pictures_header.go *)

(** group_of_pictures_header.go:6-10 *)
Record gophdr : Type := mkGOP { go_time : Z; go_closed : bool; go_broken : bool }.
(** group_of_pictures_header.go:13-39 ReadGOPHeader *)
Definition read_gop_header : M reader gophdr :=
  sc_assert GroupStartCode ;;
  t <- read_n 25 ;; c <- read1 ;; b <- read1 ;;
  next_start_code ;;
  ret (mkGOP (i32 t) c b).
(** group_of_pictures_header.go:62-68 *)
Record timecode : Type := mkTC { tc_drop : bool; tc_hours : Z; tc_minutes : Z; tc_seconds : Z; tc_pictures : Z }.
(** group_of_pictures_header.go:42-50 TimeCode *)
Definition time_code (g : gophdr) : timecode :=
  mkTC (Z.shiftr (go_time g) 24 =? 1)
       (Z.land (Z.shiftr (go_time g) 19) 31)
       (Z.land (Z.shiftr (go_time g) 13) 63)
       (Z.land (Z.shiftr (go_time g) 6) 63)
       (Z.land (go_time g) 63).

(** group_of_pictures_header.go:72-78 (fmt.Sprintf): strconv's decimal digits of a non-negative number, as character codes; ten digits hold an int32 *)
Fixpoint digits (fuel : nat) (z : Z) (acc : list Z) : list Z :=
  match fuel with
  | O => acc
  | S f => let a := (48 + z mod 10) :: acc in if z / 10 =? 0 then a else digits f (z / 10) a
  end.
(** group_of_pictures_header.go:72-78: fmt's %d and %02d of an int32 (a negative number has two characters already) *)
Definition fmt_d (z : Z) : list Z := if z <? 0 then 45 :: digits 10 (- z) [] else digits 10 z [].
Definition fmt_02d (z : Z) : list Z := let s := fmt_d z in if (length s <? 2)%nat then 48 :: s else s.
(** group_of_pictures_header.go:72-78 TimeCode.String, as character codes (58 is ':', 59 is ';') *)
Definition time_string (t : timecode) : list Z :=
  fmt_d (tc_hours t) ++ [58] ++ fmt_02d (tc_minutes t) ++ [58] ++ fmt_02d (tc_seconds t) ++
  [if tc_drop t then 59 else 58] ++ fmt_02d (tc_pictures t).

(** * picture_temporal_scalable_extension.go *)

(** picture_temporal_scalable_extension.go:5-9 *)
Record tempext : Type := mkTempE { te_select : Z; te_forward : Z; te_backward : Z }.
(** picture_temporal_scalable_extension.go:11-41 *)
Definition picture_temporal_scalable_extension : M reader tempext :=
  id_assert PictureTemporalScalableExtensionID ;;
  s <- read_n 2 ;; f <- read_n 10 ;; marker_bit ;; b <- read_n 10 ;;
  next_start_code ;;
  ret (mkTempE s f b).

(** * user_data.go *)

(** user_data.go:12-24: a byte per iteration *)
Fixpoint user_loop (fuel : nat) (acc : list Z) : M reader (list Z) :=
  match fuel with
  | O => nofuel
  | S f =>
    v <- peek_n 24 ;;
    if v =? StartCodePrefix then ret acc else
    b <- read_n 8 ;; user_loop f (acc ++ [u8 b])
  end.
(** user_data.go:5-27 *)
Definition user_data : M reader (list Z) :=
  sc_assert UserDataStartCode ;;
  d <- (fun r => user_loop (S (length (rbits r))) [] r) ;;
  next_start_code ;;
  ret d.

(** * The decoder's state *)

(** picture_data.go:22, frame_store.go:6: image.YCbCr with the slices Y, Cb, Cr (length and content; image.NewYCbCr gives each plane a capacity
    equal to its length), YStride, CStride and Rect.Max (Rect.Min is the origin). *)
Record plane : Type := mkPlane { pl_len : Z; pl_at : Z -> Z }.
Record image : Type := mkImage {
  im_y : plane; im_cb : plane; im_cr : plane; im_ys : Z; im_cs : Z; im_w : Z; im_h : Z }.

(** frame_store.go:5-9 referenceFrame, 11-15 frameStore.  [None] is a nil pointer. *)
Record refframe : Type := mkRef { rf_frame : option image; rf_tr : Z; rf_prev : bool }.
Record framestore : Type := mkFS { fs_0 : refframe; fs_1 : refframe; fs_past : option image; fs_future : option image }.
Definition nil_ref : refframe := mkRef None 0 false.

(** video_sequence.go:7-27 VideoSequence; the BitReader is the other component of the state *)
Record vidseq : Type := mkVS {
  v_sh : option seqheader; v_se : option seqext; v_gop : option gophdr; v_ph : option pichdr;
  v_pce : option piccodext;
  v_q0 : qmatrix; v_q1 : qmatrix; v_q2 : qmatrix; v_q3 : qmatrix;
  v_fs : framestore; v_fc : Z }.
(** video_sequence.go:29-33 NewVideoSequence *)
Definition new_vidseq : vidseq :=
  mkVS None None None None None zero_matrix zero_matrix zero_matrix zero_matrix
       (mkFS nil_ref nil_ref None None) 0.

(** Assignments to the fields of VideoSequence: sequence_header.go:110-126 (set_q, set_sh), quant_matrix_extension.go:37-87 (set_q),
    video_sequence.go:54-67 (set_se, set_ph, set_pce), frame_provider.go:55-57, 76, 83 (set_gop, set_fs, set_fc), video_sequence.go:86, 95 (set_fc) *)
Definition set_sh (x : option seqheader) (v : vidseq) : vidseq :=
  mkVS x (v_se v) (v_gop v) (v_ph v) (v_pce v) (v_q0 v) (v_q1 v) (v_q2 v) (v_q3 v) (v_fs v) (v_fc v).
Definition set_se (x : option seqext) (v : vidseq) : vidseq :=
  mkVS (v_sh v) x (v_gop v) (v_ph v) (v_pce v) (v_q0 v) (v_q1 v) (v_q2 v) (v_q3 v) (v_fs v) (v_fc v).
Definition set_gop (x : option gophdr) (v : vidseq) : vidseq :=
  mkVS (v_sh v) (v_se v) x (v_ph v) (v_pce v) (v_q0 v) (v_q1 v) (v_q2 v) (v_q3 v) (v_fs v) (v_fc v).
Definition set_ph (x : option pichdr) (v : vidseq) : vidseq :=
  mkVS (v_sh v) (v_se v) (v_gop v) x (v_pce v) (v_q0 v) (v_q1 v) (v_q2 v) (v_q3 v) (v_fs v) (v_fc v).
Definition set_pce (x : option piccodext) (v : vidseq) : vidseq :=
  mkVS (v_sh v) (v_se v) (v_gop v) (v_ph v) x (v_q0 v) (v_q1 v) (v_q2 v) (v_q3 v) (v_fs v) (v_fc v).
Definition set_q (a b c d : qmatrix) (v : vidseq) : vidseq :=
  mkVS (v_sh v) (v_se v) (v_gop v) (v_ph v) (v_pce v) a b c d (v_fs v) (v_fc v).
Definition set_fs (x : framestore) (v : vidseq) : vidseq :=
  mkVS (v_sh v) (v_se v) (v_gop v) (v_ph v) (v_pce v) (v_q0 v) (v_q1 v) (v_q2 v) (v_q3 v) x (v_fc v).
Definition set_fc (x : Z) (v : vidseq) : vidseq :=
  mkVS (v_sh v) (v_se v) (v_gop v) (v_ph v) (v_pce v) (v_q0 v) (v_q1 v) (v_q2 v) (v_q3 v) (v_fs v) x.

(** The methods of *VideoSequence (video_sequence.go:7-27): computations on its fields and its BitReader *)
Definition V (A : Type) : Type := M (vidseq * reader) A.

(** sequence_header.go:103-129 *)
Definition vs_sequence_header : V unit :=
  sh <- onr read_sequence_header ;;
  upd (fun v =>
    let i := if sh_load_intra sh then sh_intra sh else default_intra in
    let n := if sh_load_non_intra sh then sh_non_intra sh else default_non_intra in
    set_sh (Some sh) (set_q i n i n v)).

(** video_sequence.go:54-67: [vs.X, err = f(vs); return err] with [f] ending in [return &x, next_start_code(br)]: the
    field is nil when the structure could not be read, and set even when next_start_code fails. *)
Definition assign_header {A} (set : option A -> vidseq -> vidseq) (m : M reader A) : V unit := fun s =>
  match m (snd s) with
  | (Ok x, r) => let '(o, r') := next_start_code r in (o, (set (Some x) (fst s), r'))
  | (Err e, r) => (Err e, (set None (fst s), r))
  | (Panic, r) => (Panic, (fst s, r))
  | (OutOfFuel, r) => (OutOfFuel, (fst s, r))
  end.
(** video_sequence.go:54-57 *)
Definition vs_sequence_extension : V unit := assign_header set_se sequence_extension_fields.
(** video_sequence.go:59-62 *)
Definition vs_picture_header : V unit := assign_header set_ph picture_header_fields.
(** video_sequence.go:64-67 *)
Definition vs_picture_coding_extension : V unit := assign_header set_pce picture_coding_extension_fields.

(** quant_matrix_extension.go:20-91; the error of Assert on line 22 is dropped *)
Definition quant_matrix_extension : V unit :=
  ignore_err tt (onr (id_assert QuantMatrixExtensionID)) ;;
  l <- onr read1 ;;
  (if l : bool then m <- onr read_matrix ;; upd (fun v => set_q m (v_q1 v) m (v_q3 v) v) else ret tt) ;;
  l <- onr read1 ;;
  (if l : bool then m <- onr read_matrix ;; upd (fun v => set_q (v_q0 v) m (v_q2 v) m v) else ret tt) ;;
  l <- onr read1 ;;
  (if l : bool then m <- onr read_matrix ;; upd (fun v => set_q (v_q0 v) (v_q1 v) m (v_q3 v) v) else ret tt) ;;
  l <- onr read1 ;;
  (if l : bool then m <- onr read_matrix ;; upd (fun v => set_q (v_q0 v) (v_q1 v) (v_q2 v) m v) else ret tt) ;;
  onr next_start_code.

(** extension_and_user_data.go:33-76, the switch after the start code.  [i] is 0 or 2 at every call that gets
    here; i = 1 does nothing (line 51). *)
Definition extension_body (i : Z) : V unit :=
  if i =? 0 then
    id <- onr (peek_n 4) ;;
    if id =? SequenceDisplayExtensionID then onr sequence_display_extension ;; ret tt
    else onr sequence_scalable_extension
  else if i =? 2 then
    id <- onr (peek_n 4) ;;
    if id =? QuantMatrixExtensionID then quant_matrix_extension
    else if id =? CopyrightExtensionID then panic
    else if id =? PictureDisplayExtensionID then panic
    else if id =? PictureSpatialScalableExtensionID then panic
    else onr picture_temporal_scalable_extension ;; ret tt
  else ret tt.
(** extension_and_user_data.go:23-80; each iteration skips the 32 bits just seen *)
Fixpoint extension_data (fuel : nat) (i : Z) : V unit :=
  match fuel with
  | O => nofuel
  | S f =>
    b <- onr (peek_n 32) ;;
    if negb (b =? ExtensionStartCode) then ret tt else
    ignore_err tt (onr (skip_n 32)) ;;
    extension_body i ;;
    extension_data f i
  end.

(** extension_and_user_data.go:3-21.  With i = 1 and an extension start code ahead, no branch consumes
    anything: the loop does not end (see C54). *)
Fixpoint ext_user_loop (fuel : nat) (i : Z) : V unit :=
  match fuel with
  | O => nofuel
  | S f =>
    b <- onr (peek_n 32) ;;
    if negb (b =? ExtensionStartCode) && negb (b =? UserDataStartCode) then ret tt else
    (if negb (i =? 1) && (b =? ExtensionStartCode)
     then (fun s => extension_data (S (length (rbits (snd s)))) i s)
     else if b =? UserDataStartCode then onr user_data ;; ret tt
     else ret tt) ;;
    ext_user_loop f i
  end.
Definition extension_and_user_data (i : Z) : V unit :=
  fun s => ext_user_loop (S (length (rbits (snd s)))) i s.

(** video_sequence.go:69-80 Size.  The shift is a shift of a uint32. *)
Definition size (v : vidseq) : Z * Z :=
  match v_sh v with
  | None => (-1, -1)
  | Some sh =>
    match v_se v with
    | None => (sh_horizontal sh, sh_vertical sh)
    | Some se =>
      (Z.lor (sh_horizontal sh) (u32 (Z.shiftl (se_hext se) 12)),
       Z.lor (sh_vertical sh) (u32 (Z.shiftl (se_vext se) 12)))
    end
  end.
