(** HeapModel: package video - the frames as objects.  In MbModel the frame store holds the pictures themselves; here it
    holds pointers to them, as the code does, and the pictures lie in a memory of image.YCbCr objects that can be shared
    between the decoder and its caller. *)
From Verif Require Import Base BitReader VidModel BlockModel MbModel.

(** The memory: the image.YCbCr objects (picture_data.go:22), a pointer is an index *)
Definition memory : Type := list image.
(** frame_store.go:6: following a *image.YCbCr *)
Definition load_ptr (mem : memory) (p : option nat) : option image :=
  match p with None => None | Some i => nth_error mem i end.
(** Writing to the object a pointer points to (slice.go:42-48, where frameSlice shares the planes of frame, macroblock.go:171-244) *)
Fixpoint put (i : nat) (img : image) (mem : memory) : memory :=
  match mem, i with
  | [], _ => []
  | _ :: mem, O => img :: mem
  | x :: mem, S i => x :: put i img mem
  end.

(** frame_store.go:5-9 referenceFrame, 11-15 frameStore, with the pointers *)
Record href : Type := mkHRef { hr_frame : option nat; hr_tr : Z; hr_prev : bool }.
Record hstore : Type := mkHStore { hs_0 : href; hs_1 : href; hs_past : option nat; hs_future : option nat }.
(** video_sequence.go:18-27 VideoSequence and the memory.  The frame store is [h_fs]; the field [v_fs] of [h_v] is not used. *)
Record hseq : Type := mkHSeq { h_v : vidseq; h_fs : hstore; h_mem : memory }.
(** video_sequence.go:29-33 NewVideoSequence *)
Definition h_new : hseq := mkHSeq new_vidseq (mkHStore (mkHRef None 0 false) (mkHRef None 0 false) None None) [].

(** What the frame store shows: the pictures behind its pointers (frame_store.go:5-15) *)
Definition load_ref (mem : memory) (x : href) : refframe := mkRef (load_ptr mem (hr_frame x)) (hr_tr x) (hr_prev x).
Definition load (mem : memory) (s : hstore) : framestore :=
  mkFS (load_ref mem (hs_0 s)) (load_ref mem (hs_1 s)) (load_ptr mem (hs_past s)) (load_ptr mem (hs_future s)).
Definition see (h : hseq) : vidseq := set_fs (load (h_mem h) (h_fs h)) (h_v h).

(** The methods of *VideoSequence (video_sequence.go:18-27) *)
Definition H (A : Type) : Type := M (hseq * reader) A.
(** A method that touches neither the frame store nor a picture (frame_provider.go:15-75: the headers, the extensions) *)
Definition onv {A} (m : V A) : H A := fun s =>
  let '(o, (v, r)) := m (see (fst s), snd s) in (o, (mkHSeq v (h_fs (fst s)) (h_mem (fst s)), r)).

(** frame_store.go:17-20 gop *)
Definition hs_gop (s : hstore) : hstore :=
  mkHStore (mkHRef (hr_frame (hs_0 s)) (hr_tr (hs_0 s)) true) (mkHRef (hr_frame (hs_1 s)) (hr_tr (hs_1 s)) true) (hs_past s) (hs_future s).
(** frame_store.go:22-33 set, for one frame *)
Definition hs_set1 (tr : Z) (x : href) (s : hstore) : hstore :=
  match hr_frame x with
  | None => s
  | Some i =>
      if hr_prev x || (hr_tr x <? tr)
      then mkHStore (hs_0 s) (hs_1 s) (Some i) (hs_future s)
      else mkHStore (hs_0 s) (hs_1 s) (hs_past s) (Some i)
  end.
(** frame_store.go:22-33 set *)
Definition hs_set (tr : Z) (s : hstore) : hstore := hs_set1 tr (hs_1 s) (hs_set1 tr (hs_0 s) s).
(** frame_store.go:35-38 add *)
Definition hs_add (i : nat) (tr : Z) (s : hstore) : hstore := mkHStore (hs_1 s) (mkHRef (Some i) tr false) (hs_past s) (hs_future s).
(** frame_store.go:40-47 tryGet *)
Definition href_get (tr : Z) (x : href) : option nat :=
  match hr_frame x with
  | None => None
  | Some i => if negb (hr_prev x) && (hr_tr x =? tr) then Some i else None
  end.
Definition hs_tryget (tr : Z) (s : hstore) : option nat :=
  match href_get tr (hs_0 s) with Some i => Some i | None => href_get tr (hs_1 s) end.

(** picture_data.go:22: a new object, at the end of the memory *)
Definition alloc (img : image) : H nat := fun s =>
  (Ok (length (h_mem (fst s))), (mkHSeq (h_v (fst s)) (h_fs (fst s)) (h_mem (fst s) ++ [img]), snd s)).
(** slice.go:17-136: a slice writes to the object [i], and reads the pictures behind the pointers past and future.  The
    pictures are read once, at the start of the slice, which is the same as long as neither of them is the object [i]
    (HeapProofs.h_picture_data_see); and what a slice that fails has written to [i] is left out, as the caller drops [i] then. *)
Definition h_slice (i : nat) : H unit := fun s =>
  match nth_error (h_mem (fst s)) i with
  | None => (Panic, s)
  | Some frame =>
      let '(o, r) := slice (see (fst s)) frame (snd s) in
      match o with
      | Ok frame => (Ok tt, (mkHSeq (h_v (fst s)) (h_fs (fst s)) (put i frame (h_mem (fst s))), r))
      | Err e => (Err e, (fst s, r))
      | Panic => (Panic, (fst s, r))
      | OutOfFuel => (OutOfFuel, (fst s, r))
      end
  end.
(** picture_data.go:30-40 *)
Fixpoint h_slices (fuel : nat) (i : nat) : H unit :=
  match fuel with
  | O => nofuel
  | S f =>
      h_slice i ;;
      nextbits <- onr (peek_n 32) ;;
      if is_slice nextbits then h_slices f i else ret tt
  end.
(** picture_data.go:25-43 picture_data *)
Definition h_picture_data : H nat := fun s =>
  (let '(w, h) := size (h_v (fst s)) in
   se <- deref (v_se (h_v (fst s))) ;;
   i <- alloc (create_frame_buffer w h (se_chroma se)) ;;
   h_slices (S (length (rbits (snd s)))) i ;;
   onr next_start_code ;;
   ret i) s.

(** frame_provider.go:55-57 *)
Definition h_start_gop (g : gophdr) (h : hseq) : hseq := mkHSeq (set_fc 0 (set_gop (Some g) (h_v h))) (hs_gop (h_fs h)) (h_mem h).
(** Assignment to the frame store (frame_provider.go:76, 83) and to frameCounter (video_sequence.go:86, 95) *)
Definition h_set_fs (f : hstore -> hstore) (h : hseq) : hseq := mkHSeq (h_v h) (f (h_fs h)) (h_mem h).
Definition h_count (h : hseq) : hseq := mkHSeq (set_fc (u32 (v_fc (h_v h) + 1)) (h_v h)) (h_fs h) (h_mem h).
(** frame_provider.go:47-86 MORE_FRAMES *)
Definition h_more_frames : H nat :=
  nextbits <- onr (peek_n 32) ;;
  (if nextbits =? GroupStartCode then
     gop <- onr read_gop_header ;;
     upd (h_start_gop gop) ;;
     onv (extension_and_user_data 1)
   else ret tt) ;;
  onv vs_picture_header ;;
  onv vs_picture_coding_extension ;;
  onv (extension_and_user_data 2) ;;
  h <- own ;;
  ph <- deref (v_ph (h_v h)) ;;
  upd (h_set_fs (hs_set (ph_tr ph))) ;;
  i <- h_picture_data ;;
  (if (ph_type ph =? IFrame) || (ph_type ph =? PFrame)
   then upd (h_set_fs (hs_add i (ph_tr ph))) else ret tt) ;;
  ret i.
(** frame_provider.go:41-45 CONTINUE *)
Definition h_continue_frames : H nat := onv (extension_and_user_data 0) ;; h_more_frames.
(** frame_provider.go:13-120 step *)
Definition h_step : H nat :=
  h <- own ;;
  match v_sh (h_v h) with
  | None =>
      onr next_start_code ;;
      onv vs_sequence_header ;;
      val <- onr (peek_n 32) ;;
      if negb (val =? ExtensionStartCode) then fail ErrUnsupported else
      onv vs_sequence_extension ;;
      h_continue_frames
  | Some _ => (* RESUME *)
      nextbits <- onr (peek_n 32) ;;
      if (nextbits =? PictureStartCode) || (nextbits =? GroupStartCode) then h_more_frames else
      nextbits <- onr (peek_n 32) ;;
      if nextbits =? SequenceEndStartCode then onr (skip_n 32) ;; fail EOS else
      onv vs_sequence_header ;;
      onv vs_sequence_extension ;;
      h_continue_frames
  end.
(** video_sequence.go:90-98 *)
Fixpoint h_next_loop (fuel : nat) : H nat :=
  match fuel with
  | O => nofuel
  | S f =>
      i <- h_step ;;
      h <- own ;;
      ph <- deref (v_ph (h_v h)) ;;
      if ph_tr ph =? v_fc (h_v h) then upd h_count ;; ret i
      else h_next_loop f
  end.
(** video_sequence.go:83-99 Next: a pointer to a picture *)
Definition h_next : H nat :=
  h <- own ;;
  match hs_tryget (v_fc (h_v h)) (h_fs h) with
  | Some i => upd h_count ;; ret i
  | None => fun s => h_next_loop (S (length (rbits (snd s)))) s
  end.

(** The caller writes to a picture it has a pointer to (image.YCbCr, returned by video_sequence.go:83, has exported fields). *)
Definition draw (i : nat) (img : image) (h : hseq) : hseq := mkHSeq (h_v h) (h_fs h) (put i img (h_mem h)).
