(** SpecSyntax: the syntax of a video stream (ISO/IEC 13818-2 6.2), as a description of its bits alone - which
    elements follow which, and that each is a code word of its table or a number of the right width - with no
    condition on what the values mean.  It covers more than SpecPicture: field and frame pictures, field and frame
    motion vectors, every chroma format.  Left out: dual prime vectors. *)
From Verif Require Import Base SpecVid SpecVlc SpecBlock SpecMotion SpecPicture.

(** What the syntax of a picture's slices depends on: its headers, chroma_format (6.3.5) and
    vertical_size_value (6.3.3; the twelve bits of the sequence header). *)
Record layer : Type := mkLayer { y_hdr : spic; y_pce : spce; y_chroma : Z; y_vertical : Z }.
Definition y_type (y : layer) : Z := p_type (y_hdr y).
Definition y_frame (y : layer) : bool := e_struct (y_pce y) =? 3.
Definition y_fpfd (y : layer) : bool := e_fpfd (y_pce y).
(** Blocks of a macroblock (table 6-20).  chroma_format 0 is reserved. *)
Definition y_blocks (y : layer) : nat :=
  if y_chroma y =? 1 then 6 else if y_chroma y =? 2 then 8 else if y_chroma y =? 3 then 12 else 0.
Definition y_f (y : layer) (s t : nat) : Z :=
  match s, t with
  | O, O => e_f00 (y_pce y) | O, _ => e_f01 (y_pce y) | _, O => e_f10 (y_pce y) | _, _ => e_f11 (y_pce y)
  end.
(** [n] bits, whatever they are *)
Definition width (n : nat) (c : list bool) : Prop := length c = n.
Definition only_if (b : bool) (P : list bool -> Prop) (c : list bool) : Prop := if b then P c else c = [].

(** * Motion vectors (6.2.5.2) *)

(** motion_code, and motion_residual of f_code-1 bits if f_code is not 1 and motion_code not 0 *)
Definition component_syn (fc : Z) (c : list bool) : Prop :=
  exists m c1 c2, c = c1 ++ c2 /\ motion_code_code c1 m /\
    width (if (fc =? 1) || (m =? 0) then 0 else Z.to_nat (fc - 1)) c2.
Definition vector_syn (y : layer) (s : nat) (c : list bool) : Prop :=
  exists c1 c2, c = c1 ++ c2 /\ component_syn (y_f y s 0) c1 /\ component_syn (y_f y s 1) c2.
(** One vector; one with motion_vertical_field_select before it; two of these (tables 6-17, 6-18) *)
Inductive motion_form : Type := OneFrame | OneField | TwoFields.
Definition vectors_syn (y : layer) (s : nat) (f : motion_form) (c : list bool) : Prop :=
  match f with
  | OneFrame => vector_syn y s c
  | OneField => exists b c1, c = [b] ++ c1 /\ vector_syn y s c1
  | TwoFields => exists b1 c1 b2 c2, c = [b1] ++ c1 ++ [b2] ++ c2 /\ vector_syn y s c1 /\ vector_syn y s c2
  end.
(** Which, from frame_motion_type or field_motion_type [t] (tables 6-17, 6-18); with frame_pred_frame_dct there
    is only frame prediction.  Concealment vectors ([intra]) are frame vectors in frame pictures, field vectors in
    field pictures (7.6.3.9). *)
Definition form_of (y : layer) (intra : bool) (t : Z) (f : motion_form) : Prop :=
  if y_fpfd y then f = OneFrame
  else if y_frame y then if intra then f = OneFrame else (t = 1 /\ f = TwoFields) \/ (t = 2 /\ f = OneFrame)
  else if intra then f = OneField else (t = 1 /\ f = OneField) \/ (t = 2 /\ f = TwoFields).

(** * Blocks (6.2.6) *)

(** Block [k]: in an intra macroblock the DC difference, then run/level codes and end of block; not more than
    64 coefficients *)
Definition block_syn (y : layer) (intra : bool) (k : nat) (c : list bool) : Prop :=
  if intra then exists d c1 rls c2, c = c1 ++ c2 /\ dc_code (Nat.ltb k 4) c1 d /\
                  coded_from (e_vlc (y_pce y)) 1 rls c2 /\ (length (expand rls) <= 63)%nat
  else exists rls, coded_from false 0 rls c /\ (length (expand rls) <= 64)%nat.
(** The blocks from number [k] on, those that [coded] says *)
Fixpoint blocks_syn (y : layer) (intra : bool) (k : nat) (coded : list bool) (c : list bool) : Prop :=
  match coded with
  | [] => c = []
  | b :: coded => exists c1 c2, c = c1 ++ c2 /\ only_if b (block_syn y intra k) c1 /\ blocks_syn y intra (S k) coded c2
  end.
(** All blocks of an intra macroblock; of another one those of which the bit of coded_block_pattern is set
    (6.3.17.4; 4:2:0 only: the extra bits of the other formats are not in the syntax here) *)
Definition coded_blocks (y : layer) (intra : bool) (cbp : Z) : list bool :=
  map (fun k => intra || Z.testbit cbp (5 - Z.of_nat k)) (seq 0 (y_blocks y)).

(** * Macroblocks (6.2.5) *)

(** The part up to coded_block_pattern, of a macroblock of this type: macroblock_quant, motion_forward,
    motion_backward, pattern, intra; [n] is macroblock_address_increment *)
Definition mb_head_at (y : layer) (ty : bool * bool * bool * bool * bool) (n : Z) (c : list bool) : Prop :=
  let '(quant, forward, backward, pattern, intra) := ty in
  let conceal := intra && e_conceal (y_pce y) in
  exists t form c_incr c_type c_motion c_dct c_quant c_fwd c_bwd c_marker,
    c = c_incr ++ c_type ++ c_motion ++ c_dct ++ c_quant ++ c_fwd ++ c_bwd ++ c_marker /\
    incr_code n c_incr /\
    mbt_code (type_table (y_type y)) c_type ty /\
    only_if ((forward || backward) && negb (y_frame y && y_fpfd y)) (fun c => 0 <= t < 4 /\ c = enc 2 t) c_motion /\
    only_if (y_frame y && negb (y_fpfd y) && (intra || pattern)) (width 1) c_dct /\
    only_if quant (width 5) c_quant /\
    (forward || backward || conceal = true -> form_of y intra t form) /\
    only_if (forward || conceal) (vectors_syn y 0 form) c_fwd /\
    only_if backward (vectors_syn y 1 form) c_bwd /\
    only_if conceal (fun c => c = [true]) c_marker.
Definition mb_head_syn (y : layer) (ty : bool * bool * bool * bool * bool) (c : list bool) : Prop :=
  exists n, mb_head_at y ty n c.
Definition mb_syn (y : layer) (c : list bool) : Prop :=
  exists quant forward backward pattern intra cbp c1 c2 c3,
    c = c1 ++ c2 ++ c3 /\ mb_head_syn y (quant, forward, backward, pattern, intra) c1 /\
    only_if pattern (fun c => cbp_code c cbp) c2 /\
    blocks_syn y intra 0 (coded_blocks y intra (if pattern then cbp else 0)) c3.
(** What is not in the standard: a macroblock that should have a coded_block_pattern, but in place of it there are
    nine zero bits, which begin no code of table B-9; nothing else follows of it. *)
Definition mb_cut (y : layer) (c : list bool) : Prop :=
  exists quant forward backward intra c1,
    c = c1 ++ repeat false 9 /\ mb_head_syn y (quant, forward, backward, true, intra) c1.

(** * Slices (6.2.4) and pictures (6.2.3.6) *)

(** A slice with macroblocks each of which satisfies [mb], and zero bits up to the next start code *)
Definition slice_syn (mb : list bool -> Prop) (y : layer) (c : list bool) : Prop :=
  exists row ext q flags ms j,
    1 <= row <= 175 /\ only_if (2800 <? y_vertical y) (width 3) ext /\ width 5 q /\
    match flags with Some (_, extra) => bytes extra | None => True end /\
    ms <> [] /\ Forall mb ms /\
    c = code row ++ ext ++ q ++ flags_code flags ++ concat ms ++ repeat false j.
Definition picture_syn (mb : layer -> list bool -> Prop) (y : layer) (c : list bool) : Prop :=
  1 <= y_type y <= 3 /\ exists ss, ss <> [] /\ Forall (slice_syn (mb y) y) ss /\ c = concat ss.

(** * Streams (6.2.2) *)

(** Up to the next start code: some bits up to the byte boundary - which should be zero - and zero bytes *)
Definition gap (c : list bool) : Prop := exists al k, (length al < 8)%nat /\ c = al ++ bb (repeat 0 k).
(** Extensions and user data *)
Definition xitem_syn (x : xitem) (c : list bool) : Prop :=
  wf_xitem x /\
  match x with
  | XDisplay s _ => exists g, gap g /\ c = code extension_code ++ enc_disp s ++ g
  | XQuant s _ => exists g, gap g /\ c = code extension_code ++ enc_quant s ++ g
  | XTemporal s _ => exists g, gap g /\ c = code extension_code ++ enc_temp s ++ g
  | XUser d => c = enc_user d
  end.
Definition xitems_syn (i : Z) (c : list bool) : Prop :=
  exists xs cs, Forall2 xitem_syn xs cs /\ Forall (allowed i) xs /\ c = concat cs.
(** A sequence header and its extension *)
Definition start_syn (h : sseq * ssext) (c : list bool) : Prop :=
  exists g1 g2 c3, wf_seq (fst h) /\ wf_sext (snd h) /\ gap g1 /\ gap g2 /\ xitems_syn 0 c3 /\
    c = enc_seq (fst h) ++ g1 ++ enc_sext (snd h) ++ g2 ++ c3.
Definition group_syn (c : list bool) : Prop :=
  exists g gp c2, wf_gop g /\ gap gp /\ xitems_syn 1 c2 /\ c = enc_gop g ++ gp ++ c2.
(** A picture with its headers, in the sequence with headers [h] *)
Definition coded_picture_syn (mb : layer -> list bool -> Prop) (h : sseq * ssext) (p : spic) (e : spce) (c : list bool) : Prop :=
  exists g1 g2 c3 d, wf_pic p /\ wf_pce e /\ gap g1 /\ gap g2 /\ xitems_syn 2 c3 /\
    picture_syn mb (mkLayer p e (x_chroma (snd h)) (q_vertical (fst h))) d /\
    c = enc_pic p ++ g1 ++ enc_pce e ++ g2 ++ c3 ++ d.
(** A piece of the stream with one picture.  [None] to begin with: stuffing, then sequence header and extension; later
    they may be there again.  A group of pictures header may come before the picture. *)
Definition piece_syn (mb : layer -> list bool -> Prop) (o : option (sseq * ssext)) (h : sseq * ssext) (c : list bool) : Prop :=
  exists c0 c1 c2 p e c3, c = c0 ++ c1 ++ c2 ++ c3 /\
    match o with None => gap c0 | Some _ => c0 = [] end /\
    (start_syn h c1 \/ (o = Some h /\ c1 = [])) /\
    (group_syn c2 \/ c2 = []) /\
    coded_picture_syn mb h p e c3.
Inductive stream_syn (mb : layer -> list bool -> Prop) : option (sseq * ssext) -> option (sseq * ssext) -> list bool -> Prop :=
| stream_nil : forall o, stream_syn mb o o []
| stream_cons : forall o h o' c d, piece_syn mb o h c -> stream_syn mb (Some h) o' d -> stream_syn mb o o' (c ++ d).
