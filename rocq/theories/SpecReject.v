(** SpecReject: streams that break the syntax at some place, after pictures that follow it, and the error with which the decoder
    has to answer - a description of the stream alone.  Where SpecError says what there is if there is an error, this says when
    there must be one, and which. *)
From Verif Require Import Base SpecVid SpecVlc SpecBlock SpecMotion SpecPicture SpecNext SpecSyntax SpecPanic SpecUnsupported SpecCertain.

(** * In a slice *)

(** The bits begin with no code word of [K], and there are enough of them for any *)
Definition no_code (K : list bool -> Prop) (d : list bool) : Prop := (24 <= length d)%nat /\ forall c t, K c -> d <> c ++ t.
(** Block [k], up to a place where there is no run/level code and no end of block *)
Definition broken_block (y : layer) (intra : bool) (k : nat) (c : list bool) : Prop :=
  if intra then exists d c1 rls c2 t, c = c1 ++ c2 ++ t /\ dc_code (Nat.ltb k 4) c1 d /\ syms (e_vlc (y_pce y)) 1 rls c2 /\
    (length (expand rls) <= 63)%nat /\ no_code (fun c => exists x, dct_code (e_vlc (y_pce y)) false c x) t
  else exists rls c2 t, c = c2 ++ t /\ syms false 0 rls c2 /\
    (length (expand rls) <= 64)%nat /\ no_code (fun c => exists x, dct_code false (Nat.eqb (length (expand rls)) 0) c x) t.
(** A macroblock without a code for its address increment (and which are not the 23 zero bits at the end of a slice), or for its
    type, or in one of its blocks *)
Definition broken_mb (y : layer) (d : list bool) : Prop :=
  (exists k t, d = concat (repeat mb_escape k) ++ t /\ no_code (fun c => c = mb_escape \/ exists n, mba_code c n) t /\ In true (firstn 23 d)) \/
  (exists n c t, d = c ++ t /\ incr_code n c /\ 1 <= y_type y <= 3 /\ no_code (fun c => exists ty, mbt_code (type_table (y_type y)) c ty) t) \/
  exists n quant forward backward pattern intra cbp c1 c2 k c4 c5,
    d = c1 ++ c2 ++ c4 ++ c5 /\ mb_head_at y (quant, forward, backward, pattern, intra) n c1 /\
    only_if pattern (fun c => cbp_code c cbp) c2 /\
    let coded := coded_blocks y intra (if pattern then cbp else 0) in
    nth_error coded k = Some true /\ blocks_syn y intra 0 (firstn k coded) c4 /\ broken_block y intra k c5.
(** A slice, after its start code: its seven reserved bits are not zero; or after proper macroblocks there is such a one *)
Definition broken_slice (y : layer) (e : err) (t : list bool) : Prop :=
  exists ext q u, t = ext ++ q ++ u /\ only_if (2800 <? y_vertical y) (width 3) ext /\ width 5 q /\
    ((e = ErrInvalidReservedBits /\ exists b n d, u = [true; b] ++ enc 7 n ++ d /\ 0 < n < 128) \/
     (e = ErrMissingHuffmanValue /\ exists flags (ms : list (Z * list bool)) d, u = flags_code flags ++ concat (map snd ms) ++ d /\
        match flags with Some (_, extra) => bytes extra | None => True end /\
        Forall (fun m => mb_at y (fst m) (snd m)) ms /\ broken_mb y d)).
(** Proper slices, and then such a slice *)
Definition broken_picture (h : sseq * ssext) (p : spic) (pce : spce) (e : err) (d : list bool) : Prop :=
  let y := mkLayer p pce (x_chroma (snd h)) (q_vertical (fst h)) in
  exists ss row t, d = concat ss ++ code row ++ t /\ 1 <= row <= 175 /\ Forall (whole_slice y) ss /\ (length t mod 8 = 0)%nat /\
    broken_slice y e t.

(** * In the headers *)

(** Whole bytes, which begin with a start code that is none of these *)
Definition other_code (bs : list Z) (d : list bool) : Prop :=
  exists b t, d = code b ++ t /\ 0 <= b < 256 /\ ~ In b bs /\ (length t mod 8 = 0)%nat.
(** An extension with another identifier than these *)
Definition other_id (ids : list Z) (d : list bool) : Prop :=
  exists id t, d = code extension_code ++ enc 4 id ++ t /\ 0 <= id < 16 /\ ~ In id ids /\ (length d mod 8 = 0)%nat.
(** A structure, perhaps zero bytes, and then a byte that is neither zero nor the last one of a start code prefix *)
Definition unstuffed (c d : list bool) : Prop :=
  exists k n t, d = stuffed c k ++ enc 8 n ++ t /\ 0 < n < 256 /\ (n = 1 -> (k < 2)%nat) /\ (16 <= length t)%nat /\ (length t mod 8 = 0)%nat.
(** A structure that begins with [b], and after [n] bits, whatever they are, a marker bit that is zero *)
Definition no_marker (b : list bool) (n : nat) (d : list bool) : Prop :=
  exists c t, d = b ++ c ++ [false] ++ t /\ width n c /\ (length d mod 8 = 0)%nat.

(** [rejected started e d]: in [d], after perhaps sequence headers, a group of pictures header and picture headers, there is a
    fault that gives the error [e].  If the sequence has not started, there are sequence headers. *)
Inductive rejected (started : bool) : err -> list bool -> Prop :=
| rej_start_code : forall d,
    other_code (if started then [picture_code; group_code; sequence_header_code; sequence_end_code] else [sequence_header_code]) d ->
    (started = true -> not_slice d) -> rejected started ErrUnexpectedStartCode d
| rej_sequence_marker : forall d, no_marker (code sequence_header_code) 50 d -> rejected started ErrMissingMarkerBit d
| rej_sequence_stuffing : forall s d, wf_seq s -> unstuffed (enc_seq s) d -> rejected started ErrUnexpectedNonZeroByte d
| rej_sequence_alone : forall s k d, wf_seq s -> other_code [extension_code] d ->
    rejected started (if started then ErrUnexpectedStartCode else ErrUnsupported) (stuffed (enc_seq s) k ++ d)
| rej_extension_id : forall s k d, wf_seq s -> other_id [1] d -> rejected started ErrUnexpectedExtensionID (stuffed (enc_seq s) k ++ d)
| rej_extension_marker : forall s k d, wf_seq s -> no_marker (code extension_code ++ enc 4 1) 27 d ->
    rejected started ErrMissingMarkerBit (stuffed (enc_seq s) k ++ d)
| rej_extension_stuffing : forall s k x d, wf_seq s -> wf_sext x -> unstuffed (enc_sext x) d ->
    rejected started ErrUnexpectedNonZeroByte (stuffed (enc_seq s) k ++ d)
| rej_after_start_id : forall s d, wf_start s -> other_id [2; 5] d -> rejected started ErrUnexpectedExtensionID (enc_start s ++ d)
| rej_after_start : forall s d, wf_start s -> other_code [picture_code; group_code; extension_code; user_data_code] d ->
    rejected started ErrUnexpectedStartCode (enc_start s ++ d)
| rej_group_stuffing : forall os g d, (started = false -> os <> None) -> opt_wf wf_start os -> wf_gop g -> unstuffed (enc_gop g) d ->
    rejected started ErrUnexpectedNonZeroByte (opt enc_start os ++ d)
| rej_after_group : forall os g d, (started = false -> os <> None) -> opt_wf wf_start os -> wf_group_head g ->
    other_code [picture_code; extension_code; user_data_code] d ->
    rejected started ErrUnexpectedStartCode (opt enc_start os ++ enc_group_head g ++ d)
| rej_picture_stuffing : forall os og p d, (started = false -> os <> None) -> opt_wf wf_start os -> opt_wf wf_group_head og ->
    wf_pic p -> unstuffed (enc_pic p) d -> rejected started ErrUnexpectedNonZeroByte (opt enc_start os ++ opt enc_group_head og ++ d)
| rej_picture_alone : forall os og p k d, (started = false -> os <> None) -> opt_wf wf_start os -> opt_wf wf_group_head og ->
    wf_pic p -> other_code [extension_code] d ->
    rejected started ErrUnexpectedStartCode (opt enc_start os ++ opt enc_group_head og ++ stuffed (enc_pic p) k ++ d)
| rej_coding_id : forall os og p k d, (started = false -> os <> None) -> opt_wf wf_start os -> opt_wf wf_group_head og ->
    wf_pic p -> other_id [8] d ->
    rejected started ErrUnexpectedExtensionID (opt enc_start os ++ opt enc_group_head og ++ stuffed (enc_pic p) k ++ d)
| rej_coding_stuffing : forall os og p k x d, (started = false -> os <> None) -> opt_wf wf_start os -> opt_wf wf_group_head og ->
    wf_pic p -> wf_pce x -> unstuffed (enc_pce x) d ->
    rejected started ErrUnexpectedNonZeroByte (opt enc_start os ++ opt enc_group_head og ++ stuffed (enc_pic p) k ++ d)
| rej_picture_id : forall os og p d, (started = false -> os <> None) -> opt_wf wf_start os -> opt_wf wf_group_head og ->
    wf_picture_head p -> other_id [3; 4; 7; 9; 10] d ->
    rejected started ErrUnexpectedExtensionID (opt enc_start os ++ opt enc_group_head og ++ enc_picture_head p ++ d)
| rej_no_slice : forall os og p d, (started = false -> os <> None) -> opt_wf wf_start os -> opt_wf wf_group_head og ->
    wf_picture_head p -> other_code [extension_code; user_data_code] d -> not_slice d ->
    rejected started ErrUnexpectedStartCode (opt enc_start os ++ opt enc_group_head og ++ enc_picture_head p ++ d).

(** * Streams *)

(** Pictures that follow the syntax, and then such headers, or a picture with such a slice *)
Definition rejected_stream (e : err) (d : list bool) : Prop :=
  exists o c d1, d = c ++ d1 /\ whole_stream None o c /\
    (rejected (match o with Some _ => true | None => false end) e d1 \/
     exists h p c1 d2, d1 = c1 ++ d2 /\ heads o h p c1 /\ broken_picture h (pd_hdr p) (pd_pce p) e d2).
