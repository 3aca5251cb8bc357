(** SpecError: what the errors of Next say about the stream (C105), on bits alone. *)
From Verif Require Import Base BitReader SpecVlc SpecVid SpecSyntax.

(** The error is the reader's own, and it has come to the end: the source's error when nothing is left, or that of a read or
    look ahead of [n] bits (at most 32) when there are fewer. *)
Definition ended (r : reader) (e : err) (l : list bool) : Prop :=
  (l = [] /\ e = rfin r) \/ exists n, (0 < length l < n)%nat /\ (n <= 32)%nat /\ e = rshort r n (length l).
(** The next [n] bits are there and are a number with [p]. *)
Definition next_bits (n : nat) (p : Z -> Prop) (l : list bool) : Prop := exists v t, l = enc n v ++ t /\ 0 <= v < 2 ^ Z.of_nat n /\ p v.
(** A start code other than these *)
Definition other_than (bs : list Z) (l : list bool) : Prop := next_bits 32 (fun v => forall b, In b bs -> v <> 256 + b) l.
(** The codes of Annex B that a macroblock is made of (an error in a coded block pattern is not reported, see C59). *)
Inductive table : (list bool -> Prop) -> Prop :=
| tb_increment : table (fun c => exists n, mba_code c n)
| tb_type : forall t, In t [b2; b3; b4] -> table (fun c => exists x, mbt_code t c x)
| tb_motion : table (fun c => exists m, motion_code_code c m)
| tb_dc_luma : table (fun c => exists n, dc_size_luma_code c n)
| tb_dc_chroma : table (fun c => exists n, dc_size_chroma_code c n)
| tb_dct : forall one first, table (fun c => exists x, dct_code one first c x).

(** What an error says: [c] are the last bits that were read, [l] are the next. *)
Inductive tells : err -> list bool -> list bool -> Prop :=
(* The end of the sequence *)
| tell_end : forall l, tells EOS (code sequence_end_code) l
(* A sequence header without a sequence extension: MPEG-1 *)
| tell_mpeg1 : forall s g l, wf_seq s -> gap g -> other_than [extension_code] l -> tells ErrUnsupported (enc_seq s ++ g) l
(* A marker bit is 0. *)
| tell_marker : forall l, tells ErrMissingMarkerBit [false] l
(* The reserved bits of a slice header are not 0; before them stand the intra_slice_flag 1 and intra_slice. *)
| tell_reserved : forall b v l, 0 < v < 2 ^ 7 -> tells ErrInvalidReservedBits ([true; b] ++ enc 7 v) l
(* Something other than zero bytes stands where a start code must follow. *)
| tell_byte : forall v l, 0 < v < 2 ^ 8 -> next_bits 24 (fun x => x <> 1) (enc 8 v ++ l) -> tells ErrUnexpectedNonZeroByte (enc 8 v) l
(* No code of the table begins with these bits. *)
| tell_code : forall K c l, table K -> (forall d t u, K d -> c ++ t <> d ++ u) -> tells ErrMissingHuffmanValue c l
(* The stream does not begin with a sequence header. *)
| tell_begin : forall g l, gap g -> other_than [sequence_header_code] l -> tells ErrUnexpectedStartCode g l
(* Neither a picture, a group, a sequence nor the end follows a picture. *)
| tell_between : forall l, other_than [picture_code; group_code; sequence_header_code; sequence_end_code] l -> tells ErrUnexpectedStartCode [] l
(* A repeated sequence header without an extension *)
| tell_sequence : forall s g l, wf_seq s -> gap g -> other_than [extension_code] l -> tells ErrUnexpectedStartCode (enc_seq s ++ g) l
(* The extension after a sequence header is not the sequence extension. *)
| tell_sequence_id : forall s g l, wf_seq s -> gap g -> next_bits 4 (fun v => v <> 1) l -> tells ErrUnexpectedExtensionID (enc_seq s ++ g ++ code extension_code) l
(* An extension that may not stand after the sequence extension: neither display nor scalable *)
| tell_after_sequence : forall x g c l, wf_sext x -> gap g -> xitems_syn 0 c -> next_bits 4 (fun v => ~ In v [2; 5]) l ->
    tells ErrUnexpectedExtensionID (enc_sext x ++ g ++ c ++ code extension_code) l
(* Neither a picture nor a group after the sequence extension and what belongs to it *)
| tell_no_group : forall x g c l, wf_sext x -> gap g -> xitems_syn 0 c -> other_than [picture_code; group_code; extension_code; user_data_code] l ->
    tells ErrUnexpectedStartCode (enc_sext x ++ g ++ c) l
(* No picture after a group header and its user data *)
| tell_no_picture : forall s g c l, wf_gop s -> gap g -> xitems_syn 1 c -> other_than [picture_code; extension_code; user_data_code] l ->
    tells ErrUnexpectedStartCode (enc_gop s ++ g ++ c) l
(* A picture header without an extension, or with another one than the picture coding extension *)
| tell_coding : forall s g l, wf_pic s -> gap g -> other_than [extension_code] l -> tells ErrUnexpectedStartCode (enc_pic s ++ g) l
| tell_coding_id : forall s g l, wf_pic s -> gap g -> next_bits 4 (fun v => v <> 8) l -> tells ErrUnexpectedExtensionID (enc_pic s ++ g ++ code extension_code) l
(* An extension that may not stand after the picture coding extension: none of quant matrix, copyright, picture display,
   spatial scalable, temporal scalable *)
| tell_after_coding : forall x g c l, wf_pce x -> gap g -> xitems_syn 2 c -> next_bits 4 (fun v => ~ In v [3; 4; 7; 9; 10]) l ->
    tells ErrUnexpectedExtensionID (enc_pce x ++ g ++ c ++ code extension_code) l
(* No slice after the picture coding extension and what belongs to it; the wrong code has been read. *)
| tell_no_slice : forall x g c v l, wf_pce x -> gap g -> xitems_syn 2 c -> 0 <= v < 2 ^ 32 -> ~ (256 + 1 <= v <= 256 + 175) ->
    v <> 256 + extension_code -> v <> 256 + user_data_code -> tells ErrUnexpectedStartCode (enc_pce x ++ g ++ c ++ enc 32 v) l.
