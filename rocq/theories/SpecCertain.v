(** SpecCertain: streams that follow the syntax in whole bytes, and what in such a stream makes the decoder panic for certain -
    a description of the stream alone.  Where SpecPanic says what there is if the decoder panics, this says when it must. *)
From Verif Require Import Base SpecVid SpecVlc SpecBlock SpecMotion SpecPicture SpecNext SpecSyntax SpecPanic SpecUnsupported.

(** * Macroblocks *)

(** A macroblock (mb_syn), with its address increment *)
Definition mb_at (y : layer) (n : Z) (c : list bool) : Prop :=
  exists quant forward backward pattern intra cbp c1 c2 c3,
    c = c1 ++ c2 ++ c3 /\ mb_head_at y (quant, forward, backward, pattern, intra) n c1 /\
    only_if pattern (fun c => cbp_code c cbp) c2 /\
    blocks_syn y intra 0 (coded_blocks y intra (if pattern then cbp else 0)) c3.
(** Block [k], up to the run/level code with which it has more than 64 coefficients *)
Definition over (y : layer) (intra : bool) (k : nat) (c : list bool) : Prop :=
  if intra then overfull y k c else exists rls, syms false 0 rls c /\ (64 < length (expand rls))%nat.
(** A macroblock of a picture of no known type; or one that has the reserved motion type 0, dual prime prediction (3), or
    concealment vectors in an intra macroblock of a picture without frame_pred_frame_dct - with dual prime, at least the first
    component of the vector is there *)
Definition sure_head (y : layer) (d : list bool) : Prop :=
  exists n c_incr d1, d = c_incr ++ d1 /\ incr_code n c_incr /\ (23 <= length d1)%nat /\
    (y_type y < 1 \/ 3 < y_type y \/
     exists quant forward backward pattern intra mt c_type c_motion c_dct c_quant c_part t,
       d1 = c_type ++ c_motion ++ c_dct ++ c_quant ++ c_part ++ t /\
       mbt_code (type_table (y_type y)) c_type (quant, forward, backward, pattern, intra) /\
       only_if ((forward || backward) && negb (y_frame y && y_fpfd y)) (fun c => 0 <= mt < 4 /\ c = enc 2 mt) c_motion /\
       only_if (y_frame y && negb (y_fpfd y) && (intra || pattern)) (width 1) c_dct /\
       only_if quant (width 5) c_quant /\ y_fpfd y = false /\
       ((forward || backward = true /\ mt = 0) \/
        (forward || backward = true /\ mt = 3 /\ component_syn (y_f y (if forward then 0 else 1) 0) c_part) \/
        (intra = true /\ e_conceal (y_pce y) = true))).
(** After the macroblock at address [a] of its row (the first one is at 0) comes one that is complete, and which in 4:2:0 has an
    address of at least [limit], while in 4:2:2 and 4:4:4 it can be any; or one in which a block has more than 64 coefficients;
    or one of those of sure_head.  Some bits follow - as they do if there is another start code. *)
Definition sure_mb (y : layer) (limit a : Z) (d : list bool) : Prop :=
  sure_head y d \/
  exists n quant forward backward pattern intra cbp c1 c2 c3 t,
    d = c1 ++ c2 ++ c3 ++ t /\ (23 <= length t)%nat /\ mb_head_at y (quant, forward, backward, pattern, intra) n c1 /\
    only_if pattern (fun c => cbp_code c cbp) c2 /\
    let coded := coded_blocks y intra (if pattern then cbp else 0) in
    ((((y_chroma y = 1 /\ limit <= a + n) \/ y_chroma y = 2 \/ y_chroma y = 3) /\ blocks_syn y intra 0 coded c3) \/
    (exists k c4 c5, nth_error coded k = Some true /\ c3 = c4 ++ c5 /\ blocks_syn y intra 0 (firstn k coded) c4 /\ over y intra k c5)).

(** * Slices *)

(** In a picture of [w] by [h] macroblocks, after its start code: a slice that begins below the picture; or one in which such a
    macroblock comes after proper ones.  The limit is that of bad_slice. *)
Definition sure_slice (y : layer) (w h row : Z) (t : list bool) : Prop :=
  (0 < w /\ h + 1 < row) \/
  exists ext q flags (ms : list (Z * list bool)) d, t = ext ++ q ++ flags_code flags ++ concat (map snd ms) ++ d /\
    only_if (2800 <? y_vertical y) (width 3) ext /\ width 5 q /\
    match flags with Some (_, extra) => bytes extra | None => True end /\
    Forall (fun m => mb_at y (fst m) (snd m)) ms /\
    sure_mb y (w * (8 * (h - row) + 1)) (-1 + fold_right Z.add 0 (map fst ms)) d.
(** A proper slice, of whole bytes *)
Definition whole_slice (y : layer) (c : list bool) : Prop := slice_syn (mb_syn y) y c /\ (length c mod 8 = 0)%nat.
(** Proper slices, and then such a slice *)
Definition sure_picture (h : sseq * ssext) (p : spic) (e : spce) (d : list bool) : Prop :=
  let y := mkLayer p e (x_chroma (snd h)) (q_vertical (fst h)) in
  exists ss row t, d = concat ss ++ code row ++ t /\ 1 <= row <= 175 /\ Forall (whole_slice y) ss /\ (length t mod 8 = 0)%nat /\
    sure_slice y (stream_w h) (stream_h h) row t.

(** * Streams *)

(** Whole bytes that begin with a start code which is not that of a slice *)
Definition not_slice (l : list bool) : Prop := exists b t, l = code b ++ t /\ (length t mod 8 = 0)%nat /\ 0 <= b < 256 /\ ~ (1 <= b <= 175).

(** The headers before a picture: perhaps sequence headers - without which those of [o] go on - and perhaps a group of pictures
    header, and the picture headers.  [h] are the sequence headers in force. *)
Definition heads (o : option (sseq * ssext)) (h : sseq * ssext) (p : spicture_head) (c : list bool) : Prop :=
  exists os og, c = opt enc_start os ++ opt enc_group_head og ++ enc_picture_head p /\
    opt_wf wf_start os /\ opt_wf wf_group_head og /\ wf_picture_head p /\
    match os with Some s => h = (st_seq s, st_ext s) | None => o = Some h end.
(** A picture with its headers *)
Definition whole_piece (o : option (sseq * ssext)) (h : sseq * ssext) (c : list bool) : Prop :=
  exists p c1 ss, c = c1 ++ concat ss /\ heads o h p c1 /\ ss <> [] /\
    Forall (whole_slice (mkLayer (pd_hdr p) (pd_pce p) (x_chroma (snd h)) (q_vertical (fst h)))) ss.
Inductive whole_stream : option (sseq * ssext) -> option (sseq * ssext) -> list bool -> Prop :=
| whole_nil : forall o, whole_stream o o []
| whole_cons : forall o h o' c d, whole_piece o h c -> whole_stream (Some h) o' d -> whole_stream o o' (c ++ d).
(** Headers, and then an unsupported extension, or slices on which the decoder panics *)
Definition sure_piece (o : option (sseq * ssext)) (d : list bool) : Prop :=
  meets_unsupported (match o with Some _ => true | None => false end) d \/
  exists h p c1 d1, d = c1 ++ d1 /\ heads o h p c1 /\ sure_picture h (pd_hdr p) (pd_pce p) d1.
Definition sure_stream (d : list bool) : Prop :=
  exists o c d1, d = c ++ d1 /\ whole_stream None o c /\ sure_piece o d1.
