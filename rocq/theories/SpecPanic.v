(** SpecPanic: what there is in a stream on which the decoder panics - a description of the stream alone. *)
From Verif Require Import Base SpecVid SpecVlc SpecBlock SpecMotion SpecPicture SpecSyntax.

(** Extensions that the decoder says it does not support: the sequence scalable extension (id 5) after a sequence header,
    the copyright, picture display and picture spatial scalable extensions (ids 4, 7, 9) after a picture header *)
Definition unsupported (after_picture : bool) (d : list bool) : Prop :=
  exists id t, d = code extension_code ++ enc 4 id ++ t /\
    if after_picture then In id [4; 7; 9] else id = 5 /\ (6 <= length t)%nat.

(** A macroblock of an I picture without concealment vectors, with this address increment: what comes before its blocks
    (6.2.5), and all of it *)
Definition intra_head (y : layer) (n : Z) (c : list bool) : Prop :=
  exists quant c_incr c_type c_dct c_quant, c = c_incr ++ c_type ++ c_dct ++ c_quant /\
    incr_code n c_incr /\ mbt_code b2 c_type (quant, false, false, false, true) /\
    only_if (y_frame y && negb (y_fpfd y)) (width 1) c_dct /\ only_if quant (width 5) c_quant.
Definition intra_mb (y : layer) (n : Z) (c : list bool) : Prop :=
  exists c1 c2, c = c1 ++ c2 /\ intra_head y n c1 /\ blocks_syn y true 0 (repeat true (y_blocks y)) c2.
(** Block [k], up to the run/level code with which it has more than 64 coefficients *)
Definition overfull (y : layer) (k : nat) (c : list bool) : Prop :=
  exists d c1 rls c2, c = c1 ++ c2 /\ dc_code (Nat.ltb k 4) c1 d /\ syms (e_vlc (y_pce y)) 1 rls c2 /\
    (63 < length (expand rls))%nat.
(** After the macroblock at address [a] of its row (the first one is at 0) comes one whose address is at least [limit], or in
    which a block has more than 64 coefficients *)
Definition bad_mb (y : layer) (limit a : Z) (d : list bool) : Prop :=
  exists n c1 d1, d = c1 ++ d1 /\ intra_head y n c1 /\
    (limit <= a + n \/
     exists k c2 c3 t, (k < y_blocks y)%nat /\ d1 = c2 ++ c3 ++ t /\ blocks_syn y true 0 (repeat true k) c2 /\ overfull y k c3).
(** In a picture of [w] by [h] macroblocks, a slice that begins below the picture; or one with a bad macroblock.  The decoder
    does not look at the right edge of the picture but at the end of the sample arrays, first at those of the chroma planes:
    what is to the right goes to the next lines, eight of them per row of macroblocks. *)
Definition bad_slice (y : layer) (w h row : Z) (t : list bool) : Prop :=
  h + 1 < row \/
  exists ext q flags (ms : list (Z * list bool)) d, t = ext ++ q ++ flags_code flags ++ concat (map snd ms) ++ d /\
    only_if (2800 <? y_vertical y) (width 3) ext /\ width 5 q /\
    match flags with Some (_, extra) => bytes extra | None => True end /\
    Forall (fun m => intra_mb y (fst m) (snd m)) ms /\
    bad_mb y (w * (8 * (h - row) + 1)) (-1 + fold_right Z.add 0 (map fst ms)) d.

(** Samples to macroblocks (6.3.3); the sizes have twelve bits in the header and two in its extension *)
Definition mbs (n : Z) : Z := (n + 15) / 16.
Definition stream_w (h : sseq * ssext) : Z := mbs (4096 * x_h (snd h) + q_horizontal (fst h)).
Definition stream_h (h : sseq * ssext) : Z := mbs (4096 * x_v (snd h) + q_vertical (fst h)).

(** The slices [d] of a picture, of which some are as they should be, and then there is a bad one; or the picture is not an I
    picture, or it is one with concealment vectors, or the chroma format is 4:2:2 or 4:4:4. *)
Definition bad_picture (h : sseq * ssext) (p : spic) (e : spce) (d : list bool) : Prop :=
  let y := mkLayer p e (x_chroma (snd h)) (q_vertical (fst h)) in
  exists ss row t, d = concat ss ++ code row ++ t /\ 1 <= row <= 175 /\
    Forall (slice_syn (fun c => mb_syn y c \/ mb_cut y c) y) ss /\
    (y_type y <> 1 \/ e_conceal e = true \/ y_chroma y = 2 \/ y_chroma y = 3 \/
     bad_slice y (stream_w h) (stream_h h) row t).

(** A group of pictures header or none, picture headers, and then an extension that is not supported, or a bad picture *)
Definition bad_coded_picture (h : sseq * ssext) (d : list bool) : Prop :=
  exists c2 p e g1 g2 c3 d1, (group_syn c2 \/ c2 = []) /\ wf_pic p /\ wf_pce e /\ gap g1 /\ gap g2 /\ xitems_syn 2 c3 /\
    d = c2 ++ enc_pic p ++ g1 ++ enc_pce e ++ g2 ++ c3 ++ d1 /\
    (unsupported true d1 \/ bad_picture h p e d1).
(** The same for a piece of the stream, see piece_syn; [o]: the sequence headers before it *)
Definition bad_piece (o : option (sseq * ssext)) (d : list bool) : Prop :=
  exists c0 h c1 d1, d = c0 ++ c1 ++ d1 /\
    match o with None => gap c0 | Some _ => c0 = [] end /\
    ((start_syn h c1 /\ (unsupported false d1 \/ bad_coded_picture h d1)) \/
     (o = Some h /\ c1 = [] /\ bad_coded_picture h d1)).
(** Pieces that follow the syntax, and then a bad one *)
Definition bad_stream (o : option (sseq * ssext)) (d : list bool) : Prop :=
  exists o' c d1, d = c ++ d1 /\ stream_syn (fun y c => mb_syn y c \/ mb_cut y c) o o' c /\ bad_piece o' d1.
