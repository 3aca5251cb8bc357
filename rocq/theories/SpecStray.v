(** SpecStray: what there is in an I, P or B picture on which the decoder panics, given the frames it is predicted from - a
    description of the stream alone.  SpecPanic says it for I pictures without concealment vectors only. *)
From Verif Require Import Base SpecVid SpecVlc SpecBlock SpecMotion SpecNext SpecStore SpecPicture SpecSyntax SpecPanic SpecCertain SpecRules.

(** * Macroblocks *)

(** mb_code up to coded_block_pattern, or up to the blocks if there is none: the blocks of [b] do not matter. *)
Definition head_code (P : params) (s : pstate) (b : smb) (c : list bool) : Prop :=
  let e := pp_pce P in
  let s := ps_before P s b in
  let motion := is_forward b || some (b_backward b) in
  exists c_incr c_type c_fwd c_bwd,
    incr_code (b_incr b) c_incr /\
    mbt_code (type_table (pp_type P)) c_type (some (b_quant b), is_forward b, some (b_backward b), is_coded b, is_intra b) /\
    opt_vector (e_f00 e) (e_f01 e) (ps_fwd s) (b_forward b) c_fwd /\
    opt_vector (e_f10 e) (e_f11 e) (ps_bwd s) (b_backward b) c_bwd /\
    c = c_incr ++ c_type ++
        (if motion && negb (e_fpfd e) then enc 2 2 else []) ++
        (if negb (e_fpfd e) && (is_intra b || is_coded b) then [field_dct (b_body b)] else []) ++
        (match b_quant b with Some q => enc 5 q | None => [] end) ++ c_fwd ++ c_bwd ++
        (if is_intra b && e_conceal e then [true] else []).
(** What makes the decoder panic where a macroblock begins, with the bits [c] from there on; [addr] is the address of the one
    before in its row (-1: none), [s] the state before it. *)
Inductive mb_stray (y : layer) (P : params) (row addr : Z) (s : pstate) (c : list bool) : Prop :=
| stray_address : forall n c1 c2, c = c1 ++ c2 -> incr_code n c1 -> pp_w P < 16 * (addr + n) + 16 ->       (* beyond the row *)
    mb_stray y P row addr s c
| stray_skipped_size : forall n c1 c2 past, c = c1 ++ c2 -> incr_code n c1 -> 0 <= addr -> 1 < n ->          (* skipped, in a P picture: *)
    pp_type P = 2 -> pp_past P = Is past -> cv_w past <> pp_w P \/ cv_h past <> pp_h P ->                    (* the reference has another size *)
    mb_stray y P row addr s c
| stray_skipped : forall n c1 c2 col, c = c1 ++ c2 -> incr_code n c1 -> 0 <= addr -> pp_type P = 3 ->        (* skipped, in a B picture: *)
    addr < col < addr + n -> outside P row col (past_of P s) \/ outside P row col (future_of P s) ->         (* the vector of the one before *)
    mb_stray y P row addr s c
| stray_motion : forall n quant forward backward pattern intra mt c_incr c_type c2,                          (* motion types 0 and 3 *)
    c = c_incr ++ c_type ++ enc 2 mt ++ c2 -> incr_code n c_incr ->
    mbt_code (type_table (pp_type P)) c_type (quant, forward, backward, pattern, intra) -> forward || backward = true ->
    e_fpfd (pp_pce P) = false -> mt = 0 \/ mt = 3 ->
    mb_stray y P row addr s c
| stray_vector : forall b c1 c2, c = c1 ++ c2 -> formed P b -> head_code P s b c1 ->                                        (* its own vectors *)
    outside P row (addr + b_incr b) (past_of P (ps_after P s b)) \/ outside P row (addr + b_incr b) (future_of P (ps_after P s b)) ->
    mb_stray y P row addr s c
| stray_block : forall b cbp k c1 c2 c3 c4 c5, c = c1 ++ c2 ++ c3 ++ c4 ++ c5 -> formed P b -> head_code P s b c1 ->        (* more than 64 coefficients *)
    only_if (is_coded b) (fun c => cbp_code c cbp) c2 ->
    let coded := coded_blocks y (is_intra b) (if is_coded b then cbp else 0) in
    nth_error coded k = Some true -> blocks_syn y (is_intra b) 0 (firstn k coded) c3 -> over y (is_intra b) k c4 ->
    mb_stray y P row addr s c.

(** * Slices *)

(** A slice that begins below the picture; or, after any number of right macroblocks, such a one *)
Definition slice_stray (y : layer) (P : params) (c : list bool) : Prop :=
  exists row c1, 0 <= row < 175 /\ c = code (row + 1) ++ c1 /\
    (pp_h P < 16 * row + 16 \/
     exists q fl mbs c2 c3, 0 <= q < 32 /\ match fl with Some (_, extra) => bytes extra | None => True end /\
       c1 = enc 5 q ++ flags_code fl ++ c2 ++ c3 /\ mbs_code P row (-1) (ps_start P q) mbs c2 /\
       let '(addr, s) := after_mbs P (-1) (ps_start P q) mbs in mb_stray y P row addr s c3).
(** In the slices of a picture: in one of them, after any number of right ones *)
Definition slices_stray (y : layer) (P : params) (c : list bool) : Prop :=
  exists c1 c2, c = c1 ++ c2 /\ (c1 = [] \/ exists ls, slices_code P ls c1) /\ slice_stray y P c2.

(** * Streams *)

(** [sh], coded after the pictures [before], with all that follows in the stream as its data: in the slices there is something
    on which the decoder panics, or they break a rule and what then happens is another matter.  [s_frame sh] means nothing. *)
Definition stray (before : list shot) (sh : shot) : Prop :=
  forall past future, let P := shot_params sh past future in
  described sh -> reference_frames before sh past future ->
  slices_stray (shot_layer sh) P (s_data sh) \/ slices_wrong (shot_layer sh) P (s_data sh).
(** Headers as before a picture, and then an extension that the decoder does not support *)
Definition stopped_at (o : option context) (c : list bool) : Prop :=
  exists c0 c1 d1, c = c0 ++ c1 ++ d1 /\ match o with None => gap c0 | Some _ => c0 = [] end /\
    ((exists k1, start_ctx c1 k1 /\ unsupported false d1) \/
     exists k1 k2 k3 c2 p e g1 g2 c3 d2, (start_ctx c1 k1 \/ (o = Some k1 /\ c1 = [])) /\ (group_ctx k1 c2 k2 \/ (c2 = [] /\ k2 = k1)) /\
       wf_pic p /\ wf_pce e /\ gap g1 /\ gap g2 /\ items_ctx 2 k2 c3 k3 /\
       d1 = c2 ++ enc_pic p ++ g1 ++ enc_pce e ++ g2 ++ c3 ++ d2 /\ unsupported true d2).
(** The headers in force after pictures *)
Definition in_force (shs : list shot) : option context := match rev shs with [] => None | sh :: _ => Some (s_ctx sh) end.
