(** SpecRules: what can be wrong with a picture's data (as a list of broken rules of ISO/IEC 13818-2), and the
    pictures of a stream in coding order with what was in force for each - independently of the model's functions.
    What pictures stand for is as in SpecPicture: matrices in the order the decoder takes them (C66), predictions
    rounded down (C70). *)
From Verif Require Import Base SpecVid SpecVlc SpecBlock SpecMotion SpecNext SpecStore SpecPicture SpecSyntax VidModel.

(** * Broken rules *)

(** A prediction needs samples the reference does not have: the reference has another size, or the vector leads out
    of it for one of the six blocks. *)
Definition outside (P : params) (row col : Z) (ref : option (canvas * (Z * Z))) : Prop :=
  match ref with
  | Some (c, mv) => cv_w c <> pp_w P \/ cv_h c <> pp_h P \/ exists i, 0 <= i < 6 /\ ~ vector_in (pp_w P) (pp_h P) i row col mv
  | None => False
  end.
(** The rules a macroblock [b] breaks; [addr] is the address of the one before in its row (-1: none), [s] the state
    before it. *)
Inductive breaks (P : params) (row addr : Z) (s : pstate) (b : smb) : Prop :=
| quantiser_zero : b_quant b = Some 0 -> breaks P row addr s b                                  (* 6.3.17: quantiser_scale_code 0 *)
| address_outside : pp_w P < 16 * (addr + b_incr b) + 16 -> breaks P row addr s b               (* 6.3.17.1: beyond the row *)
| dc_outside : forall f blocks x, b_body b = Intra f blocks -> In x blocks ->                    (* 7.2.1: the DC value out of range *)
    ~ 0 <= fst x < 2 ^ (8 + e_dc (pp_pce P)) -> breaks P row addr s b
| past_outside : outside P row (addr + b_incr b) (past_of P (ps_after P s b)) -> breaks P row addr s b      (* 7.6.3.8: vectors *)
| future_outside : outside P row (addr + b_incr b) (future_of P (ps_after P s b)) -> breaks P row addr s b
| skipped_intra : 0 <= addr -> 1 < b_incr b -> pp_type P = 1 -> breaks P row addr s b            (* 6.3.17.1: skipped in an I picture *)
| skipped_size : forall c, 0 <= addr -> 1 < b_incr b -> pp_type P = 2 -> pp_past P = Is c ->      (* 7.6.6.2: the reference has another size *)
    cv_w c <> pp_w P \/ cv_h c <> pp_h P -> breaks P row addr s b
| skipped_outside : forall col, 0 <= addr -> pp_type P = 3 -> addr < col < addr + b_incr b ->     (* 7.6.6.4 *)
    outside P row col (past_of P s) \/ outside P row col (future_of P s) -> breaks P row addr s b.

(** Macroblocks that the syntax has, or the decoder takes, but SpecPicture does not describe, of a frame picture without
    frame_pred_frame_dct: with field prediction (frame_motion_type 1), or with field DCT in a predicted macroblock *)
Definition field_mb (y : layer) (c : list bool) : Prop :=
  y_fpfd y = false /\ exists n quant forward backward pattern intra c_incr c_type,
    incr_code n c_incr /\ mbt_code (type_table (y_type y)) c_type (quant, forward, backward, pattern, intra) /\
    ((forward || backward = true /\ c = c_incr ++ c_type ++ enc 2 1) \/
     (pattern = true /\ c = c_incr ++ c_type ++ (if forward || backward then enc 2 2 else []) ++ [true])).
(** What a macroblock consists of *)
Definition formed (P : params) (b : smb) : Prop :=
  (is_intra b = true -> some (b_forward b) = e_conceal (pp_pce P)) /\
  match b_quant b with Some q => 0 <= q < 32 | None => True end /\
  match b_body b with
  | Intra f blocks => length blocks = 6%nat /\ (e_fpfd (pp_pce P) = true -> f = false)
  | Coded blocks => length blocks = 6%nat
  | NotCoded => True
  end.
(** Something is wrong where a macroblock begins, with the bits [c] from there on. *)
Definition mb_wrong (y : layer) (P : params) (row addr : Z) (s : pstate) (c : list bool) : Prop :=
  exists c1 c2, c = c1 ++ c2 /\
    ((exists b, formed P b /\ mb_code P s b c1 /\ breaks P row addr s b) \/ field_mb y c1 \/ mb_cut y c1).
(** Address and state after macroblocks *)
Fixpoint after_mbs (P : params) (addr : Z) (s : pstate) (mbs : list smb) : Z * pstate :=
  match mbs with [] => (addr, s) | b :: mbs => after_mbs P (addr + b_incr b) (ps_after P s b) mbs end.
(** In a slice: its row below the picture, quantiser_scale_code 0, or - after any number of right macroblocks - a
    macroblock *)
Definition slice_wrong (y : layer) (P : params) (c : list bool) : Prop :=
  exists row q fl c1, 0 <= row < 175 /\ 0 <= q < 32 /\
    match fl with Some (_, extra) => bytes extra | None => True end /\
    c = code (row + 1) ++ enc 5 q ++ flags_code fl ++ c1 /\
    (pp_h P < 16 * row + 16 \/ q = 0 \/
     exists mbs c2 c3, c1 = c2 ++ c3 /\ mbs_code P row (-1) (ps_start P q) mbs c2 /\
       let '(addr, s) := after_mbs P (-1) (ps_start P q) mbs in mb_wrong y P row addr s c3).
(** In the slices of a picture: in one of them, after any number of right ones *)
Definition slices_wrong (y : layer) (P : params) (c : list bool) : Prop :=
  exists c1 c2, c = c1 ++ c2 /\ (c1 = [] \/ exists ls, slices_code P ls c1) /\ slice_wrong y P c2.

(** * The pictures of a stream *)

(** A picture: whether a group header came with it, the sequence headers and matrices in force for it, its headers,
    the bits of its slices and the frame that was made of it *)
Record shot : Type := mkShot { s_group : bool; s_ctx : context; s_hdr : spic; s_pce : spce; s_data : list bool; s_frame : image }.
(** Extensions and user data, which may carry new matrices *)
Definition items_ctx (i : Z) (k : context) (c : list bool) (k' : context) : Prop :=
  exists xs cs, Forall2 xitem_syn xs cs /\ Forall (allowed i) xs /\ c = concat cs /\ k' = ctx_items k xs.
(** Sequence header and extension: their matrices, or the standard ones *)
Definition start_ctx (c : list bool) (k : context) : Prop :=
  exists s x g1 g2 c3, wf_seq s /\ wf_sext x /\ gap g1 /\ gap g2 /\ c = enc_seq s ++ g1 ++ enc_sext x ++ g2 ++ c3 /\
    items_ctx 0 (ctx_start (mkStart s 0 x 0 [])) c3 k.
Definition group_ctx (k : context) (c : list bool) (k' : context) : Prop :=
  exists g gp c2, wf_gop g /\ gap gp /\ c = enc_gop g ++ gp ++ c2 /\ items_ctx 1 k c2 k'.
(** The bits of a picture with the headers before it; [o] is what was in force before. *)
Definition shot_bits (o : option context) (sh : shot) (c : list bool) : Prop :=
  exists c0 c1 c2 g1 g2 c3 k1 k2,
    c = c0 ++ c1 ++ c2 ++ enc_pic (s_hdr sh) ++ g1 ++ enc_pce (s_pce sh) ++ g2 ++ c3 ++ s_data sh /\
    match o with None => gap c0 | Some _ => c0 = [] end /\
    (start_ctx c1 k1 \/ (o = Some k1 /\ c1 = [])) /\
    (if s_group sh then group_ctx k1 c2 k2 else c2 = [] /\ k2 = k1) /\
    wf_pic (s_hdr sh) /\ wf_pce (s_pce sh) /\ gap g1 /\ gap g2 /\ items_ctx 2 k2 c3 (s_ctx sh).
Inductive shots_bits : option context -> list shot -> list bool -> Prop :=
| shots_nil : forall o, shots_bits o [] []
| shots_cons : forall o sh shs c d, shot_bits o sh c -> shots_bits (Some (s_ctx sh)) shs d -> shots_bits o (sh :: shs) (c ++ d).

(** ** References (SpecStore) *)
Definition s_type (sh : shot) : Z := p_type (s_hdr sh).
Definition opening (sh : shot) : list happening := if s_group sh then [NewGroup] else [].
Definition happened (sh : shot) : list happening :=
  opening sh ++ [if (s_type sh =? 1) || (s_type sh =? 2) then Reference (s_frame sh) (p_tr (s_hdr sh)) else Bidirectional (p_tr (s_hdr sh))].
Definition history (shs : list shot) : list happening := flat_map happened shs.
(** What [sh] is to be predicted from, coded after the pictures [before]: an I picture from nothing, a P picture from the
    frame before it in display order, a B picture from that and the frame after it; the order of coding being right. *)
Definition reference_frames (before : list shot) (sh : shot) (past future : known) : Prop :=
  let h := history before ++ opening sh in
  let x := (group_after h, p_tr (s_hdr sh)) in
  (s_type sh <> 1 -> coding_order h x) /\
  (if s_type sh =? 1 then past = Unknown else exists f c, nearest_before (refs h) x f /\ looks f c /\ past = Is c) /\
  (if s_type sh =? 3 then exists f c, nearest_after (refs h) x f /\ looks f c /\ future = Is c else future = Unknown).
Definition shot_params (sh : shot) (past future : known) : params :=
  let k := s_ctx sh in
  mkParams (s_type sh) (s_pce sh) (c_m0 k) (c_m1 k)
    (whole (4096 * x_h (c_ext k) + q_horizontal (c_seq k))) (whole (4096 * x_v (c_ext k) + q_vertical (c_seq k))) past future.
Definition shot_layer (sh : shot) : layer := mkLayer (s_hdr sh) (s_pce sh) (x_chroma (c_ext (s_ctx sh))) (q_vertical (c_seq (s_ctx sh))).
(** A 4:2:0 picture of at most 2800 lines *)
Definition plain (sh : shot) : Prop :=
  let k := s_ctx sh in
  x_chroma (c_ext k) = 1 /\ 0 < 4096 * x_h (c_ext k) + q_horizontal (c_seq k) /\ 0 < 4096 * x_v (c_ext k) + q_vertical (c_seq k) <= 2800.
(** What SpecPicture describes: I, P and B frame pictures whose f_codes are not 0 *)
Definition described (sh : shot) : Prop :=
  let e := s_pce sh in
  plain sh /\ 1 <= s_type sh <= 3 /\ e_struct e = 3 /\ (e_conceal e = true -> e_fpfd e = true) /\
  e_f00 e <> 0 /\ e_f01 e <> 0 /\ e_f10 e <> 0 /\ e_f11 e <> 0.
(** The frame of [sh] is right: it shows what the bits stand for, unless they break one of the rules. *)
Definition right (before : list shot) (sh : shot) : Prop :=
  forall past future, let P := shot_params sh past future in
  described sh -> reference_frames before sh past future ->
  (exists ls, slices_code P ls (s_data sh) /\ looks (s_frame sh) (picture_paint P ls)) \/ slices_wrong (shot_layer sh) P (s_data sh).
