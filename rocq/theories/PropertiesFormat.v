(** PropertiesFormat: C84 - concealment motion vectors; C85 - chroma formats; C86 - field pictures. *)
From Coq Require Import Lia Permutation.
From Verif Require Import Base BitReader VidModel SpecVid SpecVlc SpecBlock SpecMotion SpecNext SpecPicture BlockModel MbModel Exec TsRobust NextProofs SliceProofs PropertiesVidHeaders ExampleStream FormatProofs PropertiesNext.

(** ** C84: concealment motion vectors do no harm. *)

(** The same picture without concealment vectors *)
Definition no_vectors (e : spce) : spce :=
  mkSpce (e_f00 e) (e_f01 e) (e_f10 e) (e_f11 e) (e_dc e) (e_struct e) (e_tff e) (e_fpfd e) false (e_qtype e) (e_vlc e) (e_alt e) (e_rff e) (e_c420 e) (e_prog e) (e_comp e).
Definition plain (P : params) : params :=
  mkParams (pp_type P) (no_vectors (pp_pce P)) (pp_intra P) (pp_non_intra P) (pp_w P) (pp_h P) (pp_past P) (pp_future P).
Definition plain_mb (b : smb) : smb := mkMb (b_incr b) (b_quant b) None (b_backward b) (b_body b).
Definition plain_slice (l : sslice) : sslice := mkSlice (sl_row l) (sl_q l) (sl_flags l) (map plain_mb (sl_mbs l)) (sl_k l).

(** In an I picture every macroblock is intra ... *)
Lemma I_mb : forall P s b c, pp_type P = 1 -> mb_code P s b c -> is_intra b = true.
Proof.
  intros P s b c T (ci & ct & cf & cb & cd & _ & H & _). rewrite T in H. destruct H as (v & n & H & _).
  destruct H as [H | [H | [] ] ]; now apply (f_equal snd) in H; inversion H.
Qed.
(** ... and its samples do not depend on vectors. *)
Lemma plain_mbs : forall P row, pp_type P = 1 -> forall mbs addr s s' c cv, mbs_code P row addr s mbs c -> -1 <= addr ->
  ps_dc s' = ps_dc s -> ps_q s' = ps_q s ->
  mbs_paint (plain P) row addr s' (map plain_mb mbs) cv = mbs_paint P row addr s mbs cv.
Proof.
  intros P row T. induction mbs as [|b mbs IH]; intros addr s s' c cv H A D Q; [reflexivity|]. cbn [mbs_code] in H. destruct H as (O & c1 & c2 & -> & C & H).
  pose proof (I_mb P s b c1 T C) as I. destruct O as (O1 & _ & _ & _ & _ & _ & _ & _ & O9).
  assert (D2 : ps_dc (ps_after (plain P) s' (plain_mb b)) = ps_dc (ps_after P s b)).
  { unfold ps_after, ps_before. cbn [plain_mb b_incr b_quant b_body ps_dc plain pp_pce e_dc no_vectors is_intra]. unfold is_intra in *. cbn [plain_mb b_body]. rewrite D. destruct (b_body b); reflexivity. }
  assert (Q2 : ps_q (ps_after (plain P) s' (plain_mb b)) = ps_q (ps_after P s b)).
  { unfold ps_after, ps_before. cbn [plain_mb b_quant ps_q]. now rewrite Q. }
  assert (K : (if addr =? -1 then cv else paint_skipped P row (addr + 1) (b_incr b - 1) s cv) = cv).
  { destruct (Z.eqb_spec addr (-1)); [reflexivity|]. unfold paint_skipped. destruct (Z.leb_spec (b_incr b - 1) 0); [reflexivity|].
    destruct O9 as (O9 & _); [lia | lia | congruence]. }
  assert (K' : (if addr =? -1 then cv else paint_skipped (plain P) row (addr + 1) (b_incr b - 1) s' cv) = cv).
  { destruct (Z.eqb_spec addr (-1)); [reflexivity|]. unfold paint_skipped. destruct (Z.leb_spec (b_incr b - 1) 0); [reflexivity|].
    destruct O9 as (O9 & _); [lia | lia | congruence]. }
  cbn [map mbs_paint]. change (b_incr (plain_mb b)) with (b_incr b). rewrite K, K'.
  assert (E : paint_mb (plain P) row (addr + b_incr b) (ps_after (plain P) s' (plain_mb b)) (plain_mb b) cv = paint_mb P row (addr + b_incr b) (ps_after P s b) b cv).
  { unfold paint_mb. rewrite Q2. change (b_body (plain_mb b)) with (b_body b).
    assert (N : forall P s x, is_intra x = true -> past_of P (ps_after P s x) = None /\ future_of P (ps_after P s x) = None).
    { intros P0 s0 x Ix. unfold past_of, future_of, ps_after. cbn [ps_dirs]. rewrite Ix. split; reflexivity. }
    destruct (N P s b I) as (-> & ->). destruct (N (plain P) s' (plain_mb b) I) as (-> & ->). reflexivity. }
  rewrite E. apply (IH _ _ _ c2); [exact H | lia | exact D2 | exact Q2].
Qed.
Lemma plain_slices : forall P, pp_type P = 1 -> forall ls c, slices_code P ls c -> forall cv,
  fold_left (fun c l => slice_paint (plain P) l c) (map plain_slice ls) cv = fold_left (fun c l => slice_paint P l c) ls cv.
Proof.
  intros P T ls c H.
  assert (G : forall l c cv, slice_code P l c -> slice_paint (plain P) (plain_slice l) cv = slice_paint P l cv).
  { intros l d cv (_ & _ & _ & _ & _ & c1 & M & _). unfold slice_paint. cbn [plain_slice sl_row sl_mbs sl_q]. apply (plain_mbs P (sl_row l) T _ _ _ _ c1); [exact M | lia | reflexivity | reflexivity]. }
  induction H as [l c H | l ls c d H _ IH]; intro cv; cbn [map fold_left]; rewrite (G l c cv H); [reflexivity | apply IH].
Qed.

(** A picture with concealment vectors and frame_pred_frame_dct (that is what [picture_coded] asks for) decodes to
    the frame that the specification says - vectors of intra macroblocks only serve as predictions of other
    vectors - and an I picture to the same frame as without its vectors. *)
Theorem C84_concealment_partial : forall c o l p, picture_coded c o l p -> e_conceal (pi_pce p) = true ->
  picture_decodes c o l p /\
  (p_type (pi_hdr p) = 1 -> exists ls, slices_code (params_of c o l p) ls (pi_data p) /\
     pi_frame p = picture_paint (plain (params_of c o l p)) (map plain_slice ls)).
Proof.
  intros c o l p H _. split; [now apply coded_decodes|]. intro T. destruct H as (_ & _ & _ & _ & _ & _ & _ & ls & H & F).
  exists ls. split; [exact H|]. rewrite F. unfold picture_paint. symmetry. exact (plain_slices (params_of c o l p) T ls _ H _).
Qed.

(** Two pictures of three macroblocks, I and P, with concealment vectors.  In the P picture the vector of the second
    macroblock is coded as a difference of 0 to the concealment vector of the first. *)
Definition cm_pce (fpfd : bool) : spce := mkSpce 1 1 1 1 0 3 true fpfd true false false false false true true None.
Definition cm_type (fpfd : bool) (t : Z) (past : known) : params := mkParams t (cm_pce fpfd) std_intra_matrix std_non_intra_matrix 48 16 past Unknown.
Definition up2 : list bool := (enc 3 1 ++ [false]) ++ enc 1 1.
Definition same_vector : list bool := enc 1 1 ++ enc 1 1.
Definition down4 : list bool := (enc 6 3 ++ [true]) ++ enc 1 1.
Definition cm_i_mbs : list smb := [
  mkMb 1 None (Some (2, 0)) None (Intra false (flat 131 128 128));
  mkMb 1 None (Some (2, 0)) None (Intra false (flat 131 128 128));
  mkMb 1 None (Some (-2, 0)) None (Intra false (flat 131 128 128))].
Definition cm_p_mbs : list smb := [
  mkMb 1 None (Some (2, 0)) None (Intra false (flat 131 128 128));
  mkMb 1 None (Some (2, 0)) None NotCoded;
  mkMb 1 None (Some (-2, 0)) None NotCoded].
Definition first_bits : list bool := ((enc 2 1 ++ enc 2 3) ++ b14_eob) ++ (dc0l ++ b14_eob) ++ (dc0l ++ b14_eob) ++ (dc0l ++ b14_eob) ++ (dc0c ++ b14_eob) ++ (dc0c ++ b14_eob).
Definition dct_bit (fpfd : bool) : list bool := if fpfd then [] else [false].
Definition cm_i_bits (fpfd : bool) : list bool :=
  (enc 1 1 ++ enc 1 1 ++ dct_bit fpfd ++ up2 ++ [true] ++ first_bits) ++
  (enc 1 1 ++ enc 1 1 ++ dct_bit fpfd ++ same_vector ++ [true] ++ flat_bits) ++
  (enc 1 1 ++ enc 1 1 ++ dct_bit fpfd ++ down4 ++ [true] ++ flat_bits).
Definition cm_p_bits : list bool :=
  (enc 1 1 ++ enc 5 3 ++ up2 ++ [true] ++ first_bits) ++ (enc 1 1 ++ enc 3 1 ++ same_vector) ++ (enc 1 1 ++ enc 3 1 ++ down4).
Definition cm_i_slice : sslice := mkSlice 0 5 None cm_i_mbs 1.
Definition cm_p_slice : sslice := mkSlice 0 5 None cm_p_mbs 1.

Lemma cm_up2 : pair_code 1 1 (0, 0) (2, 0) up2.
Proof. exists (enc 3 1 ++ [false]), (enc 1 1). split; [reflexivity|]. split; [unfold mv_range, mv_f; cbn; lia|]. split; [unfold mv_range, mv_f; cbn; lia|]. split; [apply (up_vector 0 2 (enc 3 1)); [lia | has_tac] | apply zero_vector]. Qed.
Lemma two_vector : vector_code 1 2 2 (enc 1 1).
Proof. exists 0, 0. split; [apply delta_zero; left; split; [reflexivity | has_tac] | reflexivity]. Qed.
Lemma cm_same : pair_code 1 1 (2, 0) (2, 0) same_vector.
Proof. exists (enc 1 1), (enc 1 1). split; [reflexivity|]. split; [unfold mv_range, mv_f; cbn; lia|]. split; [unfold mv_range, mv_f; cbn; lia|]. split; [apply two_vector | apply zero_vector]. Qed.
Lemma cm_down4 : pair_code 1 1 (2, 0) (-2, 0) down4.
Proof. exists (enc 6 3 ++ [true]), (enc 1 1). split; [reflexivity|]. split; [unfold mv_range, mv_f; cbn; lia|]. split; [unfold mv_range, mv_f; cbn; lia|]. split; [apply (down_vector 2 4 (enc 6 3)); [lia | has_tac] | apply zero_vector]. Qed.
Lemma first_code : forall P p, e_vlc (pp_pce P) = false -> p 0%nat = 128 -> p 1%nat = 128 -> p 2%nat = 128 ->
  intra_code P p 0 (flat 131 128 128) first_bits.
Proof.
  intros P p V H0 H1 H2. cbn [intra_code flat]. rewrite V. unfold first_bits.
  exists (enc 2 1 ++ enc 2 3), b14_eob. eexists. split; [rewrite <- !app_assoc; reflexivity|]. cbn [component]. rewrite H0.
  split; [exists 2, (enc 2 1); split; [split; [lia | has_tac]|]; cbn; split; [lia | reflexivity]|]. split; [apply empty_from; lia|].
  exists dc0l, b14_eob. eexists. split; [reflexivity|]. split; [apply (xs_dc0 1); lia|]. split; [apply empty_from; lia|].
  exists dc0l, b14_eob. eexists. split; [reflexivity|]. split; [apply (xs_dc0 2); lia|]. split; [apply empty_from; lia|].
  exists dc0l, b14_eob. eexists. split; [reflexivity|]. split; [apply (xs_dc0 3); lia|]. split; [apply empty_from; lia|].
  exists dc0c, b14_eob. eexists. split; [reflexivity|]. change (set_dc _ _ _ 1%nat) with (p 1%nat). rewrite H1. split; [apply (xs_dc0 4); lia|]. split; [apply empty_from; lia|].
  exists dc0c, b14_eob, []. split; [reflexivity|]. change (set_dc _ _ _ 2%nat) with (p 2%nat). rewrite H2. split; [apply (xs_dc0 5); lia|]. split; [apply empty_from; lia|].
  reflexivity.
Qed.
Lemma cm_flat_ok : forall P, e_dc (pp_pce P) = 0 -> body_ok P (Intra false (flat 131 128 128)).
Proof.
  intros P H2. cbn [body_ok]. rewrite H2. split; [reflexivity|]. split; [auto|]. unfold flat.
  repeat (apply Forall_cons; [cbn; split; [lia|]; split; [constructor | lia]|]). apply Forall_nil.
Qed.
Lemma cm_i_code : forall fpfd past, slice_code (cm_type fpfd 1 past) cm_i_slice (slice_bits cm_i_slice (cm_i_bits fpfd)).
Proof.
  intros fpfd past. unfold slice_code, cm_i_slice, slice_bits. cbn [sl_row sl_q sl_flags sl_mbs sl_k].
  split; [lia|]. split; [cbn; lia|]. split; [lia|]. split; [discriminate|]. split; [exact I|]. eexists. split; [|reflexivity].
  unfold cm_i_mbs, cm_i_bits. set (P := cm_type fpfd 1 past). cbn [mbs_code].
  split; [|eexists _, _; split; [reflexivity|]; split; [|split; [|eexists _, _; split; [reflexivity|]; split; [|split; [|eexists _, []; split; [symmetry; apply app_nil_r|]; split; [|reflexivity] ] ] ] ] ].
  1, 3, 5: split; [cbn; lia|]; split; [unfold mb_in; cbn; lia|]; split; [now apply cm_flat_ok|];
    split; [now intros|]; split; [exact I|]; split; [split; discriminate|]; split; [exact I|]; split; [exact I|]; cbn; lia.
  - exists (enc 1 1), (enc 1 1), up2, [], first_bits. split; [apply xs_incr1|]. split; [exists 1, 1; split; [cbn; auto | reflexivity]|].
    split; [apply cm_up2|]. split; [reflexivity|]. split; [now apply first_code | subst P; destruct fpfd; reflexivity].
  - exists (enc 1 1), (enc 1 1), same_vector, [], flat_bits. split; [apply xs_incr1|]. split; [exists 1, 1; split; [cbn; auto | reflexivity]|].
    split; [apply cm_same|]. split; [reflexivity|]. split; [now apply flat_code | subst P; destruct fpfd; reflexivity].
  - exists (enc 1 1), (enc 1 1), down4, [], flat_bits. split; [apply xs_incr1|]. split; [exists 1, 1; split; [cbn; auto | reflexivity]|].
    split; [apply cm_down4|]. split; [reflexivity|]. split; [now apply flat_code | subst P; destruct fpfd; reflexivity].
Qed.
Lemma cm_p_code : forall past, sized past -> slice_code (cm_type true 2 (Is past)) cm_p_slice (slice_bits cm_p_slice cm_p_bits).
Proof.
  intros past (SW & SH). unfold slice_code, cm_p_slice, slice_bits. cbn [sl_row sl_q sl_flags sl_mbs sl_k].
  split; [lia|]. split; [cbn; lia|]. split; [lia|]. split; [discriminate|]. split; [exact I|]. eexists. split; [|reflexivity].
  unfold cm_p_mbs, cm_p_bits. set (P := cm_type true 2 (Is past)). cbn [mbs_code].
  split; [|eexists _, _; split; [reflexivity|]; split; [|split; [|eexists _, _; split; [reflexivity|]; split; [|split; [|eexists _, []; split; [symmetry; apply app_nil_r|]; split; [|reflexivity] ] ] ] ] ].
  - split; [cbn; lia|]; split; [unfold mb_in; cbn; lia|]; split; [now apply cm_flat_ok|];
    split; [now intros|]; split; [exact I|]; split; [split; discriminate|]; split; [exact I|]; split; [exact I|]; cbn; lia.
  - exists (enc 1 1), (enc 5 3), up2, [], first_bits. split; [apply xs_incr1|]. split; [exists 3, 5; split; [cbn; tauto | reflexivity]|].
    split; [apply cm_up2|]. split; [reflexivity|]. split; [now apply first_code | reflexivity].
  - split; [cbn; lia|]. split; [unfold mb_in; cbn; lia|]. split; [exact I|].
    split; [discriminate|]. split; [exact I|]. split; [split; cbn; discriminate|]. split; [cbn -[vector_in]; six|]. split; [exact I|]. cbn; lia.
  - exists (enc 1 1), (enc 3 1), same_vector, [], []. split; [apply xs_incr1|]. split; [exists 1, 3; split; [cbn; auto | reflexivity]|].
    split; [apply cm_same|]. split; [reflexivity|]. split; reflexivity.
  - split; [cbn; lia|]. split; [unfold mb_in; cbn; lia|]. split; [exact I|].
    split; [discriminate|]. split; [exact I|]. split; [split; cbn; discriminate|]. split; [cbn -[vector_in]; six|]. split; [exact I|]. cbn; lia.
  - exists (enc 1 1), (enc 3 1), down4, [], []. split; [apply xs_incr1|]. split; [exists 1, 3; split; [cbn; auto | reflexivity]|].
    split; [apply cm_down4|]. split; [reflexivity|]. split; reflexivity.
Qed.

Definition cm_pic (fpfd : bool) (tr t : Z) (l : sslice) (bits : list bool) (f : canvas) : spicture :=
  mkPicture (mkSpic tr t 65535 (false, 7) (false, 7) []) 0 (cm_pce fpfd) 1 [] (slice_bits l bits) f.
Definition cm_i_frame (fpfd : bool) : canvas := picture_paint (cm_type fpfd 1 Unknown) [cm_i_slice].
Definition cm_p_frame : canvas := picture_paint (cm_type true 2 (Is (cm_i_frame true))) [cm_p_slice].
Definition cm_i_pic (fpfd : bool) : spicture := cm_pic fpfd 0 1 cm_i_slice (cm_i_bits fpfd) (cm_i_frame fpfd).
Definition cm_p_pic : spicture := cm_pic true 1 2 cm_p_slice cm_p_bits cm_p_frame.
Definition cm_groups : list sgroup := [mkGroup (Some xs_start) (xs_gop true) 0 [] [cm_i_pic true; cm_p_pic]].
Lemma cm_wf : forall fpfd tr t sl bits f, 0 <= tr < 1024 -> 1 <= t <= 3 -> firstn 32 (slice_bits sl bits) = code 1 -> (length (skipn 32 (slice_bits sl bits)) mod 8 = 0)%nat ->
  wf_picture (cm_pic fpfd tr t sl bits f).
Proof.
  intros fpfd tr t sl bits f H1 H2 H3 H4. destruct (xs_wf tr t sl bits f H1 H2 H3 H4) as (A & _ & C). split; [exact A|]. split; [repeat split; cbn; lia | exact C].
Qed.
Example C84_hyp : sequence_of picture_coded cm_groups /\ Forall (fun p => e_conceal (pi_pce p) = true) (flat_map gr_pics cm_groups).
Proof.
  assert (G : forall t past, 1 <= t <= 3 -> params_ok (cm_type true t past)).
  { intros t past Ht. unfold params_ok, cm_type. cbn [pp_type pp_pce pp_intra pp_non_intra]. cbn [cm_pce e_struct e_conceal e_fpfd e_dc e_f00 e_f01 e_f10 e_f11].
    pose proof std_matrices as (M1 & M2). repeat (split; [lia || reflexivity || assumption|]). apply M2. }
  split; [|repeat constructor]. split; [|split].
  - apply Forall_cons; [|apply Forall_nil]. split; [apply xs_start_wf|]. split; [repeat split; cbn; lia|]. split; [constructor|]. split; [constructor|].
    cbn [gr_pics]. apply Forall_cons; [apply cm_wf; [lia | lia | reflexivity | reflexivity]|]. apply Forall_cons; [apply cm_wf; [lia | lia | reflexivity | reflexivity] | apply Forall_nil].
  - apply Forall_cons; [|apply Forall_nil]; (split; [reflexivity|]; eexists _, _; split; reflexivity).
  - unfold cm_groups. cbn [groups_all gr_start gr_pics]. split; [|exact I]. cbn [pictures_all]. change (ctx_start xs_start) with xs_ctx. unfold ctx_items. cbn [pi_items cm_i_pic cm_p_pic cm_pic fold_left].
    split; [|split; [|exact I] ].
    + unfold picture_coded. split; [repeat split; cbn; lia|]. split; [repeat split; cbn; lia|]. split; [reflexivity|]. split; [cbn; lia|]. split; [cbn; lia|]. split; [cbn; lia|].
      split; [apply (G 1); lia|]. exists [cm_i_slice]. split; [apply slices_one, (cm_i_code true) | reflexivity].
    + unfold picture_coded. split; [repeat split; cbn; lia|]. split; [repeat split; cbn; lia|]. split; [reflexivity|]. split; [cbn; lia|]. split; [cbn; lia|]. split; [cbn; lia|].
      split; [apply (G 2); lia|]. exists [cm_p_slice]. split; [apply slices_one, (cm_p_code (cm_i_frame true)); split; reflexivity | reflexivity].
Qed.

(** Without frame_pred_frame_dct nothing helps: no I picture with concealment vectors is ever decoded.  After any
    number of frames, on any input, the last picture is none. *)
Theorem C84_never : forall n r imgs v' r' ph e, nexts (S n) (new_vidseq, r) = (Ok imgs, (v', r')) ->
  v_ph v' = Some ph -> ph_type ph = 1 -> v_pce v' = Some e -> pc_conceal e = true -> pc_fpfd e <> 0.
Proof.
  intros n r imgs v' r' ph e H P T E C F. revert ph e P T E C F.
  refine (nexts_last (fun v => forall ph e, v_ph v = Some ph -> ph_type ph = 1 -> v_pce v = Some e -> pc_conceal e = true -> pc_fpfd e = 0 -> False) _ _ n r imgs v' r' H).
  - intros s img v1 r1 S ph e P T E C F. exact (step_conceal _ _ _ _ _ _ S P T E C F).
  - intros v k Q. exact Q.
Qed.
(** And the decoder panics.  The same I picture, with frame_pred_frame_dct = 0: its headers and slices are those of
    the syntax ([params_ok] apart, which asks for frame_pred_frame_dct), the first call of Next panics. *)
Theorem C84_refuted :
  let p := cm_i_pic false in
  let g := mkGroup (Some xs_start) (xs_gop true) 0 [] [p] in
  wf_group g /\ valid_group g /\ e_conceal (pi_pce p) = true /\ e_fpfd (pi_pce p) = false /\
  (exists ls, slices_code (params_of xs_ctx Unknown Unknown p) ls (pi_data p) /\ pi_frame p = picture_paint (params_of xs_ctx Unknown Unknown p) ls) /\
  forall rd, exists s, next (new_vidseq, setb rd (enc_sequence 0 [g])) = (Panic, s).
Proof.
  cbv zeta. split; [|split; [|split; [reflexivity|split; [reflexivity|split] ] ] ].
  - split; [apply xs_start_wf|]. split; [repeat split; cbn; lia|]. split; [constructor|]. split; [constructor|].
    cbn [gr_pics]. apply Forall_cons; [apply cm_wf; [lia | lia | reflexivity | reflexivity] | apply Forall_nil].
  - split; [reflexivity|]; eexists _, _; split; reflexivity.
  - exists [cm_i_slice]. split; [apply slices_one, (cm_i_code false) | reflexivity].
  - intro rd. eexists. lazy. reflexivity.
Qed.

(** ** C85: a sequence that is not 4:2:0 is not decoded as if it were. *)

(** On any input, as long as Next returns frames, the sequence extension in force says neither 4:2:2 nor 4:4:4. *)
Theorem C85_formats_partial : forall n r imgs v' r', nexts (S n) (new_vidseq, r) = (Ok imgs, (v', r')) ->
  exists se, v_se v' = Some se /\ se_chroma se <> 2 /\ se_chroma se <> 3.
Proof.
  intros n r imgs v' r' H.
  refine (nexts_last (fun v => exists se, v_se v = Some se /\ se_chroma se <> 2 /\ se_chroma se <> 3) _ _ n r imgs v' r' H).
  - intros s img v1 r1 S. exact (step_format _ _ _ _ S).
  - intros v k Q. exact Q.
Qed.
Example C85_hyp : forall rd, exists imgs v' r', nexts 8 (new_vidseq, setb rd (enc_sequence 0 xs_groups)) = (Ok imgs, (v', r')).
Proof.
  intro rd. destruct (sequence_nexts 0 _ _ rd (coded_valid _ xs_groups_coded)) as (imgs & v' & H & _). exists imgs, v'. eexists. exact H.
Qed.

(** An I picture of one slice of one macroblock of [n] blocks, in a sequence of chroma format [c] *)
Definition cf_start (c : Z) : sstart := mkStart xs_seq 1 (mkSsext 72 true c 0 0 0 0 false 0 0) 0 [].
Definition cf_blocks (n : nat) : list bool := concat (repeat (dc0l ++ b14_eob) 4) ++ concat (repeat (dc0c ++ b14_eob) (n - 4)).
Definition cf_group (c : Z) (blocks : list bool) : sgroup :=
  mkGroup (Some (cf_start c)) (xs_gop true) 0 []
    [mkPicture (mkSpic 0 1 65535 (false, 7) (false, 7) []) 0 xs_pce 1 [] (slice_bits (mkSlice 0 5 None [] 1) (enc 1 1 ++ enc 1 1 ++ blocks)) (blank (xs_type 1 Unknown Unknown))].
(** 4:2:2 with eight blocks and 4:4:4 with twelve are not refused with an error: the first call of Next panics. *)
Theorem C85_error_refuted : forall rd,
  (wf_group (cf_group 2 (cf_blocks 8)) /\ exists s, next (new_vidseq, setb rd (enc_sequence 0 [cf_group 2 (cf_blocks 8)])) = (Panic, s)) /\
  (wf_group (cf_group 3 (cf_blocks 12)) /\ exists s, next (new_vidseq, setb rd (enc_sequence 0 [cf_group 3 (cf_blocks 12)])) = (Panic, s)).
Proof.
  assert (W : forall c bits, 0 <= c < 4 -> (length (skipn 32 (slice_bits (mkSlice 0 5 None [] 1) (enc 1 1 ++ enc 1 1 ++ bits))) mod 8 = 0)%nat -> wf_group (cf_group c bits)).
  { intros c bits Hc L. split. { destruct xs_start_wf as (A & _). split; [exact A|]. split; [repeat split; cbn; lia|]. split; constructor. }
    split; [repeat split; cbn; lia|]. split; [constructor|]. split; [constructor|]. cbn [cf_group gr_pics]. apply Forall_cons; [|apply Forall_nil].
    apply (xs_wf 0 1 (mkSlice 0 5 None [] 1)); [lia | lia | reflexivity | exact L]. }
  intro rd. split; (split; [apply W; [lia | reflexivity] | eexists; lazy; reflexivity]).
Qed.
(** The reserved chroma format 0 is accepted; macroblocks then have no blocks, and the frame is black. *)
Theorem C85_reserved_refuted : forall rd, exists img s,
  next (new_vidseq, setb rd (enc_sequence 0 [cf_group 0 []])) = (Ok img, s) /\ im_w img = 48 /\ im_h img = 16 /\ forall x y, luma img x y = 0.
Proof. intro rd. eexists. eexists. split; [lazy; reflexivity|]. split; [reflexivity|]. split; [reflexivity|]. intros x y. reflexivity. Qed.

(** ** C86: a coded frame is one frame, be it one frame picture or two field pictures. *)

(** Frame pictures: Next returns as many frames as there are pictures. *)
Theorem C86_frames_partial : forall k g gs rd, sequence_of picture_coded (g :: gs) ->
  Forall (fun p => e_struct (pi_pce p) = 3) (flat_map gr_pics (g :: gs)) /\
  exists imgs v',
    nexts (length (flat_map gr_pics (g :: gs))) (new_vidseq, setb rd (enc_sequence k (g :: gs))) = (Ok imgs, (v', setb rd (code sequence_end_code))) /\
    next (v', setb rd (code sequence_end_code)) = (Err EOS, (v', setb rd [])).
Proof.
  intros k g gs rd H. split.
  - assert (GP : forall ps c o l, pictures_all picture_coded c o l ps -> Forall (fun p => e_struct (pi_pce p) = 3) ps).
    { induction ps as [|p ps IH]; intros c o l K; [constructor|]. cbn [pictures_all] in K. destruct K as (K1 & K2). apply Forall_cons; [|exact (IH _ _ _ K2)].
      destruct K1 as (_ & _ & _ & _ & _ & _ & (_ & S & _) & _). exact S. }
    assert (G : forall gs c o l, groups_all picture_coded c o l gs -> Forall (fun p => e_struct (pi_pce p) = 3) (flat_map gr_pics gs)).
    { induction gs0 as [|g0 gs0 IH]; intros c o l K; [constructor|]. cbn [groups_all] in K. cbn [flat_map]. apply Forall_app.
      destruct (match gr_start g0 with Some s => Some (ctx_start s) | None => c end) as [c'|]; [|destruct K]. destruct K as (K1 & K2). split; [exact (GP _ _ _ _ K1)|].
      destruct (after_pictures c' o l (gr_pics g0)) as ((c2, o2), l2). exact (IH _ _ _ K2). }
    destruct H as (_ & _ & H). exact (G _ _ _ _ H).
  - destruct (C73_sequences k g gs rd H) as (imgs & v' & H1 & _ & H2). exists imgs, v'. split; [|exact H2].
    replace (length (flat_map gr_pics (g :: gs))) with (length (shown (g :: gs))); [exact H1|]. unfold shown. rewrite map_length. generalize (g :: gs). clear.
    induction l as [|g l IH]; [reflexivity|]. cbn [flat_map]. rewrite !app_length, IH. f_equal. apply Permutation_length, C53_each_once.
Qed.
Example C86_hyp : sequence_of picture_coded xs_groups /\ length (flat_map gr_pics xs_groups) = 8%nat.
Proof. split; [exact xs_groups_coded | reflexivity]. Qed.

(** A frame of 48 x 32 samples coded as two I fields of 48 x 16, all of luminance 131 in the first and of 129 in the
    second.  (The macroblocks of field pictures are coded like those of frame pictures with frame_pred_frame_dct.) *)
Definition fp_start : sstart := mkStart (mkSseq 48 32 2 3 20000 112 false None None) 1 (mkSsext 72 false 1 0 0 0 0 false 0 0) 0 [].
Definition fp_pce (structure : Z) : spce := mkSpce 1 1 1 1 0 structure false false false false false false false false false None.
Definition fp_first (y : Z) : list bool := if y =? 131 then enc 2 1 ++ enc 2 3 else enc 2 0 ++ enc 1 1.
Definition fp_bits (y : Z) : list bool :=
  (enc 1 1 ++ enc 1 1 ++ (fp_first y ++ b14_eob) ++ (dc0l ++ b14_eob) ++ (dc0l ++ b14_eob) ++ (dc0l ++ b14_eob) ++ (dc0c ++ b14_eob) ++ (dc0c ++ b14_eob)) ++
  (enc 1 1 ++ enc 1 1 ++ flat_bits) ++ (enc 1 1 ++ enc 1 1 ++ flat_bits).
Definition fp_slice (y : Z) : sslice := mkSlice 0 5 None (repeat (mkMb 1 None None None (Intra false (flat y 128 128))) 3) 1.
Definition fp_field (y : Z) : canvas := picture_paint (xs_type 1 Unknown Unknown) [fp_slice y].
Definition fp_pic (structure y : Z) : spicture :=
  mkPicture (mkSpic 0 1 65535 (false, 7) (false, 7) []) 0 (fp_pce structure) 1 [] (slice_bits (fp_slice y) (fp_bits y)) (fp_field y).
Definition fp_group : sgroup := mkGroup (Some fp_start) (xs_gop true) 0 [] [fp_pic 1 131; fp_pic 2 129].
Lemma dc_same : forall (i : nat) a b, (i < 6)%nat -> a = b -> dc_code (Nat.eqb (component i) 0) (if Nat.eqb (component i) 0 then dc0l else dc0c) (a - b).
Proof. intros i a b H ->. rewrite Z.sub_diag. now apply xs_dc0. Qed.
Lemma fp_code : forall y, y = 131 \/ y = 129 -> slice_code (xs_type 1 Unknown Unknown) (fp_slice y) (slice_bits (fp_slice y) (fp_bits y)).
Proof.
  intros y Hy. unfold slice_code, fp_slice, slice_bits. cbn [sl_row sl_q sl_flags sl_mbs sl_k repeat].
  split; [lia|]. split; [cbn; lia|]. split; [lia|]. split; [discriminate|]. split; [exact I|]. eexists. split; [|reflexivity].
  unfold fp_bits. set (P := xs_type 1 Unknown Unknown). cbn [mbs_code].
  assert (B : body_ok P (Intra false (flat y 128 128))).
  { cbn [body_ok]. split; [reflexivity|]. split; [auto|]. unfold flat. repeat (apply Forall_cons; [cbn; split; [lia|]; split; [constructor | lia]|]). apply Forall_nil. }
  assert (FC : forall p, p 0%nat = y -> p 1%nat = 128 -> p 2%nat = 128 -> intra_code P p 0 (flat y 128 128) flat_bits).
  { intros p H0 H1 H2. cbn [intra_code flat]. unfold flat_bits.
    exists dc0l, b14_eob. eexists. split; [rewrite <- !app_assoc; reflexivity|]. cbn [component]. rewrite H0. split; [apply (dc_same 0); [lia | reflexivity]|]. split; [apply empty_from; lia|].
    exists dc0l, b14_eob. eexists. split; [reflexivity|]. split; [apply (dc_same 1); [lia | reflexivity]|]. split; [apply empty_from; lia|].
    exists dc0l, b14_eob. eexists. split; [reflexivity|]. split; [apply (dc_same 2); [lia | reflexivity]|]. split; [apply empty_from; lia|].
    exists dc0l, b14_eob. eexists. split; [reflexivity|]. split; [apply (dc_same 3); [lia | reflexivity]|]. split; [apply empty_from; lia|].
    exists dc0c, b14_eob. eexists. split; [reflexivity|]. change (set_dc _ _ _ 1%nat) with (p 1%nat). rewrite H1. split; [apply (xs_dc0 4); lia|]. split; [apply empty_from; lia|].
    exists dc0c, b14_eob, []. split; [reflexivity|]. change (set_dc _ _ _ 2%nat) with (p 2%nat). rewrite H2. split; [apply (xs_dc0 5); lia|]. split; [apply empty_from; lia|].
    reflexivity. }
  split; [|eexists _, _; split; [reflexivity|]; split; [|split; [|eexists _, _; split; [reflexivity|]; split; [|split; [|eexists _, []; split; [symmetry; apply app_nil_r|]; split; [|reflexivity] ] ] ] ] ].
  1, 3, 5: split; [cbn; lia|]; split; [unfold mb_in; cbn; lia|]; split; [exact B|];
    split; [now intros|]; split; [exact I|]; split; [split; discriminate|]; split; [exact I|]; split; [exact I|]; cbn; lia.
  - exists (enc 1 1), (enc 1 1), [], []. eexists. split; [apply xs_incr1|]. split; [exists 1, 1; split; [cbn; auto | reflexivity]|].
    split; [reflexivity|]. split; [reflexivity|]. split; [|reflexivity]. cbn [b_body body_code intra_code flat component].
    exists (fp_first y), b14_eob. eexists. split; [apply eq_sym, app_assoc|].
    split. { destruct Hy as [-> | ->]; [exists 2, (enc 2 1) | exists 1, (enc 2 0)]; (split; [split; [lia | has_tac] | cbn; split; [lia | reflexivity] ]). }
    split; [apply empty_from; lia|].
    exists dc0l, b14_eob. eexists. split; [reflexivity|]. split; [apply (dc_same 1); [lia | reflexivity]|]. split; [apply empty_from; lia|].
    exists dc0l, b14_eob. eexists. split; [reflexivity|]. split; [apply (dc_same 2); [lia | reflexivity]|]. split; [apply empty_from; lia|].
    exists dc0l, b14_eob. eexists. split; [reflexivity|]. split; [apply (dc_same 3); [lia | reflexivity]|]. split; [apply empty_from; lia|].
    exists dc0c, b14_eob. eexists. split; [reflexivity|]. split; [apply (xs_dc0 4); lia|]. split; [apply empty_from; lia|].
    exists dc0c, b14_eob, []. split; [reflexivity|]. split; [apply (xs_dc0 5); lia|]. split; [apply empty_from; lia|].
    reflexivity.
  - exists (enc 1 1), (enc 1 1), [], [], flat_bits. split; [apply xs_incr1|]. split; [exists 1, 1; split; [cbn; auto | reflexivity]|].
    split; [reflexivity|]. split; [reflexivity|]. split; [|reflexivity]. now apply FC.
  - exists (enc 1 1), (enc 1 1), [], [], flat_bits. split; [apply xs_incr1|]. split; [exists 1, 1; split; [cbn; auto | reflexivity]|].
    split; [reflexivity|]. split; [reflexivity|]. split; [|reflexivity]. now apply FC.
Qed.
Definition fp_seen (s : vidseq * reader) :=
  match next s with
  | (Ok img, s1) => Some (im_w img, im_h img, luma img 0 0, luma img 0 1, luma img 0 16, luma img 0 17, match fst (next s1) with Err EOS => true | _ => false end)
  | _ => None
  end.
Lemma fp_look : forall rd, fp_seen (new_vidseq, setb rd (enc_sequence 0 [fp_group])) = Some (48, 32, 131, 131, 0, 0, true).
Proof. intro rd. lazy. reflexivity. Qed.
Lemma seen_inv : forall s0, fp_seen s0 = Some (48, 32, 131, 131, 0, 0, true) ->
  exists img s s', next s0 = (Ok img, s) /\ next s = (Err EOS, s') /\
    im_w img = 48 /\ im_h img = 32 /\ luma img 0 0 = 131 /\ luma img 0 1 = 131 /\ luma img 0 16 = 0 /\ luma img 0 17 = 0.
Proof.
  intros s0 H. unfold fp_seen in H. destruct (next s0) as [[img| | |] s]; try discriminate.
  destruct (next s) as [r s'] eqn:E. exists img, s, s'. split; [reflexivity|]. injection H as -> -> -> -> -> -> H.
  split; [|repeat split; reflexivity]. cbn [fst] in H. destruct r as [|[]| |]; try discriminate. exact E.
Qed.
(** The lines of the frame are those of the fields by turns, 131 and 129.  Next returns one frame: the first field in
    its upper half - also where lines of the second belong - and black below.  The second field is lost. *)
Theorem C86_fields_refuted :
  wf_group fp_group /\ map (fun p => e_struct (pi_pce p)) (gr_pics fp_group) = [1; 2] /\
  Forall (fun p => exists ls, slices_code (xs_type 1 Unknown Unknown) ls (pi_data p) /\ pi_frame p = picture_paint (xs_type 1 Unknown Unknown) ls) (gr_pics fp_group) /\
  map (fun p => cv_y (pi_frame p) 0 0) (gr_pics fp_group) = [131; 129] /\
  forall rd, exists img s s', next (new_vidseq, setb rd (enc_sequence 0 [fp_group])) = (Ok img, s) /\ next s = (Err EOS, s') /\
    im_w img = 48 /\ im_h img = 32 /\ luma img 0 0 = 131 /\ luma img 0 1 = 131 /\ luma img 0 16 = 0 /\ luma img 0 17 = 0.
Proof.
  split; [|split; [reflexivity|split; [|split] ] ].
  - split. { split; [repeat split; cbn; lia|]. split; [repeat split; cbn; lia|]. split; constructor. }
    split; [repeat split; cbn; lia|]. split; [constructor|]. split; [constructor|]. cbn [fp_group gr_pics].
    assert (W : forall st y, 1 <= st <= 2 -> (y = 131 \/ y = 129) -> wf_picture (fp_pic st y)).
    { intros st y Hs Hy. assert (F : firstn 32 (slice_bits (fp_slice y) (fp_bits y)) = code 1 /\ (length (skipn 32 (slice_bits (fp_slice y) (fp_bits y))) mod 8 = 0)%nat) by (destruct Hy as [-> | ->]; split; reflexivity).
      destruct (xs_wf 0 1 (fp_slice y) (fp_bits y) (fp_field y) ltac:(lia) ltac:(lia) (proj1 F) (proj2 F)) as (A & _ & C). split; [exact A|]. split; [repeat split; cbn; lia | exact C]. }
    apply Forall_cons; [apply W; auto; lia|]. apply Forall_cons; [apply W; auto; lia | apply Forall_nil].
  - cbn [fp_group gr_pics]. apply Forall_cons; [exists [fp_slice 131]; split; [apply slices_one, fp_code; auto | reflexivity]|].
    apply Forall_cons; [exists [fp_slice 129]; split; [apply slices_one, fp_code; auto | reflexivity] | apply Forall_nil].
  - lazy. reflexivity.
  - intro rd. exact (seen_inv _ (fp_look rd)).
Qed.

Print Assumptions C84_concealment_partial.
Print Assumptions C84_never.
Print Assumptions C84_refuted.
Print Assumptions C85_formats_partial.
Print Assumptions C85_error_refuted.
Print Assumptions C85_reserved_refuted.
Print Assumptions C86_frames_partial.
Print Assumptions C86_fields_refuted.
