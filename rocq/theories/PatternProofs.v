(** PatternProofs: a macroblock whose coded block pattern cannot be decoded (C59). *)
From Coq Require Import Lia.
From Verif Require Import Base BitReader VidModel SpecVid SpecVlc SpecBlock SpecMotion SpecNext SpecPicture BlockModel VlcTables MbModel Exec VidProofs MbStepProofs MbWholeProofs SliceProofs NextProofs
  PropertiesVidHeaders CanvasProofs MacroblockProofs MbRunProofs ExampleStream.

Lemma cbp_zeros : forall rd X, cbp_decode (setb rd (repeat false 9 ++ X)) = (Err ErrMissingHuffmanValue, setb rd X).
Proof. intros. reflexivity. Qed.

(** "No MC, Coded", and nine zeros, which are no coded_block_pattern *)
Definition no_pattern : smb := mkMb 1 None None None (Coded []).
Lemma bad_macroblock : forall v P e row m rd X, vctx v P e -> pp_type P = 2 -> e_fpfd (pp_pce P) = true ->
  exists m', macroblock v row (-1) (m, setb rd (enc 1 1 ++ enc 2 1 ++ repeat false 9 ++ X)) = (Ok 0, (m', setb rd X)) /\ ms_frame m' = ms_frame m.
Proof.
  intros v P e row m rd X HV T F. pose proof HV as ((ph & P1 & P2) & HE & PH & (se & S1 & S2) & _ & _ & _ & _ & PO). unfold macroblock.
  erewrite bind_onr_ok by (apply incr_run; [apply xs_incr1 | rewrite !app_length, repeat_length; cbn; lia]).
  rewrite P1. unfold deref at 1. rewrite bind_ret. rewrite HE. unfold deref at 1. rewrite bind_ret. cbv zeta. rewrite P2, T.
  change (copy_skipped v 2 row (-1) 1) with (ret tt : MB unit). rewrite bind_ret. change (1 >? 1) with false. change ((2 =? PFrame) && false) with false. rewrite !when_no.
  assert (C2 : mbt_code (type_table (pp_type P)) (enc 2 1) (some (b_quant no_pattern), is_forward no_pattern, some (b_backward no_pattern), is_coded no_pattern, is_intra no_pattern)).
  { rewrite T. exists 1, 2. split; [cbn; auto | reflexivity]. }
  pose proof (mode_run P e no_pattern (enc 2 1) rd (repeat false 9 ++ X) PO PH C2) as M. rewrite F, T in M. cbn [negb no_pattern is_forward b_forward b_backward some orb andb app] in M.
  erewrite bind_onr_ok by exact M. unfold mode_of. rewrite F.
  cbn [mo_type mb_intra mb_motion_forward mb_motion_backward mb_pattern mb_quant no_pattern b_quant is_forward b_forward b_backward some is_coded is_intra b_body negb orb andb].
  change (2 =? PFrame) with true. cbn [andb]. unfold reset_dc, reset_mv. repeat first [rewrite when_no | rewrite when_upd | rewrite bind_upd]. rewrite S1. unfold deref. rewrite bind_ret.
  rewrite S2. unfold coded_block_pattern.
  assert (EC : forall m', (cbp <- ignore_err None (c <- onr (coded_block_pattern ChromaFormat420) ;; ret (Some c)) ;; match cbp with None => ret 0 | Some cbp => (pc <- pattern_code cbp false true ChromaFormat420 ;;
     mb_blocks v e se (mkMode (mkMBT false false false true false) 0 0 false) row (-1 + 1) 0 (firstn (block_count ChromaFormat420) pc) block_zero ;; ret (-1 + 1)) end) (m', setb rd (repeat false 9 ++ X)) = (Ok 0, (m', setb rd X))).
  { intro m'. unfold ignore_err, bind, onr, coded_block_pattern. cbn [fst snd]. rewrite cbp_zeros. reflexivity. }
  eexists. split; [apply EC | reflexivity].
Qed.

(** A P picture of one slice with this macroblock *)
Definition bad_bits : list bool := enc 1 1 ++ enc 2 1.
Definition bad_data : list bool := slice_bits (mkSlice 0 5 None [] 2) bad_bits.
Lemma bad_eq : bad_data = code 1 ++ enc 5 5 ++ [false] ++ enc 1 1 ++ enc 2 1 ++ repeat false 23.
Proof. reflexivity. Qed.
Lemma bad_slice : forall v P e sh f cv rest rd, vctx v P e -> v_sh v = Some sh -> sh_vertical sh <= 2800 -> looks f cv -> cv_w cv = pp_w P -> cv_h cv = pp_h P -> 16 <= pp_h P ->
  pp_type P = 2 -> e_fpfd (pp_pce P) = true -> at_code rest ->
  slice v f (setb rd (bad_data ++ rest)) = (Ok f, setb rd rest).
Proof.
  intros v P e sh f cv rest rd HV HSH H28 L W H H16 T F (u & -> & U). unfold bad_data, slice_bits. cbn [sl_row sl_q sl_flags sl_mbs sl_k].
  set (m := mkMS (dc_reset (pc_dc e)) mv_zero 5 f).
  destruct (bad_macroblock v P e 0 m rd (repeat false 14 ++ prefix ++ u) HV T F) as (m' & E & EF).
  replace f with (ms_frame m') at 2 by exact EF.
  apply (slice_by_loop v P e sh 0 5 None 2 bad_bits f cv (prefix ++ u) rd m' (repeat false 14 ++ prefix ++ u)); auto; try lia.
  - fold m. change (stuffing (length (code (0 + 1) ++ enc 5 5 ++ flags_code None ++ bad_bits)) 2) with (repeat false 23). unfold bad_bits.
    assert (EQ : (enc 1 1 ++ enc 2 1) ++ repeat false 23 ++ prefix ++ u = enc 1 1 ++ enc 2 1 ++ repeat false 9 ++ repeat false 14 ++ prefix ++ u) by reflexivity.
    rewrite EQ. cbn [slice_loop]. rewrite (bind_ok _ _ _ _ _ _ _ _ E).
    assert (PK : peek_n 23 (setb rd (repeat false 14 ++ prefix ++ u)) = (Ok 0, setb rd (repeat false 14 ++ prefix ++ u))) by (change (repeat false 14 ++ prefix ++ u) with (repeat false 23 ++ repeat false 14 ++ [true] ++ u); rewrite peek_n_app by reflexivity; reflexivity).
    erewrite bind_onr_ok by exact PK. reflexivity.
  - exact (next_start_code_run (repeat false 6) 1 rd u ltac:(cbn; lia) U).
Qed.
Lemma bad_picture : forall v P e sh w h rest rd, vctx v P e -> v_sh v = Some sh -> sh_vertical sh <= 2800 -> size v = (w, h) -> 0 < w -> 0 < h ->
  pp_w P = whole w -> pp_h P = whole h -> pp_type P = 2 -> e_fpfd (pp_pce P) = true -> at_unit rest ->
  exists f, picture_data v (setb rd (bad_data ++ rest)) = (Ok f, setb rd rest) /\ looks f (blank P).
Proof.
  intros v P e sh w h rest rd HV HSH HV2 SZ Hw Hh PW PH T F AU. unfold picture_data. rewrite SZ. pose proof HV as (_ & _ & _ & (se & S1 & S2) & _). rewrite S1. unfold deref. rewrite bind_ret. rewrite S2.
  pose proof (unit_at_code _ AU) as AC. cbn [slices].
  assert (L : looks (create_frame_buffer w h ChromaFormat420) (blank P)) by (apply blank_looks; auto).
  assert (H16 : 16 <= pp_h P) by (rewrite PH; destruct (whole_spec h Hh) as (_ & M & Z); pose proof (Z.div_mod (whole h) 16 ltac:(lia)); lia).
  pose proof (bad_slice v P e sh _ (blank P) rest rd HV HSH HV2 L eq_refl eq_refl H16 T F AC) as E. rewrite bind_assoc. rewrite (bind_ok _ _ _ _ _ _ _ _ E).
  exists (create_frame_buffer w h ChromaFormat420). split; [|exact L].
  destruct AU as (b & t & -> & LT & I). rewrite bind_assoc. rewrite (bind_ok _ _ _ _ _ _ _ _ (peek_code b rd t ltac:(cbn in I; unfold picture_code, sequence_header_code, group_code, sequence_end_code in I; lia))).
  assert (is_slice (256 + b) = false) as -> by (cbn [In] in I; destruct I as [<-|[<-|[<-|[<-|I] ] ] ]; [reflexivity|reflexivity|reflexivity|reflexivity|contradiction]).
  rewrite bind_ret. pose proof (next_start_code_run [] 0 rd (enc 8 b ++ t) ltac:(cbn; lia) ltac:(apply app_mod8; [reflexivity | exact LT])) as NS.
  cbn [app repeat bb flat_map] in NS. unfold code. rewrite <- app_assoc. rewrite (bind_ok _ _ _ _ _ _ _ _ NS). reflexivity.
Qed.

(** In a sequence: after an I picture, and before another P picture *)
Definition blank48 : canvas := blank (xs_type 2 Unknown Unknown).
Definition bad_pic (tr : Z) : spicture := mkPicture (mkSpic tr 2 65535 (false, 7) (false, 7) []) 0 xs_pce 1 [] bad_data blank48.
Lemma bad_decodes : forall o f tr, sized f -> picture_decodes xs_ctx o (Is f) (bad_pic tr).
Proof.
  intros o f tr S v rd rest F1 F2 F3 F4 AU.
  assert (PO : params_ok (params_of xs_ctx o (Is f) (bad_pic tr))).
  { apply (xs_params_ok 2 (Is f) Unknown). lia. }
  destruct (ctx_vctx xs_ctx o (Is f) (bad_pic tr) v) as (e & sh & HV & HS & H28 & SZ); auto.
  { repeat split; cbn; lia || exact I. }
  { repeat split; cbn; lia. }
  { cbn; lia. }
  destruct (bad_picture v _ e sh _ _ rest rd HV HS H28 SZ) as (g & E & L); try reflexivity; auto. exists g. split; [exact E | exact L].
Qed.
Lemma bad_wf : forall tr, 0 <= tr < 1024 -> wf_picture (bad_pic tr).
Proof. intros. apply (xs_wf tr 2 (mkSlice 0 5 None [] 2) bad_bits); [assumption | lia | reflexivity | reflexivity]. Qed.
Definition bad_groups : list sgroup := [mkGroup (Some xs_start) (xs_gop true) 0 [] [i_pic 0; bad_pic 1; p_pic 2 blank48]].
Lemma bad_valid : valid_sequence bad_groups.
Proof.
  destruct sized_f as (S0 & _). split; [|split].
  - apply Forall_cons; [|apply Forall_nil]. split; [apply xs_start_wf|]. split; [repeat split; cbn; lia|]. split; [constructor|]. split; [constructor|].
    cbn [gr_pics]. apply Forall_cons; [apply i_wf; lia|]. apply Forall_cons; [apply bad_wf; lia|]. apply Forall_cons; [apply p_wf; lia | apply Forall_nil].
  - apply Forall_cons; [|apply Forall_nil]. split; [reflexivity|]. eexists _, _. split; reflexivity.
  - unfold bad_groups. cbn [groups_all gr_start gr_pics]. split; [|exact I]. cbn [pictures_all]. change (ctx_start xs_start) with xs_ctx. unfold ctx_items.
    cbn [pi_items i_pic p_pic bad_pic xs_pic fold_left]. split; [apply coded_decodes, i_coded|]. split; [apply (bad_decodes Unknown f0 1); assumption|].
    split; [apply coded_decodes, (p_coded (Is f0) blank48 2); split; reflexivity | exact I].
Qed.
