(** StrayStream: slices, pictures and streams on which Next panics are as SpecStray describes. *)
From Coq Require Import Lia.
From Verif Require Import Base BitReader Exec Local TsRobust PesLocal After Huffman VlcTables BlockModel SpecVlc SpecBlock VlcProofs BlockProofs DequantProofs IdctProofs
  VidModel SpecVid VidProofs VidStream VidExt VidLocal MbModel SpecMotion MotionProofs FrameProofs MbProofs SpecNext SpecPicture CanvasProofs MacroblockProofs MbRunProofs MbStepProofs MbWholeProofs
  EndProofs2 ShapeProofs NextProofs SliceProofs SpecStore StoreProofs SpecSyntax SyntaxProofs SpecPanic CauseProofs SpecCertain SpecRules RulesProofs ContextProofs SpecStray StrayProofs.
From Verif Require Import PropertiesBlock.
From Verif Require PropertiesVidHeaders.

(** * Slices *)
Lemma slice_is_stray : forall v y P q cv frame r r', vctx v P (pce_of (y_pce y)) -> v_ph v = Some (pic_of (y_hdr y)) -> layer_for y P -> refs_known P -> v_sh v = Some q -> sh_vertical q <= 2800 ->
  looks frame cv -> cv_w cv = pp_w P -> cv_h cv = pp_h P -> rlater r = [] -> slice v frame r = (Panic, r') -> slice_stray y P (rbits r) \/ slice_wrong y P (rbits r).
Proof.
  intros v y P q cv frame r r' HV Hph LY RK Hsh Hv L W Hh Hr E. pose proof HV as (_ & Hpce & PH & _ & _ & _ & _ & _ & PO). unfold slice in E.
  match type of E with match ?m r with _ => _ end = _ => destruct (m r) as [o r1] eqn:E1 end.
  assert (X : exists c0 q1, read_n 32 r = (Ok c0, q1) /\ is_slice c0 = true).
  { destruct o as [a|e| |]; try discriminate; [apply bind_ok_inv in E1 | apply np_panics in E1; [|apply np_safe, safe_read_n] ]; destruct E1 as (c & ra & Q & E1); exists c, ra; (split; [exact Q|]); destruct (is_slice c); [reflexivity | discriminate | reflexivity | discriminate]. }
  destruct X as (c0 & q1 & R & Is). unfold bind at 1 in E1. rewrite R, Is in E1. cbn [negb] in E1. apply read_after in R. destruct R as (_ & A0). destruct (slice_code_of _ Is) as (rw & Hrow & -> & Ec). rewrite Ec in A0.
  set (row := rw - 1). replace rw with (row + 1) in * by (unfold row; lia). assert (R0 : 0 <= row < 175) by lia. clearbody row.
  destruct (row_of row R0) as (Er & _). rewrite Er, Hpce in E1. cbn [deref] in E1. rewrite bind_ret in E1. cbv zeta in E1.
  pose proof (after_bits _ _ _ A0) as Q0.
  destruct (Z_lt_dec (pp_h P) (16 * row + 16)) as [Lw|Lw]; [left; exists row, (rbits q1); auto|].
  pose proof (proj1 L) as (W0 & H0 & MW & MH & YS & CS & LYl & LB & LR). rewrite YS, CS, LYl, LB, LR in E1.
  assert (B1 : 16 * row * cv_w cv <= cv_w cv * cv_h cv) by (rewrite Hh; nia).
  assert (B2 : 8 * row * (cv_w cv / 2) <= cv_w cv / 2 * (cv_h cv / 2)) by (rewrite Hh; assert (8 * row <= pp_h P / 2) by (dm (pp_h P) 2; lia); assert (0 <= cv_w cv / 2) by (dm (cv_w cv) 2; lia); nia).
  assert ((16 * row * cv_w cv <=? cv_w cv * cv_h cv) = true) as Z1 by lia. assert ((8 * row * (cv_w cv / 2) <=? cv_w cv / 2 * (cv_h cv / 2)) = true) as Z2 by lia. rewrite Z1, Z2 in E1. cbn [andb] in E1.
  rewrite Hsh in E1. cbn [deref] in E1. rewrite bind_ret in E1. assert (sh_vertical q >? 2800 = false) as Z3 by lia. rewrite Z3, when_no in E1.
  assert (X : exists qs fl q4, 0 <= qs < 32 /\ match fl with Some (_, extra) => bytes extra | None => True end /\ after q1 (enc 5 qs ++ flags_code fl) q4 /\ o = Ok (pce_of (y_pce y), row, qs) /\ r1 = q4).
  { apply bind_np in E1; [|apply np_safe, safe_read_n]. destruct E1 as [E1 | (qs & q3 & E3 & E1)]; [destruct o; try contradiction; discriminate|]. apply read_after in E3. destruct E3 as (B3 & A3).
    apply bind_np in E1; [|apply np_flags]. destruct E1 as [E1 | (u2 & q4 & E4 & E1)]; [destruct o; try contradiction; discriminate|]. apply slice_flags_after in E4. destruct E4 as (fl & Wf & A4).
    exists qs, fl, q4. split; [exact B3|]. split; [exact Wf|]. split; [eapply after_app; eauto|]. unfold ret in E1. split; congruence. }
  destruct X as (qs & fl & q4 & B3 & Wf & A1 & -> & ->).
  assert (Hr4 : rlater q4 = []) by (rewrite (after_later _ _ _ A1), (after_later _ _ _ A0); exact Hr).
  match type of E with match ?lp with _ => _ end = _ => destruct lp as [[u|er| |] [m r2] ] eqn:El end; try discriminate.
  - apply np_panics in E; [|apply np_safe, safe_nsc]. destruct E as (? & ? & _ & E). discriminate.
  - assert (A00 : agree (pce_of (y_pce y)) (ps_start P qs) (mkMS (dc_reset (pc_dc (pce_of (y_pce y)))) mv_zero qs frame)).
    { pose proof PO as (_ & _ & _ & D & _). pose proof PH as (_ & _ & _ & _ & ED & _). unfold agree, ps_start. cbn [ms_dcp ms_mvd ms_qsc ps_dc ps_fwd ps_bwd ps_q ps_dirs].
      split; [rewrite ED; exact (C40_reset _ D)|]. split; [reflexivity|]. split; [lia|]. split; [|repeat split; reflexivity].
      change mv_zero with (mv_reset mv_zero). apply reset_good. now apply (f_codes_of P). }
    assert (D0 : dirs_ok P (ps_start P qs)) by (repeat split; discriminate).
    apply (loop_stray v y P row HV Hph LY RK ltac:(lia) ltac:(lia) _ _ (ps_start P qs) _ cv) in El; try assumption; try lia. destruct El as (mbs & c2 & c3 & Q & C & X).
    assert (Qr : rbits r = code (row + 1) ++ enc 5 qs ++ flags_code fl ++ c2 ++ c3). { rewrite Q0, (after_bits _ _ _ A1), Q, <- !app_assoc. reflexivity. }
    destruct (after_mbs P (-1) (ps_start P qs) mbs) as [a s'] eqn:Ea. destruct X as [X|X].
    + left. exists row, (enc 5 qs ++ flags_code fl ++ c2 ++ c3). split; [exact R0|]. split; [exact Qr|]. right. exists qs, fl, mbs, c2, c3. rewrite Ea. auto 6.
    + right. exists row, qs, fl, (c2 ++ c3). split; [exact R0|]. split; [exact B3|]. split; [exact Wf|]. split; [exact Qr|]. right. right. exists mbs, c2, c3. rewrite Ea. auto.
Qed.
Lemma wrong_app : forall y P c d, slice_wrong y P c -> slice_wrong y P (c ++ d).
Proof.
  intros y P c d (row & q & fl & c1 & R & Q & Fl & -> & W). exists row, q, fl, (c1 ++ d). split; [exact R|]. split; [exact Q|]. split; [exact Fl|]. split; [now rewrite <- !app_assoc|].
  destruct W as [W|[W|(mbs & c2 & c3 & -> & C & W)]]; [auto|auto|]. right. right. exists mbs, c2, (c3 ++ d). split; [now rewrite app_assoc|]. split; [exact C|].
  destruct (after_mbs P (-1) (ps_start P q) mbs) as [a s']. destruct W as (d1 & d2 & -> & W). exists d1, (d2 ++ d). split; [now rewrite app_assoc | exact W].
Qed.
Lemma slices_are_stray : forall v y P q, vctx v P (pce_of (y_pce y)) -> v_ph v = Some (pic_of (y_hdr y)) -> layer_for y P -> refs_known P -> v_sh v = Some q -> sh_vertical q = y_vertical y -> y_vertical y <= 2800 ->
  forall fuel cv frame r r', looks frame cv -> cv_w cv = pp_w P -> cv_h cv = pp_h P -> rlater r = [] -> ready r -> slices fuel v frame r = (Panic, r') ->
  slices_stray y P (rbits r) \/ slices_wrong y P (rbits r).
Proof.
  intros v y P q HV Hph LY RK Hsh Hv V28. pose proof HV as (_ & Hpce & _ & (se & S1 & S2) & _ & _ & _ & _ & PO).
  assert (S3 : se_chroma se = y_chroma y) by (rewrite S2; symmetry; apply LY).
  induction fuel as [|fuel IH]; intros cv frame r r' L W H Hr Rd E; cbn [slices] in E; [discriminate|].
  apply bind_panics in E. destruct E as [E | (fr & r1 & E1 & E)].
  - destruct (slice_is_stray v y P q cv frame r r' HV Hph LY RK Hsh ltac:(lia) L W H Hr E) as [X|X]; [left|right]; exists [], (rbits r); (split; [reflexivity|]); (split; [now left | exact X]).
  - pose proof E1 as E0. apply (slice_after v y q se) in E0; [|assumption..]. destruct E0 as (_ & (c & S & A) & Rd1). pose proof (after_aligned _ _ _ Rd Rd1 A) as L8. pose proof (after_bits _ _ _ A) as Qr.
    destruct (slice_parse y P c LY PO RK V28 S L8) as [(l & C)|X].
    2: { right. exists [], (rbits r). split; [reflexivity|]. split; [now left|]. rewrite Qr. now apply wrong_app. }
    destruct (slice_run v P _ q l frame cv c (rbits r1) r HV Hsh ltac:(lia) L W H C (ready_code _ Rd1)) as (f' & Ef & L').
    rewrite <- Qr, setb_rbits, E1 in Ef. assert (fr = f') by congruence. subst fr.
    apply np_panics in E; [|apply np_safe, safe_peek_n]. destruct E as (nb & r2 & E2 & E). apply peek_after in E2. destruct E2 as (-> & _). destruct (is_slice nb); [|discriminate].
    destruct (mbs_paint_dims P (sl_row l) (sl_mbs l) (-1) (ps_start P (sl_q l)) cv) as [D1 D2].
    apply (IH (slice_paint P l cv)) in E; [|exact L'|unfold slice_paint; congruence|unfold slice_paint; congruence|rewrite (after_later _ _ _ A); exact Hr|exact Rd1].
    assert (Pf : forall (B : list bool -> Prop), (exists c1 c2, rbits r1 = c1 ++ c2 /\ (c1 = [] \/ exists ls, slices_code P ls c1) /\ B c2) -> exists c1 c2, rbits r = c1 ++ c2 /\ (c1 = [] \/ exists ls, slices_code P ls c1) /\ B c2).
    { intros B (c1 & c2 & Q1 & Cs & X). exists (c ++ c1), c2. split; [rewrite Qr, Q1; now rewrite app_assoc|]. split; [|exact X]. right. destruct Cs as [->|(ls & Cs)]; [exists [l]; rewrite app_nil_r; now constructor | exists (l :: ls); now constructor]. }
    destruct E as [E|E]; [left | right]; now apply Pf.
Qed.

(** * Pictures *)
Lemma picture_stray : forall v k p e r r', in_ctx k v -> wf_seq (c_seq k) -> wf_sext (c_ext k) -> v_ph v = Some (pic_of p) -> v_pce v = Some (pce_of e) ->
  rlater r = [] -> ready r -> picture_data v r = (Panic, r') ->
  forall past future, let P := params_for k p e past future in
    x_chroma (c_ext k) = 1 -> 0 < 4096 * x_h (c_ext k) + q_horizontal (c_seq k) -> 0 < 4096 * x_v (c_ext k) + q_vertical (c_seq k) <= 2800 ->
    (p_type p <> 1 -> serves (fs_past (v_fs v)) past /\ exists c, past = Is c) -> (p_type p = 3 -> serves (fs_future (v_fs v)) future /\ exists c, future = Is c) ->
    params_ok P ->
    slices_stray (layer_of k p e) P (rbits r) \/ slices_wrong (layer_of k p e) P (rbits r).
Proof.
  intros v k p e r r' (K1 & K2 & K3) WS WX Ph Pe Hr Rd H past future P CH Hw Hh F1 F2 PO. set (y := layer_of k p e).
  assert (LY : layer_for y P) by (repeat split; assumption).
  assert (RK : refs_known P) by (split; [intro T; destruct (F1 T); assumption | intro T; destruct (F2 T); assumption]).
  assert (V28 : q_vertical (c_seq k) <= 2800) by (destruct WX as (_ & _ & _ & W4 & _); lia).
  assert (HV : vctx v P (pce_of e)).
  { unfold mats, kmats in K3. injection K3 as Q0 Q1 _ _. split; [exists (pic_of p); split; [exact Ph | reflexivity]|]. split; [exact Pe|]. split; [apply pce_of_holds|].
    split; [exists (sext_of (c_ext k)); split; [exact K2 | exact CH]|]. split; [exact Q0|]. split; [exact Q1|]. split; [intro T; apply F1, T|]. split; [intro T; apply F2, T | exact PO]. }
  assert (SZ : size v = (4096 * x_h (c_ext k) + q_horizontal (c_seq k), 4096 * x_v (c_ext k) + q_vertical (c_seq k))).
  { unfold size. rewrite K1, K2. destruct WS as (W1 & W2 & _). destruct WX as (_ & _ & W3 & W4 & _). cbn [seq_of sext_of sh_horizontal sh_vertical se_hext se_vext]. now rewrite !PropertiesVidHeaders.size_parts by auto. }
  unfold picture_data in H. rewrite SZ, K2 in H. cbn [deref] in H. rewrite bind_ret in H. apply bind_panics in H. destruct H as [H | (fr & r1 & _ & H)].
  2: { apply np_panics in H; [|apply np_safe, safe_nsc]. destruct H as (? & ? & _ & H). discriminate. }
  apply (slices_are_stray v y P (seq_of (c_seq k)) HV Ph LY RK K1 eq_refl V28 _ (blank P)) in H; try assumption; try reflexivity.
  cbn [se_chroma sext_of]. rewrite CH. apply blank_looks; auto; try lia; reflexivity.
Qed.

(** * Headers *)
Lemma ext_stray : forall i k v r s', rlater r = [] -> ready r -> (i = 0 \/ i = 1 \/ i = 2) -> extension_and_user_data i (v, r) = (Panic, s') ->
  i <> 1 /\ exists c k' t, items_ctx i k c k' /\ rbits r = c ++ t /\ unsupported (i =? 2) t.
Proof.
  intros i k v r s' Hr Rd Hi H. apply ext_user_panics in H; [|assumption..]. destruct H as (xs & cs & t & A & B & Q & U & N). split; [exact N|]. exists (concat cs), (ctx_items k xs), t. split; [exists xs, cs; auto | auto].
Qed.

(** * The stream *)
(** [stray] for any history *)
Definition stray_after (hist : list happening) (sh : shot) : Prop :=
  forall past future, let P := shot_params sh past future in
  plain sh ->
  (let h := hist ++ opening sh in
   let x := (group_after h, p_tr (s_hdr sh)) in
   (s_type sh <> 1 -> coding_order h x) /\
   (if s_type sh =? 1 then past = Unknown else exists f c, nearest_before (refs h) x f /\ looks f c /\ past = Is c) /\
   (if s_type sh =? 3 then exists f c, nearest_after (refs h) x f /\ looks f c /\ future = Is c else future = Unknown)) ->
  params_ok P ->
  slices_stray (shot_layer sh) P (s_data sh) \/ slices_wrong (shot_layer sh) P (s_data sh).
Lemma stray_is : forall before sh, ctx_ok (s_ctx sh) -> wf_pce (s_pce sh) -> stray_after (history before) sh -> stray before sh.
Proof.
  intros before sh (M0 & M1) (F0 & F1 & F2 & F3 & D & _) R past future P (Pl & T & S & C & N0 & N1 & N2 & N3) Rf. apply R; [exact Pl | exact Rf|].
  unfold params_ok, P, shot_params. cbn [pp_type pp_pce pp_intra pp_non_intra]. cbn in F0, F1, F2, F3, D. repeat split; try assumption; try lia; [apply M0 | apply M0 | apply M1 | apply M1].
Qed.
(** A picture after its sequence headers, or what stops the decoder before it *)
Definition bad_more (h : list happening) (k : context) (c : list bool) : Prop :=
  (exists k2 k3 c2 p e g1 g2 c3 d2, (group_ctx k c2 k2 \/ (c2 = [] /\ k2 = k)) /\ wf_pic p /\ wf_pce e /\ gap g1 /\ gap g2 /\ items_ctx 2 k2 c3 k3 /\
     c = c2 ++ enc_pic p ++ g1 ++ enc_pce e ++ g2 ++ c3 ++ d2 /\ unsupported true d2) \/
  exists sh c2 g1 g2 c3 k2, stray_after h sh /\
    c = c2 ++ enc_pic (s_hdr sh) ++ g1 ++ enc_pce (s_pce sh) ++ g2 ++ c3 ++ s_data sh /\
    (if s_group sh then group_ctx k c2 k2 else c2 = [] /\ k2 = k) /\
    wf_pic (s_hdr sh) /\ wf_pce (s_pce sh) /\ gap g1 /\ gap g2 /\ items_ctx 2 k2 c3 (s_ctx sh).
Lemma more_stray : forall k h v r s', rlater r = [] -> ready r -> in_ctx k v -> wf_seq (c_seq k) -> wf_sext (c_ext k) -> v_fs v = fs_run h -> more_frames (v, r) = (Panic, s') ->
  bad_more h k (rbits r).
Proof.
  intros k h v r s' Hr Rd K WS WX FS H. unfold more_frames in H.
  apply np_panics in H; [|apply np_onr, np_safe, safe_peek_n]. destruct H as (nb & [v0 r0] & E & H). apply onr_inv in E. destruct E as (F & E). cbn [fst snd] in F, E. apply peek_after in E. destruct E as (-> & _ & _). subst v0.
  apply bind_panics in H. destruct H as [H | (u & [v1 r1] & E & H)].
  { destruct (nb =? GroupStartCode); [|discriminate]. apply np_panics in H; [|apply np_onr, np_safe, safe_gop]. destruct H as (g & [v2 r2] & E1 & H). apply onr_inv in E1. destruct E1 as (F & E1). cbn [fst snd] in F, E1. subst v2. apply gop_after in E1. destruct E1 as (sg & gp & t & W & G & A & Q & M & _).
    apply np_panics in H; [|apply np_upd]. destruct H as (u2 & s3 & E1 & H). apply upd_inv in E1. subst s3. cbn [fst snd] in H.
    apply ext_panics in H; [|rewrite (after_later _ _ _ A); exact Hr|exists t; auto|auto]. destruct H as (N & _). now elim N. }
  assert (X : exists (b : bool) c2 k2, in_ctx k2 v1 /\ c_seq k2 = c_seq k /\ c_ext k2 = c_ext k /\ ready r1 /\ after r c2 r1 /\ v_fs v1 = fs_run (h ++ if b then [NewGroup] else []) /\ (if b then group_ctx k c2 k2 else c2 = [] /\ k2 = k)).
  { destruct (nb =? GroupStartCode).
    - apply bind_ok_inv in E. destruct E as (g & [v2 r2] & E1 & E). apply onr_inv in E1. destruct E1 as (F & E1). cbn [fst snd] in F, E1. subst v2. apply gop_after in E1. destruct E1 as (sg & gp & t & W & G & A & Q & M & _).
      apply bind_ok_inv in E. destruct E as (u2 & s3 & E1 & E). apply upd_inv in E1. subst s3. cbn [fst snd] in E.
      pose proof (keeps_ok _ _ _ _ _ _ (keeps_ext 1) E) as (Fs & _). cbn [fst start_gop set_fc set_fs set_gop v_fs] in Fs.
      apply (items_in_ctx 1 _ _ _ _ _ k) in E; [|rewrite (after_later _ _ _ A); exact Hr|exists t; auto|auto|apply (in_ctx_same k v); [reflexivity|reflexivity|exact K]]. destruct E as (Hh & Rd2 & c & k2 & Xi & A2 & K2).
      destruct (ctx_wf _ _ _ _ Xi) as (C1 & C2). exists true, ((enc_gop sg ++ gp) ++ c), k2. split; [exact K2|]. split; [exact C1|]. split; [exact C2|]. split; [exact Rd2|]. split; [eapply after_app; eauto|]. split.
      + rewrite Fs, FS. unfold fs_run. now rewrite fold_left_app.
      + exists sg, gp, c. split; [exact W|]. split; [exact G|]. split; [now rewrite <- app_assoc | exact Xi].
    - inversion E; subst. exists false, [], k. split; [exact K|]. split; [reflexivity|]. split; [reflexivity|]. split; [exact Rd|]. split; [apply after_nil|]. split; [now rewrite app_nil_r|]. auto. }
  destruct X as (b & c2 & k2 & K2 & C1 & C2 & Rd1 & A1 & FS1 & G2). clear E u.
  assert (R1 : rlater r1 = []) by (rewrite (after_later _ _ _ A1); exact Hr).
  apply np_panics in H; [|apply np_safe, safe_vs_pic]. destruct H as (u & [v2 r2] & E & H). apply assign_after in E. destruct E as (ph & q1 & g1 & E & -> & G1 & Ag1 & Rd2). apply pic_after in E. destruct E as (p & Wp & Ap & ->).
  apply np_panics in H; [|apply np_safe, safe_vs_pce]. destruct H as (u2 & [v3 r3] & E & H). apply assign_after in E. destruct E as (pe & q2 & g2 & E & -> & G3 & Ag2 & Rd3). apply pce_after in E. destruct E as (e & We & Ae & ->).
  pose proof (after_app _ _ _ _ _ Ap Ag1) as X1. pose proof (after_app _ _ _ _ _ Ae Ag2) as X2. pose proof (after_app _ _ _ _ _ X1 X2) as X3. pose proof (after_app _ _ _ _ _ A1 X3) as X4. rewrite <- !app_assoc in X4.
  assert (R3 : rlater r3 = []) by (rewrite (after_later _ _ _ X3); exact R1).
  apply bind_panics in H. destruct H as [H | (u3 & [v4 r4] & E & H)].
  { apply (ext_stray 2 k2) in H; [|exact R3|exact Rd3|auto]. destruct H as (_ & c & k3 & t & Xi & Q & U). left. exists k2, k3, c2, p, e, g1, g2, c, t. split; [destruct b; auto|]. repeat (split; [assumption|]). split; [|exact U].
    rewrite (after_bits _ _ _ X4), Q, <- !app_assoc. reflexivity. }
  pose proof (keeps_ok _ _ _ _ _ _ (keeps_ext 2) E) as (Fs & _). cbn [fst set_ph set_pce v_fs] in Fs.
  apply (items_in_ctx 2 _ _ _ _ _ k2) in E; [|exact R3|exact Rd3|auto|]; [|destruct K2 as (Y1 & Y2 & Y3); split; [exact Y1 | split; [exact Y2 | exact Y3]]]. destruct E as (Hh & Rd4 & ci & k4 & Xi & Ai & K4). destruct (ctx_wf _ _ _ _ Xi) as (C3 & C4).
  assert (R4 : rlater r4 = []) by (rewrite (after_later _ _ _ Ai); exact R3).
  rewrite bind_own in H. unfold headers in Hh. cbn [v_sh v_se v_ph v_pce set_ph set_pce] in Hh. injection Hh as H1 H2 H3 H4. cbn [fst snd] in H. rewrite H3 in H.
  cbn [deref] in H. rewrite bind_ret in H. rewrite bind_upd in H. rewrite bind_own in H. cbn [fst snd] in H. set (v6 := set_fs (fs_set (ph_tr (pic_of p)) (v_fs v4)) v4) in *.
  apply bind_panics in H. destruct H as [H | (fr & [v5 r5] & _ & H)].
  2: { apply bind_panics in H. destruct H as [H | (? & ? & _ & H)]; [|discriminate]. destruct (_ || _) in H; discriminate. }
  apply onr_panics in H. destruct H as (r5 & H). cbn [fst snd] in H.
  assert (W4 : wf_seq (c_seq k4) /\ wf_sext (c_ext k4)) by (rewrite C3, C4, C1, C2; auto). destruct W4 as (W4 & W5).
  pose proof (picture_stray v6 k4 p e r4 r5 K4 W4 W5 H3 H4 R4 Rd4 H) as Rt. cbv zeta in Rt.
  set (sh := mkShot b k4 p e (rbits r4) (create_frame_buffer 0 0 0)). set (hb := h ++ opening sh).
  assert (FS4 : v_fs v4 = fs_run hb) by (unfold hb, opening; cbn [s_group sh]; congruence).
  assert (FS6 : v_fs v6 = fs_set (p_tr p) (fs_run hb)) by (cbn [v6 set_fs v_fs]; rewrite FS4; reflexivity).
  right. exists sh, c2, g1, g2, ci, k2. split.
  - intros past future P (CH & Hw & Hh) RF PO. cbv zeta in RF. change (h ++ opening sh) with hb in RF. destruct RF as (CO & RP & RFu). change (p_tr (s_hdr sh)) with (p_tr p) in *. change (s_type sh) with (p_type p) in *.
    apply (Rt past future CH Hw Hh); [| |exact PO].
    + intro T. replace (p_type p =? 1) with false in RP by lia. destruct RP as (f & c & Nb & L & ->). split; [|eauto]. cbn [serves]. exists f. split; [|exact L]. rewrite FS6. apply (store_neighbours hb (p_tr p) (CO T)), Nb.
    + intro T. replace (p_type p =? 3) with true in RFu by lia. destruct RFu as (f & c & Nb & L & ->). split; [|eauto]. cbn [serves]. exists f. split; [|exact L]. rewrite FS6. apply (store_neighbours hb (p_tr p) (CO ltac:(lia))), Nb.
  - split; [cbn [sh s_hdr s_pce s_data]; rewrite (after_bits _ _ _ X4), (after_bits _ _ _ Ai); now rewrite <- !app_assoc|]. split; [exact G2|]. split; [exact Wp|]. split; [exact We|]. split; [exact G1|]. split; [exact G3 | exact Xi].
Qed.
Lemma start_stray : forall v r u v1 r1 u2 v2 r2 s' h, rlater r = [] -> v_fs v = fs_run h -> vs_sequence_header (v, r) = (Ok u, (v1, r1)) -> vs_sequence_extension (v1, r1) = (Ok u2, (v2, r2)) ->
  continue_frames (v2, r2) = (Panic, s') -> exists k1 c1 d1, rbits r = c1 ++ d1 /\ start_ctx c1 k1 /\ (unsupported false d1 \/ bad_more h k1 d1).
Proof.
  intros v r u v1 r1 u2 v2 r2 s' h Hr FS E1 E2 H.
  assert (FS2 : v_fs v2 = fs_run h).
  { pose proof (keeps_ok _ _ _ _ _ _ keeps_seq E1) as (F1 & _). pose proof (keeps_ok _ _ _ _ _ _ keeps_sext E2) as (F2 & _). cbn [fst] in F1, F2. congruence. }
  unfold vs_sequence_header in E1. apply bind_ok_inv in E1. destruct E1 as (hd & [v0 r0] & E & E1). apply onr_inv in E. destruct E as (F & E). cbn [fst snd] in F, E. subst v0.
  unfold read_sequence_header in E. apply bind_ok_inv in E. destruct E as (h1 & q & E0 & E). apply seq_after in E0. destruct E0 as (s & Ws & A1 & ->). apply bind_ok_inv in E. destruct E as (u3 & q2 & E0 & E). apply gap_after in E0. destruct E0 as (g1 & t1 & G1 & Ag1 & _ & _).
  assert (hd = seq_of s /\ r0 = q2) as [-> ->] by (unfold ret in E; split; congruence). clear E. apply upd_inv in E1. cbn [fst snd] in E1. injection E1 as -> ->.
  apply assign_after in E2. destruct E2 as (se & q3 & g2 & E & -> & G2 & Ag2 & Rd2). apply sext_after in E. destruct E as (x & Wx & A2 & ->).
  pose proof (after_app _ _ _ _ _ A1 Ag1) as X1. pose proof (after_app _ _ _ _ _ A2 Ag2) as X2. pose proof (after_app _ _ _ _ _ X1 X2) as X3.
  set (k0 := ctx_start (mkStart s 0 x 0 [])).
  match type of H with continue_frames (?w, _) = _ => set (v3 := w) in *; assert (K0 : in_ctx k0 v3) end.
  { split; [reflexivity|]. split; [reflexivity|]. unfold mats, kmats, v3, k0, ctx_start, ctx_items. cbn [set_se set_sh set_q v_q0 v_q1 v_q2 v_q3 seq_of sh_load_intra sh_load_non_intra sh_intra sh_non_intra st_seq st_ext st_items fold_left c_m0 c_m1 c_m2 c_m3].
    destruct (q_intra s), (q_non_intra s); reflexivity. }
  clearbody v3.
  assert (R2 : rlater r2 = []) by (rewrite (after_later _ _ _ X3); exact Hr).
  assert (St : forall c k1, items_ctx 0 k0 c k1 -> start_ctx (((enc_seq s ++ g1) ++ enc_sext x ++ g2) ++ c) k1). { intros c k1 Xi. exists s, x, g1, g2, c. repeat (split; [assumption|]). split; [now rewrite <- !app_assoc | exact Xi]. }
  unfold continue_frames in H. apply bind_panics in H. destruct H as [H | (u4 & [v4 r4] & E & H)].
  - apply (ext_stray 0 k0) in H; [|exact R2|exact Rd2|auto]. destruct H as (_ & c & k1 & t & Xi & Q & U). exists k1, (((enc_seq s ++ g1) ++ enc_sext x ++ g2) ++ c), t. split; [rewrite (after_bits _ _ _ X3), Q, <- (app_assoc _ c t); reflexivity|]. split; [now apply St | now left].
  - pose proof (keeps_ok _ _ _ _ _ _ (keeps_ext 0) E) as (Fs & _). cbn [fst] in Fs.
    apply (items_in_ctx 0 _ _ _ _ _ k0) in E; [|exact R2|exact Rd2|auto|exact K0]. destruct E as (_ & Rd4 & ci & k1 & Xi & Ai & K1). destruct (ctx_wf _ _ _ _ Xi) as (C1 & C2).
    apply (more_stray k1 h) in H; [|rewrite (after_later _ _ _ Ai); exact R2|exact Rd4|exact K1|rewrite C1; exact Ws|rewrite C2; exact Wx|congruence].
    exists k1, (((enc_seq s ++ g1) ++ enc_sext x ++ g2) ++ ci), (rbits r4). split; [rewrite (after_bits _ _ _ X3), (after_bits _ _ _ Ai), <- (app_assoc _ ci); reflexivity|]. split; [now apply St | now right].
Qed.
(** Where the decoder stops, after the history [h] *)
Definition bad_step (o : option context) (h : list happening) (d : list bool) : Prop := stopped_at o d \/ exists sh, shot_bits o sh d /\ stray_after h sh.
Lemma bad_more_step : forall o h c0 c1 d1 k1, match o with None => gap c0 | Some _ => c0 = [] end -> start_ctx c1 k1 \/ (o = Some k1 /\ c1 = []) -> bad_more h k1 d1 -> bad_step o h (c0 ++ c1 ++ d1).
Proof.
  intros o h c0 c1 d1 k1 G0 S [(k2 & k3 & c2 & p & e & g1 & g2 & c3 & d2 & G & Wp & We & P1 & P2 & X & E & U) | (sh & c2 & g1 & g2 & c3 & k2 & R & E & Wf)].
  - left. exists c0, c1, d1. split; [reflexivity|]. split; [exact G0|]. right. exists k1, k2, k3, c2, p, e, g1, g2, c3, d2. auto 12.
  - right. exists sh. split; [|exact R]. exists c0, c1, c2, g1, g2, c3, k1, k2. split; [now rewrite E|]. auto.
Qed.
Lemma step_stray : forall o h v r s', rlater r = [] -> in_opt o v -> (o <> None -> ready r) -> v_fs v = fs_run h -> step (v, r) = (Panic, s') -> bad_step o h (rbits r).
Proof.
  intros o h v r s' Hr K Rd FS H. unfold step in H. rewrite bind_own in H. cbn [fst snd] in H.
  assert (St : forall c0 r0 k1 c1 d1, after r c0 r0 -> match o with None => gap c0 | Some _ => c0 = [] end -> rbits r0 = c1 ++ d1 -> start_ctx c1 k1 -> unsupported false d1 \/ bad_more h k1 d1 -> bad_step o h (rbits r)).
  { intros c0 r0 k1 c1 d1 A G Q S B. rewrite (after_bits _ _ _ A), Q. destruct B as [U|B]; [|apply (bad_more_step o h c0 c1 d1 k1); auto].
    left. exists c0, c1, d1. split; [reflexivity|]. split; [exact G|]. left. eauto. }
  destruct o as [k|]; cbn [in_opt] in K.
  - destruct K as (K & WS & WX). rewrite (proj1 K) in H. specialize (Rd ltac:(discriminate)).
    apply np_panics in H; [|apply np_onr, np_safe, safe_peek_n]. destruct H as (nb & [v0 r0] & E & H). apply onr_inv in E. destruct E as (F & E). cbn [fst snd] in F, E. apply peek_after in E. destruct E as (-> & _ & _). subst v0.
    destruct (_ || _) in H.
    + apply (more_stray k h) in H; [|assumption..]. apply (bad_more_step (Some k) h [] [] (rbits r) k); auto.
    + apply np_panics in H; [|apply np_onr, np_safe, safe_peek_n]. destruct H as (nb2 & [v0 r0] & E & H). apply onr_inv in E. destruct E as (F & E). cbn [fst snd] in F, E. apply peek_after in E. destruct E as (-> & _ & _). subst v0.
      destruct (_ =? _) in H; [apply np_panics in H; [|apply np_onr, np_safe, safe_skip_n]; destruct H as (? & ? & _ & H); discriminate|].
      apply np_panics in H; [|apply np_safe, safe_vs_seq]. destruct H as (u & [v1 r1] & E1 & H). apply np_panics in H; [|apply np_safe, safe_vs_sext]. destruct H as (u2 & [v2 r2] & E2 & H).
      destruct (start_stray _ _ _ _ _ _ _ _ _ h Hr FS E1 E2 H) as (k1 & c1 & d1 & Q & S & B). apply (St [] r k1 c1 d1); auto. apply after_nil.
  - rewrite K in H. apply np_panics in H; [|apply np_onr, np_safe, safe_nsc]. destruct H as (u0 & [v0 r0] & E & H). apply onr_inv in E. destruct E as (F & E). cbn [fst snd] in F, E. subst v0. apply gap_after in E. destruct E as (g & t & G0 & A0 & _ & _).
    apply np_panics in H; [|apply np_safe, safe_vs_seq]. destruct H as (u & [v1 r1] & E1 & H).
    apply np_panics in H; [|apply np_onr, np_safe, safe_peek_n]. destruct H as (nb & [v3 r3] & E & H). apply onr_inv in E. destruct E as (F & E). cbn [fst snd] in F, E. apply peek_after in E. destruct E as (-> & _ & _). subst v3.
    destruct (negb _) in H; [discriminate|]. apply np_panics in H; [|apply np_safe, safe_vs_sext]. destruct H as (u2 & [v2 r2] & E2 & H).
    assert (Hr0 : rlater r0 = []) by (rewrite (after_later _ _ _ A0); exact Hr).
    destruct (start_stray _ _ _ _ _ _ _ _ _ h Hr0 FS E1 E2 H) as (k1 & c1 & d1 & Q & S & B). apply (St g r0 k1 c1 d1); auto.
Qed.

(** * Calls of Next *)
Lemma loop_is_stray : forall f o h v r s', rlater r = [] -> in_opt o v -> (o <> None -> ready r) -> v_fs v = fs_run h -> next_loop f (v, r) = (Panic, s') ->
  exists shs c d, rbits r = c ++ d /\ shots_bits o shs c /\ rights h shs /\ bad_step (last_ctx o shs) (h ++ history shs) d.
Proof.
  induction f as [|f IH]; intros o h v r s' Hr K Rd FS H; cbn [next_loop] in H; [discriminate|].
  apply bind_panics in H. destruct H as [H | (im & [v1 r1] & E & H)].
  - apply (step_stray o h) in H; [|assumption..]. exists [], [], (rbits r). split; [reflexivity|]. split; [constructor|]. split; [constructor|]. cbn [last_ctx history flat_map]. rewrite app_nil_r. exact H.
  - destruct (step_shot o h _ _ _ _ _ Hr K Rd FS E) as (sh & c & Sb & Sf & A & Rd1 & I1 & F1 & Tl & R1).
    rewrite bind_own in H. cbn [fst snd] in H. rewrite (proj1 Tl) in H. cbn [deref] in H. rewrite bind_ret in H.
    destruct (_ =? v_fc v1) in H; [rewrite bind_upd in H; discriminate|].
    apply (IH (Some (s_ctx sh)) (h ++ happened sh)) in H; [|rewrite (after_later _ _ _ A); exact Hr|exact I1|auto|exact F1]. destruct H as (shs & c2 & d & Q & S & R & B).
    exists (sh :: shs), (c ++ c2), d. split; [rewrite (after_bits _ _ _ A), Q; apply app_assoc|]. split; [now constructor|]. split; [now constructor|]. cbn [last_ctx history flat_map]. rewrite app_assoc. exact B.
Qed.
Lemma in_force_last : forall shs, in_force shs = last_ctx None shs.
Proof.
  intro shs. unfold in_force. rewrite <- (rev_involutive shs) at 2. destruct (rev shs) as [|sh l]; [reflexivity|]. cbn [rev]. now rewrite last_ctx_app.
Qed.
Theorem nexts_stray : forall n r imgs v' r' s', rlater r = [] -> nexts n (new_vidseq, r) = (Ok imgs, (v', r')) -> next (v', r') = (Panic, s') ->
  exists shs c d, rbits r = c ++ d /\ shots_bits None shs c /\ Forall (fun img => In img (map s_frame shs)) imgs /\
    (forall before sh later, shs = before ++ sh :: later -> right before sh) /\
    (stopped_at (in_force shs) d \/ exists sh, shot_bits (in_force shs) sh d /\ stray shs sh).
Proof.
  intros n r imgs v' r' s' Hr E H. destruct (nexts_shots n None [] new_vidseq r imgs v' r' Hr eq_refl ltac:(congruence) eq_refl E) as (a & (c & S & A & I1 & Rd1 & F1 & R) & F).
  unfold next in H. rewrite bind_own in H. cbn [fst snd] in H. destruct (fs_tryget (v_fc v') (v_fs v')); [rewrite bind_upd in H; discriminate|].
  apply (loop_is_stray _ (last_ctx None a) (history a)) in H; [|rewrite (after_later _ _ _ A); exact Hr|exact I1|exact Rd1|exact F1]. destruct H as (b & c2 & d & Q & S2 & R2 & B).
  assert (Sab : shots_bits None (a ++ b) (c ++ c2)) by now apply shots_app.
  pose proof (shots_ok _ _ _ Sab Logic.I) as Ok.
  exists (a ++ b), (c ++ c2), d. split; [rewrite (after_bits _ _ _ A), Q; apply app_assoc|]. split; [exact Sab|].
  split; [eapply Forall_impl; [|exact F]; intros im Im; cbn [app] in Im; rewrite map_app; apply in_or_app; now left|].
  split; [intros before sh later Es; exact (rights_split [] (a ++ b) (rights_app a [] b R R2) Ok before sh later Es)|].
  rewrite in_force_last, last_ctx_app. rewrite <- history_app in B. destruct B as [B|(sh & Sh & St)]; [now left|]. right. exists sh. split; [exact Sh|].
  assert (K : match last_ctx (last_ctx None a) b with Some k => ctx_ok k | None => True end).
  { rewrite <- last_ctx_app, <- in_force_last. unfold in_force. destruct (rev (a ++ b)) as [|x l] eqn:El; [exact Logic.I|]. rewrite Forall_forall in Ok. apply (Ok x). apply in_rev. rewrite El. now left. }
  destruct (shot_ok _ _ _ Sh K) as (K1 & K2). now apply stray_is.
Qed.
