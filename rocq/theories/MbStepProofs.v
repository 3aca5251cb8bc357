(** MbStepProofs: macroblocks from their bits to samples: the parts of the function. *)
From Verif Require Import Base BitReader Exec Local TsRobust VlcTables Huffman BlockModel VidModel SpecVid SpecVlc SpecBlock SpecMotion VidProofs VlcProofs BlockProofs DequantProofs IdctProofs PropertiesBlock
  MbModel MotionProofs FrameProofs MbProofs SpecNext SpecPicture CanvasProofs MacroblockProofs MbRunProofs.

(** * Macroblock modes *)
Lemma type_run : forall P c t rd l, 1 <= pp_type P <= 3 -> mbt_code (type_table (pp_type P)) c (mbt_fields t) ->
  (if pp_type P =? IFrame then mbtype_decode_I else if pp_type P =? PFrame then mbtype_decode_P else if pp_type P =? BFrame then mbtype_decode_B else panic)
    (setb rd (c ++ l)) = (Ok t, setb rd l).
Proof.
  intros P c t rd l H C. unfold type_table, IFrame, PFrame, BFrame in *.
  assert (pp_type P = 1 \/ pp_type P = 2 \/ pp_type P = 3) as [E|[E|E] ] by lia; rewrite E in *.
  - exact (proj1 C39_macroblock_type_I c t rd l C).
  - exact (proj1 C39_macroblock_type_P c t rd l C).
  - exact (proj1 C39_macroblock_type_B c t rd l C).
Qed.
Definition mode_of (P : params) (b : smb) : mbmode :=
  mkMode (mkMBT (some (b_quant b)) (is_forward b) (some (b_backward b)) (is_coded b) (is_intra b))
    (if (is_forward b || some (b_backward b)) && negb (e_fpfd (pp_pce P)) then 2 else 0) 0
    (if negb (e_fpfd (pp_pce P)) && (is_intra b || is_coded b) then field_dct (b_body b) else false).
Lemma mode_run : forall P e b c rd l, params_ok P -> pce_holds (pp_pce P) e ->
  mbt_code (type_table (pp_type P)) c (some (b_quant b), is_forward b, some (b_backward b), is_coded b, is_intra b) ->
  macroblock_mode (pp_type P) e (setb rd (c ++ (if (is_forward b || some (b_backward b)) && negb (e_fpfd (pp_pce P)) then enc 2 2 else []) ++
    (if negb (e_fpfd (pp_pce P)) && (is_intra b || is_coded b) then [field_dct (b_body b)] else []) ++ l)) = (Ok (mode_of P b), setb rd l).
Proof.
  intros P e b c rd l (HT & HS & _) (_ & _ & _ & _ & _ & ES & _ & EF & _) C. unfold macroblock_mode, mode_of.
  set (t := mkMBT (some (b_quant b)) (is_forward b) (some (b_backward b)) (is_coded b) (is_intra b)).
  set (fw := is_forward b) in *. set (bw := some (b_backward b)) in *. set (fd := field_dct (b_body b)) in *.
  assert (E : forall l, (if pp_type P =? IFrame then mbtype_decode_I else if pp_type P =? PFrame then mbtype_decode_P else if pp_type P =? BFrame then mbtype_decode_B else panic) (setb rd (c ++ l)) = (Ok t, setb rd l))
    by (intro l'; apply (type_run P c t rd l' HT C)).
  rewrite (bind_ok _ _ _ _ _ _ _ _ (E _)). cbn [t mb_motion_forward mb_motion_backward mb_intra mb_pattern]. clear E.
  rewrite ES, HS, EF. change (3 =? FramePicture) with true. cbn match. cbn [andb].
  destruct (e_fpfd (pp_pce P)); cbn [Z.b2z Z.eqb negb andb app].
  - rewrite andb_false_r. destruct (fw || bw); rewrite !bind_ret; reflexivity.
  - rewrite andb_true_r. destruct (fw || bw).
    + rewrite bind_assoc. rewrite (bind_ok _ _ _ _ _ _ _ _ (read_enc 2 2 rd _ ltac:(lia))). rewrite !bind_ret.
      destruct (is_intra b || is_coded b); [|rewrite !bind_ret; reflexivity].
      assert (E : read1 (setb rd ([fd] ++ l)) = (Ok fd, setb rd l)) by (apply read1_cons). rewrite (bind_ok _ _ _ _ _ _ _ _ E). reflexivity.
    + rewrite !bind_ret. cbn [app].
      destruct (is_intra b || is_coded b); [|rewrite !bind_ret; reflexivity].
      assert (E : read1 (setb rd ([fd] ++ l)) = (Ok fd, setb rd l)) by (apply read1_cons). rewrite (bind_ok _ _ _ _ _ _ _ _ E). reflexivity.
Qed.

(** * Skipped macroblocks *)
Lemma predict_byte : forall m fs w h row col i x y, refs_in w h row col m fs -> 0 <= i < 6 -> block_x i col <= x < block_x i col + 8 -> block_y i row <= y < block_y i row + 8 ->
  0 <= predict_at (past_ref m fs) (future_ref m fs) i x y <= 255.
Proof.
  intros m fs w h row col i x y (BP & BF & R) Hi Hx Hy. destruct (R i Hi) as [R1 R2]. exact (predict_at_range _ _ w h i row col x y Hi R1 R2 BP BF Hx Hy).
Qed.
Lemma skip_run : forall v P e s m cv row addr incr r, vctx v P e -> agree e s m -> dirs_ok P s -> looks (ms_frame m) cv -> cv_w cv = pp_w P -> cv_h cv = pp_h P ->
  -1 <= addr -> 1 <= incr -> mb_in (pp_w P) (pp_h P) row (addr + incr) ->
  (0 <= addr -> 1 < incr -> pp_type P <> 1 /\ (pp_type P = 2 -> exists c, pp_past P = Is c /\ cv_w c = pp_w P /\ cv_h c = pp_h P) /\
     (pp_type P = 3 -> forall col, addr < col < addr + incr -> cvector_in P row col (past_of P s) /\ cvector_in P row col (future_of P s))) ->
  exists f', copy_skipped v (pp_type P) row addr incr (m, r) = (Ok tt, (ms_set_frame f' m, r)) /\
    looks f' (if addr =? -1 then cv else paint_skipped P row (addr + 1) (incr - 1) s cv).
Proof.
  intros v P e s m cv row addr incr r HV HA HDI L W H Ha Hi Hm K. unfold copy_skipped.
  assert (SAME : forall X, X = cv -> exists f', (Ok tt, (m, r)) = (Ok tt, (ms_set_frame f' m, r)) /\ looks f' X).
  { intros X ->. exists (ms_frame m). split; [destruct m; reflexivity | exact L]. }
  destruct (addr =? -1) eqn:EA; cbn [negb andb]; [now apply SAME|]. rewrite Z.gtb_ltb. unfold paint_skipped.
  destruct (1 <? incr) eqn:EI; [|replace (incr - 1 <=? 0) with true by lia; now apply SAME]. replace (incr - 1 <=? 0) with false by lia.
  destruct (K ltac:(lia) ltac:(lia)) as (T1 & T2 & T3). pose proof HV as (_ & _ & _ & _ & _ & _ & SP & SF & PO). pose proof PO as (HT & _).
  destruct Hm as (Hr & Hrh & Hc & Hcw). unfold PFrame, BFrame. destruct (pp_type P =? 2) eqn:E2.
  - destruct (T2 ltac:(lia)) as (past & EP & DW & DH). specialize (SP T1). rewrite EP in SP |- *. destruct SP as (img & -> & SP). unfold deref. rewrite bind_ret. unfold own. unfold bind at 1. cbn [fst].
    destruct (pframe_copy_ok _ row (addr + 1) (incr - 1) (ms_frame m) img (pp_w P) (pp_h P) (m, r)) as (f' & E1 & R); try lia.
    { rewrite <- W, <- H. exact (proj1 L). }
    { rewrite <- DW, <- DH. exact (proj1 SP). }
    rewrite (bind_ok _ _ _ _ _ _ _ _ E1). exists f'. split; [reflexivity|]. rewrite <- W, <- H in R. destruct SP as (_ & _ & _ & S1 & S2 & S3).
    assert (W2 : 8 * (addr + 1 + (incr - 1)) <= cv_w past / 2) by (rewrite DW; dm (pp_w P) 2; lia). assert (H2 : 8 * row + 8 <= cv_h past / 2) by (rewrite DH; dm (pp_h P) 2; lia).
    apply (looks_paint _ _ cv row (addr + 1) (incr - 1) _ _ _ _ _ _ L R); intros x y I; apply in_mbs_spec in I; [apply S1 | apply S2 | apply S3]; lia.
  - assert (E3 : pp_type P = 3) by lia. rewrite E3. cbn [Z.eqb Pos.eqb]. unfold own. unfold bind at 1. cbn [fst]. specialize (T3 E3).
    destruct (past_looks v P e s m HV HA HDI) as [LP LF].
    assert (RO : forall col, addr < col < addr + incr -> refs_in (pp_w P) (pp_h P) row col (ms_mvd m) (v_fs v) /\
       forall i, 0 <= i < 6 -> ref_in (pp_w P) (pp_h P) i row col (past_of P s) /\ ref_in (pp_w P) (pp_h P) i row col (future_of P s)).
    { intros col Hcol. destruct (T3 col Hcol) as [V1 V2]. exact (refs_of v P e s m row col HV HA HDI V1 V2). }
    destruct (bframe_copy_ok _ (Z.to_nat (incr - 1)) (ms_mvd m) (v_fs v) (pp_w P) (pp_h P) row (addr + 1) (ms_frame m) (m, r)) as (f' & E1 & R).
    { rewrite <- W, <- H. exact (proj1 L). }
    { intros col Hcol. split; [unfold mb_in; lia|]. apply RO. lia. }
    rewrite (bind_ok _ _ _ _ _ _ _ _ E1). exists f'. split; [reflexivity|]. rewrite Z2Nat.id in R by lia. rewrite <- W, <- H in R.
    apply (looks_paint _ _ cv row (addr + 1) (incr - 1) _ _ _ _ _ _ L R); intros x y I; apply in_mbs_spec in I; destruct I as [Ix Iy].
    + assert (C : 16 * (x / 16) <= x < 16 * (x / 16 + 1)) by (dm x 16; lia). destruct (RO (x / 16) ltac:(lia)) as [R1 R2].
      assert (M : in_mbs 16 row (x / 16) 1 x y = true) by (apply in_mbs_spec; lia).
      destruct (quarter row (x / 16) x y C Iy) as (i & Hi4 & Bx & By).
      pose proof (predict_byte _ _ _ _ row (x / 16) i x y R1 ltac:(lia) Bx By) as B. rewrite predict_luma in B by exact Hi4.
      pose proof (same_luma _ _ _ _ _ _ row (x / 16) LP LF R2 x y M) as S. split; [exact S | now rewrite <- S].
    + assert (C : 8 * (x / 8) <= x < 8 * (x / 8 + 1)) by (dm x 8; lia). destruct (RO (x / 8) ltac:(lia)) as [R1 R2].
      assert (M : in_mbs 8 row (x / 8) 1 x y = true) by (apply in_mbs_spec; lia).
      pose proof (predict_byte _ _ _ _ row (x / 8) 4 x y R1 ltac:(lia) ltac:(unfold block_x; change (4 <? 4) with false; cbv iota; lia) ltac:(unfold block_y; change (4 <? 4) with false; cbv iota; lia)) as B.
      pose proof (same_chroma _ _ _ _ _ _ row (x / 8) LP LF R2 4 x y ltac:(lia) M) as S. split; [exact S | now rewrite <- S].
    + assert (C : 8 * (x / 8) <= x < 8 * (x / 8 + 1)) by (dm x 8; lia). destruct (RO (x / 8) ltac:(lia)) as [R1 R2].
      assert (M : in_mbs 8 row (x / 8) 1 x y = true) by (apply in_mbs_spec; lia).
      pose proof (predict_byte _ _ _ _ row (x / 8) 5 x y R1 ltac:(lia) ltac:(unfold block_x; change (5 <? 4) with false; cbv iota; lia) ltac:(unfold block_y; change (5 <? 4) with false; cbv iota; lia)) as B.
      pose proof (same_chroma _ _ _ _ _ _ row (x / 8) LP LF R2 5 x y ltac:(lia) M) as S. split; [exact S | now rewrite <- S].
Qed.
