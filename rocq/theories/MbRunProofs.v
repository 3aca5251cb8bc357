(** MbRunProofs: macroblocks from their bits to samples: the whole function. *)
From Verif Require Import Base BitReader Exec Local TsRobust VlcTables Huffman BlockModel VidModel SpecVid SpecVlc SpecBlock SpecMotion VidProofs VlcProofs BlockProofs DequantProofs IdctProofs PropertiesBlock
  MbModel MotionProofs FrameProofs MbProofs SpecNext SpecPicture CanvasProofs MacroblockProofs.

(** * State *)
Definition agree (e : piccodext) (s : pstate) (m : mstate) : Prop :=
  ms_dcp m = pred_list (ps_dc s) /\ ms_qsc m = ps_q s /\ 0 <= ps_q s < 32 /\ mv_good e (ms_mvd m) /\
  mv_of (ms_mvd m) 0 = ps_fwd s /\ mv_of (ms_mvd m) 1 = ps_bwd s /\
  (pmv (ms_mvd m) 0 0 0, pmv (ms_mvd m) 0 0 1) = ps_fwd s /\ (pmv (ms_mvd m) 0 1 0, pmv (ms_mvd m) 0 1 1) = ps_bwd s /\
  (mv_fwd (ms_mvd m), mv_bwd (ms_mvd m)) = ps_dirs s.

Lemma f_codes_of : forall P e, pce_holds (pp_pce P) e -> params_ok P -> f_codes_ok e.
Proof.
  intros P e (E1 & E2 & E3 & E4 & _) (_ & _ & _ & _ & H1 & H2 & H3 & H4 & _) s t Hs Ht.
  destruct s as [|[|s] ]; [| |lia]; (destruct t as [|[|t] ]; [| |lia]); cbn [f_code]; lia.
Qed.

(** The references of the state *)
Definition dirs_ok (P : params) (s : pstate) : Prop := (fst (ps_dirs s) = true -> pp_type P <> 1) /\ (snd (ps_dirs s) = true -> pp_type P = 3) /\ available P s.
Lemma past_looks : forall v P e s m, vctx v P e -> agree e s m -> dirs_ok P s ->
  ref_looks (past_ref (ms_mvd m) (v_fs v)) (past_of P s) /\ ref_looks (future_ref (ms_mvd m) (v_fs v)) (future_of P s).
Proof.
  intros v P e s m (_ & _ & _ & _ & _ & _ & SP & SF & _) (_ & _ & _ & _ & V1 & V2 & _ & _ & D) (D1 & D2 & D3 & D4). unfold past_ref, future_ref, past_of, future_of. rewrite <- D, V1, V2. rewrite <- D in D1, D2, D3, D4. cbn [fst snd] in *.
  split; [destruct (mv_fwd (ms_mvd m)) | destruct (mv_bwd (ms_mvd m))]; cbn [mc_ref]; try exact I.
  - specialize (SP (D1 eq_refl)). specialize (D3 eq_refl). destruct (pp_past P); [congruence | cbn [serves] in SP; rewrite SP; exact I|]. destruct SP as (g & -> & SP). cbn. auto.
  - specialize (SF (D2 eq_refl)). specialize (D4 eq_refl). destruct (pp_future P); [congruence | cbn [serves] in SF; rewrite SF; exact I|]. destruct SF as (g & -> & SF). cbn. auto.
Qed.
Lemma refs_of : forall v P e s m row col, vctx v P e -> agree e s m -> dirs_ok P s -> cvector_in P row col (past_of P s) -> cvector_in P row col (future_of P s) ->
  refs_in (pp_w P) (pp_h P) row col (ms_mvd m) (v_fs v) /\
  forall i, 0 <= i < 6 -> ref_in (pp_w P) (pp_h P) i row col (past_of P s) /\ ref_in (pp_w P) (pp_h P) i row col (future_of P s).
Proof.
  intros v P e s m row col HV HA HD CP CF. destruct (past_looks v P e s m HV HA HD) as [LP LF]. pose proof HV as (_ & _ & _ & _ & _ & _ & _ & _ & PO).
  assert (RI : forall i, 0 <= i < 6 -> ref_in (pp_w P) (pp_h P) i row col (past_of P s) /\ ref_in (pp_w P) (pp_h P) i row col (future_of P s)).
  { intros i Hi. split.
    - destruct (past_of P s) as [[c mv]|]; [|exact I]. cbn [ref_in cvector_in] in *. destruct CP as (W & H & CP). auto.
    - destruct (future_of P s) as [[c mv]|]; [|exact I]. cbn [ref_in cvector_in] in *. destruct CF as (W & H & CF). auto. }
  split; [|exact RI]. split; [|split].
  - destruct (past_ref (ms_mvd m) (v_fs v)) as [[f a]|], (past_of P s) as [[c b]|]; cbn in LP; try contradiction; cbn [ref_bytes]; [|exact I]. exact (looks_bytes f c (proj1 LP)).
  - destruct (future_ref (ms_mvd m) (v_fs v)) as [[f a]|], (future_of P s) as [[c b]|]; cbn in LF; try contradiction; cbn [ref_bytes]; [|exact I]. exact (looks_bytes f c (proj1 LF)).
  - intros i Hi. destruct (RI i Hi) as [R1 R2]. split.
    + destruct (past_ref (ms_mvd m) (v_fs v)) as [[f a]|], (past_of P s) as [[c b]|]; cbn [ref_looks] in LP; try contradiction; cbn [reference_in ref_in] in *; [|exact I].
      destruct LP as [LP <-]. destruct R1 as (<- & <- & R1). split; [exact (proj1 LP) | exact R1].
    + destruct (future_ref (ms_mvd m) (v_fs v)) as [[f a]|], (future_of P s) as [[c b]|]; cbn [ref_looks] in LF; try contradiction; cbn [reference_in ref_in] in *; [|exact I].
      destruct LF as [LF <-]. destruct R2 as (<- & <- & R2). split; [exact (proj1 LF) | exact R2].
Qed.

(** * Samples *)
Lemma predict_luma : forall past future i x y, 0 <= i < 4 -> predict_at past future i x y = predict_at past future 0 x y.
Proof.
  intros past future i x y H. assert (E : forall f a, predict1_at f i a x y = predict1_at f 0 a x y).
  { intros f a. unfold predict1_at, sample, block_vector. assert (i <? 4 = true) as -> by lia. reflexivity. }
  unfold predict_at. destruct past as [[f a]|], future as [[g b]|]; rewrite ?E; reflexivity.
Qed.
Lemma cpredict_luma : forall past future i x y, 0 <= i < 4 -> cpredict past future i x y = cpredict past future 0 x y.
Proof.
  intros past future i x y H. assert (E : forall f a, cpredict1 f i a x y = cpredict1 f 0 a x y).
  { intros f a. unfold cpredict1, csample, block_vector. assert (i <? 4 = true) as -> by lia. reflexivity. }
  unfold cpredict. destruct past as [[f a]|], future as [[g b]|]; rewrite ?E; reflexivity.
Qed.
Lemma quarter : forall row col x y, 16 * col <= x < 16 * (col + 1) -> 16 * row <= y < 16 * row + 16 ->
  exists i, 0 <= i < 4 /\ block_x i col <= x < block_x i col + 8 /\ block_y i row <= y < block_y i row + 8.
Proof.
  intros row col x y Hx Hy. unfold block_x, block_y.
  assert (x < 16 * col + 8 \/ 16 * col + 8 <= x) as [A|A] by lia; assert (y < 16 * row + 8 \/ 16 * row + 8 <= y) as [B|B] by lia;
  [exists 0 | exists 2 | exists 1 | exists 3]; (split; [lia|]).
  - change (0 <? 4) with true. change (0 mod 2) with 0. change (0 / 2) with 0. cbv iota. lia.
  - change (2 <? 4) with true. change (2 mod 2) with 0. change (2 / 2) with 1. cbv iota. lia.
  - change (1 <? 4) with true. change (1 mod 2) with 1. change (1 / 2) with 0. cbv iota. lia.
  - change (3 <? 4) with true. change (3 mod 2) with 1. change (3 / 2) with 1. cbv iota. lia.
Qed.
Lemma same_luma : forall past future cp cf w h row col, ref_looks past cp -> ref_looks future cf -> (forall i, 0 <= i < 6 -> ref_in w h i row col cp /\ ref_in w h i row col cf) -> forall x y, in_mbs 16 row col 1 x y = true -> predict_at past future 0 x y = cpredict cp cf 0 x y.
Proof.
  intros past future cp cf w h row col LP LF RI x y H. apply in_mbs_spec in H. destruct H as [Hx Hy]. destruct (quarter row col x y Hx Hy) as (i & Hi & Bx & By).
  rewrite <- (predict_luma past future i x y Hi), <- (cpredict_luma cp cf i x y Hi). destruct (RI i ltac:(lia)) as [R1 R2].
  exact (predict_looks past future cp cf w h i row col x y LP LF ltac:(lia) R1 R2 Bx By).
Qed.
Lemma same_chroma : forall past future cp cf w h row col, ref_looks past cp -> ref_looks future cf -> (forall i, 0 <= i < 6 -> ref_in w h i row col cp /\ ref_in w h i row col cf) -> forall i x y, 4 <= i < 6 -> in_mbs 8 row col 1 x y = true -> predict_at past future i x y = cpredict cp cf i x y.
Proof.
  intros past future cp cf w h row col LP LF RI i x y Hi H. apply in_mbs_spec in H. destruct H as [Hx Hy]. destruct (RI i ltac:(lia)) as [R1 R2].
  apply (predict_looks past future cp cf w h i row col x y LP LF ltac:(lia) R1 R2); unfold block_x, block_y; assert (i <? 4 = false) as -> by lia; lia.
Qed.
Lemma clamp_range : forall z, 0 <= clamp255 z <= 255.
Proof. intro z. unfold clamp255. lia. Qed.

Lemma mb_luma_map : forall field r0 r1 r2 r3 x y, 0 <= x < 16 -> 0 <= y < 16 ->
  forall g, (forall r k, (k < 64)%nat -> nth k (g r) 0 = clamp255 (nth k r 0)) ->
  mb_luma field [g r0; g r1; g r2; g r3] x y = clamp255 (mb_luma field [r0; r1; r2; r3] x y).
Proof.
  intros field r0 r1 r2 r3 x y Hx Hy g Hg. unfold mb_luma.
  assert (K : forall n k, (n < 4)%nat -> (k < 64)%nat -> nth k (nth n [g r0; g r1; g r2; g r3] []) 0 = clamp255 (nth k (nth n [r0; r1; r2; r3] []) 0)).
  { intros n k Hn Hk. destruct n as [|[|[|[|n] ] ] ]; [| | | |lia]; cbn [nth]; now apply Hg. }
  dm x 8. dm y 8. dm y 2. destruct field; apply K; lia.
Qed.

(** Six blocks are a macroblock *)
Lemma chain_looks : forall P w h row col f0 past future rs f f' cp cf c, looks f c -> cv_w c = w -> cv_h c = h -> length rs = 6%nat ->
  (f0 = true -> past = None /\ future = None) ->
  chain w h row col f0 past future 0 rs f f' -> ref_looks past cp -> ref_looks future cf ->
  (forall i, 0 <= i < 6 -> ref_in w h i row col cp /\ ref_in w h i row col cf) ->
  forall s b, rs = residuals P (ps_q s) (b_body b) -> f0 = field_dct (b_body b) -> cp = past_of P s -> cf = future_of P s ->
  looks f' (paint_mb P row col s b c).
Proof.
  intros P w h row col f0 past future rs f f' cp cf c L <- <- L6 HF C LP LF RI s b -> -> -> ->. unfold paint_mb. set (rs := residuals P (ps_q s) (b_body b)) in *.
  destruct rs as [|r0 [|r1 [|r2 [|r3 [|r4 [|r5 [|r6 rs] ] ] ] ] ] ]; try discriminate. clear L6.
  cbn [chain Z.of_nat Pos.of_succ_nat Pos.succ] in C. destruct C as (f1 & W0 & f2 & W1 & f3 & W2 & f4 & W3 & f5 & W4 & f6 & W5 & ->).
  destruct (field_dct (b_body b)) eqn:FD.
  - destruct (HF eq_refl) as [-> ->]. destruct (past_of P s) as [?|] eqn:PO; [contradiction|]. destruct (future_of P s) as [?|] eqn:FO; [contradiction|].
    pose proof (six_written _ _ row col true _ _ _ _ _ _ f f1 f2 f3 f4 f5 f6 W0 W1 W2 W3 W4 W5) as R.
    apply (looks_paint f f6 c row col 1 _ _ _ _ _ _ L R); intros x y H; apply in_mbs_spec in H; (split; [|apply clamp_range]); cbn [cpredict nth]; rewrite Z.add_0_r.
    + change [recon None None 0 row col r0; recon None None 1 row col r1; recon None None 2 row col r2; recon None None 3 row col r3] with [recon None None 0 row col r0; recon None None 0 row col r1; recon None None 0 row col r2; recon None None 0 row col r3].
      rewrite (mb_luma_map true r0 r1 r2 r3 (x - 16 * col) (y - 16 * row) ltac:(lia) ltac:(lia) (recon None None 0 row col)).
      * unfold mb_luma. dm (x - 16 * col) 8. dm (y - 16 * row) 2. f_equal. f_equal. rewrite (app_nth1 [r0; r1; r2; r3] [r4; r5]); [reflexivity | cbn [length]; lia].
      * intros r k Hk. rewrite recon_nth by exact Hk. unfold predict, predict_at. now rewrite Z.add_0_r.
    + rewrite recon_nth by lia. unfold predict, predict_at. now rewrite Z.add_0_r.
    + rewrite recon_nth by lia. unfold predict, predict_at. now rewrite Z.add_0_r.
  - pose proof (six_recon _ _ row col past future r0 r1 r2 r3 r4 r5 f f1 f2 f3 f4 f5 f6 W0 W1 W2 W3 W4 W5) as R. unfold mb_result in R. cbn [fst snd firstn nth] in R.
    apply (looks_paint f f6 c row col 1 _ _ _ _ _ _ L R); intros x y H; (split; [|apply clamp_range]); cbn [nth]; f_equal.
    + rewrite (same_luma past future _ _ _ _ row col LP LF RI x y H). f_equal. apply in_mbs_spec in H. unfold mb_luma.
      dm (x - 16 * col) 8. dm (y - 16 * row) 8. f_equal. rewrite (app_nth1 [r0; r1; r2; r3] [r4; r5]); [reflexivity | cbn [length]; lia].
    + now rewrite (same_chroma past future _ _ _ _ row col LP LF RI 4 x y ltac:(lia) H).
    + now rewrite (same_chroma past future _ _ _ _ row col LP LF RI 5 x y ltac:(lia) H).
Qed.
