(** MacroblockProofs: macroblocks from their bits to samples. *)
From Verif Require Import Base BitReader Exec Local TsRobust VlcTables Huffman BlockModel VidModel SpecVid SpecVlc SpecBlock SpecMotion VidProofs VlcProofs BlockProofs DequantProofs IdctProofs PropertiesBlock
  MbModel MotionProofs FrameProofs MbProofs SpecNext SpecPicture CanvasProofs.

(** * One block *)
Lemma ok_pair : forall S A B (a a' : A) (b b' : B) (s s' : S), (Ok (a, b), s) = (Ok (a', b'), s') -> a = a' /\ b = b'.
Proof. intros. split; congruence. Qed.
Lemma put_block_len : forall S m fs w h row col i field res f (s : S), 0 <= i < 6 -> frame420 f w h -> mb_in w h row col ->
  refs_in w h row col m fs -> small res ->
  exists b f', put_block m fs row col i field res f s = (Ok (b, f'), s) /\ length b = 64%nat /\
    written w h row col field i (recon (past_ref m fs) (future_ref m fs) i row col res) f f'.
Proof.
  intros S m fs w h row col i field res f s Hi Hf Hm HR Hs. destruct (put_block_ok S m fs w h row col i field res f s Hi Hf Hm HR Hs) as (b & f' & E & W).
  exists b, f'. split; [exact E|]. split; [|exact W]. destruct HR as (BP & BF & HR). destruct (HR i Hi) as [HP HF].
  unfold put_block in E. rewrite (bind_ok _ _ _ _ _ _ _ _ (motion_compensation_ok S m w h i row col fs res s Hi HP HF BP BF)) in E.
  apply bind_ok_inv in E. destruct E as (f1 & s1 & E1 & E2). unfold ret in E2.
  apply ok_pair in E2. destruct E2 as [<- _]. now rewrite map_length, seq_length.
Qed.

Lemma block_step : forall v e se mb w h row addr i (c : bool) coded b m rd bits l res dcp, 0 <= i < 6 -> frame420 (ms_frame m) w h -> mb_in w h row addr ->
  refs_in w h row addr (ms_mvd m) (v_fs v) -> small res ->
  (if c then b <- mb_block_read (pc_vlc e) (nth (Z.to_nat i) color_channel 0%nat) (mb_intra (mo_type mb)) b ;;
             m <- own ;;
             ret (idct (decode_block (qmat v (matrix_index (nth (Z.to_nat i) color_channel 0%nat) (se_chroma se =? ChromaFormat420) (mb_intra (mo_type mb))))
                          (pc_alt e) (pc_qtype e) (pc_dc e) (ms_qsc m) (mb_intra (mo_type mb)) b))
   else ret block_zero) (m, setb rd (bits ++ l)) = (Ok res, (ms_set_dcp dcp m, setb rd l)) ->
  exists b' f', length b' = 64%nat /\
    written w h row addr (mo_dct mb) i (recon (past_ref (ms_mvd m) (v_fs v)) (future_ref (ms_mvd m) (v_fs v)) i row addr res) (ms_frame m) f' /\
    mb_blocks v e se mb row addr i (c :: coded) b (m, setb rd (bits ++ l)) =
    mb_blocks v e se mb row addr (i + 1) coded b' (mkMS dcp (ms_mvd m) (ms_qsc m) f', setb rd l).
Proof.
  intros v e se mb w h row addr i c coded b m rd bits l res dcp Hi Hf Hm HR Hs E. cbn [mb_blocks]. cbv zeta.
  rewrite (bind_ok _ _ _ _ _ _ _ _ E). unfold own at 1. unfold bind at 1. cbn [fst ms_set_dcp ms_mvd ms_frame].
  destruct (put_block_len _ (ms_mvd m) (v_fs v) w h row addr i (mo_dct mb) res (ms_frame m) (ms_set_dcp dcp m, setb rd l) Hi Hf Hm HR Hs) as (b' & f' & E1 & L & W).
  exists b', f'. split; [exact L|]. split; [exact W|]. rewrite (bind_ok _ _ _ _ _ _ _ _ E1). rewrite bind_upd. reflexivity.
Qed.

(** * The blocks of a macroblock *)
Fixpoint chain (w h row col : Z) (field : bool) (past future : option (image * (Z * Z))) (i : nat) (rs : list (list Z)) (f f' : image) : Prop :=
  match rs with
  | [] => f' = f
  | r :: rs => exists f1, written w h row col field (Z.of_nat i) (recon past future (Z.of_nat i) row col r) f f1 /\ chain w h row col field past future (S i) rs f1 f'
  end.

Definition vctx (v : vidseq) (P : params) (e : piccodext) : Prop :=
  (exists ph, v_ph v = Some ph /\ ph_type ph = pp_type P) /\ v_pce v = Some e /\ pce_holds (pp_pce P) e /\
  (exists se, v_se v = Some se /\ se_chroma se = ChromaFormat420) /\ v_q0 v = pp_intra P /\ v_q1 v = pp_non_intra P /\
  (pp_type P <> 1 -> serves (fs_past (v_fs v)) (pp_past P)) /\ (pp_type P = 3 -> serves (fs_future (v_fs v)) (pp_future P)) /\ params_ok P.

Lemma component_channel : forall i, (i < 6)%nat -> nth (Z.to_nat (Z.of_nat i)) color_channel 0%nat = component i /\ (component i < 3)%nat.
Proof. intros i H. rewrite Nat2Z.id. do 6 (destruct i as [|i]; [split; [reflexivity | cbn; lia]|]). lia. Qed.
Lemma matrix_420 : forall cc intra, matrix_index cc true intra = if intra then 0%nat else 1%nat.
Proof. intros. unfold matrix_index. now rewrite orb_true_r. Qed.
Lemma expand_range : forall rls, pairs_ok rls -> forall k, -2048 <= nth k (expand rls) 0 <= 2048.
Proof.
  intros rls H. unfold expand. induction H as [|[r v] rls [H1 H2] _ IH]; intro k; [destruct k; cbn; lia|]. cbn [flat_map fst snd] in *.
  rewrite <- app_assoc. destruct (lt_dec k (length (repeat 0 (Z.to_nat r)))) as [L|L].
  - rewrite app_nth1 by exact L. rewrite nth_repeat. lia.
  - rewrite app_nth2 by lia. destruct (k - length (repeat 0%Z (Z.to_nat r)))%nat as [|n]; [cbn [app nth]; lia|]. cbn [app nth]. apply IH.
Qed.
Lemma fill_nth : forall l k, nth k (fill l) 0 = nth k l 0.
Proof.
  intros l k. unfold fill. destruct (lt_dec k (length l)); [now rewrite app_nth1|]. rewrite app_nth2 by lia. rewrite nth_repeat. now rewrite nth_overflow by lia.
Qed.
Lemma fill_length : forall l, (length l <= 64)%nat -> length (fill l) = 64%nat.
Proof. intros l H. unfold fill. rewrite app_length, repeat_length. lia. Qed.

Lemma intra_read : forall v P e se mb i b m rd l p dc rls c1 c2, vctx v P e -> v_se v = Some se -> mb_intra (mo_type mb) = true -> (i < 6)%nat -> length b = 64%nat ->
  ms_dcp m = pred_list p -> 0 <= ms_qsc m < 32 -> 0 <= dc < 2 ^ (8 + e_dc (pp_pce P)) -> pairs_ok rls -> (length (expand rls) <= 63)%nat ->
  dc_code (Nat.eqb (component i) 0) c1 (dc - p (component i)) -> coded_from (e_vlc (pp_pce P)) 1 rls c2 ->
  (b <- mb_block_read (pc_vlc e) (nth (Z.to_nat (Z.of_nat i)) color_channel 0%nat) (mb_intra (mo_type mb)) b ;;
   m <- own ;;
   ret (idct (decode_block (qmat v (matrix_index (nth (Z.to_nat (Z.of_nat i)) color_channel 0%nat) (se_chroma se =? ChromaFormat420) (mb_intra (mo_type mb))))
                (pc_alt e) (pc_qtype e) (pc_dc e) (ms_qsc m) (mb_intra (mo_type mb)) b))) (m, setb rd (c1 ++ c2 ++ l)) =
  (Ok (residual P (ms_qsc m) true (fill (dc :: expand rls))), (ms_set_dcp (pred_list (set_dc p (component i) dc)) m, setb rd l)).
Proof.
  intros v P e se mb i b m rd l p dc rls c1 c2 (_ & _ & HE & (se' & S1 & S2) & Q0 & Q1 & _ & _ & HP) HS HI Hi Lb Hp Hq Hdc Hpr Hlen D C.
  assert (se' = se) by congruence. subst se'. rewrite HI, S2. destruct (component_channel i Hi) as [-> CC]. cbn [Z.eqb]. rewrite Z.eqb_refl, matrix_420. cbn [qmat]. rewrite Q0.
  pose proof HP as (_ & _ & _ & Hprec & _ & _ & _ & _ & M0 & _ & _).
  assert (B1 : 2 ^ (8 + e_dc (pp_pce P)) <= 2048) by (assert (e_dc (pp_pce P) = 0 \/ e_dc (pp_pce P) = 1 \/ e_dc (pp_pce P) = 2 \/ e_dc (pp_pce P) = 3) as [-> |[-> |[-> | ->] ] ] by lia; cbn; lia).
  assert (VL : (pc_vlc e =? 1) = e_vlc (pp_pce P)) by (destruct HE as (_ & _ & _ & _ & _ & _ & _ & _ & _ & _ & -> & _); destruct (e_vlc _); reflexivity).
  assert (E : mb_block_read (pc_vlc e) (component i) true b (m, setb rd (c1 ++ c2 ++ l)) = (Ok (block_of dc rls), (ms_set_dcp (pred_list (upd_pred p (component i) dc)) m, setb rd l))).
  { unfold mb_block_read. cbn [fst snd]. rewrite Hp. rewrite <- VL in C. rewrite (intra_block_read (pc_vlc e) (component i) c1 c2 dc rls p b rd l CC ltac:(lia) Lb D C Hlen). reflexivity. }
  rewrite (bind_ok _ _ _ _ _ _ _ _ E). unfold own. unfold bind at 1. cbn [fst ms_set_dcp ms_qsc]. unfold ret. do 2 f_equal. unfold residual. f_equal.
  change (block_of dc rls) with (fill (dc :: expand rls)). pose proof (decode_iso P e (ms_qsc m) true (fill (dc :: expand rls)) HE Hprec M0 Hq) as DI. cbn match in DI. apply DI.
  - apply fill_length. cbn [length]. lia.
  - intros k Hk. rewrite fill_nth. destruct k as [|k]; cbn [nth Nat.eqb andb]; [lia|]. apply expand_range, Hpr.
Qed.
Lemma inter_read : forall v P e se mb i b m rd l rls c, vctx v P e -> v_se v = Some se -> mb_intra (mo_type mb) = false -> (i < 6)%nat -> length b = 64%nat ->
  0 <= ms_qsc m < 32 -> pairs_ok rls -> (length (expand rls) <= 64)%nat -> coded_from false 0 rls c ->
  (b <- mb_block_read (pc_vlc e) (nth (Z.to_nat (Z.of_nat i)) color_channel 0%nat) (mb_intra (mo_type mb)) b ;;
   m <- own ;;
   ret (idct (decode_block (qmat v (matrix_index (nth (Z.to_nat (Z.of_nat i)) color_channel 0%nat) (se_chroma se =? ChromaFormat420) (mb_intra (mo_type mb))))
                (pc_alt e) (pc_qtype e) (pc_dc e) (ms_qsc m) (mb_intra (mo_type mb)) b))) (m, setb rd (c ++ l)) =
  (Ok (residual P (ms_qsc m) false (fill (expand rls))), (ms_set_dcp (ms_dcp m) m, setb rd l)).
Proof.
  intros v P e se mb i b m rd l rls c (_ & _ & HE & (se' & S1 & S2) & Q0 & Q1 & _ & _ & HP) HS HI Hi Lb Hq Hpr Hlen C.
  assert (se' = se) by congruence. subst se'. rewrite HI, S2. rewrite Z.eqb_refl, matrix_420. cbn [qmat]. rewrite Q1.
  pose proof HP as (_ & _ & _ & Hprec & _ & _ & _ & _ & _ & M1).
  assert (E : mb_block_read (pc_vlc e) (nth (Z.to_nat (Z.of_nat i)) color_channel 0%nat) false b (m, setb rd (c ++ l)) = (Ok (fill (expand rls)), (ms_set_dcp (ms_dcp m) m, setb rd l))).
  { unfold mb_block_read. cbn [fst snd]. rewrite (C41_non_intra (pc_vlc e) _ rls c b (ms_dcp m) rd l C Hlen Lb). reflexivity. }
  rewrite (bind_ok _ _ _ _ _ _ _ _ E). unfold own. unfold bind at 1. cbn [fst ms_set_dcp ms_qsc]. unfold ret. do 2 f_equal. unfold residual. f_equal.
  pose proof (decode_iso P e (ms_qsc m) false (fill (expand rls)) HE Hprec M1 Hq) as DI. cbn match in DI. apply DI.
  - now apply fill_length.
  - intros k Hk. rewrite fill_nth. cbn [andb]. apply expand_range, Hpr.
Qed.

Lemma intra_blocks_run : forall v P e se mb w h row addr, vctx v P e -> v_se v = Some se -> mb_intra (mo_type mb) = true -> mb_in w h row addr ->
  forall blocks i b m rd l p c, (i + length blocks <= 6)%nat -> length b = 64%nat -> frame420 (ms_frame m) w h -> refs_in w h row addr (ms_mvd m) (v_fs v) ->
  ms_dcp m = pred_list p -> 0 <= ms_qsc m < 32 ->
  Forall (fun x => 0 <= fst x < 2 ^ (8 + e_dc (pp_pce P)) /\ pairs_ok (snd x) /\ (length (expand (snd x)) <= 63)%nat) blocks -> intra_code P p i blocks c ->
  exists f', mb_blocks v e se mb row addr (Z.of_nat i) (repeat true (length blocks)) b (m, setb rd (c ++ l)) =
      (Ok tt, (mkMS (pred_list (dc_after p i blocks)) (ms_mvd m) (ms_qsc m) f', setb rd l)) /\
    chain w h row addr (mo_dct mb) (past_ref (ms_mvd m) (v_fs v)) (future_ref (ms_mvd m) (v_fs v)) i
      (map (fun x => residual P (ms_qsc m) true (fill (fst x :: expand (snd x)))) blocks) (ms_frame m) f'.
Proof.
  intros v P e se mb w h row addr HV HS HI Hm. induction blocks as [|[dc rls] blocks IH]; intros i b m rd l p c Hi Lb Hf HR Hp Hq F C.
  - cbn in C. subst c. exists (ms_frame m). split; [|reflexivity]. cbn [length repeat mb_blocks dc_after]. destruct m; cbn in *; subst; reflexivity.
  - cbn [intra_code] in C. destruct C as (c1 & c2 & c3 & -> & C1 & C2 & C3). inversion F as [|? ? (F1 & F2 & F3) F']; subst. cbn [fst snd length] in *.
    assert (Hi6 : (i < 6)%nat) by lia. pose proof (intra_read v P e se mb i b m rd (c3 ++ l) p dc rls c1 c2 HV HS HI Hi6 Lb Hp Hq F1 F2 F3 C1 C2) as E.
    rewrite <- !app_assoc. replace (c1 ++ c2 ++ c3 ++ l) with ((c1 ++ c2) ++ c3 ++ l) in * by now rewrite <- app_assoc.
    destruct (block_step v e se mb w h row addr (Z.of_nat i) true (repeat true (length blocks)) b m rd (c1 ++ c2) (c3 ++ l) _ _ ltac:(lia) Hf Hm HR (idct_small _) E) as (b' & f1 & Lb' & W & E1).
    cbn [repeat]. rewrite E1. replace (Z.of_nat i + 1) with (Z.of_nat (S i)) by lia.
    destruct (IH (S i) b' (mkMS (pred_list (set_dc p (component i) dc)) (ms_mvd m) (ms_qsc m) f1) rd l (set_dc p (component i) dc) c3 ltac:(lia) Lb' (proj1 W) HR eq_refl Hq F' C3) as (f' & E2 & CH).
    exists f'. split; [exact E2|]. cbn [map chain]. exists f1. split; [exact W | exact CH].
Qed.
Lemma inter_blocks_run : forall v P e se mb w h row addr, vctx v P e -> v_se v = Some se -> mb_intra (mo_type mb) = false -> mb_in w h row addr ->
  forall blocks i b m rd l c, (i + length blocks <= 6)%nat -> length b = 64%nat -> frame420 (ms_frame m) w h -> refs_in w h row addr (ms_mvd m) (v_fs v) ->
  0 <= ms_qsc m < 32 ->
  Forall (fun x => match x with Some rls => pairs_ok rls /\ (length (expand rls) <= 64)%nat | None => True end) blocks -> inter_code blocks c ->
  exists f', mb_blocks v e se mb row addr (Z.of_nat i) (map some blocks) b (m, setb rd (c ++ l)) =
      (Ok tt, (mkMS (ms_dcp m) (ms_mvd m) (ms_qsc m) f', setb rd l)) /\
    chain w h row addr (mo_dct mb) (past_ref (ms_mvd m) (v_fs v)) (future_ref (ms_mvd m) (v_fs v)) i
      (map (fun x => match x with Some rls => residual P (ms_qsc m) false (fill (expand rls)) | None => no_residual end) blocks) (ms_frame m) f'.
Proof.
  intros v P e se mb w h row addr HV HS HI Hm. induction blocks as [|x blocks IH]; intros i b m rd l c Hi Lb Hf HR Hq F C.
  - cbn in C. subst c. exists (ms_frame m). split; [|reflexivity]. cbn [map mb_blocks]. destruct m; reflexivity.
  - inversion F as [|? ? F1 F']; subst. cbn [length] in *. destruct x as [rls|].
    + cbn [inter_code] in C. destruct C as (c1 & c2 & -> & C1 & C2). destruct F1 as [F1 F2].
      pose proof (inter_read v P e se mb i b m rd (c2 ++ l) rls c1 HV HS HI ltac:(lia) Lb Hq F1 F2 C1) as E. rewrite <- !app_assoc.
      destruct (block_step v e se mb w h row addr (Z.of_nat i) true (map some blocks) b m rd c1 (c2 ++ l) _ _ ltac:(lia) Hf Hm HR (idct_small _) E) as (b' & f1 & Lb' & W & E1).
      cbn [map some]. rewrite E1. replace (Z.of_nat i + 1) with (Z.of_nat (S i)) by lia.
      destruct (IH (S i) b' (mkMS (ms_dcp m) (ms_mvd m) (ms_qsc m) f1) rd l c2 ltac:(lia) Lb' (proj1 W) HR Hq F' C2) as (f' & E2 & CH).
      exists f'. split; [exact E2|]. cbn [map chain]. exists f1. split; [exact W | exact CH].
    + cbn [inter_code] in C.
      destruct (block_step v e se mb w h row addr (Z.of_nat i) false (map some blocks) b m rd [] (c ++ l) block_zero (ms_dcp m) ltac:(lia) Hf Hm HR small_zero) as (b' & f1 & Lb' & W & E1).
      { unfold ret. destruct m; reflexivity. }
      cbn [map some]. cbn [app] in E1. rewrite E1. replace (Z.of_nat i + 1) with (Z.of_nat (S i)) by lia.
      destruct (IH (S i) b' (mkMS (ms_dcp m) (ms_mvd m) (ms_qsc m) f1) rd l c ltac:(lia) Lb' (proj1 W) HR Hq F' C) as (f' & E2 & CH).
      exists f'. split; [exact E2|]. cbn [map chain]. exists f1. split; [exact W | exact CH].
Qed.
