(** StrayProofs: if Next panics, then the stream is as SpecStray describes. *)
From Coq Require Import Lia.
From Verif Require Import Base BitReader Exec Local TsRobust PesLocal After Huffman VlcTables BlockModel SpecVlc SpecBlock VlcProofs BlockProofs DequantProofs IdctProofs
  VidModel SpecVid VidProofs VidStream VidExt VidLocal MbModel SpecMotion MotionProofs FrameProofs MbProofs SpecNext SpecPicture CanvasProofs MacroblockProofs MbRunProofs MbStepProofs MbWholeProofs
  EndProofs2 ShapeProofs NextProofs SliceProofs SpecStore StoreProofs SpecSyntax SyntaxProofs SpecPanic CauseProofs SpecCertain SpecRules RulesProofs ContextProofs SpecStray.
From Verif Require PropertiesVidHeaders.

(** * Blocks *)
Lemma read_over : forall y k intra b m r s', (k < 12)%nat -> mb_block_read (pc_vlc (pce_of (y_pce y))) (nth k color_channel 0%nat) intra b (m, r) = (Panic, s') ->
  exists c t, over y intra k c /\ rbits r = c ++ t.
Proof.
  intros y k [|] b m r s' Hk H; [exact (read_panics y k b m r s' Hk H)|]. unfold mb_block_read in H. cbn [fst snd] in H.
  destruct (block_read (pc_vlc (pce_of (y_pce y))) (nth k color_channel 0%nat) false (mkBS b (ms_dcp m), r)) as [ [u|e| |] [bs r1] ] eqn:E; try discriminate.
  clear H. unfold block_read in E. cbn [andb] in E. change dct_table_zero with (dct_of false) in E. apply coeffs_panics in E; [|lia]. destruct E as (rls & c2 & l & C & Q2 & L). cbn [snd] in Q2.
  exists c2, l. split; [|exact Q2]. exists rls. split; [exact C | lia].
Qed.
Lemma blocks_stray : forall v y se mb row col w h, mb_in w h row col ->
  forall coded k b st st', (k + length coded <= 6)%nat -> frame420 (ms_frame (fst st)) w h -> refs_in w h row col (ms_mvd (fst st)) (v_fs v) ->
  mb_blocks v (pce_of (y_pce y)) se mb row col (Z.of_nat k) coded b st = (Panic, st') ->
  exists i c2 c3 t, nth_error coded i = Some true /\ rbits (snd st) = c2 ++ c3 ++ t /\ blocks_syn y (mb_intra (mo_type mb)) k (firstn i coded) c2 /\ over y (mb_intra (mo_type mb)) (k + i) c3.
Proof.
  intros v y se mb row col w h Hm. induction coded as [|x coded IH]; intros k b st st' L F R E; cbn [mb_blocks] in E; [discriminate|]. cbn [length] in L.
  rewrite Nat2Z.id in E. set (intra := mb_intra (mo_type mb)) in *.
  (* the rest, once this block's residual is there *)
  assert (REST : forall b1 s1 c, small b1 -> (if x then block_syn y intra k c else c = []) -> after (snd st) c (snd s1) -> shape (ms_frame (fst s1)) = shape (ms_frame (fst st)) -> frame420 (ms_frame (fst s1)) w h -> ms_mvd (fst s1) = ms_mvd (fst st) ->
     (m <- own ;; bf <- put_block (ms_mvd m) (v_fs v) row col (Z.of_nat k) (mo_dct mb) b1 (ms_frame m) ;; upd (ms_set_frame (snd bf)) ;;
      mb_blocks v (pce_of (y_pce y)) se mb row col (Z.of_nat k + 1) coded (fst bf)) s1 = (Panic, st') ->
     exists i c2 c3 t, nth_error (x :: coded) i = Some true /\ rbits (snd st) = c2 ++ c3 ++ t /\ blocks_syn y intra k (firstn i (x :: coded)) c2 /\ over y intra (k + i) c3).
  { intros b1 [m1 r1] c Sm Bs A _ F1 Mv Q. cbn [fst snd] in *. rewrite bind_own in Q. cbn [fst] in Q.
    destruct (put_block_ok _ (ms_mvd m1) (v_fs v) w h row col (Z.of_nat k) (mo_dct mb) b1 (ms_frame m1) (m1, r1) ltac:(lia) F1 Hm ltac:(rewrite Mv; exact R) Sm) as (b2 & f2 & P1 & (F2 & _)).
    rewrite (bind_ok _ _ _ _ _ _ _ _ P1), bind_upd in Q. cbn [fst snd] in Q. replace (Z.of_nat k + 1) with (Z.of_nat (S k)) in Q by lia.
    apply IH in Q; cbn [fst snd ms_set_frame ms_frame ms_mvd]; [|lia|exact F2|rewrite Mv; exact R]. destruct Q as (i & c2 & c3 & t & N & Q & Bl & O). cbn [snd] in Q.
    exists (S i), (c ++ c2), c3, t. split; [exact N|]. split; [rewrite (after_bits _ _ _ A), Q, <- app_assoc; reflexivity|]. split; [|replace (k + S i)%nat with (S k + i)%nat by lia; exact O].
    cbn [firstn blocks_syn]. exists c, c2. split; [reflexivity|]. split; [destruct x; exact Bs | exact Bl]. }
  destruct x.
  - apply bind_panics in E. destruct E as [E | (b1 & s1 & E1 & E)].
    + apply bind_panics in E. destruct E as [E | (b2 & s2 & _ & E)].
      * destruct st as [m r]. apply read_over in E; [|lia]. destruct E as (c & t & O & Q). exists 0%nat, [], c, t. split; [reflexivity|]. split; [exact Q|]. split; [reflexivity|]. rewrite Nat.add_0_r. exact O.
      * apply bind_panics in E. destruct E as [E | (m & s3 & _ & E)]; discriminate.
    + apply bind_ok_inv in E1. destruct E1 as (b2 & s2 & E1 & E2).
      pose proof (block_reads y k (nth k color_channel 0%nat) intra b eq_refl ltac:(lia) _ _ _ E1) as (c & Bs & A). pose proof (read_mvd _ _ _ _ _ _ _ E1) as Mv. pose proof (same_read _ _ _ _ _ _ _ E1) as Sh.
      apply bind_ok_inv in E2. destruct E2 as (m & s3 & E2 & E3). inversion E2; subst m s3. assert (s1 = s2 /\ small b1) as (-> & Sm) by (unfold ret in E3; split; [congruence|]; injection E3 as <- _; apply idct_small).
      eapply (REST b1 s2 c); eauto. unfold shape in Sh. injection Sh as S1 S2 S3 S4 S5 S6 S7. unfold frame420 in *. now rewrite S3, S4, S5, S6, S7.
  - rewrite bind_ret in E. eapply (REST block_zero st []); eauto using small_zero, after_nil.
Qed.

(** * Skipped macroblocks *)
Lemma skip_stray : forall y v P e s m cv row addr n r c1 c2, vctx v P e -> refs_known P -> agree e s m -> dirs_ok P s -> looks (ms_frame m) cv -> cv_w cv = pp_w P -> cv_h cv = pp_h P ->
  -1 <= addr -> 1 <= n -> mb_in (pp_w P) (pp_h P) row (addr + n) -> incr_code n c1 ->
  mb_stray y P row addr s (c1 ++ c2) \/
  exists f', copy_skipped v (pp_type P) row addr n (m, r) = (Ok tt, (ms_set_frame f' m, r)) /\ frame420 f' (pp_w P) (pp_h P).
Proof.
  intros y v P e s m cv row addr n r c1 c2 HV (K1 & K2) HA HD L W H Ha Hn Hm Hi. pose proof HV as (_ & _ & _ & _ & _ & _ & _ & _ & PO). pose proof PO as (TY & _).
  assert (SAME : copy_skipped v (pp_type P) row addr n = ret tt -> exists f', copy_skipped v (pp_type P) row addr n (m, r) = (Ok tt, (ms_set_frame f' m, r)) /\ frame420 f' (pp_w P) (pp_h P)).
  { intros ->. exists (ms_frame m). split; [destruct m; reflexivity|]. rewrite <- W, <- H. exact (proj1 L). }
  destruct (Z_le_dec 0 addr) as [A0|A0]; [|right; apply SAME; unfold copy_skipped; now replace (addr =? -1) with true by lia].
  destruct (Z_lt_dec 1 n) as [I1|I1]; [|right; apply SAME; unfold copy_skipped; replace (n >? 1) with false by lia; now rewrite andb_false_r].
  destruct (Z.eq_dec (pp_type P) 1) as [E1|E1]; [right; apply SAME; rewrite E1; unfold copy_skipped; destruct (_ && _); reflexivity|].
  enough (X : mb_stray y P row addr s (c1 ++ c2) \/ (pp_type P <> 1 /\ (pp_type P = 2 -> exists c, pp_past P = Is c /\ cv_w c = pp_w P /\ cv_h c = pp_h P) /\
     (pp_type P = 3 -> forall col, addr < col < addr + n -> cvector_in P row col (past_of P s) /\ cvector_in P row col (future_of P s)))).
  { destruct X as [X|X]; [now left|]. right. destruct (skip_run v P e s m cv row addr n r HV HA HD L W H Ha Hn Hm (fun _ _ => X)) as (f' & E & L'). exists f'. split; [exact E|].
    destruct L' as (L' & _). assert (D : forall k, cv_w (paint_skipped P row (addr + 1) k s cv) = pp_w P /\ cv_h (paint_skipped P row (addr + 1) k s cv) = pp_h P).
    { intro k. unfold paint_skipped. destruct (_ <=? 0); [auto|]. destruct (pp_type P =? 2); [destruct (pp_past P)|]; auto. }
    replace (addr =? -1) with false in L' by lia. destruct (D (n - 1)) as (D1 & D2). rewrite D1, D2 in L'. exact L'. }
  destruct (Z.eq_dec (pp_type P) 2) as [E2|E2].
  - destruct (K1 E1) as (c & EC). destruct (Z.eq_dec (cv_w c) (pp_w P)) as [W1|W1]; [|left; eapply stray_skipped_size; eauto]. destruct (Z.eq_dec (cv_h c) (pp_h P)) as [H1|H1]; [|left; eapply stray_skipped_size; eauto].
    right. split; [exact E1|]. split; [intros _; exists c; auto | lia].
  - assert (E3 : pp_type P = 3) by lia.
    destruct (range_dec (fun col => cvector_in P row col (past_of P s) /\ cvector_in P row col (future_of P s)) (Z.to_nat (n - 1)) (addr + 1)) as [Y|(col & Bc & Nc)].
    + intro col. destruct (outside_dec P row col (past_of P s)) as [O1|O1]; [|right; intros (X & _); revert X; now apply outside_not].
      destruct (outside_dec P row col (future_of P s)) as [O2|O2]; [left; auto | right; intros (_ & X); revert X; now apply outside_not].
    + right. split; [exact E1|]. split; [lia|]. intros _ col Bc. apply Y. lia.
    + left. apply (stray_skipped y P row addr s _ n c1 c2 col); auto; [lia|].
      destruct (outside_dec P row col (past_of P s)) as [O1|O1]; [|now left]. destruct (outside_dec P row col (future_of P s)) as [O2|O2]; [contradiction (Nc (conj O1 O2)) | now right].
Qed.

(** * Vectors *)
Lemma np_part : forall e r s t, 1 <= f_code e s t -> np (motion_vector_part e false false r s t).
Proof.
  intros e r s t F. unfold motion_vector_part. apply np_bind; [apply np_onr, np_safe, safe_hdecode|]. intro c. apply np_bind; [|intro; apply np_upd].
  apply np_if; [|apply np_ret]. replace (f_code e s t =? 0) with false by lia. apply np_onr, np_safe, safe_read_n.
Qed.
Definition set_dir (k : nat) (vo : option (Z * Z)) (s : pstate) : pstate :=
  match vo with Some v => if Nat.eqb k 0 then ps_set_fwd v s else ps_set_bwd v s | None => s end.
Lemma vec_step : forall A y P k (on : bool) s m mb r (K : unit -> MB A) o st', layer_for y P -> params_ok P -> f_codes_ok (pce_of (y_pce y)) -> (k < 2)%nat ->
  (on = true -> frame_format (pce_of (y_pce y)) mb) -> agree (pce_of (y_pce y)) s m ->
  bind (when on (motion_vectors (pce_of (y_pce y)) mb k)) K (m, r) = (o, st') ->
  stopped o \/ exists vo c m' r', some vo = on /\ opt_vector (y_f y k 0) (y_f y k 1) (if Nat.eqb k 0 then ps_fwd s else ps_bwd s) vo c /\ after r c r' /\
    agree (pce_of (y_pce y)) (set_dir k vo s) m' /\ ms_frame m' = ms_frame m /\ K tt (m', r') = (o, st').
Proof.
  intros A y P k on s m mb r K o st' LY PO FC Hk FF HA H. destruct on; cbn [when] in H.
  2: { rewrite bind_ret in H. right. exists None, [], m, r. repeat (split; [reflexivity|]). split; [apply after_nil|]. auto. }
  specialize (FF eq_refl). set (e := pce_of (y_pce y)) in *.
  assert (MV : forall st, motion_vectors e mb k st = motion_vector e false false 0 k st).
  { intro st. unfold motion_vectors. assert (EI : mv_info e mb st = (Ok (1, false, false), st)).
    { unfold mv_info. destruct FF as [-> | ->]; [reflexivity|]. destruct (pc_fpfd e =? 1); reflexivity. }
    rewrite (bind_ok _ _ _ _ _ _ _ _ EI). cbn [andb negb]. change (1 =? 1) with true. cbv iota. now rewrite bind_ret. }
  assert (F1 : 1 <= f_code e k 0 /\ 1 <= f_code e k 1) by (split; apply FC; lia).
  apply bind_np in H; [|intros st st2; rewrite MV; unfold motion_vector; revert st st2; apply np_bind; [apply np_part; apply F1 | intro; apply np_part; apply F1] ].
  destruct H as [H | (u & [m' r'] & E & H)]; [now left|]. right. pose proof E as E0. rewrite MV in E. apply vector_reads in E. destruct E as (c & (_ & V) & A1). cbn [snd] in A1.
  destruct (vector_pair y k (if Nat.eqb k 0 then ps_fwd s else ps_bwd s) c ltac:(rewrite <- pce_f; apply F1) ltac:(rewrite <- pce_f; apply F1) V) as (vv & C).
  pose proof HA as (_ & _ & _ & (G1 & G2 & _) & _ & _ & V1 & V2 & _).
  assert (C2 : pair_code (f_code e k 0) (f_code e k 1) (pmv (ms_mvd m) 0 k 0, pmv (ms_mvd m) 0 k 1) vv c).
  { unfold e. rewrite !pce_f. destruct k as [|[|k] ]; [rewrite V1; exact C | rewrite V2; exact C | lia]. }
  pose proof (vectors_frame_run e mb k m r (rbits r') vv c FF FC G1 G2 Hk C2) as RUN. rewrite <- (after_bits _ _ _ A1), setb_rbits in RUN. rewrite RUN in E0. inversion E0; subst u m'. clear E0.
  exists (Some vv), c, (ms_set_mvd (mv_put e false 0 k vv (ms_mvd m)) m), r'. split; [reflexivity|]. split; [exact C|]. split; [exact A1|]. split; [|split; [reflexivity | exact H] ].
  destruct C2 as (? & ? & _ & R1 & R2 & _). destruct k as [|[|k] ]; [now apply agree_fwd | now apply agree_bwd | lia].
Qed.

(** * Macroblocks *)
Lemma np_mode3 : forall t e, 1 <= t <= 3 -> np (macroblock_mode t e).
Proof.
  intros t e H. apply np_safe. unfold macroblock_mode. assert (t = 1 \/ t = 2 \/ t = 3) as [-> | [-> | ->] ] by lia; (apply safe_bind; [apply safe_hdecode|]; intro x; safe_tac).
Qed.
Lemma available_known : forall P s b, refs_known P -> params_ok P -> (is_intra b = false -> pp_type P <> 1) -> ps_dirs s = dirs_of P b -> available P s.
Proof.
  intros P s b (K1 & K2) (TY & _) T D. unfold available. rewrite D. unfold dirs_of. destruct (is_intra b) eqn:EI; [split; discriminate|]. specialize (T eq_refl). destruct (Z.eqb_spec (pp_type P) 2) as [E2|E2]; cbn [fst snd].
  - split; [|discriminate]. intros _. destruct (K1 T) as (c & ->). discriminate.
  - assert (T3 : pp_type P = 3) by lia. destruct (K1 T) as (c & ->), (K2 T3) as (d & ->). split; discriminate.
Qed.
Lemma when_np : forall S A c (m : M S unit) (k : unit -> M S A) s s', np m -> bind (when c m) k s = (Panic, s') -> exists s1, when c m s = (Ok tt, s1) /\ k tt s1 = (Panic, s').
Proof. intros S A c m k s s' N H. apply np_panics in H; [|now apply np_when]. destruct H as ([] & s1 & E & H). eauto. Qed.

Lemma macroblock_stray : forall v y P row addr s m cv r st', vctx v P (pce_of (y_pce y)) -> v_ph v = Some (pic_of (y_hdr y)) -> layer_for y P -> refs_known P ->
  agree (pce_of (y_pce y)) s m -> dirs_ok P s -> looks (ms_frame m) cv -> cv_w cv = pp_w P -> cv_h cv = pp_h P -> -1 <= addr -> 0 <= row -> 16 * row + 16 <= pp_h P ->
  macroblock v row addr (m, r) = (Panic, st') -> mb_stray y P row addr s (rbits r) \/ mb_wrong y P row addr s (rbits r).
Proof.
  intros v y P row addr s m cv r st' HV Hph LY K HA HD L W Hh Ha R0 R1 H.
  pose proof HV as (_ & HE & PH & (se & S1 & S2) & _ & _ & _ & _ & PO). pose proof PO as (TY & PSt & PCon & _). pose proof (f_codes_of _ _ PH PO) as FC.
  pose proof LY as (HT & HEy & HC).
  assert (Fr : y_frame y = true) by (unfold y_frame; rewrite HEy, PSt; reflexivity).
  assert (Fp : y_fpfd y = e_fpfd (pp_pce P)) by (unfold y_fpfd; now rewrite HEy).
  unfold macroblock in H. rewrite Hph, HE, S1 in H.
  apply np_panics in H; [|apply np_onr, np_increment]. destruct H as (n & [m0 r1] & E & H). apply onr_inv in E. destruct E as (F & E). cbn [fst snd] in F, E. subst m0. apply increment_after in E. destruct E as (ci & Hi & A).
  cbn [deref] in H. rewrite !bind_ret in H. cbv zeta in H. change (ph_type (pic_of (y_hdr y))) with (y_type y) in H. rewrite HT in H. pose proof (incr_range _ _ Hi) as N1.
  rewrite (after_bits _ _ _ A).
  destruct (Z_lt_dec (pp_w P) (16 * (addr + n) + 16)) as [B1|B1]; [left; eapply stray_address; eauto|].
  assert (Hm : mb_in (pp_w P) (pp_h P) row (addr + n)) by (unfold mb_in; lia).
  destruct (skip_stray y v P _ s m cv row addr n r1 ci (rbits r1) HV K HA HD L W Hh Ha N1 Hm Hi) as [X | (f1 & E1 & F1)]; [now left|].
  rewrite (bind_ok _ _ _ _ _ _ _ _ E1) in H. clear E1. unfold reset_dc, reset_mv in H. rewrite !when_upd in H. rewrite Z.gtb_ltb in H. unfold PFrame in H.
  set (m1 := ms_set_frame f1 m) in *.
  match type of H with bind _ _ (?x, _) = _ => set (m2 := x) in * end.
  apply np_panics in H; [|apply np_onr, np_mode3; exact TY]. destruct H as (mb & [m0 r2] & E & H). apply onr_inv in E. destruct E as (F & E). cbn [fst snd] in F, E. subst m0.
  rewrite <- HT in E. apply mode_after in E. destruct E as (_ & t & mt & ct & cm & cd & Ht & O2 & O3 & (Tm & Sm) & A1). rewrite Tm in H. rewrite Fr in Sm, O2, O3. cbn [andb] in O2, O3. destruct Sm as (_ & Sm). rewrite Fp in *.
  destruct t as [tq tf tb tp ti]. unfold mbt_fields in Ht. cbn [mb_quant mb_motion_forward mb_motion_backward mb_pattern mb_intra] in *.
  destruct (mbt_rows (y_type y) ct tq tf tb tp ti ltac:(rewrite HT; exact TY) Ht) as (Q1 & Q2 & Q3 & Q4 & Q5). rewrite HT in Q2, Q3, Q5.
  rewrite (after_bits _ _ _ A1), <- !app_assoc.
  apply dct_parse in O3. destruct O3 as (df & Df & Dc).
  assert (HTy : mbt_code (type_table (pp_type P)) ct (tq, tf, tb, tp, ti)) by (rewrite <- HT; exact Ht).
  (* the motion type *)
  assert (MT : (mb_stray y P row addr s (ci ++ ct ++ cm ++ cd ++ rbits r2) \/ mb_wrong y P row addr s (ci ++ ct ++ cm ++ cd ++ rbits r2)) \/
     (cm = (if (tf || tb) && negb (e_fpfd (pp_pce P)) then enc 2 2 else []) /\ (tf || tb = true -> frame_format (pce_of (y_pce y)) mb))).
  { destruct ((tf || tb) && negb (e_fpfd (pp_pce P))) eqn:EM; cbn [only_if] in O2.
    - apply andb_true_iff in EM. destruct EM as (EM & NF). apply negb_true_iff in NF. destruct O2 as (M4 & ->). assert (mt = 0 \/ mt = 1 \/ mt = 2 \/ mt = 3) as [X | [X | [X | X] ] ] by lia; rewrite X in *; clear X.
      + left. left. eapply stray_motion; eauto.
      + left. right. exists (ci ++ ct ++ enc 2 1), (cd ++ rbits r2). split; [now rewrite <- !app_assoc|]. right. left. split; [rewrite Fp; exact NF|]. exists n, tq, tf, tb, tp, ti, ci, ct. split; [exact Hi|]. split; [exact Ht|]. left. auto.
      + right. split; [reflexivity|]. intros _. right. exact Sm.
      + left. left. eapply stray_motion; eauto.
    - right. split; [exact O2|]. intro X. rewrite X in EM. apply negb_false_iff in EM. left. apply Z.eqb_eq. rewrite (proj2 (pce_fpfd y)), Fp. exact EM. }
  destruct MT as [MT | (Em & FF)]; [exact MT|].
  (* field DCT of a predicted macroblock *)
  assert (FD : mb_wrong y P row addr s (ci ++ ct ++ cm ++ cd ++ rbits r2) \/ (ti = false -> df = false)).
  { destruct ti; [right; discriminate|]. cbn [orb] in Df, Dc. destruct df; [|now right]. destruct (negb (e_fpfd (pp_pce P)) && tp) eqn:X; [|specialize (Df eq_refl); discriminate]. apply andb_true_iff in X. destruct X as (NF & ->). left.
    exists (ci ++ ct ++ cm ++ cd), (rbits r2). split; [now rewrite <- !app_assoc|]. right. left. split; [rewrite Fp; now apply negb_true_iff|]. exists n, tq, tf, tb, true, false, ci, ct. split; [exact Hi|]. split; [exact Ht|]. right. split; [reflexivity|].
    rewrite Em, Dc, NF. now rewrite andb_true_r. }
  destruct FD as [FD|FD]; [now right|].
  rewrite !when_upd in H. match type of H with bind _ _ (?x, _) = _ => set (m3 := x) in * end.
  apply when_np in H; [|apply np_bind; [apply np_onr, np_safe, safe_read_n | intro; apply np_upd] ]. destruct H as ([m4 r3] & E & H).
  assert (X : exists qo cq, some qo = tq /\ cq = match qo with Some q => enc 5 q | None => [] end /\ match qo with Some q => 0 <= q < 32 | None => True end /\ after r2 cq r3 /\ m4 = match qo with Some q => ms_set_qsc q m3 | None => m3 end).
  { destruct tq; cbn [when] in E.
    - apply bind_ok_inv in E. destruct E as (q & [m5 r5] & E & E2). apply onr_inv in E. destruct E as (F5 & E). cbn [fst snd] in F5, E. subst m5. apply read_after in E. destruct E as (Bq & Aq). apply upd_inv in E2. cbn [fst snd] in E2. inversion E2; subst. exists (Some q), (enc 5 q). auto.
    - inversion E; subst. exists None, []. auto using after_nil. }
  destruct X as (qo & cq & Hq & Eq & Bq & A2 & E4). clear E.
  set (bd := if ti then Intra df (repeat (0, []) 6) else if tp then Coded (repeat None 6) else NotCoded).
  assert (Bi : forall vf vb, is_intra (mkMb n qo vf vb bd) = ti) by (intros; unfold is_intra, bd; cbn [b_body]; destruct ti; [reflexivity|]; destruct tp; reflexivity).
  assert (Bc : forall vf vb, is_coded (mkMb n qo vf vb bd) = tp) by (intros; unfold is_coded, bd; cbn [b_body]; destruct ti; [destruct (Q1 eq_refl) as (_ & _ & ->); reflexivity|]; destruct tp; reflexivity).
  assert (Bd : field_dct bd = df) by (unfold bd; destruct ti; [reflexivity|]; rewrite (FD eq_refl); destruct tp; reflexivity).
  set (b0 := mkMb n qo (if tf then Some (0, 0) else None) None bd).
  assert (B0 : is_forward b0 = tf). { unfold is_forward, b0. rewrite Bi. cbn [b_forward]. destruct ti; [destruct (Q1 eq_refl) as (-> & _); reflexivity|]. now destruct tf. }
  assert (Co : pc_conceal (pce_of (y_pce y)) = e_conceal (pp_pce P)) by (rewrite pce_conceal; now rewrite HEy).
  assert (A4 : agree (pce_of (y_pce y)) (ps_before P s b0) m4 /\ ms_frame m4 = f1).
  { assert (X2 : agree (pce_of (y_pce y)) (ps_reset1 P s b0) m2 /\ ms_frame m2 = f1).
    { split; [|unfold m2; destruct (_ && _), (1 <? n); reflexivity]. unfold m2, ps_reset1. cbv zeta. change (b_incr b0) with n. apply agree_if; [|intros _; apply agree_mvr; [exact FC|] ]; (apply agree_if; [exact HA | intros _; now apply agree_dcr]). }
    destruct X2 as (X2 & G2).
    assert (X3 : agree (pce_of (y_pce y)) (ps_reset2 P (ps_reset1 P s b0) b0) m3 /\ ms_frame m3 = f1).
    { split; [|unfold m3; rewrite <- G2; repeat match goal with |- context [if ?c then _ else _] => destruct c end; reflexivity].
      unfold m3, ps_reset2. cbv zeta. rewrite B0, Co. unfold b0. rewrite Bi. fold b0. apply agree_if; [|intros _; apply agree_mvr; [exact FC|] ]; (apply agree_if; [|intros _; apply agree_mvr; [exact FC|] ]); (apply agree_if; [exact X2 | intros _; now apply agree_dcr]). }
    destruct X3 as (X3 & G3). rewrite before_eq. unfold ps_quant. change (b_quant b0) with qo. subst m4. destruct qo as [q|]; [split; [apply agree_q; [exact Bq | exact X3] | exact G3] | auto]. }
  destruct A4 as (A4 & F4). set (s4 := ps_before P s b0) in *. clearbody m3. rewrite Co in H. clear E4 m3 m2 m1.
  (* vectors *)
  assert (PCon2 : ti && e_conceal (pp_pce P) = true -> frame_format (pce_of (y_pce y)) mb).
  { intro X. apply andb_true_iff in X. destruct X as (_ & X). left. apply Z.eqb_eq. rewrite (proj2 (pce_fpfd y)), Fp. now apply PCon. }
  apply (vec_step _ y P 0 _ s4 m4 mb r3) in H; try assumption; [|lia|intro X; apply orb_true_iff in X; destruct X as [X|X]; [apply FF; now rewrite X | now apply PCon2] ].
  destruct H as [ [] | (vf & cf & m5 & r4 & Vf & Cf & A3 & A5 & F5 & H)]. cbn [Nat.eqb] in Cf.
  apply (vec_step _ y P 1 _ (set_dir 0 vf s4) m5 mb r4) in H; try assumption; [|lia|intro X; apply FF; now rewrite X, orb_true_r].
  destruct H as [ [] | (vb & cb & m6 & r5 & Vb & Cb & A6 & A7 & F6 & H)]. cbn [Nat.eqb] in Cb.
  set (b := mkMb n qo vf vb bd).
  assert (Bf : is_forward b = tf). { unfold is_forward, b. rewrite Bi. cbn [b_forward]. rewrite Vf. destruct ti; [destruct (Q1 eq_refl) as (-> & _); apply andb_false_r|]. cbn [andb negb]. now rewrite andb_true_r, orb_false_r. }
  assert (Sb : ps_before P s b = s4) by (unfold s4, ps_before; rewrite Bf, B0; unfold b, b0; rewrite !Bi; reflexivity).
  rewrite bind_upd in H.
  assert (MC : mbt_code (type_table (pp_type P)) ct (some (b_quant b), is_forward b, some (b_backward b), is_coded b, is_intra b)) by (rewrite Bf; unfold b; rewrite Bc, Bi; cbn [b_quant b_backward]; rewrite Hq, Vb; exact HTy).
  pose proof (previous_dirs P b ct (ms_mvd m6) MC) as PD. unfold mode_of in PD. cbn [mo_type] in PD. rewrite Bf in PD. unfold b at 1 2 3 4 in PD. rewrite Bc, Bi in PD. cbn [b_quant b_backward] in PD. rewrite Hq, Vb in PD. rewrite PD in H. clear PD.
  set (m7 := ms_set_mvd (mkMV _ _ _ _) m6) in *. pose proof (agree_dirs _ _ m6 (fst (dirs_of P b)) (snd (dirs_of P b)) A7) as A8. rewrite <- surjective_pairing in A8. fold m7 in A8.
  apply when_np in H; [|apply np_onr, np_safe; unfold marker_bit; safe_tac]. destruct H as ([m8 r6] & E & H).
  assert (X : exists ck, ck = (if ti && e_conceal (pp_pce P) then [true] else []) /\ after r5 ck r6 /\ m8 = m7).
  { destruct (ti && e_conceal (pp_pce P)); cbn [when] in E.
    - apply onr_inv in E. destruct E as (F & E). cbn [fst snd] in F, E. apply marker_after in E. exists [true]. auto.
    - unfold ret in E. assert (m8 = m7 /\ r6 = r5) as [-> ->] by (split; congruence). exists []. auto using after_nil. }
  destruct X as (ck & Ek & A9 & ->). clear E. cbn [deref] in H. rewrite bind_ret, S2 in H.
  set (s7 := ps_set_dirs (dirs_of P b) (set_dir 1 vb (set_dir 0 vf s4))) in *.
  assert (SA : past_of P (ps_after P s b) = past_of P s7 /\ future_of P (ps_after P s b) = future_of P s7).
  { rewrite after_eq. cbv zeta. rewrite Sb. replace (ps_set_dirs (dirs_of P b) (ps_vectors b s4)) with s7 by (unfold s7, ps_vectors, b; cbn [b_forward b_backward set_dir Nat.eqb]; reflexivity). destruct (b_body b); auto. }
  destruct SA as (SA1 & SA2).
  set (c1 := ci ++ ct ++ cm ++ cd ++ cq ++ cf ++ cb ++ ck).
  assert (HD2 : head_code P s b c1).
  { unfold head_code. cbv zeta. rewrite Sb. exists ci, ct, cf, cb. split; [exact Hi|]. split; [exact MC|]. rewrite Bf. unfold b. rewrite Bi, Bc. cbn [b_forward b_backward b_quant b_body b_incr].
    split; [unfold y_f in Cf; rewrite HEy in Cf; exact Cf|]. split; [unfold y_f in Cb; rewrite HEy in Cb; destruct vf; exact Cb|].
    rewrite Bd, Vb, <- Em, <- Dc, <- Eq, <- Ek. reflexivity. }
  assert (FM : formed P b).
  { split; [intro X; unfold b in X; rewrite Bi in X; unfold b; cbn [b_forward]; rewrite Vf, X; destruct (Q1 X) as (-> & _); reflexivity|]. split; [exact Bq|]. unfold b. cbn [b_body]. unfold bd. destruct ti; [|destruct tp; [reflexivity | exact Logic.I] ].
    split; [reflexivity|]. intro X. apply Df. rewrite X. reflexivity. }
  assert (AQ : ci ++ ct ++ cm ++ cd ++ rbits r2 = c1 ++ rbits r6).
  { rewrite (after_bits _ _ _ A2), (after_bits _ _ _ A3), (after_bits _ _ _ A6), (after_bits _ _ _ A9). unfold c1. now rewrite <- !app_assoc. }
  rewrite AQ. left.
  destruct (outside_dec P row (addr + n) (past_of P s7)) as [V1|V1]; [|eapply stray_vector; [reflexivity | exact FM | exact HD2 |]; left; rewrite SA1; exact V1].
  destruct (outside_dec P row (addr + n) (future_of P s7)) as [V2|V2]; [|eapply stray_vector; [reflexivity | exact FM | exact HD2 |]; right; rewrite SA2; exact V2].
  assert (D7 : dirs_ok P s7) by (apply (dirs_of_ok P b ct TY MC s7 eq_refl); apply (available_known P s7 b K PO); [unfold b; rewrite Bi; exact Q2 | reflexivity]).
  destruct (refs_of v P _ s7 m7 row (addr + n) HV A8 D7 V1 V2) as [RI _].
  (* the pattern *)
  apply np_panics in H.
  2: { destruct tp; [|apply np_ret]. apply np_safe, safe_ignore. apply safe_bind; [apply safe_onr; unfold coded_block_pattern; change ((ChromaFormat420 =? ChromaFormat422) || (ChromaFormat420 =? ChromaFormat444)) with false; cbv iota; intro rr; pose proof (safe_hdecode _ cbp_table rr) as X; fold cbp_decode in X; destruct (cbp_decode rr); exact X|]. intros ? ?. exact Logic.I. }
  destruct H as (oc & [m9 r7] & E & H). destruct oc as [cbp|]; [|discriminate].
  assert (X : exists c8, only_if tp (fun c => cbp_code c cbp) c8 /\ after r6 c8 r7 /\ m9 = m7).
  { destruct tp; cbn [only_if].
    - unfold ignore_err, onr, coded_block_pattern, bind, ret in E. cbn [fst snd] in E. destruct (cbp_decode r6) as [q r14] eqn:Q.
      change ((ChromaFormat420 =? ChromaFormat422) || (ChromaFormat420 =? ChromaFormat444)) with false in E. cbv iota in E. destruct q as [q|er| |]; try discriminate. cbv beta iota in E. assert (q = cbp /\ m9 = m7 /\ r7 = r14) as (-> & -> & ->) by (repeat split; congruence). apply cbp_after in Q. destruct Q as (c8 & Q & Q'). exists c8. auto.
    - unfold ret in E. assert (m9 = m7 /\ r7 = r6) as (-> & ->) by (split; congruence). exists []. auto using after_nil. }
  destruct X as (c8 & O8 & A10 & ->). clear E.
  destruct (pattern_run _ cbp ti tp ChromaFormat420 (m7, r7) eq_refl) as (pc & E & _). rewrite (bind_ok _ _ _ _ _ _ _ _ E) in H. change ChromaFormat420 with 1 in H, E. rewrite <- HC in H, E. apply pattern_after in E. destruct E as (_ & E & _). rewrite E in H. clear E.
  apply bind_panics in H. destruct H as [H | (u & s9 & _ & H)]; [|discriminate]. change 0 with (Z.of_nat 0) in H at 1.
  apply (blocks_stray v y se mb row (addr + n) (pp_w P) (pp_h P) Hm) in H; [|cbn [plus]; unfold coded_blocks, y_blocks; rewrite HC, map_length, seq_length; cbn; lia|cbn [fst]; unfold m7; cbn [ms_frame ms_set_mvd]; rewrite F6, F5, F4; exact F1|exact RI].
  destruct H as (i & c2 & c3 & tt' & Nt & Q & Bl & Ov). cbn [snd plus] in Q, Ov. rewrite Tm in Bl, Ov. cbn [mb_intra] in Bl, Ov.
  rewrite (after_bits _ _ _ A10), Q. eapply (stray_block y P row addr s _ b cbp i c1 c8 c2 c3 tt'); [reflexivity | exact FM | exact HD2 | unfold b; rewrite Bc; exact O8 | | |]; unfold b; rewrite ?Bi, ?Bc; assumption.
Qed.

(** * Slices *)
Lemma loop_stray : forall v y P row, vctx v P (pce_of (y_pce y)) -> v_ph v = Some (pic_of (y_hdr y)) -> layer_for y P -> refs_known P -> 0 <= row -> 16 * row + 16 <= pp_h P ->
  forall fuel addr s m cv r st', agree (pce_of (y_pce y)) s m -> dirs_ok P s -> looks (ms_frame m) cv -> cv_w cv = pp_w P -> cv_h cv = pp_h P -> -1 <= addr -> rlater r = [] ->
  slice_loop fuel v row addr (m, r) = (Panic, st') ->
  exists mbs c2 c3, rbits r = c2 ++ c3 /\ mbs_code P row addr s mbs c2 /\ let '(a, s') := after_mbs P addr s mbs in mb_stray y P row a s' c3 \/ mb_wrong y P row a s' c3.
Proof.
  intros v y P row HV Hph LY RK R0 R1. pose proof HV as (_ & HE & _ & (se & S1 & S2) & _ & _ & _ & _ & PO).
  induction fuel as [|fuel IH]; intros addr s m cv r st' HA HD L W H Ha Hr E; cbn [slice_loop] in E; [discriminate|].
  assert (Wr : mb_stray y P row addr s (rbits r) \/ mb_wrong y P row addr s (rbits r) ->
    exists mbs c2 c3, rbits r = c2 ++ c3 /\ mbs_code P row addr s mbs c2 /\ let '(a, s') := after_mbs P addr s mbs in mb_stray y P row a s' c3 \/ mb_wrong y P row a s' c3).
  { intro X. exists [], [], (rbits r). split; [reflexivity|]. split; [reflexivity|]. exact X. }
  apply bind_panics in E. destruct E as [E | (a1 & [m1 r1] & E1 & E)].
  { apply Wr. exact (macroblock_stray v y P row addr s m cv r _ HV Hph LY RK HA HD L W H Ha R0 R1 E). }
  apply np_panics in E; [|apply np_onr, np_safe, safe_peek_n]. destruct E as (nb & [m2 r2] & E2 & E). apply onr_inv in E2. destruct E2 as (F & E2). cbn [fst snd] in F, E2. subst m2. apply peek_after in E2. destruct E2 as (-> & _ & t & Q).
  destruct (nb =? 0); [discriminate|].
  assert (Ln : (11 <= length (rbits r1))%nat) by (rewrite Q, app_length, enc_length; lia).
  pose proof E1 as E0. apply (macroblock_after v y se) in E0; [|exact Hph|exact HE|exact S1|rewrite S2; symmetry; apply LY|exact Hr]. destruct E0 as (_ & [Z|(c & M & A)]); cbn [snd] in *; [rewrite Z in Ln; cbn in Ln; lia|].
  pose proof (after_bits _ _ _ A) as Qr.
  assert (Wm : forall c1 c2, c = c1 ++ c2 -> ((exists b, formed P b /\ mb_code P s b c1 /\ breaks P row addr s b) \/ field_mb y c1 \/ mb_cut y c1) -> mb_wrong y P row addr s (rbits r)).
  { intros c1 c2 -> X. exists c1, (c2 ++ rbits r1). split; [rewrite Qr; now rewrite <- app_assoc | exact X]. }
  destruct M as [M|M]; [|apply Wr; right; apply (Wm c []); [now rewrite app_nil_r | auto]].
  destruct (mb_parse y P s c LY PO M) as [(b & C & Sh)|(c1 & c2 & Ec & Fm)]; [|apply Wr; right; apply (Wm c1 c2); auto].
  destruct (mb_decide P row addr s b PO RK R0 R1 Ha Sh) as [OKb|Br]; [|apply Wr; right; apply (Wm c []); [now rewrite app_nil_r | left; exists b; split; [now apply shape_formed | auto]]].
  assert (N1 : 1 <= b_incr b) by (destruct Sh as (N1 & _); exact N1).
  destruct (macroblock_run v P _ s m cv row addr b c r (rbits r1) HV HA HD L W H Ha OKb C Ln) as (m' & Em & HA' & HD' & L').
  rewrite <- Qr, setb_rbits, E1 in Em. assert (a1 = addr + b_incr b /\ m1 = m') as [-> ->] by (split; congruence). clear Em.
  set (cv' := paint_mb _ _ _ _ _ _) in *.
  assert (D : cv_w cv' = pp_w P /\ cv_h cv' = pp_h P).
  { unfold cv', paint_mb. cbn [paint cv_w cv_h]. destruct (addr =? -1); [auto|]. destruct (skipped_dims P row (addr + 1) (b_incr b - 1) s cv) as [-> ->]. auto. }
  apply (IH _ (ps_after P s b) m' cv') in E; try assumption; try tauto; try lia; [|rewrite (after_later _ _ _ A); exact Hr].
  destruct E as (mbs & c2 & c3 & Q2 & Cs & X). exists (b :: mbs), (c ++ c2), c3. split; [rewrite Qr, Q2; now rewrite app_assoc|]. split; [cbn [mbs_code]; split; [exact OKb | exists c, c2; auto]|]. exact X.
Qed.
