(** SliceProofs: slices and pictures from their bits to samples. *)
From Verif Require Import Base BitReader Exec Local TsRobust VlcTables Huffman BlockModel VidModel SpecVid SpecVlc SpecBlock SpecMotion VidProofs VlcProofs BlockProofs DequantProofs IdctProofs PropertiesBlock
  MbModel MotionProofs FrameProofs MbProofs SpecNext SpecPicture CanvasProofs MacroblockProofs MbRunProofs MbStepProofs MbWholeProofs NextProofs PropertiesVidHeaders.

(** * The end of a slice *)
Lemma dec_true : forall l, In true l -> 0 < dec l.
Proof.
  induction l as [|b l IH]; intros H; [destruct H|]. rewrite dec_cons. pose proof (dec_range l). destruct H as [->|H].
  - cbn [Z.b2z]. pose proof (Z.pow_pos_nonneg 2 (Z.of_nat (length l))). lia.
  - specialize (IH H). pose proof (Z.pow_pos_nonneg 2 (Z.of_nat (length l))). destruct b; cbn [Z.b2z]; lia.
Qed.
Lemma dec_false : forall n, dec (repeat false n) = 0.
Proof. induction n; [reflexivity|]. cbn [repeat]. rewrite dec_cons, IHn. cbn [Z.b2z]. lia. Qed.
Lemma mba_word : forall c i, mba_code c i -> (length c <= 11)%nat /\ In true c.
Proof.
  intros c i (H1 & v & n & E & ->).
  assert (C : forallb (fun w => (Z.to_nat (snd w) <=? 11)%nat && existsb (fun b => b) (enc (Z.to_nat (snd w)) (fst w))) b1 = true) by (vm_compute; reflexivity).
  rewrite forallb_forall in C. specialize (C (v, n) (nth_error_In _ _ E)). cbn [fst snd] in C. apply andb_true_iff in C. destruct C as [C1 C2]. apply Nat.leb_le in C1.
  apply existsb_exists in C2. destruct C2 as (x & I & ->). now rewrite enc_length.
Qed.
Lemma incr_start : forall n c, incr_code n c -> exists a t, c = a ++ t /\ (length a <= 11)%nat /\ In true a.
Proof.
  intros n c (k & i & c0 & _ & C & ->). destruct (mba_word _ _ C) as [L I]. destruct k as [|k].
  - exists c0, []. rewrite app_nil_r. auto.
  - exists mb_escape, (concat (repeat mb_escape k) ++ c0). cbn [repeat concat]. rewrite app_assoc. split; [reflexivity|]. split; [cbn; lia|]. cbn. tauto.
Qed.
Lemma peek_some : forall n a t rd, (length a <= n)%nat -> (n <= length (a ++ t))%nat -> In true a -> exists x, peek_n n (setb rd (a ++ t)) = (Ok x, setb rd (a ++ t)) /\ x <> 0.
Proof.
  intros n a t rd L N I. rewrite app_length in N. assert (E : a ++ t = firstn n (a ++ t) ++ skipn n (a ++ t)) by now rewrite firstn_skipn.
  exists (dec (firstn n (a ++ t))). split.
  - rewrite E. rewrite peek_n_app by (rewrite firstn_length, app_length; lia). now rewrite <- E.
  - rewrite firstn_app, firstn_all2 by lia. assert (P : 0 < dec (a ++ firstn (n - length a) t)) by (apply dec_true, in_or_app; now left). lia.
Qed.
Lemma mb_code_start : forall P s b c, mb_code P s b c -> exists a t, c = a ++ t /\ (length a <= 11)%nat /\ In true a.
Proof.
  intros P s b c (ci & ct & cf & cb & cy & C & _ & _ & _ & _ & ->). destruct (incr_start _ _ C) as (a & t & -> & L & I).
  exists a. eexists. rewrite <- app_assoc. split; [reflexivity|]. auto.
Qed.
Lemma bb_zeros : forall k, bb (repeat 0 k) = repeat false (8 * k).
Proof. induction k as [|k IH]; [reflexivity|]. replace (8 * S k)%nat with (8 + 8 * k)%nat by lia. rewrite repeat_app, <- IH. reflexivity. Qed.
Lemma zeros_first : forall n X, exists Y, repeat false n ++ repeat false 23 ++ X = repeat false 23 ++ Y.
Proof. intros n X. exists (repeat false n ++ X). rewrite !app_assoc, <- !repeat_app. now rewrite Nat.add_comm. Qed.
Lemma slice_end : forall n k rest, at_code rest -> exists Y, stuffing n k ++ rest = repeat false 23 ++ Y.
Proof.
  intros n k rest (t & -> & _). unfold stuffing. rewrite bb_zeros, <- repeat_app. change prefix with (repeat false 23 ++ [true]). rewrite <- app_assoc. apply zeros_first.
Qed.

(** * The macroblocks of a slice *)
Lemma paint_mb_dims : forall P row col s b c, cv_w (paint_mb P row col s b c) = cv_w c /\ cv_h (paint_mb P row col s b c) = cv_h c.
Proof. intros. split; reflexivity. Qed.
Lemma skipped_dims : forall P row col n s c, cv_w (paint_skipped P row col n s c) = cv_w c /\ cv_h (paint_skipped P row col n s c) = cv_h c.
Proof. intros. unfold paint_skipped. destruct (n <=? 0); [auto|]. destruct (pp_type P =? 2); [destruct (pp_past P)|]; auto. Qed.
Lemma mbs_run : forall v P e row T Y rd, vctx v P e -> T = repeat false 23 ++ Y ->
  forall mbs fuel addr s m cv c, (length mbs < fuel)%nat -> mbs <> [] -> agree e s m -> dirs_ok P s -> looks (ms_frame m) cv -> cv_w cv = pp_w P -> cv_h cv = pp_h P -> -1 <= addr ->
  mbs_code P row addr s mbs c ->
  exists m', slice_loop fuel v row addr (m, setb rd (c ++ T)) = (Ok tt, (m', setb rd T)) /\ looks (ms_frame m') (mbs_paint P row addr s mbs cv).
Proof.
  intros v P e row T Y rd HV HT. induction mbs as [|b mbs IH]; intros fuel addr s m cv c Hf NE HA HD L W H Ha C; [congruence|].
  cbn [mbs_code] in C. destruct C as (OK & c1 & c2 & -> & C1 & C2). cbn [length] in Hf. destruct fuel as [|fuel]; [lia|].
  assert (LT : (23 <= length T)%nat) by (rewrite HT, app_length, repeat_length; lia).
  cbn [slice_loop mbs_paint]. cbv zeta. rewrite <- app_assoc.
  destruct (macroblock_run v P e s m cv row addr b c1 rd (c2 ++ T) HV HA HD L W H Ha OK C1 ltac:(rewrite app_length; lia)) as (m' & E & HA' & HD' & L').
  rewrite (bind_ok _ _ _ _ _ _ _ _ E). set (cv' := paint_mb _ _ _ _ _ _) in *.
  assert (D : cv_w cv' = pp_w P /\ cv_h cv' = pp_h P).
  { unfold cv', paint_mb. cbn [paint cv_w cv_h]. destruct (addr =? -1); [auto|]. destruct (skipped_dims P row (addr + 1) (b_incr b - 1) s cv) as [-> ->]. auto. }
  destruct mbs as [|b2 mbs].
  - cbn [mbs_code] in C2. subst c2. cbn [app mbs_paint]. exists m'. split; [|exact L'].
    assert (PK : peek_n 23 (setb rd T) = (Ok 0, setb rd T)). { rewrite HT. rewrite peek_n_app by apply repeat_length. now rewrite dec_false. }
    erewrite bind_onr_ok by exact PK. reflexivity.
  - cbn [mbs_code] in C2. destruct C2 as (OK2 & c3 & c4 & -> & C3 & C4). destruct (mb_code_start _ _ _ _ C3) as (a & t & -> & La & Ia).
    destruct (peek_some 23 a (t ++ c4 ++ T) rd ltac:(lia) ltac:(rewrite !app_length; lia) Ia) as (x & PK & X).
    assert (EQ : (((a ++ t) ++ c4) ++ T) = a ++ t ++ c4 ++ T) by now rewrite <- !app_assoc. rewrite EQ. erewrite bind_onr_ok by exact PK.
    assert (x =? 0 = false) as -> by lia. rewrite <- EQ.
    apply (IH fuel (addr + b_incr b) (ps_after P s b) m' cv' ((a ++ t) ++ c4)); auto; try tauto; try congruence; try lia.
    + destruct OK as (O1 & _). lia.
    + cbn [mbs_code]. split; [exact OK2|]. exists (a ++ t), c4. auto.
Qed.
Lemma mbs_length : forall P row mbs addr s c, mbs_code P row addr s mbs c -> (length mbs <= length c)%nat.
Proof.
  induction mbs as [|b mbs IH]; intros addr s c C; [cbn; lia|]. cbn [mbs_code] in C. destruct C as (_ & c1 & c2 & -> & C1 & C2). apply IH in C2.
  destruct (mb_code_start _ _ _ _ C1) as (a & t & -> & _ & I). destruct a; [destruct I|]. rewrite !app_length. cbn [length]. lia.
Qed.

(** * Slices *)
Lemma extra_run : forall extra fuel rd l, (length extra < fuel)%nat -> Forall (fun b => 0 <= b < 256) extra ->
  slice_extra fuel (setb rd (flat_map (fun b => [true] ++ enc 8 b) extra ++ [false] ++ l)) = (Ok tt, setb rd ([false] ++ l)).
Proof.
  induction extra as [|b extra IH]; intros fuel rd l Hf F; (destruct fuel as [|fuel]; [lia|]); cbn [slice_extra flat_map].
  - cbn [app]. rewrite (bind_ok _ _ _ _ _ _ _ _ (peek_n_app 1 rd [false] l eq_refl)). reflexivity.
  - inversion F; subst. rewrite <- !app_assoc. rewrite (bind_ok _ _ _ _ _ _ _ _ (peek_n_app 1 rd [true] _ eq_refl)). change (negb (dec [true] =? 1)) with false. cbn match.
    rewrite (bind_ok _ _ _ _ _ _ _ _ (skip_app 1 rd [true] _ eq_refl)). rewrite (bind_ok _ _ _ _ _ _ _ _ (read_enc 8 b rd _ ltac:(cbn; lia))). apply IH; [cbn [length] in Hf; lia | assumption].
Qed.
Lemma flags_run : forall x rd l, match x with Some (_, extra) => Forall (fun b => 0 <= b < 256) extra | None => True end ->
  slice_flags (setb rd (flags_code x ++ l)) = (Ok tt, setb rd l).
Proof.
  intros x rd l W. unfold slice_flags, flags_code. destruct x as [[i extra]|].
  - rewrite <- !app_assoc. cbn [app]. 
    assert (PK : forall X, peek_n 1 (setb rd (true :: X)) = (Ok 1, setb rd (true :: X))) by (intro X; exact (peek_n_app 1 rd [true] X eq_refl)).
    rewrite (bind_ok _ _ _ _ _ _ _ _ (PK _)). change (1 =? 1) with true. cbn match. rewrite !bind_assoc.
    rewrite (bind_ok _ _ _ _ _ _ _ _ (read1_cons true rd _)). rewrite bind_assoc. rewrite (bind_ok _ _ _ _ _ _ _ _ (read1_cons i rd _)).
    rewrite bind_assoc. rewrite (bind_ok _ _ _ _ _ _ _ _ (read_enc 7 0 rd _ ltac:(lia))). change (negb (0 =? 0)) with false. cbn match. rewrite bind_assoc, bind_ret.
    assert (EX : (fun r => slice_extra (S (length (rbits r))) r) (setb rd (flat_map (fun b => true :: enc 8 b) extra ++ false :: l)) = (Ok tt, setb rd ([false] ++ l))).
    { rewrite rbits_setb. apply (extra_run extra); [|exact W]. rewrite app_length. assert (length extra <= length (flat_map (fun b => true :: enc 8 b) extra))%nat; [|lia].
      clear W. induction extra as [|b extra IH]; [cbn; lia|]. cbn [flat_map length]. rewrite app_length. cbn [length]. lia. }
    rewrite (bind_ok _ _ _ _ _ _ _ _ EX). apply skip_app. reflexivity.
  - cbn [app]. rewrite (bind_ok _ _ _ _ _ _ _ _ (peek_n_app 1 rd [false] l eq_refl)). change (dec [false] =? 1) with false. cbn match. rewrite bind_ret. apply (skip_app 1 rd [false]). reflexivity.
Qed.
Lemma row_of : forall row, 0 <= row < 175 -> u32 (Z.land (256 + (row + 1)) 255 - 1) = row /\ is_slice (256 + (row + 1)) = true.
Proof.
  intros row H. change 255 with (Z.ones 8). rewrite Z.land_ones by lia. change (2 ^ 8) with 256. split.
  - replace (256 + (row + 1)) with (row + 1 + 1 * 256) by ring. rewrite Z.mod_add, Z.mod_small by lia. unfold u32. rewrite Z.mod_small; lia.
  - unfold is_slice. change MinSliceStartCode with 257. change MaxSliceStartCode with 431. apply andb_true_iff. lia.
Qed.
Lemma slice_by_loop : forall v P e sh row q fl k c1 f cv rest rd m' T', vctx v P e -> v_sh v = Some sh -> sh_vertical sh <= 2800 -> looks f cv -> cv_w cv = pp_w P -> cv_h cv = pp_h P ->
  0 <= row < 175 -> 16 * row + 16 <= pp_h P -> 0 <= q < 32 -> match fl with Some (_, extra) => Forall (fun b => 0 <= b < 256) extra | None => True end ->
  let body := code (row + 1) ++ enc 5 q ++ flags_code fl ++ c1 in
  let T := stuffing (length body) k ++ rest in
  slice_loop (S (length (c1 ++ T))) v row (-1) (mkMS (dc_reset (pc_dc e)) mv_zero q f, setb rd (c1 ++ T)) = (Ok tt, (m', setb rd T')) ->
  next_start_code (setb rd T') = (Ok tt, setb rd rest) ->
  slice v f (setb rd (stuffed body k ++ rest)) = (Ok (ms_frame m'), setb rd rest).
Proof.
  intros v P e sh row q fl k c1 f cv rest rd m' T' HV HSH HV2 L W H R1 R2 Q FL body T E2 E3. unfold slice, stuffed. rewrite <- app_assoc. fold T. unfold body. rewrite <- !app_assoc.
  pose proof HV as (_ & HE & PH & _ & _ & _ & _ & _ & PO). destruct (row_of row R1) as [RW SL].
  pose proof (proj1 L) as (W0 & H0 & MW & MH & YS & CS & LY & LB & LR).
  set (hd := code0 <- read_n 32 ;; _).
  assert (E1 : hd (setb rd (code (row + 1) ++ enc 5 q ++ flags_code fl ++ c1 ++ T)) = (Ok (e, row, q), setb rd (c1 ++ T))).
  { unfold hd. rewrite code_enc by lia. rewrite (bind_ok _ _ _ _ _ _ _ _ (read_enc 32 (256 + (row + 1)) rd _ ltac:(change (2 ^ Z.of_nat 32) with 4294967296; lia))).
    rewrite SL. cbn [negb]. rewrite HE. unfold deref at 1. rewrite bind_ret. cbv zeta. rewrite RW, YS, CS, LY, LB, LR.
    assert (B1 : 16 * row * cv_w cv <= cv_w cv * cv_h cv) by (rewrite H; nia).
    assert (B2 : 8 * row * (cv_w cv / 2) <= cv_w cv / 2 * (cv_h cv / 2)) by (rewrite H; assert (8 * row <= pp_h P / 2) by (dm (pp_h P) 2; lia); assert (0 <= cv_w cv / 2) by (dm (cv_w cv) 2; lia); nia).
    assert ((16 * row * cv_w cv <=? cv_w cv * cv_h cv) = true) as -> by lia. assert ((8 * row * (cv_w cv / 2) <=? cv_w cv / 2 * (cv_h cv / 2)) = true) as -> by lia. cbn [andb].
    rewrite HSH. unfold deref. rewrite bind_ret. assert (sh_vertical sh >? 2800 = false) as -> by lia. rewrite when_no.
    rewrite (bind_ok _ _ _ _ _ _ _ _ (read_enc 5 q rd _ ltac:(cbn; lia))). rewrite (bind_ok _ _ _ _ _ _ _ _ (flags_run fl rd _ FL)). reflexivity. }
  rewrite E1. cbn [snd]. rewrite rbits_setb. rewrite E2. rewrite (bind_ok _ _ _ _ _ _ _ _ E3). reflexivity.
Qed.
Lemma slice_run : forall v P e sh l f cv c rest rd, vctx v P e -> v_sh v = Some sh -> sh_vertical sh <= 2800 -> looks f cv -> cv_w cv = pp_w P -> cv_h cv = pp_h P ->
  slice_code P l c -> at_code rest ->
  exists f', slice v f (setb rd (c ++ rest)) = (Ok f', setb rd rest) /\ looks f' (slice_paint P l cv).
Proof.
  intros v P e sh l f cv c rest rd HV HSH HV2 L W H (R1 & R2 & Q & NE & FL & c1 & C1 & ->) AC. unfold slice_paint.
  set (body := code (sl_row l + 1) ++ enc 5 (sl_q l) ++ flags_code (sl_flags l) ++ c1).
  destruct (slice_end (length body) (sl_k l) rest AC) as (Y & EY).
  pose proof HV as (_ & HE & PH & _ & _ & _ & _ & _ & PO).
  assert (A0 : agree e (ps_start P (sl_q l)) (mkMS (dc_reset (pc_dc e)) mv_zero (sl_q l) f)).
  { pose proof PO as (_ & _ & _ & D & _). pose proof PH as (_ & _ & _ & _ & ED & _). unfold agree, ps_start. cbn [ms_dcp ms_mvd ms_qsc ps_dc ps_fwd ps_bwd ps_q ps_dirs].
    split; [rewrite ED; exact (C40_reset _ D)|]. split; [reflexivity|]. split; [lia|]. split; [|repeat split; reflexivity].
    change mv_zero with (mv_reset mv_zero). apply reset_good. now apply (f_codes_of P). }
  set (T := stuffing (length body) (sl_k l) ++ rest) in *.
  assert (FU : (length (sl_mbs l) < S (length (c1 ++ T)))%nat) by (apply mbs_length in C1; rewrite app_length; lia).
  assert (D0 : dirs_ok P (ps_start P (sl_q l))) by (repeat split; discriminate).
  destruct (mbs_run v P e (sl_row l) T Y rd HV EY (sl_mbs l) (S (length (c1 ++ T))) (-1) (ps_start P (sl_q l)) _ cv c1 FU NE A0 D0 L W H ltac:(lia) C1) as (m' & E2 & L2).
  exists (ms_frame m'). split; [|exact L2].
  apply (slice_by_loop v P e sh (sl_row l) (sl_q l) (sl_flags l) (sl_k l) c1 f cv rest rd m' T); auto; [lia|]. exact (nsc_stuffing (length body) (sl_k l) rd rest AC).
Qed.

(** * Pictures *)
Lemma mbs_paint_dims : forall P row mbs addr s c, cv_w (mbs_paint P row addr s mbs c) = cv_w c /\ cv_h (mbs_paint P row addr s mbs c) = cv_h c.
Proof.
  induction mbs as [|b mbs IH]; intros addr s c; [auto|]. cbn [mbs_paint]. cbv zeta. destruct (IH (addr + b_incr b) (ps_after P s b) (paint_mb P row (addr + b_incr b) (ps_after P s b) b
    (if addr =? -1 then c else paint_skipped P row (addr + 1) (b_incr b - 1) s c))) as [-> ->].
  destruct (addr =? -1); [auto|]. destruct (skipped_dims P row (addr + 1) (b_incr b - 1) s c) as [E1 E2]. cbn [paint_mb paint cv_w cv_h]. auto.
Qed.
Lemma slice_starts : forall P l c, slice_code P l c -> exists t, c = code (sl_row l + 1) ++ t /\ (length t mod 8 = 0)%nat /\ 1 <= sl_row l + 1 <= 175.
Proof.
  intros P l c (R1 & _ & _ & _ & _ & c1 & _ & ->). unfold stuffed. set (x := enc 5 (sl_q l) ++ flags_code (sl_flags l) ++ c1).
  exists (x ++ stuffing (length (code (sl_row l + 1) ++ x)) (sl_k l)). rewrite <- app_assoc. split; [reflexivity|]. split; [|lia].
  assert (A : at_code (stuffed (code (sl_row l + 1) ++ x) (sl_k l) ++ code 0)) by (apply stuffed_at_code; exists (enc 8 0); split; reflexivity).
  apply at_code_mod8 in A. unfold stuffed in A. set (z := stuffing (length (code (sl_row l + 1) ++ x)) (sl_k l)) in *. clearbody z.
  rewrite !app_length, !code_length in A. rewrite app_length. replace (32 + length x + length z + 32)%nat with (length x + length z + 8 * 8)%nat in A by lia.
  rewrite Nat.mod_add in A by lia. exact A.
Qed.
Lemma slices_starts : forall P ls c, slices_code P ls c -> exists b t, c = code b ++ t /\ (length t mod 8 = 0)%nat /\ 1 <= b <= 175.
Proof.
  intros P ls c H. induction H as [l c C | l ls c d C H IH]; destruct (slice_starts _ _ _ C) as (t & -> & L & B).
  - eauto.
  - destruct IH as (b & t' & -> & L' & _). exists (sl_row l + 1), (t ++ code b ++ t'). rewrite <- app_assoc. split; [reflexivity|]. split; [|exact B].
    apply app_mod8; [exact L|]. apply app_mod8; [now rewrite code_length | exact L'].
Qed.
Lemma slices_run : forall v P e sh rest rd, vctx v P e -> v_sh v = Some sh -> sh_vertical sh <= 2800 -> at_unit rest ->
  forall ls c, slices_code P ls c -> forall fuel f cv, (length ls <= fuel)%nat -> looks f cv -> cv_w cv = pp_w P -> cv_h cv = pp_h P ->
  exists f', slices fuel v f (setb rd (c ++ rest)) = (Ok f', setb rd rest) /\ looks f' (fold_left (fun c l => slice_paint P l c) ls cv).
Proof.
  intros v P e sh rest rd HV HSH HV2 AU. pose proof (unit_at_code _ AU) as AC. intros ls c H. induction H as [l c C | l ls c d C H IH]; intros fuel f cv Hf L W Hh; (destruct fuel as [|fuel]; [cbn in Hf; lia|]); cbn [slices].
  - destruct (slice_run v P e sh l f cv c rest rd HV HSH HV2 L W Hh C AC) as (f' & E & L'). rewrite (bind_ok _ _ _ _ _ _ _ _ E).
    exists f'. split; [|exact L']. destruct AU as (b & t & -> & _ & I). rewrite (bind_ok _ _ _ _ _ _ _ _ (peek_code b rd t ltac:(cbn in I; unfold picture_code, sequence_header_code, group_code, sequence_end_code in I; lia))).
    cbn [In] in I. destruct I as [<-|[<-|[<-|[<-|I] ] ] ]; [reflexivity|reflexivity|reflexivity|reflexivity|contradiction].
  - destruct (slices_starts _ _ _ H) as (b & t & Ed & Lt & B).
    assert (AC2 : at_code (d ++ rest)). { rewrite Ed. rewrite <- app_assoc. unfold code. rewrite <- app_assoc. exists (enc 8 b ++ t ++ rest). split; [reflexivity|]. apply app_mod8; [now rewrite enc_length|]. apply app_mod8; [exact Lt | now apply at_code_mod8]. }
    destruct (slice_run v P e sh l f cv c (d ++ rest) rd HV HSH HV2 L W Hh C AC2) as (f1 & E & L1). rewrite <- app_assoc. rewrite (bind_ok _ _ _ _ _ _ _ _ E).
    assert (PK : peek_n 32 (setb rd (d ++ rest)) = (Ok (256 + b), setb rd (d ++ rest))) by (rewrite Ed, <- app_assoc; apply peek_code; lia).
    rewrite (bind_ok _ _ _ _ _ _ _ _ PK). assert (is_slice (256 + b) = true) as -> by (unfold is_slice; change MinSliceStartCode with 257; change MaxSliceStartCode with 431; apply andb_true_iff; lia).
    destruct (mbs_paint_dims P (sl_row l) (sl_mbs l) (-1) (ps_start P (sl_q l)) cv) as [D1 D2].
    cbn [fold_left]. apply IH; [cbn [length] in Hf; lia | exact L1 | |]; unfold slice_paint; congruence.
Qed.
Lemma slices_length : forall P ls c, slices_code P ls c -> (length ls <= length c)%nat.
Proof.
  intros P ls c H. induction H as [l c C | l ls c d C H IH]; destruct (slice_starts _ _ _ C) as (t & -> & _); rewrite !app_length, ?code_length; cbn [length]; lia.
Qed.

(** The empty frame *)
Lemma whole_eq : forall n, 0 <= n -> Z.shiftl (Z.shiftr (n + 15) 4) 4 = whole n.
Proof. intros n H. rewrite Z.shiftl_mul_pow2, Z.shiftr_div_pow2 by lia. unfold whole. change (2 ^ 4) with 16. ring. Qed.
Lemma whole_spec : forall n, 0 < n -> n <= whole n < n + 16 /\ whole n mod 16 = 0 /\ 0 < whole n.
Proof.
  intros n H. unfold whole. pose proof (Z.div_mod (n + 15) 16 ltac:(lia)) as D. pose proof (Z.mod_pos_bound (n + 15) 16 ltac:(lia)) as B.
  rewrite (Z.mul_comm 16 ((n + 15) / 16)) at 3. rewrite Z.mod_mul by lia. lia.
Qed.
Lemma half_even : forall n, n mod 16 = 0 -> 0 < n -> Z.quot (n + 1) 2 = n / 2.
Proof.
  intros n M H. rewrite Z.quot_div_nonneg by lia. dm n 16. dm n 2. dm (n + 1) 2. lia.
Qed.
Lemma blank_looks : forall w h W H, 0 < w -> 0 < h -> W = whole w -> H = whole h ->
  looks (create_frame_buffer w h ChromaFormat420) (mkCanvas W H (fun _ _ => 0) (fun _ _ => 0) (fun _ _ => 0)).
Proof.
  intros w h W H Hw Hh -> ->. unfold create_frame_buffer. cbv zeta. rewrite !whole_eq by lia. change (ChromaFormat420 =? ChromaFormat420) with true. cbn match.
  destruct (whole_spec w Hw) as (_ & W1 & W2), (whole_spec h Hh) as (_ & H1 & H2). rewrite !half_even by auto.
  set (W := whole w) in *. set (H := whole h) in *. unfold looks, frame420, new_ycbcr. cbn [im_ys im_cs im_y im_cb im_cr im_w im_h pl_len zero_plane cv_w cv_h cv_y cv_b cv_r].
  split; [repeat split; auto|]. split; [reflexivity|]. split; [reflexivity|]. repeat split; try reflexivity; lia.
Qed.

Lemma picture_run : forall v P e sh w h ls c rest rd, vctx v P e -> v_sh v = Some sh -> sh_vertical sh <= 2800 -> size v = (w, h) -> 0 < w -> 0 < h ->
  pp_w P = whole w -> pp_h P = whole h -> slices_code P ls c -> at_unit rest ->
  exists f, picture_data v (setb rd (c ++ rest)) = (Ok f, setb rd rest) /\ looks f (picture_paint P ls).
Proof.
  intros v P e sh w h ls c rest rd HV HSH HV2 SZ Hw Hh PW PH C AU. unfold picture_data. rewrite SZ. pose proof HV as (_ & _ & _ & (se & S1 & S2) & _). rewrite S1. unfold deref. rewrite bind_ret. rewrite S2.
  pose proof (slices_length _ _ _ C) as LN.
  destruct (slices_run v P e sh rest rd HV HSH HV2 AU ls c C (S (length (rbits (setb rd (c ++ rest))))) (create_frame_buffer w h ChromaFormat420) (blank P)) as (f & E & L).
  { rewrite rbits_setb, app_length. lia. }
  { apply blank_looks; auto. }
  { reflexivity. }
  { reflexivity. }
  rewrite (bind_ok _ _ _ _ _ _ _ _ E). exists f. split; [|exact L].
  pose proof (unit_at_code _ AU) as (t & -> & LT). pose proof (next_start_code_run [] 0 rd t ltac:(cbn; lia) LT) as NS. cbn [app repeat bb flat_map] in NS. rewrite (bind_ok _ _ _ _ _ _ _ _ NS). reflexivity.
Qed.

(** * Sequences *)
Lemma ctx_vctx0 : forall c o l p v, wf_seq (c_seq c) -> wf_sext (c_ext c) -> x_chroma (c_ext c) = 1 -> params_ok (params_of c o l p) ->
  in_force c v -> (exists h, v_ph v = Some h /\ pic_holds (pi_hdr p) h) -> (exists h, v_pce v = Some h /\ pce_holds (pi_pce p) h) -> references p o l v ->
  exists e sh, vctx v (params_of c o l p) e /\ v_sh v = Some sh /\ sh_vertical sh = q_vertical (c_seq c) /\
    size v = (4096 * x_h (c_ext c) + q_horizontal (c_seq c), 4096 * x_v (c_ext c) + q_vertical (c_seq c)).
Proof.
  intros c o l p v WS WX CH PO ((sh & H1 & H2) & (se & X1 & X2) & Q0 & Q1 & _) (ph & P1 & P2) (e & E1 & E2) (R1 & R2).
  set (P := params_of c o l p) in *. pose proof PO as (TY & _).
  assert (TP : pp_type P = p_type (pi_hdr p)) by reflexivity.
  destruct H2 as (Hh & Hv & _). destruct X2 as (_ & _ & Xc & Xh & Xv & _). exists e, sh.
  split; [|split; [exact H1|split; [exact Hv|] ] ].
  - split; [exists ph; split; [exact P1|]; destruct P2 as (_ & P2 & _); rewrite P2; reflexivity|]. split; [exact E1|]. split; [exact E2|].
    split; [exists se; split; [exact X1 | now rewrite Xc, CH]|]. split; [exact Q0|]. split; [exact Q1|].
    rewrite TP in *. unfold P, params_of. cbn [pp_past pp_future].
    split; [|split; [|exact PO] ].
    + intro N. destruct (p_type (pi_hdr p) =? 2) eqn:T2; [apply R1; lia|]. replace (p_type (pi_hdr p) =? 3) with true by lia. apply R2. lia.
    + intro T3. rewrite T3. cbn [Z.eqb Pos.eqb]. apply R2. exact T3.
  - unfold size. rewrite H1, X1, Hh, Hv, Xh, Xv. destruct WS as (W1 & W2 & _). destruct WX as (_ & _ & W3 & W4 & _). now rewrite !size_parts by auto.
Qed.
Lemma ctx_vctx : forall c o l p v, wf_seq (c_seq c) -> wf_sext (c_ext c) -> x_chroma (c_ext c) = 1 -> q_vertical (c_seq c) <= 2800 -> params_ok (params_of c o l p) ->
  in_force c v -> (exists h, v_ph v = Some h /\ pic_holds (pi_hdr p) h) -> (exists h, v_pce v = Some h /\ pce_holds (pi_pce p) h) -> references p o l v ->
  exists e sh, vctx v (params_of c o l p) e /\ v_sh v = Some sh /\ sh_vertical sh <= 2800 /\
    size v = (4096 * x_h (c_ext c) + q_horizontal (c_seq c), 4096 * x_v (c_ext c) + q_vertical (c_seq c)).
Proof.
  intros c o l p v WS WX CH V28 PO F1 F2 F3 F4. destruct (ctx_vctx0 c o l p v WS WX CH PO F1 F2 F3 F4) as (e & sh & H1 & H2 & H3 & H4).
  exists e, sh. rewrite H3. auto.
Qed.
Lemma coded_decodes : forall c o l p, picture_coded c o l p -> picture_decodes c o l p.
Proof.
  intros c o l p (WS & WX & CH & V28' & PW & PH & PO & ls & C & FR) v rd rest F1 F2 F3 F4 AU.
  assert (V28 : q_vertical (c_seq c) <= 2800) by (destruct WX as (_ & _ & _ & W4 & _); lia).
  destruct (ctx_vctx c o l p v WS WX CH V28 PO F1 F2 F3 F4) as (e & sh & HV & HS & H28 & SZ). rewrite FR.
  apply (picture_run v _ e sh (4096 * x_h (c_ext c) + q_horizontal (c_seq c)) (4096 * x_v (c_ext c) + q_vertical (c_seq c)) ls (pi_data p) rest rd); auto.
Qed.
Lemma pictures_mono : forall (D D' : context -> known -> known -> spicture -> Prop), (forall c o l p, D c o l p -> D' c o l p) ->
  forall ps c o l, pictures_all D c o l ps -> pictures_all D' c o l ps.
Proof. intros D D' HD. induction ps as [|p ps IH]; intros c o l H; [exact I|]. cbn [pictures_all] in *. destruct H as [H1 H2]. split; [now apply HD | now apply IH]. Qed.
Lemma groups_mono : forall (D D' : context -> known -> known -> spicture -> Prop), (forall c o l p, D c o l p -> D' c o l p) ->
  forall gs c o l, groups_all D c o l gs -> groups_all D' c o l gs.
Proof.
  intros D D' HD. induction gs as [|g gs IH]; intros c o l H; [exact I|]. cbn [groups_all] in *. destruct (match gr_start g with Some s => _ | None => _ end) as [c'|]; [|contradiction].
  destruct H as [H1 H2]. split; [now apply (pictures_mono D)|]. destruct (after_pictures c' o l (gr_pics g)) as [[c2 o2] l2]. now apply IH.
Qed.
Lemma coded_valid : forall gs, sequence_of picture_coded gs -> valid_sequence gs.
Proof. intros gs (H1 & H2 & H3). split; [exact H1|]. split; [exact H2|]. exact (groups_mono _ _ coded_decodes gs None Unknown Unknown H3). Qed.
