(** PropertiesTall: pictures of more than 2800 lines (C82).  The standard (6.2.4, 6.3.16) puts the upper bits of
    a slice's row into slice_vertical_position_extension; the decoder reads the three bits and ignores them. *)
From Coq Require Import Lia.
From Verif Require Import Base BitReader VidModel SpecVid SpecVlc SpecBlock SpecMotion SpecNext SpecPicture BlockModel VlcTables MbModel Exec VidProofs MbStepProofs MbWholeProofs SliceProofs NextProofs
  PropertiesVidHeaders PropertiesMotion PropertiesBlock MotionProofs FrameProofs MbProofs CanvasProofs MacroblockProofs MbRunProofs ExampleStream.

(** * Specification *)

(** A slice of a picture of more than 2800 lines: the start code holds the row modulo 128, the extension the rest. *)
Definition tall_slice_code (P : params) (l : sslice) (c : list bool) : Prop :=
  0 <= sl_row l < 1024 /\ 16 * sl_row l + 16 <= pp_h P /\ 1 <= sl_q l < 32 /\ sl_mbs l <> [] /\
  match sl_flags l with Some (_, extra) => Forall (fun b => 0 <= b < 256) extra | None => True end /\
  exists c1, mbs_code P (sl_row l) (-1) (ps_start P (sl_q l)) (sl_mbs l) c1 /\
    c = stuffed (code (sl_row l mod 128 + 1) ++ enc 3 (sl_row l / 128) ++ enc 5 (sl_q l) ++ flags_code (sl_flags l) ++ c1) (sl_k l).
Inductive tall_slices_code (P : params) : list sslice -> list bool -> Prop :=
| tall_one : forall l c, tall_slice_code P l c -> tall_slices_code P [l] c
| tall_cons : forall l ls c d, tall_slice_code P l c -> tall_slices_code P ls d -> tall_slices_code P (l :: ls) (c ++ d).
(** The same slice in another row *)
Definition at_row (r : Z) (l : sslice) : sslice := mkSlice r (sl_q l) (sl_flags l) (sl_mbs l) (sl_k l).
(** An I picture of such a sequence that is coded by slices [ls]: everything but its frame *)
Definition tall_picture (c : context) (o l : known) (p : spicture) (ls : list sslice) : Prop :=
  let P := params_of c o l p in
  wf_seq (c_seq c) /\ wf_sext (c_ext c) /\ x_chroma (c_ext c) = 1 /\ 2800 < q_vertical (c_seq c) /\
  0 < 4096 * x_h (c_ext c) + q_horizontal (c_seq c) /\
  params_ok P /\ pp_type P = 1 /\ tall_slices_code P ls (pi_data p).
(** Its frame: what the standard says, and what the decoder makes of it *)
Definition tall_right (c : context) (o l : known) (p : spicture) : Prop :=
  exists ls, tall_picture c o l p ls /\ pi_frame p = picture_paint (params_of c o l p) ls.
Definition tall_wrapped (c : context) (o l : known) (p : spicture) : Prop :=
  exists ls, tall_picture c o l p ls /\ pi_frame p = picture_paint (params_of c o l p) (map (fun l => at_row (sl_row l mod 128) l) ls).

(** * The slices *)
Lemma intra_type : forall s b c t, mbt_code b2 c (some (b_quant b), s, t, is_coded b, is_intra b) -> is_intra b = true.
Proof. intros s b c t (v & n & H & _). cbn [b2 In] in H. destruct H as [H|[H|[] ] ]; injection H; intros; congruence. Qed.
Lemma moved : forall P row row', pp_type P = 1 -> 0 <= row' -> 16 * row' + 16 <= pp_h P ->
  forall mbs addr s c, mbs_code P row addr s mbs c -> mbs_code P row' addr s mbs c.
Proof.
  intros P row row' T R1 R2. induction mbs as [|b mbs IH]; intros addr s c H; [exact H|]. cbn [mbs_code] in *.
  destruct H as (OK & c1 & c2 & E & C1 & C2). split; [|exists c1, c2; auto].
  pose proof C1 as (? & ? & ? & ? & ? & _ & IT & _). rewrite T in IT. apply intra_type in IT.
  destruct OK as (O1 & (M1 & M2 & M3 & M4) & O3 & O4 & O5 & O6 & _ & _ & O8). split; [exact O1|]. split; [repeat split; assumption|].
  split; [exact O3|]. split; [exact O4|]. split; [exact O5|]. split; [exact O6|].
  assert (D : ps_dirs (ps_after P s b) = (false, false)) by (unfold ps_after; cbv zeta; cbn [ps_dirs]; now rewrite IT).
  unfold past_of at 1, future_of at 1. rewrite D. cbn [fst snd]. split; [exact I|]. split; [exact I|].
  intros A1 A2. destruct (O8 A1 A2) as (N & _). congruence.
Qed.
Lemma wrap_bounds : forall row, 0 <= row -> 0 <= row mod 128 < 128 /\ row mod 128 <= row.
Proof. intros row H. pose proof (Z.mod_pos_bound row 128 ltac:(lia)). pose proof (Z.mod_le row 128 H ltac:(lia)). lia. Qed.
Lemma tall_slice_run : forall v P e sh l f cv c rest rd, vctx v P e -> v_sh v = Some sh -> 2800 < sh_vertical sh -> pp_type P = 1 ->
  looks f cv -> cv_w cv = pp_w P -> cv_h cv = pp_h P -> tall_slice_code P l c -> at_code rest ->
  exists f', slice v f (setb rd (c ++ rest)) = (Ok f', setb rd rest) /\ looks f' (slice_paint P (at_row (sl_row l mod 128) l) cv).
Proof.
  intros v P e sh l f cv c rest rd HV HSH HV2 TY L W H (R1 & R2 & Q & NE & FL & c1 & C0 & ->) AC. unfold slice_paint, at_row. cbn [sl_row sl_q sl_mbs].
  destruct (wrap_bounds (sl_row l) ltac:(lia)) as (B1 & B2). set (row := sl_row l mod 128) in *. set (x := sl_row l / 128).
  assert (C1 : mbs_code P row (-1) (ps_start P (sl_q l)) (sl_mbs l) c1) by (apply (moved P (sl_row l)); auto; lia). clear C0.
  assert (X : 0 <= x < 2 ^ Z.of_nat 3). { unfold x. cbn. split; [apply Z.div_pos; lia | apply Z.div_lt_upper_bound; lia]. }
  set (body := code (row + 1) ++ enc 3 x ++ enc 5 (sl_q l) ++ flags_code (sl_flags l) ++ c1).
  destruct (slice_end (length body) (sl_k l) rest AC) as (Y & EY).
  pose proof HV as (_ & HE & PH & _ & _ & _ & _ & _ & PO).
  assert (A0 : agree e (ps_start P (sl_q l)) (mkMS (dc_reset (pc_dc e)) mv_zero (sl_q l) f)).
  { pose proof PO as (_ & _ & _ & D & _). pose proof PH as (_ & _ & _ & _ & ED & _). unfold agree, ps_start. cbn [ms_dcp ms_mvd ms_qsc ps_dc ps_fwd ps_bwd ps_q ps_dirs].
    split; [rewrite ED; exact (C40_reset _ D)|]. split; [reflexivity|]. split; [lia|]. split; [|repeat split; reflexivity].
    change mv_zero with (mv_reset mv_zero). apply reset_good. now apply (f_codes_of P). }
  set (T := stuffing (length body) (sl_k l) ++ rest) in *.
  assert (FU : (length (sl_mbs l) < S (length (c1 ++ T)))%nat) by (apply mbs_length in C1; rewrite app_length; lia).
  assert (D0 : dirs_ok P (ps_start P (sl_q l))) by (repeat split; discriminate).
  destruct (mbs_run v P e row T Y rd HV EY (sl_mbs l) (S (length (c1 ++ T))) (-1) (ps_start P (sl_q l)) _ cv c1 FU NE A0 D0 L W H ltac:(lia) C1) as (m' & E2 & L2).
  exists (ms_frame m'). split; [|exact L2].
  pose proof (nsc_stuffing (length body) (sl_k l) rd rest AC) as E3. fold T in E3.
  unfold slice, stuffed. rewrite <- app_assoc. fold T. unfold body. rewrite <- !app_assoc.
  destruct (row_of row ltac:(lia)) as [RW SL].
  pose proof (proj1 L) as (W0 & H0 & MW & MH & YS & CS & LY & LB & LR).
  set (hd := code0 <- read_n 32 ;; _).
  assert (E1 : hd (setb rd (code (row + 1) ++ enc 3 x ++ enc 5 (sl_q l) ++ flags_code (sl_flags l) ++ c1 ++ T)) = (Ok (e, row, sl_q l), setb rd (c1 ++ T))).
  { unfold hd. rewrite code_enc by lia. rewrite (bind_ok _ _ _ _ _ _ _ _ (read_enc 32 (256 + (row + 1)) rd _ ltac:(change (2 ^ Z.of_nat 32) with 4294967296; lia))).
    rewrite SL. cbn [negb]. rewrite HE. unfold deref at 1. rewrite bind_ret. cbv zeta. rewrite RW, YS, CS, LY, LB, LR.
    assert (K1 : 16 * row * cv_w cv <= cv_w cv * cv_h cv) by (rewrite H; nia).
    assert (K2 : 8 * row * (cv_w cv / 2) <= cv_w cv / 2 * (cv_h cv / 2)) by (rewrite H; assert (8 * row <= pp_h P / 2) by (dm (pp_h P) 2; lia); assert (0 <= cv_w cv / 2) by (dm (cv_w cv) 2; lia); nia).
    assert ((16 * row * cv_w cv <=? cv_w cv * cv_h cv) = true) as -> by lia. assert ((8 * row * (cv_w cv / 2) <=? cv_w cv / 2 * (cv_h cv / 2)) = true) as -> by lia. cbn [andb].
    rewrite HSH. unfold deref. rewrite bind_ret. assert (sh_vertical sh >? 2800 = true) as -> by lia. unfold when. rewrite bind_assoc.
    rewrite (bind_ok _ _ _ _ _ _ _ _ (read_enc 3 x rd _ X)). rewrite bind_ret.
    rewrite (bind_ok _ _ _ _ _ _ _ _ (read_enc 5 (sl_q l) rd _ ltac:(cbn; lia))). rewrite (bind_ok _ _ _ _ _ _ _ _ (flags_run (sl_flags l) rd _ FL)). reflexivity. }
  rewrite E1. cbn [snd]. rewrite rbits_setb. rewrite E2. rewrite (bind_ok _ _ _ _ _ _ _ _ E3). reflexivity.
Qed.
Lemma tall_starts : forall P l c, tall_slice_code P l c -> exists t, c = code (sl_row l mod 128 + 1) ++ t /\ (length t mod 8 = 0)%nat /\ 1 <= sl_row l mod 128 + 1 <= 175.
Proof.
  intros P l c (R1 & _ & _ & _ & _ & c1 & _ & ->). destruct (wrap_bounds (sl_row l) ltac:(lia)) as (B1 & _). unfold stuffed. set (x := enc 3 (sl_row l / 128) ++ enc 5 (sl_q l) ++ flags_code (sl_flags l) ++ c1).
  set (b := sl_row l mod 128 + 1) in *. exists (x ++ stuffing (length (code b ++ x)) (sl_k l)). rewrite <- app_assoc. split; [reflexivity|]. split; [|lia].
  assert (A : at_code (stuffed (code b ++ x) (sl_k l) ++ code 0)) by (apply stuffed_at_code; exists (enc 8 0); split; reflexivity).
  apply at_code_mod8 in A. unfold stuffed in A. set (z := stuffing (length (code b ++ x)) (sl_k l)) in *. clearbody z.
  rewrite !app_length, !code_length in A. rewrite app_length. replace (32 + length x + length z + 32)%nat with (length x + length z + 8 * 8)%nat in A by lia.
  rewrite Nat.mod_add in A by lia. exact A.
Qed.
Lemma talls_starts : forall P ls c, tall_slices_code P ls c -> exists b t, c = code b ++ t /\ (length t mod 8 = 0)%nat /\ 1 <= b <= 175.
Proof.
  intros P ls c H. induction H as [l c C | l ls c d C H IH]; destruct (tall_starts _ _ _ C) as (t & -> & L & B).
  - eauto.
  - destruct IH as (b & t' & -> & L' & _). exists (sl_row l mod 128 + 1), (t ++ code b ++ t'). rewrite <- app_assoc. split; [reflexivity|]. split; [|exact B].
    apply app_mod8; [exact L|]. apply app_mod8; [now rewrite code_length | exact L'].
Qed.
Lemma talls_run : forall v P e sh rest rd, vctx v P e -> v_sh v = Some sh -> 2800 < sh_vertical sh -> pp_type P = 1 -> at_unit rest ->
  forall ls c, tall_slices_code P ls c -> forall fuel f cv, (length ls <= fuel)%nat -> looks f cv -> cv_w cv = pp_w P -> cv_h cv = pp_h P ->
  exists f', slices fuel v f (setb rd (c ++ rest)) = (Ok f', setb rd rest) /\ looks f' (fold_left (fun c l => slice_paint P l c) (map (fun l => at_row (sl_row l mod 128) l) ls) cv).
Proof.
  intros v P e sh rest rd HV HSH HV2 TY AU. pose proof (unit_at_code _ AU) as AC. intros ls c H. induction H as [l c C | l ls c d C H IH]; intros fuel f cv Hf L W Hh; (destruct fuel as [|fuel]; [cbn in Hf; lia|]); cbn [slices].
  - destruct (tall_slice_run v P e sh l f cv c rest rd HV HSH HV2 TY L W Hh C AC) as (f' & E & L'). rewrite (bind_ok _ _ _ _ _ _ _ _ E).
    exists f'. split; [|exact L']. destruct AU as (b & t & -> & _ & I). rewrite (bind_ok _ _ _ _ _ _ _ _ (peek_code b rd t ltac:(cbn in I; unfold picture_code, sequence_header_code, group_code, sequence_end_code in I; lia))).
    cbn [In] in I. destruct I as [<-|[<-|[<-|[<-|I] ] ] ]; [reflexivity|reflexivity|reflexivity|reflexivity|contradiction].
  - destruct (talls_starts _ _ _ H) as (b & t & Ed & Lt & B).
    assert (AC2 : at_code (d ++ rest)). { rewrite Ed. rewrite <- app_assoc. unfold code. rewrite <- app_assoc. exists (enc 8 b ++ t ++ rest). split; [reflexivity|]. apply app_mod8; [now rewrite enc_length|]. apply app_mod8; [exact Lt | now apply at_code_mod8]. }
    destruct (tall_slice_run v P e sh l f cv c (d ++ rest) rd HV HSH HV2 TY L W Hh C AC2) as (f1 & E & L1). rewrite <- app_assoc. rewrite (bind_ok _ _ _ _ _ _ _ _ E).
    assert (PK : peek_n 32 (setb rd (d ++ rest)) = (Ok (256 + b), setb rd (d ++ rest))) by (rewrite Ed, <- app_assoc; apply peek_code; lia).
    rewrite (bind_ok _ _ _ _ _ _ _ _ PK). assert (is_slice (256 + b) = true) as -> by (unfold is_slice; change MinSliceStartCode with 257; change MaxSliceStartCode with 431; apply andb_true_iff; lia).
    destruct (mbs_paint_dims P (sl_row l mod 128) (sl_mbs l) (-1) (ps_start P (sl_q l)) cv) as [D1 D2].
    cbn [fold_left map]. apply IH; [cbn [length] in Hf; lia | exact L1 | |]; unfold slice_paint; cbn [at_row sl_row sl_mbs sl_q]; congruence.
Qed.
Lemma talls_length : forall P ls c, tall_slices_code P ls c -> (length ls <= length c)%nat.
Proof.
  intros P ls c H. induction H as [l c C | l ls c d C H IH]; destruct (tall_starts _ _ _ C) as (t & -> & _); rewrite !app_length, ?code_length; cbn [length]; lia.
Qed.
Lemma tall_picture_run : forall v P e sh w h ls c rest rd, vctx v P e -> v_sh v = Some sh -> 2800 < sh_vertical sh -> pp_type P = 1 -> size v = (w, h) -> 0 < w -> 0 < h ->
  pp_w P = whole w -> pp_h P = whole h -> tall_slices_code P ls c -> at_unit rest ->
  exists f, picture_data v (setb rd (c ++ rest)) = (Ok f, setb rd rest) /\ looks f (picture_paint P (map (fun l => at_row (sl_row l mod 128) l) ls)).
Proof.
  intros v P e sh w h ls c rest rd HV HSH HV2 TY SZ Hw Hh PW PH C AU. unfold picture_data. rewrite SZ. pose proof HV as (_ & _ & _ & (se & S1 & S2) & _). rewrite S1. unfold deref. rewrite bind_ret. rewrite S2.
  pose proof (talls_length _ _ _ C) as LN.
  destruct (talls_run v P e sh rest rd HV HSH HV2 TY AU ls c C (S (length (rbits (setb rd (c ++ rest))))) (create_frame_buffer w h ChromaFormat420) (blank P)) as (f & E & L).
  { rewrite rbits_setb, app_length. lia. }
  { apply blank_looks; auto. }
  { reflexivity. }
  { reflexivity. }
  rewrite (bind_ok _ _ _ _ _ _ _ _ E). exists f. split; [|exact L].
  pose proof (unit_at_code _ AU) as (t & -> & LT). pose proof (next_start_code_run [] 0 rd t ltac:(cbn; lia) LT) as NS. cbn [app repeat bb flat_map] in NS. rewrite (bind_ok _ _ _ _ _ _ _ _ NS). reflexivity.
Qed.

Lemma tall_decodes : forall c o l p, tall_wrapped c o l p -> picture_decodes c o l p.
Proof.
  intros c o l p (ls & (WS & WX & CH & V28 & PW & PO & TY & C) & FR) v rd rest F1 F2 F3 F4 AU.
  destruct (ctx_vctx0 c o l p v WS WX CH PO F1 F2 F3 F4) as (e & sh & HV & HS & H28 & SZ). rewrite FR.
  assert (0 <= x_v (c_ext c)) by (destruct WX as (_ & _ & _ & W4 & _); lia).
  apply (tall_picture_run v _ e sh (4096 * x_h (c_ext c) + q_horizontal (c_seq c)) (4096 * x_v (c_ext c) + q_vertical (c_seq c)) ls (pi_data p) rest rd); auto; lia.
Qed.

(** * C82 *)

(** What Next returns for every sequence of tall I pictures: each slice painted in its row modulo 128, over what
    is there already. *)
Theorem C82_wrapped : forall k g gs rd, sequence_of tall_wrapped (g :: gs) ->
  exists imgs v',
    nexts (length (shown (g :: gs))) (new_vidseq, setb rd (enc_sequence k (g :: gs))) = (Ok imgs, (v', setb rd (code sequence_end_code))) /\
    Forall2 looks imgs (shown (g :: gs)) /\
    next (v', setb rd (code sequence_end_code)) = (Err EOS, (v', setb rd [])).
Proof.
  intros k g gs rd (H1 & H2 & H3). apply sequence_nexts. split; [exact H1|]. split; [exact H2|]. exact (groups_mono _ _ tall_decodes _ None Unknown Unknown H3).
Qed.

(** ** A picture of 48 x 2816 samples: 176 grey slices *)
Definition grey : smb := mkMb 1 None None None (Intra false (flat 128 128 128)).
Definition grey_bits : list bool := enc 1 1 ++ enc 1 1 ++ flat_bits.
Definition grey_slice (r : nat) : sslice := mkSlice (Z.of_nat r) 5 None [grey; grey; grey] 0.
Definition grey_data (r : nat) : list bool :=
  stuffed (code (Z.of_nat r mod 128 + 1) ++ enc 3 (Z.of_nat r / 128) ++ enc 5 5 ++ flags_code None ++ grey_bits ++ grey_bits ++ grey_bits) 0.
Definition tall_params : params := mkParams 1 xs_pce std_intra_matrix std_non_intra_matrix 48 2816 Unknown Unknown.
Lemma grey_blocks : forall p, p 0%nat = 128 -> p 1%nat = 128 -> p 2%nat = 128 -> intra_code tall_params p 0 (flat 128 128 128) flat_bits.
Proof.
  intros p H0 H1 H2. cbn [intra_code flat]. unfold flat_bits. change (e_vlc (pp_pce tall_params)) with false.
  exists dc0l, b14_eob. eexists. split; [rewrite <- !app_assoc; reflexivity|]. cbn [component]. rewrite H0. split; [apply (xs_dc0 0); lia|]. split; [apply empty_from; lia|].
  exists dc0l, b14_eob. eexists. split; [reflexivity|]. split; [apply (xs_dc0 1); lia|]. split; [apply empty_from; lia|].
  exists dc0l, b14_eob. eexists. split; [reflexivity|]. split; [apply (xs_dc0 2); lia|]. split; [apply empty_from; lia|].
  exists dc0l, b14_eob. eexists. split; [reflexivity|]. split; [apply (xs_dc0 3); lia|]. split; [apply empty_from; lia|].
  exists dc0c, b14_eob. eexists. split; [reflexivity|]. change (set_dc _ _ _ 1%nat) with (p 1%nat). rewrite H1. split; [apply (xs_dc0 4); lia|]. split; [apply empty_from; lia|].
  exists dc0c, b14_eob, []. split; [reflexivity|]. change (set_dc _ _ _ 2%nat) with (p 2%nat). rewrite H2. split; [apply (xs_dc0 5); lia|]. split; [apply empty_from; lia|].
  reflexivity.
Qed.
Lemma grey_mb : forall s, ps_dc (ps_before tall_params s grey) 0%nat = 128 -> ps_dc (ps_before tall_params s grey) 1%nat = 128 -> ps_dc (ps_before tall_params s grey) 2%nat = 128 ->
  mb_code tall_params s grey grey_bits.
Proof.
  intros s H0 H1 H2. exists (enc 1 1), (enc 1 1), [], [], flat_bits. split; [apply xs_incr1|]. split; [exists 1, 1; split; [cbn; auto | reflexivity]|].
  split; [reflexivity|]. split; [reflexivity|]. split; [|reflexivity]. cbn [b_body grey body_code]. now apply grey_blocks.
Qed.
Lemma grey_ok : forall row addr s, 0 <= row < 176 -> -1 <= addr < 2 -> mb_ok tall_params row addr s grey.
Proof.
  intros row addr s R A. split; [cbn; lia|]. split; [unfold mb_in; cbn [pp_w pp_h tall_params b_incr grey]; lia|]. split.
  { cbn [body_ok b_body grey]. split; [reflexivity|]. split; [auto|]. unfold flat. repeat (apply Forall_cons; [cbn; split; [lia|]; split; [constructor | lia]|]). apply Forall_nil. }
  split; [now intros|]. split; [exact I|]. split; [split; discriminate|]. split; [exact I|]. split; [exact I|]. intros _ H; cbn in H; lia.
Qed.
Lemma grey_slice_code : forall r, (r < 176)%nat -> tall_slice_code tall_params (grey_slice r) (grey_data r).
Proof.
  intros r Hr. unfold tall_slice_code, grey_slice, grey_data. cbn [sl_row sl_q sl_flags sl_mbs sl_k]. split; [lia|]. split; [cbn [pp_h tall_params]; lia|]. split; [lia|]. split; [discriminate|]. split; [exact I|].
  exists (grey_bits ++ grey_bits ++ grey_bits). split; [|reflexivity]. cbn [mbs_code].
  split; [apply grey_ok; lia|]. exists grey_bits, (grey_bits ++ grey_bits). split; [reflexivity|]. split; [apply grey_mb; reflexivity|].
  split; [apply grey_ok; cbn; lia|]. exists grey_bits, grey_bits. split; [reflexivity|]. split; [apply grey_mb; reflexivity|].
  split; [apply grey_ok; cbn; lia|]. exists grey_bits, []. split; [now rewrite app_nil_r|]. split; [apply grey_mb; reflexivity | reflexivity].
Qed.
Definition grey_rows (n : nat) : list sslice := map grey_slice (seq n (176 - n)).
Definition grey_picture_data (n : nat) : list bool := flat_map grey_data (seq n (176 - n)).
Lemma grey_all : forall n a, (a + n <= 175)%nat -> tall_slices_code tall_params (map grey_slice (seq a (S n))) (flat_map grey_data (seq a (S n))).
Proof.
  induction n as [|n IH]; intros a H.
  - cbn [seq map flat_map]. rewrite app_nil_r. apply tall_one, grey_slice_code. lia.
  - change (seq a (S (S n))) with (a :: seq (S a) (S n)). cbn [map flat_map]. apply tall_cons; [apply grey_slice_code; lia | apply (IH (S a)); lia].
Qed.
Definition tall_seq : sseq := mkSseq 48 2816 2 3 20000 112 false None None.
Definition tall_start : sstart := mkStart tall_seq 1 xs_sext 0 [].
Definition tall_ctx : context := mkCtx tall_seq xs_sext std_intra_matrix std_non_intra_matrix std_intra_matrix std_non_intra_matrix.
Definition tall_pic (f : canvas) : spicture :=
  mkPicture (mkSpic 0 1 65535 (false, 7) (false, 7) []) 0 xs_pce 1 [] (flat_map grey_data (seq 0 176)) f.
Definition tall_groups (f : canvas) : list sgroup := [mkGroup (Some tall_start) (xs_gop true) 0 [] [tall_pic f]].
Definition tall_slices : list sslice := map grey_slice (seq 0 176).
Definition right_frame : canvas := picture_paint tall_params tall_slices.
Definition wrapped_frame : canvas := picture_paint tall_params (map (fun l => at_row (sl_row l mod 128) l) tall_slices).
Lemma tall_pic_coded : forall o l f, tall_picture tall_ctx o l (tall_pic f) tall_slices.
Proof.
  intros o l f. unfold tall_picture. assert (E : params_of tall_ctx o l (tall_pic f) = tall_params) by reflexivity. rewrite E.
  split. { repeat split; cbn; lia || exact I. } split. { repeat split; cbn; lia. } split; [reflexivity|]. split; [cbn; lia|]. split; [cbn; lia|].
  split. { pose proof std_matrices as (M1 & M2). unfold params_ok, tall_params. cbn [pp_type pp_pce pp_intra pp_non_intra]. cbn [xs_pce e_struct e_conceal e_dc e_f00 e_f01 e_f10 e_f11].
    repeat (split; [lia || reflexivity || assumption|]). apply M2. }
  split; [reflexivity|]. apply (grey_all 175 0). lia.
Qed.
Lemma tall_wf : forall f, wf_picture (tall_pic f).
Proof.
  intro f. unfold wf_picture, tall_pic. cbn [pi_hdr pi_pce pi_items pi_data p_type].
  split. { unfold wf_pic. cbn [p_tr p_type p_vbv p_forward p_backward p_extra snd]. change (2 ^ 10) with 1024. change (2 ^ 3) with 8. change (2 ^ 16) with 65536. repeat (split; [lia|]). constructor. }
  split. { repeat split; cbn; lia. } split; [constructor|]. split; [constructor|]. split; [lia|].
  destruct (talls_starts _ _ _ (grey_all 175 0 ltac:(lia))) as (b & t & E & L & B). exists b, t. rewrite E. auto.
Qed.
Lemma tall_sequence : forall (D : context -> known -> known -> spicture -> Prop) f, D tall_ctx Unknown Unknown (tall_pic f) -> sequence_of D (tall_groups f).
Proof.
  intros D f H. split; [|split].
  - apply Forall_cons; [|apply Forall_nil]. split. { split. { repeat split; cbn; try lia; exact I. } split. { repeat split; cbn; lia. } split; constructor. }
    split; [repeat split; cbn; lia|]. split; [constructor|]. split; [constructor|]. cbn [gr_pics]. apply Forall_cons; [apply tall_wf | apply Forall_nil].
  - apply Forall_cons; [|apply Forall_nil]. split; [reflexivity|]. eexists _, _. split; reflexivity.
  - unfold tall_groups. cbn [groups_all gr_start gr_pics]. split; [|exact I]. cbn [pictures_all]. change (ctx_start tall_start) with tall_ctx. unfold ctx_items. cbn [pi_items tall_pic fold_left].
    split; [exact H | exact I].
Qed.
Lemma right_sample : cv_y right_frame 0 2064 = 128.
Proof. lazy. reflexivity. Qed.
Lemma wrapped_sample : cv_y wrapped_frame 0 2064 = 0.
Proof. lazy. reflexivity. Qed.
Lemma tall_shown : forall f, shown (tall_groups f) = [f].
Proof. reflexivity. Qed.
Lemma tall_bits : forall f g, enc_sequence 0 (tall_groups f) = enc_sequence 0 (tall_groups g).
Proof.
  intros f g. unfold tall_groups, tall_pic. generalize (flat_map grey_data (seq 0 176)). intro d. reflexivity.
Qed.
Lemma tall_size : forall (A : Type) (g : A -> sslice) ls, cv_w (picture_paint tall_params (map g ls)) = 48 /\ cv_h (picture_paint tall_params (map g ls)) = 2816.
Proof.
  intros A g ls. unfold picture_paint. assert (H : cv_w (blank tall_params) = 48 /\ cv_h (blank tall_params) = 2816) by (split; reflexivity).
  revert H. generalize (blank tall_params). induction ls as [|l ls IH]; intros c H; [exact H|]. cbn [map fold_left]. apply IH. unfold slice_paint.
  destruct (mbs_paint_dims tall_params (sl_row (g l)) (sl_mbs (g l)) (-1) (ps_start tall_params (sl_q (g l))) c) as [-> ->]. exact H.
Qed.
(** A valid sequence with one picture that Next returns without the lines below 2048: line 2064 should be grey (128)
    and is 0. *)
Theorem C82_tall_refuted : exists gs, sequence_of tall_right gs /\ shown gs <> [] /\
  forall rd, exists imgs s', nexts (length (shown gs)) (new_vidseq, setb rd (enc_sequence 0 gs)) = (Ok imgs, s') /\
    ~ Forall2 looks imgs (shown gs).
Proof.
  exists (tall_groups right_frame). split.
  { apply tall_sequence. exists tall_slices. split; [apply tall_pic_coded | reflexivity]. }
  rewrite tall_shown. split; [discriminate|]. intro rd.
  assert (W : sequence_of tall_wrapped (tall_groups wrapped_frame)) by (apply tall_sequence; exists tall_slices; split; [apply tall_pic_coded | reflexivity]).
  destruct (C82_wrapped 0 _ _ rd W) as (imgs & v' & N & L & _). fold (tall_groups wrapped_frame) in N, L. rewrite tall_shown in N, L. rewrite (tall_bits wrapped_frame right_frame) in N. cbn [length] in N |- *.
  exists imgs, (v', setb rd (code sequence_end_code)). split; [exact N|]. clear N W. intro R.
  inversion L as [|img ? ? ? L1 L2 EQ]; subst. inversion R as [|? ? ? ? R1 _]; subst.
  destruct L1 as (_ & _ & _ & Y & _). destruct R1 as (_ & _ & _ & Y' & _).
  destruct (tall_size _ grey_slice (seq 0 176)) as (W1 & H1). fold tall_slices right_frame in W1, H1.
  destruct (tall_size _ (fun l => at_row (sl_row l mod 128) l) tall_slices) as (W2 & H2). fold wrapped_frame in W2, H2.
  rewrite W1, H1 in Y'. rewrite W2, H2 in Y. specialize (Y 0 2064 ltac:(lia) ltac:(lia)). specialize (Y' 0 2064 ltac:(lia) ltac:(lia)).
  rewrite right_sample in Y'. rewrite wrapped_sample in Y. lia.
Qed.
Example C82_hyp : sequence_of tall_wrapped (tall_groups wrapped_frame).
Proof. apply tall_sequence. exists tall_slices. split; [apply tall_pic_coded | reflexivity]. Qed.

(** ** Rows that fit: slices in rows below 128 are decoded right *)
Theorem C82_upper_rows_partial : forall c o l p ls, tall_picture c o l p ls -> Forall (fun l => sl_row l < 128) ls ->
  pi_frame p = picture_paint (params_of c o l p) ls -> picture_decodes c o l p.
Proof.
  intros c o l p ls T F E. apply tall_decodes. exists ls. split; [exact T|]. rewrite E. f_equal. symmetry.
  destruct T as (_ & _ & _ & _ & _ & _ & _ & C). clear E. induction C as [x d (R & _) | x ls d d' (R & _) C IH]; inversion F; subst; cbn [map].
  - rewrite Z.mod_small by lia. now destruct x.
  - rewrite IH by assumption. rewrite Z.mod_small by lia. now destruct x.
Qed.
Print Assumptions C82_wrapped.
Print Assumptions C82_tall_refuted.
Print Assumptions C82_upper_rows_partial.
