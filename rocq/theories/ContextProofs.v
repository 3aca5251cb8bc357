(** ContextProofs: the pictures Next decodes, with the headers and matrices in force and the references used for each. *)
From Verif Require Import Base BitReader Exec Local TsRobust PesLocal After Huffman VlcTables BlockModel SpecVlc SpecBlock VlcProofs BlockProofs
  VidModel SpecVid VidProofs VidStream VidLocal MbModel SpecMotion MotionProofs SpecPicture EndProofs2 ShapeProofs SpecNext NextProofs MacroblockProofs SliceProofs
  PropertiesVidHeaders SpecStore StoreProofs SpecSyntax SyntaxProofs SpecRules RulesProofs SpecSpill.
From Verif Require SpillProofs.

(** * Extensions and matrices *)
Definition mats (v : vidseq) : qmatrix * qmatrix * qmatrix * qmatrix := (v_q0 v, v_q1 v, v_q2 v, v_q3 v).
Definition kmats (k : context) : qmatrix * qmatrix * qmatrix * qmatrix := (c_m0 k, c_m1 k, c_m2 k, c_m3 k).
Definition new_mats (o : option qmatrix) (f : qmatrix -> vidseq -> vidseq) (v : vidseq) : vidseq := match o with Some m => f m v | None => v end.
Lemma qload_mats : forall (f : qmatrix -> vidseq -> vidseq) s u s',
  (l <- onr read1 ;; (if l : bool then m <- onr read_matrix ;; upd (f m) else ret tt)) s = (Ok u, s') ->
  exists o, wf_matrix o /\ after (snd s) (enc_matrix o) (snd s') /\ fst s' = new_mats o f (fst s).
Proof.
  intros f s u s' H. apply bind_ok_inv in H. destruct H as (l & s1 & E & H). apply onr_inv in E. destruct E as (F1 & E). apply read1_after in E. destruct l.
  - apply bind_ok_inv in H. destruct H as (m & s2 & E2 & H). apply onr_inv in E2. destruct E2 as (F2 & E2). apply matrix_after in E2. destruct E2 as (L & B & A). apply upd_inv in H. subst s'. cbn [fst snd].
    exists (Some m). split; [split; auto|]. split; [cbn [enc_matrix]; chain|]. cbn [new_mats]. congruence.
  - inversion H; subst. exists None. split; [exact I|]. split; [exact E | exact F1].
Qed.
Lemma quant_mats : forall v r u v' r', rlater r = [] -> (exists t, rbits r = enc 4 3 ++ t) -> quant_matrix_extension (v, r) = (Ok u, (v', r')) ->
  headers v' = headers v /\ exists s g t, wf_quant s /\ gap g /\ after r (enc_quant s ++ g) r' /\
  rbits r' = prefix ++ t /\ (length (rbits r') mod 8 = 0)%nat /\ (forall k j, mats v = kmats k -> mats v' = kmats (ctx_item k (XQuant s j))).
Proof.
  intros v r u v' r' Hr (t0 & Q0) H. unfold quant_matrix_extension in H. apply bind_ok_inv in H. destruct H as ([] & [v1 r1] & E & H).
  assert (A0 : after r (enc 4 3) r1 /\ v1 = v).
  { pose proof (id_assert_run 3 r t0 ltac:(lia)) as X. rewrite <- Q0, setb_rbits in X. unfold ignore_err, onr in E. cbn [fst snd] in E. change QuantMatrixExtensionID with 3 in E. rewrite X in E. inversion E; subst. split; [|reflexivity]. apply after_intro; [rewrite rbits_setb; exact Q0 | now rewrite rbits_setb]. }
  clear E. destruct A0 as (A0 & ->).
  rewrite <- bind_assoc in H. apply bind_ok_inv in H. destruct H as ([] & [v2 r2] & E & H). apply qload_mats in E. destruct E as (o1 & W1 & A1 & F1).
  rewrite <- bind_assoc in H. apply bind_ok_inv in H. destruct H as ([] & [v3 r3] & E & H). apply qload_mats in E. destruct E as (o2 & W2 & A2 & F2).
  rewrite <- bind_assoc in H. apply bind_ok_inv in H. destruct H as ([] & [v4 r4] & E & H). apply qload_mats in E. destruct E as (o3 & W3 & A3 & F3).
  rewrite <- bind_assoc in H. apply bind_ok_inv in H. destruct H as ([] & [v5 r5] & E & H). apply qload_mats in E. destruct E as (o4 & W4 & A4 & F4).
  apply onr_inv in H. destruct H as (F5 & H). cbn [fst snd] in *. apply gap_after in H. destruct H as (g & tl & G & Ag & Qg & Mg). subst v' v5 v4 v3 v2.
  split; [destruct o1, o2, o3, o4; reflexivity|]. exists (mkSquant o1 o2 o3 o4), g, tl. split; [unfold wf_quant; cbn [m_intra m_non_intra m_chroma_intra m_chroma_non_intra]; auto|]. split; [exact G|]. split; [|split; [exact Qg|]; split; [exact Mg|]].
  - unfold enc_quant. cbn [m_intra m_non_intra m_chroma_intra m_chroma_non_intra]. rewrite <- !app_assoc. chain.
  - intros k j K. unfold mats, kmats in *. injection K as K0 K1 K2 K3. cbn [ctx_item m_intra m_non_intra m_chroma_intra m_chroma_non_intra c_m0 c_m1 c_m2 c_m3]. rewrite <- K0, <- K1, <- K2, <- K3. destruct o1, o2, o3, o4; reflexivity.
Qed.
Lemma body_mats : forall i v r u v' r', rlater r = [] -> (i = 0 \/ i = 2) -> extension_body i (v, r) = (Ok u, (v', r')) ->
  headers v' = headers v /\ exists x c, xitem_syn x (code extension_code ++ c) /\ allowed i x /\ after r c r' /\ ready r' /\ (forall k, mats v = kmats k -> mats v' = kmats (ctx_item k x)).
Proof.
  intros i v r u v' r' Hr Hi H. unfold extension_body in H. destruct Hi as [-> | ->]; cbn [Z.eqb] in H.
  - apply bind_ok_inv in H. destruct H as (id & [v1 r1] & E & H). apply onr_inv in E. destruct E as (F & E). cbn [fst snd] in F, E. apply peek_after in E. destruct E as (-> & _ & _). subst v1.
    destruct (id =? SequenceDisplayExtensionID).
    + apply bind_ok_inv in H. destruct H as (d & [v2 r2] & E & H). inversion H; subst. apply onr_inv in E. destruct E as (F & E). cbn [fst snd] in F, E. subst v'.
      apply disp_after in E; [|exact Hr]. destruct E as (s & g & t & W & G & A & Q & M & _). split; [reflexivity|].
      exists (XDisplay s 0), (enc_disp s ++ g). split; [split; [exact W | exists g; auto]|]. split; [reflexivity|]. split; [exact A|]. split; [exists t; auto | auto].
    + apply onr_inv in H. destruct H as (_ & H). cbn [fst snd] in H. unfold sequence_scalable_extension in H.
      apply bind_ok_inv in H. destruct H as (? & ? & _ & H). apply bind_ok_inv in H. destruct H as (? & ? & _ & H). apply bind_ok_inv in H. destruct H as (? & ? & _ & H). discriminate.
  - apply bind_ok_inv in H. destruct H as (id & [v1 r1] & E & H). apply onr_inv in E. destruct E as (F & E). cbn [fst snd] in F, E. apply peek_after in E. destruct E as (-> & _ & t0 & Q0). subst v1.
    destruct (Z.eqb_spec id QuantMatrixExtensionID) as [Ei|_].
    + subst id. apply quant_mats in H; [|exact Hr|exists t0; exact Q0]. destruct H as (F & s & g & t & W & G & A & Q & M & K). split; [exact F|].
      exists (XQuant s 0), (enc_quant s ++ g). split; [split; [exact W | exists g; auto]|]. split; [reflexivity|]. split; [exact A|]. split; [exists t; auto | auto].
    + destruct (id =? CopyrightExtensionID); [discriminate|]. destruct (id =? PictureDisplayExtensionID); [discriminate|]. destruct (id =? PictureSpatialScalableExtensionID); [discriminate|].
      apply bind_ok_inv in H. destruct H as (d & [v2 r2] & E & H). inversion H; subst. apply onr_inv in E. destruct E as (F & E). cbn [fst snd] in F, E. subst v'.
      apply temp_after in E. destruct E as (s & g & t & W & G & A & Q & M & _). split; [reflexivity|].
      exists (XTemporal s 0), (enc_temp s ++ g). split; [split; [exact W | exists g; auto]|]. split; [reflexivity|]. split; [exact A|]. split; [exists t; auto | auto].
Qed.
(** From [v] at [r] to [v'] at [r'] through extensions and user data *)
Definition items_mats (i : Z) (v : vidseq) (r : reader) (v' : vidseq) (r' : reader) : Prop :=
  exists xs cs, Forall2 xitem_syn xs cs /\ Forall (allowed i) xs /\ after r (concat cs) r' /\ forall k, mats v = kmats k -> mats v' = kmats (ctx_items k xs).
Lemma mats_nil : forall i v r, items_mats i v r v r.
Proof. intros i v r. exists [], []. split; [constructor|]. split; [constructor|]. split; [apply after_nil | auto]. Qed.
Lemma mats_app : forall i v r v1 r1 v2 r2, items_mats i v r v1 r1 -> items_mats i v1 r1 v2 r2 -> items_mats i v r v2 r2.
Proof.
  intros i v r v1 r1 v2 r2 (xs & cs & F & A & Q & K) (ys & ds & F' & A' & Q' & K'). exists (xs ++ ys), (cs ++ ds). split; [now apply Forall2_app|]. split; [now apply Forall_app|].
  split; [rewrite concat_app; eapply after_app; eauto|]. intros k E. unfold ctx_items. rewrite fold_left_app. apply K', K, E.
Qed.
Lemma mats_one : forall i v r x c v' r', xitem_syn x c -> allowed i x -> after r c r' -> (forall k, mats v = kmats k -> mats v' = kmats (ctx_item k x)) -> items_mats i v r v' r'.
Proof. intros i v r x c v' r' W A Q K. exists [x], [c]. split; [auto|]. split; [auto|]. split; [cbn [concat]; now rewrite app_nil_r | exact K]. Qed.
Lemma mats_later : forall i v r v' r', items_mats i v r v' r' -> rlater r' = rlater r.
Proof. intros i v r v' r' (xs & cs & _ & _ & A & _). exact (after_later _ _ _ A). Qed.
Lemma data_mats : forall f i v r u v' r', rlater r = [] -> ready r -> (i = 0 \/ i = 2) -> extension_data f i (v, r) = (Ok u, (v', r')) ->
  headers v' = headers v /\ items_mats i v r v' r' /\ ready r'.
Proof.
  induction f as [|f IH]; intros i v r u v' r' Hr Rd Hi H; cbn [extension_data] in H; [discriminate|].
  apply bind_ok_inv in H. destruct H as (b & [v1 r1] & E & H). apply onr_inv in E. destruct E as (F & E). cbn [fst snd] in F, E. apply peek_after in E. destruct E as (-> & _ & t & Q). subst v1.
  destruct (Z.eqb_spec b ExtensionStartCode) as [Eb|_]; cbn [negb] in H.
  - subst b. change (enc 32 ExtensionStartCode) with (code extension_code) in Q.
    apply bind_ok_inv in H. destruct H as ([] & [v1 r1] & E & H). unfold ignore_err, onr in E. cbn [fst snd] in E. rewrite (skip32_after r extension_code t ltac:(unfold extension_code; lia) Q) in E. inversion E; subst v1 r1. clear E.
    apply bind_ok_inv in H. destruct H as ([] & [v1 r1] & E & H). apply body_mats in E; [|exact Hr|exact Hi]. destruct E as (F1 & x & c & W & A & Q1 & Rd1 & K1).
    assert (A0 : after r (code extension_code ++ c) r1). { eapply after_app; [|exact Q1]. apply after_intro; [rewrite rbits_setb; exact Q | now rewrite rbits_setb]. }
    apply IH in H; [|rewrite (after_later _ _ _ A0); exact Hr|exact Rd1|exact Hi]. destruct H as (F2 & It & Rd2). split; [congruence|]. split; [|exact Rd2].
    eapply mats_app; [|exact It]. eapply mats_one; eauto.
  - inversion H; subst. split; [reflexivity|]. split; [apply mats_nil | exact Rd].
Qed.
Lemma ext_user_mats : forall f i v r u v' r', rlater r = [] -> ready r -> (i = 0 \/ i = 1 \/ i = 2) -> ext_user_loop f i (v, r) = (Ok u, (v', r')) ->
  headers v' = headers v /\ items_mats i v r v' r' /\ ready r'.
Proof.
  induction f as [|f IH]; intros i v r u v' r' Hr Rd Hi H; cbn [ext_user_loop] in H; [discriminate|].
  apply bind_ok_inv in H. destruct H as (b & [v1 r1] & E & H). apply onr_inv in E. destruct E as (F & E). cbn [fst snd] in F, E. apply peek_after in E. destruct E as (-> & _ & t & Q). subst v1.
  destruct (negb (b =? ExtensionStartCode) && negb (b =? UserDataStartCode)) eqn:Eb.
  - inversion H; subst. split; [reflexivity|]. split; [apply mats_nil | exact Rd].
  - apply bind_ok_inv in H. destruct H as ([] & [v1 r1] & E & H).
    assert (X : headers v1 = headers v /\ items_mats i v r v1 r1 /\ ready r1).
    { destruct (negb (i =? 1) && (b =? ExtensionStartCode)) eqn:E1.
      - apply data_mats in E; [exact E|exact Hr|exact Rd|]. apply andb_true_iff in E1. destruct E1 as (E1 & _). apply negb_true_iff, Z.eqb_neq in E1. lia.
      - destruct (b =? UserDataStartCode).
        + apply bind_ok_inv in E. destruct E as (d & [v2 r2] & E & E2). inversion E2; subst. apply onr_inv in E. destruct E as (F & E). cbn [fst snd] in F, E. subst v1.
          apply user_after in E; [|exact Rd]. destruct E as (W & A & R). split; [reflexivity|]. split; [|exact R]. eapply mats_one; [exact W | exact I | exact A | auto].
        + inversion E; subst. split; [reflexivity|]. split; [apply mats_nil | exact Rd]. }
    destruct X as (F1 & I1 & R1). apply IH in H; [|rewrite (mats_later _ _ _ _ _ I1); exact Hr|exact R1|exact Hi]. destruct H as (F2 & I2 & R2). split; [congruence|]. split; [|exact R2]. eapply mats_app; eauto.
Qed.
(** The context of a decoder's state *)
Definition in_ctx (k : context) (v : vidseq) : Prop := v_sh v = Some (seq_of (c_seq k)) /\ v_se v = Some (sext_of (c_ext k)) /\ mats v = kmats k.
Lemma ctx_items_headers : forall xs k, c_seq (ctx_items k xs) = c_seq k /\ c_ext (ctx_items k xs) = c_ext k.
Proof. induction xs as [|x xs IH]; intro k; [auto|]. unfold ctx_items in *. cbn [fold_left]. destruct (IH (ctx_item k x)) as (-> & ->). destruct x; auto. Qed.
Lemma items_in_ctx : forall i v r u v' r' k, rlater r = [] -> ready r -> (i = 0 \/ i = 1 \/ i = 2) -> in_ctx k v -> extension_and_user_data i (v, r) = (Ok u, (v', r')) ->
  headers v' = headers v /\ ready r' /\ exists c k', items_ctx i k c k' /\ after r c r' /\ in_ctx k' v'.
Proof.
  intros i v r u v' r' k Hr Rd Hi (K1 & K2 & K3) H. apply ext_user_mats in H; [|assumption..]. destruct H as (F & (xs & cs & A & B & C & D) & R). split; [exact F|]. split; [exact R|].
  exists (concat cs), (ctx_items k xs). split; [exists xs, cs; auto|]. split; [exact C|]. destruct (ctx_items_headers xs k) as (E1 & E2). unfold in_ctx. rewrite E1, E2. unfold headers in F. injection F as F1 F2 _ _. split; [congruence|]. split; [congruence | now apply D].
Qed.

(** * The slices of a picture *)

(** The next start code is not that of a slice. *)
Definition past_slices (r : reader) : Prop := exists nb, peek_n 32 r = (Ok nb, r) /\ is_slice nb = false.
Definition slice_here (y : layer) (c : list bool) : Prop := slice_syn (fun c => mb_syn y c \/ mb_cut y c) y c /\ (length c mod 8 = 0)%nat.
Lemma after_aligned : forall r c r', ready r -> ready r' -> after r c r' -> (length c mod 8 = 0)%nat.
Proof.
  intros r c r' (_ & _ & M) (_ & _ & M') A. rewrite (after_bits _ _ _ A), app_length in M.
  rewrite Nat.add_mod, M', Nat.add_0_r, Nat.mod_mod in M by lia. exact M.
Qed.
Lemma slices_here : forall f v y q sh frame r img r', v_ph v = Some (pic_of (y_hdr y)) -> v_pce v = Some (pce_of (y_pce y)) -> v_se v = Some sh -> se_chroma sh = y_chroma y ->
  v_sh v = Some q -> sh_vertical q = y_vertical y -> rlater r = [] -> ready r -> slices f v frame r = (Ok img, r') ->
  (exists ss, ss <> [] /\ Forall (slice_here y) ss /\ after r (concat ss) r') /\ ready r' /\ past_slices r'.
Proof.
  induction f as [|f IH]; intros v y q sh frame r img r' Hph Hpce Hse Hc Hsh Hv Hr Rd0 H; cbn [slices] in H; [discriminate|].
  apply bind_ok_inv in H. destruct H as (fr & r1 & E & H). apply (slice_after v y q sh) in E; [|assumption..]. destruct E as (T & (c & S & A) & Rd).
  assert (Sh : slice_here y c) by (split; [exact S | exact (after_aligned _ _ _ Rd0 Rd A)]).
  apply bind_ok_inv in H. destruct H as (nb & r2 & E & H). pose proof (peek_after _ _ _ _ E) as (-> & _). destruct (is_slice nb) eqn:Is.
  - apply (IH v y q sh) in H; try assumption; [|rewrite (after_later _ _ _ A); exact Hr]. destruct H as ((ss & N & F & A2) & Rd2 & Ps). split; [|auto]. exists (c :: ss). split; [discriminate|]. split; [constructor; assumption|]. cbn [concat]. eapply after_app; eauto.
  - inversion H; subst. split; [|split; [exact Rd | exists nb; auto]]. exists [c]. split; [discriminate|]. split; [constructor; [exact Sh | constructor]|]. cbn [concat]. now rewrite app_nil_r.
Qed.
Lemma picture_here : forall v y q sh r img r', v_ph v = Some (pic_of (y_hdr y)) -> v_pce v = Some (pce_of (y_pce y)) -> v_se v = Some sh -> se_chroma sh = y_chroma y ->
  v_sh v = Some q -> sh_vertical q = y_vertical y -> rlater r = [] -> ready r -> picture_data v r = (Ok img, r') ->
  (exists ss, ss <> [] /\ Forall (slice_here y) ss /\ after r (concat ss) r') /\ ready r' /\ past_slices r'.
Proof.
  intros v y q sh r img r' Hph Hpce Hse Hc Hsh Hv Hr Rd0 H. unfold picture_data in H. destruct (size v) as [w h]. rewrite Hse in H.
  apply bind_ok_inv in H. destruct H as (x & r1 & E & H). inversion E; subst x r1. clear E. apply bind_ok_inv in H. destruct H as (fr & r1 & E & H). apply (slices_here _ v y q sh) in E; try assumption.
  destruct E as ((ss & N & F & A) & (t & Q & M) & Ps). apply bind_ok_inv in H. destruct H as (u & r2 & E & H). apply (nsc_here _ _ _ t) in E; [|assumption..]. subst r2. inversion H; subst.
  split; [|split; [exists t; auto | exact Ps]]. exists ss. auto.
Qed.

(** ** The other way: what is a coding of slices is decoded, whatever start code follows. *)
Lemma slices_run_on : forall v P e sh rest rd, vctx v P e -> v_sh v = Some sh -> sh_vertical sh <= 2800 -> at_code rest -> past_slices (setb rd rest) ->
  forall ls c, slices_code P ls c -> forall fuel f cv, (length ls <= fuel)%nat -> looks f cv -> cv_w cv = pp_w P -> cv_h cv = pp_h P ->
  exists f', slices fuel v f (setb rd (c ++ rest)) = (Ok f', setb rd rest) /\ looks f' (fold_left (fun c l => slice_paint P l c) ls cv).
Proof.
  intros v P e sh rest rd HV HSH HV2 AC (nb & Pk & Nb). intros ls c H. induction H as [l c C | l ls c d C H IH]; intros fuel f cv Hf L W Hh; (destruct fuel as [|fuel]; [cbn in Hf; lia|]); cbn [slices].
  - destruct (slice_run v P e sh l f cv c rest rd HV HSH HV2 L W Hh C AC) as (f' & E & L'). rewrite (bind_ok _ _ _ _ _ _ _ _ E).
    exists f'. split; [|exact L']. rewrite (bind_ok _ _ _ _ _ _ _ _ Pk), Nb. reflexivity.
  - destruct (slices_starts _ _ _ H) as (b & t & Ed & Lt & B).
    assert (AC2 : at_code (d ++ rest)). { rewrite Ed. rewrite <- app_assoc. unfold code. rewrite <- app_assoc. exists (enc 8 b ++ t ++ rest). split; [reflexivity|]. apply app_mod8; [now rewrite enc_length|]. apply app_mod8; [exact Lt | now apply at_code_mod8]. }
    destruct (slice_run v P e sh l f cv c (d ++ rest) rd HV HSH HV2 L W Hh C AC2) as (f1 & E & L1). rewrite <- app_assoc. rewrite (bind_ok _ _ _ _ _ _ _ _ E).
    assert (PK : peek_n 32 (setb rd (d ++ rest)) = (Ok (256 + b), setb rd (d ++ rest))) by (rewrite Ed, <- app_assoc; apply peek_code; lia).
    rewrite (bind_ok _ _ _ _ _ _ _ _ PK). assert (is_slice (256 + b) = true) as -> by (unfold is_slice; change MinSliceStartCode with 257; change MaxSliceStartCode with 431; apply andb_true_iff; lia).
    destruct (mbs_paint_dims P (sl_row l) (sl_mbs l) (-1) (ps_start P (sl_q l)) cv) as [D1 D2].
    cbn [fold_left]. apply IH; [cbn [length] in Hf; lia | exact L1 | |]; unfold slice_paint; congruence.
Qed.
Lemma picture_run_on : forall v P e sh w h ls c rest rd, vctx v P e -> v_sh v = Some sh -> sh_vertical sh <= 2800 -> size v = (w, h) -> 0 < w -> 0 < h ->
  pp_w P = whole w -> pp_h P = whole h -> slices_code P ls c -> at_code rest -> past_slices (setb rd rest) ->
  exists f, picture_data v (setb rd (c ++ rest)) = (Ok f, setb rd rest) /\ looks f (picture_paint P ls).
Proof.
  intros v P e sh w h ls c rest rd HV HSH HV2 SZ Hw Hh PW PH C AC PS. unfold picture_data. rewrite SZ. pose proof HV as (_ & _ & _ & (se & S1 & S2) & _). rewrite S1. unfold deref. rewrite bind_ret. rewrite S2.
  pose proof (slices_length _ _ _ C) as LN.
  destruct (slices_run_on v P e sh rest rd HV HSH HV2 AC PS ls c C (S (length (rbits (setb rd (c ++ rest))))) (create_frame_buffer w h ChromaFormat420) (blank P)) as (f & E & L).
  { rewrite rbits_setb, app_length. lia. }
  { apply blank_looks; auto. }
  { reflexivity. }
  { reflexivity. }
  rewrite (bind_ok _ _ _ _ _ _ _ _ E). exists f. split; [|exact L].
  destruct AC as (t & -> & LT). pose proof (next_start_code_run [] 0 rd t ltac:(cbn; lia) LT) as NS. cbn [app repeat bb flat_map] in NS. rewrite (bind_ok _ _ _ _ _ _ _ _ NS). reflexivity.
Qed.
Lemma ready_code : forall r, ready r -> at_code (rbits r).
Proof.
  intros r (t & Q & M). exists t. split; [exact Q|]. rewrite Q, app_length in M. change (length prefix) with (3 * 8)%nat in M. rewrite Nat.add_comm, Nat.mod_add in M by lia. exact M.
Qed.

(** * One picture *)
Definition layer_of (k : context) (p : spic) (e : spce) : layer := mkLayer p e (x_chroma (c_ext k)) (q_vertical (c_seq k)).
Definition params_for (k : context) (p : spic) (e : spce) (past future : known) : params :=
  mkParams (p_type p) e (c_m0 k) (c_m1 k)
    (whole (4096 * x_h (c_ext k) + q_horizontal (c_seq k))) (whole (4096 * x_v (c_ext k) + q_vertical (c_seq k))) past future.
Lemma picture_shot : forall v k p e r img r', in_ctx k v -> wf_seq (c_seq k) -> wf_sext (c_ext k) -> v_ph v = Some (pic_of p) -> v_pce v = Some (pce_of e) ->
  rlater r = [] -> ready r -> picture_data v r = (Ok img, r') ->
  ready r' /\ exists d, after r d r' /\
  forall past future, let P := params_for k p e past future in
    x_chroma (c_ext k) = 1 -> 0 < 4096 * x_h (c_ext k) + q_horizontal (c_seq k) -> 0 < 4096 * x_v (c_ext k) + q_vertical (c_seq k) <= 2800 ->
    (p_type p <> 1 -> serves (fs_past (v_fs v)) past /\ exists c, past = Is c) -> (p_type p = 3 -> serves (fs_future (v_fs v)) future /\ exists c, future = Is c) ->
    params_ok P ->
    ((exists ls, slices_code P ls d /\ looks img (picture_paint P ls)) \/ slices_wrong (layer_of k p e) P d) /\ ~ slices_spill P d.
Proof.
  intros v k p e r img r' (K1 & K2 & K3) WS WX Ph Pe Hr Rd H. set (y := layer_of k p e).
  destruct (picture_here v y (seq_of (c_seq k)) (sext_of (c_ext k)) r img r') as ((ss & NE & F & A) & Rd' & Ps); try assumption; try reflexivity.
  split; [exact Rd'|]. exists (concat ss). split; [exact A|]. intros past future P CH Hw Hh F1 F2 PO.
  assert (LY : layer_for y P) by (repeat split; assumption).
  assert (RK : refs_known P) by (split; [intro T; destruct (F1 T); assumption | intro T; destruct (F2 T); assumption]).
  assert (V28 : q_vertical (c_seq k) <= 2800) by (destruct WX as (_ & _ & _ & W4 & _); lia).
  assert (HV : vctx v P (pce_of e)).
  { unfold mats, kmats in K3. injection K3 as Q0 Q1 _ _. split; [exists (pic_of p); split; [exact Ph | reflexivity]|]. split; [exact Pe|]. split; [apply pce_of_holds|].
    split; [exists (sext_of (c_ext k)); split; [exact K2 | exact CH]|]. split; [exact Q0|]. split; [exact Q1|]. split; [intro T; apply F1, T|]. split; [intro T; apply F2, T | exact PO]. }
  assert (SZ : size v = (4096 * x_h (c_ext k) + q_horizontal (c_seq k), 4096 * x_v (c_ext k) + q_vertical (c_seq k))).
  { unfold size. rewrite K1, K2. destruct WS as (W1 & W2 & _). destruct WX as (_ & _ & W3 & W4 & _). cbn [seq_of sext_of sh_horizontal sh_vertical se_hext se_vext]. now rewrite !size_parts by auto. }
  pose proof (ready_code _ Rd') as AC. split.
  2: { intro Sp. pose proof Rd as (_ & _ & M8). pose proof Rd' as (t & Q & _). rewrite (after_bits _ _ _ A) in M8.
       destruct (SpillProofs.picture_spills v P (pce_of e) (seq_of (c_seq k)) _ _ (concat ss) r (rbits r') HV K1 V28 SZ Hw ltac:(lia) eq_refl eq_refl Sp ltac:(rewrite Q; cbn; lia) M8) as (r2 & D).
       rewrite <- (after_bits _ _ _ A), setb_rbits in D. rewrite H in D. discriminate. }
  destruct (slices_parse y P LY PO RK V28 ss NE F) as [(ls & C)|W]; [left|now right]. exists ls. split; [exact C|].
  destruct (picture_run_on v P (pce_of e) (seq_of (c_seq k)) _ _ ls (concat ss) (rbits r') r HV K1 V28 SZ Hw ltac:(lia) eq_refl eq_refl C AC) as (f & E & L).
  { assert (R : setb r (rbits r') = r') by (rewrite A; destruct r'; reflexivity). rewrite R. exact Ps. }
  rewrite <- (after_bits _ _ _ A), setb_rbits in E. rewrite H in E. injection E as <- _. exact L.
Qed.

(** * Pictures one after the other *)
(** [right] for any history *)
Definition right_after (hist : list happening) (sh : shot) : Prop :=
  forall past future, let P := shot_params sh past future in
  plain sh ->
  (let h := hist ++ opening sh in
   let x := (group_after h, p_tr (s_hdr sh)) in
   (s_type sh <> 1 -> coding_order h x) /\
   (if s_type sh =? 1 then past = Unknown else exists f c, nearest_before (refs h) x f /\ looks f c /\ past = Is c) /\
   (if s_type sh =? 3 then exists f c, nearest_after (refs h) x f /\ looks f c /\ future = Is c else future = Unknown)) ->
  params_ok P ->
  ((exists ls, slices_code P ls (s_data sh) /\ looks (s_frame sh) (picture_paint P ls)) \/ slices_wrong (shot_layer sh) P (s_data sh)) /\ ~ slices_spill P (s_data sh).
Definition ctx_ok (k : context) : Prop := matrix_ok (c_m0 k) /\ matrix_ok (c_m1 k).
Lemma right_both : forall before sh past future, ctx_ok (s_ctx sh) -> wf_pce (s_pce sh) -> right_after (history before) sh -> described sh -> reference_frames before sh past future ->
  let P := shot_params sh past future in
  ((exists ls, slices_code P ls (s_data sh) /\ looks (s_frame sh) (picture_paint P ls)) \/ slices_wrong (shot_layer sh) P (s_data sh)) /\ ~ slices_spill P (s_data sh).
Proof.
  intros before sh past future (M0 & M1) (F0 & F1 & F2 & F3 & D & _) R (Pl & T & S & C & N0 & N1 & N2 & N3) Rf P. apply R; [exact Pl | exact Rf|].
  unfold params_ok, P, shot_params. cbn [pp_type pp_pce pp_intra pp_non_intra]. cbn in F0, F1, F2, F3, D. repeat split; try assumption; try lia; [apply M0 | apply M0 | apply M1 | apply M1].
Qed.
Lemma right_is : forall before sh, ctx_ok (s_ctx sh) -> wf_pce (s_pce sh) -> right_after (history before) sh -> right before sh.
Proof. intros before sh K W R past future P D Rf. exact (proj1 (right_both before sh past future K W R D Rf)). Qed.
Lemma given_ok : forall d m, matrix_ok d -> wf_matrix m -> matrix_ok (given d m).
Proof. intros d [l|] D W; [exact W | exact D]. Qed.
Lemma items_ok : forall i k c k', items_ctx i k c k' -> ctx_ok k -> ctx_ok k'.
Proof.
  intros i k c k' (xs & cs & F & _ & _ & ->). revert cs k F. induction xs as [|x xs IH]; intros cs k F K; [exact K|]. inversion F as [|? ? ? ? X F2]; subst. cbn [ctx_items fold_left]. apply (IH _ _ F2).
  destruct X as (W & _). destruct x; cbn [ctx_item]; try exact K. destruct W as (W1 & W2 & _). destruct K as (K1 & K2). split; cbn [c_m0 c_m1]; now apply given_ok.
Qed.
Lemma std_ok : matrix_ok std_intra_matrix /\ matrix_ok std_non_intra_matrix.
Proof. split; (split; [reflexivity|]); unfold std_intra_matrix, std_non_intra_matrix; cbn [repeat]; repeat (apply Forall_cons; [lia|]); apply Forall_nil. Qed.
Lemma shot_ok : forall o sh c, shot_bits o sh c -> match o with Some k => ctx_ok k | None => True end -> ctx_ok (s_ctx sh) /\ wf_pce (s_pce sh).
Proof.
  intros o sh c (c0 & c1 & c2 & g1 & g2 & c3 & k1 & k2 & _ & _ & S & G & _ & We & _ & _ & I) K. split; [|exact We].
  assert (K1 : ctx_ok k1).
  { destruct S as [(s & x & p1 & p2 & c4 & (_ & _ & _ & _ & _ & _ & W1 & W2) & _ & _ & _ & _ & X) | (-> & _)]; [|exact K]. apply (items_ok _ _ _ _ X). destruct std_ok as (S1 & S2). split; cbn; now apply given_ok. }
  assert (K2 : ctx_ok k2) by (destruct (s_group sh); [destruct G as (? & ? & ? & _ & _ & _ & X); exact (items_ok _ _ _ _ X K1) | destruct G as (_ & ->); exact K1]).
  exact (items_ok _ _ _ _ I K2).
Qed.
Lemma shots_ok : forall o shs c, shots_bits o shs c -> match o with Some k => ctx_ok k | None => True end -> Forall (fun sh => ctx_ok (s_ctx sh) /\ wf_pce (s_pce sh)) shs.
Proof. intros o shs c H. induction H as [|o sh shs c d S H IH]; intro K; constructor; [exact (shot_ok _ _ _ S K) | apply IH; exact (proj1 (shot_ok _ _ _ S K))]. Qed.
Definition in_opt (o : option context) (v : vidseq) : Prop :=
  match o with None => v_sh v = None | Some k => in_ctx k v /\ wf_seq (c_seq k) /\ wf_sext (c_ext k) end.
Lemma in_ctx_same : forall k v v', headers v' = headers v -> mats v' = mats v -> in_ctx k v -> in_ctx k v'.
Proof. intros k v v' H M (K1 & K2 & K3). unfold headers in H. injection H as H1 H2 _ _. unfold in_ctx. split; [congruence|]. split; congruence. Qed.
Lemma ctx_wf : forall i k c k', items_ctx i k c k' -> c_seq k' = c_seq k /\ c_ext k' = c_ext k.
Proof. intros i k c k' (xs & cs & _ & _ & _ & ->). apply ctx_items_headers. Qed.

(** Header and counter after a picture *)
Definition told (sh : shot) (v v' : vidseq) : Prop := v_ph v' = Some (pic_of (s_hdr sh)) /\ v_fc v' = if s_group sh then 0 else v_fc v.
Lemma more_shot : forall k h v r img v' r', rlater r = [] -> ready r -> in_ctx k v -> wf_seq (c_seq k) -> wf_sext (c_ext k) -> v_fs v = fs_run h -> more_frames (v, r) = (Ok img, (v', r')) ->
  exists sh c c2 g1 g2 c3 k2, s_frame sh = img /\ after r c r' /\ ready r' /\ in_opt (Some (s_ctx sh)) v' /\ v_fs v' = fs_run (h ++ happened sh) /\ told sh v v' /\ right_after h sh /\
    c = c2 ++ enc_pic (s_hdr sh) ++ g1 ++ enc_pce (s_pce sh) ++ g2 ++ c3 ++ s_data sh /\
    (if s_group sh then group_ctx k c2 k2 else c2 = [] /\ k2 = k) /\
    wf_pic (s_hdr sh) /\ wf_pce (s_pce sh) /\ gap g1 /\ gap g2 /\ items_ctx 2 k2 c3 (s_ctx sh).
Proof.
  intros k h v r img v' r' Hr Rd K WS WX FS H. unfold more_frames in H.
  apply bind_ok_inv in H. destruct H as (nb & [v0 r0] & E & H). apply onr_inv in E. destruct E as (F & E). cbn [fst snd] in F, E. apply peek_after in E. destruct E as (-> & _ & _). subst v0.
  apply bind_ok_inv in H. destruct H as (u & [v1 r1] & E & H).
  assert (X : exists (b : bool) c2 k2, in_ctx k2 v1 /\ c_seq k2 = c_seq k /\ c_ext k2 = c_ext k /\ ready r1 /\ after r c2 r1 /\ v_fs v1 = fs_run (h ++ if b then [NewGroup] else []) /\ v_fc v1 = (if b then 0 else v_fc v) /\ (if b then group_ctx k c2 k2 else c2 = [] /\ k2 = k)).
  { destruct (nb =? GroupStartCode).
    - apply bind_ok_inv in E. destruct E as (g & [v2 r2] & E1 & E). apply onr_inv in E1. destruct E1 as (F & E1). cbn [fst snd] in F, E1. subst v2. apply gop_after in E1. destruct E1 as (sg & gp & t & W & G & A & Q & M & _).
      apply bind_ok_inv in E. destruct E as (u2 & s3 & E1 & E). apply upd_inv in E1. subst s3. cbn [fst snd] in E.
      pose proof (keeps_ok _ _ _ _ _ _ (keeps_ext 1) E) as (Fs & Fc). cbn [fst start_gop set_fc set_fs set_gop v_fs] in Fs. unfold cg in Fc. cbn [fst start_gop set_fc set_fs set_gop v_fc] in Fc. injection Fc as Fc _.
      apply (items_in_ctx 1 _ _ _ _ _ k) in E; [|rewrite (after_later _ _ _ A); exact Hr|exists t; auto|auto|apply (in_ctx_same k v); [reflexivity|reflexivity|exact K]]. destruct E as (Hh & Rd2 & c & k2 & Xi & A2 & K2).
      destruct (ctx_wf _ _ _ _ Xi) as (C1 & C2). exists true, ((enc_gop sg ++ gp) ++ c), k2. split; [exact K2|]. split; [exact C1|]. split; [exact C2|]. split; [exact Rd2|]. split; [eapply after_app; eauto|]. split.
      + rewrite Fs, FS. unfold fs_run. now rewrite fold_left_app.
      + split; [exact Fc|]. exists sg, gp, c. split; [exact W|]. split; [exact G|]. split; [now rewrite <- app_assoc | exact Xi].
    - inversion E; subst. exists false, [], k. split; [exact K|]. split; [reflexivity|]. split; [reflexivity|]. split; [exact Rd|]. split; [apply after_nil|]. split; [now rewrite app_nil_r|]. split; [reflexivity | auto]. }
  destruct X as (b & c2 & k2 & K2 & C1 & C2 & Rd1 & A1 & FS1 & FC1 & G2). clear E u.
  assert (R1 : rlater r1 = []) by (rewrite (after_later _ _ _ A1); exact Hr).
  apply bind_ok_inv in H. destruct H as (u & [v2 r2] & E & H). apply assign_after in E. destruct E as (ph & q1 & g1 & E & -> & G1 & Ag1 & Rd2). apply pic_after in E. destruct E as (p & Wp & Ap & ->).
  apply bind_ok_inv in H. destruct H as (u2 & [v3 r3] & E & H). apply assign_after in E. destruct E as (pe & q2 & g2 & E & -> & G3 & Ag2 & Rd3). apply pce_after in E. destruct E as (e & We & Ae & ->).
  pose proof (after_app _ _ _ _ _ Ap Ag1) as X1. pose proof (after_app _ _ _ _ _ Ae Ag2) as X2. pose proof (after_app _ _ _ _ _ X1 X2) as X3.
  assert (R3 : rlater r3 = []) by (rewrite (after_later _ _ _ X3); exact R1).
  apply bind_ok_inv in H. destruct H as (u3 & [v4 r4] & E & H).
  pose proof (keeps_ok _ _ _ _ _ _ (keeps_ext 2) E) as (Fs & Fc). cbn [fst set_ph set_pce v_fs] in Fs. unfold cg in Fc. cbn [fst set_ph set_pce v_fc] in Fc. injection Fc as Fc _.
  apply (items_in_ctx 2 _ _ _ _ _ k2) in E; [|exact R3|exact Rd3|auto|]; [|destruct K2 as (Y1 & Y2 & Y3); split; [exact Y1 | split; [exact Y2 | exact Y3]]]. destruct E as (Hh & Rd4 & ci & k4 & Xi & Ai & K4). destruct (ctx_wf _ _ _ _ Xi) as (C3 & C4).
  assert (R4 : rlater r4 = []) by (rewrite (after_later _ _ _ Ai); exact R3).
  rewrite bind_own in H. unfold headers in Hh. cbn [v_sh v_se v_ph v_pce set_ph set_pce] in Hh. injection Hh as H1 H2 H3 H4. cbn [fst snd] in H. rewrite H3 in H.
  apply bind_ok_inv in H. destruct H as (ph & s5 & E & H). inversion E; subst ph s5. clear E.
  rewrite bind_upd in H. rewrite bind_own in H. cbn [fst snd] in H. set (v6 := set_fs (fs_set (ph_tr (pic_of p)) (v_fs v4)) v4) in *.
  apply bind_ok_inv in H. destruct H as (fr & [v5 r5] & E & H). apply onr_inv in E. destruct E as (F & E). cbn [fst snd] in F, E. subst v5.
  assert (W4 : wf_seq (c_seq k4) /\ wf_sext (c_ext k4)) by (rewrite C3, C4, C1, C2; auto). destruct W4 as (W4 & W5).
  apply (picture_shot v6 k4 p e) in E; [|exact K4|exact W4|exact W5|exact H3|exact H4|exact R4|exact Rd4]. destruct E as (Rd5 & d & Ad & Rt).
  apply bind_ok_inv in H. destruct H as (u4 & [v7 r7] & E & H). inversion H; subst v7 r7 fr. clear H.
  set (sh := mkShot b k4 p e d img). set (hb := h ++ opening sh).
  assert (FS4 : v_fs v4 = fs_run hb) by (unfold hb, opening; cbn [s_group sh]; congruence).
  assert (FS6 : v_fs v6 = fs_set (p_tr p) (fs_run hb)) by (cbn [v6 set_fs v_fs]; rewrite FS4; reflexivity).
  assert (Y : in_ctx k4 v' /\ r' = r5 /\ v_fs v' = fs_run (h ++ happened sh) /\ told sh v v').
  { assert (HF : fs_run (h ++ happened sh) = fs_do (fs_run hb) (if (p_type p =? 1) || (p_type p =? 2) then Reference img (p_tr p) else Bidirectional (p_tr p))).
    { unfold happened, hb. rewrite app_assoc. unfold fs_run. rewrite (fold_left_app _ _ [_]). reflexivity. }
    rewrite HF. change IFrame with 1 in E. change PFrame with 2 in E. cbn [pic_of ph_type ph_tr] in E. destruct ((p_type p =? 1) || (p_type p =? 2)).
    - apply upd_inv in E. injection E as -> ->. split; [exact K4|]. split; [reflexivity|]. split; [change (fs_add img (p_tr p) (v_fs v6) = fs_add img (p_tr p) (fs_set (p_tr p) (fs_run hb))); now rewrite FS6|]. split; [exact H3|]. transitivity (v_fc v4); [reflexivity | rewrite Fc; exact FC1].
    - inversion E; subst. split; [exact K4|]. split; [reflexivity|]. split; [exact FS6|]. split; [exact H3|]. transitivity (v_fc v4); [reflexivity | rewrite Fc; exact FC1]. }
  destruct Y as (Y1 & -> & Y2 & Y3).
  exists sh, (c2 ++ ((enc_pic p ++ g1) ++ (enc_pce e ++ g2)) ++ ci ++ d), c2, g1, g2, ci, k2. split; [reflexivity|]. split; [eapply after_app; [exact A1|]; eapply after_app; [exact X3|]; eapply after_app; eauto|].
  split; [exact Rd5|]. split; [split; [exact Y1 | auto]|]. split; [exact Y2|]. split; [exact Y3|]. split.
  - intros past future P (CH & Hw & Hh) RF PO. cbv zeta in RF. change (h ++ opening sh) with hb in RF. destruct RF as (CO & RP & RFu). change (p_tr (s_hdr sh)) with (p_tr p) in *. change (s_type sh) with (p_type p) in *.
    apply (Rt past future CH Hw Hh); [| |exact PO].
    + intro T. replace (p_type p =? 1) with false in RP by lia. destruct RP as (f & c & Nb & L & ->). split; [|eauto]. cbn [serves]. exists f. split; [|exact L]. rewrite FS6. apply (store_neighbours hb (p_tr p) (CO T)), Nb.
    + intro T. replace (p_type p =? 3) with true in RFu by lia. destruct RFu as (f & c & Nb & L & ->). split; [|eauto]. cbn [serves]. exists f. split; [|exact L]. rewrite FS6. apply (store_neighbours hb (p_tr p) (CO ltac:(lia))), Nb.
  - split; [cbn [sh s_hdr s_pce s_data]; now rewrite <- !app_assoc|]. split; [exact G2|]. split; [exact Wp|]. split; [exact We|]. split; [exact G1|]. split; [exact G3 | exact Xi].
Qed.

Lemma start_force : forall v r u v1 r1 u2 v2 r2 img v' r' h, rlater r = [] -> v_fs v = fs_run h -> vs_sequence_header (v, r) = (Ok u, (v1, r1)) -> vs_sequence_extension (v1, r1) = (Ok u2, (v2, r2)) ->
  continue_frames (v2, r2) = (Ok img, (v', r')) ->
  exists sh c c1 k1 c2 g1 g2 c3 k2, start_ctx c1 k1 /\ s_frame sh = img /\ after r (c1 ++ c) r' /\ ready r' /\ in_opt (Some (s_ctx sh)) v' /\ v_fs v' = fs_run (h ++ happened sh) /\ told sh v v' /\ right_after h sh /\
    c = c2 ++ enc_pic (s_hdr sh) ++ g1 ++ enc_pce (s_pce sh) ++ g2 ++ c3 ++ s_data sh /\
    (if s_group sh then group_ctx k1 c2 k2 else c2 = [] /\ k2 = k1) /\
    wf_pic (s_hdr sh) /\ wf_pce (s_pce sh) /\ gap g1 /\ gap g2 /\ items_ctx 2 k2 c3 (s_ctx sh).
Proof.
  intros v r u v1 r1 u2 v2 r2 img v' r' h Hr FS E1 E2 H.
  assert (FS2 : v_fs v2 = fs_run h /\ v_fc v2 = v_fc v).
  { pose proof (keeps_ok _ _ _ _ _ _ keeps_seq E1) as (F1 & C1). pose proof (keeps_ok _ _ _ _ _ _ keeps_sext E2) as (F2 & C2). unfold cg in C1, C2. cbn [fst] in F1, F2, C1, C2. split; congruence. }
  destruct FS2 as (FS2 & FC2).
  unfold vs_sequence_header in E1. apply bind_ok_inv in E1. destruct E1 as (hd & [v0 r0] & E & E1). apply onr_inv in E. destruct E as (F & E). cbn [fst snd] in F, E. subst v0.
  unfold read_sequence_header in E. apply bind_ok_inv in E. destruct E as (h1 & q & E0 & E). apply seq_after in E0. destruct E0 as (s & Ws & A1 & ->). apply bind_ok_inv in E. destruct E as (u3 & q2 & E0 & E). apply gap_after in E0. destruct E0 as (g1 & t1 & G1 & Ag1 & _ & _).
  assert (hd = seq_of s /\ r0 = q2) as [-> ->] by (unfold ret in E; split; congruence). clear E. apply upd_inv in E1. cbn [fst snd] in E1. injection E1 as -> ->.
  apply assign_after in E2. destruct E2 as (se & q3 & g2 & E & -> & G2 & Ag2 & Rd2). apply sext_after in E. destruct E as (x & Wx & A2 & ->).
  pose proof (after_app _ _ _ _ _ A1 Ag1) as X1. pose proof (after_app _ _ _ _ _ A2 Ag2) as X2. pose proof (after_app _ _ _ _ _ X1 X2) as X3.
  set (k0 := ctx_start (mkStart s 0 x 0 [])).
  match type of H with continue_frames (?w, _) = _ => set (v3 := w) in *; assert (K0 : in_ctx k0 v3) end.
  { split; [reflexivity|]. split; [reflexivity|]. unfold mats, kmats, v3, k0, ctx_start, ctx_items. cbn [set_se set_sh set_q v_q0 v_q1 v_q2 v_q3 seq_of sh_load_intra sh_load_non_intra sh_intra sh_non_intra st_seq st_ext st_items fold_left c_m0 c_m1 c_m2 c_m3].
    destruct (q_intra s), (q_non_intra s); reflexivity. }
  clearbody v3. unfold continue_frames in H. apply bind_ok_inv in H. destruct H as (u4 & [v4 r4] & E & H).
  pose proof (keeps_ok _ _ _ _ _ _ (keeps_ext 0) E) as (Fs & Fc). unfold cg in Fc. cbn [fst] in Fs, Fc. injection Fc as Fc _.
  assert (R2 : rlater r2 = []) by (rewrite (after_later _ _ _ X3); exact Hr).
  apply (items_in_ctx 0 _ _ _ _ _ k0) in E; [|exact R2|exact Rd2|auto|exact K0]. destruct E as (_ & Rd4 & ci & k1 & Xi & Ai & K1). destruct (ctx_wf _ _ _ _ Xi) as (C1 & C2).
  apply (more_shot k1 h) in H; [|rewrite (after_later _ _ _ Ai); exact R2|exact Rd4|exact K1|rewrite C1; exact Ws|rewrite C2; exact Wx|congruence].
  destruct H as (sh & c & c2 & p1 & p2 & c3 & k2 & Sf & A & Rd & Io & Fh & Tl & Rt & Ec & G & Wf).
  exists sh, c, (((enc_seq s ++ g1) ++ enc_sext x ++ g2) ++ ci), k1, c2, p1, p2, c3, k2. split; [exists s, x, g1, g2, ci; split; [exact Ws|]; split; [exact Wx|]; split; [exact G1|]; split; [exact G2|]; split; [now rewrite <- !app_assoc | exact Xi]|].
  split; [exact Sf|]. split; [rewrite <- app_assoc; eapply after_app; [exact X3|]; eapply after_app; eauto|]. split; [exact Rd|]. split; [exact Io|]. split; [exact Fh|]. split; [destruct Tl as (T1 & T2); split; [exact T1|]; rewrite T2, Fc, FC2; reflexivity|]. split; [exact Rt|]. split; [exact Ec|]. split; [exact G | exact Wf].
Qed.
Lemma step_shot : forall o h v r img v' r', rlater r = [] -> in_opt o v -> (o <> None -> ready r) -> v_fs v = fs_run h -> step (v, r) = (Ok img, (v', r')) ->
  exists sh c, shot_bits o sh c /\ s_frame sh = img /\ after r c r' /\ ready r' /\ in_opt (Some (s_ctx sh)) v' /\ v_fs v' = fs_run (h ++ happened sh) /\ told sh v v' /\ right_after h sh.
Proof.
  intros o h v r img v' r' Hr K Rd FS H. unfold step in H. rewrite bind_own in H. cbn [fst snd] in H. destruct o as [k|]; cbn [in_opt] in K.
  - destruct K as (K & WS & WX). rewrite (proj1 K) in H. specialize (Rd ltac:(discriminate)).
    apply bind_ok_inv in H. destruct H as (nb & [v0 r0] & E & H). apply onr_inv in E. destruct E as (F & E). cbn [fst snd] in F, E. apply peek_after in E. destruct E as (-> & _ & _). subst v0.
    destruct (_ || _) in H.
    + apply (more_shot k h) in H; [|assumption..]. destruct H as (sh & c & c2 & g1 & g2 & c3 & k2 & Sf & A & Rd2 & Io & Fh & Tl & Rt & Ec & G & Wf).
      exists sh, c. split; [|auto 8]. exists [], [], c2, g1, g2, c3, k, k2. split; [exact Ec|]. split; [reflexivity|]. split; [right; auto|]. split; [exact G | exact Wf].
    + apply bind_ok_inv in H. destruct H as (nb2 & [v0 r0] & E & H). apply onr_inv in E. destruct E as (F & E). cbn [fst snd] in F, E. apply peek_after in E. destruct E as (-> & _ & _). subst v0.
      destruct (_ =? _) in H; [apply bind_ok_inv in H; destruct H as (? & ? & _ & H); discriminate|].
      apply bind_ok_inv in H. destruct H as (u & [v1 r1] & E1 & H). apply bind_ok_inv in H. destruct H as (u2 & [v2 r2] & E2 & H).
      destruct (start_force _ _ _ _ _ _ _ _ _ _ _ h Hr FS E1 E2 H) as (sh & c & c1 & k1 & c2 & g1 & g2 & c3 & k2 & Sc & Sf & A & Rd2 & Io & Fh & Tl & Rt & Ec & G & Wf).
      exists sh, (c1 ++ c). split; [|auto 8]. exists [], c1, c2, g1, g2, c3, k1, k2. split; [rewrite Ec; reflexivity|]. split; [reflexivity|]. split; [left; exact Sc|]. split; [exact G | exact Wf].
  - rewrite K in H. apply bind_ok_inv in H. destruct H as (u0 & [v0 r0] & E & H). apply onr_inv in E. destruct E as (F & E). cbn [fst snd] in F, E. subst v0. apply gap_after in E. destruct E as (g & t & G0 & A0 & _ & _).
    apply bind_ok_inv in H. destruct H as (u & [v1 r1] & E1 & H).
    apply bind_ok_inv in H. destruct H as (nb & [v3 r3] & E & H). apply onr_inv in E. destruct E as (F & E). cbn [fst snd] in F, E. apply peek_after in E. destruct E as (-> & _ & _). subst v3.
    destruct (negb _) in H; [discriminate|]. apply bind_ok_inv in H. destruct H as (u2 & [v2 r2] & E2 & H).
    assert (Hr0 : rlater r0 = []) by (rewrite (after_later _ _ _ A0); exact Hr).
    destruct (start_force _ _ _ _ _ _ _ _ _ _ _ h Hr0 FS E1 E2 H) as (sh & c & c1 & k1 & c2 & g1 & g2 & c3 & k2 & Sc & Sf & A & Rd2 & Io & Fh & Tl & Rt & Ec & G & Wf).
    exists sh, (g ++ c1 ++ c). split; [|split; [exact Sf|]; split; [eapply after_app; eauto | auto]]. exists g, c1, c2, g1, g2, c3, k1, k2. split; [rewrite Ec; reflexivity|]. split; [exact G0|]. split; [left; exact Sc|]. split; [exact G | exact Wf].
Qed.

(** * Calls of Next *)
Fixpoint last_ctx (o : option context) (shs : list shot) : option context := match shs with [] => o | sh :: shs => last_ctx (Some (s_ctx sh)) shs end.
(** Pictures decoded one after the other, after the history [h] *)
Inductive rights : list happening -> list shot -> Prop :=
| rights_nil : forall h, rights h []
| rights_cons : forall h sh shs, right_after h sh -> rights (h ++ happened sh) shs -> rights h (sh :: shs).
Definition decodes (h : list happening) (o : option context) (r : reader) (shs : list shot) (v' : vidseq) (r' : reader) : Prop :=
  exists c, shots_bits o shs c /\ after r c r' /\ in_opt (last_ctx o shs) v' /\ (last_ctx o shs <> None -> ready r') /\ v_fs v' = fs_run (h ++ history shs) /\ rights h shs.
Lemma history_app : forall a b, history (a ++ b) = history a ++ history b.
Proof. intros. apply flat_map_app. Qed.
Lemma last_ctx_app : forall a o b, last_ctx o (a ++ b) = last_ctx (last_ctx o a) b.
Proof. induction a as [|x a IH]; intros o b; [reflexivity | apply IH]. Qed.
Lemma shots_app : forall o a c b d, shots_bits o a c -> shots_bits (last_ctx o a) b d -> shots_bits o (a ++ b) (c ++ d).
Proof. intros o a c b d H. induction H as [|o sh shs c e S H IH]; intro H2; [exact H2|]. rewrite <- app_assoc. cbn [app]. constructor; [exact S | apply IH, H2]. Qed.
Lemma rights_app : forall a h b, rights h a -> rights (h ++ history a) b -> rights h (a ++ b).
Proof.
  induction a as [|x a IH]; intros h b H H2; [cbn in H2; now rewrite app_nil_r in H2|]. inversion H as [|? ? ? R R2]; subst. cbn [app]. constructor; [exact R|]. apply IH; [exact R2|]. cbn [history flat_map] in H2. now rewrite app_assoc in H2.
Qed.
Lemma decodes_app : forall h o r a v1 r1 b v2 r2, decodes h o r a v1 r1 -> decodes (h ++ history a) (last_ctx o a) r1 b v2 r2 -> decodes h o r (a ++ b) v2 r2.
Proof.
  intros h o r a v1 r1 b v2 r2 (c & S & A & _ & _ & _ & R) (d & S2 & A2 & I2 & Rd2 & F2 & R2). exists (c ++ d). split; [now apply shots_app|]. split; [eapply after_app; eauto|]. rewrite last_ctx_app. split; [exact I2|]. split; [exact Rd2|].
  split; [rewrite history_app, app_assoc; exact F2 | now apply rights_app].
Qed.
Lemma decodes_one : forall h o r sh v' r' c, shot_bits o sh c -> after r c r' -> ready r' -> in_opt (Some (s_ctx sh)) v' -> v_fs v' = fs_run (h ++ happened sh) -> right_after h sh -> decodes h o r [sh] v' r'.
Proof.
  intros h o r sh v' r' c S A Rd I F R. exists c. split; [rewrite <- (app_nil_r c); constructor; [exact S | constructor]|]. split; [exact A|]. cbn [last_ctx]. split; [exact I|]. split; [auto|]. split; [cbn [history flat_map]; now rewrite app_nil_r|]. constructor; [exact R | constructor].
Qed.
Lemma in_opt_fc : forall o v n, in_opt o v -> in_opt o (set_fc n v).
Proof. intros [k|] v n H; exact H. Qed.
Lemma loop_shots : forall f o h v r img v' r', rlater r = [] -> in_opt o v -> (o <> None -> ready r) -> v_fs v = fs_run h -> next_loop f (v, r) = (Ok img, (v', r')) ->
  exists shs, decodes h o r shs v' r' /\ In img (map s_frame shs).
Proof.
  induction f as [|f IH]; intros o h v r img v' r' Hr K Rd FS H; cbn [next_loop] in H; [discriminate|].
  apply bind_ok_inv in H. destruct H as (im & [v1 r1] & E & H). destruct (step_shot o h _ _ _ _ _ Hr K Rd FS E) as (sh & c & Sb & Sf & A & Rd1 & I1 & F1 & Tl & R1).
  rewrite bind_own in H. cbn [fst snd] in H. apply bind_ok_inv in H. destruct H as (ph & s2 & E2 & H). assert (s2 = (v1, r1)) by (unfold deref in E2; destruct (v_ph v1); inversion E2; reflexivity). subst s2.
  destruct (ph_tr ph =? v_fc v1).
  - rewrite bind_upd in H. cbn [fst snd] in H. unfold ret in H. injection H as <- <- <-. exists [sh]. split; [|cbn [map]; left; exact Sf].
    exact (decodes_one h o r sh _ r1 c Sb A Rd1 (in_opt_fc _ _ _ I1) F1 R1).
  - apply (IH (Some (s_ctx sh)) (h ++ happened sh)) in H; [|rewrite (after_later _ _ _ A); exact Hr|exact I1|auto|exact F1]. destruct H as (shs & D & I). exists (sh :: shs). split; [|cbn [map]; now right].
    change (sh :: shs) with ([sh] ++ shs). eapply decodes_app; [eapply decodes_one; eauto|]. cbn [history flat_map last_ctx]. rewrite app_nil_r. exact D.
Qed.
(** What is in the store was decoded. *)
Lemma held_in : forall h n f, fs_tryget n (fs_run h) = Some f -> exists tr, In (Reference f tr) h.
Proof.
  intros h n f H. destruct (store_run h) as (H1 & H0).
  assert (RI : forall (p : position) f h g, In (p, f) (refs_from g h) -> exists tr, In (Reference f tr) h).
  { clear. intros p f. induction h as [|x h IH]; intros g I; [contradiction|]. destruct x; cbn [refs_from] in I.
    - destruct (IH _ I) as (t & T). exists t. now right.
    - destruct I as [I|I]; [injection I as _ <-; exists tr; now left|]. destruct (IH _ I) as (t & T). exists t. now right.
    - destruct (IH _ I) as (t & T). exists t. now right. }
  assert (L : forall l (x : position * image), last1 l = Some x \/ last2 l = Some x -> In x l).
  { clear. intros l x H. rewrite <- (rev_involutive l). apply in_rev. rewrite rev_involutive. unfold last1, last2 in H. destruct (rev l) as [|a [|b t]]; cbn [hd_error tl] in H; destruct H as [H|H]; try discriminate; injection H as ->; cbn; auto. }
  assert (G : forall x, ref_get n x = Some f -> rf_frame x = Some f).
  { intros x E. unfold ref_get in E. destruct (rf_frame x); [|discriminate]. destruct (_ && _); [exact E | discriminate]. }
  assert (HH : forall g r x, holds g r x -> rf_frame x = Some f -> exists p, r = Some (p, f)).
  { intros g [[[gi t] f']|] x Hx E; cbn in Hx; [destruct Hx as (Hx & _); rewrite E in Hx; injection Hx as <-; eauto | congruence]. }
  unfold fs_tryget in H. destruct (ref_get n (fs_0 (fs_run h))) as [f0|] eqn:E0.
  - injection H as ->. destruct (HH _ _ _ H0 (G _ E0)) as (p & E). apply (RI p f h 0). apply L. now right.
  - destruct (HH _ _ _ H1 (G _ H)) as (p & E). apply (RI p f h 0). apply L. now left.
Qed.
Lemma history_in : forall f tr shs, In (Reference f tr) (history shs) -> In f (map s_frame shs).
Proof.
  intros f tr shs H. unfold history in H. apply in_flat_map in H. destruct H as (sh & I & H). unfold happened, opening in H. apply in_app_or in H. destruct H as [H|H].
  - destruct (s_group sh); [destruct H as [H|[]]; discriminate | contradiction].
  - destruct H as [H|[]]. destruct (_ || _) in H; [|discriminate]. injection H as H _. rewrite <- H. now apply in_map.
Qed.
Lemma nexts_shots : forall n o before v r imgs v' r', rlater r = [] -> in_opt o v -> (o <> None -> ready r) -> v_fs v = fs_run (history before) -> nexts n (v, r) = (Ok imgs, (v', r')) ->
  exists shs, decodes (history before) o r shs v' r' /\ Forall (fun img => In img (map s_frame (before ++ shs))) imgs.
Proof.
  induction n as [|n IH]; intros o before v r imgs v' r' Hr K Rd FS H; cbn [nexts] in H.
  - inversion H; subst. exists []. split; [|constructor]. exists []. split; [constructor|]. split; [apply after_nil|]. split; [exact K|]. split; [exact Rd|]. split; [cbn [history flat_map]; now rewrite app_nil_r | constructor].
  - apply bind_ok_inv in H. destruct H as (im & [v1 r1] & E & H). apply bind_ok_inv in H. destruct H as (ims & [v2 r2] & E2 & H). unfold ret in H. injection H as <- <- <-.
    assert (X : exists a, decodes (history before) o r a v1 r1 /\ In im (map s_frame (before ++ a))).
    { unfold next in E. rewrite bind_own in E. cbn [fst snd] in E. destruct (fs_tryget (v_fc v) (v_fs v)) as [f|] eqn:G.
      - rewrite bind_upd in E. cbn [fst snd] in E. unfold ret in E. injection E as <- <- <-. exists []. rewrite app_nil_r. split.
        + exists []. split; [constructor|]. split; [apply after_nil|]. split; [exact (in_opt_fc _ _ _ K)|]. split; [exact Rd|]. split; [cbn [history flat_map]; now rewrite app_nil_r | constructor].
        + rewrite FS in G. apply held_in in G. destruct G as (tr & G). exact (history_in _ _ _ G).
      - apply (loop_shots _ o (history before)) in E; [|assumption..]. destruct E as (a & D & I). exists a. split; [exact D|]. rewrite map_app. apply in_or_app. now right. }
    destruct X as (a & D & I). pose proof D as (c & _ & A & I1 & Rd1 & F1 & _).
    destruct (IH (last_ctx o a) (before ++ a) v1 r1 ims v2 r2) as (b & D2 & F2); [rewrite (after_later _ _ _ A); exact Hr|exact I1|exact Rd1|rewrite history_app; exact F1|exact E2|].
    exists (a ++ b). rewrite app_assoc. split; [rewrite history_app in D2; eapply decodes_app; eauto|]. constructor; [|exact F2]. rewrite map_app. apply in_or_app. now left.
Qed.
Lemma rights_at : forall h0 shs, rights (history h0) shs -> Forall (fun sh => ctx_ok (s_ctx sh) /\ wf_pce (s_pce sh)) shs -> forall before sh after_, shs = before ++ sh :: after_ ->
  ctx_ok (s_ctx sh) /\ wf_pce (s_pce sh) /\ right_after (history (h0 ++ before)) sh.
Proof.
  intros h0 shs H Ok before. revert h0 shs H Ok. induction before as [|x before IH]; intros h0 shs H Ok sh after_ E; subst shs; inversion H as [|? ? ? R R2]; subst; inversion Ok as [|? ? O1 O2]; subst.
  - rewrite app_nil_r. split; [apply O1|]. split; [apply O1 | exact R].
  - specialize (IH (h0 ++ [x]) (before ++ sh :: after_)). rewrite <- app_assoc in IH. apply (IH ltac:(rewrite history_app; cbn [history flat_map]; rewrite app_nil_r; exact R2) O2 sh after_ eq_refl).
Qed.
Lemma rights_split : forall h0 shs, rights (history h0) shs -> Forall (fun sh => ctx_ok (s_ctx sh) /\ wf_pce (s_pce sh)) shs -> forall before sh after_, shs = before ++ sh :: after_ -> right (h0 ++ before) sh.
Proof. intros h0 shs H Ok before sh after_ E. destruct (rights_at h0 shs H Ok before sh after_ E) as (K & W & R). now apply right_is. Qed.
