(** PropertiesOpenCut: C121 - groups cut out before open groups. *)
From Coq Require Import Lia.
From Verif Require Import Base BitReader VidModel SpecVid SpecVlc SpecBlock SpecMotion SpecNext SpecPicture SpecLoss SpecSplice SpecOpenCut BlockModel MbModel NextProofs SliceProofs LossProofs ExampleStream PropertiesPes PropertiesVidHeaders PropertiesNext PropertiesJoin PropertiesSplice.

(** * Pictures with other references of the same size *)

Lemma kn_refl : forall k, kn k k.
Proof. now intros [| |c]. Qed.
Lemma b_again : forall c o o' l p, is_ref p = false -> kn o o' -> picture_coded c o l p -> exists p', same_bits p p' /\ picture_coded c o' l p'.
Proof.
  intros c o o' l p R K (K1 & K2 & K3 & K4 & K5 & K6 & K7 & ls & K8 & K9).
  pose (p0 := mkPicture (pi_hdr p) (pi_k1 p) (pi_pce p) (pi_k2 p) (pi_items p) (pi_data p) (picture_paint (params_of c o' l p) ls)).
  exists p0. split; [eexists; reflexivity|]. assert (A : alike (params_of c o l p) (params_of c o' l p0)) by (apply params_alike; auto using kn_refl).
  unfold picture_coded. do 6 (split; [assumption|]). split; [exact K7|]. exists ls. split; [|reflexivity].
  cbn [p0 pi_data]. clear - K8 A. revert A K8. generalize (params_of c o' l p0). intros P' A K8. induction K8; [apply slices_one | apply slices_cons]; eauto using alike_slice.
Qed.
Lemma pictures_again : forall ps c o o' l, kn o o' -> pictures_all picture_coded c o l ps ->
  exists ps', instead ps ps' /\ pictures_all picture_coded c o' l ps' /\
    fst (fst (after_pictures c o' l ps')) = fst (fst (after_pictures c o l ps)) /\ snd (after_pictures c o' l ps') = snd (after_pictures c o l ps).
Proof.
  induction ps as [|p ps IH]; intros c o o' l K H.
  - exists []. split; [now apply instead_rest|]. split; [exact Logic.I|]. split; reflexivity.
  - destruct H as (H1 & H2). cbv zeta in *. destruct (is_ref p) eqn:R.
    + exists (p :: ps). split; [now apply instead_rest|]. cbn [pictures_all after_pictures]. unfold older, latest in *. rewrite R in *.
      split; [split; [eapply ref_any_older; eauto | exact H2]|]. split; reflexivity.
    + unfold older, latest in H2. rewrite R in H2. destruct (IH _ _ _ _ K H2) as (ps' & J1 & J2 & J3 & J4). destruct (b_again _ _ _ _ _ R K H1) as (p' & (f & E) & D).
      exists (p' :: ps'). split; [apply instead_b; [exact R | exists f; exact E | exact J1]|].
      assert (R' : is_ref p' = false) by (rewrite E; exact R). assert (I' : pi_items p' = pi_items p) by (now rewrite E).
      cbn [pictures_all after_pictures]. cbv zeta. unfold older, latest. rewrite I', R, R'. auto.
Qed.

(** * Frames that need not be right *)

Definition meets (c : canvas) (d : option canvas) : Prop := match d with Some d => c = d | None => True end.
Lemma meets_all : forall fs, Forall2 meets fs (map Some fs).
Proof. induction fs; constructor; auto. reflexivity. Qed.
Lemma meets_none : forall fs ds, Forall2 meets fs ds -> forall xs, Forall2 meets (xs ++ fs) (repeat None (length xs) ++ ds).
Proof. intros fs ds H. induction xs as [|x xs IH]; [exact H|]. cbn. constructor; [exact Logic.I | exact IH]. Qed.
Lemma meets_later : forall n fs, (n <= length fs)%nat -> Forall2 meets fs (repeat None n ++ map Some (skipn n fs)).
Proof.
  intros n fs H. pose proof (meets_none _ _ (meets_all (skipn n fs)) (firstn n fs)) as M. rewrite firstn_skipn, firstn_length_le in M by exact H. exact M.
Qed.
Lemma looks_meets : forall imgs fs, Forall2 looks imgs fs -> forall ds, Forall2 meets fs ds -> Forall2 looks_if imgs ds.
Proof.
  induction 1 as [|i f imgs fs H _ IH]; intros ds M; inversion M as [|? d ? ds' M1 M2]; subst; constructor; auto. destruct d; [|exact Logic.I]. cbn in *. now subst.
Qed.

(** * A group after other references *)

Lemma before_i_spec : forall g p ps, valid_group g -> gr_pics g = p :: ps -> forall B rest, display (p :: ps) = B ++ p :: rest -> before_i g = length B.
Proof.
  intros g p ps (TR & _) EP B rest DP. unfold before_i. rewrite EP in *. change (p_tr (pi_hdr p)) with (tref p). rewrite DP, map_app in TR. cbn [map] in TR.
  assert (H : nth_error (map tref B ++ tref p :: map tref rest) (length B) = Some (tref p)).
  { rewrite nth_error_app2 by (rewrite map_length; lia). rewrite map_length, Nat.sub_diag. reflexivity. }
  assert (LN : (length B < length (p :: ps))%nat). { assert (L : length (map tref B ++ tref p :: map tref rest) = length (numbers (length (p :: ps)))) by now rewrite TR.
    unfold numbers in L. rewrite app_length, !map_length, seq_length in L. cbn [length] in L |- *. rewrite map_length in L. lia. }
  rewrite TR, numbers_nth in H by exact LN. injection H as H. lia.
Qed.
Lemma instead_refl : forall ps, instead ps ps.
Proof.
  induction ps as [|p ps IH]; [now apply instead_rest|]. destruct (is_ref p) eqn:R; [now apply instead_rest|]. apply instead_b; auto. exists (pi_frame p). now destruct p.
Qed.
Lemma before_i_le : forall g, valid_group g -> (before_i g <= length (display (gr_pics g)))%nat.
Proof.
  intros g V. pose proof V as (TR & p & ps & EP & TY). destruct (instead_display ps ps (instead_refl ps) p) as (n & rest & B & B' & K1 & _ & K3 & _).
  assert (R : is_ref p = true) by (unfold is_ref; now rewrite TY).
  assert (DP : display (p :: ps) = B ++ p :: rest) by (unfold display; cbn [reorder]; rewrite R; exact K1).
  rewrite (before_i_spec g p ps V EP B rest DP), EP, DP, app_length. lia.
Qed.
Lemma group_again : forall g c o l o' l', wf_group g -> valid_group g -> kn l l' -> pictures_all picture_coded c o l (gr_pics g) ->
  exists g', gr_start g' = gr_start g /\ enc_group g' = enc_group g /\ wf_group g' /\ valid_group g' /\ pictures_all picture_coded c o' l' (gr_pics g') /\
    fst (fst (after_pictures c o' l' (gr_pics g'))) = fst (fst (after_pictures c o l (gr_pics g))) /\ snd (after_pictures c o' l' (gr_pics g')) = snd (after_pictures c o l (gr_pics g)) /\
    Forall2 meets (map pi_frame (display (gr_pics g'))) (repeat None (before_i g) ++ map Some (skipn (before_i g) (map pi_frame (display (gr_pics g))))).
Proof.
  intros g c o l o' l' W V K D. pose proof V as (TR & p & ps & EP & TY). destruct W as (W1 & W2 & W3 & W4 & W5). rewrite EP in *.
  assert (R : is_ref p = true) by (unfold is_ref; now rewrite TY).
  cbn [pictures_all after_pictures] in D |- *. cbv zeta in *. unfold older, latest in *. rewrite R in *. destruct D as (D0 & D1).
  destruct (pictures_again _ _ _ l' _ K D1) as (ps' & J1 & J2 & J3 & J4).
  destruct (instead_enc _ _ J1) as (E1 & E2 & E3). destruct (instead_display _ _ J1 p) as (n & rest & B & B' & K1 & K2 & K3 & K4 & K5).
  assert (DP : display (p :: ps) = B ++ p :: rest) by (unfold display; cbn [reorder]; rewrite R; exact K1).
  assert (DP' : display (p :: ps') = B' ++ p :: rest) by (unfold display; cbn [reorder]; rewrite R; exact K2).
  pose proof (before_i_spec g p ps V EP B rest DP) as LD.
  exists (mkGroup (gr_start g) (gr_hdr g) (gr_k g) (gr_items g) (p :: ps')). cbn [gr_start gr_hdr gr_k gr_items gr_pics].
  split; [reflexivity|]. split. { unfold enc_group. cbn [gr_start gr_hdr gr_k gr_items gr_pics]. rewrite EP. cbn [flat_map]. now rewrite E1. }
  split. { cbn. inversion W5; subst. repeat (split; [assumption|]). apply Forall_cons; auto. }
  split. { split; [|cbn; eauto]. cbn [gr_pics]. rewrite DP', map_app, K5, <- map_app. cbn [length]. rewrite E3. rewrite <- DP. exact TR. }
  cbn [pictures_all after_pictures]. cbv zeta. unfold older, latest. rewrite R.
  split; [split; [eapply PropertiesSplice.i_coded; eauto | exact J2]|]. split; [exact J3|]. split; [exact J4|].
  rewrite LD, DP, DP', !map_app. rewrite skipn_app_exact by (now rewrite map_length).
  replace (length B) with (length (map pi_frame B')) by (rewrite map_length; lia). apply meets_none, meets_all.
Qed.

(** * Sizes *)

Definition fits (c : context) (k : known) : Prop :=
  exists f, k = Is f /\ cv_w f = whole (4096 * x_h (c_ext c) + q_horizontal (c_seq c)) /\ cv_h f = whole (4096 * x_v (c_ext c) + q_vertical (c_seq c)).
Lemma fits_kn : forall c k k', fits c k -> fits c k' -> kn k k'.
Proof. intros c k k' (f & -> & E1 & E2) (f' & -> & E3 & E4). cbn. split; congruence. Qed.
Lemma items_size : forall xs c, c_ext (ctx_items c xs) = c_ext c /\ c_seq (ctx_items c xs) = c_seq c.
Proof. induction xs as [|x xs IH]; intro c; [auto|]. cbn [ctx_items fold_left]. change (fold_left ctx_item xs (ctx_item c x)) with (ctx_items (ctx_item c x) xs). destruct (IH (ctx_item c x)) as [-> ->]. destruct x; cbn; auto. Qed.
Lemma picture_fits : forall c o l p, picture_coded c o l p -> fits c (Is (pi_frame p)).
Proof.
  intros c o l p (_ & _ & _ & _ & _ & _ & _ & ls & _ & ->). eexists. split; [reflexivity|].
  exact (paints_size (params_of c o l p) ls (blank (params_of c o l p))).
Qed.
Lemma fits_items : forall xs c k, fits c k -> fits (ctx_items c xs) k.
Proof. intros xs c k (f & E & E1 & E2). exists f. destruct (items_size xs c) as [-> ->]. auto. Qed.
Lemma pictures_fit : forall ps c o l, pictures_all picture_coded c o l ps -> (fits c l \/ match ps with p :: _ => is_ref p = true | [] => False end) ->
  fits (fst (fst (after_pictures c o l ps))) (snd (after_pictures c o l ps)).
Proof.
  induction ps as [|p ps IH]; intros c o l H F; [destruct F as [F | []]; exact F|]. destruct H as (H1 & H2). cbv zeta in *. cbn [after_pictures]. apply IH; [exact H2|]. left.
  unfold latest. destruct (is_ref p) eqn:R; [exact (picture_fits _ _ _ _ H1)|]. destruct F as [F|F]; [now apply fits_items | discriminate F].
Qed.
Lemma group_fit : forall g c o l, valid_group g -> pictures_all picture_coded c o l (gr_pics g) -> fits (fst (fst (after_pictures c o l (gr_pics g)))) (snd (after_pictures c o l (gr_pics g))).
Proof.
  intros g c o l (_ & p & ps & EP & TY) H. apply pictures_fit; [exact H|]. right. rewrite EP. unfold is_ref. now rewrite TY.
Qed.

(** * What is left *)

Lemma kept_open : forall gs (cx rf : bool) c o l c' o' l', may_cut_open cx rf gs ->
  (cx = true -> c = c' /\ match c with Some c0 => fits c0 l /\ fits c0 l' | None => rf = true end) -> (rf = true -> l = l') ->
  Forall wf_group (map snd gs) -> Forall valid_group (map snd gs) -> groups_all picture_coded c o l (map snd gs) ->
  exists gs', length gs' = length (kept gs) /\ flat_map enc_group gs' = flat_map enc_group (kept gs) /\ Forall wf_group gs' /\ Forall valid_group gs' /\ groups_all picture_coded c' o' l' gs' /\
    Forall2 meets (shown gs') (left_of rf gs).
Proof.
  induction gs as [|[b g] gs IH]; intros cx rf c o l c' o' l' M HC HR W V G.
  { exists []. split; [reflexivity|]. repeat (split; [constructor|]). constructor. }
  cbn [map] in V, W. pose proof (Forall_inv V) as Vg. apply Forall_inv_tail in V. pose proof (Forall_inv W) as Wg. apply Forall_inv_tail in W. cbn [snd] in Vg, Wg.
  cbn [map groups_all snd] in G. destruct b; cbn [may_cut_open] in M.
  - destruct M as (M1 & M2 & M3). unfold kept. cbn [filter fst map snd]. fold (kept gs).
    assert (EC : match gr_start g with Some s => Some (ctx_start s) | None => c' end = match gr_start g with Some s => Some (ctx_start s) | None => c end).
    { destruct (gr_start g) as [s|]; [reflexivity|]. destruct M1 as [M1 | M1]; [now destruct (HC M1) as (-> & _) | congruence]. }
    destruct (match gr_start g with Some s => Some (ctx_start s) | None => c end) as [c0|] eqn:E0; [|contradiction]. destruct G as (G1 & G2).
    assert (X : exists g', gr_start g' = gr_start g /\ enc_group g' = enc_group g /\ wf_group g' /\ valid_group g' /\ pictures_all picture_coded c0 o' l' (gr_pics g') /\
      fst (fst (after_pictures c0 o' l' (gr_pics g'))) = fst (fst (after_pictures c0 o l (gr_pics g))) /\ snd (after_pictures c0 o' l' (gr_pics g')) = snd (after_pictures c0 o l (gr_pics g)) /\
      Forall2 meets (map pi_frame (display (gr_pics g'))) (if rf then map Some (map pi_frame (display (gr_pics g))) else repeat None (before_i g) ++ map Some (skipn (before_i g) (map pi_frame (display (gr_pics g)))))).
    { assert (Y : (l = l' /\ rf = true) \/ (rf = false /\ (closed g \/ kn l l'))).
      { destruct rf; [left; auto|]. right. split; [reflexivity|]. destruct M2 as [M2 | [M2 | M2] ]; [right | discriminate M2 | left; exact M2].
        destruct (HC M2) as (_ & F). destruct c as [c9|]; [|discriminate F]. destruct F as (F1 & F2). exact (fits_kn _ _ _ F1 F2). }
      destruct Y as [(Y1 & ->) | (-> & [Y | Y])].
      - destruct (group_coded g c0 o l o' l' Vg (or_introl Y1) G1) as (Q1 & Q2 & Q3). exists g. do 7 (split; [auto|]). apply meets_all.
      - destruct (group_coded g c0 o l o' l' Vg (or_intror Y) G1) as (Q1 & Q2 & Q3). exists g. do 7 (split; [auto|]). apply meets_later.
        rewrite map_length. now apply before_i_le.
      - exact (group_again g c0 o l o' l' Wg Vg Y G1). }
    destruct X as (g' & X1 & X2 & X3 & X4 & X5 & X6 & X7 & X8).
    pose proof (group_fit g c0 o l Vg G1) as F.
    destruct (after_pictures c0 o l (gr_pics g)) as ((c1 & o1) & l1). destruct (after_pictures c0 o' l' (gr_pics g')) as ((c2 & o2) & l2) eqn:EA.
    cbn [fst snd] in X6, X7, F. subst c2 l2.
    destruct (IH true true (Some c1) o1 l1 (Some c1) o2 l1 M3) as (gs' & I0 & I1 & I2 & I3 & I4 & I5); auto.
    exists (g' :: gs'). cbn [flat_map length]. split; [now rewrite I0|]. split; [now rewrite X2, I1|]. split; [now apply Forall_cons|]. split; [now apply Forall_cons|].
    split; [cbn [groups_all]; rewrite X1, EC; split; [exact X5|]; rewrite EA; exact I4|].
    unfold shown. cbn [flat_map left_of]. rewrite map_app. apply Forall2_app; [exact X8 | exact I5].
  - unfold kept. cbn [filter fst]. fold (kept gs). destruct (match gr_start g with Some s => Some (ctx_start s) | None => c end) as [c0|] eqn:E; [|contradiction]. destruct G as (G1 & G2).
    pose proof (group_fit g c0 o l Vg G1) as F.
    destruct (after_pictures c0 o l (gr_pics g)) as ((c1 & o1) & l1) eqn:EA. cbn [left_of]. eapply IH; [exact M | | discriminate | exact W | exact V | exact G2].
    intro K. apply andb_prop in K. destruct K as (K1 & K2). unfold unassuming in K2. destruct (gr_start g); [discriminate K2|].
    pose proof (unassuming_ctx _ c0 o l K2) as EU. rewrite EA in EU. cbn [fst] in EU. subst c1. destruct (HC K1) as (<- & HF). rewrite E in HF |- *. split; [reflexivity|]. split; [exact F | apply HF].
Qed.

Lemma left_length : forall l rf, Forall valid_group (map snd l) -> length (left_of rf l) = length (shown (kept l)).
Proof.
  induction l as [|[b g] l IH]; intros rf V; [reflexivity|]. cbn [map snd] in V. pose proof (Forall_inv V) as Vg. apply Forall_inv_tail in V. unfold kept in *.
  destruct b; cbn [filter fst left_of map snd]; [|now apply IH]. unfold shown in *. cbn [flat_map]. rewrite map_app, !app_length, (IH true V). f_equal.
  destruct rf; [now rewrite !map_length|]. rewrite app_length, repeat_length, map_length, skipn_length, map_length. pose proof (before_i_le g Vg). lia.
Qed.
(** Open groups may follow the cut too: as many frames are returned as are left, then io.EOF, and they are right but for those
    that are displayed before the I picture of a group that follows a cut. *)
Theorem C121_open_cut : forall k l rd, sequence_of picture_coded (map snd l) -> may_cut_open true true l -> kept l <> [] ->
  exists imgs v',
    nexts (length (shown (kept l))) (new_vidseq, setb rd (enc_sequence k (kept l))) = (Ok imgs, (v', setb rd (code sequence_end_code))) /\
    Forall2 looks_if imgs (left_of true l) /\
    next (v', setb rd (code sequence_end_code)) = (Err EOS, (v', setb rd [])).
Proof.
  intros k l rd (W & V & G) M N.
  destruct (kept_open l true true None Unknown Unknown None Unknown Unknown M) as (gs' & I0 & I1 & I2 & I3 & I4 & I5); auto.
  assert (L : length (shown gs') = length (shown (kept l))). { rewrite <- (left_length l true V). clear - I5. induction I5; cbn; auto. }
  destruct gs' as [|g gs']; [destruct (kept l); [congruence | discriminate I0]|].
  destruct (C73_sequences k g gs' rd) as (imgs & v' & H1 & H2 & H3); [repeat split; assumption|].
  exists imgs, v'. rewrite <- L. unfold enc_sequence in *. rewrite <- I1. split; [exact H1|]. split; [exact (looks_meets _ _ H2 _ I5) | exact H3].
Qed.

(** ** An example: I0; I0 P1, cut out; then the open group I2 B0 B1, whose B pictures are predicted from the P picture that
    was cut out. *)
Definition oc_first : sgroup := mkGroup (Some xs_start) (xs_gop true) 0 [] [i_pic 0].
Definition oc_second : sgroup := mkGroup None (xs_gop true) 0 [] [i_pic 0; p_pic 1 f0].
Definition oc_third (past : canvas) : sgroup := mkGroup None (xs_gop false) 0 [] [i_pic 2; r_pic 0 past f2; r_pic 1 past f2].
Definition oc_groups : list choice := [(true, oc_first); (false, oc_second); (true, oc_third f1)].
Lemma oc_ok : Forall wf_group [oc_first; oc_second; oc_third f1] /\ Forall valid_group [oc_first; oc_second; oc_third f1] /\ wf_group (oc_third f0) /\ valid_group (oc_third f0).
Proof.
  destruct join_coded as (W & V & _). pose proof (Forall_inv W) as (W0 & W1 & W2 & W3 & W4). pose proof (Forall_inv (Forall_inv_tail W)) as (_ & W5).
  clear V. assert (A : wf_group oc_first). { split; [exact W0|]. split; [exact W1|]. split; [exact W2|]. split; [exact W3|]. apply Forall_cons; [exact (Forall_inv W4) | apply Forall_nil]. }
  assert (B : wf_group oc_second) by (split; [exact Logic.I | split; [exact W1 | split; [exact W2 | split; [exact W3 | exact W4] ] ] ]).
  assert (C : forall f, wf_group (oc_third f)).
  { intro f. split; [exact Logic.I|]. destruct W5 as (X1 & X2 & X3 & X4). split; [exact X1|]. split; [exact X2|]. split; [exact X3|]. 
    pose proof (Forall_inv X4) as Y1. pose proof (Forall_inv (Forall_inv_tail X4)) as Y2. pose proof (Forall_inv (Forall_inv_tail (Forall_inv_tail X4))) as Y3.
    apply Forall_cons; [exact Y1|]. apply Forall_cons; [exact Y2|]. apply Forall_cons; [exact Y3 | apply Forall_nil]. }
  assert (D : valid_group oc_first) by (split; [reflexivity | eexists _, _; split; reflexivity]).
  assert (E : forall f, valid_group (oc_third f)) by (intro f; split; [reflexivity | eexists _, _; split; reflexivity]).
  assert (F : valid_group oc_second) by (split; [reflexivity | eexists _, _; split; reflexivity]).
  split; [|split; [|split; [apply C | apply E] ] ].
  - apply Forall_cons; [exact A|]. apply Forall_cons; [exact B|]. apply Forall_cons; [apply C | apply Forall_nil].
  - apply Forall_cons; [exact D|]. apply Forall_cons; [exact F|]. apply Forall_cons; [apply E | apply Forall_nil].
Qed.
Example C121_hyp : sequence_of picture_coded (map snd oc_groups) /\ may_cut_open true true oc_groups /\ not (closed (oc_third f1)) /\ length (shown (kept oc_groups)) = 4%nat /\
  left_of true oc_groups = [Some f0; None; None; Some f2].
Proof.
  destruct oc_ok as (W & V & _). destruct sized_f as (S0 & S1 & S2 & S3).
  split; [|split; [|split; [|split] ] ].
  - split; [exact W|]. split; [exact V|]. cbn [map snd oc_groups groups_all oc_first oc_second oc_third gr_start gr_pics]. change (ctx_start xs_start) with xs_ctx.
    cbn [pictures_all]. unfold ctx_items. cbn [pi_items i_pic p_pic r_pic xs_pic fold_left].
    split; [split; [apply ExampleStream.i_coded | exact Logic.I]|]. split; [split; [apply ExampleStream.i_coded | split; [apply (ExampleStream.p_coded _ f0 1); assumption | exact Logic.I] ]|].
    split; [|exact Logic.I]. split; [apply ExampleStream.i_coded|]. split; [apply (r_coded f1 f2 0); assumption|]. split; [apply (r_coded f1 f2 1); assumption | exact Logic.I].
  - cbn [may_cut_open oc_groups]. auto 10.
  - cbn. lia.
  - reflexivity.
  - reflexivity.
Qed.

Lemma oc_same : forall f g, enc_group (oc_third f) = enc_group (oc_third g).
Proof.
  intros f g. unfold enc_group, oc_third. cbn [gr_start gr_hdr gr_k gr_items gr_pics flat_map]. unfold enc_picture, r_pic, xs_pic. cbn [pi_hdr pi_k1 pi_pce pi_k2 pi_items pi_data]. reflexivity.
Qed.
Lemma oc_bits : forall k, enc_sequence k (kept oc_groups) = enc_sequence k [oc_first; oc_third f0].
Proof.
  intro k. change (kept oc_groups) with [oc_first; oc_third f1]. pose proof (oc_same f1 f0) as G. revert G. generalize f1, f0. intros f g G. unfold enc_sequence. cbn [flat_map]. now rewrite G.
Qed.
(** Those frames are returned without an error, and wrong: here the second frame repeats the I picture of the first group,
    whose first sample is 128, and not the P picture that was cut out, whose first sample is 130. *)
Theorem C121_leading_refuted : forall rd, exists a f imgs v',
  nexts (length (shown (kept oc_groups))) (new_vidseq, setb rd (enc_sequence 0 (kept oc_groups))) = (Ok (a :: f :: imgs), (v', setb rd (code sequence_end_code))) /\
  shown (kept oc_groups) = [f0; r_frame f1 f2; r_frame f1 f2; f2] /\ cv_y (r_frame f1 f2) 0 0 = 130 /\ luma f 0 0 = 128 /\ ~ looks f (r_frame f1 f2).
Proof.
  intro rd. destruct oc_ok as (W & V & W3 & V3). destruct sized_f as (S0 & S1 & S2 & S3).
  destruct (C73_sequences 0 oc_first [oc_third f0] rd) as (imgs & v' & H1 & H2 & _).
  { split; [apply Forall_cons; [exact (Forall_inv W) | apply Forall_cons; [exact W3 | apply Forall_nil] ]|].
    split; [apply Forall_cons; [exact (Forall_inv V) | apply Forall_cons; [exact V3 | apply Forall_nil] ]|].
    cbn [groups_all oc_first oc_third gr_start gr_pics]. change (ctx_start xs_start) with xs_ctx.
    cbn [pictures_all]. unfold ctx_items. cbn [pi_items i_pic p_pic r_pic xs_pic fold_left].
    split; [split; [apply ExampleStream.i_coded | exact Logic.I]|].
    split; [|exact Logic.I]. split; [apply ExampleStream.i_coded|]. split; [apply (r_coded f0 f2 0); assumption|]. split; [apply (r_coded f0 f2 1); assumption | exact Logic.I]. }
  assert (S' : shown [oc_first; oc_third f0] = [f0; r_frame f0 f2; r_frame f0 f2; f2]) by reflexivity.
  assert (SK : shown (kept oc_groups) = [f0; r_frame f1 f2; r_frame f1 f2; f2]) by reflexivity.
  rewrite S' in H1, H2. rewrite SK, oc_bits. inversion H2 as [|a ? imgs1 ? L H3]; subst. inversion H3 as [|f ? imgs2 ? L2 H4]; subst.
  cbn [length] in H1 |- *. exists a, f, imgs2, v'. split; [exact H1|]. split; [reflexivity|]. assert (X : cv_y (r_frame f1 f2) 0 0 = 130) by (lazy; reflexivity). split; [exact X|].
  assert (B : luma f 0 0 = 128). { destruct L2 as (_ & _ & _ & L2 & _). destruct (L2 0 0) as (L3 & _); [cbn; lia | cbn; lia|]. rewrite L3. lazy; reflexivity. }
  split; [exact B|]. intros (_ & _ & _ & LR & _). destruct (LR 0 0) as (LR1 & _); [cbn; lia | cbn; lia|]. lia.
Qed.
Print Assumptions C121_open_cut.
Print Assumptions C121_leading_refuted.
