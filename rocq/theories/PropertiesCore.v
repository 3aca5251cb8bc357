(** PropertiesCore: C124 - what does not matter for the frames of a sequence. *)
From Coq Require Import Lia.
From Verif Require Import Base BitReader VidModel SpecVid SpecVlc SpecBlock SpecMotion SpecNext SpecPicture SpecCore BlockModel MbModel NextProofs SliceProofs ExampleStream PropertiesPes PropertiesVidHeaders PropertiesNext.

(** * Other picture coding extensions *)

Definition other (e' : spce) (P : params) : params := mkParams (pp_type P) e' (pp_intra P) (pp_non_intra P) (pp_w P) (pp_h P) (pp_past P) (pp_future P).
Definition as_well (e e' : spce) : spce :=
  mkSpce (e_f00 e) (e_f01 e) (e_f10 e) (e_f11 e) (e_dc e) (e_struct e) (e_tff e') (e_fpfd e) (e_conceal e) (e_qtype e) (e_vlc e) (e_alt e) (e_rff e') (e_c420 e') (e_prog e') (e_comp e').
Lemma as_well_same : forall e e', same_pce e e' -> e' = as_well e e'.
Proof. intros e e' (H1 & H2 & H3 & H4 & H5 & H6 & H7 & H8 & H9 & H10 & H11). unfold as_well. rewrite <- H1, <- H2, <- H3, <- H4, <- H5, <- H6, <- H7, <- H8, <- H9, <- H10, <- H11. now destruct e'. Qed.
Definition dull (e' : spce) (P : params) : params := other (as_well (pp_pce P) e') P.
Lemma dull_intra : forall e' P blocks p i c, intra_code P p i blocks c -> intra_code (dull e' P) p i blocks c.
Proof.
  intros e' P. induction blocks as [|[dc rls] blocks IH]; intros p i c H; [exact H|]. cbn [intra_code] in *. destruct H as (c1 & c2 & c3 & H1 & H2 & H3 & H4). exists c1, c2, c3. auto 10.
Qed.
Lemma dull_mb : forall e' P s b c, mb_code P s b c -> mb_code (dull e' P) s b c.
Proof.
  intros e' P s b c (c1 & c2 & c3 & c4 & c5 & H1 & H2 & H3 & H4 & H5 & H6). exists c1, c2, c3, c4, c5. split; [exact H1|]. split; [exact H2|]. split; [exact H3|]. split; [exact H4|].
  split; [|exact H6]. unfold body_code in *. destruct (b_body b); [|exact H5 | exact H5]. apply dull_intra. exact H5.
Qed.
Lemma dull_mbs : forall e' P row mbs addr s c, mbs_code P row addr s mbs c -> mbs_code (dull e' P) row addr s mbs c.
Proof.
  intros e' P row. induction mbs as [|b mbs IH]; intros addr s c H; [exact H|]. cbn [mbs_code] in *. destruct H as (H1 & c1 & c2 & H2 & H3 & H4).
  split; [exact H1|]. exists c1, c2. split; [exact H2|]. split; [now apply dull_mb | exact (IH _ _ _ H4)].
Qed.
Lemma dull_slices : forall e' P ls c, slices_code P ls c -> slices_code (dull e' P) ls c.
Proof.
  intros e' P ls c H. assert (G : forall l d, slice_code P l d -> slice_code (dull e' P) l d).
  { intros l d (K1 & K2 & K3 & K4 & K5 & c1 & K6 & K7). repeat (split; [assumption|]). exists c1. split; [exact (dull_mbs e' P _ _ _ _ _ K6) | exact K7]. }
  induction H as [l c H | l ls c d H _ IH]; [apply slices_one; auto | apply slices_cons; auto].
Qed.
Lemma dull_coefficients : forall e' P q i Q, iso_coefficients (dull e' P) q i Q = iso_coefficients P q i Q.
Proof. intros. unfold iso_coefficients. cbn [dull other as_well pp_pce pp_intra pp_non_intra e_dc e_qtype e_alt]. reflexivity. Qed.
Lemma dull_residuals : forall e' P q b, residuals (dull e' P) q b = residuals P q b.
Proof.
  intros e' P q b. unfold residuals, residual. destruct b; [| |reflexivity]; apply map_ext; intro x; [now rewrite dull_coefficients|]. destruct x; [now rewrite dull_coefficients | reflexivity].
Qed.
Lemma dull_paint_mb : forall e' P row col s b c, paint_mb (dull e' P) row col s b c = paint_mb P row col s b c.
Proof. intros. unfold paint_mb. rewrite dull_residuals. change (past_of (dull e' P) s) with (past_of P s). change (future_of (dull e' P) s) with (future_of P s). reflexivity. Qed.
Lemma dull_mbs_paint : forall e' P row mbs addr s c, mbs_paint (dull e' P) row addr s mbs c = mbs_paint P row addr s mbs c.
Proof.
  intros e' P row. induction mbs as [|b mbs IH]; intros addr s c; [reflexivity|]. cbn [mbs_paint]. cbv zeta. rewrite IH, dull_paint_mb.
  change (ps_after (dull e' P) s b) with (ps_after P s b). change (paint_skipped (dull e' P) row (addr + 1) (b_incr b - 1) s c) with (paint_skipped P row (addr + 1) (b_incr b - 1) s c). reflexivity.
Qed.
Lemma dull_paint : forall e' P ls, picture_paint (dull e' P) ls = picture_paint P ls.
Proof.
  intros e' P ls. unfold picture_paint. change (blank (dull e' P)) with (blank P). generalize (blank P). induction ls as [|l ls IH]; intro c; [reflexivity|]. cbn [fold_left].
  assert (E : slice_paint (dull e' P) l c = slice_paint P l c) by exact (dull_mbs_paint e' P _ _ _ _ _). now rewrite E, IH.
Qed.

(** * Other headers *)

Definition crel (c c' : context) : Prop :=
  wf_seq (c_seq c') /\ wf_sext (c_ext c') /\
  q_horizontal (c_seq c') = q_horizontal (c_seq c) /\ q_vertical (c_seq c') = q_vertical (c_seq c) /\
  x_h (c_ext c') = x_h (c_ext c) /\ x_v (c_ext c') = x_v (c_ext c) /\ x_chroma (c_ext c') = x_chroma (c_ext c) /\
  c_m0 c' = c_m0 c /\ c_m1 c' = c_m1 c /\ c_m2 c' = c_m2 c /\ c_m3 c' = c_m3 c.
Lemma items_quants : forall xs c, ctx_items c xs = fold_left (fun c s => ctx_item c (XQuant s 0)) (quants xs) c.
Proof. induction xs as [|x xs IH]; intro c; [reflexivity|]. cbn [ctx_items fold_left]. change (fold_left ctx_item xs (ctx_item c x)) with (ctx_items (ctx_item c x) xs). rewrite IH. now destruct x. Qed.
Lemma quants_rel : forall ss c c', crel c c' -> crel (fold_left (fun c s => ctx_item c (XQuant s 0)) ss c) (fold_left (fun c s => ctx_item c (XQuant s 0)) ss c').
Proof.
  induction ss as [|s ss IH]; intros c c' H; [exact H|]. cbn [fold_left]. apply IH. destruct H as (H1 & H2 & H3 & H4 & H5 & H6 & H7 & H8 & H9 & H10 & H11).
  unfold crel. cbn [ctx_item c_seq c_ext c_m0 c_m1 c_m2 c_m3]. rewrite H8, H9, H10, H11. auto 15.
Qed.
Lemma items_rel : forall xs xs' c c', crel c c' -> quants xs' = quants xs -> crel (ctx_items c xs) (ctx_items c' xs').
Proof. intros xs xs' c c' H E. rewrite !items_quants, E. now apply quants_rel. Qed.
Lemma start_rel : forall s s', same_start s s' -> wf_start s' -> crel (ctx_start s) (ctx_start s').
Proof.
  intros s s' (E1 & E2 & E3 & E4 & E5 & E6 & E7 & E8) (W1 & W2 & _). unfold ctx_start. apply items_rel; [|exact E8]. unfold crel. cbn [c_seq c_ext c_m0 c_m1 c_m2 c_m3]. rewrite E3, E4. auto 15.
Qed.
Lemma picture_rel : forall c c' o l p p', crel c c' -> same_picture p p' -> picture_coded c o l p -> picture_coded c' o l p'.
Proof.
  intros c c' o l p p' (W1 & W2 & E1 & E2 & E3 & E4 & E5 & E6 & E7 & _) (P1 & P2 & P3 & P4 & P5 & P6) (K1 & K2 & K3 & K4 & K5 & K6 & K7 & ls & K8 & K9).
  assert (E : params_of c' o l p' = dull (pi_pce p') (params_of c o l p)) by (unfold params_of, dull, other; cbn [pp_type pp_pce pp_intra pp_non_intra pp_w pp_h pp_past pp_future]; now rewrite P2, <- (as_well_same _ _ P3), E1, E2, E3, E4, E6, E7).
  unfold picture_coded. rewrite E, E1, E2, E3, E4, E5. do 6 (split; [assumption|]). split; [exact K7|]. exists ls. rewrite P5, P6, dull_paint. split; [now apply dull_slices | exact K9].
Qed.
Lemma refs_rel : forall p p' o l, same_picture p p' -> older o l p' = older o l p /\ latest l p' = latest l p.
Proof. intros p p' o l (_ & T & _ & _ & _ & F). unfold older, latest, is_ref. rewrite T, F. auto. Qed.
Lemma pictures_rel : forall ps ps', Forall2 same_picture ps ps' -> forall c c' o l, crel c c' -> pictures_all picture_coded c o l ps ->
  pictures_all picture_coded c' o l ps' /\ exists c1 c1' o1 l1, after_pictures c o l ps = (c1, o1, l1) /\ after_pictures c' o l ps' = (c1', o1, l1) /\ crel c1 c1'.
Proof.
  induction 1 as [|p p' ps ps' P _ IH]; intros c c' o l C H; [split; [exact Logic.I|]; eexists _, _, _, _; split; [reflexivity|]; split; [reflexivity | exact C]|].
  cbn [pictures_all after_pictures] in *. destruct H as (H1 & H2). destruct (refs_rel p p' o l P) as (-> & ->).
  assert (C1 : crel (ctx_items c (pi_items p)) (ctx_items c' (pi_items p'))) by (apply items_rel; [exact C | apply P]).
  destruct (IH _ _ _ _ C1 H2) as (I1 & I2). split; [split; [exact (picture_rel _ _ _ _ _ _ C1 P H1) | exact I1] | exact I2].
Qed.
Lemma groups_rel : forall gs gs', Forall2 same_group gs gs' -> Forall wf_group gs' -> forall c c' o l, match c, c' with Some c, Some c' => crel c c' | None, None => True | _, _ => False end ->
  groups_all picture_coded c o l gs -> groups_all picture_coded c' o l gs'.
Proof.
  induction 1 as [|g g' gs gs' (S & P) _ IH]; intros W c c' o l C G; [exact Logic.I|]. cbn [groups_all] in *. pose proof (Forall_inv W) as (W1 & _). apply Forall_inv_tail in W.
  assert (X : match (match gr_start g with Some s => Some (ctx_start s) | None => c end), (match gr_start g' with Some s => Some (ctx_start s) | None => c' end) with Some c, Some c' => crel c c' | None, None => True | _, _ => False end).
  { destruct (gr_start g) as [s|], (gr_start g') as [s'|]; try contradiction; [now apply start_rel | exact C]. }
  destruct (match gr_start g with Some s => Some (ctx_start s) | None => c end) as [c0|]; [|contradiction]. destruct (match gr_start g' with Some s => Some (ctx_start s) | None => c' end) as [c0'|]; [|contradiction].
  destruct G as (G1 & G2). destruct (pictures_rel _ _ P _ _ _ _ X G1) as (H1 & c1 & c1' & o1 & l1 & E1 & E2 & C1). split; [exact H1|]. rewrite E1 in G2. rewrite E2. now apply (IH W (Some c1)).
Qed.
Lemma display_rel : forall ps ps', Forall2 same_picture ps ps' -> Forall2 same_picture (display ps) (display ps').
Proof.
  intros ps ps' H. unfold display. assert (G : forall h h', match h, h' with Some p, Some p' => same_picture p p' | None, None => True | _, _ => False end -> Forall2 same_picture (reorder h ps) (reorder h' ps')).
  { induction H as [|p p' ps ps' P _ IH]; intros h h' K.
    - cbn. destruct h, h'; try contradiction; constructor; auto.
    - cbn [reorder]. assert (R : is_ref p' = is_ref p) by (unfold is_ref; destruct P as (_ & -> & _); reflexivity). rewrite R. destruct (is_ref p).
      + apply Forall2_app; [destruct h, h'; try contradiction; constructor; auto | apply IH; exact P].
      + constructor; [exact P | now apply IH]. }
  apply (G None None Logic.I).
Qed.
Lemma group_rel : forall g g', same_group g g' -> valid_group g -> valid_group g' /\ map pi_frame (display (gr_pics g')) = map pi_frame (display (gr_pics g)).
Proof.
  intros g g' (_ & P) (T & p & ps & E & TY). pose proof (display_rel _ _ P) as D.
  assert (D1 : map tref (display (gr_pics g')) = map tref (display (gr_pics g)) /\ map pi_frame (display (gr_pics g')) = map pi_frame (display (gr_pics g))).
  { clear - D. induction D as [|x y a b (H1 & _ & _ & _ & _ & H2) _ (I1 & I2)]; [auto|]. cbn [map]. rewrite I1, I2, H2. unfold tref at 1 3. rewrite H1. auto. }
  assert (L : length (gr_pics g') = length (gr_pics g)) by (clear - P; induction P; cbn; auto).
  destruct D1 as (D1 & D2). split; [|exact D2]. split; [now rewrite D1, L|]. rewrite E in P. inversion P as [|? p' ? ps' (_ & T2 & _) P2]; subst. exists p', ps'. split; [auto|]. now rewrite T2.
Qed.
Theorem C124_still_coded : forall gs gs', Forall2 same_group gs gs' -> Forall wf_group gs' -> sequence_of picture_coded gs -> sequence_of picture_coded gs' /\ shown gs' = shown gs.
Proof.
  intros gs gs' H W (_ & V & G). split.
  - split; [exact W|]. split; [|exact (groups_rel gs gs' H W None None Unknown Unknown Logic.I G)].
    clear - H V. induction H as [|g g' gs gs' S _ IH]; [constructor|]. apply Forall_cons; [exact (proj1 (group_rel _ _ S (Forall_inv V))) | apply IH; exact (Forall_inv_tail V)].
  - clear - H V. unfold shown. induction H as [|g g' gs gs' S _ IH]; [reflexivity|]. cbn [flat_map]. rewrite !map_app, (proj2 (group_rel _ _ S (Forall_inv V))). f_equal. apply IH. exact (Forall_inv_tail V).
Qed.
(** Two sequences that differ only in what does not matter: if one is coded, the other decodes to the same frames. *)
Theorem C124_same_frames : forall k gs gs' rd, Forall2 same_group gs gs' -> Forall wf_group gs' -> sequence_of picture_coded gs -> gs <> [] ->
  exists imgs v',
    nexts (length (shown gs)) (new_vidseq, setb rd (enc_sequence k gs')) = (Ok imgs, (v', setb rd (code sequence_end_code))) /\
    Forall2 looks imgs (shown gs) /\
    next (v', setb rd (code sequence_end_code)) = (Err EOS, (v', setb rd [])).
Proof.
  intros k gs gs' rd H W C N. destruct (C124_still_coded gs gs' H W C) as (C' & <-). destruct H; [congruence|]. now apply C73_sequences.
Qed.

(** ** An example: [xs_groups] with other rates, profile, user data, time codes, flags, stuffing and delays *)
Definition co_start : sstart := mkStart (mkSseq 48 16 1 5 777 3 true None None) 0 (mkSsext 68 false 1 0 0 9 1 true 1 2) 4 [XUser [9]; XUser [10]].
Definition co_pic (p : spicture) : spicture := mkPicture (mkSpic (p_tr (pi_hdr p)) (p_type (pi_hdr p)) 12 (true, 3) (false, 1) [200]) 3 (as_well (pi_pce p) (mkSpce 0 0 0 0 0 0 true false false false false false true true false (Some (mkScomp true 1 false 2 3)))) 0 [XUser [5]] (pi_data p) (pi_frame p).
Definition co_group (g : sgroup) : sgroup := mkGroup (match gr_start g with Some _ => Some co_start | None => None end) (mkSgop true 23 59 false 58 11 false true) 1 [] (map co_pic (gr_pics g)).
Example C124_hyp : sequence_of picture_coded xs_groups /\ Forall2 same_group xs_groups (map co_group xs_groups) /\ Forall wf_group (map co_group xs_groups) /\ length (shown xs_groups) = 8%nat.
Proof.
  pose proof xs_groups_coded as (W & _). split; [exact xs_groups_coded|].
  assert (P : forall ps, Forall (fun p => pi_items p = []) ps -> Forall2 same_picture ps (map co_pic ps)).
  { induction 1 as [|p ps E _ IH]; cbn [map]; constructor; [|exact IH]. unfold same_picture. cbn [co_pic pi_hdr p_tr p_type pi_pce pi_items pi_data pi_frame]. rewrite E. repeat split. }
  assert (PW : forall ps, Forall wf_picture ps -> Forall wf_picture (map co_pic ps)).
  { induction 1 as [|p ps ((K1 & K2 & _) & K3 & _ & _ & K4 & K5) _ IH]; cbn [map]; [constructor|]. apply Forall_cons; [|exact IH]. unfold wf_picture. cbn [co_pic pi_hdr p_type pi_pce pi_items pi_data].
    split. { unfold wf_pic. cbn [p_tr p_type p_vbv p_forward p_backward p_extra snd]. split; [exact K1|]. split; [exact K2|]. split; [lia|]. split; [lia|]. split; [lia | byte_list]. }
    split. { destruct K3 as (J1 & J2 & J3 & J4 & J5 & J6 & _). unfold wf_pce. cbn [as_well e_f00 e_f01 e_f10 e_f11 e_dc e_struct e_comp c_field c_burst c_phase]. repeat (split; [assumption|]). lia. } split; [repeat constructor|]. split; [apply Forall_cons; [split; [byte_list | no_prefix_tac] | apply Forall_nil]|]. split; [exact K4 | exact K5]. }
  assert (GW : forall g, wf_group g -> wf_group (co_group g)).
  { intros g (K1 & K2 & K3 & K4 & K5). unfold wf_group. cbn [co_group gr_start gr_hdr gr_items gr_pics].
    split. { destruct (gr_start g); [|exact Logic.I]. split. { repeat split; cbn; try lia; exact Logic.I. } split. { repeat split; cbn; lia. } split; [repeat constructor|].
      apply Forall_cons; [split; [byte_list | no_prefix_tac]|]. apply Forall_cons; [split; [byte_list | no_prefix_tac] | apply Forall_nil]. }
    split; [repeat split; cbn; lia|]. split; [constructor|]. split; [constructor | now apply PW]. }
  split; [|split; [|reflexivity] ].
  - unfold xs_groups. cbn [map]. constructor; [|constructor; [|constructor] ].
    + split; [repeat split | apply P; repeat (apply Forall_cons; [reflexivity|]); apply Forall_nil].
    + split; [exact Logic.I | apply P; repeat (apply Forall_cons; [reflexivity|]); apply Forall_nil].
  - unfold xs_groups in *. cbn [map]. apply Forall_cons; [apply GW; exact (Forall_inv W)|]. apply Forall_cons; [apply GW; exact (Forall_inv (Forall_inv_tail W)) | apply Forall_nil].
Qed.
Print Assumptions C124_same_frames.
