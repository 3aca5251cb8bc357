(** SpillStream: streams that go on with a picture to be predicted from above or below a reference. *)
From Coq Require Import Lia.
From Verif Require Import Base BitReader Exec Local After BlockModel SpecVlc SpecBlock VidModel SpecVid VidProofs VidStream VidExt MbModel SpecMotion SpecNext SpecPicture MacroblockProofs MbRunProofs
  NextProofs SliceProofs SpecStore StoreProofs SpecSyntax SyntaxProofs SpecPanic SpecUnsupported SpecRules RulesProofs SpecSpill ForwardProofs SpillProofs ContextProofs PropertiesResume.
From Verif Require PropertiesVidHeaders UnsupportedProofs.

(** The frames still to be returned without reading: two at most *)
Lemma get_tr : forall n x f, ref_get n x = Some f -> rf_tr x = n.
Proof. intros n x f H. unfold ref_get in H. destruct (rf_frame x); [|discriminate]. destruct (rf_prev x); [discriminate|]. destruct (rf_tr x =? n) eqn:E; [now apply Z.eqb_eq | discriminate]. Qed.
Lemma tryget_tr : forall n fs f, fs_tryget n fs = Some f -> rf_tr (fs_0 fs) = n \/ rf_tr (fs_1 fs) = n.
Proof. intros n fs f H. unfold fs_tryget in H. destruct (ref_get n (fs_0 fs)) eqn:E; [left; now apply get_tr in E | right; now apply get_tr in H]. Qed.
Lemma drained : forall v r, exists m imgs fc, nexts m (v, r) = (Ok imgs, (set_fc fc v, r)) /\ fs_tryget fc (v_fs v) = None.
Proof.
  intros v r. set (a := v_fc v). destruct (fs_tryget a (v_fs v)) as [f0|] eqn:E0.
  2: { exists 0%nat, [], a. split; [|exact E0]. cbn [nexts]. unfold ret, a. now destruct v. }
  pose proof (next_left v r f0 E0) as N0. fold a in N0. set (b := u32 (a + 1)) in *. destruct (fs_tryget b (v_fs v)) as [f1|] eqn:E1.
  2: { exists 1%nat, [f0], b. split; [|exact E1]. cbn [nexts]. rewrite (bind_ok _ _ _ _ _ _ _ _ N0). reflexivity. }
  pose proof (next_left (set_fc b v) r f1 E1) as N1. change (v_fc (set_fc b v)) with b in N1. set (c := u32 (b + 1)) in *. exists 2%nat, [f0; f1], c. split.
  - cbn [nexts]. rewrite (bind_ok _ _ _ _ _ _ _ _ N0). rewrite bind_assoc, (bind_ok _ _ _ _ _ _ _ _ N1). reflexivity.
  - destruct (fs_tryget c (v_fs v)) as [f2|] eqn:E2; [|reflexivity]. exfalso. apply tryget_tr in E0, E1, E2.
    assert (B : b = (a + 1) mod 2 ^ 32) by reflexivity. assert (C : c = (b + 1) mod 2 ^ 32) by reflexivity. clearbody a b c.
    pose proof (Z.mod_pos_bound (a + 1) (2 ^ 32) ltac:(lia)). pose proof (Z.mod_pos_bound (b + 1) (2 ^ 32) ltac:(lia)).
    pose proof (Z.div_mod (a + 1) (2 ^ 32) ltac:(lia)). pose proof (Z.div_mod (b + 1) (2 ^ 32) ltac:(lia)). change (2 ^ 32) with 4294967296 in *.
    lia.
Qed.

(** * Headers *)
Lemma in_ctx_items : forall xs k v, in_ctx k v -> in_ctx (ctx_items k xs) (items_effect xs v).
Proof.
  induction xs as [|x xs IH]; intros k v H; [exact H|]. cbn [ctx_items fold_left items_effect]. fold (ctx_items (ctx_item k x) xs) (items_effect xs (item_effect x v)). apply IH.
  destruct x; cbn [ctx_item item_effect]; auto. destruct H as (A & B & E). unfold mats, kmats in E. injection E as E0 E1 E2 E3.
  unfold quant_update. split; [exact A|]. split; [exact B|]. unfold mats, kmats. cbn [set_q v_q0 v_q1 v_q2 v_q3 c_m0 c_m1 c_m2 c_m3]. now rewrite E0, E1, E2, E3.
Qed.
Definition set_for (v : vidseq) (k : context) (p : spicture_head) : Prop := v_ph v = Some (pic_of (pd_hdr p)) /\ v_pce v = Some (pce_of (pd_pce p)) /\ in_ctx (ctx_items k (pd_items p)) v.
Lemma picture_set : forall p k v rd d, wf_picture_head p -> at_other_code d -> in_ctx k v -> exists v1, picture_part (v, setb rd (enc_picture_head p ++ d)) = pic_tail (v1, setb rd d) /\ set_for v1 k p /\ v_fs v1 = v_fs v.
Proof.
  intros p k v rd d (W1 & W2 & W3 & W4) A K. unfold picture_part, enc_picture_head. rewrite <- !app_assoc.
  pose proof (xitems_at_code (pd_items p) _ (other_at_code _ A)) as A1.
  assert (A2 : at_code (stuffed (enc_pce (pd_pce p)) (pd_k2 p) ++ enc_xitems (pd_items p) ++ d)) by (apply stuffed_at_code; exact A1).
  unfold vs_picture_header, vs_picture_coding_extension.
  erewrite bind_ok by (apply (PropertiesVidHeaders.assign_run _ set_ph picture_header_fields (enc_pic (pd_hdr p)) (pic_of (pd_hdr p))); [intros; now apply pic_fields_run | exact A2]).
  erewrite bind_ok by (apply (PropertiesVidHeaders.assign_run _ set_pce picture_coding_extension_fields (enc_pce (pd_pce p)) (pce_of (pd_pce p))); [intros; now apply pce_fields_run | exact A1]).
  erewrite bind_ok by (apply ext_user_data_run; [exact W3 | exact W4 | exact A]).
  eexists. split; [reflexivity|]. set (w := set_pce _ _). destruct (items_same (pd_items p) w) as (E1 & E2 & E3 & _). split; [|exact E3]. split; [now rewrite E1|]. split; [now rewrite E2|]. now apply in_ctx_items.
Qed.
Lemma more_set : forall og p k h v rd d, opt_wf wf_group_head og -> wf_picture_head p -> at_other_code d -> in_ctx k v -> v_fs v = fs_run h ->
  exists v1, more_frames (v, setb rd (opt enc_group_head og ++ enc_picture_head p ++ d)) = pic_tail (v1, setb rd d) /\ set_for v1 k p /\ v_fs v1 = fs_run (h ++ if some og then [NewGroup] else []).
Proof.
  intros og p k h v rd d Wg Wp A K FS. unfold more_frames. pose proof (other_at_code _ A) as Ac. destruct og as [g|]; cbn [opt app some].
  - destruct Wg as (W1 & W2 & W3).
    assert (P : peek_n 32 (setb rd (enc_group_head g ++ enc_picture_head p ++ d)) = (Ok (256 + group_code), setb rd (enc_group_head g ++ enc_picture_head p ++ d))).
    { unfold enc_group_head, stuffed, enc_gop. rewrite <- !app_assoc. apply peek_code. unfold group_code. lia. }
    erewrite bind_onr_ok by exact P. change (256 + group_code =? GroupStartCode) with true. cbv iota. rewrite bind_assoc.
    unfold enc_group_head, stuffed. rewrite <- (app_assoc _ (enc_xitems (gh_items g))), <- (app_assoc (enc_gop (gh_hdr g))). erewrite bind_onr_ok by (apply gop_run; [exact W1 | apply xitems_at_code; now apply UnsupportedProofs.head_at]).
    rewrite bind_assoc, bind_upd. cbn [fst snd]. erewrite bind_ok by (apply ext_user_data_run; auto; now apply UnsupportedProofs.head_other). rewrite gop_items by exact W2.
    destruct (picture_set p k (start_gop (gop_of (gh_hdr g)) v) rd d Wp A) as (v1 & E & S & F); [exact (in_ctx_same k v (start_gop (gop_of (gh_hdr g)) v) eq_refl eq_refl K)|].
    exists v1. split; [exact E|]. split; [exact S|]. rewrite F. cbn [start_gop set_fc set_fs set_gop v_fs]. rewrite FS. unfold fs_run. now rewrite fold_left_app.
  - destruct (UnsupportedProofs.head_starts p d) as (t & E).
    assert (P : peek_n 32 (setb rd (enc_picture_head p ++ d)) = (Ok (256 + picture_code), setb rd (enc_picture_head p ++ d))) by (rewrite E; apply peek_code; unfold picture_code; lia).
    erewrite bind_onr_ok by exact P. change (256 + picture_code =? GroupStartCode) with false. cbv iota. rewrite bind_ret. rewrite app_nil_r, <- FS. now apply picture_set.
Qed.

(** * The picture *)
Definition headed (k : context) (og : option sgroup_head) (p : spicture_head) (sh : shot) : Prop :=
  s_group sh = some og /\ s_ctx sh = ctx_items k (pd_items p) /\ s_hdr sh = pd_hdr p /\ s_pce sh = pd_pce p.
Lemma spill_starts : forall P d rest, slices_spill P d -> (length (d ++ rest) mod 8 = 0)%nat -> at_other_code (d ++ rest).
Proof.
  intros P d rest (c1 & c2 & -> & O & Sp) M8.
  assert (X : exists b t, (c1 ++ c2) ++ rest = code b ++ t /\ 1 <= b <= 175).
  { destruct O as [->|(ls & C)].
    - destruct (spill_code _ _ Sp) as (b & t & -> & B). exists b, (t ++ rest). cbn [app]. rewrite <- app_assoc. auto.
    - destruct (slices_starts _ _ _ C) as (b & t & -> & _ & B). exists b, (t ++ c2 ++ rest). rewrite <- !app_assoc. auto. }
  destruct X as (b & t & E & B). rewrite E in *. exists b, t. split; [reflexivity|]. split; [lia|]. unfold extension_code, user_data_code. split; [lia|]. split; [lia|]. apply (mod8_rest _ _ M8). now rewrite code_length.
Qed.
Lemma spill_panics : forall shs v r k og p sh past future rest, in_opt (Some k) v -> ctx_ok k -> v_fs v = fs_run (history shs) -> fs_tryget (v_fc v) (v_fs v) = None ->
  opt_wf wf_group_head og -> wf_picture_head p -> headed k og p sh -> rbits r = opt enc_group_head og ++ enc_picture_head p ++ s_data sh ++ rest ->
  described sh -> reference_frames shs sh past future -> slices_spill (shot_params sh past future) (s_data sh) -> (23 <= length rest)%nat -> (length (s_data sh ++ rest) mod 8 = 0)%nat ->
  dies next (v, r).
Proof.
  intros shs v r k og p sh past future rest (K & WS & WX) Ok FS TG Wg Wp (S1 & S2 & S3 & S4) E De Rf Sp Hl M8.
  pose proof (spill_starts _ _ _ Sp M8) as Ao. assert (N : v_sh v <> None) by (destruct K as (-> & _); discriminate).
  destruct (more_set og p k (history shs) v r (s_data sh ++ rest) Wg Wp Ao K FS) as (v1 & M & (H3 & H4 & K4) & F1).
  unfold dies, next. rewrite bind_own. cbn [fst]. rewrite TG. cbn [next_loop]. apply dies_bind. cbn [snd].
  replace r with (setb r (rbits r)) by apply setb_rbits. rewrite E. unfold dies. rewrite UnsupportedProofs.step_pics by exact N. rewrite M. unfold pic_tail. rewrite bind_own. cbn [fst]. rewrite H3. unfold deref. rewrite bind_ret, bind_upd, bind_own. cbn [fst snd].
  set (w := set_fs _ v1). apply (dies_bind _ _ _ (onr (picture_data w))).
  destruct De as (Pl & T & S & C & N0 & N1 & N2 & N3). destruct Pl as (CH & Hw & Hh). destruct Rf as (CO & RP & RFu).
  set (P := shot_params sh past future) in *. set (k4 := ctx_items k (pd_items p)) in *. set (hb := history shs ++ opening sh) in *.
  assert (FS6 : v_fs w = fs_set (p_tr (s_hdr sh)) (fs_run hb)).
  { unfold w. cbn [set_fs v_fs]. rewrite F1, S3. unfold hb, opening. rewrite S1. reflexivity. }
  assert (F2 : s_type sh <> 1 -> serves (fs_past (v_fs w)) past).
  { intro T1. replace (s_type sh =? 1) with false in RP by lia. destruct RP as (f & c & Nb & L & ->). cbn [serves]. exists f. split; [|exact L]. rewrite FS6. apply (store_neighbours hb _ (CO T1)), Nb. }
  assert (F3 : s_type sh = 3 -> serves (fs_future (v_fs w)) future).
  { intro T1. replace (s_type sh =? 3) with true in RFu by lia. destruct RFu as (f & c & Nb & L & ->). cbn [serves]. exists f. split; [|exact L]. rewrite FS6. apply (store_neighbours hb _ (CO ltac:(lia))), Nb. }
  assert (Ok4 : ctx_ok k4).
  { destruct Wp as (_ & _ & W3 & W4). revert W4 Ok. unfold k4. generalize (pd_items p) k. clear. induction l as [|x l IH]; intros k W Ok; [exact Ok|]. pose proof (Forall_inv W) as Wx. apply IH; [exact (Forall_inv_tail W)|].
    destruct x; cbn [ctx_item]; auto. destruct Ok as (O1 & O2). destruct Wx as (Wx1 & Wx2 & _). split; now apply given_ok. }
  assert (PO : params_ok P).
  { destruct Wp as (_ & We & _). destruct We as (G0 & G1 & G2 & G3 & D & _). destruct Ok4 as (M0 & M1).
    unfold params_ok, P, shot_params. rewrite S2, S4 in *. fold k4. cbn [pp_type pp_pce pp_intra pp_non_intra]. cbn in G0, G1, G2, G3, D. repeat split; try assumption; try lia; [apply M0 | apply M0 | apply M1 | apply M1]. }
  destruct K4 as (K1 & K2 & K3). unfold mats, kmats in K3. injection K3 as Q0 Q1 _ _.
  assert (HV : vctx w P (pce_of (s_pce sh))).
  { split; [exists (pic_of (pd_hdr p)); split; [exact H3 | unfold P, shot_params, s_type; rewrite S3; reflexivity]|]. split; [rewrite S4; exact H4|]. split; [unfold P, shot_params; apply pce_of_holds|].
    split; [exists (sext_of (c_ext k4)); split; [exact K2 | rewrite <- S2; exact CH]|]. unfold P, shot_params. rewrite S2. fold k4. split; [exact Q0|]. split; [exact Q1|]. split; [exact F2|]. split; [exact F3|]. unfold P, shot_params in PO. rewrite S2 in PO. exact PO. }
  destruct (ctx_items_headers (pd_items p) k) as (C1 & C2). fold k4 in C1, C2. rewrite S2 in CH, Hw, Hh. fold k4 in CH, Hw, Hh.
  assert (SZ : size w = (4096 * x_h (c_ext k4) + q_horizontal (c_seq k4), 4096 * x_v (c_ext k4) + q_vertical (c_seq k4))).
  { unfold size, w. cbn [set_fs v_sh v_se]. rewrite K1, K2. rewrite C1, C2. destruct WS as (W1 & W2 & _). destruct WX as (_ & _ & W3 & W4 & _). cbn [seq_of sext_of sh_horizontal sh_vertical se_hext se_vext]. now rewrite !PropertiesVidHeaders.size_parts by auto. }
  assert (V28 : q_vertical (c_seq k4) <= 2800) by (rewrite C2 in Hh; destruct WX as (_ & _ & _ & W4 & _); lia).
  destruct (picture_spills w P _ (seq_of (c_seq k4)) _ _ (s_data sh) r rest HV K1 V28 SZ Hw ltac:(lia)) as (r2 & D); try assumption.
  { unfold P, shot_params. rewrite S2. reflexivity. }
  { unfold P, shot_params. rewrite S2. reflexivity. }
  unfold dies, onr. cbn [fst snd]. rewrite D. eauto.
Qed.
