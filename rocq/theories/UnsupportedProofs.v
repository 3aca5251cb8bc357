(** UnsupportedProofs: an extension that is not supported makes Next panic. *)
From Verif Require Import Base BitReader Exec Local Mono TsRobust VidModel SpecVid VidProofs VidStream VidExt PropertiesVidHeaders MbModel SpecMotion SpecNext NextProofs SpecPanic SpecUnsupported.

Lemma unsupported_code : forall b d, unsupported b d -> exists t, d = code extension_code ++ t.
Proof. intros b d (id & t & -> & _). eauto. Qed.
Lemma unsupported_at : forall b d, unsupported b d -> (length d mod 8 = 0)%nat -> at_code d.
Proof.
  intros b d H L. destruct (unsupported_code _ _ H) as (t & ->). unfold code in *. rewrite <- app_assoc in *. eexists. split; [reflexivity|].
  rewrite app_length in L. change (length prefix) with (3 * 8)%nat in L. rewrite Nat.add_comm in L. now rewrite Nat.mod_add in L by lia.
Qed.
Lemma body_panics : forall i v r id t, (i = 0 \/ i = 2) -> (if i =? 2 then In id [4; 7; 9] else id = 5 /\ (6 <= length t)%nat) ->
  exists s, extension_body i (v, setb r (enc 4 id ++ t)) = (Panic, s).
Proof.
  intros i v r id t [-> | ->] H; cbn [Z.eqb Pos.eqb] in H; unfold extension_body; cbn [Z.eqb Pos.eqb].
  - destruct H as (-> & L). erewrite bind_onr_ok by (apply peek_enc; cbn; lia).
    change (5 =? SequenceDisplayExtensionID) with false. cbv iota. eexists. unfold onr. cbn [fst snd]. unfold sequence_scalable_extension.
    change SequenceScalableExtensionID with 5. erewrite bind_ok by (apply id_assert_run; lia).
    rewrite <- (firstn_skipn 2 t) at 1. erewrite bind_ok by (apply read_n_app; rewrite firstn_length; lia).
    rewrite <- (firstn_skipn 4 (skipn 2 t)) at 1. erewrite bind_ok by (apply read_n_app; rewrite firstn_length, skipn_length; lia). reflexivity.
  - eexists. erewrite bind_onr_ok by (apply peek_enc; cbn [In] in H; cbn; lia). cbn [In] in H. destruct H as [<- | [<- | [<- | [] ] ] ]; reflexivity.
Qed.
Lemma xitems_len : forall xs, (length xs <= length (enc_xitems xs))%nat.
Proof.
  induction xs as [|x xs IH]; [cbn; lia|]. cbn [enc_xitems flat_map length]. rewrite app_length. fold (enc_xitems xs).
  destruct (enc_xitem_prefix x) as (t & ->). rewrite app_length. unfold prefix. rewrite enc_length. lia.
Qed.
Lemma data_panics : forall xs i f v r d, (length xs < f)%nat -> (i = 0 \/ i = 2) -> Forall (allowed i) xs -> Forall wf_xitem xs -> unsupported (i =? 2) d -> (length d mod 8 = 0)%nat ->
  (snd (split_ext xs) = [] /\ exists s, extension_data f i (v, setb r (enc_xitems xs ++ d)) = (Panic, s)) \/
  (snd (split_ext xs) <> [] /\ extension_data f i (v, setb r (enc_xitems xs ++ d)) =
    (Ok tt, (items_effect (fst (split_ext xs)) v, setb r (enc_xitems (snd (split_ext xs)) ++ d)))).
Proof.
  induction xs as [|x xs IH]; intros i f v r d Hf Hi HA HW HU HL; (destruct f; [lia|]); cbn [extension_data].
  - left. split; [reflexivity|]. pose proof HU as (id & t & -> & H). cbn [enc_xitems flat_map app].
    erewrite bind_onr_ok by (apply peek_code; unfold extension_code; lia). change (256 + extension_code =? ExtensionStartCode) with true. cbn [negb].
    rewrite (bind_ok _ _ _ _ _ _ _ _ (skip_code_run _ _ _ _)). destruct (body_panics i v r id t Hi H) as (s & E). exists s. erewrite bind_panic; [reflexivity|exact E].
  - cbn [enc_xitems flat_map split_ext]. rewrite <- app_assoc. fold (enc_xitems xs). destruct (is_ext x) eqn:E.
    + rewrite enc_ext_bits by auto. rewrite <- app_assoc. erewrite bind_onr_ok by (apply peek_code; unfold extension_code; lia).
      change (256 + extension_code =? ExtensionStartCode) with true. cbn [negb]. rewrite (bind_ok _ _ _ _ _ _ _ _ (skip_code_run _ _ _ _)).
      erewrite bind_ok; [|apply body_run; auto; [exact (Forall_inv HA) | exact (Forall_inv HW) | apply xitems_at_code; eapply unsupported_at; eauto]].
      cbn [fst snd]. apply IH; auto; [cbn in Hf; lia | exact (Forall_inv_tail HA) | exact (Forall_inv_tail HW)].
    + right. split; [discriminate|]. destruct x; try discriminate E. cbn [enc_xitem fst snd]. unfold enc_user. rewrite <- app_assoc.
      erewrite bind_onr_ok by (apply peek_code; unfold user_data_code; lia).
      change (256 + user_data_code =? ExtensionStartCode) with false. cbn [negb enc_xitems flat_map enc_xitem]. unfold enc_user.
      rewrite <- !app_assoc. reflexivity.
Qed.
Lemma loop_panics : forall n xs i f v r d, length xs = n -> (n < f)%nat -> (i = 0 \/ i = 2) -> Forall (allowed i) xs -> Forall wf_xitem xs -> unsupported (i =? 2) d -> (length d mod 8 = 0)%nat ->
  exists s, ext_user_loop f i (v, setb r (enc_xitems xs ++ d)) = (Panic, s).
Proof.
  induction n as [n IH] using lt_wf_ind. intros xs i f v r d Hn Hf Hi HA HW HU HL. destruct f; [lia|]. cbn [ext_user_loop].
  assert (I1 : (i =? 1) = false) by (destruct Hi as [-> | ->]; reflexivity).
  assert (C : (exists t, enc_xitems xs ++ d = code extension_code ++ t) \/ exists u xs', xs = XUser u :: xs').
  { destruct xs as [|x xs']; [left; cbn [enc_xitems flat_map app]; eapply unsupported_code; eauto|]. destruct (is_ext x) eqn:E.
    - left. cbn [enc_xitems flat_map]. rewrite enc_ext_bits by auto. rewrite <- !app_assoc. eauto.
    - right. destruct x; try discriminate E. eauto. }
  destruct C as [(t & E) | (u & xs' & ->)].
  - assert (P : peek_n 32 (setb r (enc_xitems xs ++ d)) = (Ok (256 + extension_code), setb r (enc_xitems xs ++ d))) by (rewrite E; apply peek_code; unfold extension_code; lia).
    erewrite bind_onr_ok by exact P. change (256 + extension_code =? ExtensionStartCode) with true. rewrite I1. cbn [negb andb].
    destruct (data_panics xs i (S (length (rbits (snd (v, setb r (enc_xitems xs ++ d)))))) v r d) as [(_ & s & D) | (N & D)]; auto.
    { cbn [snd]. rewrite rbits_setb, app_length. pose proof (xitems_len xs). lia. }
    + exists s. erewrite bind_panic; [reflexivity|exact D].
    + erewrite bind_ok; [|exact D]. pose proof (split_ext_parts xs) as SP.
      assert (Lb : (length (snd (split_ext xs)) < length xs)%nat).
      { destruct xs as [|x xs']; [now elim N|]. destruct (is_ext x) eqn:Ex.
        - rewrite <- SP at 2. rewrite app_length. cbn [split_ext]. rewrite Ex. cbn [fst snd length]. lia.
        - exfalso. destruct x; try discriminate Ex. cbn [enc_xitems flat_map enc_xitem] in E. unfold enc_user in E. rewrite <- !app_assoc in E.
          apply (f_equal (firstn 32)) in E. rewrite !firstn_app, !code_length, !firstn_all2 in E by (rewrite code_length; lia). cbn [Nat.sub firstn] in E. rewrite !app_nil_r in E. discriminate E. }
      apply (IH (length (snd (split_ext xs)))); auto; [lia|lia| |]; rewrite <- SP in HA, HW; [apply Forall_app in HA; tauto | apply Forall_app in HW; tauto].
  - cbn [enc_xitems flat_map enc_xitem].
    assert (P : peek_n 32 (setb r ((enc_user u ++ flat_map enc_xitem xs') ++ d)) = (Ok (256 + user_data_code), setb r ((enc_user u ++ flat_map enc_xitem xs') ++ d))).
    { unfold enc_user. rewrite <- !app_assoc. apply peek_code. unfold user_data_code. lia. }
    erewrite bind_onr_ok by exact P. change (256 + user_data_code =? ExtensionStartCode) with false.
    change (256 + user_data_code =? UserDataStartCode) with true. cbn [negb andb]. rewrite andb_false_r.
    destruct (Forall_inv HW) as [B N]. rewrite <- app_assoc. fold (enc_xitems xs').
    destruct (xitems_at_code xs' d (unsupported_at _ _ HU HL)) as (t & Et & T). rewrite Et.
    rewrite bind_assoc. erewrite bind_onr_ok by (now apply user_data_run). rewrite bind_ret.
    rewrite <- Et. cbn [length] in Hn. apply (IH (length xs')); auto; [lia|lia|exact (Forall_inv_tail HA) | exact (Forall_inv_tail HW)].
Qed.
Lemma ext_panics_fwd : forall xs i v r d, (i = 0 \/ i = 2) -> Forall (allowed i) xs -> Forall wf_xitem xs -> unsupported (i =? 2) d -> (length d mod 8 = 0)%nat ->
  exists s, extension_and_user_data i (v, setb r (enc_xitems xs ++ d)) = (Panic, s).
Proof.
  intros. unfold extension_and_user_data. apply (loop_panics (length xs)); auto. cbn [snd]. rewrite rbits_setb, app_length. pose proof (xitems_len xs). lia.
Qed.

(** After picture headers *)
Lemma head_at : forall p d, at_code d -> at_code (enc_picture_head p ++ d).
Proof. intros p d A. unfold enc_picture_head. rewrite <- !app_assoc. unfold enc_pic. apply stuffed_at_code. unfold enc_pce. apply stuffed_at_code. now apply xitems_at_code. Qed.
Lemma head_starts : forall p d, exists t, enc_picture_head p ++ d = code picture_code ++ t.
Proof. intros. unfold enc_picture_head, stuffed, enc_pic. rewrite <- !app_assoc. eexists. reflexivity. Qed.
Lemma head_other : forall p d, at_code d -> at_other_code (enc_picture_head p ++ d).
Proof.
  intros p d A. apply (head_at p) in A. destruct (head_starts p d) as (t & E). rewrite E in *. apply at_code_other; auto; unfold picture_code, extension_code, user_data_code; lia.
Qed.
Lemma picture_panics : forall p v rd d, wf_picture_head p -> unsupported true d -> (length d mod 8 = 0)%nat ->
  exists s, picture_part (v, setb rd (enc_picture_head p ++ d)) = (Panic, s).
Proof.
  intros p v rd d (W1 & W2 & W3 & W4) U L. unfold picture_part, enc_picture_head. rewrite <- !app_assoc.
  pose proof (xitems_at_code (pd_items p) _ (unsupported_at _ _ U L)) as A1.
  assert (A2 : at_code (stuffed (enc_pce (pd_pce p)) (pd_k2 p) ++ enc_xitems (pd_items p) ++ d)) by (apply stuffed_at_code; exact A1).
  unfold vs_picture_header, vs_picture_coding_extension.
  erewrite bind_ok by (apply (assign_run _ set_ph picture_header_fields (enc_pic (pd_hdr p)) (pic_of (pd_hdr p))); [intros; now apply pic_fields_run | exact A2]).
  erewrite bind_ok by (apply (assign_run _ set_pce picture_coding_extension_fields (enc_pce (pd_pce p)) (pce_of (pd_pce p))); [intros; now apply pce_fields_run | exact A1]).
  match goal with |- exists x, bind (extension_and_user_data 2) _ (?w, _) = _ => destruct (ext_panics_fwd (pd_items p) 2 w rd d) as (s & E); auto end.
  exists s. erewrite bind_panic; [reflexivity|exact E].
Qed.
Lemma group_head_at : forall g l, at_code l -> at_other_code (enc_group_head g ++ l).
Proof. intros g l A. unfold enc_group_head. rewrite <- app_assoc. unfold enc_gop. apply stuffed_other; try (unfold group_code, extension_code, user_data_code; lia). apply at_code_mod8. now apply xitems_at_code. Qed.
Lemma opt_group_other : forall og p d, at_code d -> at_other_code (opt enc_group_head og ++ enc_picture_head p ++ d).
Proof. intros [g|] p d A; cbn [opt]; [apply group_head_at; now apply head_at | now apply head_other]. Qed.
Lemma more_panics_fwd : forall og p v rd d, opt_wf wf_group_head og -> wf_picture_head p -> unsupported true d -> (length d mod 8 = 0)%nat ->
  exists s, more_frames (v, setb rd (opt enc_group_head og ++ enc_picture_head p ++ d)) = (Panic, s).
Proof.
  intros og p v rd d Wg Wp U L. unfold more_frames. pose proof (unsupported_at _ _ U L) as A. destruct og as [g|]; cbn [opt app].
  - destruct Wg as (W1 & W2 & W3).
    assert (P : peek_n 32 (setb rd (enc_group_head g ++ enc_picture_head p ++ d)) = (Ok (256 + group_code), setb rd (enc_group_head g ++ enc_picture_head p ++ d))).
    { unfold enc_group_head, stuffed, enc_gop. rewrite <- !app_assoc. apply peek_code. unfold group_code. lia. }
    erewrite bind_onr_ok by exact P. change (256 + group_code =? GroupStartCode) with true. cbv iota. rewrite bind_assoc.
    unfold enc_group_head, stuffed. rewrite <- (app_assoc _ (enc_xitems (gh_items g))), <- (app_assoc (enc_gop (gh_hdr g))). erewrite bind_onr_ok by (apply gop_run; [exact W1 | apply xitems_at_code; now apply head_at]).
    rewrite bind_assoc, bind_upd. cbn [fst snd]. erewrite bind_ok by (apply ext_user_data_run; auto; now apply head_other). now apply picture_panics.
  - destruct (head_starts p d) as (t & E).
    assert (P : peek_n 32 (setb rd (enc_picture_head p ++ d)) = (Ok (256 + picture_code), setb rd (enc_picture_head p ++ d))) by (rewrite E; apply peek_code; unfold picture_code; lia).
    erewrite bind_onr_ok by exact P. change (256 + picture_code =? GroupStartCode) with false. cbv iota. rewrite bind_ret. now apply picture_panics.
Qed.

(** After sequence headers *)
Lemma continue_panics : forall s v rd d, wf_start s -> unsupported false d -> (length d mod 8 = 0)%nat ->
  exists s', (vs_sequence_header ;; vs_sequence_extension ;; continue_frames) (v, setb rd (enc_start s ++ d)) = (Panic, s').
Proof.
  intros s v rd d (W1 & W2 & W3 & W4) U L. unfold enc_start. rewrite <- !app_assoc.
  pose proof (xitems_at_code (st_items s) d (unsupported_at _ _ U L)) as A1.
  assert (A2 : at_code (stuffed (enc_sext (st_ext s)) (st_k2 s) ++ enc_xitems (st_items s) ++ d)) by (apply stuffed_at_code; exact A1).
  erewrite bind_ok by (now apply vs_seq_run). unfold vs_sequence_extension.
  erewrite bind_ok by (apply (assign_run _ set_se sequence_extension_fields (enc_sext (st_ext s)) (sext_of (st_ext s))); [intros; now apply sext_fields_run | exact A1]).
  unfold continue_frames.
  match goal with |- exists x, bind (extension_and_user_data 0) _ (?w, _) = _ => destruct (ext_panics_fwd (st_items s) 0 w rd d) as (s' & E); auto end.
  exists s'. erewrite bind_panic; [reflexivity|exact E].
Qed.
Lemma headers_panic : forall s og p v rd d, wf_start s -> opt_wf wf_group_head og -> wf_picture_head p -> unsupported true d -> (length d mod 8 = 0)%nat ->
  exists s', (vs_sequence_header ;; vs_sequence_extension ;; continue_frames) (v, setb rd (enc_start s ++ opt enc_group_head og ++ enc_picture_head p ++ d)) = (Panic, s').
Proof.
  intros s og p v rd d W Wg Wp U L. destruct (start_run s v rd (opt enc_group_head og ++ enc_picture_head p ++ d) W) as (v0 & R & _); [apply opt_group_other; eapply unsupported_at; eauto|].
  destruct (more_panics_fwd og p v0 rd d Wg Wp U L) as (s' & E). exists s'. unfold continue_frames.
  transitivity (((vs_sequence_header ;; vs_sequence_extension ;; extension_and_user_data 0) ;; more_frames) (v, setb rd (enc_start s ++ opt enc_group_head og ++ enc_picture_head p ++ d))); [apply assoc4|].
  erewrite bind_ok by exact R. exact E.
Qed.

(** One step *)
Lemma resume_headers : forall s l v rd, v_sh v <> None -> step (v, setb rd (enc_start s ++ l)) = (vs_sequence_header ;; vs_sequence_extension ;; continue_frames) (v, setb rd (enc_start s ++ l)).
Proof.
  intros s l v rd H. unfold step. unfold own at 1, bind at 1. cbn [fst]. destruct (v_sh v); [|congruence]. destruct (start_starts s l) as (t & E).
  assert (P : peek_n 32 (setb rd (enc_start s ++ l)) = (Ok (256 + sequence_header_code), setb rd (enc_start s ++ l))) by (rewrite E; apply peek_code; unfold sequence_header_code; lia).
  erewrite bind_onr_ok by exact P. change ((256 + sequence_header_code =? PictureStartCode) || (256 + sequence_header_code =? GroupStartCode)) with false. cbv iota.
  erewrite bind_onr_ok by exact P. reflexivity.
Qed.
Lemma first_headers : forall k s l v rd, v_sh v = None -> wf_start s -> at_code l ->
  step (v, setb rd (bb (repeat 0 k) ++ enc_start s ++ l)) = (vs_sequence_header ;; vs_sequence_extension ;; continue_frames) (v, setb rd (enc_start s ++ l)).
Proof.
  intros k s l v rd SH (Ws & We & Wa & Wi) A. unfold step. unfold own at 1, bind at 1. cbn [fst]. rewrite SH.
  assert (A0 : at_code (enc_start s ++ l)) by (now apply start_at).
  assert (R0 : next_start_code (setb rd (bb (repeat 0 k) ++ enc_start s ++ l)) = (Ok tt, setb rd (enc_start s ++ l))).
  { destruct A0 as (u & E & U). rewrite E. apply (next_start_code_run [] k); [cbn; lia | exact U]. }
  erewrite bind_onr_ok by exact R0. unfold enc_start. rewrite <- !app_assoc.
  assert (A2 : at_code (stuffed (enc_sext (st_ext s)) (st_k2 s) ++ enc_xitems (st_items s) ++ l)) by (apply stuffed_at_code; now apply xitems_at_code).
  erewrite bind_ok by (apply vs_seq_run; auto). erewrite (bind_ok _ _ _ vs_sequence_header) by (apply vs_seq_run; auto).
  assert (P : peek_n 32 (setb rd (stuffed (enc_sext (st_ext s)) (st_k2 s) ++ enc_xitems (st_items s) ++ l)) =
    (Ok (256 + extension_code), setb rd (stuffed (enc_sext (st_ext s)) (st_k2 s) ++ enc_xitems (st_items s) ++ l))).
  { unfold stuffed, enc_sext. rewrite <- !app_assoc. apply peek_code. unfold extension_code; lia. }
  erewrite bind_onr_ok by exact P. reflexivity.
Qed.
Lemma step_pics : forall og p d v rd, v_sh v <> None -> step (v, setb rd (opt enc_group_head og ++ enc_picture_head p ++ d)) = more_frames (v, setb rd (opt enc_group_head og ++ enc_picture_head p ++ d)).
Proof.
  intros og p d v rd H. unfold step. unfold own at 1, bind at 1. cbn [fst]. destruct (v_sh v); [|congruence].
  assert (C : exists b t, opt enc_group_head og ++ enc_picture_head p ++ d = code b ++ t /\ (b = picture_code \/ b = group_code)).
  { destruct og as [g|]; cbn [opt app].
    - exists group_code. unfold enc_group_head, stuffed, enc_gop. rewrite <- !app_assoc. eexists. split; [reflexivity|now right].
    - destruct (head_starts p d) as (t & E). exists picture_code, t. auto. }
  destruct C as (b & t & -> & [-> | ->]); erewrite bind_onr_ok by (apply peek_code; unfold picture_code, group_code; lia); reflexivity.
Qed.
Lemma step_panics : forall k v rd d, (v_sh v <> None -> k = 0%nat) -> meets_unsupported (match v_sh v with Some _ => true | None => false end) d ->
  exists s, step (v, setb rd (bb (repeat 0 k) ++ d)) = (Panic, s).
Proof.
  intros k v rd d K M. destruct (v_sh v) as [h|] eqn:SH.
  - rewrite (K ltac:(discriminate)). cbn [repeat bb flat_map app]. assert (N : v_sh v <> None) by (rewrite SH; discriminate). destruct M as [s d W U L | os og p d H Ws Wg Wp U L].
    + rewrite resume_headers by auto. now apply continue_panics.
    + destruct os as [s|]; cbn [opt].
      * rewrite resume_headers by auto. now apply headers_panic.
      * cbn [app]. rewrite step_pics by auto. now apply more_panics_fwd.
  - destruct M as [s d W U L | os og p d H Ws Wg Wp U L].
    + rewrite first_headers; auto; [now apply continue_panics | eapply unsupported_at; eauto].
    + destruct os as [s|]; cbn [opt]; [|now elim H]. rewrite first_headers; auto; [now apply headers_panic|]. apply other_at_code, opt_group_other. eapply unsupported_at; eauto.
Qed.
Lemma next_panics_fwd : forall k v rd d, (v_sh v <> None -> k = 0%nat) -> fs_tryget (v_fc v) (v_fs v) = None -> meets_unsupported (match v_sh v with Some _ => true | None => false end) d ->
  exists s, next (v, setb rd (bb (repeat 0 k) ++ d)) = (Panic, s).
Proof.
  intros k v rd d K T M. destruct (step_panics k v rd d K M) as (s & E). exists s. unfold next. unfold own at 1, bind at 1. cbn [fst]. rewrite T. cbn [next_loop].
  erewrite bind_panic; [reflexivity|exact E].
Qed.
Lemma meets_unit : forall d, meets_unsupported true d -> at_unit d.
Proof.
  intros d M. destruct M as [s d W U L | os og p d H Ws Wg Wp U L].
  - pose proof (xitems_at_code (st_items s) d (unsupported_at _ _ U L)) as A1. unfold enc_start. rewrite <- !app_assoc. unfold enc_seq. apply stuffed_unit; [cbn; auto|].
    apply at_code_mod8. unfold enc_sext. now apply stuffed_at_code.
  - pose proof (unsupported_at _ _ U L) as A. destruct os as [s|]; cbn [opt].
    + unfold enc_start. rewrite <- !app_assoc. unfold enc_seq. apply stuffed_unit; [cbn; auto|]. apply at_code_mod8. unfold enc_sext. apply stuffed_at_code. apply xitems_at_code. now apply other_at_code, opt_group_other.
    + cbn [app]. destruct og as [g|]; cbn [opt app].
      * unfold enc_group_head. rewrite <- !app_assoc. unfold enc_gop. apply stuffed_unit; [cbn; auto|]. apply at_code_mod8, xitems_at_code, other_at_code. now apply head_other.
      * unfold enc_picture_head. rewrite <- !app_assoc. unfold enc_pic. apply stuffed_unit; [cbn; auto|]. apply at_code_mod8. unfold enc_pce. apply stuffed_at_code. now apply xitems_at_code.
Qed.
Lemma unsupported_after : forall k g gs rd d, valid_sequence (g :: gs) -> meets_unsupported true d ->
  exists imgs s s', nexts (length (shown (g :: gs))) (new_vidseq, setb rd (bb (repeat 0 k) ++ flat_map enc_group (g :: gs) ++ d)) = (Ok imgs, s) /\
    Forall2 looks imgs (shown (g :: gs)) /\ next s = (Panic, s').
Proof.
  intros k g gs rd d V M. destruct (sequence_rest k g gs rd d V (meets_unit _ M)) as (imgs & v & c & o & l & fc & N & Lk & B & _).
  destruct (bt_force _ _ _ _ _ _ _ B) as ((h0 & Eh & _) & _).
  destruct (next_panics_fwd 0 v rd d) as (s & E); [auto | exact (between_tryget _ _ _ _ _ B) | rewrite Eh; exact M |].
  cbn [repeat bb flat_map app] in E. exists imgs, (v, setb rd d), s. auto.
Qed.
