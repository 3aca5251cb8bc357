(** NextProofs: Next on a whole video sequence. *)
From Verif Require Import Base BitReader Exec Local Mono TsRobust VidModel SpecVid VidProofs VidStream VidExt PropertiesVidHeaders MbModel SpecMotion SpecNext.

(** * Streams at start codes *)
Lemma stuffed_at_code : forall b e' k l, at_code l -> at_code (stuffed (code b ++ e') k ++ l).
Proof.
  intros b e' k l (u & -> & U). pose proof (stuffed_mod8 (length (code b ++ e')) k (code b ++ e') eq_refl) as M8. unfold stuffed in *. unfold code in *.
  rewrite <- !app_assoc in *. eexists. split; [reflexivity|].
  rewrite (app_length prefix) in M8. change (length prefix) with (3 * 8)%nat in M8. rewrite Nat.add_comm, Nat.mod_add in M8 by lia.
  rewrite !app_assoc. rewrite <- (app_assoc _ prefix u). apply app_mod8; [rewrite <- !app_assoc; exact M8 | now apply prefix_app_mod8].
Qed.
Lemma stuffed_other : forall b e' k l, 0 <= b < 256 -> b <> extension_code -> b <> user_data_code -> (length l mod 8 = 0)%nat ->
  at_other_code (stuffed (code b ++ e') k ++ l).
Proof.
  intros b e' k l Hb N1 N2 U. pose proof (stuffed_mod8 (length (code b ++ e')) k (code b ++ e') eq_refl) as M8. unfold stuffed in *.
  exists b, (e' ++ stuffing (length (code b ++ e')) k ++ l). split; [now rewrite <- !app_assoc|]. split; [exact Hb|]. split; [exact N1|]. split; [exact N2|].
  rewrite <- (app_assoc (code b)) in M8. rewrite (app_length (code b)) in M8. unfold code at 1 in M8. rewrite (app_length prefix), enc_length in M8. change (length prefix + 8)%nat with (4 * 8)%nat in M8.
  rewrite Nat.add_comm, Nat.mod_add in M8 by lia. rewrite app_assoc. now apply app_mod8.
Qed.
Lemma at_code_mod8 : forall l, at_code l -> (length l mod 8 = 0)%nat.
Proof. intros l (t & -> & T). now apply prefix_app_mod8. Qed.

Lemma unit_at_code : forall l, at_unit l -> at_code l.
Proof. intros l (b & t & -> & T & _). unfold code. rewrite <- app_assoc. eexists. split; [reflexivity|]. apply app_mod8; [now rewrite enc_length | exact T]. Qed.
Lemma stuffed_unit : forall b e' k l, In b [picture_code; sequence_header_code; group_code; sequence_end_code] -> (length l mod 8 = 0)%nat -> at_unit (stuffed (code b ++ e') k ++ l).
Proof.
  intros b e' k l I U.
  assert (R : 0 <= b < 256 /\ b <> extension_code /\ b <> user_data_code).
  { unfold picture_code, sequence_header_code, group_code, sequence_end_code, extension_code, user_data_code in *. cbn in I. lia. }
  destruct R as (R1 & R2 & R3). unfold stuffed. rewrite <- !app_assoc.
  pose proof (stuffed_mod8 (length (code b ++ e')) k (code b ++ e') eq_refl) as M8.
  rewrite <- app_assoc in M8. rewrite (app_length (code b)) in M8. unfold code at 1 in M8. rewrite (app_length prefix), enc_length in M8. change (length prefix + 8)%nat with (4 * 8)%nat in M8.
  rewrite Nat.add_comm, Nat.mod_add in M8 by lia.
  exists b. eexists. split; [reflexivity|]. split; [|exact I]. rewrite app_assoc. now apply app_mod8.
Qed.

(** * In force *)
Lemma in_force_items : forall xs c v, in_force c v -> in_force (ctx_items c xs) (items_effect xs v).
Proof.
  induction xs as [|x xs IH]; intros c v H; [exact H|]. cbn [ctx_items fold_left items_effect].
  fold (ctx_items (ctx_item c x) xs) (items_effect xs (item_effect x v)). apply IH.
  destruct x; cbn [ctx_item item_effect]; auto. destruct H as (A & B & E0 & E1 & E2 & E3).
  unfold quant_update. repeat split; cbn [set_q v_sh v_se v_q0 v_q1 v_q2 v_q3 c_seq c_ext c_m0 c_m1 c_m2 c_m3]; auto; rewrite ?E0, ?E1, ?E2, ?E3; reflexivity.
Qed.
Lemma items_same : forall xs v, v_ph (items_effect xs v) = v_ph v /\ v_pce (items_effect xs v) = v_pce v /\ v_fs (items_effect xs v) = v_fs v /\ v_fc (items_effect xs v) = v_fc v /\
  v_sh (items_effect xs v) = v_sh v.
Proof.
  induction xs as [|x xs IH]; intro v; [repeat split|]. cbn [items_effect fold_left]. fold (items_effect xs (item_effect x v)).
  destruct (IH (item_effect x v)) as (E1 & E2 & E3 & E4 & E5). rewrite E1, E2, E3, E4, E5. destruct x; repeat split.
Qed.

(** * One picture *)
Definition picture_part : V image :=
  vs_picture_header ;;
  vs_picture_coding_extension ;;
  extension_and_user_data 2 ;;
  v <- own ;;
  ph <- deref (v_ph v) ;;
  upd (fun v => set_fs (fs_set (ph_tr ph) (v_fs v)) v) ;;
  v <- own ;;
  frame <- onr (picture_data v) ;;
  (if (ph_type ph =? IFrame) || (ph_type ph =? PFrame)
   then upd (fun v => set_fs (fs_add frame (ph_tr ph) (v_fs v)) v) else ret tt) ;;
  ret frame.

(** The frame store after a picture *)
Definition store (f : image) (p : spicture) (fs : framestore) : framestore :=
  if is_ref p then fs_add f (tref p) (fs_set (tref p) fs) else fs_set (tref p) fs.

Lemma data_other : forall p rest, wf_picture p -> at_code rest -> at_other_code (pi_data p ++ rest).
Proof.
  intros p rest (_ & _ & _ & _ & _ & b & t & -> & Hb & T) R. exists b, (t ++ rest). split; [now rewrite <- app_assoc|].
  split; [lia|]. unfold extension_code, user_data_code. split; [lia|]. split; [lia|]. apply app_mod8; auto. now apply at_code_mod8.
Qed.

Lemma picture_part_run : forall c o l p v rd rest, wf_picture p -> in_force c v -> picture_decodes (ctx_items c (pi_items p)) o l p ->
  references p o l (set_fs (fs_set (tref p) (v_fs v)) v) -> at_unit rest ->
  exists f v', picture_part (v, setb rd (enc_picture p ++ rest)) = (Ok f, (v', setb rd rest)) /\ looks f (pi_frame p) /\
    in_force (ctx_items c (pi_items p)) v' /\ v_fs v' = store f p (v_fs v) /\ v_fc v' = v_fc v /\
    exists h, v_ph v' = Some h /\ ph_tr h = tref p.
Proof.
  intros c o l p v rd rest W F D R HR. pose proof W as (W1 & W2 & W3 & W4 & W5 & _). unfold picture_part, enc_picture. rewrite <- !app_assoc.
  pose proof (data_other p rest W (unit_at_code _ HR)) as A0. pose proof (xitems_at_code (pi_items p) _ (other_at_code _ A0)) as A1.
  assert (A2 : at_code (stuffed (enc_pce (pi_pce p)) (pi_k2 p) ++ enc_xitems (pi_items p) ++ pi_data p ++ rest)) by (apply stuffed_at_code; exact A1).
  unfold vs_picture_header, vs_picture_coding_extension.
  erewrite bind_ok by (apply (assign_run _ set_ph picture_header_fields (enc_pic (pi_hdr p)) (pic_of (pi_hdr p))); [intros; now apply pic_fields_run | exact A2]).
  erewrite bind_ok by (apply (assign_run _ set_pce picture_coding_extension_fields (enc_pce (pi_pce p)) (pce_of (pi_pce p))); [intros; now apply pce_fields_run | exact A1]).
  erewrite bind_ok by (apply ext_user_data_run; auto).
  set (v1 := items_effect (pi_items p) (set_pce (Some (pce_of (pi_pce p))) (set_ph (Some (pic_of (pi_hdr p))) v))).
  destruct (items_same (pi_items p) (set_pce (Some (pce_of (pi_pce p))) (set_ph (Some (pic_of (pi_hdr p))) v))) as (E1 & E2 & E3 & E4 & E5).
  fold v1 in E1, E2, E3, E4, E5. cbn [set_pce set_ph v_ph v_pce v_fs v_fc v_sh] in E1, E2, E3, E4, E5.
  assert (F1 : in_force (ctx_items c (pi_items p)) v1) by (apply in_force_items; exact F).
  unfold own at 1, bind at 1. cbn [fst]. rewrite E1. unfold deref. rewrite bind_ret. rewrite bind_upd. cbn [fst snd].
  assert (ET : ph_tr (pic_of (pi_hdr p)) = tref p) by reflexivity. rewrite ET, E3.
  unfold own at 1, bind at 1. cbn [fst].
  set (v2 := set_fs (fs_set (tref p) (v_fs v)) v1).
  assert (F2 : in_force (ctx_items c (pi_items p)) v2) by exact F1.
  assert (P : exists f, picture_data v2 (setb rd (pi_data p ++ rest)) = (Ok f, setb rd rest) /\ looks f (pi_frame p)).
  { apply D; auto.
    - exists (pic_of (pi_hdr p)). split; [exact E1 | apply pic_of_holds].
    - exists (pce_of (pi_pce p)). split; [exact E2 | apply pce_of_holds]. }
  destruct P as (f & P & LF). exists f. erewrite bind_onr_ok by exact P.
  assert (EI : (ph_type (pic_of (pi_hdr p)) =? IFrame) || (ph_type (pic_of (pi_hdr p)) =? PFrame) = is_ref p).
  { unfold is_ref. change (ph_type (pic_of (pi_hdr p))) with (p_type (pi_hdr p)). unfold IFrame, PFrame.
    assert (C : p_type (pi_hdr p) = 1 \/ p_type (pi_hdr p) = 2 \/ p_type (pi_hdr p) = 3) by lia. destruct C as [-> | [-> | ->] ]; reflexivity. }
  rewrite EI. unfold store. destruct (is_ref p).
  - rewrite bind_upd. cbn [fst snd]. eexists. split; [reflexivity|]. split; [exact LF|]. split; [exact F2|]. split; [reflexivity|]. split; [exact E4|].
    exists (pic_of (pi_hdr p)). split; [exact E1 | reflexivity].
  - rewrite bind_ret. eexists. split; [reflexivity|]. split; [exact LF|]. split; [exact F2|]. split; [reflexivity|]. split; [exact E4|].
    exists (pic_of (pi_hdr p)). split; [exact E1 | reflexivity].
Qed.

Lemma picture_starts : forall p l, exists t, enc_picture p ++ l = code picture_code ++ t.
Proof. intros. unfold enc_picture, stuffed, enc_pic. rewrite <- !app_assoc. eexists. reflexivity. Qed.
Lemma picture_at : forall p l, wf_picture p -> at_code l -> at_code (enc_picture p ++ l).
Proof.
  intros p l W H. unfold enc_picture. rewrite <- !app_assoc. unfold enc_pic. apply stuffed_at_code. unfold enc_pce. apply stuffed_at_code.
  apply xitems_at_code. apply other_at_code. now apply data_other.
Qed.
Lemma pictures_at : forall ps l, Forall wf_picture ps -> at_code l -> at_code (flat_map enc_picture ps ++ l).
Proof.
  induction ps as [|p ps IH]; intros l W H; [exact H|]. cbn [flat_map]. rewrite <- app_assoc. apply picture_at; [exact (Forall_inv W)|].
  apply IH; auto. exact (Forall_inv_tail W).
Qed.
Lemma picture_unit : forall p l, wf_picture p -> at_unit l -> at_unit (enc_picture p ++ l).
Proof.
  intros p l W H. apply unit_at_code in H. unfold enc_picture. rewrite <- !app_assoc. unfold enc_pic. apply stuffed_unit; [now left|]. apply at_code_mod8. unfold enc_pce. apply stuffed_at_code.
  apply xitems_at_code. apply other_at_code. now apply data_other.
Qed.
Lemma pictures_unit : forall ps l, Forall wf_picture ps -> at_unit l -> at_unit (flat_map enc_picture ps ++ l).
Proof.
  induction ps as [|p ps IH]; intros l W H; [exact H|]. cbn [flat_map]. rewrite <- app_assoc. apply picture_unit; [exact (Forall_inv W)|].
  apply IH; auto. exact (Forall_inv_tail W).
Qed.
Lemma at_code_other : forall b t, 0 <= b < 256 -> b <> extension_code -> b <> user_data_code -> at_code (code b ++ t) -> at_other_code (code b ++ t).
Proof.
  intros b t Hb N1 N2 (u & E & U). exists b, t. repeat split; auto; try lia. unfold code in E. rewrite <- app_assoc in E. apply app_inv_head in E.
  rewrite <- E, app_length, enc_length in U. rewrite Nat.add_comm in U. change 8%nat with (1 * 8)%nat in U at 1. now rewrite Nat.mod_add in U by lia.
Qed.

(** [step] inside a group *)
Lemma step_picture : forall v rd p l, v_sh v <> None -> step (v, setb rd (enc_picture p ++ l)) = picture_part (v, setb rd (enc_picture p ++ l)).
Proof.
  intros v rd p l H. destruct (picture_starts p l) as (t & E). unfold step. unfold own at 1, bind at 1. cbn [fst]. destruct (v_sh v); [|congruence].
  rewrite E. erewrite bind_onr_ok by (apply peek_code; unfold picture_code; lia). change (256 + picture_code =? PictureStartCode) with true. cbn [orb].
  unfold more_frames. erewrite bind_onr_ok by (apply peek_code; unfold picture_code; lia). change (256 + picture_code =? GroupStartCode) with false. cbv iota.
  rewrite bind_ret. reflexivity.
Qed.
(** [step] at a group *)
Definition group_effect (g : sgroup) (v : vidseq) : vidseq := start_gop (gop_of (gr_hdr g)) v.
Lemma gop_items : forall xs v, Forall (allowed 1) xs -> items_effect xs v = v.
Proof.
  induction xs as [|x xs IH]; intros v H; [reflexivity|]. cbn [items_effect fold_left]. fold (items_effect xs (item_effect x v)).
  pose proof (Forall_inv H) as A. destruct x; cbn in A; try discriminate A; cbn [item_effect]. apply IH. exact (Forall_inv_tail H).
Qed.
Lemma more_frames_group : forall g p l v rd, wf_group g -> at_code (enc_picture p ++ l) ->
  more_frames (v, setb rd (stuffed (enc_gop (gr_hdr g)) (gr_k g) ++ enc_xitems (gr_items g) ++ enc_picture p ++ l)) =
  picture_part (group_effect g v, setb rd (enc_picture p ++ l)).
Proof.
  intros g p l v rd (_ & Wg & WA & WI & _) A. unfold more_frames.
  assert (A1 : at_other_code (enc_picture p ++ l)).
  { destruct (picture_starts p l) as (t & E). rewrite E in *. apply at_code_other; auto; unfold picture_code, extension_code, user_data_code; lia. }
  assert (P : peek_n 32 (setb rd (stuffed (enc_gop (gr_hdr g)) (gr_k g) ++ enc_xitems (gr_items g) ++ enc_picture p ++ l)) =
    (Ok (256 + group_code), setb rd (stuffed (enc_gop (gr_hdr g)) (gr_k g) ++ enc_xitems (gr_items g) ++ enc_picture p ++ l))).
  { unfold stuffed, enc_gop. rewrite <- !app_assoc. apply peek_code. unfold group_code. lia. }
  erewrite bind_onr_ok by exact P. change (256 + group_code =? GroupStartCode) with true. cbv iota. rewrite bind_assoc.
  unfold stuffed. rewrite <- app_assoc. erewrite bind_onr_ok by (apply gop_run; [exact Wg | now apply xitems_at_code]).
  rewrite bind_assoc, bind_upd. cbn [fst snd]. erewrite bind_ok by (apply ext_user_data_run; auto). rewrite gop_items by auto. reflexivity.
Qed.
Lemma start_run : forall s v rd l, wf_start s -> at_other_code l ->
  exists v', (vs_sequence_header ;; vs_sequence_extension ;; extension_and_user_data 0) (v, setb rd (enc_start s ++ l)) = (Ok tt, (v', setb rd l)) /\
    in_force (ctx_start s) v' /\ v_fs v' = v_fs v /\ v_fc v' = v_fc v.
Proof.
  intros s v rd l (W1 & W2 & W3 & W4) A. unfold enc_start. rewrite <- !app_assoc.
  pose proof (xitems_at_code (st_items s) l (other_at_code _ A)) as A1.
  assert (A2 : at_code (stuffed (enc_sext (st_ext s)) (st_k2 s) ++ enc_xitems (st_items s) ++ l)) by (apply stuffed_at_code; exact A1).
  erewrite bind_ok by (now apply vs_seq_run). unfold vs_sequence_extension.
  erewrite bind_ok by (apply (assign_run _ set_se sequence_extension_fields (enc_sext (st_ext s)) (sext_of (st_ext s))); [intros; now apply sext_fields_run | exact A1]).
  rewrite ext_user_data_run by auto. eexists. split; [reflexivity|].
  match goal with |- in_force _ (items_effect _ ?x) /\ _ => destruct (items_same (st_items s) x) as (_ & _ & E3 & E4 & _) end. rewrite E3, E4.
  split; [|split; reflexivity]. apply in_force_items. unfold in_force. cbn. split; [eexists; split; [reflexivity | apply seq_of_holds]|].
  split; [eexists; split; [reflexivity | apply sext_of_holds] | repeat split].
Qed.

Lemma start_starts : forall s l, exists t, enc_start s ++ l = code sequence_header_code ++ t.
Proof. intros. unfold enc_start, stuffed, enc_seq. rewrite <- !app_assoc. eexists. reflexivity. Qed.
Lemma group_other : forall g l, (length l mod 8 = 0)%nat -> at_other_code (stuffed (enc_gop (gr_hdr g)) (gr_k g) ++ l).
Proof. intros. unfold enc_gop. apply stuffed_other; auto; unfold group_code, extension_code, user_data_code; lia. Qed.
Lemma start_at : forall s l, at_code l -> at_code (enc_start s ++ l).
Proof.
  intros s l H. unfold enc_start. rewrite <- !app_assoc. unfold enc_seq. apply stuffed_at_code. unfold enc_sext. apply stuffed_at_code. now apply xitems_at_code.
Qed.
Definition group_bits (g : sgroup) (l : list bool) : list bool := stuffed (enc_gop (gr_hdr g)) (gr_k g) ++ enc_xitems (gr_items g) ++ l.
Lemma group_bits_other : forall g l, at_code l -> at_other_code (group_bits g l).
Proof. intros. unfold group_bits. apply group_other. apply at_code_mod8. now apply xitems_at_code. Qed.
Lemma group_at : forall g l, wf_group g -> at_code l -> at_code (enc_group g ++ l).
Proof.
  intros g l (W0 & _ & _ & _ & W) H. unfold enc_group. rewrite <- !app_assoc.
  assert (A : at_code (group_bits g (flat_map enc_picture (gr_pics g) ++ l))) by (apply other_at_code, group_bits_other, pictures_at; auto).
  unfold group_bits in A. destruct (gr_start g); [now apply start_at | exact A].
Qed.
Lemma groups_at : forall gs l, Forall wf_group gs -> at_code l -> at_code (flat_map enc_group gs ++ l).
Proof.
  induction gs as [|g gs IH]; intros l W H; [exact H|]. cbn [flat_map]. rewrite <- app_assoc. apply group_at; [exact (Forall_inv W)|].
  apply IH; auto. exact (Forall_inv_tail W).
Qed.
Lemma group_unit : forall g l, wf_group g -> at_unit l -> at_unit (enc_group g ++ l).
Proof.
  intros g l (W0 & _ & _ & _ & W) H. apply unit_at_code in H. unfold enc_group. rewrite <- !app_assoc.
  assert (A : at_code (flat_map enc_picture (gr_pics g) ++ l)) by (now apply pictures_at).
  destruct (gr_start g).
  - unfold enc_start. rewrite <- !app_assoc. unfold enc_seq. apply stuffed_unit; [cbn; auto|]. apply at_code_mod8. unfold enc_sext. apply stuffed_at_code. apply xitems_at_code.
    unfold enc_gop. apply stuffed_at_code. now apply xitems_at_code.
  - cbn [app]. unfold enc_gop. apply stuffed_unit; [cbn; auto|]. apply at_code_mod8. now apply xitems_at_code.
Qed.
Lemma groups_unit : forall gs l, Forall wf_group gs -> at_unit l -> at_unit (flat_map enc_group gs ++ l).
Proof.
  induction gs as [|g gs IH]; intros l W H; [exact H|]. cbn [flat_map]. rewrite <- app_assoc. apply group_unit; [exact (Forall_inv W)|].
  apply IH; auto. exact (Forall_inv_tail W).
Qed.
Lemma end_unit : at_unit (code sequence_end_code).
Proof. exists sequence_end_code, []. split; [now rewrite app_nil_r|]. split; [reflexivity|]. cbn. auto. Qed.
Lemma end_at : at_code (code sequence_end_code).
Proof. unfold code. eexists. split; [reflexivity|]. reflexivity. Qed.

(** [step] at a group in a sequence that has started *)
Lemma step_group : forall g p l v rd, wf_group g -> gr_start g = None -> at_code (enc_picture p ++ l) -> v_sh v <> None ->
  step (v, setb rd (group_bits g (enc_picture p ++ l))) = picture_part (group_effect g v, setb rd (enc_picture p ++ l)).
Proof.
  intros g p l v rd W N A H. unfold step. unfold own at 1, bind at 1. cbn [fst]. destruct (v_sh v); [|congruence].
  assert (P : peek_n 32 (setb rd (group_bits g (enc_picture p ++ l))) = (Ok (256 + group_code), setb rd (group_bits g (enc_picture p ++ l)))).
  { unfold group_bits, stuffed, enc_gop. rewrite <- !app_assoc. apply peek_code. unfold group_code. lia. }
  erewrite bind_onr_ok by exact P. change ((256 + group_code =? PictureStartCode) || (256 + group_code =? GroupStartCode)) with true. cbv iota.
  unfold group_bits. now apply more_frames_group.
Qed.
Lemma assoc4 : forall S A B C D (m : M S A) (n : M S B) (k : M S C) (j : M S D) st, (m ;; n ;; k ;; j) st = ((m ;; n ;; k) ;; j) st.
Proof.
  intros. rewrite bind_assoc. unfold bind at 1 4. destruct (m st) as [r0 st0]; destruct r0; auto. symmetry. apply bind_assoc.
Qed.
Lemma step_start_group : forall s g p l v rd, wf_group g -> gr_start g = Some s -> at_code (enc_picture p ++ l) -> v_sh v <> None ->
  exists v0, step (v, setb rd (enc_start s ++ group_bits g (enc_picture p ++ l))) = picture_part (group_effect g v0, setb rd (enc_picture p ++ l)) /\
    in_force (ctx_start s) v0 /\ v_fs v0 = v_fs v.
Proof.
  intros s g p l v rd W N A H. unfold step. unfold own at 1, bind at 1. cbn [fst]. destruct (v_sh v); [|congruence].
  destruct (start_starts s (group_bits g (enc_picture p ++ l))) as (t & E).
  assert (P : peek_n 32 (setb rd (enc_start s ++ group_bits g (enc_picture p ++ l))) = (Ok (256 + sequence_header_code), setb rd (enc_start s ++ group_bits g (enc_picture p ++ l)))).
  { rewrite E. apply peek_code. unfold sequence_header_code. lia. }
  erewrite bind_onr_ok by exact P. change ((256 + sequence_header_code =? PictureStartCode) || (256 + sequence_header_code =? GroupStartCode)) with false. cbv iota.
  erewrite bind_onr_ok by exact P. change (256 + sequence_header_code =? SequenceEndStartCode) with false. cbv iota.
  pose proof W as (W0 & _). rewrite N in W0.
  destruct (start_run s v rd (group_bits g (enc_picture p ++ l)) W0 (group_bits_other _ _ A)) as (v0 & R & F & Fs & _).
  exists v0. split; [|split; auto]. unfold continue_frames.
  transitivity (((vs_sequence_header ;; vs_sequence_extension ;; extension_and_user_data 0) ;; more_frames) (v, setb rd (enc_start s ++ group_bits g (enc_picture p ++ l)))).
  - apply assoc4.
  - erewrite bind_ok by exact R. now apply more_frames_group.
Qed.
Lemma step_first_group : forall k s g p l v rd, v_sh v = None -> wf_group g -> gr_start g = Some s -> at_code (enc_picture p ++ l) ->
  exists v0, step (v, setb rd (bb (repeat 0 k) ++ enc_start s ++ group_bits g (enc_picture p ++ l))) = picture_part (group_effect g v0, setb rd (enc_picture p ++ l)) /\
    in_force (ctx_start s) v0 /\ v_fs v0 = v_fs v.
Proof.
  intros k s g p l v rd SH W N A. unfold step. unfold own at 1, bind at 1. cbn [fst]. rewrite SH.
  pose proof W as (W0 & _). rewrite N in W0. pose proof W0 as (Ws & _).
  assert (A0 : at_code (enc_start s ++ group_bits g (enc_picture p ++ l))) by (apply start_at, other_at_code, group_bits_other, A).
  assert (R0 : next_start_code (setb rd (bb (repeat 0 k) ++ enc_start s ++ group_bits g (enc_picture p ++ l))) = (Ok tt, setb rd (enc_start s ++ group_bits g (enc_picture p ++ l)))).
  { destruct A0 as (u & E & U). rewrite E. apply (next_start_code_run [] k); [cbn; lia | exact U]. }
  erewrite bind_onr_ok by exact R0.
  destruct (start_run s v rd (group_bits g (enc_picture p ++ l)) W0 (group_bits_other _ _ A)) as (v0 & R & F & Fs & _).
  exists v0. split; [|split; auto]. unfold continue_frames.
  transitivity (((vs_sequence_header ;; vs_sequence_extension ;; extension_and_user_data 0) ;; more_frames) (v, setb rd (enc_start s ++ group_bits g (enc_picture p ++ l)))).
  - rewrite bind_assoc. unfold enc_start. rewrite <- !app_assoc.
    assert (A2 : at_code (stuffed (enc_sext (st_ext s)) (st_k2 s) ++ enc_xitems (st_items s) ++ group_bits g (enc_picture p ++ l))).
    { apply stuffed_at_code. apply xitems_at_code, other_at_code, group_bits_other, A. }
    erewrite bind_ok by (apply vs_seq_run; auto). erewrite (bind_ok _ _ _ vs_sequence_header) by (apply vs_seq_run; auto).
    assert (P : peek_n 32 (setb rd (stuffed (enc_sext (st_ext s)) (st_k2 s) ++ enc_xitems (st_items s) ++ group_bits g (enc_picture p ++ l))) =
      (Ok (256 + extension_code), setb rd (stuffed (enc_sext (st_ext s)) (st_k2 s) ++ enc_xitems (st_items s) ++ group_bits g (enc_picture p ++ l)))).
    { unfold stuffed, enc_sext. rewrite <- !app_assoc. apply peek_code. unfold extension_code; lia. }
    erewrite bind_onr_ok by exact P. change (negb (256 + extension_code =? ExtensionStartCode)) with false. cbv iota. symmetry. apply bind_assoc.
  - erewrite bind_ok by exact R. now apply more_frames_group.
Qed.

(** * Order *)

Fixpoint cons_from (fc : Z) (l : list spicture) : Prop :=
  match l with [] => True | p :: l => tref p = fc /\ fc < 1024 /\ cons_from (fc + 1) l end.
Lemma cons_from_ge : forall l fc p, cons_from fc l -> In p l -> fc <= tref p.
Proof.
  induction l as [|q l IH]; intros fc p C I; [destruct I|]. destruct C as (E & _ & C). destruct I as [-> | I]; [lia|]. specialize (IH _ _ C I). lia.
Qed.
Lemma reorder_in : forall cs held p, In p (reorder held cs) <-> (held = Some p \/ In p cs).
Proof.
  induction cs as [|q cs IH]; intros held p; cbn [reorder].
  - destruct held; cbn; split; intro H; [destruct H as [-> | [] ]; auto | destruct H as [H|[] ]; injection H as ->; auto | destruct H | destruct H as [H|[] ]; discriminate].
  - destruct (is_ref q).
    + rewrite in_app_iff, IH. destruct held; cbn; split; intro H; intuition (try congruence); try (injection H1 as ->; auto); try (injection H0 as ->; auto).
    + cbn. rewrite IH. intuition.
Qed.
Definition starts_ref (cs : list spicture) : Prop := match cs with [] => True | p :: _ => is_ref p = true end.
Lemma reorder_ref : forall r cs, starts_ref cs -> reorder (Some r) cs = r :: reorder None cs.
Proof. intros r [|p cs] H; [reflexivity|]. cbn in H. cbn [reorder]. now rewrite H. Qed.

Definition old (x : refframe) (fc : Z) : Prop := rf_frame x = None \/ rf_prev x = true \/ rf_tr x < fc.
Lemma old_le : forall x a b, old x a -> a <= b -> old x b.
Proof. intros x a b [H | [H | H] ] L; unfold old; auto. right. right. lia. Qed.
Lemma old_get : forall x fc, old x fc -> ref_get fc x = None.
Proof.
  intros x fc [H | [H | H] ]; unfold ref_get; [now rewrite H| |]; destruct (rf_frame x); auto.
  - now rewrite H.
  - replace (rf_tr x =? fc) with false by (symmetry; apply Z.eqb_neq; lia). now rewrite Bool.andb_false_r.
Qed.
Lemma old_set1 : forall x tr fs, old x tr -> fs_set1 tr x fs = match rf_frame x with None => fs | Some f => mkFS (fs_0 fs) (fs_1 fs) (Some f) (fs_future fs) end.
Proof.
  intros x tr fs [H | [H | H] ]; unfold fs_set1; [now rewrite H| |]; destruct (rf_frame x); auto.
  - now rewrite H.
  - replace (rf_tr x <? tr) with true by (symmetry; apply Z.ltb_lt; lia). now rewrite Bool.orb_true_r.
Qed.

(** Between two calls of Next, in a group: [held] is the reference not shown yet, [cs] the pictures to come *)
Record between (c : context) (o l : known) (held : option spicture) (cs : list spicture) (fc : Z) (v : vidseq) : Prop := {
  bt_force : in_force c v;
  bt_fc : v_fc v = fc;
  bt_pos : 0 <= fc;
  bt_o : serves (rf_frame (fs_0 (v_fs v))) o;
  bt_l : serves (rf_frame (fs_1 (v_fs v))) l;
  bt_none : (l = Missing -> o = Missing) /\ (o = Missing -> fs_past (v_fs v) = None);
  bt_old : old (fs_0 (v_fs v)) fc;
  bt_held : match held with Some r => exists f, fs_1 (v_fs v) = mkRef (Some f) (tref r) false /\ looks f (pi_frame r) /\ l = Is (pi_frame r) | None => old (fs_1 (v_fs v)) fc /\ starts_ref cs end;
  bt_order : cons_from fc (reorder held cs);
  bt_dec : pictures_all picture_decodes c o l cs;
  bt_wf : Forall wf_picture cs }.

Lemma fs_set_refs : forall tr fs, fs_0 (fs_set tr fs) = fs_0 fs /\ fs_1 (fs_set tr fs) = fs_1 fs.
Proof.
  intros. assert (S1 : forall x g, fs_0 (fs_set1 tr x g) = fs_0 g /\ fs_1 (fs_set1 tr x g) = fs_1 g).
  { intros x g. unfold fs_set1. destruct (rf_frame x); [|auto]. destruct (_ || _); auto. }
  unfold fs_set. destruct (S1 (fs_1 fs) (fs_set1 tr (fs_0 fs) fs)) as (-> & ->). apply S1.
Qed.

(** A reference picture when none is held: it is held then. *)
Lemma ref_references : forall p o l v fc, serves (rf_frame (fs_0 (v_fs v))) o -> serves (rf_frame (fs_1 (v_fs v))) l ->
  (l = Missing -> o = Missing) /\ (o = Missing -> fs_past (v_fs v) = None) ->
  old (fs_0 (v_fs v)) fc -> old (fs_1 (v_fs v)) fc -> fc <= tref p -> is_ref p = true ->
  references p o l (set_fs (fs_set (tref p) (v_fs v)) v).
Proof.
  intros p o l v fc Eo El (N1 & N2) O0 O1 L R. unfold references. split; intro T.
  - cbn [set_fs v_fs]. unfold fs_set. rewrite !old_set1 by (eapply old_le; eauto). destruct l as [| |l]; [exact I| |].
    + rewrite (N1 eq_refl) in Eo. cbn [serves] in *. rewrite El, Eo. now apply N2, N1.
    + destruct El as (g & E & El). rewrite E. exists g. auto.
  - unfold is_ref in R. rewrite T in R. discriminate R.
Qed.
Lemma set_past_old : forall tr o fs, serves (rf_frame (fs_0 fs)) o -> (o = Missing -> fs_past fs = None) -> old (fs_0 fs) tr -> serves (fs_past (fs_set1 tr (fs_0 fs) fs)) o.
Proof.
  intros tr o fs S N O. rewrite old_set1 by auto. destruct o; [exact I | cbn [serves] in *; rewrite S; auto|]. destruct S as (g & E & S). rewrite E. exists g. auto.
Qed.
Lemma held_past : forall tr f t o fs, serves (rf_frame (fs_0 fs)) o -> (o = Missing -> fs_past fs = None) -> old (fs_0 fs) tr -> fs_1 fs = mkRef (Some f) t false -> tr <= t ->
  serves (fs_past (fs_set tr fs)) o /\ fs_future (fs_set tr fs) = Some f.
Proof.
  intros tr f t o fs Eo N O E L. unfold fs_set. rewrite E. unfold fs_set1 at 1 3. cbn [rf_frame rf_prev rf_tr].
  replace (t <? tr) with false by (symmetry; apply Z.ltb_ge; lia). cbn [orb fs_past fs_future]. split; [|reflexivity].
  now apply set_past_old.
Qed.

Lemma in_force_fs : forall c v fs, in_force c v -> in_force c (set_fs fs v).
Proof. intros c v fs H. exact H. Qed.
Lemma in_force_fc : forall c v n, in_force c v -> in_force c (set_fc n v).
Proof. intros c v n H. exact H. Qed.
Lemma u32_small : forall z, 0 <= z < 1025 -> u32 z = z.
Proof. intros. unfold u32. apply Z.mod_small. lia. Qed.

Lemma ref_arrives : forall c o l p cs fc v rd rest, between c o l None (p :: cs) fc v -> at_unit rest ->
  exists f v1, picture_part (v, setb rd (enc_picture p ++ flat_map enc_picture cs ++ rest)) = (Ok f, (v1, setb rd (flat_map enc_picture cs ++ rest))) /\ looks f (pi_frame p) /\
    between (ctx_items c (pi_items p)) l (Is (pi_frame p)) (Some p) cs fc v1 /\
    (exists h, v_ph v1 = Some h /\ ph_tr h = tref p).
Proof.
  intros c o l p cs fc v rd rest B A. destruct B as [F E0 EP Eo El (N1 & N2) O0 (O1 & SR) C D W].
  cbn [starts_ref] in SR. cbn [reorder] in C. rewrite SR in C. cbn [app] in C. cbn [pictures_all] in D. destruct D as (Dp & D).
  unfold older, latest in D. rewrite SR in D.
  assert (L : fc <= tref p) by (eapply cons_from_ge; [exact C | apply reorder_in; auto]).
  destruct (picture_part_run c o l p v rd (flat_map enc_picture cs ++ rest)) as (f & v1 & R & LF & F1 & Fs & Fc & Ph); auto.
  - exact (Forall_inv W).
  - eapply ref_references; eauto.
  - apply pictures_unit; auto. exact (Forall_inv_tail W).
  - exists f, v1. split; [exact R|]. split; [exact LF|]. split; [|exact Ph]. unfold store in Fs. rewrite SR in Fs. destruct (fs_set_refs (tref p) (v_fs v)) as (S0 & S1).
    constructor; auto; rewrite ?Fs; cbn [fs_add fs_0 fs_1 fs_past rf_frame]; rewrite ?S1; auto.
    + congruence.
    + exists f. auto.
    + split; [discriminate|]. intros ->. pose proof (N1 eq_refl) as EO. rewrite EO in Eo. unfold fs_set, fs_set1. cbn [serves] in *. rewrite El, Eo. now apply N2.
    + eauto.
    + exact (Forall_inv_tail W).
Qed.
Lemma b_arrives : forall c o l r p cs fc v rd rest, between c o l (Some r) (p :: cs) fc v -> is_ref p = false -> at_unit rest ->
  exists f v1, picture_part (v, setb rd (enc_picture p ++ flat_map enc_picture cs ++ rest)) = (Ok f, (v1, setb rd (flat_map enc_picture cs ++ rest))) /\ looks f (pi_frame p) /\
    between (ctx_items c (pi_items p)) o l (Some r) cs (fc + 1) (set_fc (fc + 1) v1) /\ v_fc v1 = fc /\
    (exists h, v_ph v1 = Some h /\ ph_tr h = fc).
Proof.
  intros c o l r p cs fc v rd rest B NR A. destruct B as [F E0 EP Eo El (N1 & N2) O0 (fr & O1 & Lr & Elr) C D W].
  cbn [reorder] in C. rewrite NR in C. destruct C as (Ep & LT & C). cbn [pictures_all] in D. unfold older, latest in D. rewrite NR in D. destruct D as (Dp & D).
  assert (L : fc + 1 <= tref r) by (eapply cons_from_ge; [exact C | apply reorder_in; auto]).
  assert (HP : serves (fs_past (fs_set (tref p) (v_fs v))) o /\ fs_future (fs_set (tref p) (v_fs v)) = Some fr) by (apply (held_past _ fr (tref r)); auto; [rewrite Ep; auto | lia]).
  destruct (picture_part_run c o l p v rd (flat_map enc_picture cs ++ rest)) as (f & v1 & R & LF & F1 & Fs & Fc & Ph); auto.
  - exact (Forall_inv W).
  - unfold references. cbn [set_fs v_fs]. split; [|intros _; split; [apply HP | rewrite (proj2 HP), Elr; exists fr; auto] ]. intro T. unfold is_ref in NR. rewrite T in NR. discriminate NR.
  - apply pictures_unit; auto. exact (Forall_inv_tail W).
  - exists f, v1. split; [exact R|]. split; [exact LF|]. unfold store in Fs. rewrite NR in Fs. destruct (fs_set_refs (tref p) (v_fs v)) as (S0 & S1).
    split; [|split; [congruence | now rewrite <- Ep]].
    constructor; cbn [set_fc v_fs v_fc]; auto; rewrite ?Fs, ?S0, ?S1; auto.
    + lia.
    + split; [exact N1|]. intros ->. exact (proj1 HP).
    + eapply old_le; [exact O0 | lia].
    + eauto.
    + exact (Forall_inv_tail W).
Qed.
(** Showing the held reference *)
Lemma shown_ref : forall c o l r cs fc v, between c o l (Some r) cs fc v -> starts_ref cs ->
  tref r = fc /\ between c o l None cs (fc + 1) (set_fc (u32 (v_fc v + 1)) v).
Proof.
  intros c o l r cs fc v B S. destruct B as [F E0 EP Eo El (N1 & N2) O0 (fr & O1 & Lr & Elr) C D W]. rewrite reorder_ref in C by auto. destruct C as (Er & LT & C).
  split; [exact Er|]. rewrite E0, u32_small by lia. constructor; cbn [set_fc v_fs v_fc]; auto.
  - lia.
  - eapply old_le; [exact O0 | lia].
  - split; [|exact S]. rewrite O1. right. right. cbn. lia.
Qed.

Definition rest_of (cs : list spicture) (rest : list bool) : list bool := flat_map enc_picture cs ++ rest.
(** The loop of Next when a reference has just been decoded *)
Lemma loop_ref : forall c o l p cs fc f v1 s rd rest n, looks f (pi_frame p) ->
  step s = (Ok f, (v1, setb rd (rest_of cs rest))) -> between c o l (Some p) cs fc v1 -> (exists h, v_ph v1 = Some h /\ ph_tr h = tref p) -> at_unit rest ->
  exists d ds img v' c' o' l' held' cs', reorder (Some p) cs = d :: ds /\
    next_loop (S (S n)) s = (Ok img, (v', setb rd (rest_of cs' rest))) /\ looks img (pi_frame d) /\
    between c' o' l' held' cs' (fc + 1) v' /\ reorder held' cs' = ds /\ after_pictures c' o' l' cs' = after_pictures c o l cs.
Proof.
  intros c o l p cs fc f v1 s rd rest n LF E B (h & Eh & Et) A.
  assert (SH : v_sh v1 <> None).
  { destruct (bt_force _ _ _ _ _ _ _ B) as ((h0 & -> & _) & _). discriminate. }
  remember (S n) as m. cbn [next_loop]. rewrite (bind_ok _ _ _ _ _ _ _ _ E). unfold own at 1, bind at 1. cbn [fst]. rewrite Eh. unfold deref. rewrite bind_ret. rewrite Et, (bt_fc _ _ _ _ _ _ _ B).
  assert (CC : starts_ref cs \/ exists q qs, cs = q :: qs /\ is_ref q = false).
  { destruct cs as [|q qs]; [left; exact I|]. destruct (is_ref q) eqn:Q; [left; exact Q | right; eauto]. }
  destruct CC as [SR | (q & qs & -> & Q)].
  - destruct (shown_ref _ _ _ _ _ _ _ B SR) as (Er & B'). rewrite Er, Z.eqb_refl, bind_upd. cbn [fst snd].
    exists p, (reorder None cs), f. eexists _, _, _, _, _, _. split; [now apply reorder_ref|]. split; [reflexivity|]. split; [exact LF|]. split; [exact B'|]. auto.
  - pose proof (bt_order _ _ _ _ _ _ _ B) as C. cbn [reorder] in C. rewrite Q in C. destruct C as (Eq & LT & C).
    assert (L : fc + 1 <= tref p) by (eapply cons_from_ge; [exact C | apply reorder_in; auto]).
    replace (tref p =? fc) with false by (symmetry; apply Z.eqb_neq; lia). rewrite Heqm. clear m Heqm. cbn [next_loop].
    unfold rest_of. cbn [flat_map]. rewrite <- app_assoc.
    destruct (b_arrives _ _ _ _ _ _ _ _ rd rest B Q A) as (f2 & v2 & R & LF2 & B2 & F2 & h2 & Eh2 & Et2).
    assert (ES : step (v1, setb rd (enc_picture q ++ flat_map enc_picture qs ++ rest)) = (Ok f2, (v2, setb rd (flat_map enc_picture qs ++ rest)))).
    { rewrite step_picture; [exact R|]. exact SH. }
    rewrite (bind_ok _ _ _ _ _ _ _ _ ES). unfold own at 1, bind at 1. cbn [fst]. rewrite Eh2. unfold deref. rewrite bind_ret. rewrite Et2, F2, Z.eqb_refl, bind_upd. cbn [fst snd].

    cbn [reorder]. rewrite Q. eexists q, _, f2, _, _, _, _, _, _. split; [reflexivity|]. split; [rewrite F2, u32_small by (pose proof (bt_pos _ _ _ _ _ _ _ B); lia); reflexivity|]. split; [exact LF2|]. split; [exact B2|]. split; [reflexivity|].
    cbn [after_pictures]. unfold older, latest. now rewrite Q.
Qed.

(** One call of Next in a group that has pictures left *)
Lemma next_one : forall c o l held cs fc v rd rest d ds, between c o l held cs fc v -> reorder held cs = d :: ds -> at_unit rest ->
  exists img v' c' o' l' held' cs', next (v, setb rd (rest_of cs rest)) = (Ok img, (v', setb rd (rest_of cs' rest))) /\ looks img (pi_frame d) /\
    between c' o' l' held' cs' (fc + 1) v' /\ reorder held' cs' = ds /\ after_pictures c' o' l' cs' = after_pictures c o l cs.
Proof.
  intros c o l held cs fc v rd rest d ds B E A.
  assert (SH : v_sh v <> None).
  { destruct (bt_force _ _ _ _ _ _ _ B) as ((h0 & -> & _) & _). discriminate. }
  unfold next. unfold own at 1, bind at 1. cbn [fst]. rewrite (bt_fc _ _ _ _ _ _ _ B). unfold fs_tryget. rewrite old_get by apply (bt_old _ _ _ _ _ _ _ B).
  destruct held as [r|].
  - assert (CC : starts_ref cs \/ exists q qs, cs = q :: qs /\ is_ref q = false).
    { destruct cs as [|q qs]; [left; exact I|]. destruct (is_ref q) eqn:Q; [left; exact Q | right; eauto]. }
    destruct CC as [SR | (q & qs & -> & Q)].
    + destruct (shown_ref _ _ _ _ _ _ _ B SR) as (Er & B'). rewrite reorder_ref in E by auto. injection E as <- <-.
      destruct (bt_held _ _ _ _ _ _ _ B) as (fr & HE & HL & _).
      rewrite HE. unfold ref_get. cbn [rf_frame rf_prev rf_tr negb andb]. rewrite Er, Z.eqb_refl, bind_upd. cbn [fst snd].
      eexists _, _, _, _, _, _, _. split; [reflexivity|]. split; [exact HL|]. split; [exact B'|]. auto.
    + cbn [reorder] in E. rewrite Q in E. injection E as <- <-.
      pose proof (bt_order _ _ _ _ _ _ _ B) as C. cbn [reorder] in C. rewrite Q in C. destruct C as (Eq & LT & C).
      assert (L : fc + 1 <= tref r) by (eapply cons_from_ge; [exact C | apply reorder_in; auto]).
      destruct (bt_held _ _ _ _ _ _ _ B) as (fr & HE & HL & _).
      rewrite HE. unfold ref_get. cbn [rf_frame rf_prev rf_tr negb andb].
      replace (tref r =? fc) with false by (symmetry; apply Z.eqb_neq; lia). cbv iota. cbn [next_loop].
      unfold rest_of. cbn [flat_map]. rewrite <- app_assoc.
      destruct (b_arrives _ _ _ _ _ _ _ _ rd rest B Q A) as (f2 & v2 & R & LF2 & B2 & F2 & h2 & Eh2 & Et2).
      assert (ES : step (v, setb rd (enc_picture q ++ flat_map enc_picture qs ++ rest)) = (Ok f2, (v2, setb rd (flat_map enc_picture qs ++ rest)))).
      { rewrite step_picture; [exact R|]. exact SH. }
      rewrite (bind_ok _ _ _ _ _ _ _ _ ES). unfold own at 1, bind at 1. cbn [fst]. rewrite Eh2. unfold deref. rewrite bind_ret. rewrite Et2, F2, Z.eqb_refl, bind_upd. cbn [fst snd].
      eexists _, _, _, _, _, _, _. split; [rewrite F2, u32_small by (pose proof (bt_pos _ _ _ _ _ _ _ B); lia); reflexivity|]. split; [exact LF2|]. split; [exact B2|]. split; [reflexivity|].
      cbn [after_pictures]. unfold older, latest. now rewrite Q.
  - destruct (bt_held _ _ _ _ _ _ _ B) as (O1 & SR). rewrite old_get by exact O1. destruct cs as [|p cs]; [discriminate E|].
    cbn [starts_ref] in SR. cbn [reorder] in E. rewrite SR in E. cbn [app] in E. unfold rest_of. cbn [flat_map]. rewrite <- app_assoc.
    destruct (ref_arrives _ _ _ _ _ _ _ rd rest B A) as (f & v1 & R & LF & B1 & Ph).
    assert (ES : step (v, setb rd (enc_picture p ++ flat_map enc_picture cs ++ rest)) = (Ok f, (v1, setb rd (rest_of cs rest)))).
    { rewrite step_picture; [exact R|]. exact SH. }
    assert (NE : exists m, S (length (rbits (snd (v, setb rd (enc_picture p ++ flat_map enc_picture cs ++ rest))))) = S (S m)).
    { destruct (picture_starts p (flat_map enc_picture cs ++ rest)) as (t & ->). unfold code, prefix. cbn. eauto. }
    destruct NE as (m & ->).
    destruct (loop_ref _ _ _ _ _ _ _ _ _ rd rest m LF ES B1 Ph A) as (d' & ds' & img & v' & c' & o' & l' & held' & cs' & Eo & En & LI & B' & Er & Ea).
    rewrite E in Eo. injection Eo as <- <-. exists img, v', c', o', l', held', cs'. split; [exact En|]. split; [exact LI|]. split; [exact B'|]. split; [exact Er|].
    rewrite Ea. cbn [after_pictures]. unfold older, latest. now rewrite SR.
Qed.

(** [n] calls of Next *)
Fixpoint nexts (n : nat) : V (list image) :=
  match n with
  | O => ret []
  | S n => x <- next ;; xs <- nexts n ;; ret (x :: xs)
  end.
Lemma nexts_app : forall a b s xs s1 ys s2, nexts a s = (Ok xs, s1) -> nexts b s1 = (Ok ys, s2) -> nexts (a + b) s = (Ok (xs ++ ys), s2).
Proof.
  induction a as [|a IH]; intros b s xs s1 ys s2 H1 H2.
  - cbn in H1. injection H1 as <- <-. exact H2.
  - cbn [nexts Nat.add] in *. apply bind_ok_inv in H1. destruct H1 as (x & s0 & E & H1). apply bind_ok_inv in H1. destruct H1 as (zs & s3 & E2 & H1).
    cbn in H1. injection H1 as <- <-. erewrite bind_ok by exact E. erewrite bind_ok by (eapply IH; eauto). reflexivity.
Qed.

Lemma nexts_rest : forall n c o l held cs fc v rd rest, between c o l held cs fc v -> length (reorder held cs) = n -> at_unit rest ->
  exists imgs v', nexts n (v, setb rd (rest_of cs rest)) = (Ok imgs, (v', setb rd rest)) /\ Forall2 looks imgs (map pi_frame (reorder held cs)) /\
    let '(c', o', l') := after_pictures c o l cs in between c' o' l' None [] (fc + Z.of_nat n) v'.
Proof.
  induction n as [|n IH]; intros c o l held cs fc v rd rest B L A.
  - destruct (reorder held cs) eqn:E; [|discriminate L].
    assert (held = None /\ cs = []) as (-> & ->).
    { destruct cs as [|p cs]; cbn [reorder] in E; destruct held; cbn in E; auto; try discriminate E; destruct (is_ref p) eqn:Q; try discriminate E.
      pose proof (proj2 (reorder_in cs (Some p) p) (or_introl eq_refl)) as I. rewrite E in I. destruct I. }
    exists [], v. split; [reflexivity|]. split; [constructor | replace (fc + Z.of_nat 0) with fc by lia; exact B].
  - destruct (reorder held cs) as [|d ds] eqn:E; [discriminate L|].
    destruct (next_one _ _ _ _ _ _ _ rd rest _ _ B E A) as (img & v1 & c1 & o1 & l1 & held1 & cs1 & N & LI & B1 & R1 & A1).
    cbn in L. injection L as L.
    destruct (IH _ _ _ _ _ _ _ rd rest B1) as (imgs & v2 & N2 & L2 & B2); [now rewrite R1 | exact A|].
    rewrite R1 in L2. rewrite A1 in B2. exists (img :: imgs), v2. replace (fc + Z.of_nat (S n)) with (fc + 1 + Z.of_nat n) by lia. split; [|split; [constructor; auto | exact B2] ]. cbn [nexts map]. rewrite (bind_ok _ _ _ _ _ _ _ _ N). rewrite (bind_ok _ _ _ _ _ _ _ _ N2). reflexivity.
Qed.

(** * Groups *)
Lemma cons_from_seq : forall l k n, map tref l = map Z.of_nat (seq k n) -> (forall p, In p l -> tref p < 1024) -> cons_from (Z.of_nat k) l.
Proof.
  induction l as [|p l IH]; intros k n E B; [exact I|]. destruct n; [discriminate E|]. cbn [map seq] in E. injection E as E1 E2. cbn [cons_from].
  split; [exact E1|]. split; [rewrite <- E1; apply B; now left|]. replace (Z.of_nat k + 1) with (Z.of_nat (S k)) by lia. eapply IH; [exact E2|]. intros q I. apply B. now right.
Qed.
Lemma old_prev : forall x fc, old (ref_prev x) fc.
Proof. intros. right. left. reflexivity. Qed.

Lemma group_nexts : forall g c o l v v0 rd bits rest p ps,
  gr_pics g = p :: ps -> fs_tryget (v_fc v) (v_fs v) = None -> bits <> [] ->
  step (v, setb rd bits) = picture_part (group_effect g v0, setb rd (enc_picture p ++ rest_of ps rest)) ->
  in_force c v0 -> v_fs v0 = v_fs v ->
  serves (rf_frame (fs_0 (v_fs v))) o -> serves (rf_frame (fs_1 (v_fs v))) l -> (l = Missing -> o = Missing) /\ (o = Missing -> fs_past (v_fs v) = None) ->
  wf_group g -> valid_group g -> pictures_all picture_decodes c o l (gr_pics g) -> at_unit rest ->
  exists imgs v', nexts (length (display (gr_pics g))) (v, setb rd bits) = (Ok imgs, (v', setb rd rest)) /\ Forall2 looks imgs (map pi_frame (display (gr_pics g))) /\
    let '(c', o', l') := after_pictures c o l (gr_pics g) in between c' o' l' None [] (Z.of_nat (length (display (gr_pics g)))) v'.
Proof.
  intros g c o l v v0 rd bits rest p ps EP T NB ES F Efs Eo El NN (_ & _ & _ & _ & W) (VN & p0 & ps0 & EP0 & TP) D A.
  rewrite EP in EP0. injection EP0 as <- <-.
  assert (RP : is_ref p = true) by (unfold is_ref; rewrite TP; reflexivity).
  assert (B : between c o l None (gr_pics g) 0 (group_effect g v0)).
  { constructor; auto; unfold group_effect, start_gop; cbn [set_fc set_fs set_gop v_fc v_fs fs_gop fs_0 fs_1 fs_past ref_prev rf_frame]; rewrite ?Efs; auto.
    - lia.
    - apply old_prev.
    - split; [apply old_prev | rewrite EP; exact RP].
    - apply (cons_from_seq _ 0 _ VN). intros q I. apply reorder_in in I. destruct I as [I | I]; [discriminate I|].
      rewrite Forall_forall in W. destruct (W q I) as (Wq & _). destruct Wq as (Wq & _). unfold tref. change (2 ^ 10) with 1024 in Wq. lia. }
  rewrite EP in B. destruct (ref_arrives _ _ _ _ _ _ _ rd rest B A) as (f & v1 & R & LF & B1 & Ph). unfold rest_of in ES. rewrite R in ES. fold (rest_of ps rest) in ES.
  assert (NE : exists m, S (length (rbits (snd (v, setb rd bits)))) = S (S m)).
  { cbn [snd setb rbits]. destruct bits; [congruence|]. cbn. eauto. }
  destruct NE as (m & NE).
  destruct (loop_ref _ _ _ _ _ _ _ _ _ rd rest m LF ES B1 Ph A) as (d & ds & img & v' & c' & o' & l' & held' & cs' & Eo' & En & LI & B' & Er & Ea).
  assert (E1 : display (gr_pics g) = d :: ds) by (unfold display; rewrite EP; cbn [reorder]; rewrite RP; exact Eo').
  rewrite E1. cbn [length nexts map].
  assert (N : next (v, setb rd bits) = (Ok img, (v', setb rd (rest_of cs' rest)))).
  { unfold next. unfold own at 1, bind at 1. cbn [fst]. rewrite T. rewrite NE. exact En. }
  rewrite (bind_ok _ _ _ _ _ _ _ _ N).
  destruct (nexts_rest (length ds) _ _ _ _ _ _ _ rd rest B') as (imgs & v2 & N3 & L3 & B2); [now rewrite Er | exact A|].
  rewrite Er in L3. rewrite (bind_ok _ _ _ _ _ _ _ _ N3). exists (img :: imgs), v2. replace (Z.of_nat (S (length ds))) with (0 + 1 + Z.of_nat (length ds)) by lia. split; [reflexivity|]. split; [constructor; auto|]. rewrite Ea in B2.
  rewrite EP. cbn [after_pictures]. unfold older, latest. rewrite RP. exact B2.
Qed.

Lemma between_tryget : forall c o l fc v, between c o l None [] fc v -> fs_tryget (v_fc v) (v_fs v) = None.
Proof.
  intros c o l fc v B. rewrite (bt_fc _ _ _ _ _ _ _ B). unfold fs_tryget. rewrite old_get by apply (bt_old _ _ _ _ _ _ _ B).
  apply old_get. apply (bt_held _ _ _ _ _ _ _ B).
Qed.
Definition frames_of (g : sgroup) : list canvas := map pi_frame (display (gr_pics g)).
Lemma app_nonnil : forall (a b : list bool), a <> [] -> a ++ b <> [].
Proof. intros [|x a] b H; [congruence|]. discriminate. Qed.
Lemma group_bits_nonnil : forall g l, group_bits g l <> [].
Proof. intros. unfold group_bits, stuffed, enc_gop, code, prefix. discriminate. Qed.
Lemma start_nonnil : forall s l, enc_start s ++ l <> [].
Proof. intros s l. destruct (start_starts s l) as (t & ->). unfold code, prefix. discriminate. Qed.

Lemma groups_nexts : forall gs c o l fc v rd rest, between c o l None [] fc v -> Forall wf_group gs -> Forall valid_group gs -> groups_all picture_decodes (Some c) o l gs -> at_unit rest ->
  exists imgs v' c' o' l' fc', nexts (length (flat_map frames_of gs)) (v, setb rd (flat_map enc_group gs ++ rest)) = (Ok imgs, (v', setb rd rest)) /\ Forall2 looks imgs (flat_map frames_of gs) /\
    between c' o' l' None [] fc' v' /\ forall gs', groups_all picture_decodes (Some c) o l (gs ++ gs') -> groups_all picture_decodes (Some c') o' l' gs'.
Proof.
  induction gs as [|g gs IH]; intros c o l fc v rd rest B W V D A.
  - eexists [], _, _, _, _, _. split; [reflexivity|]. split; [constructor|]. split; [exact B | auto].
  - pose proof (Forall_inv W) as Wg. pose proof (Forall_inv_tail W) as Wt. pose proof (Forall_inv V) as Vg. pose proof (Forall_inv_tail V) as Vt.
    pose proof Vg as (_ & p & ps & EP & _). pose proof Wg as (_ & _ & _ & _ & WP).
    assert (A1 : at_unit (flat_map enc_group gs ++ rest)) by (now apply groups_unit).
    assert (A2 : at_code (enc_picture p ++ rest_of ps (flat_map enc_group gs ++ rest))).
    { unfold rest_of. rewrite app_assoc. change (enc_picture p ++ flat_map enc_picture ps) with (flat_map enc_picture (p :: ps)). rewrite <- EP. apply pictures_at; [exact WP | now apply unit_at_code]. }
    assert (SH : v_sh v <> None).
    { destruct (bt_force _ _ _ _ _ _ _ B) as ((h0 & -> & _) & _). discriminate. }
    assert (EB : flat_map enc_group (g :: gs) ++ rest = match gr_start g with Some s => enc_start s | None => [] end ++ group_bits g (enc_picture p ++ rest_of ps (flat_map enc_group gs ++ rest))).
    { cbn [flat_map]. unfold enc_group at 1, group_bits, rest_of. rewrite EP. cbn [flat_map]. now rewrite <- !app_assoc. }
    cbn [groups_all] in D.
    assert (G : exists c0 v0, match gr_start g with Some s => Some (ctx_start s) | None => Some c end = Some c0 /\ in_force c0 v0 /\ v_fs v0 = v_fs v /\
       step (v, setb rd (flat_map enc_group (g :: gs) ++ rest)) = picture_part (group_effect g v0, setb rd (enc_picture p ++ rest_of ps (flat_map enc_group gs ++ rest)))).
    { rewrite EB. destruct (gr_start g) as [s|] eqn:S.
      - destruct (step_start_group s g p _ v rd Wg S A2 SH) as (v0 & E & F & Fs). exists (ctx_start s), v0. auto.
      - exists c, v. split; [reflexivity|]. split; [apply (bt_force _ _ _ _ _ _ _ B)|]. split; [reflexivity|]. cbn [app]. now apply step_group. }
    destruct G as (c0 & v0 & Ec & F & Fs & ES). cbn [app groups_all]. rewrite Ec in *. destruct D as (Dp & D).
    destruct (group_nexts g c0 o l v v0 rd (flat_map enc_group (g :: gs) ++ rest) (flat_map enc_group gs ++ rest) p ps EP (between_tryget _ _ _ _ _ B)) as (imgs & v1 & N & L1 & B1); auto.
    + rewrite EB. destruct (gr_start g); [apply start_nonnil | apply group_bits_nonnil].
    + exact (bt_o _ _ _ _ _ _ _ B).
    + exact (bt_l _ _ _ _ _ _ _ B).
    + exact (bt_none _ _ _ _ _ _ _ B).
    + destruct (after_pictures c0 o l (gr_pics g)) as ((c1 & o1) & l1).
      destruct (IH _ _ _ _ _ rd rest B1 Wt Vt D A) as (imgs2 & v2 & c2 & o2 & l2 & fc2 & N2 & L2 & B2 & K2).
      exists (imgs ++ imgs2), v2, c2, o2, l2, fc2. split; [|split; [now apply Forall2_app | split; [exact B2 | intros gs' (_ & K); exact (K2 _ K)] ] ]. change (flat_map frames_of (g :: gs)) with (frames_of g ++ flat_map frames_of gs).
      rewrite app_length. unfold frames_of at 1. rewrite map_length. eapply nexts_app; [exact N | exact N2].
Qed.

Lemma next_end : forall c o l fc v rd t, between c o l None [] fc v -> next (v, setb rd (code sequence_end_code ++ t)) = (Err EOS, (v, setb rd t)).
Proof.
  intros c o l fc v rd t B. unfold next. unfold own at 1, bind at 1. cbn [fst]. rewrite (between_tryget _ _ _ _ _ B). cbn [next_loop].
  destruct (bt_force _ _ _ _ _ _ _ B) as ((h0 & Eh & _) & _).
  assert (ES : step (v, setb rd (code sequence_end_code ++ t)) = (Err EOS, (v, setb rd t))).
  { unfold step. unfold own at 1, bind at 1. cbn [fst]. rewrite Eh.
    erewrite bind_onr_ok by (apply peek_code; unfold sequence_end_code; lia).
    change ((256 + sequence_end_code =? PictureStartCode) || (256 + sequence_end_code =? GroupStartCode)) with false. cbv iota.
    erewrite bind_onr_ok by (apply peek_code; unfold sequence_end_code; lia). change (256 + sequence_end_code =? SequenceEndStartCode) with true. cbv iota.
    erewrite bind_onr_ok by (apply skip_app; reflexivity). reflexivity. }
  unfold bind. now rewrite ES.
Qed.

Lemma shown_frames : forall gs, shown gs = flat_map frames_of gs.
Proof. induction gs as [|g gs IH]; [reflexivity|]. unfold shown in *. cbn [flat_map]. rewrite map_app, IH. reflexivity. Qed.
(** A sequence from any state of the decoder in which no frame is kept for the next call; [k] zero bytes before it only
    when there is no sequence header yet *)
Lemma sequence_from_refs : forall o l v k g gs rd rest, serves (rf_frame (fs_0 (v_fs v))) o -> serves (rf_frame (fs_1 (v_fs v))) l ->
  (l = Missing -> o = Missing) /\ (o = Missing -> fs_past (v_fs v) = None) -> fs_tryget (v_fc v) (v_fs v) = None -> (v_sh v <> None -> k = 0%nat) -> Forall wf_group (g :: gs) -> Forall valid_group (g :: gs) -> groups_all picture_decodes None o l (g :: gs) -> at_unit rest ->
  exists imgs v' c' o' l' fc', nexts (length (shown (g :: gs))) (v, setb rd (bb (repeat 0 k) ++ flat_map enc_group (g :: gs) ++ rest)) = (Ok imgs, (v', setb rd rest)) /\
    Forall2 looks imgs (shown (g :: gs)) /\
    between c' o' l' None [] fc' v' /\ forall gs', groups_all picture_decodes None o l ((g :: gs) ++ gs') -> groups_all picture_decodes (Some c') o' l' gs'.
Proof.
  intros o l v k g gs rd rest So Sl NN TG K0 W V D A.
  pose proof (Forall_inv W) as Wg. pose proof (Forall_inv_tail W) as Wt. pose proof (Forall_inv V) as Vg. pose proof (Forall_inv_tail V) as Vt.
  pose proof Vg as (_ & p & ps & EP & _). pose proof Wg as (_ & _ & _ & _ & WP).
  assert (A1 : at_unit (flat_map enc_group gs ++ rest)) by (apply groups_unit; auto).
  assert (A2 : at_code (enc_picture p ++ rest_of ps (flat_map enc_group gs ++ rest))).
  { unfold rest_of. rewrite app_assoc. change (enc_picture p ++ flat_map enc_picture ps) with (flat_map enc_picture (p :: ps)). rewrite <- EP. apply pictures_at; [exact WP | now apply unit_at_code]. }
  cbn [app groups_all] in D |- *. destruct (gr_start g) as [s|] eqn:S; [|contradiction]. destruct D as (Dp & D).
  assert (EB : bb (repeat 0 k) ++ flat_map enc_group (g :: gs) ++ rest =
    bb (repeat 0 k) ++ enc_start s ++ group_bits g (enc_picture p ++ rest_of ps (flat_map enc_group gs ++ rest))).
  { cbn [flat_map]. unfold enc_group at 1, group_bits, rest_of. rewrite EP, S. cbn [flat_map]. now rewrite <- !app_assoc. }
  assert (ES : exists v0, step (v, setb rd (bb (repeat 0 k) ++ enc_start s ++ group_bits g (enc_picture p ++ rest_of ps (flat_map enc_group gs ++ rest)))) =
      picture_part (group_effect g v0, setb rd (enc_picture p ++ rest_of ps (flat_map enc_group gs ++ rest))) /\ in_force (ctx_start s) v0 /\ v_fs v0 = v_fs v).
  { destruct (v_sh v) as [h|] eqn:SH.
    - rewrite K0 by discriminate. cbn [repeat bb flat_map app]. apply step_start_group; auto. congruence.
    - now apply step_first_group. }
  destruct ES as (v0 & ES & F & Fs).
  destruct (group_nexts g (ctx_start s) o l v v0 rd (bb (repeat 0 k) ++ flat_map enc_group (g :: gs) ++ rest)
    (flat_map enc_group gs ++ rest) p ps EP TG) as (imgs & v1 & N & L1 & B1); auto.
  - rewrite EB. intro Z. apply app_eq_nil in Z. destruct Z as (_ & Z). now apply start_nonnil in Z.
  - rewrite EB. exact ES.
  - destruct (after_pictures (ctx_start s) o l (gr_pics g)) as ((c1 & o1) & l1).
    destruct (groups_nexts gs _ _ _ _ _ rd rest B1 Wt Vt D A) as (imgs2 & v2 & c2 & o2 & l2 & fc2 & N2 & L2 & B2 & K2).
    exists (imgs ++ imgs2), v2, c2, o2, l2, fc2.
    assert (SE : shown (g :: gs) = frames_of g ++ flat_map frames_of gs) by apply shown_frames.
    split; [|split; [rewrite SE; now apply Forall2_app | split; [exact B2 | intros gs' (_ & K); exact (K2 _ K)] ] ].
    rewrite SE, app_length. unfold frames_of at 1. rewrite map_length. eapply nexts_app; [exact N | exact N2].
Qed.
Lemma sequence_from : forall v k g gs rd rest, fs_tryget (v_fc v) (v_fs v) = None -> (v_sh v <> None -> k = 0%nat) -> valid_sequence (g :: gs) -> at_unit rest ->
  exists imgs v' c' o' l' fc', nexts (length (shown (g :: gs))) (v, setb rd (bb (repeat 0 k) ++ flat_map enc_group (g :: gs) ++ rest)) = (Ok imgs, (v', setb rd rest)) /\
    Forall2 looks imgs (shown (g :: gs)) /\
    between c' o' l' None [] fc' v' /\ forall gs', groups_all picture_decodes None Unknown Unknown ((g :: gs) ++ gs') -> groups_all picture_decodes (Some c') o' l' gs'.
Proof.
  intros v k g gs rd rest TG K0 (W & V & D) A. apply sequence_from_refs; auto; try exact I. split; discriminate.
Qed.
Lemma sequence_rest : forall k g gs rd rest, valid_sequence (g :: gs) -> at_unit rest ->
  exists imgs v' c' o' l' fc', nexts (length (shown (g :: gs))) (new_vidseq, setb rd (bb (repeat 0 k) ++ flat_map enc_group (g :: gs) ++ rest)) = (Ok imgs, (v', setb rd rest)) /\
    Forall2 looks imgs (shown (g :: gs)) /\
    between c' o' l' None [] fc' v' /\ forall gs', groups_all picture_decodes None Unknown Unknown ((g :: gs) ++ gs') -> groups_all picture_decodes (Some c') o' l' gs'.
Proof. intros k g gs rd rest V A. apply sequence_from; auto. intro H. now destruct H. Qed.
Lemma sequence_nexts : forall k g gs rd, valid_sequence (g :: gs) ->
  exists imgs v', nexts (length (shown (g :: gs))) (new_vidseq, setb rd (enc_sequence k (g :: gs))) = (Ok imgs, (v', setb rd (code sequence_end_code))) /\
    Forall2 looks imgs (shown (g :: gs)) /\
    next (v', setb rd (code sequence_end_code)) = (Err EOS, (v', setb rd [])).
Proof.
  intros k g gs rd V. destruct (sequence_rest k g gs rd _ V end_unit) as (imgs & v & c & o & l & fc & N & L & B & _).
  exists imgs, v. split; [exact N|]. split; [exact L|]. rewrite <- (app_nil_r (code sequence_end_code)). eapply next_end. exact B.
Qed.
