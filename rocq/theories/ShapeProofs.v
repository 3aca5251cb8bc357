(** ShapeProofs: decoding macroblocks, slices and pictures never changes the size of the frame - for every
    input, well-formed or not. *)
From Verif Require Import Base BitReader Exec TsRobust VidModel BlockModel VlcTables MbModel.

Definition shape (f : image) : Z * Z * Z * Z * (Z * Z * Z) :=
  (im_w f, im_h f, im_ys f, im_cs f, (pl_len (im_y f), pl_len (im_cb f), pl_len (im_cr f))).

(** * Functions that do not look at the state *)
Lemma pl_write_len : forall S p off di src (s : S) p' s', pl_write p off di src s = (Ok p', s') -> s' = s /\ pl_len p' = pl_len p.
Proof. intros S p off di src s p' s' H. unfold pl_write in H. destruct (_ && _); inversion H; subst. auto. Qed.
Lemma write_rows_len : forall S rows p off base stride y (s : S) p' s', write_rows p off base stride y rows s = (Ok p', s') -> s' = s /\ pl_len p' = pl_len p.
Proof.
  induction rows as [|row rows IH]; intros p off base stride y s p' s' H; cbn [write_rows] in H.
  - inversion H; subst. auto.
  - apply bind_ok_inv in H. destruct H as (p1 & s1 & E & H). apply pl_write_len in E. destruct E as (-> & E). apply IH in H. destruct H as (-> & H). split; congruence.
Qed.
Lemma shape_set : forall f i p, pl_len p = pl_len (channel f i) -> shape (set_channel f i p) = shape f.
Proof.
  intros f i p H. unfold set_channel, channel, shape in *.
  destruct (i <? 4); [cbn [im_w im_h im_ys im_cs im_y im_cb im_cr]; now rewrite H|].
  destruct (i =? 4); [cbn [im_w im_h im_ys im_cs im_y im_cb im_cr]; now rewrite H|].
  destruct (i =? 5); [cbn [im_w im_h im_ys im_cs im_y im_cb im_cr]; now rewrite H|]. reflexivity.
Qed.
Lemma update_shape : forall S row i addr il f cb (s : S) f' s', update_frame_slice row i addr il f cb s = (Ok f', s') -> s' = s /\ shape f' = shape f.
Proof.
  intros S row i addr il f cb s f' s' H. unfold update_frame_slice in H. destruct (slice_pos _ _ _ _) as [base stride].
  apply bind_ok_inv in H. destruct H as (p & s1 & E & H). apply write_rows_len in E. destruct E as (-> & E). inversion H; subst. auto using shape_set.
Qed.
Lemma pl_get_state : forall S p i (s : S) a s', pl_get p i s = (Ok a, s') -> s' = s.
Proof. intros S p i s a s' H. unfold pl_get in H. destruct (_ && _); now inversion H. Qed.
Lemma mc_pel_state : forall S f i row col h v y x (s : S) a s', mc_pel f i row col h v y x s = (Ok a, s') -> s' = s.
Proof.
  intros S f i row col h v y x s a s' H. unfold mc_pel in H. destruct (if _ || _ then _ else _) as [h' v']. unfold mc_sample in H.
  repeat match type of H with (if ?b then _ else _) _ = _ => destruct b end;
  repeat match goal with
  | H : bind _ _ _ = _ |- _ => apply bind_ok_inv in H; destruct H as (? & ? & ? & ?)
  | H : pl_get _ _ _ = _ |- _ => apply pl_get_state in H; subst
  | H : ret _ _ = _ |- _ => inversion H; subst; clear H
  end; reflexivity.
Qed.
Lemma mapM_state : forall S A B (f : A -> M S B) l (s : S) a s', (forall x s a s', f x s = (Ok a, s') -> s' = s) -> mapM f l s = (Ok a, s') -> s' = s.
Proof.
  induction l as [|x l IH]; intros s a s' Hf H; cbn [mapM] in H; [now inversion H|].
  apply bind_ok_inv in H. destruct H as (y & s1 & E & H). apply Hf in E. subst s1.
  apply bind_ok_inv in H. destruct H as (ys & s1 & E & H). apply IH in E; [|assumption]. subst s1. now inversion H.
Qed.
Lemma mc_state : forall S m i row col fs b (s : S) a s', motion_compensation m i row col fs b s = (Ok a, s') -> s' = s.
Proof.
  intros S m i row col fs b s a s' H. unfold motion_compensation in H. apply mapM_state in H; [assumption|].
  clear. intros k s a s' H. apply bind_ok_inv in H. destruct H as (pf & s1 & E & H).
  assert (s1 = s). { destruct (mc_ref (mv_fwd m) (fs_past fs)); [|now inversion E]. apply bind_ok_inv in E. destruct E as (x & s2 & E & E'). apply mc_pel_state in E. subst. now inversion E'. }
  subst s1. clear E. apply bind_ok_inv in H. destruct H as (pb & s1 & E & H).
  assert (s1 = s). { destruct (mc_ref (mv_bwd m) (fs_future fs)); [|now inversion E]. apply bind_ok_inv in E. destruct E as (x & s2 & E & E'). apply mc_pel_state in E. subst. now inversion E'. }
  subst s1. now inversion H.
Qed.
Lemma put_block_shape : forall S m fs row col i il b f (s : S) bf s', put_block m fs row col i il b f s = (Ok bf, s') -> s' = s /\ shape (snd bf) = shape f.
Proof.
  intros S m fs row col i il b f s bf s' H. unfold put_block in H. apply bind_ok_inv in H. destruct H as (b' & s1 & E & H). apply mc_state in E. subst s1.
  apply bind_ok_inv in H. destruct H as (f' & s1 & E & H). apply update_shape in E. destruct E as (-> & E). inversion H; subst. auto.
Qed.
Lemma bframe_blocks_shape : forall S m fs row col is f (s : S) f' s', bframe_blocks m fs row col is f s = (Ok f', s') -> s' = s /\ shape f' = shape f.
Proof.
  induction is as [|i is IH]; intros f s f' s' H; cbn [bframe_blocks] in H; [inversion H; subst; auto|].
  apply bind_ok_inv in H. destruct H as (bf & s1 & E & H). apply put_block_shape in E. destruct E as (-> & E). apply IH in H. destruct H as (-> & H). split; congruence.
Qed.
Lemma bframe_shape : forall S n m fs row col f (s : S) f' s', bframe_copy_macroblocks n m fs row col f s = (Ok f', s') -> s' = s /\ shape f' = shape f.
Proof.
  induction n as [|n IH]; intros m fs row col f s f' s' H; cbn [bframe_copy_macroblocks] in H; [inversion H; subst; auto|].
  apply bind_ok_inv in H. destruct H as (f1 & s1 & E & H). apply bframe_blocks_shape in E. destruct E as (-> & E). apply IH in H. destruct H as (-> & H). split; congruence.
Qed.
Lemma copy_lines_len : forall S n v src dst off so ss ds x w (s : S) p s', copy_lines n v src dst off so ss ds x w s = (Ok p, s') -> s' = s /\ pl_len p = pl_len dst.
Proof.
  induction n as [|n IH]; intros v src dst off so ss ds x w s p s' H; cbn [copy_lines] in H; [inversion H; subst; auto|].
  apply bind_ok_inv in H. destruct H as (l & s1 & E & H). unfold pl_slice in E. destruct (_ && _ && _); inversion E; subst. clear E.
  apply bind_ok_inv in H. destruct H as (d & s2 & E & H). apply pl_write_len in E. destruct E as (-> & E). apply IH in H. destruct H as (-> & H). split; congruence.
Qed.
Lemma pframe_shape : forall S row col n dest src (s : S) f s', pframe_copy_macroblocks row col n dest src s = (Ok f, s') -> s' = s /\ shape f = shape dest.
Proof.
  intros S row col n dest src s f s' H. unfold pframe_copy_macroblocks in H.
  apply bind_ok_inv in H. destruct H as (y & s1 & E & H). apply copy_lines_len in E. destruct E as (-> & Ey).
  apply bind_ok_inv in H. destruct H as (cb & s1 & E & H). apply copy_lines_len in E. destruct E as (-> & Eb).
  apply bind_ok_inv in H. destruct H as (cr & s1 & E & H). apply copy_lines_len in E. destruct E as (-> & Er).
  inversion H; subst. unfold shape. cbn [im_w im_h im_ys im_cs im_y im_cb im_cr]. now rewrite Ey, Eb, Er.
Qed.

(** * Functions on the state *)
Definition same {A} (m : MB A) : Prop := forall s a s', m s = (Ok a, s') -> shape (ms_frame (fst s')) = shape (ms_frame (fst s)).
Lemma same_bind : forall A B (m : MB A) (k : A -> MB B), same m -> (forall a, same (k a)) -> same (bind m k).
Proof. intros A B m k Hm Hk s b s' H. apply bind_ok_inv in H. destruct H as (a & s1 & E & H). apply Hm in E. apply Hk in H. congruence. Qed.
Lemma same_onr : forall A (m : M reader A), same (onr m).
Proof. intros A m [x r] a s' H. unfold onr in H. cbn [fst snd] in H. destruct (m r) as [[] ?]; inversion H; reflexivity. Qed.
Lemma same_ret : forall A (a : A), same (ret a).
Proof. intros A a s b s' H. now inversion H. Qed.
Lemma same_panic : forall A, same (panic : MB A).
Proof. intros A s b s' H. inversion H. Qed.
Lemma same_fail : forall A e, same (fail e : MB A).
Proof. intros A e s b s' H. inversion H. Qed.
Lemma same_nofuel : forall A, same (nofuel : MB A).
Proof. intros A s b s' H. inversion H. Qed.
Lemma same_own : same own.
Proof. intros s b s' H. inversion H. reflexivity. Qed.
Lemma same_deref : forall A (o : option A), same (deref o).
Proof. intros A [a|] s b s' H; inversion H. reflexivity. Qed.
Lemma same_upd : forall f, (forall m, shape (ms_frame (f m)) = shape (ms_frame m)) -> same (upd f).
Proof. intros f Hf [x r] a s' H. inversion H; subst. apply Hf. Qed.
Lemma same_when : forall b m, same m -> same (when b m).
Proof. intros [] m H; [exact H | apply same_ret]. Qed.
Ltac hold := repeat match goal with
  | |- same (bind _ _) => apply same_bind; [|intro]
  | |- same (onr _) => apply same_onr
  | |- same (ret _) => apply same_ret
  | |- same panic => apply same_panic
  | |- same (fail _) => apply same_fail
  | |- same nofuel => apply same_nofuel
  | |- same own => apply same_own
  | |- same (deref _) => apply same_deref
  | |- same (when _ _) => apply same_when
  | |- same (upd _) => apply same_upd; intro; reflexivity
  | |- same (if ?b then _ else _) => destruct b
  | |- same (let _ := _ in _) => cbv zeta
  | |- same reset_mv => unfold reset_mv
  | |- same (reset_dc _) => unfold reset_dc
  end.

Lemma same_part : forall e field dmv r s t, same (motion_vector_part e field dmv r s t).
Proof. intros. unfold motion_vector_part. hold. Qed.
Lemma same_mv : forall e field dmv r s, same (motion_vector e field dmv r s).
Proof. intros. unfold motion_vector. hold; apply same_part. Qed.
Lemma mv_info_state : forall S e mb (s : S) a s', mv_info e mb s = (Ok a, s') -> s' = s.
Proof.
  intros S e mb s a s' H. unfold mv_info in H.
  repeat match type of H with (if ?b then _ else _) _ = _ => destruct b end; now inversion H.
Qed.
Lemma same_vectors : forall e mb s, same (motion_vectors e mb s).
Proof.
  intros. unfold motion_vectors. apply same_bind.
  - intros x a x' H. apply mv_info_state in H. now subst.
  - intros [[count field] dmv]. hold; apply same_mv.
Qed.
Lemma same_read : forall ivf cc intra b, same (mb_block_read ivf cc intra b).
Proof. intros ivf cc intra b [x r] a s' H. unfold mb_block_read in H. cbn [fst snd] in H. destruct (block_read _ _ _ _) as [[] [bs r']]; inversion H; reflexivity. Qed.
Lemma same_blocks : forall v e se mb row addr coded i b, same (mb_blocks v e se mb row addr i coded b).
Proof.
  induction coded as [|c coded IH]; intros i b; cbn [mb_blocks]; [apply same_ret|].
  apply same_bind. { destruct c; hold. apply same_read. }
  intros b' s a s' H. apply bind_ok_inv in H. destruct H as (m & s1 & E & H). injection E as <- <-.
  apply bind_ok_inv in H. destruct H as (bf & s1 & E & H). apply put_block_shape in E. destruct E as (-> & E).
  rewrite (surjective_pairing s) in H. rewrite bind_upd in H. apply IH in H. cbn [fst] in H. rewrite H. exact E.
Qed.
Lemma same_skipped : forall v pct row addr incr, same (copy_skipped v pct row addr incr).
Proof.
  intros. unfold copy_skipped. destruct (_ && _); [|apply same_ret]. destruct (pct =? PFrame); [|destruct (pct =? BFrame); [|apply same_ret]].
  - apply same_bind; [apply same_deref|]. intros past s a s' H. apply bind_ok_inv in H. destruct H as (m & s1 & E & H). injection E as <- <-.
    apply bind_ok_inv in H. destruct H as (f & s1 & E & H). apply pframe_shape in E. destruct E as (-> & E). destruct s as [x r]. inversion H; subst. exact E.
  - intros s a s' H. apply bind_ok_inv in H. destruct H as (m & s1 & E & H). injection E as <- <-.
    apply bind_ok_inv in H. destruct H as (f & s1 & E & H). apply bframe_shape in E. destruct E as (-> & E). destruct s as [x r]. inversion H; subst. exact E.
Qed.
Lemma same_macroblock : forall v row addr, same (macroblock v row addr).
Proof.
  intros. unfold macroblock. cbv zeta. hold; auto using same_skipped, same_vectors.
  - intros s x s' H. unfold ignore_err in H. destruct s as [m r]. unfold bind, onr in H. cbn [fst snd] in H. destruct (coded_block_pattern _ r) as [[] ?]; inversion H; reflexivity.
  - match goal with |- same (match ?x with _ => _ end) => destruct x end; hold; [|apply same_blocks].
    intros s x s' H. unfold pattern_code in H. destruct (_ && _); now inversion H.
Qed.
Lemma same_loop : forall fuel v row addr, same (slice_loop fuel v row addr).
Proof. induction fuel as [|n IH]; intros; cbn [slice_loop]; hold; auto using same_macroblock. Qed.
Lemma slice_shape : forall v f r f' r', slice v f r = (Ok f', r') -> shape f' = shape f.
Proof.
  intros v f r f' r' H. unfold slice in H. destruct (bind _ _ r) as [[[[e row] q]|er| |] r1]; try discriminate.
  destruct (slice_loop _ _ _ _ _) as [[[]|er| |] [m r2]] eqn:E; try discriminate. apply same_loop in E. cbn [fst ms_frame] in E.
  apply bind_ok_inv in H. destruct H as ([] & r3 & _ & H). inversion H; subst. exact E.
Qed.
Lemma slices_shape : forall fuel v f r f' r', slices fuel v f r = (Ok f', r') -> shape f' = shape f.
Proof.
  induction fuel as [|n IH]; intros v f r f' r' H; cbn [slices] in H; [discriminate|].
  apply bind_ok_inv in H. destruct H as (f1 & r1 & E & H). apply slice_shape in E. apply bind_ok_inv in H. destruct H as (nb & r2 & _ & H).
  destruct (is_slice nb); [apply IH in H; congruence | inversion H; subst; exact E].
Qed.
Lemma picture_shape : forall v r f r', picture_data v r = (Ok f, r') ->
  exists se, v_se v = Some se /\ shape f = shape (create_frame_buffer (fst (size v)) (snd (size v)) (se_chroma se)).
Proof.
  intros v r f r' H. unfold picture_data in H. destruct (size v) as [w h]. cbn [fst snd].
  apply bind_ok_inv in H. destruct H as (se & r1 & E & H). destruct (v_se v) as [se'|]; [|discriminate]. injection E as <- <-.
  apply bind_ok_inv in H. destruct H as (f1 & r1 & E & H). apply slices_shape in E. apply bind_ok_inv in H. destruct H as ([] & r2 & _ & H). inversion H; subst. eauto.
Qed.


(** * Steps *)
Lemma more_frames_decoded : forall s img v' r', more_frames s = (Ok img, (v', r')) ->
  exists v2 r2 r3, picture_data v2 r2 = (Ok img, r3) /\ size v2 = size v' /\ v_se v2 = v_se v' /\ v_ph v2 = v_ph v' /\ v_pce v2 = v_pce v'.
Proof.
  intros s img v' r' H. unfold more_frames in H.
  do 5 (apply bind_ok_inv in H; destruct H as (? & ? & _ & H)).
  apply bind_ok_inv in H. destruct H as (v0 & [v1 r1] & _ & H).
  apply bind_ok_inv in H. destruct H as (ph & [v3 r3] & _ & H). rewrite bind_upd in H.
  apply bind_ok_inv in H. destruct H as (v4 & [v5 r5] & E & H). inversion E; subst. clear E.
  apply bind_ok_inv in H. destruct H as (f & [v6 r6] & E & H).
  unfold onr in E. cbn [fst snd] in E. destruct (picture_data _ r5) as [[f0|er| |] r7] eqn:EP; inversion E; subst. clear E.
  apply bind_ok_inv in H. destruct H as ([] & [v8 r8] & E & H). inversion H; subst. clear H.
  destruct (_ || _); inversion E; subst; do 3 eexists; (split; [exact EP|]); repeat split; reflexivity.
Qed.
Lemma step_decoded : forall s img v' r', step s = (Ok img, (v', r')) ->
  exists v2 r2 r3, picture_data v2 r2 = (Ok img, r3) /\ size v2 = size v' /\ v_se v2 = v_se v' /\ v_ph v2 = v_ph v' /\ v_pce v2 = v_pce v'.
Proof.
  intros s img v' r' H. unfold step in H. apply bind_ok_inv in H. destruct H as (v & s1 & _ & H). destruct (v_sh v).
  - apply bind_ok_inv in H. destruct H as (nb & s2 & _ & H). destruct (_ || _); [now apply more_frames_decoded in H|].
    apply bind_ok_inv in H. destruct H as (nb2 & s3 & _ & H). destruct (nb2 =? _); [apply bind_ok_inv in H; destruct H as (? & ? & _ & H); discriminate|].
    do 2 (apply bind_ok_inv in H; destruct H as (? & ? & _ & H)). unfold continue_frames in H. apply bind_ok_inv in H. destruct H as (? & ? & _ & H).
    now apply more_frames_decoded in H.
  - do 3 (apply bind_ok_inv in H; destruct H as (? & ? & _ & H)). destruct (negb _); [discriminate|].
    apply bind_ok_inv in H. destruct H as (? & ? & _ & H). unfold continue_frames in H. apply bind_ok_inv in H. destruct H as (? & ? & _ & H).
    now apply more_frames_decoded in H.
Qed.
