(** SampleProofs: every sample of every frame is in 0..255 - for every input, well-formed or not. *)
From Coq Require Import Lia.
From Verif Require Import Base BitReader Exec TsRobust VidModel BlockModel VlcTables MbModel ShapeProofs StoreProofs NextProofs.

Definition byte (x : Z) : Prop := 0 <= x <= 255.
Definition byte_plane (p : plane) : Prop := forall k, byte (pl_at p k).
Definition byte_frame (f : image) : Prop := byte_plane (im_y f) /\ byte_plane (im_cb f) /\ byte_plane (im_cr f).
Definition byte_store (fs : framestore) : Prop :=
  forall f, rf_frame (fs_0 fs) = Some f \/ rf_frame (fs_1 fs) = Some f \/ fs_past fs = Some f \/ fs_future fs = Some f -> byte_frame f.

(** * Writing *)
Lemma write_byte : forall S p off di src (s : S) p' s', Forall byte src -> byte_plane p -> pl_write p off di src s = (Ok p', s') -> byte_plane p'.
Proof.
  intros S p off di src s p' s' F B H. unfold pl_write in H. destruct (_ && _); inversion H; subst. intro k. cbn [pl_at]. destruct (_ && _); [|apply B].
  destruct (nth_in_or_default (Z.to_nat (k - (off + di))) src 0) as [X| ->]; [rewrite Forall_forall in F; exact (F _ X) | unfold byte; lia].
Qed.
Lemma rows_byte : forall S rows p off base stride y (s : S) p' s', Forall (Forall byte) rows -> byte_plane p -> write_rows p off base stride y rows s = (Ok p', s') -> byte_plane p'.
Proof.
  induction rows as [|row rows IH]; intros p off base stride y s p' s' F B H; cbn [write_rows] in H; [now inversion H; subst|]. inversion F; subst.
  apply bind_ok_inv in H. destruct H as (p1 & s1 & E & H). apply write_byte in E; auto. eapply IH; eauto.
Qed.
Lemma clamp_bytes : forall b, Forall byte (block_clamp b).
Proof.
  intro b. unfold block_clamp. apply Forall_forall. intros x H. apply in_map_iff in H. destruct H as (y & <- & _). unfold clamp1, byte, u8. destruct (Z.gtb_spec y 255); [lia|]. destruct (Z.ltb_spec y 0); [lia|]. pose proof (Z.mod_pos_bound y 256). lia.
Qed.
Lemma rows8_bytes : forall b, Forall byte b -> Forall (Forall byte) (rows8 b).
Proof.
  intros b F. unfold rows8. apply Forall_forall. intros l H. apply in_map_iff in H. destruct H as (y & <- & _). apply Forall_forall. intros x H. rewrite Forall_forall in F. apply F.
  rewrite <- (firstn_skipn (8 * y) b). apply in_or_app. right. rewrite <- (firstn_skipn 8 (skipn (8 * y) b)). apply in_or_app. now left.
Qed.
Lemma channel_byte : forall f i, byte_frame f -> byte_plane (channel f i).
Proof. intros f i (A & B & C). unfold channel. destruct (i <? 4); [exact A|]. destruct (i =? 4); [exact B|]. destruct (i =? 5); [exact C|]. intro k. cbn. unfold byte. lia. Qed.
Lemma set_byte : forall f i p, byte_frame f -> byte_plane p -> byte_frame (set_channel f i p).
Proof. intros f i p (A & B & C) H. unfold set_channel. destruct (i <? 4); [exact (conj H (conj B C))|]. destruct (i =? 4); [exact (conj A (conj H C))|]. destruct (i =? 5); [exact (conj A (conj B H)) | exact (conj A (conj B C))]. Qed.
Lemma put_block_byte : forall S m fs row col i il b f (s : S) bf s', byte_frame f -> put_block m fs row col i il b f s = (Ok bf, s') -> byte_frame (snd bf).
Proof.
  intros S m fs row col i il b f s bf s' B H. unfold put_block in H. apply bind_ok_inv in H. destruct H as (b' & s1 & _ & H). apply bind_ok_inv in H. destruct H as (f' & s2 & E & H). inversion H; subst. cbn [snd]. clear H.
  unfold update_frame_slice in E. destruct (slice_pos _ _ _ _) as [base stride]. apply bind_ok_inv in E. destruct E as (p & s3 & E & H). inversion H; subst. apply rows_byte in E; [now apply set_byte | apply rows8_bytes, clamp_bytes | now apply channel_byte].
Qed.
Lemma bframe_blocks_byte : forall S m fs row col is f (s : S) f' s', byte_frame f -> bframe_blocks m fs row col is f s = (Ok f', s') -> byte_frame f'.
Proof.
  induction is as [|i is IH]; intros f s f' s' B H; cbn [bframe_blocks] in H; [now inversion H; subst|].
  apply bind_ok_inv in H. destruct H as (bf & s1 & E & H). apply put_block_byte in E; [|assumption]. eapply IH; eauto.
Qed.
Lemma bframe_byte : forall S n m fs row col f (s : S) f' s', byte_frame f -> bframe_copy_macroblocks n m fs row col f s = (Ok f', s') -> byte_frame f'.
Proof.
  induction n as [|n IH]; intros m fs row col f s f' s' B H; cbn [bframe_copy_macroblocks] in H; [now inversion H; subst|].
  apply bind_ok_inv in H. destruct H as (f1 & s1 & E & H). apply bframe_blocks_byte in E; [|assumption]. eapply IH; eauto.
Qed.
Lemma copy_lines_byte : forall S n v src dst off so ss ds x w (s : S) p s', byte_plane src -> byte_plane dst -> copy_lines n v src dst off so ss ds x w s = (Ok p, s') -> byte_plane p.
Proof.
  induction n as [|n IH]; intros v src dst off so ss ds x w s p s' Bs Bd H; cbn [copy_lines] in H; [now inversion H; subst|].
  apply bind_ok_inv in H. destruct H as (l & s1 & E & H). unfold pl_slice in E. destruct (_ && _ && _); inversion E; subst. clear E.
  apply bind_ok_inv in H. destruct H as (d & s2 & E & H). apply write_byte in E; [exact (IH _ _ _ _ _ _ _ _ _ _ _ _ Bs E H) | | assumption]. apply Forall_forall. intros y Y. apply in_map_iff in Y. destruct Y as (k & <- & _). apply Bs.
Qed.
Lemma pframe_byte : forall S row col n dest src (s : S) f s', byte_frame dest -> byte_frame src -> pframe_copy_macroblocks row col n dest src s = (Ok f, s') -> byte_frame f.
Proof.
  intros S row col n dest src s f s' (A & B & C) (A' & B' & C') H. unfold pframe_copy_macroblocks in H.
  apply bind_ok_inv in H. destruct H as (y & s1 & E & H). apply copy_lines_byte in E; [|assumption..].
  apply bind_ok_inv in H. destruct H as (cb & s2 & E1 & H). apply copy_lines_byte in E1; [|assumption..].
  apply bind_ok_inv in H. destruct H as (cr & s3 & E2 & H). apply copy_lines_byte in E2; [|assumption..]. inversion H; subst. exact (conj E (conj E1 E2)).
Qed.

(** * Macroblocks, slices, pictures *)
Definition holds {A} (m : MB A) : Prop := forall s a s', byte_frame (ms_frame (fst s)) -> m s = (Ok a, s') -> byte_frame (ms_frame (fst s')).
Lemma holds_bind : forall A B (m : MB A) (k : A -> MB B), holds m -> (forall a, holds (k a)) -> holds (bind m k).
Proof. intros A B m k Hm Hk s b s' P H. apply bind_ok_inv in H. destruct H as (a & s1 & E & H). apply Hm in E; [|assumption]. eapply Hk; eauto. Qed.
Lemma holds_onr : forall A (m : M reader A), holds (onr m).
Proof. intros A m [x r] a s' P H. unfold onr in H. cbn [fst snd] in H. destruct (m r) as [[] ?]; inversion H; exact P. Qed.
Lemma holds_ret : forall A (a : A), holds (ret a).
Proof. intros A a s b s' P H. now inversion H; subst. Qed.
Lemma holds_panic : forall A, holds (panic : MB A).
Proof. intros A s b s' P H. inversion H. Qed.
Lemma holds_nofuel : forall A, holds (nofuel : MB A).
Proof. intros A s b s' P H. inversion H. Qed.
Lemma holds_own : holds own.
Proof. intros s b s' P H. now inversion H; subst. Qed.
Lemma holds_deref : forall A (o : option A), holds (deref o).
Proof. intros A [a|] s b s' P H; inversion H; subst. exact P. Qed.
Lemma holds_upd : forall f, (forall m, ms_frame (f m) = ms_frame m) -> holds (upd f).
Proof. intros f Hf [x r] a s' P H. inversion H; subst. cbn [fst]. rewrite Hf. exact P. Qed.
Lemma holds_when : forall b m, holds m -> holds (when b m).
Proof. intros [] m H; [exact H | apply holds_ret]. Qed.
Ltac bh := repeat match goal with
  | |- holds (bind _ _) => apply holds_bind; [|intro]
  | |- holds (onr _) => apply holds_onr
  | |- holds (ret _) => apply holds_ret
  | |- holds panic => apply holds_panic
  | |- holds nofuel => apply holds_nofuel
  | |- holds own => apply holds_own
  | |- holds (deref _) => apply holds_deref
  | |- holds (when _ _) => apply holds_when
  | |- holds (upd _) => apply holds_upd; intro; reflexivity
  | |- holds (if ?b then _ else _) => destruct b
  | |- holds (let _ := _ in _) => cbv zeta
  | |- holds reset_mv => unfold reset_mv
  | |- holds (reset_dc _) => unfold reset_dc
  end.
Lemma holds_mv : forall e field dmv r s, holds (motion_vector e field dmv r s).
Proof. intros. unfold motion_vector, motion_vector_part. bh. Qed.
Lemma holds_vectors : forall e mb s, holds (motion_vectors e mb s).
Proof.
  intros. unfold motion_vectors. apply holds_bind.
  - intros x a x' P H. apply mv_info_state in H. now subst.
  - intros [ [count field] dmv]. bh; apply holds_mv.
Qed.
Lemma holds_read : forall ivf cc intra b, holds (mb_block_read ivf cc intra b).
Proof. intros ivf cc intra b [x r] a s' P H. unfold mb_block_read in H. cbn [fst snd] in H. destruct (block_read _ _ _ _) as [[] [bs r'] ]; inversion H; exact P. Qed.
Lemma holds_blocks : forall v e se mb row addr coded i b, holds (mb_blocks v e se mb row addr i coded b).
Proof.
  induction coded as [|c coded IH]; intros i b; cbn [mb_blocks]; [apply holds_ret|].
  apply holds_bind. { destruct c; bh. apply holds_read. }
  intros b' s a s' P H. apply bind_ok_inv in H. destruct H as (m & s1 & E & H). injection E as <- <-.
  apply bind_ok_inv in H. destruct H as (bf & s1 & E & H). pose proof (put_block_shape _ _ _ _ _ _ _ _ _ _ _ _ E) as (-> & _). apply put_block_byte in E; [|exact P].
  rewrite (surjective_pairing s) in H. rewrite bind_upd in H. apply IH in H; [exact H | exact E].
Qed.
Lemma holds_skipped : forall v pct row addr incr, byte_store (v_fs v) -> holds (copy_skipped v pct row addr incr).
Proof.
  intros v pct row addr incr B. unfold copy_skipped. destruct (_ && _); [|apply holds_ret]. destruct (pct =? PFrame); [|destruct (pct =? BFrame); [|apply holds_ret] ].
  - intros s a s' P H. apply bind_ok_inv in H. destruct H as (past & s0 & E & H). destruct (fs_past (v_fs v)) as [f0|] eqn:Ef; [|discriminate]. injection E as <- <-. apply bind_ok_inv in H. destruct H as (m & s1 & E & H). injection E as <- <-.
    apply bind_ok_inv in H. destruct H as (f & s1 & E & H). pose proof (pframe_shape _ _ _ _ _ _ _ _ _ E) as (-> & _). apply pframe_byte in E; [|exact P | apply B; auto]. destruct s as [x r]. inversion H; subst. exact E.
  - intros s a s' P H. apply bind_ok_inv in H. destruct H as (m & s1 & E & H). injection E as <- <-.
    apply bind_ok_inv in H. destruct H as (f & s1 & E & H). pose proof (bframe_shape _ _ _ _ _ _ _ _ _ _ E) as (-> & _). apply bframe_byte in E; [|exact P]. destruct s as [x r]. inversion H; subst. exact E.
Qed.
Lemma holds_macroblock : forall v row addr, byte_store (v_fs v) -> holds (macroblock v row addr).
Proof.
  intros v row addr B. unfold macroblock. cbv zeta. bh; auto using holds_skipped, holds_vectors.
  - intros s x s' P H. unfold ignore_err in H. destruct s as [m r]. unfold bind, onr in H. cbn [fst snd] in H. destruct (coded_block_pattern _ r) as [[] ?]; inversion H; exact P.
  - match goal with |- holds (match ?x with _ => _ end) => destruct x end; bh; [|apply holds_blocks].
    intros s x s' P H. unfold pattern_code in H. destruct (_ && _); now inversion H; subst.
Qed.
Lemma holds_loop : forall fuel v row addr, byte_store (v_fs v) -> holds (slice_loop fuel v row addr).
Proof. induction fuel as [|n IH]; intros; cbn [slice_loop]; bh; auto using holds_macroblock. Qed.
Lemma slice_byte : forall v f r f' r', byte_store (v_fs v) -> byte_frame f -> slice v f r = (Ok f', r') -> byte_frame f'.
Proof.
  intros v f r f' r' B P H. unfold slice in H. destruct (bind _ _ r) as [[ [ [e row] q]|er| |] r1]; try discriminate.
  destruct (slice_loop _ _ _ _ _) as [[[]|er| |] [m r2] ] eqn:E; try discriminate. apply holds_loop in E; [|exact B|exact P]. cbn [fst ms_frame] in E.
  apply bind_ok_inv in H. destruct H as ([] & r3 & _ & H). inversion H; subst. exact E.
Qed.
Lemma slices_byte : forall fuel v f r f' r', byte_store (v_fs v) -> byte_frame f -> slices fuel v f r = (Ok f', r') -> byte_frame f'.
Proof.
  induction fuel as [|n IH]; intros v f r f' r' B P H; cbn [slices] in H; [discriminate|].
  apply bind_ok_inv in H. destruct H as (f1 & r1 & E & H). apply slice_byte in E; [|assumption..]. apply bind_ok_inv in H. destruct H as (nb & r2 & _ & H).
  destruct (is_slice nb); [eapply IH; eauto | inversion H; subst; exact E].
Qed.
Lemma picture_byte : forall v r f r', byte_store (v_fs v) -> picture_data v r = (Ok f, r') -> byte_frame f.
Proof.
  intros v r f r' B H. unfold picture_data in H. destruct (size v) as [w h].
  apply bind_ok_inv in H. destruct H as (se & r1 & E & H).
  apply bind_ok_inv in H. destruct H as (f1 & r2 & E1 & H). apply slices_byte in E1; [|exact B|].
  - apply bind_ok_inv in H. destruct H as ([] & r3 & _ & H). inversion H; subst. exact E1.
  - unfold create_frame_buffer, new_ycbcr. destruct (_ =? _); [|destruct (_ =? _)]; (split; [|split]); intro k; cbn; unfold byte; lia.
Qed.

(** * Next *)
Lemma gop_byte : forall fs, byte_store fs -> byte_store (fs_gop fs).
Proof. intros fs B f H. apply B. exact H. Qed.
Lemma set1_byte : forall tr x fs, byte_store fs -> (forall f, rf_frame x = Some f -> byte_frame f) -> byte_store (fs_set1 tr x fs).
Proof.
  intros tr x fs B X f H. unfold fs_set1 in H. destruct (rf_frame x) as [g|]; [|exact (B f H)]. specialize (X g eq_refl).
  destruct (_ || _); cbn [fs_0 fs_1 fs_past fs_future] in H; (destruct H as [H|[H|[H|H] ] ]); try (injection H as <-; exact X); apply B; auto.
Qed.
Lemma fs_set_byte : forall tr fs, byte_store fs -> byte_store (fs_set tr fs).
Proof. intros tr fs B. unfold fs_set. apply set1_byte; [apply set1_byte; [exact B|] | ]; intros f H; apply B; auto. Qed.
Lemma decoded_byte : forall fs img v', byte_store fs -> decoded fs img v' -> byte_frame img /\ byte_store (v_fs v').
Proof.
  intros fs img v' B (ph & v2 & r2 & r3 & _ & _ & F & D & K). apply picture_byte in D; [|rewrite F; now apply fs_set_byte]. split; [exact D|]. rewrite K.
  pose proof (fs_set_byte (ph_tr ph) fs B) as S. unfold happens. destruct (_ || _); cbn [fs_do]; [|exact S].
  intros f H. unfold fs_add in H. cbn [fs_0 fs_1 fs_past fs_future rf_frame] in H. destruct H as [H|[H|[H|H] ] ]; [apply S; auto | injection H as <-; exact D | apply S; auto | apply S; auto].
Qed.
Lemma step_byte : forall v r img v' r', byte_store (v_fs v) -> step (v, r) = (Ok img, (v', r')) -> byte_frame img /\ byte_store (v_fs v').
Proof. intros v r img v' r' B H. apply step_history in H. destruct H as [(H & _)|(H & _)]; eapply decoded_byte; try exact H; [exact B | now apply gop_byte]. Qed.
Lemma loop_byte : forall n v r img v' r', byte_store (v_fs v) -> next_loop n (v, r) = (Ok img, (v', r')) -> byte_frame img /\ byte_store (v_fs v').
Proof.
  induction n as [|n IH]; intros v r img v' r' B H; [discriminate H|]. cbn [next_loop] in H.
  apply bind_ok_inv in H. destruct H as (i1 & (v1 & r1) & E1 & H). destruct (step_byte _ _ _ _ _ B E1) as (I1 & B1).
  unfold own at 1, bind at 1 in H. cbn [fst] in H. destruct (v_ph v1) as [ph|]; [|discriminate H]. unfold deref in H. rewrite bind_ret in H.
  destruct (ph_tr ph =? v_fc v1); [|eapply IH; eauto]. rewrite bind_upd in H. cbn in H. injection H as <- <- _. cbn [set_fc v_fs]. auto.
Qed.
Lemma next_byte : forall v r img v' r', byte_store (v_fs v) -> next (v, r) = (Ok img, (v', r')) -> byte_frame img /\ byte_store (v_fs v').
Proof.
  intros v r img v' r' B H. unfold next in H. unfold own at 1, bind at 1 in H. cbn [fst] in H. destruct (fs_tryget (v_fc v) (v_fs v)) as [f|] eqn:E.
  - rewrite bind_upd in H. cbn in H. injection H as <- <- _. split; [|exact B]. apply B. unfold fs_tryget in E. unfold ref_get in E.
    destruct (rf_frame (fs_0 (v_fs v))) as [a|]; [destruct (_ && _); [injection E as <-; auto|]|]; destruct (rf_frame (fs_1 (v_fs v))) as [b|]; try discriminate; destruct (_ && _); try discriminate; injection E as <-; auto.
  - eapply loop_byte; eauto.
Qed.
Theorem nexts_byte : forall n r imgs s', nexts n (new_vidseq, r) = (Ok imgs, s') -> Forall byte_frame imgs.
Proof.
  assert (G : forall n v r imgs s', byte_store (v_fs v) -> nexts n (v, r) = (Ok imgs, s') -> Forall byte_frame imgs).
  { induction n as [|n IH]; intros v r imgs s' B H; cbn [nexts] in H; [inversion H; constructor|].
    apply bind_ok_inv in H. destruct H as (x & (v1 & r1) & E1 & H). destruct (next_byte _ _ _ _ _ B E1) as (X & B1). apply bind_ok_inv in H. destruct H as (xs & s2 & E2 & H). inversion H; subst. constructor; eauto. }
  intros n r imgs s' H. eapply (G n new_vidseq r); [|exact H]. intros f F. cbn in F. destruct F as [F|[F|[F|F] ] ]; discriminate.
Qed.

(** * Calls that fail *)
Definition guards {A} (m : V A) : Prop := forall s, byte_store (v_fs (fst s)) -> byte_store (v_fs (fst (snd (m s)))).
Lemma guards_keeps : forall A (m : V A), keeps m -> guards m.
Proof. intros A m K s B. destruct (K s) as (E & _). rewrite E. exact B. Qed.
Lemma guards_bind : forall A B (m : V A) (k : A -> V B), guards m -> (forall a, guards (k a)) -> guards (bind m k).
Proof. intros A B m k Hm Hk s P. unfold bind. pose proof (Hm s P) as Q. destruct (m s) as [[a|e| |] s1]; cbn [snd] in *; auto. apply Hk. exact Q. Qed.
Lemma guards_upd : forall f, (forall v, byte_store (v_fs v) -> byte_store (v_fs (f v))) -> guards (upd f).
Proof. intros f F [v r] B. cbn. apply F. exact B. Qed.
Lemma guards_more : guards more_frames.
Proof.
  unfold more_frames. apply guards_bind; [apply guards_keeps, keeps_onr|]. intro nb. apply guards_bind.
  { destruct (_ =? _); [|apply guards_keeps, keeps_ret]. apply guards_bind; [apply guards_keeps, keeps_onr|]. intro g. apply guards_bind; [|intro; apply guards_keeps, keeps_ext].
    apply guards_upd. intros v B. cbn. now apply gop_byte. }
  intros _. apply guards_bind; [apply guards_keeps, keeps_ph|]. intros _. apply guards_bind; [apply guards_keeps, keeps_pce|]. intros _. apply guards_bind; [apply guards_keeps, keeps_ext|]. intros _.
  intros [v r] B. cbn [fst] in B. unfold own at 1, bind at 1. cbn [fst]. destruct (v_ph v) as [ph|]; [|exact B]. unfold deref. rewrite bind_ret, bind_upd. cbn [fst snd].
  assert (S : byte_store (v_fs (set_fs (fs_set (ph_tr ph) (v_fs v)) v))) by (cbn; now apply fs_set_byte). set (v1 := set_fs _ v) in *. clearbody v1.
  unfold own at 1, bind at 1. cbn [fst]. unfold bind at 1, onr at 1. cbn [fst snd]. destruct (picture_data v1 r) as [[img|e| |] r1] eqn:E; cbn [fst snd]; [|exact S..]. apply picture_byte in E; [|exact S].
  destruct (_ || _); [|exact S]. cbn. intros f H. unfold fs_add in H. cbn [fs_0 fs_1 fs_past fs_future rf_frame] in H. destruct H as [H|[H|[H|H] ] ]; [apply S; auto | injection H as <-; exact E | apply S; auto | apply S; auto].
Qed.
Lemma guards_step : guards step.
Proof.
  assert (C : guards continue_frames) by (apply guards_bind; [apply guards_keeps, keeps_ext | intro; apply guards_more]).
  intros [v r]. unfold step. unfold own at 1, bind at 1. cbn [fst]. revert v r.
  assert (X : forall m n : V image, guards m -> guards n -> forall v r, byte_store (v_fs v) -> byte_store (v_fs (fst (snd ((match v_sh v with Some _ => m | None => n end) (v, r)))))).
  { intros m n M N v r B. destruct (v_sh v); [exact (M (v, r) B) | exact (N (v, r) B)]. }
  apply X.
  - apply guards_bind; [apply guards_keeps, keeps_onr|]. intro nb. destruct (_ || _); [apply guards_more|]. apply guards_bind; [apply guards_keeps, keeps_onr|]. intro nb2.
    destruct (_ =? _); [apply guards_bind; [apply guards_keeps, keeps_onr | intro; apply guards_keeps, keeps_fail]|].
    apply guards_bind; [apply guards_keeps, keeps_seq|]. intros _. apply guards_bind; [apply guards_keeps, keeps_sext|]. intros _. exact C.
  - apply guards_bind; [apply guards_keeps, keeps_onr|]. intros _. apply guards_bind; [apply guards_keeps, keeps_seq|]. intros _. apply guards_bind; [apply guards_keeps, keeps_onr|]. intro nb.
    destruct (negb _); [apply guards_keeps, keeps_fail|]. apply guards_bind; [apply guards_keeps, keeps_sext|]. intros _. exact C.
Qed.
Lemma guards_next : guards next.
Proof.
  assert (F : forall B (f : vidseq -> V B), (forall v, guards (f v)) -> guards (bind own f)) by (intros B f Hf [v r] P; unfold own, bind; cbn [fst]; apply Hf; exact P).
  assert (L : forall n, guards (next_loop n)).
  { induction n as [|n IH]; [apply guards_keeps, keeps_nofuel|]. cbn [next_loop]. apply guards_bind; [apply guards_step|]. intro img. apply F. intro v. apply guards_bind; [destruct (v_ph v); intros s B; exact B|]. intro ph.
    destruct (_ =? _); [|exact IH]. apply guards_bind; [apply guards_upd; intros w B; exact B | intro; intros s B; exact B]. }
  unfold next. apply F. intro v. destruct (fs_tryget _ _); [apply guards_bind; [apply guards_upd; intros w B; exact B | intro; intros s B; exact B] | intros s B; apply L; exact B].
Qed.
