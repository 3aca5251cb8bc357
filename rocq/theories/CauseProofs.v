(** CauseProofs: if Next panics, then the stream is as SpecPanic describes. *)
From Coq Require Import Lia.
From Verif Require Import Base BitReader Exec Local TsRobust PesLocal After Huffman VlcTables BlockModel SpecVlc SpecBlock VlcProofs BlockProofs
  VidModel SpecVid VidProofs VidStream VidExt VidLocal MbModel SpecMotion MotionProofs SpecPicture EndProofs2 ShapeProofs NextProofs SliceProofs SpecSyntax SyntaxProofs SpecPanic.
From Verif Require PropertiesVidHeaders.

(** * Computations that never panic *)
Definition np {S A} (m : M S A) : Prop := forall s s', m s <> (Panic, s').
Definition stopped {A} (o : res A) : Prop := match o with Ok _ | Panic => False | _ => True end.
Lemma np_safe : forall S A (m : M S A), safe m -> np m.
Proof. intros S A m H s s' E. specialize (H s). rewrite E in H. exact H. Qed.
Lemma np_bind : forall S A B (m : M S A) (k : A -> M S B), np m -> (forall a, np (k a)) -> np (bind m k).
Proof.
  intros S A B m k Hm Hk s s' E. unfold bind in E. destruct (m s) as [ [a|e| |] s1] eqn:Q; try discriminate; [exact (Hk _ _ _ E) | exact (Hm _ _ Q)].
Qed.
Lemma np_if : forall S A (c : bool) (x y : M S A), np x -> np y -> np (if c then x else y).
Proof. intros. destruct c; auto. Qed.
Lemma np_onr : forall T R A (m : M R A), np m -> np (onr (T := T) m).
Proof. intros T R A m H s s' E. unfold onr in E. destruct (m (snd s)) as [a r'] eqn:Q. inversion E; subst. exact (H _ _ Q). Qed.
Lemma np_ret : forall S A (a : A), np (ret a : M S A).
Proof. intros. discriminate. Qed.
Lemma bind_np : forall S A B (m : M S A) (k : A -> M S B) s o s', np m -> bind m k s = (o, s') -> stopped o \/ exists a s1, m s = (Ok a, s1) /\ k a s1 = (o, s').
Proof.
  intros S A B m k s o s' H E. unfold bind in E. destruct (m s) as [ [a|e| |] s1] eqn:Q; [right; eauto | inversion E; now left | exfalso; exact (H _ _ Q) | inversion E; now left].
Qed.
Lemma bind_panics : forall S A B (m : M S A) (k : A -> M S B) s s', bind m k s = (Panic, s') -> m s = (Panic, s') \/ exists a s1, m s = (Ok a, s1) /\ k a s1 = (Panic, s').
Proof. intros S A B m k s s' E. unfold bind in E. destruct (m s) as [ [a|e| |] s1] eqn:Q; [right; eauto | discriminate | left; now inversion E | discriminate]. Qed.
Lemma np_panics : forall S A B (m : M S A) (k : A -> M S B) s s', np m -> bind m k s = (Panic, s') -> exists a s1, m s = (Ok a, s1) /\ k a s1 = (Panic, s').
Proof. intros S A B m k s s' H E. apply bind_panics in E. destruct E as [E|E]; [exfalso; exact (H _ _ E) | exact E]. Qed.
Lemma onr_panics : forall T A (m : M reader A) (s s' : T * reader), onr m s = (Panic, s') -> exists r, m (snd s) = (Panic, r).
Proof. intros T A m s s' E. unfold onr in E. destruct (m (snd s)) as [a r'] eqn:Q. inversion E; subst. eauto. Qed.

(** * Blocks *)
Lemma bwrite_panics : forall i v s s', 0 <= i -> bwrite i v s = (Panic, s') -> 64 <= i.
Proof.
  intros i v s s' Hi H. unfold bwrite in H. destruct ((0 <=? i) && (i <? Z.of_nat blockSize)) eqn:E; [discriminate|]. apply andb_false_iff in E. change (Z.of_nat blockSize) with 64 in E.
  destruct E as [E|E]; [apply Z.leb_gt in E; lia | apply Z.ltb_ge in E; exact E].
Qed.
Lemma bzeros_panics : forall k n s s', 0 <= n -> bzeros k n s = (Panic, s') -> 64 < n + Z.of_nat k.
Proof.
  induction k as [|k IH]; intros n s s' Hn H; cbn [bzeros] in H; [discriminate|]. apply bind_panics in H. destruct H as [H | (u & s1 & _ & H)]; [apply bwrite_panics in H; lia | apply IH in H; lia].
Qed.
Lemma coeffs_panics : forall f one n s s', 0 <= n <= 64 -> block_coeffs f (dct_of one) n s = (Panic, s') ->
  exists rls body l, syms one n rls body /\ rbits (snd s) = body ++ l /\ 64 < n + Z.of_nat (length (expand rls)).
Proof.
  induction f as [|f IH]; intros one n s s' Hn H; cbn [block_coeffs] in H; [discriminate|].
  apply np_panics in H; [|apply np_onr, np_safe, safe_dct_of]. destruct H as ([[run level] fin] & s1 & E & H). apply onr_inv in E. destruct E as (_ & E). apply dct_symbol_inv in E. destruct E as (c & sy & Hc & Q & V & R).
  destruct sy as [run' level'|]; cbn [symbol_result] in V; injection V as -> -> ->.
  - pose proof (dct_code_run _ _ _ _ _ Hc) as Hr.
    assert (One : 64 <= n + run' -> exists rls body l, syms one n rls body /\ rbits (snd s) = body ++ l /\ 64 < n + Z.of_nat (length (expand rls))).
    { intro L. exists [(run', level')], (c ++ []), (rbits (snd s1)). split; [constructor; [exact Hc | constructor]|]. split; [now rewrite app_nil_r|]. rewrite expand_length_cons by lia. cbn [expand flat_map length]. lia. }
    apply bind_panics in H. destruct H as [H | (u & s2 & E2 & H)]; [apply bzeros_panics in H; [|lia]; apply One; lia|]. apply bzeros_reader in E2.
    apply bind_panics in H. destruct H as [H | (u2 & s3 & E3 & H)]; [apply bwrite_panics in H; [|lia]; apply One; lia|]. apply bwrite_reader in E3. destruct E3 as (B & E3).
    apply IH in H; [|lia]. destruct H as (rls & body & l & Sy & Q2 & L). exists ((run', level') :: rls), (c ++ body), l. split; [now constructor|]. split; [rewrite Q, <- app_assoc, <- Q2, E3, E2; reflexivity|]. rewrite expand_length_cons by lia. lia.
  - apply bzeros_panics in H; [|lia]. change (Z.of_nat blockSize) with 64 in H. rewrite Z2Nat.id in H by lia. lia.
Qed.
Lemma np_dc : forall cc, np (block_dc cc).
Proof.
  intro cc. apply np_bind; [apply np_onr, np_if; apply np_safe, safe_hdecode|]. intro n. apply np_bind; [apply np_onr, np_safe, safe_read_n|]. intros d s s'. discriminate.
Qed.
Lemma read_panics : forall y k b m r s', (k < 12)%nat -> mb_block_read (pc_vlc (pce_of (y_pce y))) (nth k color_channel 0%nat) true b (m, r) = (Panic, s') ->
  exists c t, overfull y k c /\ rbits r = c ++ t.
Proof.
  intros y k b m r s' Hk H. unfold mb_block_read in H. cbn [fst snd] in H.
  destruct (block_read (pc_vlc (pce_of (y_pce y))) (nth k color_channel 0%nat) true (mkBS b (ms_dcp m), r)) as [ [u|e| |] [bs r1] ] eqn:E; try discriminate.
  clear H. unfold block_read in E. rewrite pce_vlc in E. assert (Ev : (Z.b2z (e_vlc (y_pce y)) =? 1) = e_vlc (y_pce y)) by (destruct (e_vlc (y_pce y)); reflexivity). rewrite Ev in E. cbn [andb] in E.
  apply np_panics in E; [|apply np_dc]. destruct E as ([] & [bs1 r2] & E1 & E). apply dc_inv in E1. destruct E1 as (c1 & d & D & Q & R). cbn [snd] in Q, R.
  change (if e_vlc (y_pce y) then dct_table_one else dct_table_zero) with (dct_of (e_vlc (y_pce y))) in E. apply coeffs_panics in E; [|lia]. destruct E as (rls & c2 & l & C & Q2 & L). cbn [snd] in Q2.
  exists (c1 ++ c2), l. split; [|rewrite Q, Q2, app_assoc; reflexivity]. exists d, c1, rls, c2. split; [reflexivity|]. split; [|split; [exact C | lia]].
  replace (Nat.ltb k 4) with (Nat.eqb (nth k color_channel 0%nat) 0); [exact D|]. do 12 (destruct k as [|k]; [reflexivity|]). lia.
Qed.

(** * Writing to the frame *)
Lemma mapM_np : forall S A B (f : A -> M S B) l, (forall a, np (f a)) -> np (mapM f l).
Proof. intros S A B f l H. induction l as [|x l IH]; cbn [mapM]; [apply np_ret|]. apply np_bind; [apply H|]. intro b. apply np_bind; [exact IH|]. intro. apply np_ret. Qed.
Lemma compensation_np : forall S m i row addr fs b, mv_fwd m = false -> mv_bwd m = false -> np (motion_compensation m i row addr fs b : M S block).
Proof.
  intros S m i row addr fs b F B. unfold motion_compensation. rewrite F, B. cbn [mc_ref]. apply mapM_np. intro k. cbv zeta. apply np_bind; [apply np_ret|]. intro. apply np_bind; [apply np_ret|]. intro. apply np_ret.
Qed.
Lemma rows_panics : forall S rows p off base stride y (s s' : S), 0 <= y -> 0 <= base -> 0 <= stride -> Forall (fun r : list Z => (length r <= 8)%nat) rows ->
  write_rows p off base stride y rows s = (Panic, s') -> pl_len p < off + base + (y + Z.of_nat (length rows) - 1) * stride + 8.
Proof.
  induction rows as [|row rows IH]; intros p off base stride y s s' Hy Hb Hs F H; cbn [write_rows] in H; [discriminate|].
  pose proof (Forall_inv F) as L. apply Forall_inv_tail in F. cbn [length] in *. apply bind_panics in H. destruct H as [H | (p1 & s1 & E & H)].
  - unfold pl_write in H. destruct ((0 <=? base + y * stride) && (off + (base + y * stride) + Z.of_nat (length row) <=? pl_len p)) eqn:Q; [discriminate|].
    apply andb_false_iff in Q. destruct Q as [Q|Q]; [apply Z.leb_gt in Q; nia | apply Z.leb_gt in Q]. nia.
  - apply pl_write_len in E. destruct E as (-> & E). apply IH in H; auto; [|lia]. rewrite E in H. nia.
Qed.
(** The sample arrays of a picture of [W] by [H] macroblocks in 4:2:0 *)
Definition sized (W H : Z) (f : image) : Prop :=
  im_ys f = 16 * W /\ im_cs f = 8 * W /\ pl_len (im_y f) = 256 * (W * H) /\ pl_len (im_cb f) = 64 * (W * H) /\ pl_len (im_cr f) = 64 * (W * H).
Lemma sized_shape : forall W H f g, shape f = shape g -> sized W H f -> sized W H g.
Proof. intros W H f g E. unfold shape in E. injection E as E1 E2 E3 E4 E5 E6 E7. unfold sized. now rewrite E3, E4, E5, E6, E7. Qed.
Lemma rows8_length : forall cb, Forall (fun r : list Z => (length r <= 8)%nat) (rows8 cb).
Proof. intro cb. unfold rows8. apply Forall_map, Forall_forall. intros k _. rewrite firstn_length. lia. Qed.
Lemma land2 : forall i, 0 <= i < 4 -> (Z.land i 1 = 0 \/ Z.land i 1 = 1) /\ (Z.land i 2 = 0 \/ Z.land i 2 = 2).
Proof. intros i H. assert (i = 0 \/ i = 1 \/ i = 2 \/ i = 3) as [-> | [-> | [-> | ->] ] ] by lia; cbn; auto. Qed.
Ltac shifts := change (Z.shiftl 0 3) with 0 in *; change (Z.shiftl 1 3) with 8 in *; change (Z.shiftl 0 2) with 0 in *; change (Z.shiftl 2 2) with 8 in *; change (Z.shiftr 0 1) with 0 in *; change (Z.shiftr 2 1) with 1 in *.
Lemma update_panics : forall S W H row i addr il f cb (s s' : S), sized W H f -> 0 <= W -> 0 <= row <= H -> 0 <= addr -> 0 <= i < 6 ->
  update_frame_slice row i addr il f cb s = (Panic, s') -> W * (8 * (H - (row + 1)) + 1) <= addr.
Proof.
  intros S W H row i addr il f cb s s' (E1 & E2 & E3 & E4 & E5) HW Hr Ha Hi E. unfold update_frame_slice in E. destruct (slice_pos f i addr il) as [base stride] eqn:P.
  apply bind_panics in E. destruct E as [E | (p & s1 & _ & E)]; [|discriminate].
  assert (B : 0 <= base /\ 0 <= stride).
  { unfold slice_pos in P. destruct (Z.ltb_spec i 4).
    - pose proof (land2 i ltac:(lia)) as (L1 & L2). rewrite E1 in P. destruct il; apply pair_equal_spec in P; destruct P as (<- & <-); destruct L1 as [-> | ->], L2 as [-> | ->]; shifts; lia.
    - rewrite E2 in P. destruct (i <? 6); apply pair_equal_spec in P; destruct P as (<- & <-); lia. }
  apply rows_panics in E; [|lia|lia|lia|apply rows8_length]. change (Z.of_nat (length (rows8 cb))) with 8 in E.
  unfold slice_pos, slice_off, channel in *. destruct (Z.ltb_spec i 4).
  - pose proof (land2 i ltac:(lia)) as (L1 & L2). rewrite E1 in *. rewrite E3 in E.
    assert (X : base + 7 * stride <= addr * 16 + 8 + 15 * (16 * W)).
    { destruct il; apply pair_equal_spec in P; destruct P as (<- & <-); destruct L1 as [-> | ->], L2 as [-> | ->]; shifts; lia. }
    assert (Y : 256 * (W * H) < 256 * (W * row) + addr * 16 + 16 + 15 * (16 * W)) by nia.
    assert (Z : W * (16 * (H - (row + 1)) + 1) <= addr) by nia.
    destruct (Z.eq_dec row H) as [->|N]; [replace (W * (8 * (H - (H + 1)) + 1)) with (- (7 * W)) by ring; lia|].
    assert (W * (8 * (H - (row + 1)) + 1) <= W * (16 * (H - (row + 1)) + 1)) by (apply Z.mul_le_mono_nonneg_l; lia). lia.
  - rewrite E2 in *. replace (i <? 6) with true in * by (symmetry; apply Z.ltb_lt; lia). apply pair_equal_spec in P; destruct P as (<- & <-).
    assert (Y : 64 * (W * H) < 64 * (W * row) + addr * 8 + 8 + 7 * (8 * W)).
    { destruct (Z.eqb_spec i 4); [rewrite E4 in E; nia|]. replace (i =? 5) with true in E by (symmetry; apply Z.eqb_eq; lia). rewrite E5 in E. nia. }
    nia.
Qed.

(** * Macroblocks of I pictures *)
Lemma read_mvd : forall ivf cc intra b s a s', mb_block_read ivf cc intra b s = (Ok a, s') -> ms_mvd (fst s') = ms_mvd (fst s).
Proof. intros ivf cc intra b [m r] a s' H. unfold mb_block_read in H. cbn [fst snd] in H. destruct (block_read _ _ _ _) as [ [] [bs r'] ]; inversion H; reflexivity. Qed.
Lemma blocks_panics : forall W H v y se mb row addr, 0 <= W -> 0 <= row <= H -> 0 <= addr -> mb_intra (mo_type mb) = true ->
  forall j k b s s', (k + j <= 6)%nat -> sized W H (ms_frame (fst s)) -> mv_fwd (ms_mvd (fst s)) = false -> mv_bwd (ms_mvd (fst s)) = false ->
  mb_blocks v (pce_of (y_pce y)) se mb row addr (Z.of_nat k) (repeat true j) b s = (Panic, s') ->
  W * (8 * (H - (row + 1)) + 1) <= addr \/
  exists i c2 c3 t, (i < j)%nat /\ rbits (snd s) = c2 ++ c3 ++ t /\ blocks_syn y true k (repeat true i) c2 /\ overfull y (k + i) c3.
Proof.
  intros W H v y se mb row addr HW Hr Ha Hi. induction j as [|j IH]; intros k b s s' L Sz F B E; cbn [repeat mb_blocks] in E; [discriminate|].
  rewrite Hi, Nat2Z.id in E. apply bind_panics in E. destruct E as [E | (b1 & s1 & E1 & E)].
  - apply bind_panics in E. destruct E as [E | (b2 & s2 & _ & E)].
    + destruct s as [m r]. apply read_panics in E; [|lia]. destruct E as (c & t & O & Q). right. exists 0%nat, [], c, t. split; [lia|]. split; [exact Q|]. split; [reflexivity|]. rewrite Nat.add_0_r. exact O.
    + apply bind_panics in E. destruct E as [E | (m & s3 & _ & E)]; discriminate.
  - apply bind_ok_inv in E1. destruct E1 as (b2 & s2 & E1 & E2).
    pose proof (block_reads y k (nth k color_channel 0%nat) true b eq_refl ltac:(lia) _ _ _ E1) as (c & Bs & A). pose proof (read_mvd _ _ _ _ _ _ _ E1) as Mv. pose proof (same_read _ _ _ _ _ _ _ E1) as Sh.
    apply bind_ok_inv in E2. destruct E2 as (m & s3 & E2 & E3). inversion E2; subst m s3. assert (s1 = s2) by (unfold ret in E3; congruence). subst s1. clear E1 E2 E3.
    apply bind_panics in E. destruct E as [E | (m & s3 & E2 & E)]; [discriminate|]. inversion E2; subst m s3. clear E2.
    rewrite Mv in E. apply bind_panics in E. destruct E as [E | (bf & s3 & E2 & E)].
    + left. unfold put_block in E. apply np_panics in E; [|now apply compensation_np]. destruct E as (b3 & s3 & _ & E). apply bind_panics in E. destruct E as [E | (? & ? & _ & E)]; [|discriminate].
      eapply update_panics in E; eauto; [|lia]. eapply sized_shape; [symmetry; exact Sh | exact Sz].
    + apply put_block_shape in E2. destruct E2 as (-> & E2). destruct s2 as [m2 r2]. rewrite bind_upd in E. replace (Z.of_nat k + 1) with (Z.of_nat (S k)) in E by lia. cbn [fst snd] in *.
      apply IH in E; cbn [fst snd ms_frame ms_mvd ms_set_frame]; [|lia|eapply sized_shape; [symmetry; etransitivity; [exact E2 | exact Sh] | exact Sz]|congruence|congruence].
      destruct E as [E | (i & c2 & c3 & t & Li & Q & Bt & O)]; [now left|]. right. exists (S i), (c ++ c2), c3, t. split; [lia|]. cbn [snd] in Q. split; [rewrite (after_bits _ _ _ A), Q, <- app_assoc; reflexivity|].
      split; [cbn [repeat blocks_syn]; exists c, c2; split; [reflexivity|]; split; [exact Bs | exact Bt]|]. replace (k + S i)%nat with (S k + i)%nat by lia. exact O.
Qed.

Lemma np_escapes : forall f n, np (mba_escapes f n).
Proof.
  induction f as [|f IH]; intro n; cbn [mba_escapes]; [discriminate|]. apply np_bind; [apply np_safe, safe_peek_n|]. intro b. apply np_if; [|apply np_ret].
  apply np_bind; [apply np_safe, safe_ignore, safe_skip_n|]. intro. apply IH.
Qed.
Lemma np_increment : np mb_increment.
Proof.
  intros r r' E. unfold mb_increment in E. revert E. apply np_bind; [apply np_escapes|]. intro. apply np_bind; [apply np_safe, safe_hdecode|]. intro. apply np_ret.
Qed.
Lemma np_mode : forall e, np (macroblock_mode 1 e).
Proof.
  intro e. apply np_safe. unfold macroblock_mode. cbn [Z.eqb Pos.eqb IFrame]. apply safe_bind; [apply safe_hdecode|]. intro t. safe_tac.
Qed.
Lemma np_when : forall S c (m : M S unit), np m -> np (when c m).
Proof. intros S [] m H; [exact H | apply np_ret]. Qed.
Lemma np_upd : forall T R (f : T -> T), np (upd f : M (T * R) unit).
Proof. intros. discriminate. Qed.
Lemma b2_types : forall c ty, mbt_code b2 c ty -> let '(_, f, b, p, i) := ty in f = false /\ b = false /\ p = false /\ i = true.
Proof. intros c ty (v & n & H & _). cbn in H. repeat (destruct H as [H|H]; [injection H as <- <- <-; auto|]). contradiction. Qed.
Lemma incr_range : forall n c, incr_code n c -> 1 <= n.
Proof.
  intros n c (k & i & c0 & -> & H & _). destruct H as (H & _). lia.
Qed.

(** Up to the blocks *)
Lemma macroblock_intra : forall v y sh row addr s o s', v_ph v = Some (pic_of (y_hdr y)) -> v_pce v = Some (pce_of (y_pce y)) -> v_se v = Some sh -> se_chroma sh = y_chroma y ->
  y_type y = 1 -> e_conceal (y_pce y) = false -> macroblock v row addr s = (o, s') ->
  stopped o \/ exists n c mb s1, intra_head y n c /\ after (snd s) c (snd s1) /\ ms_frame (fst s1) = ms_frame (fst s) /\ mv_fwd (ms_mvd (fst s1)) = false /\ mv_bwd (ms_mvd (fst s1)) = false /\
    mb_intra (mo_type mb) = true /\
    (mb_blocks v (pce_of (y_pce y)) sh mb row (addr + n) 0 (repeat true (y_blocks y)) block_zero ;; ret (addr + n)) s1 = (o, s').
Proof.
  intros v y sh row addr s o s' Hph Hpce Hse Hc T C H. unfold macroblock in H. rewrite Hph, Hpce, Hse in H.
  apply bind_np in H; [|apply np_onr, np_increment]. destruct H as [H | (n & s1 & E & H)]; [now left|].
  assert (F1 : fst s1 = fst s) by (apply onr_inv in E; apply E). apply onr_inv in E. destruct E as (_ & E). apply increment_after in E. destruct E as (c1 & Hi & A1).
  cbn [deref] in H. rewrite !bind_ret in H. cbv zeta in H. change (ph_type (pic_of (y_hdr y))) with (y_type y) in H. rewrite T in H.
  assert (Cs : copy_skipped v 1 row addr n = ret tt) by (unfold copy_skipped; destruct (negb (addr =? -1) && (n >? 1)); reflexivity). rewrite Cs, bind_ret in H.
  change (1 =? PFrame) with false in H. cbn [andb when] in H.
  apply bind_np in H; [|apply np_when, np_upd]. destruct H as [H | (u & s2 & E & H)]; [now left|].
  assert (F2 : ms_frame (fst s2) = ms_frame (fst s1) /\ snd s2 = snd s1). { unfold when, reset_dc in E. destruct (n >? 1); [apply upd_inv in E; subst; auto | inversion E; auto]. } clear E u. rewrite bind_ret in H.
  apply bind_np in H; [|apply np_onr, np_mode]. destruct H as [H | (mb & s3 & E & H)]; [now left|].
  assert (F3 : fst s3 = fst s2) by (apply onr_inv in E; apply E). apply onr_inv in E. destruct E as (_ & E).
  pose proof (mode_after y) as Md. rewrite T in Md. apply Md in E. destruct E as (_ & t & mt & c2 & c3 & c4 & Ht & O2 & O3 & Sm & A2). clear Md. rewrite (proj1 Sm) in H.
  change (type_table 1) with b2 in Ht. pose proof (b2_types _ _ Ht) as (Tf & Tb & Tp & Ti). cbn in Tf, Tb, Tp, Ti. rewrite Tf, Tb in O2. cbn [orb andb only_if] in O2. subst c3. rewrite Ti in O3. cbn [orb] in O3. rewrite andb_true_r in O3.
  rewrite Tf, Tb, Tp, Ti, pce_conceal, C in H. cbn [negb andb orb when] in H. rewrite !bind_ret in H.
  apply bind_np in H; [|apply np_upd]. destruct H as [H | (u & s4 & E & H)]; [now left|]. apply upd_inv in E.
  assert (F4 : ms_frame (fst s4) = ms_frame (fst s3) /\ snd s4 = snd s3) by (subst; auto). clear E u. rewrite bind_ret in H.
  apply bind_np in H; [|apply np_when, np_bind; [apply np_onr, np_safe, safe_read_n | intro; apply np_upd] ]. destruct H as [H | (u & s5 & E & H)]; [now left|].
  assert (X : exists c5, only_if (mb_quant t) (width 5) c5 /\ after (snd s4) c5 (snd s5) /\ ms_frame (fst s5) = ms_frame (fst s4)).
  { unfold when in E. destruct (mb_quant t); cbn [only_if].
    - apply bind_ok_inv in E. destruct E as (q & sq & E & E2). apply onr_inv in E. destruct E as (Fq & E). apply read_after in E. destruct E as (_ & E). apply upd_inv in E2. subst s5. exists (enc 5 q). split; [apply enc_length|]. split; [exact E | cbn [fst ms_frame ms_set_qsc]; congruence].
    - inversion E; subst. exists []. split; [reflexivity|]. split; [apply after_nil | reflexivity]. }
  destruct X as (c5 & O5 & A5 & F5). clear E u. rewrite !bind_ret in H.
  apply bind_np in H; [|apply np_upd]. destruct H as [H | (u & s6 & E & H)]; [now left|]. apply upd_inv in E.
  assert (F6 : ms_frame (fst s6) = ms_frame (fst s5) /\ snd s6 = snd s5 /\ mv_fwd (ms_mvd (fst s6)) = false /\ mv_bwd (ms_mvd (fst s6)) = false). { subst s6. cbn [fst snd ms_frame ms_mvd ms_set_mvd]. unfold mv_previous. rewrite Ti. auto. } clear E u.
  rewrite !bind_ret in H. unfold pattern_code in H. cbn [andb orb] in H. rewrite bind_ret in H.
  replace (firstn (block_count (se_chroma sh)) _) with (repeat true (y_blocks y)) in H.
  2: { rewrite Hc. change (block_count (y_chroma y)) with (y_blocks y). unfold y_blocks. destruct (y_chroma y =? 1); [reflexivity|]. destruct (y_chroma y =? 2); [reflexivity|]. destruct (y_chroma y =? 3); reflexivity. }
  right. exists n, (c1 ++ c2 ++ c4 ++ c5), mb, s6. split.
  - exists (mb_quant t), c1, c2, c4, c5. split; [reflexivity|]. split; [exact Hi|]. split; [|auto]. unfold mbt_fields in Ht. rewrite Tf, Tb, Tp, Ti in Ht. exact Ht.
  - split; [|split; [|split; [|split; [|split] ] ] ]; try tauto.
    + destruct F6 as (_ & F6 & _). destruct F4 as (_ & F4). destruct F2 as (_ & F2). rewrite F6. eapply after_app; [exact A1|]. rewrite <- F2. cbn [app] in A2. rewrite (app_assoc c2). eapply after_app; [exact A2|]. rewrite <- F4. exact A5.
    + destruct F6 as (F6 & _). destruct F4 as (F4 & _). destruct F2 as (F2 & _). congruence.
    + rewrite (proj1 Sm). exact Ti.
Qed.
Definition drawn (W H : Z) (y : layer) (f : image) : Prop := y_blocks y = 0%nat \/ (y_blocks y = 6%nat /\ sized W H f).
Lemma drawn_shape : forall W H y f g, shape f = shape g -> drawn W H y f -> drawn W H y g.
Proof. intros W H y f g E [D | (D & S)]; [now left | right; split; [exact D | eapply sized_shape; eauto] ]. Qed.
Lemma macroblock_panics : forall W H v y sh row addr s s', v_ph v = Some (pic_of (y_hdr y)) -> v_pce v = Some (pce_of (y_pce y)) -> v_se v = Some sh -> se_chroma sh = y_chroma y ->
  y_type y = 1 -> e_conceal (y_pce y) = false -> 0 <= W -> 0 <= row <= H -> -1 <= addr -> drawn W H y (ms_frame (fst s)) ->
  macroblock v row addr s = (Panic, s') -> bad_mb y (W * (8 * (H - (row + 1)) + 1)) addr (rbits (snd s)).
Proof.
  intros W H v y sh row addr s s' Hph Hpce Hse Hc T C HW Hr Ha D E. apply (macroblock_intra v y sh) in E; try assumption. destruct E as [ [] | (n & c & mb & s1 & Hd & A & F & M1 & M2 & Hi & E)].
  exists n, c, (rbits (snd s1)). split; [exact (after_bits _ _ _ A)|]. split; [exact Hd|].
  assert (1 <= n) by (destruct Hd as (? & ? & ? & ? & ? & _ & Hd & _); eapply incr_range; exact Hd).
  apply bind_panics in E. destruct E as [E | (u & s2 & _ & E)]; [|discriminate]. destruct D as [D | (D & Sz)]; [rewrite D in E; discriminate|].
  change 0 with (Z.of_nat 0) in E. rewrite D in E. apply (blocks_panics W H) in E; try assumption; try lia; [|now rewrite F].
  destruct E as [E | (i & c2 & c3 & t & L & Q & B & O)]; [now left|]. right. exists i, c2, c3, t. rewrite D. auto.
Qed.
Lemma macroblock_read : forall v y sh row addr s a s', v_ph v = Some (pic_of (y_hdr y)) -> v_pce v = Some (pce_of (y_pce y)) -> v_se v = Some sh -> se_chroma sh = y_chroma y ->
  y_type y = 1 -> e_conceal (y_pce y) = false -> macroblock v row addr s = (Ok a, s') -> exists n c, intra_mb y n c /\ after (snd s) c (snd s') /\ a = addr + n /\ 1 <= n.
Proof.
  intros v y sh row addr s a s' Hph Hpce Hse Hc T C E. apply (macroblock_intra v y sh) in E; try assumption. destruct E as [ [] | (n & c & mb & s1 & Hd & A & F & M1 & M2 & Hi & E)].
  apply bind_ok_inv in E. destruct E as (u & s2 & E & R). assert (a = addr + n /\ s2 = s') as [-> ->] by (unfold ret in R; split; congruence).
  change 0 with (Z.of_nat 0) in E. apply blocks_reads in E; [|rewrite repeat_length; unfold y_blocks; destruct (y_chroma y =? 1); [lia|]; destruct (y_chroma y =? 2); [lia|]; destruct (y_chroma y =? 3); lia].
  destruct E as (c2 & B & A2). rewrite Hi in B. exists n, (c ++ c2). split; [exists c, c2; auto|]. split; [eapply after_app; eauto|]. split; [reflexivity|].
  destruct Hd as (? & ? & ? & ? & ? & _ & Hd & _). eapply incr_range; exact Hd.
Qed.
Lemma loop_panics : forall W H v y sh row, v_ph v = Some (pic_of (y_hdr y)) -> v_pce v = Some (pce_of (y_pce y)) -> v_se v = Some sh -> se_chroma sh = y_chroma y ->
  y_type y = 1 -> e_conceal (y_pce y) = false -> 0 <= W -> 0 <= row <= H -> forall f addr s s', -1 <= addr -> drawn W H y (ms_frame (fst s)) ->
  slice_loop f v row addr s = (Panic, s') -> exists ms d, rbits (snd s) = concat (map snd ms) ++ d /\ Forall (fun m => intra_mb y (fst m) (snd m)) ms /\
    bad_mb y (W * (8 * (H - (row + 1)) + 1)) (addr + fold_right Z.add 0 (map fst ms)) d.
Proof.
  intros W H v y sh row Hph Hpce Hse Hc T C HW Hr. induction f as [|f IH]; intros addr s s' Ha D E; cbn [slice_loop] in E; [discriminate|].
  apply bind_panics in E. destruct E as [E | (a & s1 & E1 & E)].
  - apply (macroblock_panics W H v y sh) in E; try assumption. exists [], (rbits (snd s)). split; [reflexivity|]. split; [constructor|]. cbn [map fold_right]. rewrite Z.add_0_r. exact E.
  - pose proof (same_macroblock _ _ _ _ _ _ E1) as Sh. apply (macroblock_read v y sh) in E1; try assumption. destruct E1 as (n & c & Mb & A & -> & Hn).
    apply np_panics in E; [|apply np_onr, np_safe, safe_peek_n]. destruct E as (nb & s2 & E2 & E). apply onr_inv in E2. destruct E2 as (F & E2). apply peek_after in E2. destruct E2 as (R2 & _).
    assert (s2 = s1) by (rewrite (surjective_pairing s2), (surjective_pairing s1); congruence). subst s2.
    destruct (nb =? 0); [discriminate|]. apply IH in E; [|lia|eapply drawn_shape; [symmetry; exact Sh | exact D] ]. destruct E as (ms & d & Q & Fa & B).
    exists ((n, c) :: ms), d. split; [cbn [map concat snd]; rewrite (after_bits _ _ _ A), Q, <- app_assoc; reflexivity|]. split; [now constructor|]. cbn [map fst fold_right]. rewrite Z.add_assoc. exact B.
Qed.

(** * Slices and pictures *)
Lemma slice_code_of : forall c, is_slice c = true -> exists rw, 1 <= rw <= 175 /\ c = 256 + rw /\ enc 32 c = code rw.
Proof.
  intros c Is. exists (c - 256). unfold is_slice in Is. apply andb_true_iff in Is. destruct Is as [I1 I2]. apply Z.leb_le in I1, I2. change MinSliceStartCode with 257 in *. change MaxSliceStartCode with 431 in *.
  split; [lia|]. split; [lia|]. assert (exists rw, 1 <= rw <= 175 /\ c = 256 + rw) as (rw & Hrw & ->) by (exists (c - 256); lia). replace (256 + rw - 256) with rw by lia.
  change 32%nat with (24 + 8)%nat. rewrite enc_app. change (2 ^ Z.of_nat 8) with 256. replace ((256 + rw) / 256) with 1 by (apply Z.div_unique with rw; lia). unfold code. change (enc 24 1) with prefix. f_equal.
  rewrite <- (enc_ext_mod 8 (256 + rw)), <- (enc_ext_mod 8 rw). f_equal. change (2 ^ Z.of_nat 8) with 256. replace (256 + rw) with (rw + 1 * 256) by lia. apply Z.mod_add. lia.
Qed.
Lemma np_extra : forall f, np (slice_extra f).
Proof.
  induction f as [|f IH]; cbn [slice_extra]; [discriminate|]. apply np_bind; [apply np_safe, safe_peek_n|]. intro b. apply np_if; [apply np_ret|]. apply np_bind; [apply np_safe, safe_skip_n|]. intro. apply np_bind; [apply np_safe, safe_read_n|]. intro. apply IH.
Qed.
Lemma np_flags : np slice_flags.
Proof.
  unfold slice_flags. apply np_bind; [apply np_safe, safe_peek_n|]. intro b. apply np_bind; [|intro; apply np_safe, safe_skip_n]. apply np_if; [|apply np_ret].
  apply np_bind; [apply np_safe, safe_read1|]. intro. apply np_bind; [apply np_safe, safe_read1|]. intro. apply np_bind; [apply np_safe, safe_read_n|]. intro x. apply np_bind; [apply np_if; [discriminate | apply np_ret]|]. intros _ r r'. apply np_extra.
Qed.
Lemma slice_start : forall v f r r', slice v f r = (Panic, r') -> exists row t, 1 <= row <= 175 /\ rbits r = code row ++ t.
Proof.
  intros v f r r' H. unfold slice in H. destruct (bind (read_n 32) _ r) as [o r1] eqn:E.
  assert (X : forall a ra, read_n 32 r = (Ok a, ra) -> is_slice a = true -> exists row t, 1 <= row <= 175 /\ rbits r = code row ++ t).
  { intros a ra Q Is. apply read_after in Q. destruct Q as (_ & A). destruct (slice_code_of _ Is) as (rw & Hrw & _ & Ec). exists rw, (rbits ra). split; [exact Hrw|]. rewrite <- Ec. exact (after_bits _ _ _ A). }
  destruct o as [a|e| |]; try discriminate.
  - apply bind_ok_inv in E. destruct E as (c & ra & Q & E). destruct (is_slice c) eqn:Is; [eauto | discriminate].
  - apply np_panics in E; [|apply np_safe, safe_read_n]. destruct E as (c & ra & Q & E). destruct (is_slice c) eqn:Is; [eauto | discriminate].
Qed.
Definition rows_of (W H : Z) (f : image) : Prop :=
  im_ys f = 16 * W /\ pl_len (im_y f) = 256 * (W * H) /\ 8 * im_cs f * H <= pl_len (im_cb f) /\ 8 * im_cs f * H <= pl_len (im_cr f) /\ 0 <= im_cs f.
Lemma rows_shape : forall W H f g, shape f = shape g -> rows_of W H f -> rows_of W H g.
Proof. intros W H f g E. unfold shape in E. injection E as E1 E2 E3 E4 E5 E6 E7. unfold rows_of. now rewrite E3, E4, E5, E6, E7. Qed.
Lemma slice_panics : forall W H v y q sh frame r r', v_ph v = Some (pic_of (y_hdr y)) -> v_pce v = Some (pce_of (y_pce y)) -> v_se v = Some sh -> se_chroma sh = y_chroma y ->
  v_sh v = Some q -> sh_vertical q = y_vertical y -> y_type y = 1 -> e_conceal (y_pce y) = false -> 0 <= W -> drawn W H y frame -> rows_of W H frame -> slice v frame r = (Panic, r') ->
  exists row t, 1 <= row <= 175 /\ rbits r = code row ++ t /\ bad_slice y W H row t.
Proof.
  intros W H v y q sh frame r r' Hph Hpce Hse Hc Hsh Hv T C HW D (Y1 & Y2 & Y3 & Y4 & Y5) E. unfold slice in E.
  match type of E with match ?m r with _ => _ end = _ => destruct (m r) as [o r1] eqn:E1 end.
  assert (X : exists c0 q1, read_n 32 r = (Ok c0, q1) /\ is_slice c0 = true).
  { destruct o as [a|e| |]; try discriminate; [apply bind_ok_inv in E1 | apply np_panics in E1; [|apply np_safe, safe_read_n] ]; destruct E1 as (c & ra & Q & E1); exists c, ra; (split; [exact Q|]); destruct (is_slice c); [reflexivity | discriminate | reflexivity | discriminate]. }
  destruct X as (c0 & q1 & R & Is). unfold bind at 1 in E1. rewrite R, Is in E1. cbn [negb] in E1. apply read_after in R. destruct R as (_ & A0). destruct (slice_code_of _ Is) as (row & Hrow & -> & Ec). rewrite Ec in A0.
  assert (Er : u32 (Z.land (256 + row) 255 - 1) = row - 1).
  { change 255 with (Z.ones 8). rewrite Z.land_ones by lia. change (2 ^ 8) with 256. replace (256 + row) with (row + 1 * 256) by lia. rewrite Z.mod_add, Z.mod_small by lia. unfold u32. apply Z.mod_small. change (2 ^ 32) with 4294967296. lia. }
  rewrite Er, Hpce in E1. cbn [deref] in E1. rewrite bind_ret in E1. cbv zeta in E1. exists row, (rbits q1). split; [exact Hrow|]. split; [exact (after_bits _ _ _ A0)|].
  destruct (Z.lt_ge_cases (H + 1) row) as [L|L]; [now left|]. right.
  replace ((16 * (row - 1) * im_ys frame <=? pl_len (im_y frame)) && (8 * (row - 1) * im_cs frame <=? pl_len (im_cb frame)) && (8 * (row - 1) * im_cs frame <=? pl_len (im_cr frame))) with true in E1.
  2: { symmetry. rewrite Y1, Y2. rewrite !andb_true_iff, !Z.leb_le. assert (W * (row - 1) <= W * H) by (apply Z.mul_le_mono_nonneg_l; lia). assert (im_cs frame * (row - 1) <= im_cs frame * H) by (apply Z.mul_le_mono_nonneg_l; lia). nia. }
  rewrite Hsh in E1. cbn [deref] in E1. rewrite bind_ret in E1.
  assert (X : exists ext qs fl q4, only_if (2800 <? y_vertical y) (width 3) ext /\ width 5 qs /\ match fl with Some (_, extra) => bytes extra | None => True end /\ after q1 (ext ++ qs ++ flags_code fl) q4 /\ o = Ok (pce_of (y_pce y), row - 1, dec qs) /\ r1 = q4).
  { apply bind_np in E1; [|apply np_when, np_safe; safe_tac]. destruct E1 as [E1 | (u & q2 & E2 & E1)]; [destruct o; try contradiction; discriminate|].
    assert (X : exists ext, only_if (2800 <? y_vertical y) (width 3) ext /\ after q1 ext q2).
    { rewrite Z.gtb_ltb, Hv in E2. unfold when in E2. destruct (2800 <? y_vertical y); cbn [only_if].
      - apply bind_ok_inv in E2. destruct E2 as (z & q3 & E2 & E3). inversion E3; subst. apply read_after in E2. destruct E2 as (_ & E2). exists (enc 3 z). split; [apply enc_length | exact E2].
      - inversion E2; subst. exists []. split; [reflexivity | apply after_nil]. }
    destruct X as (ext & O1 & A1). apply bind_np in E1; [|apply np_safe, safe_read_n]. destruct E1 as [E1 | (qs & q3 & E3 & E1)]; [destruct o; try contradiction; discriminate|]. apply read_after in E3. destruct E3 as (B3 & A3).
    apply bind_np in E1; [|apply np_flags]. destruct E1 as [E1 | (u2 & q4 & E4 & E1)]; [destruct o; try contradiction; discriminate|]. apply slice_flags_after in E4. destruct E4 as (fl & Wf & A4).
    exists ext, (enc 5 qs), fl, q4. split; [exact O1|]. split; [apply enc_length|]. split; [exact Wf|]. split; [eapply after_app; [exact A1|]; eapply after_app; eauto|]. rewrite dec_enc by exact B3. unfold ret in E1. split; congruence. }
  destruct X as (ext & qs & fl & q4 & O1 & O2 & O3 & A1 & -> & ->).
  match type of E with match ?lp with _ => _ end = _ => destruct lp as [[u|er| |] [m r2] ] eqn:El end; try discriminate.
  - apply np_panics in E; [|apply np_safe, safe_nsc]. destruct E as (? & ? & _ & E). discriminate.
  - apply (loop_panics W H v y sh) in El; try assumption; try lia. destruct El as (ms & d & Q & Fa & B). cbn [snd] in Q. replace (row - 1 + 1) with row in B by lia.
    exists ext, qs, fl, ms, d. split; [rewrite (after_bits _ _ _ A1), Q, <- !app_assoc; reflexivity|]. auto.
Qed.
Lemma slices_panics : forall (P : Z -> list bool -> Prop) (I : image -> Prop) v y q sh, v_ph v = Some (pic_of (y_hdr y)) -> v_pce v = Some (pce_of (y_pce y)) -> v_se v = Some sh -> se_chroma sh = y_chroma y ->
  v_sh v = Some q -> sh_vertical q = y_vertical y -> (forall f g, shape f = shape g -> I f -> I g) ->
  (forall f r r', I f -> slice v f r = (Panic, r') -> exists row t, 1 <= row <= 175 /\ rbits r = code row ++ t /\ P row t) ->
  forall f frame r r', rlater r = [] -> I frame -> slices f v frame r = (Panic, r') ->
  exists ss row t, rbits r = concat ss ++ code row ++ t /\ 1 <= row <= 175 /\ Forall (slice_syn (mb_ok y) y) ss /\ P row t.
Proof.
  intros P I v y q sh Hph Hpce Hse Hc Hsh Hv HI HP. induction f as [|f IH]; intros frame r r' Hr Hi E; cbn [slices] in E; [discriminate|].
  apply bind_panics in E. destruct E as [E | (fr & r1 & E1 & E)].
  - apply HP in E; [|exact Hi]. destruct E as (row & t & Hrow & Q & Pt). exists [], row, t. split; [exact Q|]. split; [exact Hrow|]. split; [constructor | exact Pt].
  - pose proof (slice_shape _ _ _ _ _ E1) as Sh. apply (slice_after v y q sh) in E1; try assumption. destruct E1 as (_ & (c & S & A) & Rd).
    apply np_panics in E; [|apply np_safe, safe_peek_n]. destruct E as (nb & r2 & E2 & E). apply peek_after in E2. destruct E2 as (-> & _). destruct (is_slice nb); [|discriminate].
    apply IH in E; [|rewrite (after_later _ _ _ A); exact Hr|eapply HI; [symmetry; exact Sh | exact Hi] ]. destruct E as (ss & row & t & Q & Hrow & Fa & Pt).
    exists (c :: ss), row, t. split; [cbn [concat]; rewrite (after_bits _ _ _ A), Q, <- app_assoc; reflexivity|]. split; [exact Hrow|]. split; [now constructor | exact Pt].
Qed.

Lemma sized_buffer : forall w h, 0 <= w -> 0 <= h -> sized (mbs w) (mbs h) (create_frame_buffer w h 1).
Proof.
  intros w h Hw Hh. unfold create_frame_buffer. cbv zeta. rewrite !whole_eq by lia. change (1 =? ChromaFormat420) with true. cbn match.
  assert (E : forall n, 0 <= n -> whole n = 16 * mbs n /\ Z.quot (whole n + 1) 2 = 8 * mbs n).
  { intros n Hn. assert (whole n = 16 * mbs n) by (unfold whole, mbs; ring). split; [assumption|]. assert (0 <= mbs n) by (apply Z.div_pos; lia). rewrite Z.quot_div_nonneg by lia. symmetry. apply Z.div_unique with 1; lia. }
  destruct (E w Hw) as (E1 & E2). destruct (E h Hh) as (E3 & E4). unfold new_ycbcr, sized, zero_plane. cbn [im_ys im_cs im_y im_cb im_cr pl_len]. rewrite E2, E4, E1, E3. repeat split; ring.
Qed.
Lemma rows_buffer : forall w h c, 0 <= w -> 0 <= h -> rows_of (mbs w) (mbs h) (create_frame_buffer w h c).
Proof.
  intros w h c Hw Hh. unfold create_frame_buffer. cbv zeta. rewrite !whole_eq by lia.
  assert (E : forall n, 0 <= n -> whole n = 16 * mbs n /\ Z.quot (whole n + 1) 2 = 8 * mbs n /\ 0 <= mbs n).
  { intros n Hn. assert (whole n = 16 * mbs n) by (unfold whole, mbs; ring). split; [assumption|]. assert (0 <= mbs n) by (apply Z.div_pos; lia). split; [|assumption]. rewrite Z.quot_div_nonneg by lia. symmetry. apply Z.div_unique with 1; lia. }
  destruct (E w Hw) as (E1 & E2 & E5). destruct (E h Hh) as (E3 & E4 & E6). unfold rows_of.
  destruct (c =? ChromaFormat420); [|destruct (c =? ChromaFormat422)]; unfold new_ycbcr, zero_plane; cbn [im_ys im_cs im_y im_cb im_cr pl_len]; rewrite ?E2, ?E4, ?E1, ?E3; repeat split; nia.
Qed.
Lemma picture_panics : forall v p e s x r r', v_ph v = Some (pic_of p) -> v_pce v = Some (pce_of e) -> knows v (Some (s, x)) -> wf_seq s -> wf_sext x -> rlater r = [] ->
  picture_data v r = (Panic, r') -> bad_picture (s, x) p e (rbits r).
Proof.
  intros v p e s x r r' Hph Hpce (Hsh & Hse) Ws Wx Hr H. unfold picture_data in H.
  assert (Sz : size v = (4096 * x_h x + q_horizontal s, 4096 * x_v x + q_vertical s)).
  { unfold size. rewrite Hsh, Hse. cbn [sh_horizontal sh_vertical se_hext se_vext seq_of sext_of]. destruct Ws as (W1 & W2 & _). unfold wf_sext in Wx. f_equal; apply PropertiesVidHeaders.size_parts; tauto. }
  assert (P : 0 <= 4096 * x_h x + q_horizontal s /\ 0 <= 4096 * x_v x + q_vertical s).
  { destruct Ws as (W1 & W2 & _). unfold wf_sext in Wx. assert (0 <= x_h x /\ 0 <= x_v x) by (split; apply Wx). lia. }
  rewrite Sz, Hse in H. cbn [deref] in H. rewrite bind_ret in H. apply bind_panics in H. destruct H as [H | (fr & r1 & _ & H)].
  2: { apply np_panics in H; [|apply np_safe, safe_nsc]. destruct H as (? & ? & _ & H). discriminate. }
  set (y := mkLayer p e (x_chroma x) (q_vertical s)). unfold bad_picture. cbn [fst snd]. fold y.
  assert (K : (y_type y <> 1 \/ e_conceal e = true \/ y_chroma y = 2 \/ y_chroma y = 3) \/ (y_type y = 1 /\ e_conceal e = false /\ y_chroma y <> 2 /\ y_chroma y <> 3)).
  { destruct (Z.eq_dec (y_type y) 1); [|auto]. destruct (e_conceal e); [auto|]. destruct (Z.eq_dec (y_chroma y) 2); [auto|]. destruct (Z.eq_dec (y_chroma y) 3); [auto 6|]. auto. }
  destruct K as [K | (K1 & K2 & K3 & K4)].
  - apply (slices_panics (fun _ _ => True) (fun _ => True) v y (seq_of s) (sext_of x)) in H; auto.
    + destruct H as (ss & row & t & Q & Hrow & Fa & _). exists ss, row, t. split; [exact Q|]. split; [exact Hrow|]. split; [exact Fa|]. tauto.
    + intros f r0 r1 _ E. apply slice_start in E. destruct E as (row & t & Hrow & Q). eauto.
  - apply (slices_panics (bad_slice y (stream_w (s, x)) (stream_h (s, x))) (fun f => drawn (stream_w (s, x)) (stream_h (s, x)) y f /\ rows_of (stream_w (s, x)) (stream_h (s, x)) f) v y (seq_of s) (sext_of x)) in H; auto.
    + destruct H as (ss & row & t & Q & Hrow & Fa & B). exists ss, row, t. auto 8.
    + intros f g E (D & R). split; [eapply drawn_shape; eauto | eapply rows_shape; eauto].
    + intros f r0 r1 (D & R) E. eapply (slice_panics (stream_w (s, x)) (stream_h (s, x)) v y (seq_of s) (sext_of x)); eauto. unfold stream_w, mbs. cbn [fst snd]. apply Z.div_pos; lia.
    + split; [|apply rows_buffer; apply P]. cbn [se_chroma sext_of]. change (x_chroma x) with (y_chroma y). destruct (Z.eq_dec (y_chroma y) 1) as [C|C].
      * right. rewrite C. split; [unfold y_blocks; now rewrite C | apply sized_buffer; apply P].
      * left. unfold y_blocks. rewrite (proj2 (Z.eqb_neq _ _) C), (proj2 (Z.eqb_neq _ _) K3), (proj2 (Z.eqb_neq _ _) K4). reflexivity.
Qed.

(** * Headers *)
Lemma scalable_panics : forall r r', sequence_scalable_extension r = (Panic, r') -> exists t, rbits r = enc 4 5 ++ t /\ (6 <= length t)%nat.
Proof.
  intros r r' H. unfold sequence_scalable_extension in H. apply np_panics in H; [|apply np_safe, safe_id_assert]. destruct H as (u & r1 & E & H). apply id_assert_after in E.
  apply np_panics in H; [|apply np_safe, safe_read_n]. destruct H as (a & r2 & E2 & H). apply read_after in E2. destruct E2 as (_ & A2). apply np_panics in H; [|apply np_safe, safe_read_n]. destruct H as (b & r3 & E3 & H). apply read_after in E3. destruct E3 as (_ & A3).
  exists (rbits r1). split; [exact (after_bits _ _ _ E)|]. rewrite (after_bits _ _ _ A2), (after_bits _ _ _ A3), !app_length, !enc_length. lia.
Qed.
Lemma body_panics : forall i v r s', (i = 0 \/ i = 2) -> extension_body i (v, r) = (Panic, s') -> unsupported (i =? 2) (code extension_code ++ rbits r).
Proof.
  intros i v r s' Hi H. unfold extension_body in H. destruct Hi as [-> | ->]; cbn [Z.eqb Pos.eqb] in *.
  - apply np_panics in H; [|apply np_onr, np_safe, safe_peek_n]. destruct H as (id & [v1 r1] & E & H). apply onr_inv in E. destruct E as (F & E). cbn [fst snd] in F, E. apply peek_after in E. destruct E as (-> & _ & _). subst v1.
    destruct (id =? SequenceDisplayExtensionID).
    + apply np_panics in H; [|apply np_onr, np_safe, safe_disp]. destruct H as (? & ? & _ & H). discriminate.
    + apply onr_panics in H. destruct H as (r2 & H). cbn [snd] in H. apply scalable_panics in H. destruct H as (t & -> & L). exists 5, t. auto.
  - apply np_panics in H; [|apply np_onr, np_safe, safe_peek_n]. destruct H as (id & [v1 r1] & E & H). apply onr_inv in E. destruct E as (F & E). cbn [fst snd] in F, E. apply peek_after in E. destruct E as (-> & _ & t & Q). subst v1.
    destruct (id =? QuantMatrixExtensionID); [exfalso; revert H; apply np_safe, safe_quant|].
    destruct (Z.eqb_spec id CopyrightExtensionID) as [->|_]; [exists 4, t; rewrite Q; split; [reflexivity | cbn; auto]|].
    destruct (Z.eqb_spec id PictureDisplayExtensionID) as [->|_]; [exists 7, t; rewrite Q; split; [reflexivity | cbn; auto]|].
    destruct (Z.eqb_spec id PictureSpatialScalableExtensionID) as [->|_]; [exists 9, t; rewrite Q; split; [reflexivity | cbn; auto]|].
    apply np_panics in H; [|apply np_onr, np_safe, safe_temp]. destruct H as (? & ? & _ & H). discriminate.
Qed.
Definition stuck (i : Z) (r : reader) : Prop := exists xs cs t, Forall2 xitem_syn xs cs /\ Forall (allowed i) xs /\ rbits r = concat cs ++ t /\ unsupported (i =? 2) t /\ i <> 1.
Lemma stuck_app : forall i r r1, items_after i r r1 -> stuck i r1 -> stuck i r.
Proof.
  intros i r r1 (xs & cs & F & A & Q) (ys & ds & t & F' & A' & Q' & U). exists (xs ++ ys), (cs ++ ds), t. split; [now apply Forall2_app|]. split; [now apply Forall_app|]. split; [|exact U].
  rewrite concat_app, (after_bits _ _ _ Q), Q', <- app_assoc. reflexivity.
Qed.
Lemma data_panics : forall f i v r s', rlater r = [] -> ready r -> (i = 0 \/ i = 2) -> extension_data f i (v, r) = (Panic, s') -> stuck i r.
Proof.
  induction f as [|f IH]; intros i v r s' Hr Rd Hi H; cbn [extension_data] in H; [discriminate|].
  apply np_panics in H; [|apply np_onr, np_safe, safe_peek_n]. destruct H as (b & [v1 r1] & E & H). apply onr_inv in E. destruct E as (F & E). cbn [fst snd] in F, E. apply peek_after in E. destruct E as (-> & _ & t & Q). subst v1.
  destruct (Z.eqb_spec b ExtensionStartCode) as [Eb|_]; cbn [negb] in H; [|discriminate]. subst b. change (enc 32 ExtensionStartCode) with (code extension_code) in Q.
  apply np_panics in H; [|apply np_safe, safe_ignore, safe_onr, safe_skip_n]. destruct H as ([] & [v1 r1] & E & H). unfold ignore_err, onr in E. cbn [fst snd] in E. rewrite (skip32_after r extension_code t ltac:(unfold extension_code; lia) Q) in E. inversion E; subst v1 r1. clear E.
  apply bind_panics in H. destruct H as [H | ([] & [v1 r1] & E & H)].
  - apply body_panics in H; [|exact Hi]. rewrite rbits_setb in H. exists [], [], (rbits r). split; [constructor|]. split; [constructor|]. split; [reflexivity|]. rewrite Q. split; [exact H | lia].
  - apply body_after in E; [|exact Hr|exact Hi]. destruct E as (F1 & x & c & W & A & Q1 & Rd1).
    assert (A0 : after r (code extension_code ++ c) r1). { eapply after_app; [|exact Q1]. apply after_intro; [rewrite rbits_setb; exact Q | now rewrite rbits_setb]. }
    apply IH in H; [|rewrite (after_later _ _ _ A0); exact Hr|exact Rd1|exact Hi]. eapply stuck_app; [|exact H]. eapply items_one; eauto.
Qed.
Lemma ext_user_panics : forall f i v r s', rlater r = [] -> ready r -> (i = 0 \/ i = 1 \/ i = 2) -> ext_user_loop f i (v, r) = (Panic, s') -> stuck i r.
Proof.
  induction f as [|f IH]; intros i v r s' Hr Rd Hi H; cbn [ext_user_loop] in H; [discriminate|].
  apply np_panics in H; [|apply np_onr, np_safe, safe_peek_n]. destruct H as (b & [v1 r1] & E & H). apply onr_inv in E. destruct E as (F & E). cbn [fst snd] in F, E. apply peek_after in E. destruct E as (-> & _ & t & Q). subst v1.
  destruct (negb (b =? ExtensionStartCode) && negb (b =? UserDataStartCode)) eqn:Eb; [discriminate|].
  apply bind_panics in H. destruct H as [H | ([] & [v1 r1] & E & H)].
  - destruct (negb (i =? 1) && (b =? ExtensionStartCode)) eqn:E1.
    + apply data_panics in H; auto. apply andb_true_iff in E1. destruct E1 as (E1 & _). apply negb_true_iff, Z.eqb_neq in E1. lia.
    + destruct (b =? UserDataStartCode); [|discriminate]. apply np_panics in H; [|apply np_onr, np_safe, safe_user]. destruct H as (? & ? & _ & H). discriminate.
  - assert (X : headers v1 = headers v /\ items_after i r r1 /\ ready r1).
    { destruct (negb (i =? 1) && (b =? ExtensionStartCode)) eqn:E1.
      - apply data_after in E; [exact E|exact Hr|exact Rd|]. apply andb_true_iff in E1. destruct E1 as (E1 & _). apply negb_true_iff, Z.eqb_neq in E1. lia.
      - destruct (b =? UserDataStartCode).
        + apply bind_ok_inv in E. destruct E as (d & [v2 r2] & E & E2). inversion E2; subst. apply onr_inv in E. destruct E as (F & E). cbn [fst snd] in F, E. subst v1.
          apply user_after in E; [|exact Rd]. destruct E as (W & A & R). split; [reflexivity|]. split; [|exact R]. eapply items_one; [exact W | exact I | exact A].
        + inversion E; subst. split; [reflexivity|]. split; [apply items_nil | exact Rd]. }
    destruct X as (F1 & I1 & R1). apply IH in H; [|rewrite (items_later _ _ _ I1); exact Hr|exact R1|exact Hi]. eapply stuck_app; eauto.
Qed.
Lemma ext_panics : forall i v r s', rlater r = [] -> ready r -> (i = 0 \/ i = 1 \/ i = 2) -> extension_and_user_data i (v, r) = (Panic, s') ->
  i <> 1 /\ exists c t, xitems_syn i c /\ rbits r = c ++ t /\ unsupported (i =? 2) t.
Proof.
  intros i v r s' Hr Rd Hi H. apply ext_user_panics in H; [|assumption..]. destruct H as (xs & cs & t & A & B & Q & U & N). split; [exact N|]. exists (concat cs), t. split; [exists xs, cs; auto | auto].
Qed.

(** * The stream *)
Definition wfo (o : option (sseq * ssext)) : Prop := match o with None => True | Some (s, x) => wf_seq s /\ wf_sext x end.
Lemma more_panics : forall s x v r s', rlater r = [] -> ready r -> knows v (Some (s, x)) -> wf_seq s -> wf_sext x -> more_frames (v, r) = (Panic, s') -> bad_coded_picture (s, x) (rbits r).
Proof.
  intros s x v r s' Hr Rd K Ws Wx H. unfold more_frames in H.
  apply np_panics in H; [|apply np_onr, np_safe, safe_peek_n]. destruct H as (nb & [v0 r0] & E & H). apply onr_inv in E. destruct E as (F & E). cbn [fst snd] in F, E. apply peek_after in E. destruct E as (-> & _ & _). subst v0.
  apply bind_panics in H. destruct H as [H | (u & [v1 r1] & E & H)].
  { destruct (nb =? GroupStartCode); [|discriminate]. apply np_panics in H; [|apply np_onr, np_safe, safe_gop]. destruct H as (g & [v2 r2] & E1 & H). apply onr_inv in E1. destruct E1 as (F & E1). cbn [fst snd] in F, E1. subst v2. apply gop_after in E1. destruct E1 as (sg & gp & t & W & G & A & Q & M & _).
    apply np_panics in H; [|apply np_upd]. destruct H as (u2 & s3 & E1 & H). apply upd_inv in E1. subst s3. cbn [fst snd] in H.
    apply ext_panics in H; [|rewrite (after_later _ _ _ A); exact Hr|exists t; auto|auto]. destruct H as (N & _). now elim N. }
  assert (X : knows v1 (Some (s, x)) /\ ready r1 /\ exists c2, (group_syn c2 \/ c2 = []) /\ after r c2 r1).
  { destruct (nb =? GroupStartCode).
    - apply bind_ok_inv in E. destruct E as (g & [v2 r2] & E1 & E). apply onr_inv in E1. destruct E1 as (F & E1). cbn [fst snd] in F, E1. subst v2. apply gop_after in E1. destruct E1 as (sg & gp & t & W & G & A & Q & M & _).
      apply bind_ok_inv in E. destruct E as (u2 & s3 & E1 & E). apply upd_inv in E1. subst s3. cbn [fst snd] in E.
      apply extension_and_user_data_after in E; [|rewrite (after_later _ _ _ A); exact Hr|exists t; auto|auto]. destruct E as (Hh & (c & Xi & A2) & Rd2).
      split; [eapply knows_headers; [exact Hh | exact K]|]. split; [exact Rd2|]. exists ((enc_gop sg ++ gp) ++ c). split; [left; exists sg, gp, c; split; [exact W|]; split; [exact G|]; split; [exact Xi | now rewrite <- app_assoc] | eapply after_app; eauto].
    - inversion E; subst. split; [exact K|]. split; [exact Rd|]. exists []. split; [now right | apply after_nil]. }
  destruct X as (K1 & Rd1 & c2 & G2 & A1). clear E u.
  assert (R1 : rlater r1 = []) by (rewrite (after_later _ _ _ A1); exact Hr).
  apply np_panics in H; [|apply np_safe, safe_vs_pic]. destruct H as (u & [v2 r2] & E & H). apply assign_after in E. destruct E as (ph & q1 & g1 & E & -> & G1 & Ag1 & Rd2). apply pic_after in E. destruct E as (p & Wp & Ap & ->).
  apply np_panics in H; [|apply np_safe, safe_vs_pce]. destruct H as (u2 & [v3 r3] & E & H). apply assign_after in E. destruct E as (pe & q2 & g2 & E & -> & G3 & Ag2 & Rd3). apply pce_after in E. destruct E as (e & We & Ae & ->).
  pose proof (after_app _ _ _ _ _ Ap Ag1) as X1. pose proof (after_app _ _ _ _ _ Ae Ag2) as X2. pose proof (after_app _ _ _ _ _ X1 X2) as X3. pose proof (after_app _ _ _ _ _ A1 X3) as X4. rewrite <- !app_assoc in X4.
  assert (R3 : rlater r3 = []) by (rewrite (after_later _ _ _ X3); exact R1).
  apply bind_panics in H. destruct H as [H | (u3 & [v4 r4] & E & H)].
  { apply ext_panics in H; [|exact R3|exact Rd3|auto]. destruct H as (_ & c & t & Xi & Q & U). exists c2, p, e, g1, g2, c, t. repeat (split; [assumption|]). split; [|now left].
    rewrite (after_bits _ _ _ X4), Q, <- !app_assoc. reflexivity. }
  apply extension_and_user_data_after in E; [|exact R3|exact Rd3|auto]. destruct E as (Hh & (ci & Xi & Ai) & Rd4).
  assert (R4 : rlater r4 = []) by (rewrite (after_later _ _ _ Ai); exact R3).
  rewrite bind_own in H. unfold headers in Hh. cbn [v_sh v_se v_ph v_pce set_ph set_pce] in Hh. injection Hh as H1 H2 H3 H4. cbn [fst snd] in H. rewrite H3 in H.
  cbn [deref] in H. rewrite bind_ret in H. rewrite bind_upd in H. rewrite bind_own in H. cbn [fst snd] in H.
  apply bind_panics in H. destruct H as [H | (fr & [v5 r5] & _ & H)].
  - apply onr_panics in H. destruct H as (r5 & H). cbn [fst snd] in H. destruct K1 as (K1 & K2). eapply picture_panics in H; [|exact H3|exact H4|split; [rewrite <- K1; exact H1 | rewrite <- K2; exact H2]|exact Ws|exact Wx|exact R4].
    exists c2, p, e, g1, g2, ci, (rbits r4). repeat (split; [assumption|]). split; [|now right]. rewrite (after_bits _ _ _ X4), (after_bits _ _ _ Ai), <- !app_assoc. reflexivity.
  - apply bind_panics in H. destruct H as [H | (? & ? & _ & H)]; [|discriminate]. destruct (_ || _) in H; discriminate.
Qed.
Lemma restart_panics : forall v r u v1 r1 u2 v2 r2 s', rlater r = [] -> vs_sequence_header (v, r) = (Ok u, (v1, r1)) -> vs_sequence_extension (v1, r1) = (Ok u2, (v2, r2)) ->
  continue_frames (v2, r2) = (Panic, s') -> exists h c1 d1, rbits r = c1 ++ d1 /\ start_syn h c1 /\ (unsupported false d1 \/ bad_coded_picture h d1).
Proof.
  intros v r u v1 r1 u2 v2 r2 s' Hr E1 E2 H. apply header_after in E1. destruct E1 as (s & g1 & Ws & G1 & A1 & Rd1 & K1).
  apply assign_after in E2. destruct E2 as (se & q & g2 & E & -> & G2 & A3 & Rd2). apply sext_after in E. destruct E as (x & Wx & A2 & ->). pose proof (after_app _ _ _ _ _ A2 A3) as A23. pose proof (after_app _ _ _ _ _ A1 A23) as A13.
  assert (R2 : rlater r2 = []) by (rewrite (after_later _ _ _ A13); exact Hr).
  assert (St : forall c, xitems_syn 0 c -> start_syn (s, x) (((enc_seq s ++ g1) ++ enc_sext x ++ g2) ++ c)). { intros c Xi. exists g1, g2, c. cbn [fst snd]. repeat (split; [assumption|]). now rewrite <- !app_assoc. }
  unfold continue_frames in H. apply bind_panics in H. destruct H as [H | (u3 & [v3 r3] & E & H)].
  - apply ext_panics in H; [|exact R2|exact Rd2|auto]. destruct H as (_ & c & t & Xi & Q & U). exists (s, x), (((enc_seq s ++ g1) ++ enc_sext x ++ g2) ++ c), t. split; [rewrite (after_bits _ _ _ A13), Q, <- (app_assoc _ c t); reflexivity|]. split; [now apply St | now left].
  - apply extension_and_user_data_after in E; [|exact R2|exact Rd2|auto]. destruct E as (Hh & (c & Xi & A) & Rd3). apply (more_panics s x) in H; [|rewrite (after_later _ _ _ A); exact R2|exact Rd3|eapply knows_headers; [exact Hh|]; split; [exact K1 | reflexivity]|exact Ws|exact Wx].
    exists (s, x), (((enc_seq s ++ g1) ++ enc_sext x ++ g2) ++ c), (rbits r3). split; [rewrite (after_bits _ _ _ A13), (after_bits _ _ _ A), <- (app_assoc _ c); reflexivity|]. split; [now apply St | now right].
Qed.
Lemma step_panics : forall o v r s', rlater r = [] -> knows v o -> wfo o -> (o <> None -> ready r) -> step (v, r) = (Panic, s') -> bad_piece o (rbits r).
Proof.
  intros o v r s' Hr K Wo Rd H. unfold step in H. rewrite bind_own in H. cbn [fst snd] in H. destruct o as [ [s x]|]; cbn [knows] in K.
  - rewrite (proj1 K) in H. specialize (Rd ltac:(discriminate)). destruct Wo as (Ws & Wx).
    apply np_panics in H; [|apply np_onr, np_safe, safe_peek_n]. destruct H as (nb & [v0 r0] & E & H). apply onr_inv in E. destruct E as (F & E). cbn [fst snd] in F, E. apply peek_after in E. destruct E as (-> & _ & _). subst v0.
    destruct (_ || _) in H.
    + apply (more_panics s x) in H; [|assumption..]. exists [], (s, x), [], (rbits r). split; [reflexivity|]. split; [reflexivity|]. right. auto.
    + apply np_panics in H; [|apply np_onr, np_safe, safe_peek_n]. destruct H as (nb2 & [v0 r0] & E & H). apply onr_inv in E. destruct E as (F & E). cbn [fst snd] in F, E. apply peek_after in E. destruct E as (-> & _ & _). subst v0.
      destruct (_ =? _) in H; [apply np_panics in H; [|apply np_onr, np_safe, safe_skip_n]; destruct H as (? & ? & _ & H); discriminate|].
      apply np_panics in H; [|apply np_safe, safe_vs_seq]. destruct H as (u & [v1 r1] & E1 & H). apply np_panics in H; [|apply np_safe, safe_vs_sext]. destruct H as (u2 & [v2 r2] & E2 & H).
      destruct (restart_panics _ _ _ _ _ _ _ _ _ Hr E1 E2 H) as (h & c1 & d1 & Q & S & B). exists [], h, c1, d1. split; [exact Q|]. split; [reflexivity|]. left. auto.
  - rewrite K in H. apply np_panics in H; [|apply np_onr, np_safe, safe_nsc]. destruct H as (u0 & [v0 r0] & E & H). apply onr_inv in E. destruct E as (F & E). cbn [fst snd] in F, E. subst v0. apply gap_after in E. destruct E as (g & t & G0 & A0 & _ & _).
    apply np_panics in H; [|apply np_safe, safe_vs_seq]. destruct H as (u & [v1 r1] & E1 & H).
    apply np_panics in H; [|apply np_onr, np_safe, safe_peek_n]. destruct H as (nb & [v3 r3] & E & H). apply onr_inv in E. destruct E as (F & E). cbn [fst snd] in F, E. apply peek_after in E. destruct E as (-> & _ & _). subst v3.
    destruct (negb _) in H; [discriminate|]. apply np_panics in H; [|apply np_safe, safe_vs_sext]. destruct H as (u2 & [v2 r2] & E2 & H).
    assert (Hr0 : rlater r0 = []) by (rewrite (after_later _ _ _ A0); exact Hr).
    destruct (restart_panics _ _ _ _ _ _ _ _ _ Hr0 E1 E2 H) as (h & c1 & d1 & Q & S & B). exists g, h, c1, d1. split; [rewrite (after_bits _ _ _ A0), Q; reflexivity|]. split; [exact G0|]. left. auto.
Qed.
Lemma piece_wf : forall mb o h c, wfo o -> piece_syn mb o h c -> wfo (Some h).
Proof.
  intros mb o [s x] c W (c0 & c1 & c2 & p & e & c3 & _ & _ & [S | (-> & _)] & _); [|exact W]. destruct S as (? & ? & ? & Ws & Wx & _). split; assumption.
Qed.
Lemma stream_wf : forall mb o o' c, wfo o -> stream_syn mb o o' c -> wfo o'.
Proof. intros mb o o' c W H. induction H as [|o h o' c e P H IH]; [exact W|]. apply IH. eapply piece_wf; eauto. Qed.
Lemma bad_later : forall o h c d, piece_syn mb_ok o h c -> bad_stream (Some h) d -> bad_stream o (c ++ d).
Proof. intros o h c d P (o' & c1 & d1 & -> & S & B). exists o', (c ++ c1), d1. split; [now rewrite app_assoc|]. split; [econstructor; eauto | exact B]. Qed.
Lemma picture_ph : forall v r f r', picture_data v r = (Ok f, r') -> exists h, v_ph v = Some h.
Proof.
  intros v r f r' H. unfold picture_data in H. destruct (size v) as [w h]. apply bind_ok_inv in H. destruct H as (se & r1 & _ & H). apply bind_ok_inv in H. destruct H as (fr & r2 & H & _).
  cbn [slices] in H. apply bind_ok_inv in H. destruct H as (fr1 & r3 & H & _). unfold slice in H. destruct (bind _ _ r1) as [ [ [ [e row] q]|er| |] r4]; try discriminate.
  match type of H with match ?lp with _ => _ end = _ => destruct lp as [ [u|er| |] [m r5] ] eqn:E end; try discriminate. cbn [slice_loop] in E. apply bind_ok_inv in E. destruct E as (a & s1 & E & _).
  unfold macroblock in E. apply bind_ok_inv in E. destruct E as (n & s2 & _ & E). apply bind_ok_inv in E. destruct E as (ph & s3 & E & _). destruct (v_ph v); [eauto | discriminate].
Qed.
Lemma next_loop_panics : forall f o v r s', rlater r = [] -> knows v o -> wfo o -> (o <> None -> ready r) -> next_loop f (v, r) = (Panic, s') -> bad_stream o (rbits r).
Proof.
  induction f as [|f IH]; intros o v r s' Hr K Wo Rd H; cbn [next_loop] in H; [discriminate|].
  apply bind_panics in H. destruct H as [H | (im & [v1 r1] & E & H)].
  - apply (step_panics o) in H; [|assumption..]. exists o, [], (rbits r). split; [reflexivity|]. split; [constructor | exact H].
  - assert (Ph : exists h, v_ph v1 = Some h). { apply step_decoded in E. destruct E as (v2 & r2 & r3 & P & _ & _ & Q & _). rewrite <- Q. exact (picture_ph _ _ _ _ P). }
    destruct (step_after _ _ _ _ _ _ Hr K Rd E) as (h & c & K1 & Rd1 & P & A).
    rewrite bind_own in H. cbn [fst snd] in H. destruct Ph as (ph & Ph). rewrite Ph in H. cbn [deref] in H. rewrite bind_ret in H.
    destruct (ph_tr ph =? v_fc v1); [rewrite bind_upd in H; discriminate|].
    apply (IH (Some h)) in H; [|rewrite (after_later _ _ _ A); exact Hr|exact K1|eapply piece_wf; eauto|auto]. rewrite (after_bits _ _ _ A). eapply bad_later; eauto.
Qed.
Lemma next_panics : forall o v r s', rlater r = [] -> knows v o -> wfo o -> (o <> None -> ready r) -> next (v, r) = (Panic, s') -> bad_stream o (rbits r).
Proof.
  intros o v r s' Hr K Wo Rd H. unfold next in H. rewrite bind_own in H. cbn [fst snd] in H. destruct (fs_tryget (v_fc v) (v_fs v)); [rewrite bind_upd in H; discriminate|].
  now apply (next_loop_panics _ o) in H.
Qed.
Theorem nexts_panics : forall n o v r imgs v' r' s', rlater r = [] -> knows v o -> wfo o -> (o <> None -> ready r) -> nexts n (v, r) = (Ok imgs, (v', r')) -> next (v', r') = (Panic, s') ->
  bad_stream o (rbits r).
Proof.
  intros n o v r imgs v' r' s' Hr K Wo Rd E H. destruct (nexts_after _ _ _ _ _ _ _ Hr K Rd E) as (o' & c & K1 & Rd1 & S & A).
  apply (next_panics o') in H; [|rewrite (after_later _ _ _ A); exact Hr|exact K1|eapply stream_wf; eauto|exact Rd1]. destruct H as (o2 & c2 & d & Q & S2 & B).
  exists o2, (c ++ c2), d. split; [rewrite (after_bits _ _ _ A), Q, <- app_assoc; reflexivity|]. split; [eapply stream_app; eauto | exact B].
Qed.
