(** FormatProofs: what a decoded picture tells about its format.  Concealment vectors outside of
    frame_pred_frame_dct and chroma formats with more than six blocks never get past the first macroblock. *)
From Coq Require Import Lia.
From Verif Require Import Base BitReader Exec VidModel Huffman VlcTables BlockModel MbModel SpecVlc TsRobust VlcProofs NextProofs ShapeProofs.

Tactic Notation "nx" hyp(H) ident(a) ident(s) := apply bind_ok_inv in H; destruct H as (a & s & ? & H).

(** * The first macroblock *)
Lemma slice_first : forall v f r f' r', slice v f r = (Ok f', r') ->
  exists row a s s', macroblock v row (-1) s = (Ok a, s').
Proof.
  intros v f r f' r' H. unfold slice in H. destruct (bind (read_n 32) _ r) as [[ [ [e row] q ]|er| |] r1]; try discriminate.
  cbn [snd] in H. remember (length (rbits r1)) as n eqn:N. clear N. cbn [slice_loop] in H. unfold bind at 1 in H.
  destruct (macroblock v row (-1) (mkMS (dc_reset (pc_dc e)) mv_zero q f, r1)) as [[a|er| |] [m2 r2] ] eqn:E; try discriminate. eauto.
Qed.
Lemma picture_first : forall v r f r', picture_data v r = (Ok f, r') ->
  exists row a s s', macroblock v row (-1) s = (Ok a, s').
Proof.
  intros v r f r' H. unfold picture_data in H. destruct (size v) as [w h]. nx H se r1. nx H f1 r2.
  cbn [slices] in H1. nx H1 f2 r4. now apply slice_first in H2.
Qed.

(** * Concealment vectors *)
Lemma I_intra : forall r t r', mbtype_decode_I r = (Ok t, r') -> mb_intra t = true /\ mb_motion_forward t = false /\ mb_motion_backward t = false.
Proof.
  intros r t r' H. destruct mbtype_I_exact as (A & B).
  assert (X : forall c a, mbt_code b2 c (mbt_fields a) -> c = enc 1 1 /\ mbt_fields a = (false, false, false, false, true) \/ c = enc 2 1 /\ mbt_fields a = (true, false, false, false, true)).
  { intros c a (v & n & [K|[K|[] ] ] & ->); pose proof (f_equal fst K) as K1; pose proof (f_equal snd K) as K2; cbn [fst snd] in K1, K2; injection K1 as <- <-; auto. }
  assert (Y : (exists c a l, mbt_code b2 c (mbt_fields a) /\ rbits r = c ++ l) \/ (forall c a l, mbt_code b2 c (mbt_fields a) -> rbits r <> c ++ l)).
  { destruct (rbits r) as [|[] bits] eqn:E.
    - right. intros c a l K. destruct (X c a K) as [ (-> & _) | (-> & _) ]; discriminate.
    - left. exists (enc 1 1), (mkMBT false false false false true), bits. split; [exists 1, 1; split; [cbn; auto | reflexivity] | reflexivity].
    - destruct bits as [|[] bits].
      + right. intros c a l K. destruct (X c a K) as [ (-> & _) | (-> & _) ]; discriminate.
      + left. exists (enc 2 1), (mkMBT true false false false true), bits. split; [exists 1, 2; split; [cbn; auto | reflexivity] | reflexivity].
      + right. intros c a l K. destruct (X c a K) as [ (-> & _) | (-> & _) ]; discriminate. }
  destruct Y as [ (c & a & l & K & E) | Y ].
  - assert (R : r = setb r (c ++ l)) by (rewrite <- E; destruct r; reflexivity). rewrite R, (A c a r l K) in H. injection H as <- _.
    destruct (X c a K) as [ (_ & F) | (_ & F) ]; unfold mbt_fields in F; inversion F; auto.
  - destruct (B r Y) as (er & r1 & F). congruence.
Qed.

(** An intra macroblock with a concealment vector, in a frame picture without frame_pred_frame_dct *)
Lemma conceal_never : forall v row addr s a s' ph e, macroblock v row addr s = (Ok a, s') ->
  v_ph v = Some ph -> ph_type ph = IFrame -> v_pce v = Some e -> pc_conceal e = true -> pc_fpfd e = 0 -> False.
Proof.
  intros v row addr s a s' ph e H P T E C F. unfold macroblock in H. nx H incr s1. rewrite P, E in H. cbn [deref] in H.
  nx H ph0 s2. inversion H1; subst. nx H e0 s3. inversion H2; subst. cbv zeta in H. nx H u1 s4. nx H u2 s5. nx H u3 s6. nx H mb s7.
  assert (M : mb_intra (mo_type mb) = true /\ mo_frame_motion mb = 0 /\ mo_field_motion mb = 0).
  { unfold onr in H6. destruct (macroblock_mode _ _ _) as [[mb'|er| |] r1] eqn:Q; inversion H6; subst. unfold macroblock_mode in Q. rewrite T in Q.
    change (IFrame =? IFrame) with true in Q. cbv iota in Q.
    nx Q t r2. destruct (I_intra _ _ _ H7) as (I1 & I2 & I3). rewrite I2, I3 in Q. cbn [orb] in Q. nx Q mm r3. inversion H8; subst. nx Q d r4. inversion Q; subst. cbn. auto. }
  destruct M as (M1 & M2 & M3). nx H z1 t1. nx H z2 t2. nx H z3 t3. nx H z4 t4. nx H z5 t5.
  rewrite M1, C, orb_true_r in H11. cbn [andb when] in H11. unfold motion_vectors in H11. nx H11 i t6.
  unfold mv_info in H12. rewrite F, M2, M3 in H12. discriminate.
Qed.

(** * Blocks beyond the sixth *)
Lemma mapM_length : forall S A B (f : A -> M S B) l (s : S) a s', mapM f l s = (Ok a, s') -> length a = length l.
Proof.
  induction l as [|x l IH]; intros s a s' H; cbn [mapM] in H; [now inversion H|].
  nx H b s1. nx H bs s2. inversion H; subst. cbn [length]. f_equal. eapply IH. eassumption.
Qed.
Lemma seventh_block : forall S m fs row addr il b f (s : S) x s', put_block m fs row addr 6 il b f s = (Ok x, s') -> False.
Proof.
  intros S m fs row addr il b f s x s' H. unfold put_block in H. nx H b' s1. nx H f' s2. clear H.
  unfold motion_compensation in H0. apply mapM_length in H0. rewrite seq_length in H0.
  unfold update_frame_slice, slice_pos, slice_off in H1. change (6 <? 4) with false in H1. change (6 <? 6) with false in H1. cbv iota in H1.
  nx H1 p s3. clear H1. unfold rows8 in H. change (seq 0 8) with (0%nat :: seq 1 7) in H. cbn [map write_rows] in H. nx H p' s4. clear H. unfold pl_write in H1.
  change (channel f 6) with nil_plane in H1. cbn [pl_len nil_plane] in H1.
  assert (L : length (firstn 8 (skipn (8 * 0) (block_clamp b'))) = 8%nat) by (rewrite firstn_length; change (skipn (8 * 0) (block_clamp b')) with (block_clamp b'); unfold block_clamp, BlockModel.block_clamp; rewrite map_length; rewrite H0; reflexivity).
  rewrite L in H1. destruct (_ && _) eqn:E; [|discriminate]. apply andb_true_iff in E. destruct E as (_ & E). apply Z.leb_le in E. lia.
Qed.
Lemma blocks_seven : forall v e se mb row addr n i coded b s x s', (0 <= i <= 6) -> Z.of_nat n = 6 - i -> (n < length coded)%nat ->
  mb_blocks v e se mb row addr i coded b s = (Ok x, s') -> False.
Proof.
  induction n as [|n IH]; intros i coded b s x s' Hi N L H; (destruct coded as [|c coded]; [cbn [length] in L; lia|]); cbn [mb_blocks] in H; cbv zeta in H;
    nx H b1 s1; nx H m s2; nx H bf s3; nx H u s4.
  - assert (i = 6) as -> by lia. now apply seventh_block in H2.
  - eapply (IH (i + 1)); [lia | lia | | exact H]. cbn [length] in L. lia.
Qed.
Lemma chroma_never : forall v row addr s a s' se, macroblock v row addr s = (Ok a, s') -> v_se v = Some se ->
  se_chroma se <> ChromaFormat422 /\ se_chroma se <> ChromaFormat444.
Proof.
  intros v row addr s a s' se H E.
  assert (X : (se_chroma se =? ChromaFormat422) || (se_chroma se =? ChromaFormat444) = false).
  2:{ apply orb_false_iff in X. destruct X as (X1 & X2). split; now apply Z.eqb_neq. }
  apply not_true_is_false. intro X. unfold macroblock in H. nx H incr s1. nx H ph s2. nx H e s3. cbv zeta in H. nx H u1 s4. nx H u2 s5. nx H u3 s6. nx H mb s7.
  nx H z1 t1. nx H z2 t2. nx H z3 t3. nx H z4 t4. nx H z5 t5. nx H z6 t6. nx H z7 t7. nx H z8 t8. rewrite E in H. cbn [deref] in H. apply bind_ok_inv in H. destruct H as (se' & t9 & D & H). injection D as <- <-.
  apply bind_ok_inv in H. destruct H as (cbp & t10 & D & H). destruct (mb_pattern (mo_type mb)) eqn:P.
  - unfold ignore_err, bind, onr, coded_block_pattern in D. destruct (cbp_decode (snd t8)) as [y r2]. rewrite X in D. discriminate.
  - inversion D; subst. clear D. apply bind_ok_inv in H. destruct H as (pc & t11 & D & H). unfold pattern_code in D. cbn [andb] in D. inversion D; subst. clear D.
    apply bind_ok_inv in H. destruct H as (u & t12 & D & H).
    eapply (blocks_seven _ _ _ _ _ _ 6 0) in D; [exact D | lia | lia |].
    unfold block_count. apply orb_true_iff in X.
    destruct X as [X | X]; apply Z.eqb_eq in X; rewrite X; cbn; lia.
Qed.

(** * Steps *)
Lemma step_format : forall s img v' r', step s = (Ok img, (v', r')) ->
  exists se, v_se v' = Some se /\ se_chroma se <> ChromaFormat422 /\ se_chroma se <> ChromaFormat444.
Proof.
  intros s img v' r' H. apply step_decoded in H. destruct H as (v2 & r2 & r3 & H & _ & E & _).
  destruct (picture_shape _ _ _ _ H) as (se & K & _). destruct (picture_first _ _ _ _ H) as (row & a & s1 & s2 & F).
  exists se. rewrite <- E. split; [exact K | exact (chroma_never _ _ _ _ _ _ _ F K)].
Qed.

Lemma step_conceal : forall s img v' r' ph e, step s = (Ok img, (v', r')) ->
  v_ph v' = Some ph -> ph_type ph = IFrame -> v_pce v' = Some e -> pc_conceal e = true -> pc_fpfd e = 0 -> False.
Proof.
  intros s img v' r' ph e H P T E C F. apply step_decoded in H. destruct H as (v2 & r2 & r3 & H & _ & _ & E1 & E2).
  destruct (picture_first _ _ _ _ H) as (row & a & s1 & s2 & K). eapply conceal_never; [exact K | | exact T | | exact C | exact F]; congruence.
Qed.

(** * Calls of Next: what holds of every state in which a step returns a frame holds whenever Next has returned one. *)
Lemma bind_own : forall T R B (k : T -> M (T * R) B) s, bind own k s = k (fst s) s.
Proof. reflexivity. Qed.
Lemma loop_last : forall (Q : vidseq -> Prop), (forall s img v' r', step s = (Ok img, (v', r')) -> Q v') -> (forall v k, Q v -> Q (set_fc k v)) ->
  forall fuel s img v' r', next_loop fuel s = (Ok img, (v', r')) -> Q v'.
Proof.
  intros Q ST FC. induction fuel as [|fuel IH]; intros s img v' r' H; cbn [next_loop] in H; [discriminate|].
  apply bind_ok_inv in H. destruct H as (x & [v1 r1] & E & H). apply ST in E. rewrite bind_own in H. cbn [fst] in H.
  apply bind_ok_inv in H. destruct H as (ph & [v2 r2] & D & H). destruct (v_ph v1) as [h|]; [|discriminate]. inversion D; subst. destruct (_ =? _).
  - rewrite bind_upd in H. inversion H; subst. now apply FC.
  - eapply IH. exact H.
Qed.
Lemma nexts_last : forall (Q : vidseq -> Prop), (forall s img v' r', step s = (Ok img, (v', r')) -> Q v') -> (forall v k, Q v -> Q (set_fc k v)) ->
  forall n r imgs v' r', nexts (S n) (new_vidseq, r) = (Ok imgs, (v', r')) -> Q v'.
Proof.
  intros Q ST FC.
  assert (G : forall n v r imgs v' r', Q v -> nexts n (v, r) = (Ok imgs, (v', r')) -> Q v').
  { induction n as [|n IH]; intros v r imgs v' r' K H; cbn [nexts] in H; [inversion H; subst; exact K|].
    apply bind_ok_inv in H. destruct H as (x & [v1 r1] & E & H). apply bind_ok_inv in H. destruct H as (xs & [v2 r2] & E2 & H). inversion H; subst.
    apply (IH v1 r1 xs v' r'); [|exact E2]. unfold next in E. rewrite bind_own in E. cbn [fst] in E. destruct (fs_tryget _ _).
    - rewrite bind_upd in E. inversion E; subst. now apply FC.
    - cbn [snd] in E. exact (loop_last Q ST FC _ _ _ _ _ E). }
  intros n r imgs v' r' H. cbn [nexts] in H. apply bind_ok_inv in H. destruct H as (x & [v1 r1] & E & H). apply bind_ok_inv in H. destruct H as (xs & [v2 r2] & E2 & H). inversion H; subst.
  apply (G n v1 r1 xs v' r'); [|exact E2]. unfold next in E. rewrite bind_own in E. cbn [fst] in E. change (fs_tryget (v_fc new_vidseq) (v_fs new_vidseq)) with (@None image) in E. cbv iota in E.
  exact (loop_last Q ST FC _ _ _ _ _ E).
Qed.
