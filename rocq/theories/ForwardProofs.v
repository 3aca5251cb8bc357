(** ForwardProofs: on bits that follow the syntax, reading macroblocks, slices and pictures takes exactly these bits, or it panics. *)
From Coq Require Import Lia.
From Verif Require Import Base BitReader Exec Local TsRobust PesLocal After Huffman VlcTables BlockModel SpecVlc SpecBlock VlcProofs BlockProofs
  VidModel SpecVid VidProofs VidStream VidExt VidLocal MbModel SpecMotion MotionProofs SpecPicture EndProofs2 ShapeProofs NextProofs MbProofs SliceProofs SpecSyntax SyntaxProofs SpecPanic SpecUnsupported SpecNext SpecCertain.
From Verif Require PropertiesVidHeaders CauseProofs ErrorProofs UnsupportedProofs CountProofs.

(** * Computations that take certain bits, or panic *)
Definition dies {S A} (m : M S A) (s : S) : Prop := exists s', m s = (Panic, s').
(** [n]: bits that follow at least *)
Definition gets {T A} (I : T -> Prop) (m : M (T * reader) A) (n : nat) (c : list bool) (Q : A -> Prop) : Prop :=
  forall t rd l, I t -> (n <= length l)%nat ->
  dies m (t, setb rd (c ++ l)) \/ exists a t', m (t, setb rd (c ++ l)) = (Ok a, (t', setb rd l)) /\ I t' /\ Q a.
Definition quiet {S A} (m : M S A) : Prop := forall s, dies m s \/ exists a, m s = (Ok a, s).

Lemma dies_bind : forall S A B (m : M S A) (k : A -> M S B) s, dies m s -> dies (bind m k) s.
Proof. intros S A B m k s (s' & E). exists s'. unfold bind. now rewrite E. Qed.
Lemma dies_ok : forall S A B (m : M S A) (k : A -> M S B) s a s1, m s = (Ok a, s1) -> dies (k a) s1 -> dies (bind m k) s.
Proof. intros S A B m k s a s1 E (s' & D). exists s'. unfold bind. now rewrite E. Qed.
Lemma quiet_ret : forall S A (a : A), quiet (ret a : M S A).
Proof. intros S A a s. right. now exists a. Qed.
Lemma quiet_panic : forall S A, quiet (panic : M S A).
Proof. intros S A s. left. now exists s. Qed.
Lemma quiet_bind : forall S A B (m : M S A) (k : A -> M S B), quiet m -> (forall a, quiet (k a)) -> quiet (bind m k).
Proof.
  intros S A B m k Hm Hk s. destruct (Hm s) as [D | (a & E)]; [left; now apply dies_bind|]. destruct (Hk a s) as [D | (b & E2)]; [left; eapply dies_ok; eauto|].
  right. exists b. unfold bind. now rewrite E.
Qed.
Lemma quiet_if : forall S A (c : bool) (x y : M S A), quiet x -> quiet y -> quiet (if c then x else y).
Proof. intros. destruct c; auto. Qed.
Lemma quiet_mapM : forall S A B (f : A -> M S B) l, (forall a, quiet (f a)) -> quiet (mapM f l).
Proof. intros S A B f l H. induction l as [|x l IH]; cbn [mapM]; [apply quiet_ret|]. apply quiet_bind; [apply H|]. intro b. apply quiet_bind; [exact IH|]. intro. apply quiet_ret. Qed.

Lemma gets_bind : forall T A B I (m : M (T * reader) A) (k : A -> M (T * reader) B) n c1 c2 Q R, gets I m n c1 Q -> (forall a, Q a -> gets I (k a) n c2 R) -> gets I (bind m k) n (c1 ++ c2) R.
Proof.
  intros T A B I m k n c1 c2 Q R Hm Hk t rd l It L. rewrite <- app_assoc in *. destruct (Hm t rd (c2 ++ l) It ltac:(rewrite app_length; lia)) as [D | (a & t' & E & It' & Qa)]; [left; now apply dies_bind|].
  destruct (Hk a Qa t' rd l It' L) as [D | (b & t2 & E2 & I2 & Rb)]; [left; eapply dies_ok; eauto|]. right. exists b, t2. unfold bind. rewrite E. auto.
Qed.
Lemma gets_first : forall T A B I (m : M (T * reader) A) (k : A -> M (T * reader) B) n c Q R, gets I m 0 [] Q -> (forall a, Q a -> gets I (k a) n c R) -> gets I (bind m k) n c R.
Proof.
  intros T A B I m k n c Q R Hm Hk t rd l It L. destruct (Hm t rd (c ++ l) It ltac:(lia)) as [D | (a & t' & E & It' & Qa)]; [left; now apply dies_bind|]. cbn [app] in E.
  destruct (Hk a Qa t' rd l It' L) as [D | (b & t2 & E2 & I2 & Rb)]; [left; eapply dies_ok; eauto|]. right. exists b, t2. unfold bind. rewrite E. auto.
Qed.
Lemma gets_ret : forall T A I (a : A) (Q : A -> Prop), Q a -> gets (T := T) I (ret a) 0 [] Q.
Proof. intros T A I a Q H t rd l It _. right. exists a, t. auto. Qed.
Lemma gets_panic : forall T A I n c (Q : A -> Prop), gets (T := T) I panic n c Q.
Proof. intros T A I n c Q t rd l _ _. left. eexists. reflexivity. Qed.
Lemma gets_upd : forall T (I : T -> Prop) f (Q : unit -> Prop), (forall t, I t -> I (f t)) -> Q tt -> gets I (upd f) 0 [] Q.
Proof. intros T I f Q H Qt t rd l It _. right. exists tt, (f t). cbn. auto. Qed.
Lemma gets_own : forall T (I : T -> Prop), gets I own 0 [] I.
Proof. intros T I t rd l It _. right. exists t, t. auto. Qed.
Lemma gets_onr : forall T A (I : T -> Prop) (m : M reader A) n c a, (forall rd l, (n <= length l)%nat -> m (setb rd (c ++ l)) = (Ok a, setb rd l)) -> gets I (onr m) n c (eq a).
Proof. intros T A I m n c a H t rd l It L. right. exists a, t. unfold onr. cbn [fst snd]. rewrite H by exact L. auto. Qed.
Lemma gets_weak : forall T A (I : T -> Prop) (m : M (T * reader) A) n c (Q R : A -> Prop), gets I m n c Q -> (forall a, Q a -> R a) -> gets I m n c R.
Proof. intros T A I m n c Q R H W t rd l It L. destruct (H t rd l It L) as [D | (a & t' & E & It' & Qa)]; [now left|]. right. exists a, t'. auto. Qed.
Lemma gets_quiet : forall T A (I : T -> Prop) (m : M (T * reader) A) (Q : A -> Prop), quiet m -> (forall s a s', m s = (Ok a, s') -> Q a) -> gets I m 0 [] Q.
Proof. intros T A I m Q H W t rd l It _. destruct (H (t, setb rd ([] ++ l))) as [D | (a & E)]; [now left|]. right. exists a, t. split; [exact E|]. split; [exact It | eapply W; exact E]. Qed.
Lemma gets_deref : forall T A (I : T -> Prop) (x : option A) a, x = Some a -> gets I (deref x) 0 [] (eq a).
Proof. intros T A I x a ->. now apply gets_ret. Qed.
Lemma gets_when : forall T (I : T -> Prop) b (m : M (T * reader) unit) (P : list bool -> Prop) c, only_if b P c -> (P c -> gets I m 0 c (fun _ => True)) -> gets I (when b m) 0 c (fun _ => True).
Proof. intros T I [] m P c H G; cbn [only_if when] in *; [now apply G | subst; now apply gets_ret]. Qed.
Lemma gets_whenq : forall T (I : T -> Prop) b (m : M (T * reader) unit), gets I m 0 [] (fun _ => True) -> gets I (when b m) 0 [] (fun _ => True).
Proof. intros T I [] m G; cbn [when]; [exact G | now apply gets_ret]. Qed.
Lemma gets_same : forall A (m : MB A) n c Q sh, gets (fun _ => True) m n c Q -> same m -> gets (fun t => shape (ms_frame t) = sh) m n c Q.
Proof.
  intros A m n c Q sh G S t rd l It L. destruct (G t rd l I L) as [D | (a & t' & E & _ & Qa)]; [now left|]. right. exists a, t'. split; [exact E|]. split; [|exact Qa].
  apply S in E. cbn [fst] in E. congruence.
Qed.

(** * Blocks *)
Lemma bwrite_takes : forall i v st r, 0 <= i < 64 -> exists st', bwrite i v (st, r) = (Ok tt, (st', r)).
Proof. intros i v st r H. unfold bwrite. replace ((0 <=? i) && (i <? Z.of_nat blockSize)) with true; [eexists; reflexivity|]. symmetry. apply andb_true_iff. change (Z.of_nat blockSize) with 64. lia. Qed.
Lemma bwrite_dies : forall i v s, 64 <= i -> dies (bwrite i v) s.
Proof. intros i v s H. exists s. unfold bwrite. replace ((0 <=? i) && (i <? Z.of_nat blockSize)) with false; [reflexivity|]. symmetry. apply andb_false_iff. change (Z.of_nat blockSize) with 64. lia. Qed.
Lemma bzeros_takes : forall k n st r, 0 <= n -> n + Z.of_nat k <= 64 -> exists st', bzeros k n (st, r) = (Ok tt, (st', r)).
Proof.
  induction k as [|k IH]; intros n st r H L; cbn [bzeros]; [eexists; reflexivity|]. destruct (bwrite_takes n 0 st r ltac:(lia)) as (st1 & E). destruct (IH (n + 1) st1 r ltac:(lia) ltac:(lia)) as (st2 & E2).
  exists st2. unfold bind. now rewrite E.
Qed.
Lemma bzeros_dies : forall k n st r, 0 <= n <= 64 -> 64 < n + Z.of_nat k -> dies (bzeros k n) (st, r).
Proof.
  induction k as [|k IH]; intros n st r H L; cbn [bzeros]; [lia|]. destruct (Z.eq_dec n 64) as [->|N]; [apply dies_bind, bwrite_dies; lia|].
  destruct (bwrite_takes n 0 st r ltac:(lia)) as (st1 & E). eapply dies_ok; [exact E|]. apply IH; lia.
Qed.
Lemma syms_takes : forall one n rls body, syms one n rls body -> forall fuel st r l, 0 <= n -> n + Z.of_nat (length (expand rls)) <= 64 ->
  exists st', block_coeffs (length rls + fuel) (dct_of one) n (st, setb r (body ++ l)) = block_coeffs fuel (dct_of one) (n + Z.of_nat (length (expand rls))) (st', setb r l).
Proof.
  induction 1 as [n|n run level rls c bits Hc Hs IH]; intros fuel st r l Hn Ht.
  - exists st. cbn [expand flat_map length Nat.add app]. now rewrite Z.add_0_r.
  - pose proof (dct_code_run _ _ _ _ _ Hc) as Hrun. rewrite expand_length_cons in * by lia. cbn [length Nat.add block_coeffs]. rewrite <- app_assoc.
    rewrite (bind_onr_ok _ _ _ _ _ _ _ _ _ _ (dct_symbol_ok one n c _ r (bits ++ l) Hc)). cbn [symbol_result].
    destruct (bzeros_takes (Z.to_nat run) n st (setb r (bits ++ l)) Hn ltac:(lia)) as (st1 & E1). rewrite (bind_ok _ _ _ _ _ _ _ _ E1).
    destruct (bwrite_takes (n + run) level st1 (setb r (bits ++ l)) ltac:(lia)) as (st2 & E2). rewrite (bind_ok _ _ _ _ _ _ _ _ E2).
    destruct (IH fuel st2 r l ltac:(lia) ltac:(lia)) as (st3 & E3). exists st3. rewrite E3. f_equal. lia.
Qed.
Lemma coeffs_takes : forall one n rls bits st r l, coded_from one n rls bits -> 0 <= n -> n + Z.of_nat (length (expand rls)) <= 64 ->
  exists st', block_coeffs 66 (dct_of one) n (st, setb r (bits ++ l)) = (Ok tt, (st', setb r l)).
Proof.
  intros one n rls bits st r l (Hne & body & Hs & ->) Hn Ht. pose proof (expand_rls_length _ _ _ _ Hs) as Hlen. rewrite <- app_assoc.
  replace 66%nat with (length rls + S (65 - length rls))%nat by lia. destruct (syms_takes _ _ _ _ Hs (S (65 - length rls)) st r ((if one then b15_eob else b14_eob) ++ l) Hn Ht) as (st1 & ->).
  assert (0 < n + Z.of_nat (length (expand rls))).
  { destruct (Z.eq_dec n 0) as [E|N]; [|lia]. apply Hne in E. destruct rls; [congruence|]. cbn [length] in Hlen. lia. }
  remember (n + Z.of_nat (length (expand rls))) as k. cbn [block_coeffs].
  assert (Hc : dct_code one (k =? 0) (if one then b15_eob else b14_eob) EndOfBlock) by (constructor; apply Z.eqb_neq; lia).
  rewrite (bind_onr_ok _ _ _ _ _ _ _ _ _ _ (dct_symbol_ok one k _ _ r l Hc)). cbn [symbol_result]. apply bzeros_takes; [lia|]. change (Z.of_nat blockSize) with 64. lia.
Qed.
Lemma coeffs_dies : forall one n rls body, syms one n rls body -> forall fuel st r l, 0 <= n <= 64 -> 64 < n + Z.of_nat (length (expand rls)) -> 65 <= n + Z.of_nat fuel ->
  dies (block_coeffs fuel (dct_of one) n) (st, setb r (body ++ l)).
Proof.
  induction 1 as [n|n run level rls c bits Hc Hs IH]; intros fuel st r l Hn Ht Hf; [cbn in Ht; lia|].
  pose proof (dct_code_run _ _ _ _ _ Hc) as Hrun. rewrite expand_length_cons in Ht by lia. destruct fuel as [|fuel]; [lia|]. cbn [block_coeffs]. rewrite <- app_assoc.
  eapply dies_ok; [unfold onr; cbn [fst snd]; rewrite (dct_symbol_ok one n c _ r (bits ++ l) Hc); reflexivity|]. cbn [symbol_result].
  destruct (Z_lt_le_dec 64 (n + run)) as [L|L]; [apply dies_bind, bzeros_dies; lia|].
  destruct (bzeros_takes (Z.to_nat run) n st (setb r (bits ++ l)) ltac:(lia) ltac:(lia)) as (st1 & E1). eapply dies_ok; [exact E1|].
  destruct (Z.eq_dec (n + run) 64) as [->|N]; [apply dies_bind, bwrite_dies; lia|].
  destruct (bwrite_takes (n + run) level st1 (setb r (bits ++ l)) ltac:(lia)) as (st2 & E2). eapply dies_ok; [exact E2|]. apply IH; lia.
Qed.
Lemma color_luma : forall k, (k < 12)%nat -> Nat.eqb (nth k color_channel 0%nat) 0 = Nat.ltb k 4.
Proof. intros k Hk. do 12 (destruct k as [|k]; [reflexivity|]). lia. Qed.
Lemma vlc_bit : forall y, (pc_vlc (pce_of (y_pce y)) =? 1) = e_vlc (y_pce y).
Proof. intro y. rewrite pce_vlc. destruct (e_vlc (y_pce y)); reflexivity. Qed.
Lemma block_takes : forall y intra k b c m rd l, (k < 12)%nat -> block_syn y intra k c ->
  exists b' m', mb_block_read (pc_vlc (pce_of (y_pce y))) (nth k color_channel 0%nat) intra b (m, setb rd (c ++ l)) = (Ok b', (m', setb rd l)) /\ ms_frame m' = ms_frame m.
Proof.
  intros y intra k b c m rd l Hk B. unfold mb_block_read, block_read. cbn [fst snd]. rewrite vlc_bit. destruct intra; cbn [andb block_syn] in *.
  - destruct B as (d & c1 & rls & c2 & -> & D & C & L). rewrite <- app_assoc. rewrite <- (color_luma k Hk) in D. erewrite bind_ok by (apply dc_read; exact D).
    change (if e_vlc (y_pce y) then dct_table_one else dct_table_zero) with (dct_of (e_vlc (y_pce y))).
    match goal with |- context [block_coeffs 66 _ 1 (?st, _)] => destruct (coeffs_takes _ _ _ _ st rd l C ltac:(lia) ltac:(lia)) as (st' & ->) end. eexists _, _. split; reflexivity.
  - destruct B as (rls & C & L). change dct_table_zero with (dct_of false). destruct (coeffs_takes _ _ _ _ (mkBS b (ms_dcp m)) rd l C ltac:(lia) ltac:(lia)) as (st' & ->). eexists _, _. split; reflexivity.
Qed.
Lemma block_dies : forall y intra k b c m rd l, (k < 12)%nat -> over y intra k c -> dies (mb_block_read (pc_vlc (pce_of (y_pce y))) (nth k color_channel 0%nat) intra b) (m, setb rd (c ++ l)).
Proof.
  intros y intra k b c m rd l Hk B. unfold dies, mb_block_read, block_read. cbn [fst snd]. rewrite vlc_bit. destruct intra; cbn [andb over] in *.
  - destruct B as (d & c1 & rls & c2 & -> & D & C & L). rewrite <- app_assoc. rewrite <- (color_luma k Hk) in D. erewrite bind_ok by (apply dc_read; exact D).
    change (if e_vlc (y_pce y) then dct_table_one else dct_table_zero) with (dct_of (e_vlc (y_pce y))).
    match goal with |- context [block_coeffs 66 _ 1 (?st, _)] => destruct (coeffs_dies _ _ _ _ C 66 st rd l ltac:(lia) ltac:(lia) ltac:(lia)) as ([st' r'] & ->) end. eexists. reflexivity.
  - destruct B as (rls & C & L). change dct_table_zero with (dct_of false). destruct (coeffs_dies _ _ _ _ C 66 (mkBS b (ms_dcp m)) rd l ltac:(lia) ltac:(lia) ltac:(lia)) as ([st' r'] & ->). eexists. reflexivity.
Qed.

(** * Writing to the frame *)
Lemma quiet_get : forall S p i, quiet (pl_get p i : M S Z).
Proof. intros. unfold pl_get. apply quiet_if; [apply quiet_ret | apply quiet_panic]. Qed.
Lemma quiet_pel : forall S f i row col h v y x, quiet (mc_pel f i row col h v y x : M S Z).
Proof.
  intros. unfold mc_pel. destruct (if _ || _ then _ else _) as [h' v']. cbv zeta. unfold mc_sample.
  repeat (first [apply quiet_get | apply quiet_ret | apply quiet_if | apply quiet_bind; [|intro] ]).
Qed.
Lemma quiet_compensation : forall S m i row addr fs b, quiet (motion_compensation m i row addr fs b : M S block).
Proof.
  intros. unfold motion_compensation. apply quiet_mapM. intro k. cbv zeta. apply quiet_bind; [|intro; apply quiet_bind; [|intro; apply quiet_ret] ].
  - destruct (mc_ref (mv_fwd m) (fs_past fs)); [apply quiet_bind; [apply quiet_pel | intro] |]; apply quiet_ret.
  - destruct (mc_ref (mv_bwd m) (fs_future fs)); [apply quiet_bind; [apply quiet_pel | intro] |]; apply quiet_ret.
Qed.
Lemma quiet_write : forall S p off di src, quiet (pl_write p off di src : M S plane).
Proof. intros. unfold pl_write. cbv zeta. apply quiet_if; [apply quiet_ret | apply quiet_panic]. Qed.
Lemma quiet_rows : forall S rows p off base stride y, quiet (write_rows p off base stride y rows : M S plane).
Proof. induction rows as [|r rows IH]; intros; cbn [write_rows]; [apply quiet_ret|]. apply quiet_bind; [apply quiet_write | intro; apply IH]. Qed.
Lemma quiet_update : forall S row i addr il f cb, quiet (update_frame_slice row i addr il f cb : M S image).
Proof. intros. unfold update_frame_slice. destruct (slice_pos _ _ _ _). apply quiet_bind; [apply quiet_rows | intro; apply quiet_ret]. Qed.
Lemma quiet_put : forall S m fs row addr i il b f, quiet (put_block m fs row addr i il b f : M S (block * image)).
Proof. intros. unfold put_block. apply quiet_bind; [apply quiet_compensation|]. intro. apply quiet_bind; [apply quiet_update|]. intro. apply quiet_ret. Qed.
Lemma quiet_slice : forall S p si w, quiet (pl_slice p si w : M S (list Z)).
Proof. intros. unfold pl_slice. apply quiet_if; [apply quiet_ret | apply quiet_panic]. Qed.
Lemma quiet_lines : forall S n v src dst off srcoff ss ds x w, quiet (copy_lines n v src dst off srcoff ss ds x w : M S plane).
Proof. induction n as [|n IH]; intros; cbn [copy_lines]; [apply quiet_ret|]. apply quiet_bind; [apply quiet_slice|]. intro. apply quiet_bind; [apply quiet_write|]. intro. apply IH. Qed.
Lemma quiet_pcopy : forall S row col n d s, quiet (pframe_copy_macroblocks row col n d s : M S image).
Proof. intros. unfold pframe_copy_macroblocks. do 3 (apply quiet_bind; [apply quiet_lines | intro]). apply quiet_ret. Qed.
Lemma quiet_bcopy : forall S n m fs row addr f, quiet (bframe_copy_macroblocks n m fs row addr f : M S image).
Proof.
  assert (B : forall S is m fs row addr f, quiet (bframe_blocks m fs row addr is f : M S image)).
  { induction is as [|i is IH]; intros; cbn [bframe_blocks]; [apply quiet_ret|]. apply quiet_bind; [apply quiet_put|]. intro. apply IH. }
  induction n as [|n IH]; intros; cbn [bframe_copy_macroblocks]; [apply quiet_ret|]. apply quiet_bind; [apply B|]. intro. apply IH.
Qed.
Lemma quiet_deref : forall S A (x : option A), quiet (deref x : M S A).
Proof. intros S A [a|]; [apply quiet_ret | apply quiet_panic]. Qed.
(** Something on the state and no reading *)
Lemma gets_skipped : forall v pct row addr n, gets (fun _ => True) (copy_skipped v pct row addr n) 0 [] (fun _ => True).
Proof.
  assert (Q : forall A (m : MB A), quiet m -> gets (fun _ => True) m 0 [] (fun _ => True)) by (intros; now apply gets_quiet).
  intros. unfold copy_skipped. destruct (_ && _); [|now apply gets_ret]. destruct (pct =? PFrame); [|destruct (pct =? BFrame); [|now apply gets_ret] ].
  - eapply gets_first; [apply Q, quiet_deref|]. intros past _. eapply gets_first; [apply gets_own|]. intros m _. eapply gets_first; [apply Q, quiet_pcopy|]. intros f _. now apply gets_upd.
  - eapply gets_first; [apply gets_own|]. intros m _. eapply gets_first; [apply Q, quiet_bcopy|]. intros f _. now apply gets_upd.
Qed.

(** Writing where there is nothing to write to *)
Lemma rows_ok : forall S rows p off base stride y (s s' : S) p', Forall (fun r : list Z => length r = 8%nat) rows -> rows <> [] ->
  write_rows p off base stride y rows s = (Ok p', s') -> off + base + (y + Z.of_nat (length rows) - 1) * stride + 8 <= pl_len p.
Proof.
  induction rows as [|row rows IH]; intros p off base stride y s s' p' F N H; [congruence|]. cbn [write_rows] in H. pose proof (Forall_inv F) as L. apply Forall_inv_tail in F. cbn [length].
  apply bind_ok_inv in H. destruct H as (p1 & s1 & E & H). pose proof (pl_write_len _ _ _ _ _ _ _ _ E) as (_ & E1). destruct rows as [|row2 rows].
  - unfold pl_write in E. rewrite L in E. destruct ((0 <=? base + y * stride) && (off + (base + y * stride) + Z.of_nat 8 <=? pl_len p)) eqn:Q; [|discriminate]. apply andb_true_iff in Q. destruct Q as (_ & Q). apply Z.leb_le in Q. cbn [length]. lia.
  - apply IH in H; [|exact F|discriminate]. rewrite E1 in H. cbn [length] in *. lia.
Qed.
Lemma mapM_length : forall S A B (f : A -> M S B) l s a s', mapM f l s = (Ok a, s') -> length a = length l.
Proof.
  induction l as [|x l IH]; intros s a s' H; cbn [mapM] in H; [inversion H; reflexivity|]. apply bind_ok_inv in H. destruct H as (y & s1 & _ & H). apply bind_ok_inv in H. destruct H as (ys & s2 & E & H).
  inversion H; subst. cbn [length]. f_equal. eapply IH; exact E.
Qed.
Lemma rows8_full : forall cb, length cb = 64%nat -> Forall (fun r : list Z => length r = 8%nat) (rows8 cb).
Proof. intros cb L. unfold rows8. apply Forall_map, Forall_forall. intros k Hk. apply in_seq in Hk. rewrite firstn_length, skipn_length. lia. Qed.
(** The block [i] of the macroblock fits in a frame of this shape *)
Definition fits (sh : Z * Z * Z * Z * (Z * Z * Z)) (row addr i : Z) : Prop :=
  exists m fs il b f bf (s s' : mstate * reader), shape f = sh /\ put_block m fs row addr i il b f s = (Ok bf, s').
Lemma fits_channel : forall f row addr i, fits (shape f) row addr i -> exists il, let '(base, stride) := slice_pos f i addr il in slice_off f i row + base + 7 * stride + 8 <= pl_len (channel f i).
Proof.
  intros f row addr i (m & fs & il & b & g & bf & s & s' & Sh & E). exists il. unfold put_block in E. apply bind_ok_inv in E. destruct E as (b1 & s1 & E1 & E). apply mapM_length in E1. rewrite seq_length in E1.
  apply bind_ok_inv in E. destruct E as (f1 & s2 & E2 & _). unfold update_frame_slice in E2. destruct (slice_pos g i addr il) as [base stride] eqn:P. apply bind_ok_inv in E2. destruct E2 as (p & s3 & E2 & _).
  apply rows_ok in E2; [|apply rows8_full; unfold block_clamp; now rewrite map_length|discriminate]. change (Z.of_nat (length (rows8 (block_clamp b1)))) with 8 in E2.
  unfold shape in Sh. injection Sh as H1 H2 H3 H4 H5 H6 H7. unfold slice_pos, slice_off, channel in *. rewrite H3, H4 in *.
  destruct (i <? 4); [destruct il; apply pair_equal_spec in P; destruct P as (<- & <-); lia|]. destruct (i <? 6); apply pair_equal_spec in P; destruct P as (<- & <-).
  - destruct (i =? 4); [lia|]. destruct (i =? 5); lia.
  - destruct (i =? 4); [lia|]. destruct (i =? 5); [lia|]. cbn [nil_plane pl_len] in *. lia.
Qed.
Lemma fits_limit : forall W H f row addr, CauseProofs.sized W H f -> fits (shape f) row addr 4 -> addr < W * (8 * (H - (row + 1)) + 1).
Proof.
  intros W H f row addr (E1 & E2 & E3 & E4 & E5) F. apply fits_channel in F. destruct F as (il & F). unfold slice_pos, slice_off, channel in F. change (4 <? 4) with false in F. change (4 <? 6) with true in F. change (4 =? 4) with true in F. cbv iota in F. rewrite E2, E4 in F. nia.
Qed.
Lemma fits_none : forall f row addr, ~ fits (shape f) row addr 6.
Proof. intros f row addr F. apply fits_channel in F. destruct F as (il & F). unfold slice_pos, slice_off, channel in F. cbn in F. lia. Qed.

(** * The blocks of a macroblock *)
Definition framed (sh : Z * Z * Z * Z * (Z * Z * Z)) (m : mstate) : Prop := shape (ms_frame m) = sh.
Lemma coded_gets : forall sh v y se mb k b x c, (k < 12)%nat -> only_if x (block_syn y (mb_intra (mo_type mb)) k) c ->
  gets (framed sh) (if x : bool then b <- mb_block_read (pc_vlc (pce_of (y_pce y))) (nth k color_channel 0%nat) (mb_intra (mo_type mb)) b ;; m <- own ;;
      ret (idct (decode_block (qmat v (matrix_index (nth k color_channel 0%nat) (se_chroma se =? ChromaFormat420) (mb_intra (mo_type mb))))
                           (pc_alt (pce_of (y_pce y))) (pc_qtype (pce_of (y_pce y))) (pc_dc (pce_of (y_pce y))) (ms_qsc m) (mb_intra (mo_type mb)) b))
    else ret block_zero) 0 c (fun _ => True).
Proof.
  intros sh v y se mb k b x c Hk O. destruct x; cbn [only_if] in O; [|subst; now apply gets_ret].
  replace c with (c ++ []) by apply app_nil_r. apply gets_bind with (Q := fun _ => True).
  - intros t rd l It _. right. destruct (block_takes y _ k b c t rd l Hk O) as (b' & m' & E & F). exists b', m'. split; [exact E|]. split; [|exact I]. unfold framed in *. now rewrite F.
  - intros b1 _. eapply gets_first; [apply gets_own|]. intros m _. now apply gets_ret.
Qed.
Lemma put_gets : forall sh v y se mb row addr coded k b c Q,
  (forall b', gets (framed sh) (mb_blocks v (pce_of (y_pce y)) se mb row addr (Z.of_nat (S k)) coded b') 0 c Q) ->
  gets (framed sh) (m <- own ;; bf <- put_block (ms_mvd m) (v_fs v) row addr (Z.of_nat k) (mo_dct mb) b (ms_frame m) ;; upd (ms_set_frame (snd bf)) ;; mb_blocks v (pce_of (y_pce y)) se mb row addr (Z.of_nat k + 1) coded (fst bf)) 0 c
    (fun a => Q a /\ fits sh row addr (Z.of_nat k)).
Proof.
  intros sh v y se mb row addr coded k b c Q H. replace (Z.of_nat k + 1) with (Z.of_nat (S k)) by lia. eapply gets_first; [apply gets_own|]. intros m Im.
  eapply gets_first with (Q := fun bf => shape (snd bf) = sh /\ fits sh row addr (Z.of_nat k)).
  - apply gets_quiet; [apply quiet_put|]. intros s bf s' E. split; [apply put_block_shape in E; destruct E as (_ & ->); exact Im|]. eexists _, _, _, _, (ms_frame m), bf, s, s'. split; [exact Im | exact E].
  - intros bf (Sb & F). eapply gets_first with (Q := fun _ => True); [apply gets_upd; [intros t _; exact Sb | exact I]|]. intros _ _. eapply gets_weak; [apply H|]. intros a Qa. auto.
Qed.
Lemma blocks_gets : forall sh v y se mb row addr coded k b c, (k + length coded <= 12)%nat -> blocks_syn y (mb_intra (mo_type mb)) k coded c ->
  gets (framed sh) (mb_blocks v (pce_of (y_pce y)) se mb row addr (Z.of_nat k) coded b) 0 c (fun _ => forall i, (k <= i < k + length coded)%nat -> fits sh row addr (Z.of_nat i)).
Proof.
  intros sh v y se mb row addr. induction coded as [|x coded IH]; intros k b c L B; cbn [mb_blocks blocks_syn length] in *.
  - subst c. apply gets_ret. intros i Hi. lia.
  - destruct B as (c1 & c2 & -> & O & B). rewrite Nat2Z.id. eapply gets_bind; [apply coded_gets; [lia | exact O]|]. intros b1 _.
    eapply gets_weak; [apply put_gets; intro b'; apply (IH (S k) b' c2); [lia | exact B]|]. intros a (F & F0) i Hi. cbn beta in F. destruct (Nat.eq_dec i k) as [->|N]; [exact F0|]. apply F. lia.
Qed.
Lemma blocks_dies : forall sh v y se mb row addr coded k j b c1 c2, (k + length coded <= 12)%nat -> nth_error coded j = Some true ->
  blocks_syn y (mb_intra (mo_type mb)) k (firstn j coded) c1 -> over y (mb_intra (mo_type mb)) (k + j) c2 ->
  gets (framed sh) (mb_blocks v (pce_of (y_pce y)) se mb row addr (Z.of_nat k) coded b) 0 (c1 ++ c2) (fun _ => False).
Proof.
  intros sh v y se mb row addr. induction coded as [|x coded IH]; intros k j b c1 c2 L N B O; [destruct j; discriminate|]. cbn [mb_blocks length] in *. rewrite Nat2Z.id.
  destruct j as [|j]; cbn [nth_error firstn blocks_syn] in *.
  - injection N as ->. subst c1. rewrite Nat.add_0_r in O. cbn [app]. intros t rd l It _. left. apply dies_bind, dies_bind. apply (block_dies y); [lia | exact O].
  - destruct B as (c3 & c4 & -> & O3 & B). rewrite <- app_assoc. eapply gets_bind; [apply coded_gets; [lia | exact O3]|]. intros b1 _.
    eapply gets_weak; [apply put_gets; intro b'; apply (IH (S k) j b' c4 c2); [lia | exact N | exact B | replace (S k + j)%nat with (k + S j)%nat by lia; exact O]|]. intros a (F & _). exact F.
Qed.

(** * Motion vectors *)
Lemma part_gets : forall y field r s t c, component_syn (y_f y s t) c -> gets (fun _ => True) (motion_vector_part (pce_of (y_pce y)) field false r s t) 0 c (fun _ => True).
Proof.
  intros y field r s t c (m & c1 & c2 & -> & C & W). unfold motion_vector_part. rewrite pce_f. eapply gets_bind; [apply gets_onr; intros; apply motion_code_exact; exact C|]. intros a <-.
  replace c2 with (c2 ++ []) by apply app_nil_r. eapply gets_bind with (Q := fun _ => True); [|intros x _; now apply gets_upd].
  destruct (y_f y s t =? 1); cbn [orb negb andb] in *; [unfold width in W; destruct c2; [now apply gets_ret | discriminate]|].
  destruct (m =? 0); cbn [negb] in *; [unfold width in W; destruct c2; [now apply gets_ret | discriminate]|].
  destruct (y_f y s t =? 0); [apply gets_panic|]. eapply gets_weak; [apply gets_onr; intros; apply read_n_app; exact W | auto].
Qed.
Lemma vector_gets : forall y field r s c, vector_syn y s c -> gets (fun _ => True) (motion_vector (pce_of (y_pce y)) field false r s) 0 c (fun _ => True).
Proof. intros y field r s c (c1 & c2 & -> & C1 & C2). unfold motion_vector. eapply gets_bind; [now apply part_gets|]. intros _ _. now apply part_gets. Qed.
Lemma read1_gets : forall T (I : T -> Prop) b, gets I (onr (read_n 1)) 0 [b] (fun _ => True).
Proof. intros T I b. eapply gets_weak; [apply gets_onr; intros; apply read_n_app; reflexivity | auto]. Qed.
Lemma info_gets : forall y t mt mb form, syn_mode y (pce_of (y_pce y)) t mt mb -> (mb_intra t = true -> mb_motion_forward t = false /\ mb_motion_backward t = false) ->
  (mb_motion_forward t || mb_motion_backward t = false -> mb_intra t = true) -> form_of y (mb_intra t) mt form ->
  (forall s : mstate * reader, mv_info (pce_of (y_pce y)) mb s = (Ok (form_info form), s)) \/ (forall s : mstate * reader, mv_info (pce_of (y_pce y)) mb s = (Panic, s)).
Proof.
  intros y t mt mb form (Ht & S) Hi Hn F. unfold mv_info. rewrite (proj2 (pce_fpfd y)). unfold form_of in F. destruct (y_fpfd y); [subst; now left|].
  destruct (y_frame y).
  - destruct S as (S1 & S2). cbn [negb] in S2. rewrite andb_true_r in S2. rewrite S1. destruct (mb_motion_forward t || mb_motion_backward t) eqn:Em.
    + assert (Ni : mb_intra t = false) by (destruct (mb_intra t); [destruct (Hi eq_refl) as [X1 X2]; rewrite X1, X2 in Em; discriminate | reflexivity]). rewrite Ni in F. rewrite S2. destruct F as [(-> & ->) | (-> & ->)]; now left.
    + rewrite S2. now right.
  - destruct S as (S1 & S2). rewrite S1. destruct (mb_motion_forward t || mb_motion_backward t) eqn:Em.
    + assert (Ni : mb_intra t = false) by (destruct (mb_intra t); [destruct (Hi eq_refl) as [X1 X2]; rewrite X1, X2 in Em; discriminate | reflexivity]). rewrite Ni in F. rewrite S2. destruct F as [(-> & ->) | (-> & ->)]; now left.
    + rewrite S2. now right.
Qed.
Lemma vectors_gets : forall y t mt mb form k c, syn_mode y (pce_of (y_pce y)) t mt mb -> (mb_intra t = true -> mb_motion_forward t = false /\ mb_motion_backward t = false) ->
  (mb_motion_forward t || mb_motion_backward t = false -> mb_intra t = true) -> form_of y (mb_intra t) mt form -> vectors_syn y k form c ->
  gets (fun _ => True) (motion_vectors (pce_of (y_pce y)) mb k) 0 c (fun _ => True).
Proof.
  intros y t mt mb form k c S Hi Hn F V. unfold motion_vectors. destruct (info_gets y t mt mb form S Hi Hn F) as [E|E].
  - eapply gets_first with (Q := eq (form_info form)); [intros s rd l _ _; right; exists (form_info form), s; rewrite E; auto|]. intros i <-. destruct form; cbn [form_info vectors_syn andb negb] in *.
    + change (1 =? 1) with true. cbv iota. eapply gets_first; [apply gets_ret with (Q := fun _ => True); exact I|]. intros _ _. now apply vector_gets.
    + destruct V as (b & c1 & -> & V). change (1 =? 1) with true. cbv iota. eapply gets_bind with (Q := fun _ => True); [|intros _ _; now apply vector_gets].
      replace [b] with ([b] ++ []) by reflexivity. eapply gets_bind; [apply read1_gets|]. intros _ _. now apply gets_ret.
    + destruct V as (b1 & c1 & b2 & c2 & -> & V1 & V2). change (2 =? 1) with false. cbv iota. eapply gets_bind; [apply read1_gets|]. intros _ _. eapply gets_bind; [now apply vector_gets|]. intros _ _.
      eapply gets_bind; [apply read1_gets|]. intros _ _. now apply vector_gets.
  - intros s rd l _ _. left. apply dies_bind. eexists. apply E.
Qed.

(** * Macroblocks *)
Lemma incr_gets : forall T (I : T -> Prop) n c, incr_code n c -> gets I (onr mb_increment) 11 c (eq n).
Proof.
  intros T I n c (k & i & c0 & -> & C & ->). apply gets_onr. intros rd l L. rewrite <- app_assoc. apply mb_increment_run; [exact C | rewrite app_length; lia].
Qed.
Lemma mode_gets : forall T (I : T -> Prop) y t mt c1 c2 c3, mbt_code (type_table (y_type y)) c1 (mbt_fields t) ->
  only_if ((mb_motion_forward t || mb_motion_backward t) && negb (y_frame y && y_fpfd y)) (fun c => 0 <= mt < 4 /\ c = enc 2 mt) c2 ->
  only_if (y_frame y && negb (y_fpfd y) && (mb_intra t || mb_pattern t)) (width 1) c3 ->
  gets I (onr (macroblock_mode (y_type y) (pce_of (y_pce y)))) 0 (c1 ++ c2 ++ c3) (syn_mode y (pce_of (y_pce y)) t mt).
Proof.
  intros T I y t mt c1 c2 c3 C O2 O3 tt rd l It _.
  assert (X : y_type y <> 1 -> y_type y <> 2 -> y_type y <> 3 -> dies (onr (T := T) (macroblock_mode (y_type y) (pce_of (y_pce y)))) (tt, setb rd ((c1 ++ c2 ++ c3) ++ l))).
  { intros N1 N2 N3. eexists. unfold onr, macroblock_mode. cbn [fst snd]. change IFrame with 1. change PFrame with 2. change BFrame with 3.
    rewrite (proj2 (Z.eqb_neq _ _) N1), (proj2 (Z.eqb_neq _ _) N2), (proj2 (Z.eqb_neq _ _) N3). reflexivity. }
  assert (Ty : dies (onr (T := T) (macroblock_mode (y_type y) (pce_of (y_pce y)))) (tt, setb rd ((c1 ++ c2 ++ c3) ++ l)) \/
    forall l, (if y_type y =? IFrame then mbtype_decode_I else if y_type y =? PFrame then mbtype_decode_P else if y_type y =? BFrame then mbtype_decode_B else panic) (setb rd (c1 ++ l)) = (Ok t, setb rd l)).
  { unfold type_table in C. change IFrame with 1. change PFrame with 2. change BFrame with 3. destruct (Z.eqb_spec (y_type y) 1) as [E1|N1]; [right; intro l'; now apply mbtype_I_exact|].
    destruct (Z.eqb_spec (y_type y) 2) as [E2|N2]; [right; intro l'; now apply mbtype_P_exact|]. destruct (Z.eqb_spec (y_type y) 3) as [E3|N3]; [right; intro l'; now apply mbtype_B_exact | left; auto]. }
  destruct Ty as [D|Ty]; [now left|]. right.
  assert (E : exists mb, macroblock_mode (y_type y) (pce_of (y_pce y)) (setb rd (c1 ++ c2 ++ c3 ++ l)) = (Ok mb, setb rd l) /\ syn_mode y (pce_of (y_pce y)) t mt mb).
  { unfold macroblock_mode. erewrite bind_ok by apply Ty. rewrite pce_struct, (proj1 (pce_fpfd y)). unfold syn_mode.
    assert (X2 : forall x, 0 <= mt < 4 -> read_n 2 (setb rd (enc 2 mt ++ x)) = (Ok mt, setb rd x)) by (intros; now apply read_enc).
    assert (X3 : exists d, forall l, (if y_frame y && negb (y_fpfd y) && (mb_intra t || mb_pattern t) then read1 else ret false) (setb rd (c3 ++ l)) = (Ok d, setb rd l)).
    { destruct (y_frame y && negb (y_fpfd y) && (mb_intra t || mb_pattern t)); cbn [only_if] in O3; [|subst; now exists false]. unfold width in O3. destruct c3 as [|d [|d2 c3] ]; try discriminate. exists d. intro. apply read1_cons. }
    destruct X3 as (d & X3).
    destruct (mb_motion_forward t || mb_motion_backward t) eqn:Em; cbn [andb] in O2.
    - destruct (y_frame y) eqn:Fr; cbn [andb] in *.
      + destruct (y_fpfd y) eqn:Fp; cbn [negb only_if andb] in *.
        * subst c2. cbn [app]. rewrite bind_ret. erewrite bind_ok by apply X3. eexists. split; [reflexivity|]. cbn. auto.
        * destruct O2 as (R & ->). rewrite bind_assoc. erewrite bind_ok by (apply X2; exact R). rewrite bind_ret. erewrite bind_ok by apply X3. eexists. split; [reflexivity|]. cbn. auto.
      + cbn [negb only_if] in O2. destruct O2 as (R & ->). rewrite bind_assoc. erewrite bind_ok by (apply X2; exact R). rewrite bind_ret. erewrite bind_ok by apply X3. eexists. split; [reflexivity|]. cbn. auto.
    - cbn [only_if] in O2. subst c2. cbn [app]. rewrite bind_ret. erewrite bind_ok by apply X3. eexists. split; [reflexivity|]. cbn. destruct (y_frame y); auto. }
  destruct E as (mb & E & Sm). exists mb, tt. unfold onr. cbn [fst snd]. rewrite <- !app_assoc, E. auto.
Qed.
(** What macroblock does after the vectors: pattern and blocks *)
Definition mb_rest (v : vidseq) (e : piccodext) (row addr n : Z) (mb : mbmode) : MB Z :=
  se <- deref (v_se v) ;;
  cbp <- (if mb_pattern (mo_type mb)
          then ignore_err None (c <- onr (coded_block_pattern (se_chroma se)) ;; ret (Some c))
          else ret (Some 0)) ;;
  match cbp with
  | None => ret 0
  | Some cbp =>
      pc <- pattern_code cbp (mb_intra (mo_type mb)) (mb_pattern (mo_type mb)) (se_chroma se) ;;
      mb_blocks v e se mb row (addr + n) 0 (firstn (block_count (se_chroma se)) pc) block_zero ;;
      ret (addr + n)
  end.
Lemma marker_gets : forall T (I : T -> Prop), gets I (onr marker_bit) 0 [true] (fun _ => True).
Proof. intros T I. eapply gets_weak; [apply gets_onr with (a := tt); intros rd l _; reflexivity | auto]. Qed.
Lemma macroblock_gets : forall sh v y row addr n t c1 c2 Q, v_ph v = Some (pic_of (y_hdr y)) -> v_pce v = Some (pce_of (y_pce y)) -> mb_head_at y (mbt_fields t) n c1 ->
  (forall mb, mo_type mb = t -> gets (framed sh) (mb_rest v (pce_of (y_pce y)) row addr n mb) 11 c2 Q) -> gets (framed sh) (macroblock v row addr) 11 (c1 ++ c2) Q.
Proof.
  intros sh v y row addr n t c1 c2 Q Hph Hpce Hd Hr. unfold mbt_fields in Hd. cbv beta iota zeta delta [mb_head_at] in Hd.
  destruct Hd as (mt & form & c_incr & c_type & c_motion & c_dct & c_quant & c_fwd & c_bwd & c_marker & -> & Hi & Ht & O2 & O3 & O4 & F & O5 & O6 & O7). rewrite <- !app_assoc.
  pose proof (types_intra _ _ _ Ht) as Ti. cbn in Ti.
  assert (W2 : forall A (m : MB A) k c (R : A -> Prop), gets (fun _ => True) m 0 c R -> same m -> gets (framed sh) m k c R) by (intros A m k c R G S tt rd l It _; apply (gets_same A m 0 c R sh G S); [exact It | lia]).
  assert (W3 : forall A (m : MB A) k c (R : A -> Prop), gets (framed sh) m 0 c R -> gets (framed sh) m k c R) by (intros A m k c R G tt rd l It _; apply G; [exact It | lia]).
  assert (Sr : forall b e, gets (framed sh) (when b (reset_dc e)) 0 [] (fun _ => True)) by (intros; apply W2; [apply gets_whenq; now apply gets_upd | apply same_when; unfold reset_dc; hold]).
  assert (Sv : forall b, gets (framed sh) (when b reset_mv) 0 [] (fun _ => True)) by (intros; apply W2; [apply gets_whenq; now apply gets_upd | apply same_when; unfold reset_mv; hold]).
  unfold macroblock. rewrite Hph, Hpce. eapply gets_bind; [apply incr_gets; exact Hi|]. intros x <-. eapply gets_first; [apply W3; now apply gets_deref|]. intros ph <-. eapply gets_first; [apply W3; now apply gets_deref|]. intros e <-. cbv zeta.
  change (ph_type (pic_of (y_hdr y))) with (y_type y).
  eapply gets_first; [apply W2; [apply gets_skipped | apply same_skipped]|]. intros _ _.
  eapply gets_first; [apply Sr|]. intros _ _. eapply gets_first; [apply Sv|]. intros _ _.
  rewrite (app_assoc c_motion), (app_assoc c_type). eapply gets_bind; [apply W3; exact (mode_gets _ _ y t mt _ _ _ Ht O2 O3)|]. intros mb Sm. pose proof (proj1 Sm) as Et. rewrite Et.
  eapply gets_first; [apply Sr|]. intros _ _. eapply gets_first; [apply Sv|]. intros _ _. eapply gets_first; [apply Sv|]. intros _ _.
  eapply gets_bind with (Q := fun _ => True).
  { apply W2; [|apply same_when; hold]. eapply gets_when; [exact O4|]. intro Wq. replace c_quant with (c_quant ++ []) by apply app_nil_r.
    eapply gets_bind; [apply gets_onr; intros; apply read_n_app; exact Wq|]. intros q _. now apply gets_upd. }
  intros _ _. rewrite pce_conceal.
  assert (Hi2 : mb_intra t = true -> mb_motion_forward t = false /\ mb_motion_backward t = false) by (intro X; destruct (Ti X) as (? & ? & ?); auto).
  eapply gets_bind with (Q := fun _ => True).
  { apply W2; [|apply same_when, same_vectors]. destruct (mb_motion_forward t || mb_intra t && e_conceal (y_pce y)) eqn:B; cbn [only_if when] in *; [|subst c_fwd; now apply gets_ret].
    apply (vectors_gets y t mt mb form 0 c_fwd Sm Hi2); [| |exact O5].
    - intro X. apply orb_false_iff in X. destruct X as (X1 & X2). rewrite X1 in B. cbn [orb] in B. apply andb_true_iff in B. apply B.
    - apply F. destruct (mb_motion_forward t); [reflexivity|]. cbn [orb] in *. rewrite B. apply orb_true_r. }
  intros _ _. eapply gets_bind with (Q := fun _ => True).
  { apply W2; [|apply same_when, same_vectors]. destruct (Bool.bool_dec (mb_motion_backward t) true) as [B|B]; [|apply Bool.not_true_is_false in B]; rewrite B; rewrite B in O6; cbn [only_if when] in *; [|subst c_bwd; now apply gets_ret].
    apply (vectors_gets y t mt mb form 1 c_bwd Sm Hi2); [| |exact O6].
    - intro X. rewrite B, orb_true_r in X. discriminate.
    - apply F. now rewrite B, orb_true_r. }
  intros _ _. eapply gets_first with (Q := fun _ => True); [apply W2; [now apply gets_upd | hold]|]. intros _ _.
  eapply gets_bind with (Q := fun _ => True); [apply W2; [|apply same_when; hold]; eapply gets_when; [exact O7|]; intros ->; apply marker_gets|]. intros _ _.
  rewrite <- Et. exact (Hr mb Et).
Qed.

(** The rest of a complete macroblock, and of one with a block of more than 64 coefficients *)
Lemma rest_all : forall sh v y se row addr n t mb cbp c2 c3 (Q : unit -> Prop), v_se v = Some se -> se_chroma se = y_chroma y -> mo_type mb = t -> only_if (mb_pattern t) (fun c => cbp_code c cbp) c2 ->
  (forall coded, coded = coded_blocks y (mb_intra t) (if mb_pattern t then cbp else 0) -> (length coded <= 12)%nat ->
     gets (framed sh) (mb_blocks v (pce_of (y_pce y)) se mb row (addr + n) 0 coded block_zero) 0 c3 Q) ->
  gets (framed sh) (mb_rest v (pce_of (y_pce y)) row addr n mb) 11 (c2 ++ c3) (fun a => a = addr + n /\ Q tt).
Proof.
  intros sh v y se row addr n t mb cbp c2 c3 Q Hse Hch Et O B.
  assert (W3 : forall A (m : MB A) k c (R : A -> Prop), gets (framed sh) m 0 c R -> gets (framed sh) m k c R) by (intros A m k c R G tt rd l It _; apply G; [exact It | lia]).
  apply W3. unfold mb_rest. rewrite Hse, Et. eapply gets_first; [now apply gets_deref|]. intros x <-. rewrite Hch.
  eapply gets_bind with (Q := fun o => exists c, o = Some c /\ (if mb_pattern t then c else 0) = (if mb_pattern t then cbp else 0)).
  { destruct (mb_pattern t); cbn [only_if] in O; [|subst; apply gets_ret; now exists 0].
    intros s rd l Is _. pose proof (proj1 cbp_exact c2 cbp rd l O) as E. unfold dies, ignore_err, bind, onr, coded_block_pattern. cbn [fst snd]. destruct (_ || _); [left; eexists; rewrite E; reflexivity | right].
    exists (Some cbp), s. split; [rewrite E; reflexivity|]. split; [exact Is | now exists cbp]. }
  intros o (c & -> & Ec).
  replace c3 with ([] ++ c3 ++ []) by now rewrite app_nil_r.
  eapply gets_bind with (Q := fun pc => firstn (block_count (y_chroma y)) pc = coded_blocks y (mb_intra t) (if mb_pattern t then cbp else 0) /\ (length (coded_blocks y (mb_intra t) (if mb_pattern t then cbp else 0%Z)) <= 12)%nat).
  { intros s rd l Is _. cbn [app]. destruct (pattern_code c (mb_intra t) (mb_pattern t) (y_chroma y) (s, setb rd l)) as [ [pc|e| |] s'] eqn:E.
    - right. exists pc. pose proof (pattern_after y c (mb_intra t) (mb_pattern t) (s, setb rd l) pc s' E) as (-> & P1 & P2). exists s. rewrite Ec in P1, P2. auto.
    - unfold pattern_code in E. destruct (_ && _); discriminate.
    - left. eexists. exact E.
    - unfold pattern_code in E. destruct (_ && _); discriminate. }
  intros pc (P1 & P2). rewrite P1. eapply gets_bind; [now apply B|]. intros [] q. now apply gets_ret.
Qed.
Lemma mb_gets : forall sh v y se row addr n c, v_ph v = Some (pic_of (y_hdr y)) -> v_pce v = Some (pce_of (y_pce y)) -> v_se v = Some se -> se_chroma se = y_chroma y -> mb_at y n c ->
  gets (framed sh) (macroblock v row addr) 11 c (fun a => a = addr + n /\ forall i, (i < y_blocks y)%nat -> fits sh row a (Z.of_nat i)).
Proof.
  intros sh v y se row addr n c Hph Hpce Hse Hch (quant & forward & backward & pattern & intra & cbp & c1 & c2 & c3 & -> & Hd & O & B).
  destruct (ErrorProofs.fields_all (quant, forward, backward, pattern, intra)) as (t & Et). rewrite <- Et in Hd. pose proof Et as Et2. unfold mbt_fields in Et2. injection Et2 as <- <- <- <- <-.
  eapply macroblock_gets; [eassumption.. |]. intros mb Em. eapply gets_weak; [eapply rest_all with (Q := fun _ => forall i, (i < y_blocks y)%nat -> fits sh row (addr + n) (Z.of_nat i)); try eassumption|].
  - intros coded -> L. change 0 with (Z.of_nat 0) at 1. rewrite <- Em in *. eapply gets_weak; [apply blocks_gets; [exact L | exact B]|]. intros [] X i Hi. apply X. unfold coded_blocks. rewrite map_length, seq_length. lia.
  - intros a (-> & X). auto.
Qed.
Lemma mb_dies : forall sh v y se row addr n quant forward backward pattern intra cbp c1 c2 c4 c5 k, v_ph v = Some (pic_of (y_hdr y)) -> v_pce v = Some (pce_of (y_pce y)) -> v_se v = Some se -> se_chroma se = y_chroma y ->
  mb_head_at y (quant, forward, backward, pattern, intra) n c1 -> only_if pattern (fun c => cbp_code c cbp) c2 ->
  nth_error (coded_blocks y intra (if pattern then cbp else 0)) k = Some true -> blocks_syn y intra 0 (firstn k (coded_blocks y intra (if pattern then cbp else 0))) c4 -> over y intra k c5 ->
  gets (framed sh) (macroblock v row addr) 11 (c1 ++ c2 ++ c4 ++ c5) (fun _ => False).
Proof.
  intros sh v y se row addr n quant forward backward pattern intra cbp c1 c2 c4 c5 k Hph Hpce Hse Hch Hd O N B Ov.
  destruct (ErrorProofs.fields_all (quant, forward, backward, pattern, intra)) as (t & Et). rewrite <- Et in Hd. pose proof Et as Et2. unfold mbt_fields in Et2. injection Et2 as <- <- <- <- <-.
  eapply macroblock_gets; [eassumption.. |]. intros mb Em. eapply gets_weak; [eapply rest_all with (Q := fun _ => False); try eassumption|].
  - intros coded -> L. change 0 with (Z.of_nat 0) at 1. rewrite <- Em in *. eapply blocks_dies; [exact L | exact N | exact B | exact Ov].
  - intros a (_ & []).
Qed.

(** * Slices *)
Definition mvctx (v : vidseq) (y : layer) : Prop :=
  v_ph v = Some (pic_of (y_hdr y)) /\ v_pce v = Some (pce_of (y_pce y)) /\ (exists se, v_se v = Some se /\ se_chroma se = y_chroma y) /\ exists q, v_sh v = Some q /\ sh_vertical q = y_vertical y.
Lemma head_start : forall y ty n c, mb_head_at y ty n c -> exists a t, c = a ++ t /\ (length a <= 11)%nat /\ In true a.
Proof.
  intros y [ [ [ [quant forward] backward] pattern] intra] n c H. cbv beta iota zeta delta [mb_head_at] in H. destruct H as (mt & form & ci & ct & cm & cd & cq & cf & cb & ck & -> & Hi & _).
  destruct (incr_start _ _ Hi) as (a & t & -> & L & T). exists a. rewrite <- app_assoc. eauto.
Qed.
Lemma mb_start : forall y n c, mb_at y n c -> exists a t, c = a ++ t /\ (length a <= 11)%nat /\ In true a.
Proof.
  intros y n c (quant & forward & backward & pattern & intra & cbp & c1 & c2 & c3 & -> & Hd & _). destruct (head_start _ _ _ _ Hd) as (a & t & -> & L & T). exists a. rewrite <- app_assoc. eauto.
Qed.
Lemma mb_count : forall y ms, Forall (fun m => mb_at y (fst m) (snd m)) ms -> (length ms <= length (concat (map snd ms)))%nat.
Proof.
  intros y ms F. induction F as [|m ms M F IH]; cbn [length map concat]; [lia|]. rewrite app_length. destruct (mb_start _ _ _ M) as (a & t & E & L & T). rewrite E, app_length. destruct a; [contradiction|]. cbn [length]. lia.
Qed.
(** After a macroblock: 23 zero bits end the slice, and another macroblock goes on *)
Lemma loop_stops : forall f v row addr a m rd Y s, macroblock v row addr s = (Ok a, (m, setb rd (repeat false 23 ++ Y))) -> slice_loop (S f) v row addr s = (Ok tt, (m, setb rd (repeat false 23 ++ Y))).
Proof.
  intros f v row addr a m rd Y s E. cbn [slice_loop]. rewrite (bind_ok _ _ _ _ _ _ _ _ E). erewrite bind_onr_ok by (apply peek_n_app; reflexivity). reflexivity.
Qed.
Lemma loop_goes : forall f v row addr a m rd l s b t, macroblock v row addr s = (Ok a, (m, setb rd l)) -> l = b ++ t -> (length b <= 23)%nat -> In true b -> (23 <= length l)%nat ->
  slice_loop (S f) v row addr s = slice_loop f v row a (m, setb rd l).
Proof.
  intros f v row addr a m rd l s b t E -> L T N. cbn [slice_loop]. rewrite (bind_ok _ _ _ _ _ _ _ _ E). destruct (peek_some 23 b t rd L N T) as (x & P & X).
  erewrite bind_onr_ok by exact P. rewrite (proj2 (Z.eqb_neq _ _) X). reflexivity.
Qed.
Lemma loop_whole : forall v y row ms, mvctx v y -> ms <> [] -> Forall (fun m => mb_at y (fst m) (snd m)) ms -> forall addr f m rd Y, (length ms <= f)%nat ->
  dies (slice_loop f v row addr) (m, setb rd (concat (map snd ms) ++ repeat false 23 ++ Y)) \/
  exists m', slice_loop f v row addr (m, setb rd (concat (map snd ms) ++ repeat false 23 ++ Y)) = (Ok tt, (m', setb rd (repeat false 23 ++ Y))) /\ shape (ms_frame m') = shape (ms_frame m).
Proof.
  intros v y row ms (Hph & Hpce & (se & Hse & Hch) & _). induction ms as [|[n c] ms IH]; intros Ne F addr f m rd Y Lf; [congruence|]. apply Forall_cons_iff in F. destruct F as (M & F). cbn [fst snd map concat length] in *.
  destruct f as [|f]; [lia|]. rewrite <- app_assoc.
  pose proof (mb_gets (shape (ms_frame m)) v y se row addr n c Hph Hpce Hse Hch M m rd (concat (map snd ms) ++ repeat false 23 ++ Y) eq_refl ltac:(rewrite !app_length, repeat_length; lia)) as [D | (a & m1 & E & Sh & _)].
  - left. cbn [slice_loop]. now apply dies_bind.
  - unfold framed in Sh. destruct ms as [|[n2 c2] ms].
    + right. cbn [map concat app] in *. exists m1. split; [|exact Sh]. eapply loop_stops. exact E.
    + assert (G : exists b t, concat (map snd ((n2, c2) :: ms)) ++ repeat false 23 ++ Y = b ++ t /\ (length b <= 23)%nat /\ In true b).
      { apply Forall_inv in F. cbn [fst snd] in F. destruct (mb_start _ _ _ F) as (b & t & -> & L & T). exists b. eexists. cbn [map concat snd]. rewrite <- !app_assoc. split; [reflexivity|]. split; [lia | exact T]. }
      destruct G as (b & t & G1 & G2 & G3). pose proof (loop_goes f _ _ _ _ _ _ _ _ b t E G1 G2 G3 ltac:(rewrite !app_length, repeat_length; lia)) as E2. unfold dies. rewrite E2, <- Sh.
      apply IH; [discriminate | exact F | cbn [length] in *; lia].
Qed.
Lemma part_dies : forall y field r s t c (R : unit -> Prop), component_syn (y_f y s t) c -> gets (fun _ => True) (motion_vector_part (pce_of (y_pce y)) field true r s t) 0 c R.
Proof.
  intros y field r s t c R (m & c1 & c2 & -> & C & W). unfold motion_vector_part. rewrite pce_f. eapply gets_bind; [apply gets_onr; intros; apply motion_code_exact; exact C|]. intros a <-.
  replace c2 with (c2 ++ []) by apply app_nil_r. eapply gets_bind with (Q := fun _ => True); [|intros x _; apply gets_panic].
  destruct (y_f y s t =? 1); cbn [orb negb andb] in *; [unfold width in W; destruct c2; [now apply gets_ret | discriminate]|].
  destruct (m =? 0); cbn [negb] in *; [unfold width in W; destruct c2; [now apply gets_ret | discriminate]|].
  destruct (y_f y s t =? 0); [apply gets_panic|]. eapply gets_weak; [apply gets_onr; intros; apply read_n_app; exact W | auto].
Qed.
(** What makes the decoder panic at the vectors *)
Definition bad_motion (y : layer) (t : mbtype) (mt : Z) (s : nat) (c : list bool) : Prop :=
  (mb_motion_forward t || mb_motion_backward t = true /\ mt = 0) \/
  (mb_motion_forward t || mb_motion_backward t = true /\ mt = 3 /\ component_syn (y_f y s 0) c) \/
  (mb_intra t = true /\ mb_motion_forward t || mb_motion_backward t = false).
Lemma vectors_dies : forall y t mt mb s c (R : unit -> Prop), syn_mode y (pce_of (y_pce y)) t mt mb -> y_fpfd y = false -> bad_motion y t mt s c ->
  gets (fun _ => True) (motion_vectors (pce_of (y_pce y)) mb s) 0 c R.
Proof.
  intros y t mt mb s c R (_ & Sm) Fp B. unfold motion_vectors.
  assert (X : (mo_frame_motion mb = 0 /\ mo_field_motion mb = 0) \/ (mo_frame_motion mb = 3 \/ mo_frame_motion mb = 0 /\ mo_field_motion mb = 3) /\ component_syn (y_f y s 0) c).
  { rewrite Fp in Sm. cbn [negb] in Sm. rewrite andb_true_r in Sm. destruct B as [(M & ->) | [(M & -> & C) | (_ & M)] ]; rewrite M in Sm; destruct (y_frame y), Sm; auto. }
  destruct X as [(X1 & X2) | (X & C)].
  - intros t0 rd l _ _. left. apply dies_bind. eexists. unfold mv_info. rewrite (proj2 (pce_fpfd y)), Fp, X1, X2. reflexivity.
  - assert (E : mv_info (S := mstate * reader) (pce_of (y_pce y)) mb = ret (1, true, true)).
    { unfold mv_info. rewrite (proj2 (pce_fpfd y)), Fp. destruct X as [-> | (-> & ->)]; reflexivity. }
    rewrite E. eapply gets_first with (Q := eq (1, true, true)); [now apply gets_ret|]. intros i <-. change (1 =? 1) with true. cbn [negb andb]. cbv iota.
    eapply gets_first; [apply gets_ret with (Q := fun _ => True); exact I|]. intros _ _. unfold motion_vector. replace c with (c ++ []) by apply app_nil_r.
    eapply gets_bind with (Q := fun _ => False); [now apply part_dies | intros ? []].
Qed.
Lemma sure_head_dies : forall v y row addr d m rd, v_ph v = Some (pic_of (y_hdr y)) -> v_pce v = Some (pce_of (y_pce y)) -> sure_head y d -> dies (macroblock v row addr) (m, setb rd d).
Proof.
  intros v y row addr d m rd Hph Hpce (n & c_incr & d1 & -> & Hi & Ld & X). unfold macroblock.
  match goal with |- dies (bind (onr mb_increment) ?k) _ => assert (G : forall m, dies (k n) (m, setb rd d1)) end.
  2:{ destruct (incr_gets mstate (fun _ => True) n c_incr Hi m rd d1 I ltac:(lia)) as [D | (a & m1 & E & _ & <-)]; [now apply dies_bind | eapply dies_ok; [exact E | apply G] ]. }
  clear m. intro m. rewrite Hph, Hpce.
  assert (Z0 : forall c t A (k : MB A), d1 = c ++ t -> gets (fun _ => True) k 0 c (fun _ => False) -> dies k (m, setb rd d1)).
  { intros c t A k -> G. destruct (G m rd t I ltac:(lia)) as [D | (? & ? & _ & _ & [])]. exact D. }
  assert (Sr : forall b e, gets (fun _ => True) (when b (reset_dc e)) 0 [] (fun _ => True)) by (intros; apply gets_whenq; now apply gets_upd).
  assert (Sv : forall b, gets (fun _ => True) (when b reset_mv) 0 [] (fun _ => True)) by (intros; apply gets_whenq; now apply gets_upd).
  destruct (Z_lt_dec (y_type y) 1) as [T1|T1]; [|destruct (Z_lt_dec 3 (y_type y)) as [T3|T3] ].
  1,2: apply (Z0 [] d1); [reflexivity|]; eapply gets_first; [now apply gets_deref|]; intros ph <-; eapply gets_first; [now apply gets_deref|]; intros e <-; cbv zeta; change (ph_type (pic_of (y_hdr y))) with (y_type y);
    (eapply gets_first; [apply gets_skipped|]); intros _ _; (eapply gets_first; [apply Sr|]); intros _ _; (eapply gets_first; [apply Sv|]); intros _ _;
    intros t0 rd0 l _ _; left; apply dies_bind; eexists; unfold onr, macroblock_mode; cbn [fst snd]; change IFrame with 1; change PFrame with 2; change BFrame with 3;
    rewrite (proj2 (Z.eqb_neq (y_type y) 1)), (proj2 (Z.eqb_neq (y_type y) 2)), (proj2 (Z.eqb_neq (y_type y) 3)) by lia; reflexivity.
  destruct X as [X | [X | (quant & forward & backward & pattern & intra & mt & c_type & c_motion & c_dct & c_quant & c_part & t & E1 & Ht & O2 & O3 & O4 & Fp & X)] ]; [lia | lia|].
  destruct (ErrorProofs.fields_all (quant, forward, backward, pattern, intra)) as (ty & Et). rewrite <- Et in Ht. pose proof Et as Et2. unfold mbt_fields in Et2. injection Et2 as <- <- <- <- <-.
  pose proof (types_intra _ _ _ Ht) as Ti. cbn in Ti.
  apply (Z0 ((c_type ++ c_motion ++ c_dct) ++ c_quant ++ c_part) t); [rewrite E1; now rewrite <- !app_assoc|].
  eapply gets_first; [now apply gets_deref|]. intros ph <-. eapply gets_first; [now apply gets_deref|]. intros e <-. cbv zeta. change (ph_type (pic_of (y_hdr y))) with (y_type y).
  eapply gets_first; [apply gets_skipped|]. intros _ _. eapply gets_first; [apply Sr|]. intros _ _. eapply gets_first; [apply Sv|]. intros _ _.
  eapply gets_bind; [exact (mode_gets _ _ y ty mt _ _ _ Ht O2 O3)|]. intros mb Sm. pose proof (proj1 Sm) as Emb. rewrite Emb.
  eapply gets_first; [apply Sr|]. intros _ _. eapply gets_first; [apply Sv|]. intros _ _. eapply gets_first; [apply Sv|]. intros _ _.
  eapply gets_bind with (Q := fun _ => True).
  { eapply gets_when; [exact O4|]. intro Wq. replace c_quant with (c_quant ++ []) by apply app_nil_r.
    eapply gets_bind; [apply gets_onr; intros; apply read_n_app; exact Wq|]. intros q _. now apply gets_upd. }
  intros _ _. rewrite pce_conceal.
  destruct (Bool.bool_dec (mb_motion_forward ty || mb_intra ty && e_conceal (y_pce y)) true) as [B|B]; [|apply Bool.not_true_is_false in B]; rewrite B; cbn [when].
  - replace c_part with (c_part ++ []) by apply app_nil_r. eapply gets_bind with (Q := fun _ => False); [|intros ? []]. eapply vectors_dies; [exact Sm | exact Fp|].
    unfold bad_motion. destruct X as [X | [(X1 & X2 & X3) | (X1 & X2)] ]; [auto | |].
    + right; left. destruct (mb_motion_forward ty) eqn:Ff; [auto|]. cbn [orb] in B. apply andb_true_iff in B. destruct (Ti (proj1 B)) as (? & ? & ?). cbn [orb] in X1. congruence.
    + right; right. destruct (Ti X1) as (F1 & F2 & _). split; [exact X1|]. now rewrite F1, F2.
  - apply orb_false_iff in B. destruct B as (B1 & B2). eapply gets_first with (Q := fun _ => True); [now apply gets_ret|]. intros _ _. rewrite B1 in X. cbn [orb] in X.
    assert (Bw : mb_motion_backward ty = true) by (destruct X as [(X & _) | [(X & _) | (X1 & X2)] ]; [exact X | exact X | now rewrite X1, X2 in B2]).
    rewrite Bw. cbn [when]. replace c_part with (c_part ++ []) by apply app_nil_r. eapply gets_bind with (Q := fun _ => False); [|intros ? []]. eapply vectors_dies; [exact Sm | exact Fp|].
    unfold bad_motion. rewrite B1. cbn [orb]. destruct X as [X | [X | (X1 & X2)] ]; [auto | auto | now rewrite X1, X2 in B2].
Qed.
Lemma sure_start : forall y limit a d, sure_mb y limit a d -> (exists b t, d = b ++ t /\ (length b <= 23)%nat /\ In true b) /\ (23 <= length d)%nat.
Proof.
  intros y limit a d [(n & c & d1 & -> & Hi & L & _) | (n & quant & forward & backward & pattern & intra & cbp & c1 & c2 & c3 & t & -> & L & Hd & _)]; (split; [|rewrite !app_length; lia]).
  - destruct (incr_start _ _ Hi) as (b & u & -> & Lb & T). exists b. eexists. rewrite <- app_assoc. split; [reflexivity|]. split; [lia | exact T].
  - destruct (head_start _ _ _ _ Hd) as (b & u & -> & Lb & T). exists b. eexists. rewrite <- app_assoc. split; [reflexivity|]. split; [lia | exact T].
Qed.
Lemma sure_dies : forall v y W H row addr d f m rd, mvctx v y -> (y_chroma y = 1 -> CauseProofs.sized W H (ms_frame m)) -> sure_mb y (W * (8 * (H - (row + 1)) + 1)) addr d ->
  dies (slice_loop (S f) v row addr) (m, setb rd d).
Proof.
  intros v y W H row addr d f m rd (Hph & Hpce & (se & Hse & Hch) & _) Sz [Hs | (n & quant & forward & backward & pattern & intra & cbp & c1 & c2 & c3 & t & -> & L & Hd & O & X)]; cbn [slice_loop]; apply dies_bind; [now apply (sure_head_dies v y)|]. cbv zeta in X.
  destruct X as [(X & B) | (k & c4 & c5 & N & -> & B & Ov)].
  - assert (M : mb_at y n (c1 ++ c2 ++ c3)) by (exists quant, forward, backward, pattern, intra, cbp, c1, c2, c3; auto).
    destruct (mb_gets (shape (ms_frame m)) v y se row addr n _ Hph Hpce Hse Hch M m rd t eq_refl ltac:(lia)) as [D | (a & m1 & E & Sh & -> & Ft)]; [now rewrite <- !app_assoc in D|]. exfalso.
    destruct X as [(C & Li) | [C|C] ].
    + specialize (Ft 4%nat ltac:(unfold y_blocks; rewrite C; cbn; lia)). apply (fits_limit W H) in Ft; [lia | auto].
    + specialize (Ft 6%nat ltac:(unfold y_blocks; rewrite C; cbn; lia)). now apply fits_none in Ft.
    + specialize (Ft 6%nat ltac:(unfold y_blocks; rewrite C; cbn; lia)). now apply fits_none in Ft.
  - destruct (mb_dies (shape (ms_frame m)) v y se row addr n _ _ _ _ _ _ _ _ _ _ _ Hph Hpce Hse Hch Hd O N B Ov m rd t eq_refl ltac:(lia)) as [D | (a & m1 & _ & _ & [])]. now rewrite <- !app_assoc in *.
Qed.
Lemma loop_sure : forall v y W H row ms, mvctx v y -> Forall (fun m => mb_at y (fst m) (snd m)) ms -> forall addr f m rd d, (length ms < f)%nat -> (y_chroma y = 1 -> CauseProofs.sized W H (ms_frame m)) ->
  sure_mb y (W * (8 * (H - (row + 1)) + 1)) (addr + fold_right Z.add 0 (map fst ms)) d -> dies (slice_loop f v row addr) (m, setb rd (concat (map snd ms) ++ d)).
Proof.
  intros v y W H row ms C. pose proof C as (Hph & Hpce & (se & Hse & Hch) & _). induction ms as [|[n c] ms IH]; intros F addr f m rd d Lf Sz Su; (destruct f as [|f]; [lia|]); cbn [fst snd map concat length fold_right app] in *.
  - rewrite Z.add_0_r in Su. eapply sure_dies; eassumption.
  - apply Forall_cons_iff in F. destruct F as (M & F). cbn [fst snd] in M. rewrite <- app_assoc. destruct (sure_start _ _ _ _ Su) as ((b & t & Eb & Lb & Tb) & Ld).
    destruct (mb_gets (shape (ms_frame m)) v y se row addr n c Hph Hpce Hse Hch M m rd (concat (map snd ms) ++ d) eq_refl ltac:(rewrite !app_length; lia)) as [D | (a & m1 & E & Sh & -> & _)]; [cbn [slice_loop]; now apply dies_bind|].
    unfold framed in Sh.
    assert (G : exists b t, concat (map snd ms) ++ d = b ++ t /\ (length b <= 23)%nat /\ In true b).
    { destruct ms as [|[n2 c2] ms]; [exists b, t; auto|]. apply Forall_inv in F. cbn [fst snd] in F. destruct (mb_start _ _ _ F) as (b2 & t2 & -> & L & T). exists b2. eexists. cbn [map concat snd]. rewrite <- !app_assoc. split; [reflexivity|]. split; [lia | exact T]. }
    destruct G as (b' & t' & G1 & G2 & G3). pose proof (loop_goes f _ _ _ _ _ _ _ _ b' t' E G1 G2 G3 ltac:(rewrite !app_length; lia)) as E2. unfold dies. rewrite E2.
    apply IH; [exact F | lia | intro; eapply CauseProofs.sized_shape; [symmetry; exact Sh | auto] | rewrite <- Z.add_assoc; exact Su].
Qed.
Definition slice_head (v : vidseq) (frame : image) : M reader (piccodext * Z * Z) :=
  code <- read_n 32 ;;
  if negb (is_slice code) then fail ErrUnexpectedStartCode else
  e <- deref (v_pce v) ;;
  let mb_row := u32 (Z.land code 255 - 1) in
  if (16 * mb_row * im_ys frame <=? pl_len (im_y frame)) && (8 * mb_row * im_cs frame <=? pl_len (im_cb frame))
     && (8 * mb_row * im_cs frame <=? pl_len (im_cr frame))
  then
    sh <- deref (v_sh v) ;;
    when (sh_vertical sh >? 2800) (read_n 3 ;; ret tt) ;;
    qsc <- read_n 5 ;;
    slice_flags ;;
    ret (e, mb_row, qsc)
  else panic.
Lemma slice_dies1 : forall v f r, dies (slice_head v f) r -> dies (slice v f) r.
Proof. intros v f r (r' & E). unfold slice. fold (slice_head v f). unfold dies. exists r'. now rewrite E. Qed.
Lemma slice_dies2 : forall v f r e row q r1, slice_head v f r = (Ok (e, row, q), r1) -> dies (slice_loop (S (length (rbits r1))) v row (-1)) (mkMS (dc_reset (pc_dc e)) mv_zero q f, r1) -> dies (slice v f) r.
Proof. intros v f r e row q r1 E ([m' r'] & E2). unfold slice. fold (slice_head v f). unfold dies. exists r'. rewrite E. cbn [snd]. now rewrite E2. Qed.
Lemma slice_ok : forall v f r e row q r1 m' r2 r3, slice_head v f r = (Ok (e, row, q), r1) -> slice_loop (S (length (rbits r1))) v row (-1) (mkMS (dc_reset (pc_dc e)) mv_zero q f, r1) = (Ok tt, (m', r2)) ->
  next_start_code r2 = (Ok tt, r3) -> slice v f r = (Ok (ms_frame m'), r3).
Proof. intros v f r e row q r1 m' r2 r3 E E2 E3. unfold slice. fold (slice_head v f). rewrite E. cbn [snd]. rewrite E2. now rewrite (bind_ok _ _ _ _ _ _ _ _ E3). Qed.
Lemma head_gets : forall v y f row ext q flags rd l, mvctx v y -> 1 <= row <= 175 -> only_if (2800 <? y_vertical y) (width 3) ext -> width 5 q -> match flags with Some (_, extra) => bytes extra | None => True end ->
  dies (slice_head v f) (setb rd (code row ++ ext ++ q ++ flags_code flags ++ l)) \/
  exists e, slice_head v f (setb rd (code row ++ ext ++ q ++ flags_code flags ++ l)) = (Ok (e, row - 1, dec q), setb rd l).
Proof.
  intros v y f row ext q flags rd l (Hph & Hpce & _ & sh & Hsh & Hv) R Ex Q FL. unfold slice_head. destruct (row_of (row - 1) ltac:(lia)) as [RW SL]. replace (row - 1 + 1) with row in * by ring.
  rewrite code_enc by lia. unfold dies. rewrite (bind_ok _ _ _ _ _ _ _ _ (read_enc 32 (256 + row) rd _ ltac:(change (2 ^ Z.of_nat 32) with 4294967296; lia))).
  rewrite SL. cbn [negb]. rewrite Hpce. unfold deref at 1 3. rewrite bind_ret. cbv zeta. rewrite RW. destruct (_ && _); [|left; eexists; reflexivity]. right. eexists.
  rewrite Hsh. unfold deref. rewrite bind_ret. rewrite Hv.
  assert (E : forall l, when (y_vertical y >? 2800) (read_n 3 ;; ret tt) (setb rd (ext ++ l)) = (Ok tt, setb rd l)).
  { intro l'. rewrite Z.gtb_ltb. destruct (2800 <? y_vertical y); cbn [only_if when] in *; [|subst; reflexivity]. rewrite (bind_ok _ _ _ _ _ _ _ _ (read_n_app 3 rd ext l' Ex)). reflexivity. }
  rewrite (bind_ok _ _ _ _ _ _ _ _ (E _)), (bind_ok _ _ _ _ _ _ _ _ (read_n_app 5 rd q _ Q)), (bind_ok _ _ _ _ _ _ _ _ (flags_run flags rd _ FL)). reflexivity.
Qed.
Lemma mbs_at : forall y ms, Forall (mb_syn y) ms -> exists ns, map snd ns = ms /\ Forall (fun m => mb_at y (fst m) (snd m)) ns.
Proof.
  intros y ms F. induction F as [|c ms M F (ns & <- & G)]; [exists []; auto|]. destruct M as (quant & forward & backward & pattern & intra & cbp & c1 & c2 & c3 & -> & (n & Hd) & O & B).
  exists ((n, c1 ++ c2 ++ c3) :: ns). split; [reflexivity|]. constructor; [|exact G]. exists quant, forward, backward, pattern, intra, cbp, c1, c2, c3. auto.
Qed.
Lemma slice_whole : forall v y f c rest rd, mvctx v y -> slice_syn (mb_syn y) y c -> at_code rest ->
  dies (slice v f) (setb rd (c ++ rest)) \/ exists f', slice v f (setb rd (c ++ rest)) = (Ok f', setb rd rest) /\ shape f' = shape f.
Proof.
  intros v y f c rest rd C (row & ext & q & flags & ms & j & R & Ex & Q & FL & Ne & F & ->) (t & -> & Lt). rewrite <- !app_assoc.
  destruct (head_gets v y f row ext q flags rd (concat ms ++ repeat false j ++ prefix ++ t) C R Ex Q FL) as [D | (e & E)]; [left; now apply slice_dies1|].
  destruct (mbs_at _ _ F) as (ns & <- & G).
  assert (Z23 : exists Y, repeat false j ++ prefix ++ t = repeat false 23 ++ Y).
  { change (prefix ++ t) with (repeat false 23 ++ [true] ++ t). rewrite (app_assoc (repeat false j)), <- repeat_app. rewrite Nat.add_comm, repeat_app, <- app_assoc. eauto. }
  destruct Z23 as (Y & EY). rewrite EY in E |- *.
  destruct (loop_whole v y (row - 1) ns C ltac:(intros ->; now apply Ne) G (-1) (S (length (rbits (setb rd (concat (map snd ns) ++ repeat false 23 ++ Y))))) (mkMS (dc_reset (pc_dc e)) mv_zero (dec q) f) rd Y) as [D | (m' & E2 & Sh)].
  - rewrite rbits_setb, app_length. pose proof (mb_count _ _ G). lia.
  - left. eapply slice_dies2; eassumption.
  - right. exists (ms_frame m'). split; [|exact Sh]. eapply slice_ok; [exact E | exact E2|]. rewrite <- EY.
    rewrite (Nat.div_mod j 8) by lia. rewrite Nat.add_comm, repeat_app, <- app_assoc.
    assert (B : forall n, repeat false (8 * n) = bb (repeat 0 n)) by (induction n as [|n IH]; [reflexivity|]; replace (8 * S n)%nat with (8 + 8 * n)%nat by lia; rewrite repeat_app, IH; reflexivity).
    rewrite B. apply next_start_code_run; [rewrite repeat_length; apply Nat.mod_upper_bound; lia | exact Lt].
Qed.
Lemma slice_sure : forall v y W H f row t rd, mvctx v y -> 1 <= row <= 175 -> CauseProofs.rows_of W H f -> (y_chroma y = 1 -> CauseProofs.sized W H f) -> sure_slice y W H row t -> dies (slice v f) (setb rd (code row ++ t)).
Proof.
  intros v y W H f row t rd C R Ro Sz [(Hw & Hr) | (ext & q & flags & ms & d & -> & Ex & Q & FL & F & Su)].
  - apply slice_dies1. pose proof C as (Hph & Hpce & _). unfold slice_head. destruct (row_of (row - 1) ltac:(lia)) as [RW SL]. replace (row - 1 + 1) with row in * by ring.
    rewrite code_enc by lia. unfold dies. rewrite (bind_ok _ _ _ _ _ _ _ _ (read_enc 32 (256 + row) rd _ ltac:(change (2 ^ Z.of_nat 32) with 4294967296; lia))).
    rewrite SL. cbn [negb]. rewrite Hpce. unfold deref at 1. rewrite bind_ret. cbv zeta. rewrite RW. destruct Ro as (-> & -> & _). assert (16 * (row - 1) * (16 * W) <=? 256 * (W * H) = false) as -> by (apply Z.leb_gt; nia). cbn [andb]. eexists. reflexivity.
  - destruct (head_gets v y f row ext q flags rd (concat (map snd ms) ++ d) C R Ex Q FL) as [D | (e & E)]; [now apply slice_dies1|].
    eapply slice_dies2; [exact E|]. eapply loop_sure with (W := W) (H := H); [exact C | exact F | | exact Sz |].
    + rewrite rbits_setb, app_length. pose proof (mb_count _ _ F). lia.
    + replace (row - 1 + 1) with row by ring. exact Su.
Qed.
Lemma whole_starts : forall y c, whole_slice y c -> exists b t, c = code b ++ t /\ 1 <= b <= 175 /\ (length t mod 8 = 0)%nat.
Proof.
  intros y c ((row & ext & q & flags & ms & j & R & _ & _ & _ & _ & _ & ->) & L). exists row. eexists. split; [reflexivity|]. split; [exact R|].
  rewrite app_length, code_length in L. rewrite Nat.add_mod in L by lia. change (32 mod 8)%nat with 0%nat in L. cbn [Nat.add] in L. now rewrite Nat.mod_mod in L by lia.
Qed.
Lemma peek_slice : forall b rd t, 1 <= b <= 175 -> peek_n 32 (setb rd (code b ++ t)) = (Ok (256 + b), setb rd (code b ++ t)) /\ is_slice (256 + b) = true.
Proof. intros b rd t B. split; [apply peek_code; lia|]. unfold is_slice. change MinSliceStartCode with 257. change MaxSliceStartCode with 431. apply andb_true_iff. lia. Qed.
Lemma slices_starts2 : forall y ss row t, Forall (whole_slice y) ss -> 1 <= row <= 175 -> (length t mod 8 = 0)%nat -> exists b u, concat ss ++ code row ++ t = code b ++ u /\ 1 <= b <= 175 /\ (length u mod 8 = 0)%nat.
Proof.
  intros y ss row t F R L. induction F as [|c ss C F (b & u & E & B & U)]; cbn [concat app]; [eauto|]. destruct (whole_starts _ _ C) as (b1 & u1 & -> & B1 & U1). rewrite <- !app_assoc, E. exists b1. eexists. split; [reflexivity|]. split; [exact B1|].
  apply app_mod8; [exact U1|]. apply app_mod8; [now rewrite code_length | exact U].
Qed.
Lemma code_at : forall b t, (length t mod 8 = 0)%nat -> at_code (code b ++ t).
Proof. intros b t L. unfold code. rewrite <- app_assoc. eexists. split; [reflexivity|]. apply app_mod8; [now rewrite enc_length | exact L]. Qed.
Lemma slices_sure : forall v y W H rd row t, mvctx v y -> 1 <= row <= 175 -> (length t mod 8 = 0)%nat -> sure_slice y W H row t ->
  forall ss fuel f, Forall (whole_slice y) ss -> (length ss < fuel)%nat -> CauseProofs.rows_of W H f -> (y_chroma y = 1 -> CauseProofs.sized W H f) -> dies (slices fuel v f) (setb rd (concat ss ++ code row ++ t)).
Proof.
  intros v y W H rd row t C R L Su. induction ss as [|c ss IH]; intros fuel f F Lf Ro Sz; (destruct fuel as [|fuel]; [cbn in Lf; lia|]); cbn [slices concat app].
  - apply dies_bind. eapply slice_sure; eassumption.
  - apply Forall_cons_iff in F. destruct F as (Wc & F). rewrite <- app_assoc. destruct (slices_starts2 y ss row t F R L) as (b & u & E & B & U).
    destruct (slice_whole v y f c (concat ss ++ code row ++ t) rd C (proj1 Wc)) as [D | (f' & Es & Sh)]; [rewrite E; now apply code_at | now apply dies_bind|].
    eapply dies_ok; [exact Es|]. rewrite E. destruct (peek_slice b rd u B) as (P & I). eapply dies_ok; [exact P|]. rewrite I, <- E.
    apply IH; [exact F | cbn in Lf; lia | eapply CauseProofs.rows_shape; [symmetry; exact Sh | exact Ro] | intro; eapply CauseProofs.sized_shape; [symmetry; exact Sh | auto] ].
Qed.
Lemma not_slice_at : forall l, not_slice l -> at_code l.
Proof. intros l (b & t & -> & L & _). now apply code_at. Qed.
Lemma unit_not_slice : forall l, at_unit l -> not_slice l.
Proof. intros l (b & t & -> & L & I). exists b, t. split; [reflexivity|]. split; [exact L|]. cbn [In] in I. unfold picture_code, sequence_header_code, group_code, sequence_end_code in I. lia. Qed.
Lemma slices_whole : forall v y rd rest, mvctx v y -> not_slice rest -> forall ss fuel f, ss <> [] -> Forall (whole_slice y) ss -> (length ss <= fuel)%nat ->
  dies (slices fuel v f) (setb rd (concat ss ++ rest)) \/ exists f', slices fuel v f (setb rd (concat ss ++ rest)) = (Ok f', setb rd rest) /\ shape f' = shape f.
Proof.
  intros v y rd rest C AU. pose proof (not_slice_at _ AU) as AC. induction ss as [|c ss IH]; intros fuel f Ne F Lf; [congruence|]. (destruct fuel as [|fuel]; [cbn in Lf; lia|]). cbn [slices concat].
  apply Forall_cons_iff in F. destruct F as (Wc & F). rewrite <- app_assoc. destruct ss as [|c2 ss].
  - cbn [concat app]. destruct (slice_whole v y f c rest rd C (proj1 Wc) AC) as [D | (f' & Es & Sh)]; [left; now apply dies_bind|]. right. exists f'. split; [|exact Sh]. rewrite (bind_ok _ _ _ _ _ _ _ _ Es).
    destruct AU as (b & t & -> & _ & B & N). rewrite (bind_ok _ _ _ _ _ _ _ _ (peek_code b rd t B)).
    replace (is_slice (256 + b)) with false; [reflexivity|]. symmetry. unfold is_slice. change MinSliceStartCode with 257. change MaxSliceStartCode with 431. apply andb_false_iff. lia.
  - assert (G : exists b u, concat (c2 :: ss) ++ rest = code b ++ u /\ 1 <= b <= 175 /\ (length u mod 8 = 0)%nat).
    { destruct AU as (b & t & -> & Lt & _). apply Forall_cons_iff in F. destruct F as (F2 & F). cbn [concat]. destruct (whole_starts _ _ F2) as (b1 & u1 & -> & B1 & U1). rewrite <- !app_assoc. exists b1. eexists. split; [reflexivity|]. split; [exact B1|].
      assert (X : forall ss, Forall (whole_slice y) ss -> (length (concat ss) mod 8 = 0)%nat) by (clear; intros ss F; induction F as [|c ss (_ & L) F IH]; [reflexivity | cbn [concat]; now apply app_mod8]).
      apply app_mod8; [exact U1|]. apply app_mod8; [now apply X|]. apply app_mod8; [now rewrite code_length | exact Lt]. }
    destruct G as (b & u & E & B & U).
    destruct (slice_whole v y f c (concat (c2 :: ss) ++ rest) rd C (proj1 Wc)) as [D | (f' & Es & Sh)]; [rewrite E; now apply code_at | left; now apply dies_bind|].
    rewrite (bind_ok _ _ _ _ _ _ _ _ Es). destruct (peek_slice b rd u B) as (P & I). unfold dies. rewrite (bind_ok _ _ _ _ _ _ _ _ Es). rewrite E, (bind_ok _ _ _ _ _ _ _ _ P), I, <- E, <- Sh.
    apply IH; [discriminate | exact F | cbn in *; lia].
Qed.
Lemma whole_count : forall y ss, Forall (whole_slice y) ss -> (length ss <= length (concat ss))%nat.
Proof. intros y ss F. induction F as [|c ss C F IH]; cbn [concat length]; [lia|]. destruct (whole_starts _ _ C) as (b & t & -> & _). rewrite !app_length, code_length. lia. Qed.
(** picture_data: [h] gives the size *)
Lemma data_whole : forall v y ss rest rd, mvctx v y -> not_slice rest -> ss <> [] -> Forall (whole_slice y) ss ->
  dies (picture_data v) (setb rd (concat ss ++ rest)) \/ exists f', picture_data v (setb rd (concat ss ++ rest)) = (Ok f', setb rd rest).
Proof.
  intros v y ss rest rd C AU Ne F. pose proof C as (_ & _ & (se & Hse & Hch) & _). unfold picture_data, dies. destruct (size v) as [w h]. rewrite Hse. unfold deref. rewrite bind_ret.
  destruct (slices_whole v y rd rest C AU ss (S (length (rbits (setb rd (concat ss ++ rest))))) (create_frame_buffer w h (se_chroma se)) Ne F) as [D | (f' & E & _)].
  - rewrite rbits_setb, app_length. pose proof (whole_count _ _ F). lia.
  - left. now apply dies_bind.
  - right. exists f'. rewrite (bind_ok _ _ _ _ _ _ _ _ E). pose proof (not_slice_at _ AU) as (t & -> & LT). pose proof (next_start_code_run [] 0 rd t ltac:(cbn; lia) LT) as NS. cbn [app repeat bb flat_map] in NS. rewrite (bind_ok _ _ _ _ _ _ _ _ NS). reflexivity.
Qed.
Lemma data_sure : forall v y w h d rd ss row t, mvctx v y -> size v = (w, h) -> 0 <= w -> 0 <= h -> d = concat ss ++ code row ++ t -> 1 <= row <= 175 -> Forall (whole_slice y) ss -> (length t mod 8 = 0)%nat ->
  sure_slice y (mbs w) (mbs h) row t -> dies (picture_data v) (setb rd d).
Proof.
  intros v y w h d rd ss row t C Sz Hw Hh -> R F L Su. pose proof C as (_ & _ & (se & Hse & Hch) & _). unfold picture_data, dies. rewrite Sz, Hse. unfold deref. rewrite bind_ret.
  apply dies_bind. eapply slices_sure; [exact C | exact R | exact L | exact Su | exact F | | now apply CauseProofs.rows_buffer|].
  - rewrite rbits_setb, app_length. pose proof (whole_count _ _ F). lia.
  - intro X. rewrite Hch, X. now apply CauseProofs.sized_buffer.
Qed.

(** * Streams *)
Definition pic_tail : V image :=
  v <- own ;;
  ph <- deref (v_ph v) ;;
  upd (fun v => set_fs (fs_set (ph_tr ph) (v_fs v)) v) ;;
  v <- own ;;
  frame <- onr (picture_data v) ;;
  (if (ph_type ph =? IFrame) || (ph_type ph =? PFrame)
   then upd (fun v => set_fs (fs_add frame (ph_tr ph) (v_fs v)) v) else ret tt) ;;
  ret frame.
Lemma items_se : forall xs v, v_se (items_effect xs v) = v_se v.
Proof.
  induction xs as [|x xs IH]; intro v; [reflexivity|]. cbn [items_effect fold_left]. fold (items_effect xs (item_effect x v)). rewrite IH. destruct x; cbn [item_effect]; reflexivity.
Qed.
Lemma items_knows : forall xs v o, knows v o -> knows (items_effect xs v) o.
Proof. intros xs v o K. destruct (items_same xs v) as (_ & _ & _ & _ & E). unfold knows. rewrite E, items_se. exact K. Qed.
Definition ready_for (v : vidseq) (h : sseq * ssext) (p : spicture_head) : Prop := v_ph v = Some (pic_of (pd_hdr p)) /\ v_pce v = Some (pce_of (pd_pce p)) /\ knows v (Some h).
Lemma picture_heads : forall p h v rd d, wf_picture_head p -> at_other_code d -> knows v (Some h) -> exists v1, picture_part (v, setb rd (enc_picture_head p ++ d)) = pic_tail (v1, setb rd d) /\ ready_for v1 h p.
Proof.
  intros p h v rd d (W1 & W2 & W3 & W4) A K. unfold picture_part, enc_picture_head. rewrite <- !app_assoc.
  pose proof (xitems_at_code (pd_items p) _ (other_at_code _ A)) as A1.
  assert (A2 : at_code (stuffed (enc_pce (pd_pce p)) (pd_k2 p) ++ enc_xitems (pd_items p) ++ d)) by (apply stuffed_at_code; exact A1).
  unfold vs_picture_header, vs_picture_coding_extension.
  erewrite bind_ok by (apply (PropertiesVidHeaders.assign_run _ set_ph picture_header_fields (enc_pic (pd_hdr p)) (pic_of (pd_hdr p))); [intros; now apply pic_fields_run | exact A2]).
  erewrite bind_ok by (apply (PropertiesVidHeaders.assign_run _ set_pce picture_coding_extension_fields (enc_pce (pd_pce p)) (pce_of (pd_pce p))); [intros; now apply pce_fields_run | exact A1]).
  erewrite bind_ok by (apply ext_user_data_run; [exact W3 | exact W4 | exact A]).
  eexists. split; [reflexivity|]. set (w := set_pce _ _). destruct (items_same (pd_items p) w) as (E1 & E2 & _). split; [now rewrite E1|]. split; [now rewrite E2|]. apply items_knows. destruct h as [s x]. exact K.
Qed.
Lemma more_heads : forall og p h v rd d, opt_wf wf_group_head og -> wf_picture_head p -> at_other_code d -> knows v (Some h) ->
  exists v1, more_frames (v, setb rd (opt enc_group_head og ++ enc_picture_head p ++ d)) = pic_tail (v1, setb rd d) /\ ready_for v1 h p.
Proof.
  intros og p h v rd d Wg Wp A K. unfold more_frames. pose proof (other_at_code _ A) as Ac. destruct og as [g|]; cbn [opt app].
  - destruct Wg as (W1 & W2 & W3).
    assert (P : peek_n 32 (setb rd (enc_group_head g ++ enc_picture_head p ++ d)) = (Ok (256 + group_code), setb rd (enc_group_head g ++ enc_picture_head p ++ d))).
    { unfold enc_group_head, stuffed, enc_gop. rewrite <- !app_assoc. apply peek_code. unfold group_code. lia. }
    erewrite bind_onr_ok by exact P. change (256 + group_code =? GroupStartCode) with true. cbv iota. rewrite bind_assoc.
    unfold enc_group_head, stuffed. rewrite <- (app_assoc _ (enc_xitems (gh_items g))), <- (app_assoc (enc_gop (gh_hdr g))). erewrite bind_onr_ok by (apply gop_run; [exact W1 | apply xitems_at_code; now apply UnsupportedProofs.head_at]).
    rewrite bind_assoc, bind_upd. cbn [fst snd]. erewrite bind_ok by (apply ext_user_data_run; auto; now apply UnsupportedProofs.head_other). apply picture_heads; [exact Wp | exact A|]. apply items_knows. destruct h as [s x]. exact K.
  - destruct (UnsupportedProofs.head_starts p d) as (t & E).
    assert (P : peek_n 32 (setb rd (enc_picture_head p ++ d)) = (Ok (256 + picture_code), setb rd (enc_picture_head p ++ d))) by (rewrite E; apply peek_code; unfold picture_code; lia).
    erewrite bind_onr_ok by exact P. change (256 + picture_code =? GroupStartCode) with false. cbv iota. rewrite bind_ret. now apply picture_heads.
Qed.
Lemma start_heads : forall s og p v rd d, wf_start s -> opt_wf wf_group_head og -> wf_picture_head p -> at_other_code d ->
  exists v1, (vs_sequence_header ;; vs_sequence_extension ;; continue_frames) (v, setb rd (enc_start s ++ opt enc_group_head og ++ enc_picture_head p ++ d)) = pic_tail (v1, setb rd d) /\ ready_for v1 (st_seq s, st_ext s) p.
Proof.
  intros s og p v rd d (W1 & W2 & W3 & W4) Wg Wp A.
  assert (Ao : at_other_code (opt enc_group_head og ++ enc_picture_head p ++ d)) by now apply UnsupportedProofs.opt_group_other, other_at_code.
  pose proof (xitems_at_code (st_items s) _ (other_at_code _ Ao)) as A1. unfold enc_start. rewrite <- !app_assoc.
  assert (A2 : at_code (stuffed (enc_sext (st_ext s)) (st_k2 s) ++ enc_xitems (st_items s) ++ opt enc_group_head og ++ enc_picture_head p ++ d)) by (apply stuffed_at_code; exact A1).
  erewrite bind_ok by (now apply PropertiesVidHeaders.vs_seq_run). unfold vs_sequence_extension.
  erewrite bind_ok by (apply (PropertiesVidHeaders.assign_run _ set_se sequence_extension_fields (enc_sext (st_ext s)) (sext_of (st_ext s))); [intros; now apply sext_fields_run | exact A1]).
  unfold continue_frames. erewrite bind_ok by (apply ext_user_data_run; [exact W3 | exact W4 | exact Ao]). apply more_heads; auto. apply items_knows. split; reflexivity.
Qed.
Lemma heads_step : forall o h p c k v rd d, heads o h p c -> knows v o -> (v_sh v <> None -> k = 0%nat) -> at_other_code d ->
  exists v1, step (v, setb rd (bb (repeat 0 k) ++ c ++ d)) = pic_tail (v1, setb rd d) /\ ready_for v1 h p.
Proof.
  intros o h p c k v rd d (os & og & -> & Ws & Wg & Wp & Hh) K Kz A. rewrite <- !app_assoc.
  assert (Ao : at_other_code (opt enc_group_head og ++ enc_picture_head p ++ d)) by now apply UnsupportedProofs.opt_group_other, other_at_code.
  destruct (v_sh v) as [q|] eqn:SH.
  - assert (N : v_sh v <> None) by (rewrite SH; discriminate). rewrite (Kz ltac:(discriminate)). cbn [repeat bb flat_map app]. destruct os as [s|]; cbn [opt opt_wf app] in *.
    + rewrite UnsupportedProofs.resume_headers by auto. rewrite Hh. now apply start_heads.
    + rewrite UnsupportedProofs.step_pics by auto. apply more_heads; auto. now subst o.
  - destruct os as [s|]; cbn [opt opt_wf app] in *.
    + rewrite UnsupportedProofs.first_headers; auto; [|now apply other_at_code]. rewrite Hh. now apply start_heads.
    + subst o. destruct h as [s x]. destruct K as (K & _). congruence.
Qed.
Lemma heads_wfo : forall o h p c, heads o h p c -> CauseProofs.wfo o -> CauseProofs.wfo (Some h).
Proof. intros o h p c (os & og & _ & Ws & _ & _ & Hh) W. destruct os as [s|]; [subst h; destruct Ws as (W1 & W2 & _); split; assumption | now subst o]. Qed.
Lemma heads_unit : forall o h p c d, heads o h p c -> at_code d -> not_slice (c ++ d).
Proof.
  intros o h p c d (os & og & -> & _) A. apply unit_not_slice. rewrite <- !app_assoc. destruct os as [s|]; cbn [opt].
  + unfold enc_start. rewrite <- !app_assoc. unfold enc_seq. apply stuffed_unit; [cbn; auto|]. apply at_code_mod8. unfold enc_sext. apply stuffed_at_code. apply xitems_at_code. now apply other_at_code, UnsupportedProofs.opt_group_other.
  + cbn [app]. destruct og as [g|]; cbn [opt app].
    * unfold enc_group_head. rewrite <- !app_assoc. unfold enc_gop. apply stuffed_unit; [cbn; auto|]. apply at_code_mod8, xitems_at_code, other_at_code. now apply UnsupportedProofs.head_other.
    * unfold enc_picture_head. rewrite <- !app_assoc. unfold enc_pic. apply stuffed_unit; [cbn; auto|]. apply at_code_mod8. unfold enc_pce. apply stuffed_at_code. now apply xitems_at_code.
Qed.
Lemma ready_ctx : forall v h p w fs, ready_for v h p -> w = set_fs fs v -> mvctx w (mkLayer (pd_hdr p) (pd_pce p) (x_chroma (snd h)) (q_vertical (fst h))).
Proof. intros v [s x] p w fs (E1 & E2 & E3 & E4) ->. split; [exact E1|]. split; [exact E2|]. split; eexists; (split; [eassumption | reflexivity]). Qed.
Lemma tail_whole : forall v h p ss rest rd, ready_for v h p -> not_slice rest -> ss <> [] -> Forall (whole_slice (mkLayer (pd_hdr p) (pd_pce p) (x_chroma (snd h)) (q_vertical (fst h)))) ss ->
  dies pic_tail (v, setb rd (concat ss ++ rest)) \/ exists f v', pic_tail (v, setb rd (concat ss ++ rest)) = (Ok f, (v', setb rd rest)) /\ knows v' (Some h).
Proof.
  intros v h p ss rest rd R AU Ne F. pose proof R as (E1 & E2 & K). unfold dies, pic_tail. rewrite bind_own. cbn [fst]. rewrite E1. unfold deref. rewrite bind_ret, bind_upd, bind_own. cbn [fst snd].
  set (w := set_fs _ v). assert (C : mvctx w (mkLayer (pd_hdr p) (pd_pce p) (x_chroma (snd h)) (q_vertical (fst h)))) by (eapply ready_ctx; [exact R | reflexivity]).
  destruct (data_whole w _ ss rest rd C AU Ne F) as [(r' & D) | (f & E)].
  - left. apply (dies_bind _ _ _ (onr (picture_data w))). unfold dies, onr. cbn [fst snd]. rewrite D. eauto.
  - right. erewrite bind_onr_ok by exact E. unfold bind. destruct (_ || _).
    + unfold upd, ret. cbn [fst snd]. eexists _, _. split; [reflexivity|]. destruct h as [s x]. exact K.
    + unfold ret. eexists _, _. split; [reflexivity|]. destruct h as [s x]. exact K.
Qed.
Lemma tail_sure : forall v h p d rd, ready_for v h p -> CauseProofs.wfo (Some h) -> sure_picture h (pd_hdr p) (pd_pce p) d -> dies pic_tail (v, setb rd d).
Proof.
  intros v h p d rd R Wo (ss & row & t & -> & Hr & F & L & Su). pose proof R as (E1 & E2 & K). unfold dies, pic_tail. rewrite bind_own. cbn [fst]. rewrite E1. unfold deref. rewrite bind_ret, bind_upd, bind_own. cbn [fst snd].
  set (w := set_fs _ v). assert (C : mvctx w (mkLayer (pd_hdr p) (pd_pce p) (x_chroma (snd h)) (q_vertical (fst h)))) by (eapply ready_ctx; [exact R | reflexivity]).
  destruct h as [s x]. destruct K as (Hsh & Hse). destruct Wo as (Ws & Wx).
  assert (Sz : size w = (4096 * x_h x + q_horizontal s, 4096 * x_v x + q_vertical s)).
  { unfold size, w. cbn [v_sh v_se set_fs]. rewrite Hsh, Hse. cbn [sh_horizontal sh_vertical se_hext se_vext seq_of sext_of]. destruct Ws as (W1 & W2 & _). unfold wf_sext in Wx. f_equal; apply PropertiesVidHeaders.size_parts; tauto. }
  assert (P : 0 <= 4096 * x_h x + q_horizontal s /\ 0 <= 4096 * x_v x + q_vertical s).
  { destruct Ws as (W1 & W2 & _). unfold wf_sext in Wx. assert (0 <= x_h x /\ 0 <= x_v x) by (split; apply Wx). lia. }
  destruct (data_sure w _ _ _ _ rd ss row t C Sz (proj1 P) (proj2 P) eq_refl Hr F L Su) as (r' & D). apply (dies_bind _ _ _ (onr (picture_data w))). unfold dies, onr. cbn [fst snd]. rewrite D. eauto.
Qed.
Lemma whole_mod : forall y ss, Forall (whole_slice y) ss -> (length (concat ss) mod 8 = 0)%nat.
Proof. intros y ss F. induction F as [|c ss (_ & L) F IH]; [reflexivity | cbn [concat]; now apply app_mod8]. Qed.
Lemma slices_at : forall y ss d, Forall (whole_slice y) ss -> ss <> [] -> (length d mod 8 = 0)%nat -> at_other_code (concat ss ++ d).
Proof.
  intros y ss d F Ne L. destruct ss as [|c ss]; [congruence|]. apply Forall_cons_iff in F. destruct F as (C & F). cbn [concat]. destruct (whole_starts _ _ C) as (b & t & -> & B & U). rewrite <- !app_assoc.
  apply at_code_other; [lia | unfold extension_code; lia | unfold user_data_code; lia|]. apply code_at. apply app_mod8; [exact U|]. apply app_mod8; [eapply whole_mod; exact F | exact L].
Qed.
Lemma unit_mod : forall l, not_slice l -> (length l mod 8 = 0)%nat.
Proof. intros l A. apply at_code_mod8. now apply not_slice_at. Qed.
Lemma whole_unit : forall o o' c d, whole_stream o o' c -> not_slice d -> not_slice (c ++ d).
Proof.
  intros o o' c d H A. induction H as [o | o h o' c e (p & c1 & ss & -> & Hh & Ne & F) H IH]; [exact A|]. rewrite <- !app_assoc. eapply heads_unit; [exact Hh|]. apply other_at_code. eapply slices_at; eauto. apply unit_mod. auto.
Qed.
Lemma piece_some : forall o h c, whole_piece o h c -> (0 < length c)%nat.
Proof.
  intros o h c (p & c1 & ss & -> & Hh & Ne & F). destruct ss as [|s ss]; [congruence|]. apply Forall_inv in F. destruct (whole_starts _ _ F) as (b & t & -> & _). cbn [concat]. rewrite !app_length, code_length. lia.
Qed.
Lemma knows_some : forall v h, knows v (Some h) -> v_sh v <> None.
Proof. intros v [s x] (E & _). congruence. Qed.
Lemma loop_pieces : forall o o' c, whole_stream o o' c -> forall k v rd d f, knows v o -> CauseProofs.wfo o -> (v_sh v <> None -> k = 0%nat) -> (c <> [] -> not_slice d) -> (length c < f)%nat ->
  dies (next_loop f) (v, setb rd (bb (repeat 0 k) ++ c ++ d)) \/
  (exists img v' c1 o1 c2, next_loop f (v, setb rd (bb (repeat 0 k) ++ c ++ d)) = (Ok img, (v', setb rd (c2 ++ d))) /\ c = c1 ++ c2 /\ c1 <> [] /\ whole_stream o1 o' c2 /\ knows v' o1 /\ CauseProofs.wfo o1 /\ v_sh v' <> None) \/
  (exists v' k' f', next_loop f (v, setb rd (bb (repeat 0 k) ++ c ++ d)) = next_loop (S f') (v', setb rd (bb (repeat 0 k') ++ d)) /\ knows v' o' /\ CauseProofs.wfo o' /\ (v_sh v' <> None -> k' = 0%nat) /\ (k = 0%nat \/ c <> [] -> k' = 0%nat)).
Proof.
  intros o o' c H. induction H as [o | o h o' c e P H IH]; intros k v rd d f K Wo Kz AU Lf.
  - right. right. destruct f as [|f]; [lia|]. exists v, k, f. cbn [app]. repeat (split; [auto; reflexivity|]). intros [X|X]; [exact X | now elim X].
  - pose proof (piece_some _ _ _ P) as Lc. rewrite app_length in Lf. destruct f as [|f]; [lia|]. specialize (AU ltac:(intro X; apply (f_equal (@length bool)) in X; rewrite app_length in X; cbn in X; lia)).
    destruct P as (p & c1 & ss & -> & Hh & Ne & F). pose proof (whole_unit _ _ _ _ H AU) as AU2.
    assert (Ao : at_other_code (concat ss ++ e ++ d)) by (eapply slices_at; [exact F | exact Ne | now apply unit_mod]).
    destruct (heads_step o h p c1 k v rd (concat ss ++ e ++ d) Hh K Kz Ao) as (v1 & E1 & R1). rewrite <- !app_assoc. cbn [next_loop].
    destruct (tail_whole v1 h p ss (e ++ d) rd R1 AU2 Ne F) as [D | (img & v2 & E2 & K2)].
    + left. apply dies_bind. unfold dies. rewrite E1. exact D.
    + rewrite <- E1 in E2. pose proof (heads_wfo _ _ _ _ Hh Wo) as Wo2. unfold dies. rewrite (bind_ok _ _ _ _ _ _ _ _ E2). rewrite bind_own. cbn [fst].
      destruct (v_ph v2) as [ph|]; [|left; eexists; reflexivity]. unfold deref. rewrite bind_ret. destruct (ph_tr ph =? v_fc v2).
      * right. left. exists img, (set_fc (u32 (v_fc v2 + 1)) v2), (c1 ++ concat ss), (Some h), e. rewrite bind_upd. cbn [fst snd]. split; [reflexivity|]. split; [now rewrite <- app_assoc|].
        split; [intro X; rewrite X in Lc; cbn in Lc; lia|]. split; [exact H|]. split; [destruct h; exact K2|]. split; [exact Wo2|]. cbn [v_sh set_fc]. eapply knows_some; exact K2.
      * destruct (IH 0%nat v2 rd d f K2 Wo2 ltac:(auto) ltac:(auto) ltac:(lia)) as [D | [(img2 & v' & d1 & o1 & d2 & E & -> & Nd & X) | (v' & k' & f' & E & X1 & X2 & X3 & X4)] ].
        -- left. exact D.
        -- right. left. exists img2, v', ((c1 ++ concat ss) ++ d1), o1, d2. split; [exact E|]. split; [now rewrite <- !app_assoc|]. split; [|exact X]. intro Y. apply app_eq_nil in Y. now apply Nd.
        -- right. right. destruct e as [|b e].
           ++ exists v2, 0%nat. inversion H; subst; [|match goal with G : whole_piece _ _ _ |- _ => apply piece_some in G; match goal with Y : _ ++ _ = [] |- _ => apply app_eq_nil in Y; destruct Y as (-> & _) end; cbn in G; lia end].
              destruct f as [|f]; [cbn in *; lia|]. exists f. repeat (split; [auto; reflexivity|]). auto.
           ++ exists v', 0%nat, f'. rewrite (X4 ltac:(now left)) in E. split; [exact E|]. auto.
Qed.

(** * Next *)
(** The state before the pictures [c], after which [d] comes *)
Definition before (b : bool) (o' : option (sseq * ssext)) (d : list bool) (s : vidseq * reader) : Prop :=
  exists v k o c rd, s = (v, setb rd (bb (repeat 0 k) ++ c ++ d)) /\ whole_stream o o' c /\ knows v o /\ CauseProofs.wfo o /\ (v_sh v <> None -> k = 0%nat) /\ (c <> [] -> not_slice d) /\ rlater rd = [] /\ (b = true -> k = 0%nat \/ c <> []).
Lemma next_pieces : forall b o' d s, before b o' d s -> dies next s \/ (exists img s', next s = (Ok img, s') /\ before b o' d s') \/
  (exists v' k' rd f', next s = next_loop (S f') (v', setb rd (bb (repeat 0 k') ++ d)) /\ knows v' o' /\ CauseProofs.wfo o' /\ (v_sh v' <> None -> k' = 0%nat) /\ rlater rd = [] /\ (b = true -> k' = 0%nat)).
Proof.
  intros b o' d s (v & k & o & c & rd & -> & H & K & Wo & Kz & AU & Rl & Zb). unfold dies, next. rewrite bind_own. cbn [fst]. destruct (fs_tryget (v_fc v) (v_fs v)) as [img|].
  - right. left. rewrite bind_upd. cbn [fst snd]. eexists _, _. split; [reflexivity|]. eexists _, k, o, c, rd. split; [reflexivity|]. repeat (split; [auto; fail|]). auto.
  - cbn [snd]. rewrite rbits_setb. destruct (loop_pieces o o' c H k v rd d (S (length (bb (repeat 0 k) ++ c ++ d))) K Wo Kz AU ltac:(rewrite !app_length; lia)) as [D | [(img & v' & c1 & o1 & c2 & E & -> & N & H1 & K1 & W1 & S1) | (v' & k' & f' & E & K1 & W1 & Kz1 & Zk)] ].
    + now left.
    + right. left. exists img. eexists. split; [exact E|]. exists v', 0%nat, o1, c2, rd. split; [reflexivity|]. repeat (split; [auto; fail|]). split; [|auto]. intros _. apply AU. destruct c1; [congruence | discriminate].
    + right. right. exists v', k', rd, f'. repeat (split; [auto; fail|]). auto.
Qed.
Lemma nexts_dies : forall a s xs s1 b, nexts a s = (Ok xs, s1) -> dies (nexts b) s1 -> dies (nexts (a + b)) s.
Proof.
  induction a as [|a IH]; intros s xs s1 b H D; cbn [nexts Nat.add] in *; [injection H as _ <-; exact D|]. apply bind_ok_inv in H. destruct H as (x & s0 & E & H). apply bind_ok_inv in H. destruct H as (ys & s2 & E2 & H). cbn in H. injection H as _ <-.
  eapply dies_ok; [exact E|]. apply dies_bind. eapply IH; eauto.
Qed.
Lemma play_until : forall (Inv Stop : vidseq * reader -> Prop), (forall s, Inv s -> dies next s \/ Stop s \/ exists img s', next s = (Ok img, s') /\ Inv s') ->
  forall n s, Inv s -> (exists m, dies (nexts m) s) \/ (exists m imgs s', nexts m s = (Ok imgs, s') /\ Stop s') \/ exists imgs s', nexts n s = (Ok imgs, s') /\ Inv s'.
Proof.
  intros Inv Stop Hn n s Hs. induction n as [|n IH]; [right; right; exists [], s; auto|]. destruct IH as [D | [St | (imgs & s' & E & I')] ]; [now left | now (right; left)|].
  destruct (Hn s' I') as [(s2 & D) | [St | (img & s2 & E2 & I2)] ].
  - left. exists (n + 1)%nat. eapply nexts_dies; [exact E|]. exists s2. cbn [nexts]. unfold bind at 1. now rewrite D.
  - right. left. eauto.
  - right. right. exists (imgs ++ [img]), s2. split; [|exact I2]. replace (S n) with (n + 1)%nat by lia. eapply nexts_app; [exact E|]. cbn [nexts]. rewrite (bind_ok _ _ _ _ _ _ _ _ E2). reflexivity.
Qed.
Lemma play_stops : forall (Inv Stop : vidseq * reader -> Prop) r, rlater r = [] -> (forall s, Inv s -> dies next s \/ Stop s \/ exists img s', next s = (Ok img, s') /\ Inv s') ->
  Inv (new_vidseq, r) -> (exists m, dies (nexts m) (new_vidseq, r)) \/ (exists m imgs s', nexts m (new_vidseq, r) = (Ok imgs, s') /\ Stop s').
Proof.
  intros Inv Stop r Hr Hn Hs. destruct (play_until Inv Stop Hn (S (length (rbits r))) (new_vidseq, r) Hs) as [D | [St | (imgs & (v' & r') & E & _)] ]; [now left | now right|].
  apply CountProofs.frames_bound in E; [|exact Hr]. unfold Mono.left in E. lia.
Qed.
Lemma new_before : forall b k o c d rd, whole_stream None o c -> (c <> [] -> not_slice d) -> rlater rd = [] -> (b = true -> c <> []) -> before b o d (new_vidseq, setb rd (bb (repeat 0 k) ++ c ++ d)).
Proof. intros b k o c d rd H AU Rl Zb. exists new_vidseq, k, None, c, rd. split; [reflexivity|]. split; [exact H|]. split; [reflexivity|]. split; [exact I|]. split; [intro X; now elim X|]. auto. Qed.
Lemma whole_out : forall o o' c, whole_stream o o' c -> c = [] \/ exists h, o' = Some h.
Proof. intros o o' c H. induction H as [o | o h o' c e P H IH]; [now left|]. right. destruct IH as [-> | IH]; [|exact IH]. inversion H; [eauto|]. match goal with G : whole_piece _ _ ?x, Y : ?x ++ _ = [] |- _ => apply piece_some in G; apply app_eq_nil in Y; destruct Y as (-> & _); cbn in G; lia end. Qed.
Lemma sure_unit : forall h d, sure_piece (Some h) d -> not_slice d.
Proof.
  intros h0 d [M | (h & p & c1 & d1 & -> & Hh & ss & row & t & -> & Hr & F & L & _)]; [now apply unit_not_slice, UnsupportedProofs.meets_unit|]. eapply heads_unit; [exact Hh|].
  destruct (slices_starts2 _ ss row t F Hr L) as (b & u & -> & B & U). now apply code_at.
Qed.
Lemma sure_step : forall o d v k rd, knows v o -> CauseProofs.wfo o -> (v_sh v <> None -> k = 0%nat) -> sure_piece o d -> dies step (v, setb rd (bb (repeat 0 k) ++ d)).
Proof.
  intros o d v k rd K Wo Kz [M | (h & p & c1 & d1 & -> & Hh & Su)].
  - apply UnsupportedProofs.step_panics; [exact Kz|]. destruct o as [ [s x]|]; [destruct K as (-> & _); exact M | cbn [knows] in K; now rewrite K].
  - destruct (heads_step o h p c1 k v rd d1 Hh K Kz) as (v1 & E & R).
    + destruct Su as (ss & row & t & -> & Hr & F & L & _). destruct (slices_starts2 _ ss row t F Hr L) as (b & u & -> & B & U). apply at_code_other; [lia | unfold extension_code; lia | unfold user_data_code; lia | now apply code_at].
    + unfold dies. rewrite E. eapply tail_sure; [exact R | eapply heads_wfo; eauto | exact Su].
Qed.
Theorem sure_panics : forall k d rd, rlater rd = [] -> sure_stream d -> exists n, dies (nexts n) (new_vidseq, setb rd (bb (repeat 0 k) ++ d)).
Proof.
  intros k d rd Rl (o & c & d1 & -> & H & Su).
  assert (AU : c <> [] -> not_slice d1) by (intro N; destruct (whole_out _ _ _ H) as [X | (h & ->)]; [contradiction | eapply sure_unit; exact Su]).
  destruct (play_stops (before false o d1) (fun _ => False) (setb rd (bb (repeat 0 k) ++ c ++ d1))) as [D | (m & imgs & s' & _ & [])]; [exact Rl | | apply new_before; auto; discriminate | exact D].
  intros s B. destruct (next_pieces _ _ _ _ B) as [D | [X | (v' & k' & rd' & f' & E & K & W & Kz & _)] ]; [now left | now (right; right)|]. left. unfold dies. rewrite E. cbn [next_loop]. apply dies_bind. eapply sure_step; eassumption.
Qed.
Lemma nexts_suf : forall n v r, rlater r = [] -> match nexts n (v, r) with (Ok _, s') | (Err _, s') => exists c, after r c (snd s') | _ => True end.
Proof.
  induction n as [|n IH]; intros v r Hr; cbn [nexts]; [exists []; apply after_nil|]. unfold bind at 1. pose proof (ErrorProofs.hon_next (v, r) Hr) as T. destruct (next (v, r)) as [ [img|e| |] (v1 & r1)]; [| |exact I|exact I].
  - destruct T as (c & A). cbn [snd] in A. assert (R1 : rlater r1 = []) by (rewrite (after_later _ _ _ A); exact Hr). specialize (IH v1 r1 R1). unfold bind. destruct (nexts n (v1, r1)) as [ [xs|e| |] (v2 & r2)]; cbn [ret snd] in *; auto.
    + destruct IH as (c2 & A2). exists (c ++ c2). eapply after_app; eauto.
    + destruct IH as (c2 & A2). exists (c ++ c2). eapply after_app; eauto.
  - destruct T as (c & A & _). eauto.
Qed.

Theorem whole_no_error : forall k o c rest rd n e v' r', rlater rd = [] -> whole_stream None o c -> c <> [] -> not_slice rest ->
  nexts n (new_vidseq, setb rd (bb (repeat 0 k) ++ c ++ rest)) = (Err e, (v', r')) -> exists t, rest = t ++ rbits r'.
Proof.
  intros k o c rest rd n e v' r' Rl H Ne AU E. pose proof (new_before true k o c rest rd H (fun _ => AU) Rl (fun _ => Ne)) as B. revert E B. generalize (new_vidseq, setb rd (bb (repeat 0 k) ++ c ++ rest)). clear - AU.
  induction n as [|n IH]; intros s E B; cbn [nexts] in E; [discriminate|]. destruct (next_pieces _ _ _ _ B) as [(s' & D) | [(img & s' & E1 & B1) | (v1 & k1 & rd1 & f1 & E1 & K & W & Kz & Rl & Zk)] ].
  - unfold bind at 1 in E. rewrite D in E. discriminate.
  - rewrite (bind_ok _ _ _ _ _ _ _ _ E1) in E. unfold bind in E. destruct (nexts n s') as [ [xs|e'| |] (v2 & r2)] eqn:E2; try discriminate. injection E as <- <- <-. now apply (IH s').
  - rewrite (Zk eq_refl) in E1. cbn [repeat bb flat_map app] in E1. pose proof (ErrorProofs.hon_loop (S f1) (v1, setb rd1 rest) Rl) as T. rewrite <- E1 in T. unfold bind at 1 in E. destruct (next s) as [ [img|e0| |] (v2 & r2)]; try discriminate.
    + destruct T as (t & A). cbn [snd] in A. pose proof (nexts_suf n v2 r2 ltac:(rewrite (after_later _ _ _ A); exact Rl)) as T2. unfold bind in E. destruct (nexts n (v2, r2)) as [ [xs|e'| |] (v3 & r3)]; try discriminate. injection E as <- <- <-.
      destruct T2 as (t2 & A2). cbn [snd] in A2. pose proof (after_bits _ _ _ (after_app _ _ _ _ _ A A2)) as Q. rewrite rbits_setb in Q. eauto.
    + injection E as <- <- <-. destruct T as (t & A & _). cbn [snd] in A. apply after_bits in A. rewrite rbits_setb in A. eauto.
Qed.
Theorem whole_to_end : forall k o c t rd, rlater rd = [] -> whole_stream None o c -> c <> [] -> (length t mod 8 = 0)%nat ->
  (exists n, dies (nexts n) (new_vidseq, setb rd (bb (repeat 0 k) ++ c ++ code sequence_end_code ++ t))) \/
  exists n imgs s v' r', nexts n (new_vidseq, setb rd (bb (repeat 0 k) ++ c ++ code sequence_end_code ++ t)) = (Ok imgs, s) /\ next s = (Err EOS, (v', r')) /\ rbits r' = t.
Proof.
  intros k o c t rd Rl H Ne L.
  assert (AU : not_slice (code sequence_end_code ++ t)) by (exists sequence_end_code, t; split; [reflexivity|]; split; [exact L | unfold sequence_end_code; lia]).
  destruct (play_stops (before true o (code sequence_end_code ++ t)) (fun s => exists v' r', next s = (Err EOS, (v', r')) /\ rbits r' = t) (setb rd (bb (repeat 0 k) ++ c ++ code sequence_end_code ++ t))) as [D | (m & imgs & s' & E & v' & r' & E2 & Q)];
    [exact Rl | | now apply new_before | now left | right; exists m, imgs, s', v', r'; auto].
  intros s B. destruct (next_pieces _ _ _ _ B) as [D | [X | (v' & k' & rd' & f' & E & K & W & Kz & _ & Zk)] ]; [now left | now (right; right)|]. right. left. rewrite (Zk eq_refl) in E. cbn [repeat bb flat_map app] in E. cbn [next_loop] in E.
  destruct (whole_out _ _ _ H) as [X | (h & ->)]; [contradiction|]. apply knows_some in K.
  assert (St : step (v', setb rd' (code sequence_end_code ++ t)) = (Err EOS, (v', setb rd' t))).
  { unfold step. rewrite bind_own. cbn [fst]. destruct (v_sh v') as [q|]; [|congruence].
    assert (P : peek_n 32 (setb rd' (code sequence_end_code ++ t)) = (Ok (256 + sequence_end_code), setb rd' (code sequence_end_code ++ t))) by (apply peek_code; unfold sequence_end_code; lia).
    erewrite bind_onr_ok by exact P. change ((256 + sequence_end_code =? PictureStartCode) || (256 + sequence_end_code =? GroupStartCode)) with false. cbv iota.
    erewrite bind_onr_ok by exact P. change (256 + sequence_end_code =? SequenceEndStartCode) with true. cbv iota. erewrite bind_onr_ok by (apply skip_app; now rewrite code_length). reflexivity. }
  exists v', (setb rd' t). split; [|apply rbits_setb]. rewrite E. unfold bind at 1. now rewrite St.
Qed.
