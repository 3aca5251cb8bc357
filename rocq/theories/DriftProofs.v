(** DriftProofs: how far the decoder's arithmetic departs from the standard's. *)
From Verif Require Import Base SpecVid SpecVlc SpecMotion SpecNext SpecPicture SpecDrift MotionProofs FrameProofs MbWholeProofs.

(** * One plane: [i] is 0 for luma, 4 for Cb, 5 for Cr *)
Definition plane_of (i : Z) : Prop := i = 0 \/ i = 4 \/ i = 5.
Definition mb_size (i : Z) : Z := if i <? 4 then 16 else 8.
Definition cclose (i e : Z) (c d : canvas) : Prop :=
  cv_w c = cv_w d /\ cv_h c = cv_h d /\
  forall x y, 0 <= x < plane_w i (cv_w c) -> 0 <= y < plane_h i (cv_h c) -> - e <= csample d i x y - csample c i x y <= e.
Definition kclose (i e : Z) (k l : known) : Prop :=
  match k, l with Is c, Is d => cclose i e c d | Missing, Missing | Unknown, Unknown => True | _, _ => False end.
Definition nice (i : Z) (v : Z * Z) : Prop := i < 4 \/ halves (Some v).

Lemma cclose_le : forall i e f c d, e <= f -> cclose i e c d -> cclose i f c d.
Proof. intros i e f c d L (W & H & C). split; [exact W|]. split; [exact H|]. intros x y Hx Hy. specialize (C x y Hx Hy). lia. Qed.
Lemma kclose_le : forall i e f c d, e <= f -> kclose i e c d -> kclose i f c d.
Proof. intros i e f c d L. destruct c, d; auto. now apply cclose_le. Qed.

Lemma halve_same : forall a, 0 <= a \/ Z.even a = true -> Z.quot a 2 = a / 2.
Proof.
  intros a [H | H].
  - apply Z.quot_div_nonneg; lia.
  - apply Z.even_spec in H. destruct H as (b & ->). rewrite (Z.mul_comm 2 b). rewrite Z.quot_mul, Z.div_mul by lia. reflexivity.
Qed.
Lemma nice_vector : forall i v, nice i v -> block_vector_std i (fst v) = block_vector i (fst v) /\ block_vector_std i (snd v) = block_vector i (snd v).
Proof.
  intros i [a b] [L | (A & B)]; unfold block_vector_std, block_vector.
  - rewrite (proj2 (Z.ltb_lt _ _)) by exact L. auto.
  - cbn [fst snd]. rewrite !halve_same by assumption. auto.
Qed.

Lemma half_close : forall e f g x2 y2 w h,
  (forall x y, 0 <= x < w -> 0 <= y < h -> - e <= g x y - f x y <= e) -> 0 <= x2 <= 2 * (w - 1) -> 0 <= y2 <= 2 * (h - 1) ->
  - e <= half_sample_std g x2 y2 - half_sample f x2 y2 <= e + 1.
Proof.
  intros e f g x2 y2 w h C X Y. unfold half_sample_std, half_sample. dm x2 2. dm y2 2.
  pose proof (C (x2 / 2) (y2 / 2) ltac:(lia) ltac:(lia)). pose proof (C (x2 / 2 + x2 mod 2) (y2 / 2) ltac:(lia) ltac:(lia)).
  pose proof (C (x2 / 2) (y2 / 2 + y2 mod 2) ltac:(lia) ltac:(lia)). pose proof (C (x2 / 2 + x2 mod 2) (y2 / 2 + y2 mod 2) ltac:(lia) ltac:(lia)).
  set (F := f _ _ + _ + _ + _) in *. set (G := g _ _ + _ + _ + _) in *.
  assert (D : - (4 * e) <= G - F <= 4 * e) by (unfold F, G; lia). clearbody F G. clear - D.
  dm F 4. dm (G + 2) 4. lia.
Qed.

(** A sample of a macroblock belongs to one of its blocks. *)
Lemma which_block : forall i row col x y, plane_of i -> in_mbs (mb_size i) row col 1 x y = true ->
  exists j, 0 <= j < 6 /\ (j <? 4) = (i <? 4) /\ block_x j col <= x < block_x j col + 8 /\ block_y j row <= y < block_y j row + 8.
Proof.
  intros i row col x y P H. unfold in_mbs in H. apply andb_prop in H. destruct H as (H & H4). apply andb_prop in H. destruct H as (H & H3).
  apply andb_prop in H. destruct H as (H1 & H2). apply Z.leb_le in H1, H3. apply Z.ltb_lt in H2, H4.
  destruct P as [-> | [-> | ->] ].
  - change (mb_size 0) with 16 in *. destruct (Z_lt_ge_dec x (16 * col + 8)), (Z_lt_ge_dec y (16 * row + 8)).
    + exists 0. split; [lia|]. split; [reflexivity|]. change (block_x 0 col) with (16 * col + 0). change (block_y 0 row) with (16 * row + 0). lia.
    + exists 2. split; [lia|]. split; [reflexivity|]. change (block_x 2 col) with (16 * col + 0). change (block_y 2 row) with (16 * row + 8). lia.
    + exists 1. split; [lia|]. split; [reflexivity|]. change (block_x 1 col) with (16 * col + 8). change (block_y 1 row) with (16 * row + 0). lia.
    + exists 3. split; [lia|]. split; [reflexivity|]. change (block_x 3 col) with (16 * col + 8). change (block_y 3 row) with (16 * row + 8). lia.
  - change (mb_size 4) with 8 in *. exists 4. split; [lia|]. split; [reflexivity|]. change (block_x 4 col) with (8 * col). change (block_y 4 row) with (8 * row). lia.
  - change (mb_size 5) with 8 in *. exists 5. split; [lia|]. split; [reflexivity|]. change (block_x 5 col) with (8 * col). change (block_y 5 row) with (8 * row). lia.
Qed.

Definition rclose (i e : Z) (r s : option (canvas * (Z * Z))) : Prop :=
  match r, s with Some (c, v), Some (d, w) => v = w /\ nice i v /\ cclose i e c d | None, None => True | _, _ => False end.

Lemma predict1_close : forall P i e row col c d mv x y, plane_of i -> cclose i e c d -> nice i mv -> cvector_in P row col (Some (c, mv)) ->
  in_mbs (mb_size i) row col 1 x y = true -> - e <= cpredict1_std d i mv x y - cpredict1 c i mv x y <= e + 1.
Proof.
  intros P i e row col c d mv x y Pi (W & H & C) N (VW & VH & V) I.
  destruct (which_block _ _ _ _ _ Pi I) as (j & Hj & E & Bx & By). specialize (V j Hj). destruct V as (V1 & V2 & V3 & V4).
  unfold cpredict1_std, cpredict1. destruct (nice_vector _ _ N) as (-> & ->).
  assert (B : forall v, block_vector i v = block_vector j v) by (intro; unfold block_vector; now rewrite E).
  assert (PW : plane_w i (cv_w c) = plane_w j (pp_w P)) by (unfold plane_w; now rewrite E, VW).
  assert (PH : plane_h i (cv_h c) = plane_h j (pp_h P)) by (unfold plane_h; now rewrite E, VH).
  rewrite !B. eapply half_close; [exact C | rewrite PW; lia | rewrite PH; lia].
Qed.

Lemma predict_close : forall P i e row col past future past' future' x y, plane_of i -> 0 <= e -> rclose i e past past' -> rclose i e future future' ->
  cvector_in P row col past -> cvector_in P row col future -> in_mbs (mb_size i) row col 1 x y = true ->
  - e <= cpredict_std past' future' i x y - cpredict past future i x y <= e + (if some past && some future then 2 else if some past || some future then 1 else 0).
Proof.
  intros P i e row col past future past' future' x y Pi He RP RF VP VF I. unfold cpredict_std, cpredict.
  destruct past as [[f a]|], past' as [[f' a']|]; try contradiction; try (destruct RP as (<- & NP & CP); pose proof (predict1_close P i e row col f f' a x y Pi CP NP VP I));
  destruct future as [[g b]|], future' as [[g' b']|]; try contradiction; try (destruct RF as (<- & NF & CF); pose proof (predict1_close P i e row col g g' b x y Pi CF NF VF I));
  cbn [some andb orb]; try lia.
  set (A := cpredict1 f i a x y) in *. set (A' := cpredict1_std f' i a x y) in *. set (B := cpredict1 g i b x y) in *. set (B' := cpredict1_std g' i b x y) in *.
  dm (A + B) 2. dm (A' + B' + 1) 2. lia.
Qed.
Lemma clamp_close : forall r a b lo hi, lo <= 0 -> 0 <= hi -> lo <= b - a <= hi -> lo <= clamp255 (r + b) - clamp255 (r + a) <= hi.
Proof. intros. unfold clamp255. lia. Qed.

(** * Painting *)
Definition sel {A} (i : Z) (y b r : A) : A := if i <? 4 then y else if i =? 4 then b else r.
Lemma csample_paint : forall i c row col n ly lb lr x y, plane_of i ->
  csample (paint c row col n ly lb lr) i x y = if in_mbs (mb_size i) row col n x y then sel i ly lb lr x y else csample c i x y.
Proof. intros i c row col n ly lb lr x y [-> | [-> | ->] ]; reflexivity. Qed.
Lemma paint_close : forall i e c d row col n ly lb lr my mb mr, plane_of i -> cclose i e c d ->
  (forall x y, 0 <= x < plane_w i (cv_w c) -> 0 <= y < plane_h i (cv_h c) -> in_mbs (mb_size i) row col n x y = true ->
     - e <= sel i my mb mr x y - sel i ly lb lr x y <= e) ->
  cclose i e (paint c row col n ly lb lr) (paint d row col n my mb mr).
Proof.
  intros i e c d row col n ly lb lr my mb mr Pi (W & H & C) K. split; [exact W|]. split; [exact H|]. intros x y Hx Hy.
  rewrite !csample_paint by exact Pi. destruct (in_mbs _ _ _ _ _ _) eqn:I; [now apply K | now apply C].
Qed.

(** The same parameters with other references *)
Definition refer (P : params) (past future : known) : params :=
  mkParams (pp_type P) (pp_pce P) (pp_intra P) (pp_non_intra P) (pp_w P) (pp_h P) past future.
(** By how much a picture may exceed its references *)
Definition more (P : params) : Z := if pp_type P =? 1 then 0 else if pp_type P =? 2 then 1 else 2.
Definition state_nice (i : Z) (s : pstate) : Prop := nice i (ps_fwd s) /\ nice i (ps_bwd s).
(** P pictures have no future reference, I pictures none at all. *)
Definition directed (P : params) (s : pstate) : Prop :=
  (pp_type P = 1 -> ps_dirs s = (false, false)) /\ (pp_type P = 2 -> snd (ps_dirs s) = false).

Lemma nice_zero : forall i, nice i (0, 0).
Proof. intro i. right. cbn. split; left; lia. Qed.
Lemma after_nice : forall i P s b, state_nice i s -> (i < 4 \/ halves (b_forward b) /\ halves (b_backward b)) -> state_nice i (ps_after P s b).
Proof.
  intros i P s b (F & B) V. unfold state_nice, ps_after, ps_before. cbn [ps_fwd ps_bwd].
  split; [destruct (b_forward b) as [v|] eqn:E | destruct (b_backward b) as [v|] eqn:E]; cbn [vector_or].
  - destruct V as [V | (V & _)]; [now left | now right].
  - destruct (_ || _); [apply nice_zero | exact F].
  - destruct V as [V | (_ & V)]; [now left | now right].
  - destruct (_ || _); [apply nice_zero | exact B].
Qed.

Lemma rclose_past : forall i e P a b s, kclose i e (pp_past P) a -> state_nice i s -> rclose i e (past_of P s) (past_of (refer P a b) s).
Proof.
  intros i e P a b s K (N & _). unfold past_of. cbn [refer pp_past]. destruct (fst (ps_dirs s)); [|exact I].
  destruct (pp_past P), a; cbn in *; try contradiction; try exact I. auto.
Qed.
Lemma rclose_future : forall i e P a b s, kclose i e (pp_future P) b -> state_nice i s -> rclose i e (future_of P s) (future_of (refer P a b) s).
Proof.
  intros i e P a b s K (_ & N). unfold future_of. cbn [refer pp_future]. destruct (snd (ps_dirs s)); [|exact I].
  destruct (pp_future P), b; cbn in *; try contradiction; try exact I. auto.
Qed.
Lemma past_undirected : forall P s, fst (ps_dirs s) = false -> past_of P s = None.
Proof. intros P s H. unfold past_of. now rewrite H. Qed.
Lemma future_undirected : forall P s, snd (ps_dirs s) = false -> future_of P s = None.
Proof. intros P s H. unfold future_of. now rewrite H. Qed.

(** The prediction in state [s] *)
Lemma state_close : forall i e P a b s row col x y, plane_of i -> 0 <= e -> 1 <= pp_type P <= 3 -> directed P s -> state_nice i s ->
  kclose i e (pp_past P) a -> kclose i e (pp_future P) b -> cvector_in P row col (past_of P s) -> cvector_in P row col (future_of P s) ->
  in_mbs (mb_size i) row col 1 x y = true ->
  - (if pp_type P =? 1 then 0 else e + more P) <=
    cpredict_std (past_of (refer P a b) s) (future_of (refer P a b) s) i x y - cpredict (past_of P s) (future_of P s) i x y
    <= (if pp_type P =? 1 then 0 else e + more P).
Proof.
  intros i e P a b s row col x y Pi He T (D1 & D2) N KA KB VP VF I.
  pose proof (predict_close P i e row col _ _ _ _ x y Pi He (rclose_past i e P a b s KA N) (rclose_future i e P a b s KB N) VP VF I) as K.
  unfold more. destruct (pp_type P =? 1) eqn:E1.
  - apply Z.eqb_eq in E1. specialize (D1 E1). rewrite !past_undirected, !future_undirected by now rewrite D1. cbn. lia.
  - destruct (pp_type P =? 2) eqn:E2.
    + apply Z.eqb_eq in E2. specialize (D2 E2). rewrite (future_undirected P s D2) in K |- *. cbn [some andb] in K. rewrite andb_false_r in K.
      destruct (some (past_of P s) || false); lia.
    + destruct (some (past_of P s) && some (future_of P s)), (some (past_of P s) || some (future_of P s)); lia.
Qed.

(** * Macroblocks *)
Lemma sel_mb : forall i row col r f (p : Z -> Z -> Z -> Z) x y, plane_of i -> exists res,
  (forall p : Z -> Z -> Z -> Z, sel i (fun x y => clamp255 (mb_luma f r (x - 16 * col) (y - 16 * row) + p 0 x y))
        (fun x y => clamp255 (nth (Z.to_nat (8 * (y - 8 * row) + (x - 8 * col))) (nth 4 r []) 0 + p 4 x y))
        (fun x y => clamp255 (nth (Z.to_nat (8 * (y - 8 * row) + (x - 8 * col))) (nth 5 r []) 0 + p 5 x y)) x y = clamp255 (res + p i x y)).
Proof. intros i row col r f p x y [-> | [-> | ->] ]; eexists; intro; reflexivity. Qed.

Lemma residuals_refer : forall P a b q m, residuals (refer P a b) q m = residuals P q m.
Proof.
  intros P a b q m. assert (R : forall i Q, residual (refer P a b) q i Q = residual P q i Q).
  { intros. unfold residual. f_equal. }
  destruct m as [f bl | bl |]; cbn [residuals]; [| |reflexivity]; apply map_ext; intro x; [apply R | destruct x; [apply R | reflexivity] ].
Qed.
Definition total (e : Z) (P : params) : Z := if pp_type P =? 1 then 0 else e + more P.
Lemma total_pos : forall e P, 0 <= e -> 0 <= total e P.
Proof. intros. unfold total, more. destruct (_ =? 1); [lia|]. destruct (_ =? 2); lia. Qed.

Lemma mb_close : forall i e P a b s m row col c d, plane_of i -> 0 <= e -> 1 <= pp_type P <= 3 -> directed P s -> state_nice i s ->
  kclose i e (pp_past P) a -> kclose i e (pp_future P) b -> cvector_in P row col (past_of P s) -> cvector_in P row col (future_of P s) ->
  cclose i (total e P) c d -> cclose i (total e P) (paint_mb P row col s m c) (paint_mb_std (refer P a b) row col s m d).
Proof.
  intros i e P a b s m row col c d Pi He T D N KA KB VP VF C. unfold paint_mb, paint_mb_std. apply paint_close; [exact Pi | exact C|].
  intros x y _ _ I. rewrite residuals_refer.
  destruct (sel_mb i row col (residuals P (ps_q s) (b_body m)) (field_dct (b_body m)) (fun _ _ _ => 0) x y Pi) as (res & E). rewrite !E.
  pose proof (total_pos e P He). apply clamp_close; [lia | lia|]. now apply (state_close i e P a b s row col x y).
Qed.

Lemma in_mbs_single : forall z row col n x y, 0 < z -> in_mbs z row col n x y = true -> exists k, col <= k < col + n /\ in_mbs z row k 1 x y = true.
Proof.
  intros z row col n x y Hz H. unfold in_mbs in H. apply andb_prop in H. destruct H as (H & H4). apply andb_prop in H. destruct H as (H & H3).
  apply andb_prop in H. destruct H as (H1 & H2). pose proof (Z.leb_le (z * col) x). pose proof (Z.ltb_lt x (z * (col + n))). exists (x / z).
  pose proof (Z.div_mod x z ltac:(lia)). pose proof (Z.mod_pos_bound x z Hz). split.
  - split; [apply Z.div_le_lower_bound; lia | apply Z.div_lt_upper_bound; lia].
  - unfold in_mbs. rewrite H3, H4, !andb_true_r. apply andb_true_intro. split; [apply Z.leb_le; lia | apply Z.ltb_lt; lia].
Qed.

Lemma skipped_close : forall i e P a b s row col n c d, plane_of i -> 0 <= e -> 1 <= pp_type P <= 3 -> directed P s -> state_nice i s ->
  kclose i e (pp_past P) a -> kclose i e (pp_future P) b ->
  (0 < n -> pp_type P <> 1 /\ (pp_type P = 2 -> exists f, pp_past P = Is f /\ cv_w f = pp_w P /\ cv_h f = pp_h P) /\
     (pp_type P = 3 -> forall k, col <= k < col + n -> cvector_in P row k (past_of P s) /\ cvector_in P row k (future_of P s))) ->
  cv_w c = pp_w P -> cv_h c = pp_h P ->
  cclose i (total e P) c d -> cclose i (total e P) (paint_skipped P row col n s c) (paint_skipped_std (refer P a b) row col n s d).
Proof.
  intros i e P a b s row col n c d Pi He T D N KA KB H W HH C. unfold paint_skipped, paint_skipped_std. cbn [refer pp_type pp_past].
  destruct (n <=? 0) eqn:En; [exact C|]. apply Z.leb_gt in En. destruct (H En) as (T1 & T2 & T3).
  assert (Tot : total e P = e + more P) by (unfold total; now rewrite (proj2 (Z.eqb_neq _ _) T1)).
  destruct (pp_type P =? 2) eqn:E2.
  - apply Z.eqb_eq in E2. destruct (T2 E2) as (f & Ef & Wf & Hf). rewrite Ef in KA |- *. destruct a as [| |g]; cbn [kclose] in KA; try contradiction.
    apply paint_close; [exact Pi | exact C|]. intros x y Hx Hy _. destruct KA as (_ & _ & KA).
    assert (S : forall q : canvas, sel i (cv_y q) (cv_b q) (cv_r q) = csample q i) by reflexivity. rewrite !S.
    rewrite W in Hx. rewrite HH in Hy. rewrite <- Wf in Hx. rewrite <- Hf in Hy. specialize (KA x y Hx Hy). rewrite Tot. unfold more. rewrite E2. cbn. lia.
  - apply Z.eqb_neq in E2. assert (E3 : pp_type P = 3) by lia. specialize (T3 E3).
    apply paint_close; [exact Pi | exact C|]. intros x y _ _ I.
    apply in_mbs_single in I; [|unfold mb_size; destruct (_ <? _); lia]. destruct I as (k & Hk & I). destruct (T3 k Hk) as (VP & VF).
    assert (S : forall p : Z -> Z -> Z -> Z, sel i (p 0) (p 4) (p 5) x y = p i x y) by (intro; destruct Pi as [-> | [-> | ->] ]; reflexivity). rewrite !S.
    now apply (state_close i e P a b s row k x y).
Qed.

Lemma paint_mb_dims : forall P row col s m c, cv_w (paint_mb P row col s m c) = cv_w c /\ cv_h (paint_mb P row col s m c) = cv_h c.
Proof. auto. Qed.
Lemma paint_skipped_dims : forall P row col n s c, cv_w (paint_skipped P row col n s c) = cv_w c /\ cv_h (paint_skipped P row col n s c) = cv_h c.
Proof. intros. unfold paint_skipped. destruct (_ <=? _); [auto|]. destruct (_ =? _); [destruct (pp_past P)|]; auto. Qed.

(** In I pictures nothing is predicted, and in P pictures nothing backwards: so say the types of macroblocks. *)
Lemma after_directed : forall P s b c, mb_code P s b c -> directed P (ps_after P s b).
Proof.
  intros P s b c (c1 & c2 & c3 & c4 & c5 & _ & C & _). unfold directed, ps_after. cbn [ps_dirs]. split; intro T; rewrite T in *.
  - destruct C as (v & n & H & _). unfold type_table in H. cbn [Z.eqb Pos.eqb b2 In] in H.
    destruct H as [H|[H|H] ]; [| |contradiction]; injection H as; replace (is_intra b) with true by auto; reflexivity.
  - cbn [Z.eqb Pos.eqb]. destruct (is_intra b); reflexivity.
Qed.

Lemma mbs_close : forall i e P a b row mbs addr s code c d, plane_of i -> 0 <= e -> 1 <= pp_type P <= 3 -> -1 <= addr ->
  kclose i e (pp_past P) a -> kclose i e (pp_future P) b -> directed P s -> state_nice i s ->
  (i < 4 \/ Forall (fun m => halves (b_forward m) /\ halves (b_backward m)) mbs) ->
  mbs_code P row addr s mbs code -> cv_w c = pp_w P -> cv_h c = pp_h P -> cclose i (total e P) c d ->
  cclose i (total e P) (mbs_paint P row addr s mbs c) (mbs_paint_std (refer P a b) row addr s mbs d).
Proof.
  intros i e P a b row mbs. induction mbs as [|m mbs IH]; intros addr s code c d Pi He T A KA KB D N V M W H C; cbn [mbs_paint mbs_paint_std]; [exact C|].
  cbn [mbs_code] in M. destruct M as (OK & c1 & c2 & _ & M1 & M2).
  assert (V1 : i < 4 \/ halves (b_forward m) /\ halves (b_backward m)) by (destruct V as [V|V]; [now left | right; now inversion V]).
  assert (V2 : i < 4 \/ Forall (fun m => halves (b_forward m) /\ halves (b_backward m)) mbs) by (destruct V as [V|V]; [now left | right; now inversion V]).
  destruct OK as (I1 & _ & _ & _ & _ & OK). cbv zeta in OK. destruct OK as (_ & VP & VF & SK).
  pose proof (after_directed _ _ _ _ M1) as D'. pose proof (after_nice i P s m N V1) as N'.
  change (ps_after (refer P a b) s m) with (ps_after P s m).
  apply (IH _ _ c2); try assumption; try lia.
  - cbn [paint_mb paint cv_w]. destruct (addr =? -1); [exact W | rewrite (proj1 (paint_skipped_dims _ _ _ _ _ _)); exact W].
  - cbn [paint_mb paint cv_h]. destruct (addr =? -1); [exact H | rewrite (proj2 (paint_skipped_dims _ _ _ _ _ _)); exact H].
  - apply mb_close; try assumption. destruct (addr =? -1) eqn:E; [exact C|]. apply Z.eqb_neq in E.
    apply skipped_close; try assumption. intro K. destruct (SK ltac:(lia) ltac:(lia)) as (S1 & S2 & S3). split; [exact S1|]. split; [exact S2|].
    intros E3 k Hk. apply S3; [exact E3 | lia].
Qed.

Lemma mbs_dims : forall P row mbs addr s c, cv_w (mbs_paint P row addr s mbs c) = cv_w c /\ cv_h (mbs_paint P row addr s mbs c) = cv_h c.
Proof.
  intros P row mbs. induction mbs as [|m mbs IH]; intros addr s c; cbn [mbs_paint]; [auto|].
  destruct (IH (addr + b_incr m) (ps_after P s m) (paint_mb P row (addr + b_incr m) (ps_after P s m) m (if addr =? -1 then c else paint_skipped P row (addr + 1) (b_incr m - 1) s c))) as (-> & ->).
  cbn [paint_mb paint cv_w cv_h]. destruct (addr =? -1); [auto | apply paint_skipped_dims].
Qed.

Lemma picture_close : forall i e P a b ls code, plane_of i -> 0 <= e -> 1 <= pp_type P <= 3 ->
  kclose i e (pp_past P) a -> kclose i e (pp_future P) b -> (i < 4 \/ vectors_halve ls) -> slices_code P ls code ->
  cclose i (total e P) (picture_paint P ls) (picture_paint_std (refer P a b) ls).
Proof.
  intros i e P a b ls code Pi He T KA KB V S. unfold picture_paint, picture_paint_std.
  assert (G : forall ls code, slices_code P ls code -> (i < 4 \/ vectors_halve ls) -> forall c d, cv_w c = pp_w P -> cv_h c = pp_h P -> cclose i (total e P) c d ->
    cclose i (total e P) (fold_left (fun c l => slice_paint P l c) ls c) (fold_left (fun c l => slice_paint_std (refer P a b) l c) ls d)).
  { clear ls code V S.
    assert (One : forall l code c d, slice_code P l code -> (i < 4 \/ Forall (fun m => halves (b_forward m) /\ halves (b_backward m)) (sl_mbs l)) ->
       cv_w c = pp_w P -> cv_h c = pp_h P -> cclose i (total e P) c d -> cclose i (total e P) (slice_paint P l c) (slice_paint_std (refer P a b) l d)).
    { intros l code c d (_ & _ & _ & _ & _ & c1 & M & _) V W H C. unfold slice_paint, slice_paint_std. change (ps_start (refer P a b)) with (ps_start P).
      apply (mbs_close i e P a b _ _ _ _ c1); try assumption; try lia.
      - split; intros _; reflexivity.
      - split; apply nice_zero. }
    induction 1 as [l code S | l ls code code' S S' IH]; intros V c d W H C; cbn [fold_left].
    - apply (One l code); try assumption. destruct V as [V|V]; [now left | right; now inversion V].
    - destruct (mbs_dims P (sl_row l) (sl_mbs l) (-1) (ps_start P (sl_q l)) c) as (DW & DH).
      apply IH; try (unfold slice_paint; rewrite ?DW, ?DH; assumption).
      + destruct V as [V|V]; [now left | right; now inversion V].
      + apply (One l code); try assumption. destruct V as [V|V]; [now left | right; now inversion V]. }
  apply (G ls code S V); try reflexivity. split; [reflexivity|]. split; [reflexivity|]. intros x y _ _. pose proof (total_pos e P He).
  assert (B : forall c, cv_y c x y = 0 -> cv_b c x y = 0 -> cv_r c x y = 0 -> csample c i x y = 0) by (intros; unfold csample; destruct (_ <? _); [|destruct (_ =? _)]; assumption).
  rewrite !B by reflexivity. lia.
Qed.

(** * Sequences *)
Definition pclose (i n : Z) (p q : spicture) : Prop := pi_hdr q = pi_hdr p /\ cclose i (drift n p) (pi_frame p) (pi_frame q).

Lemma params_refer : forall c o l so sl p, params_of c so sl p = refer (params_of c o l p)
  (if p_type (pi_hdr p) =? 2 then sl else if p_type (pi_hdr p) =? 3 then so else Unknown) (if p_type (pi_hdr p) =? 3 then sl else Unknown).
Proof. reflexivity. Qed.

Lemma one_close : forall i (V : list sslice -> Prop) n k c o l so sl p q, plane_of i -> (forall ls, V ls -> i < 4 \/ vectors_halve ls) -> 0 <= k -> k <= n ->
  1 <= p_type (pi_hdr p) <= 3 -> kclose i n o so -> kclose i k l sl ->
  (exists ls, V ls /\ slices_code (params_of c o l p) ls (pi_data p) /\
     pi_frame p = picture_paint (params_of c o l p) ls /\ pi_frame q = picture_paint_std (params_of c so sl p) ls) ->
  cclose i (if p_type (pi_hdr p) =? 1 then 0 else if p_type (pi_hdr p) =? 2 then k + 1 else n + 2) (pi_frame p) (pi_frame q).
Proof.
  intros i V n k c o l so sl p q Pi HV Hk Hn T KO KL (ls & Vl & S & -> & ->). specialize (HV ls Vl). rewrite (params_refer c o l so sl p).
  set (e := if p_type (pi_hdr p) =? 2 then k else n).
  assert (E : (if p_type (pi_hdr p) =? 1 then 0 else if p_type (pi_hdr p) =? 2 then k + 1 else n + 2) = total e (params_of c o l p)).
  { unfold total, more, e, params_of. cbn [pp_type]. destruct (_ =? 1), (_ =? 2); reflexivity. }
  rewrite E. apply picture_close with (code := pi_data p); try assumption.
  - unfold e. destruct (_ =? 2); lia.
  - unfold params_of, e. cbn [pp_past]. destruct (_ =? 2); [exact KL|]. destruct (_ =? 3); [exact KO | exact I].
  - unfold params_of, e. cbn [pp_future]. destruct (_ =? 3) eqn:E3; [|exact I]. apply Z.eqb_eq in E3. rewrite E3. cbn. apply (kclose_le i k n); assumption.
Qed.

(** [k] bounds the distance of the last reference; a group starts with an I picture. *)
Lemma pictures_close : forall i (V : list sslice -> Prop) n ps qs k c o l so sl, plane_of i -> (forall ls, V ls -> i < 4 \/ vectors_halve ls) -> 0 <= k <= n ->
  Forall (fun p => 1 <= p_type (pi_hdr p) <= 3) ps -> within n k ps -> kclose i n o so -> kclose i k l sl -> pictures_twice V c o l so sl ps qs ->
  Forall2 (pclose i n) ps qs /\
  let '(c1, o1, l1) := after_pictures c o l ps in let '(c2, o2, l2) := after_pictures c so sl qs in c1 = c2 /\ kclose i n o1 o2 /\ kclose i n l1 l2.
Proof.
  intros i V n ps. induction ps as [|p ps IH]; intros [|q qs] k c o l so sl Pi HV Hk T W KO KL H; cbn [pictures_twice] in H; try contradiction.
  - split; [constructor|]. cbn [after_pictures]. split; [reflexivity|]. split; [exact KO|]. apply (kclose_le i k n); [lia | exact KL].
  - destruct H as (SC & E & H). inversion T as [|? ? T1 T2]; subst. cbn [within] in W. destruct W as (W1 & W2).
    assert (HD : pi_hdr q = pi_hdr p) by (rewrite SC; reflexivity). assert (IT : pi_items q = pi_items p) by (rewrite SC; reflexivity).
    pose proof (one_close i V n k _ o l so sl p q Pi HV ltac:(lia) ltac:(lia) T1 KO KL E) as C.
    set (k' := if p_type (pi_hdr p) =? 1 then 0 else if p_type (pi_hdr p) =? 2 then k + 1 else k) in *.
    assert (K' : 0 <= k' <= n) by (unfold k' in *; destruct (_ =? 1); [lia|]; destruct (_ =? 2); lia).
    assert (K2 : p_type (pi_hdr p) = 2 -> k + 1 <= n) by (intro E2; unfold k' in K'; rewrite E2 in K'; cbn in K'; lia).
    assert (R : is_ref q = is_ref p) by (unfold is_ref; now rewrite HD).
    destruct (IH qs k' (ctx_items c (pi_items p)) (older o l p) (latest l p) (older so sl q) (latest sl q)) as (A & B); try assumption.
    + unfold older. rewrite R. destruct (is_ref p); [apply (kclose_le i k n); [lia | exact KL] | exact KO].
    + unfold latest. rewrite R. unfold is_ref. destruct (p_type (pi_hdr p) =? 3) eqn:E3; cbn [negb].
      * apply Z.eqb_eq in E3. unfold k'. rewrite E3. exact KL.
      * cbn [kclose]. eapply cclose_le; [|exact C]. unfold k'. apply Z.eqb_neq in E3. destruct (_ =? 1) eqn:E1; [lia|]. destruct (_ =? 2) eqn:E2; lia.
    + split.
      * constructor; [|exact A]. split; [exact HD|]. eapply cclose_le; [|exact C]. unfold drift. destruct (_ =? 1) eqn:E1; [lia|]. destruct (_ =? 2) eqn:E2; [|lia]. apply K2. lia.
      * cbn [after_pictures]. rewrite IT. exact B.
Qed.

Lemma reorder_close : forall i n l l' held held', Forall2 (pclose i n) l l' ->
  match held, held' with Some r, Some r' => pclose i n r r' | None, None => True | _, _ => False end ->
  Forall2 (pclose i n) (reorder held l) (reorder held' l').
Proof.
  intros i n l l' held held' H. revert held held'. induction H as [|p q l l' C F IH]; intros held held' K; cbn [reorder].
  - destruct held, held'; try contradiction; [apply Forall2_cons; [exact K | apply Forall2_nil] | apply Forall2_nil].
  - assert (R : is_ref q = is_ref p) by (unfold is_ref; destruct C as (-> & _); reflexivity). rewrite R. destruct (is_ref p).
    + apply Forall2_app; [destruct held, held'; try contradiction; [apply Forall2_cons; [exact K | apply Forall2_nil] | apply Forall2_nil] | apply (IH (Some p) (Some q)); exact C].
    + constructor; [exact C | apply IH; exact K].
Qed.

Lemma groups_close : forall i (V : list sslice -> Prop) n gs hs c o l so sl, plane_of i -> (forall ls, V ls -> i < 4 \/ vectors_halve ls) -> 0 <= n ->
  Forall wf_group gs -> Forall valid_group gs -> Forall (fun g => within n 0 (gr_pics g)) gs -> kclose i n o so -> kclose i n l sl ->
  groups_twice V c o l so sl gs hs -> Forall2 (pclose i n) (displayed gs) (displayed hs).
Proof.
  intros i V n gs. induction gs as [|g gs IH]; intros [|h hs] c o l so sl Pi HV Hn WF VG W KO KL H; cbn [groups_twice] in H; try contradiction; [constructor|].
  destruct H as (SG & H). inversion WF as [|? ? WF1 WF2]; subst. inversion VG as [|? ? VG1 VG2]; subst. inversion W as [|? ? W1 W2]; subst.
  destruct (match gr_start g with Some s => Some (ctx_start s) | None => c end) as [c0|]; [|contradiction]. destruct H as (HP & H).
  assert (T : Forall (fun p => 1 <= p_type (pi_hdr p) <= 3) (gr_pics g)).
  { destruct WF1 as (_ & _ & _ & _ & WF1). eapply Forall_impl; [|exact WF1]. intros p (_ & _ & _ & _ & T & _). exact T. }
  (* the distance of the last reference of the group before does not matter *)
  assert (W' : within n n (gr_pics g)).
  { destruct VG1 as (_ & p & ps & E & T1). rewrite E in W1 |- *. cbn [within] in W1 |- *. rewrite T1 in *. cbn [Z.eqb Pos.eqb] in *. exact W1. }
  destruct (pictures_close i V n (gr_pics g) (gr_pics h) n c0 o l so sl Pi HV ltac:(lia) T W' KO KL HP) as (A & B).
  unfold displayed. cbn [flat_map]. apply Forall2_app; [apply reorder_close; [exact A | exact I]|].
  destruct (after_pictures c0 o l (gr_pics g)) as ((c1 & o1) & l1). destruct (after_pictures c0 so sl (gr_pics h)) as ((c2 & o2) & l2).
  destruct B as (_ & B1 & B2). now apply (IH hs (Some c1) o1 l1 o2 l2).
Qed.

(** * The standard's pictures exist *)
Lemma pictures_std_exist : forall ps c o l so sl, pictures_all picture_coded c o l ps -> exists qs, pictures_twice (fun _ => True) c o l so sl ps qs.
Proof.
  induction ps as [|p ps IH]; intros c o l so sl H; cbn [pictures_all] in H; [exists []; exact I|]. destruct H as (H1 & H2).
  destruct H1 as (_ & _ & _ & _ & _ & _ & _ & ls & S & F).
  set (q := mkPicture (pi_hdr p) (pi_k1 p) (pi_pce p) (pi_k2 p) (pi_items p) (pi_data p) (picture_paint_std (params_of (ctx_items c (pi_items p)) so sl p) ls)).
  destruct (IH _ _ _ (older so sl q) (latest sl q) H2) as (qs & Q). exists (q :: qs). cbn [pictures_twice]. split; [reflexivity|]. split; [|exact Q].
  exists ls. split; [exact I|]. split; [exact S|]. split; [exact F | reflexivity].
Qed.
Lemma groups_std_exist : forall gs c o l so sl, groups_all picture_coded c o l gs -> exists hs, groups_twice (fun _ => True) c o l so sl gs hs.
Proof.
  induction gs as [|g gs IH]; intros c o l so sl H; cbn [groups_all] in H; [exists []; exact I|].
  destruct (match gr_start g with Some s => Some (ctx_start s) | None => c end) as [c0|] eqn:E; [|contradiction]. destruct H as (H1 & H2).
  destruct (pictures_std_exist _ _ _ _ so sl H1) as (qs & Q). destruct (after_pictures c0 o l (gr_pics g)) as ((c1 & o1) & l1) eqn:E1.
  destruct (after_pictures c0 so sl qs) as ((c2 & o2) & l2) eqn:E2. destruct (IH _ _ _ o2 l2 H2) as (hs & Hh).
  exists (mkGroup (gr_start g) (gr_hdr g) (gr_k g) (gr_items g) qs :: hs). cbn [groups_twice]. split; [reflexivity|]. rewrite E. cbn [gr_pics]. split; [exact Q|]. rewrite E1, E2. exact Hh.
Qed.
