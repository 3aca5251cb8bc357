(** IdctRange: a block whose exact inverse transform lies within -500..500 does not overflow, however large
    its coefficients are. *)
From Coq Require Import Reals Lra.
From Verif Require Import Base BitReader BlockModel SpecBlock IdctProofs SpecIdct IdctReal.

Open Scope Z_scope.
(** * The integers *)
Lemma row_wide : forall s0 s1 s2 s3 s4 s5 s6 s7,
  -4100 <= s0 <= 4100 -> -4100 <= s1 <= 4100 -> -4100 <= s2 <= 4100 -> -4100 <= s3 <= 4100 ->
  -4100 <= s4 <= 4100 -> -4100 <= s5 <= 4100 -> -4100 <= s6 <= 4100 -> -4100 <= s7 <= 4100 ->
  -11860000 <= 3406 * s1 - 799 * s3 - 4017 * s5 - 2276 * s7 <= 11860000 ->
  -11860000 <= 2276 * s1 - 4017 * s3 + 799 * s5 + 3406 * s7 <= 11860000 ->
  idct_row s0 s1 s2 s3 s4 s5 s6 s7 = zrow s0 s1 s2 s3 s4 s5 s6 s7.
Proof.
  intros s0 s1 s2 s3 s4 s5 s6 s7 H0 H1 H2 H3 H4 H5 H6 H7 HP HQ. unfold idct_row, zrow.
  destruct ((s1 =? 0) && (s2 =? 0) && (s3 =? 0) && (s4 =? 0) && (s5 =? 0) && (s6 =? 0) && (s7 =? 0)).
  - f_equal. opstep. exact H.
  - cbv zeta. consts. repeat opstep. subst; reflexivity.
Qed.
Lemma col_wide : forall s0 s1 s2 s3 s4 s5 s6 s7,
  -33000 <= s0 <= 33000 -> -33000 <= s1 <= 33000 -> -33000 <= s2 <= 33000 -> -33000 <= s3 <= 33000 ->
  -33000 <= s4 <= 33000 -> -33000 <= s5 <= 33000 -> -33000 <= s6 <= 33000 -> -33000 <= s7 <= 33000 ->
  -94880000 <= 3406 * s1 - 799 * s3 - 4017 * s5 - 2276 * s7 <= 94880000 ->
  -94880000 <= 2276 * s1 - 4017 * s3 + 799 * s5 + 3406 * s7 <= 94880000 ->
  idct_col s0 s1 s2 s3 s4 s5 s6 s7 = zcol s0 s1 s2 s3 s4 s5 s6 s7.
Proof.
  intros s0 s1 s2 s3 s4 s5 s6 s7 H0 H1 H2 H3 H4 H5 H6 H7 HP HQ. unfold idct_col, zcol.
  cbv zeta. consts. repeat opstep. subst; reflexivity.
Qed.

Open Scope R_scope.
(** * Orthogonality of the cosines *)
Lemma kk8 : kk 8 = 0.
Proof. unfold kk, ck. replace (8 * PI / 16) with (PI / 2) by field. rewrite cos_PI2. ring. Qed.
Lemma kk0 : kk 0 = 2048 * q.
Proof. unfold kk, ck. replace (0 * PI / 16) with 0 by field. rewrite cos_0. ring. Qed.
Lemma kk_neg : forall n, kk (- n) = kk n.
Proof. intro n. unfold kk. now rewrite ck_neg. Qed.
Lemma kk_prod : forall a b, q * (kk a * kk b) = 2048 * (kk (a + b) + kk (a - b)).
Proof.
  intros a b. unfold kk.
  assert (E : 2 * (ck a * ck b) = ck (a + b) + ck (a - b)).
  { unfold ck. rewrite plus_IZR, minus_IZR.
    replace ((IZR a + IZR b) * PI / 16) with (IZR a * PI / 16 + IZR b * PI / 16) by field.
    replace ((IZR a - IZR b) * PI / 16) with (IZR a * PI / 16 - IZR b * PI / 16) by field.
    rewrite cos_plus, cos_minus. ring. }
  transitivity (2048 * 2048 * q * (q * q) * (ck a * ck b)); [ring|]. rewrite q_sq.
  transitivity (2048 * 2048 * q * (2 * (ck a * ck b))); [ring|]. rewrite E. ring.
Qed.
Definition ksum (k : Z) : R := rsum 8 (fun y => kk ((2 * Z.of_nat y + 1) * k)).
Ltac kk_numerals := repeat match goal with |- context [kk ?n] => let v := eval vm_compute in n in tryif constr_eq n v then fail else change n with v end.
Lemma ksum_zero : forall n, (0 < n < 16)%nat -> ksum (Z.of_nat n) = 0.
Proof.
  intros n Hn. unfold ksum. cbn [rsum].
  do 16 (destruct n as [|n]; [try lia; kk_numerals; kk_fold_all; rewrite ?kk8; ring|]). lia.
Qed.
Lemma ksum_0 : ksum 0 = 16384 * q.
Proof. unfold ksum. cbn [rsum]. rewrite !Z.mul_0_r, kk0. ring. Qed.
Lemma ksum_neg : forall k, ksum (- k) = ksum k.
Proof. intro k. unfold ksum. apply rsum_ext. intros y _. rewrite <- kk_neg. f_equal. ring. Qed.
(** The weight of coefficient u in the exact value at x *)
Definition kw (x u : nat) : R := match u with O => 2048 | _ => kk ((2 * Z.of_nat x + 1) * Z.of_nat u) end.
Lemma ex_kw : forall x s, ex x s = rsum 8 (fun u => s u * kw x u).
Proof. intros. unfold ex. cbn [rsum kw]. cbn [Z.of_nat Pos.of_succ_nat Pos.succ]. ring. Qed.
Lemma kk_orth : forall u v, (1 <= u < 8)%nat -> (1 <= v < 8)%nat ->
  rsum 8 (fun y => kk ((2 * Z.of_nat y + 1) * Z.of_nat v) * kk ((2 * Z.of_nat y + 1) * Z.of_nat u)) = if Nat.eqb u v then 33554432 else 0.
Proof.
  intros u v Hu Hv.
  assert (E : q * rsum 8 (fun y => kk ((2 * Z.of_nat y + 1) * Z.of_nat v) * kk ((2 * Z.of_nat y + 1) * Z.of_nat u)) =
    2048 * (ksum (Z.of_nat v + Z.of_nat u) + ksum (Z.of_nat v - Z.of_nat u))).
  { rewrite <- rsum_scale. unfold ksum. rewrite <- rsum_plus, <- rsum_scale. apply rsum_ext. intros y _. rewrite kk_prod. f_equal. f_equal; f_equal; ring. }
  rewrite <- Nat2Z.inj_add in E. rewrite (ksum_zero (v + u)) in E by lia. pose proof q_pos as Q.
  apply (Rmult_eq_reg_l q); [|lra]. rewrite E. destruct (Nat.eqb_spec u v) as [->|N].
  - rewrite Z.sub_diag, ksum_0. ring.
  - assert (ksum (Z.of_nat v - Z.of_nat u) = 0) as ->; [|ring].
    destruct (Nat.lt_ge_cases u v); [rewrite <- Nat2Z.inj_sub by lia; apply ksum_zero; lia|].
    rewrite <- ksum_neg. replace (- (Z.of_nat v - Z.of_nat u))%Z with (Z.of_nat (u - v)) by lia. apply ksum_zero. lia.
Qed.
Lemma kw_orth : forall u v, (u < 8)%nat -> (v < 8)%nat -> rsum 8 (fun y => kw y v * kw y u) = if Nat.eqb u v then 33554432 else 0.
Proof.
  intros u v Hu Hv. destruct v as [|v], u as [|u]; cbn [kw].
  - cbn [rsum Nat.eqb]. ring.
  - rewrite rsum_scale. change (2048 * ksum (Z.of_nat (S u)) = 0). rewrite ksum_zero by lia. ring.
  - rewrite (rsum_ext 8 _ (fun y => 2048 * kk ((2 * Z.of_nat y + 1) * Z.of_nat (S v)))) by (intros; ring).
    rewrite rsum_scale. change (2048 * ksum (Z.of_nat (S v)) = 0). rewrite ksum_zero by lia. ring.
  - apply kk_orth; lia.
Qed.
Lemma rsum_pick : forall n f (v : nat) c, (v < n)%nat -> rsum n (fun u => f u * (if Nat.eqb u v then c else 0)) = f v * c.
Proof.
  assert (Z0 : forall n f (v : nat) c, (n <= v)%nat -> rsum n (fun u => f u * (if Nat.eqb u v then c else 0)) = 0).
  { induction n; intros f v c H; cbn [rsum]; [reflexivity|]. rewrite IHn by lia. destruct (Nat.eqb_spec n v); [lia|ring]. }
  induction n; intros f v c H; [lia|]. cbn [rsum]. destruct (Nat.eqb_spec n v) as [->|].
  - rewrite Z0 by lia. ring.
  - rewrite IHn by lia. ring.
Qed.
(** The coefficients from the exact values *)
Lemma ex_inverse : forall v s, (v < 8)%nat -> rsum 8 (fun y => kw y v * ex y s) = 33554432 * s v.
Proof.
  intros v s Hv. rewrite (rsum_ext 8 _ (fun y => rsum 8 (fun u => s u * (kw y v * kw y u)))).
  2:{ intros y _. rewrite ex_kw, <- rsum_scale. apply rsum_ext. intros. ring. }
  rewrite rsum_swap. rewrite (rsum_ext 8 _ (fun u => s u * (if Nat.eqb u v then 33554432 else 0))).
  2:{ intros u Hu. rewrite rsum_scale, kw_orth by assumption. reflexivity. }
  rewrite rsum_pick by assumption. ring.
Qed.
Lemma kw_total : forall v (E : nat -> R) B, (v < 8)%nat -> (forall y, (y < 8)%nat -> - B <= E y <= B) ->
  - (16384 * B) <= rsum 8 (fun y => kw y v * E y) <= 16384 * B.
Proof.
  intros v E B Hv HE. cbn [rsum].
  pose proof (HE 0%nat ltac:(lia)). pose proof (HE 1%nat ltac:(lia)). pose proof (HE 2%nat ltac:(lia)). pose proof (HE 3%nat ltac:(lia)).
  pose proof (HE 4%nat ltac:(lia)). pose proof (HE 5%nat ltac:(lia)). pose proof (HE 6%nat ltac:(lia)). pose proof (HE 7%nat ltac:(lia)). clear HE.
  assert (A : forall i y c, 0 <= kk i <= c -> - B <= E y <= B -> - (c * B) <= kk i * E y <= c * B).
  { intros i y c Hc Hy. assert (0 <= B) by lra. split; nra. }
  kks. do 8 (destruct v as [|v]; [cbn [kw]; kk_numerals; kk_fold_all; rewrite ?Ropp_mult_distr_l_reverse;
    repeat match goal with |- context [kk ?i * E ?y] => 
      let c := match i with 1%Z => constr:(284066/100) | 2%Z => constr:(267585/100) | 3%Z => constr:(240820/100) | 4%Z => constr:(2048) | 5%Z => constr:(160911/100) | 6%Z => constr:(110837/100) | 7%Z => constr:(56505/100) end in
      pose proof (A i y c ltac:(lra) ltac:(assumption)); generalize dependent (kk i * E y); intros end; lra|]). lia.
Qed.
Lemma ex_bound_inverse : forall s B v, (v < 8)%nat -> (forall y, (y < 8)%nat -> - B <= ex y s <= B) -> - B <= 2048 * s v <= B.
Proof.
  intros s B v Hv H. pose proof (kw_total v (fun y => ex y s) B Hv H) as K. cbv beta in K. rewrite ex_inverse in K by assumption. lra.
Qed.

(** * The two factors of the multiplication by 181 *)
Definition odd1 (s : nat -> R) : R := 3406 * s 1%nat - 799 * s 3%nat - 4017 * s 5%nat - 2276 * s 7%nat.
Definition odd2 (s : nat -> R) : R := 2276 * s 1%nat - 4017 * s 3%nat + 799 * s 5%nat + 3406 * s 7%nat.
Lemma near_prod : forall s S k w e, - S <= s <= S -> - e <= k - w <= e -> - (e * S) <= s * k - s * w <= e * S.
Proof. intros s S k w e Hs Hk. replace (s * k - s * w) with (s * (k - w)) by ring. now apply prod_in. Qed.
Lemma odd_small : forall s B, (forall x, (x < 8)%nat -> - B <= ex x s <= B) ->
  (- (14142 / 10000 * B + 1 / 1000 * B) <= odd1 s <= 14142 / 10000 * B + 1 / 1000 * B) /\
  (- (14142 / 10000 * B + 1 / 1000 * B) <= odd2 s <= 14142 / 10000 * B + 1 / 1000 * B).
Proof.
  intros s B H. 
  assert (S : forall v, (v < 8)%nat -> - (B / 2048) <= s v <= B / 2048). { intros v Hv. pose proof (ex_bound_inverse s B v Hv H). lra. }
  pose proof (S 1%nat ltac:(lia)) as S1. pose proof (S 3%nat ltac:(lia)) as S3. pose proof (S 5%nat ltac:(lia)) as S5. pose proof (S 7%nat ltac:(lia)) as S7. clear S.
  pose proof (H 1%nat ltac:(lia)) as E1. pose proof (H 2%nat ltac:(lia)) as E2. pose proof (H 5%nat ltac:(lia)) as E5. pose proof (H 6%nat ltac:(lia)) as E6. clear H.
  assert (D : (ex 1 s - ex 6 s) / 2 = s 1%nat * kk 3 - s 3%nat * kk 7 - s 5%nat * kk 1 - s 7%nat * kk 5).
  { unfold ex. kk_numerals. kk_fold_all. rewrite ?kk8. field. }
  assert (F : (ex 2 s - ex 5 s) / 2 = s 1%nat * kk 5 - s 3%nat * kk 1 + s 5%nat * kk 7 + s 7%nat * kk 3).
  { unfold ex. kk_numerals. kk_fold_all. rewrite ?kk8. field. }
  kks. pose proof (near_prod (s 1%nat) (B / 2048) (14142 / 10000 * kk 3) 3406 (45 / 100) S1 ltac:(lra)).
  pose proof (near_prod (s 3%nat) (B / 2048) (14142 / 10000 * kk 7) 799 (45 / 100) S3 ltac:(lra)).
  pose proof (near_prod (s 5%nat) (B / 2048) (14142 / 10000 * kk 1) 4017 (45 / 100) S5 ltac:(lra)).
  pose proof (near_prod (s 7%nat) (B / 2048) (14142 / 10000 * kk 5) 2276 (45 / 100) S7 ltac:(lra)).
  pose proof (near_prod (s 1%nat) (B / 2048) (14142 / 10000 * kk 5) 2276 (45 / 100) S1 ltac:(lra)).
  pose proof (near_prod (s 3%nat) (B / 2048) (14142 / 10000 * kk 1) 4017 (45 / 100) S3 ltac:(lra)).
  pose proof (near_prod (s 5%nat) (B / 2048) (14142 / 10000 * kk 7) 799 (45 / 100) S5 ltac:(lra)).
  pose proof (near_prod (s 7%nat) (B / 2048) (14142 / 10000 * kk 3) 3406 (45 / 100) S7 ltac:(lra)).
  unfold odd1, odd2. split; lra.
Qed.

(** * Blocks *)
Lemma zbetween : forall z k j, j = Z.opp k -> - IZR k <= IZR z <= IZR k -> (j <= z <= k)%Z.
Proof. intros z k j -> [A B]. rewrite <- opp_IZR in A. apply le_IZR in A. apply le_IZR in B. lia. Qed.
Lemma rabs_in : forall x k, Rabs x <= k -> - k <= x <= k.
Proof. intros x k H. pose proof (abs_in x). lra. Qed.
Theorem idct_in_range : forall b, length b = 64%nat ->
  (forall x y, (x < 8)%nat -> (y < 8)%nat -> Rabs (iso_idct b x y) <= 500) -> idct b = zidct b.
Proof.
  intros b HL H.
  assert (HC : forall x y, (x < 8)%nat -> (y < 8)%nat -> - 65536000 <= ex y (row_out b x) <= 65536000).
  { intros x y Hx Hy. pose proof (rabs_in _ _ (H x y Hx Hy)) as A. rewrite <- iso_exact in A. lra. }
  assert (HR : forall x v, (x < 8)%nat -> (v < 8)%nat -> - 32000 <= row_out b x v <= 32000).
  { intros x v Hx Hv. pose proof (ex_bound_inverse (row_out b x) 65536000 v Hv (fun y Hy => HC x y Hx Hy)). lra. }
  assert (HE : forall x v, (x < 8)%nat -> (v < 8)%nat -> - 8192000 <= ex x (row_at b v) <= 8192000).
  { intros x v Hx Hv. pose proof (HR x v Hx Hv) as A. unfold row_out in A. lra. }
  assert (HF : forall u v, (u < 8)%nat -> (v < 8)%nat -> - 4000 <= row_at b v u <= 4000).
  { intros u v Hu Hv. pose proof (ex_bound_inverse (row_at b v) 8192000 u Hu (fun y Hy => HE y v Hy Hv)). lra. }
  assert (Hrows : idct_rows b = zrows b).
  { unfold idct_rows, zrows. rewrite !flat_map_concat_map. f_equal. apply map_ext_in. intros y Hy. apply in_seq in Hy.
    change (fun x : nat => nth (8 * y + x) b 0%Z) with (at8 b y). unfold apply8.
    pose proof (odd_small (row_at b y) 8192000 (fun x Hx => HE x y Hx ltac:(lia))) as [O1 O2].
    assert (HB : forall u, (u < 8)%nat -> (-4100 <= at8 b y u <= 4100)%Z).
    { intros u Hu. apply zbetween; [reflexivity|]. pose proof (HF u y Hu ltac:(lia)) as A. unfold row_at in A. lra. }
    apply row_wide; try (apply HB; lia); (apply zbetween; [reflexivity|]); rewrite ?plus_IZR, ?minus_IZR, ?plus_IZR, ?minus_IZR, !mult_IZR; [unfold odd1, row_at in O1 | unfold odd2, row_at in O2]; lra. }
  unfold idct, zidct. rewrite Hrows. unfold idct_cols, zcols. cbv zeta.
  assert (E : map (fun x => apply8 idct_col (fun y => nth (8 * y + x) (zrows b) 0%Z)) (seq 0 8) =
              map (fun x => apply8 zcol (fun y => nth (8 * y + x) (zrows b) 0%Z)) (seq 0 8)).
  2:{ rewrite E. reflexivity. }
  apply map_ext_in. intros x Hx. apply in_seq in Hx.
  change (fun y : nat => nth (8 * y + x) (zrows b) 0%Z) with (fun y => at8 (zrows b) y x). unfold apply8.
  pose proof (odd_small (row_out b x) 65536000 (fun y Hy => HC x y ltac:(lia) Hy)) as [O1 O2].
  assert (HN : forall v, (v < 8)%nat -> - 60 <= IZR (at8 (zrows b) v x) - row_out b x v <= 60).
  { intros v Hv. apply rabs_in. eapply Rle_trans; [apply row_near; lia|]. unfold ac.
    assert (HA : forall u, (u < 8)%nat -> Rabs (row_at b v u) <= 4000) by (intros u Hu; apply Rabs_le; apply HF; assumption).
    pose proof (HA 1%nat ltac:(lia)). pose proof (HA 2%nat ltac:(lia)). pose proof (HA 3%nat ltac:(lia)). pose proof (HA 4%nat ltac:(lia)).
    pose proof (HA 5%nat ltac:(lia)). pose proof (HA 6%nat ltac:(lia)). pose proof (HA 7%nat ltac:(lia)). unfold e0. lra. }
  assert (HB : forall v, (v < 8)%nat -> (-33000 <= at8 (zrows b) v x <= 33000)%Z).
  { intros v Hv. apply zbetween; [reflexivity|]. pose proof (HN v Hv). pose proof (HR x v ltac:(lia) Hv). lra. }
  pose proof (HN 1%nat ltac:(lia)). pose proof (HN 3%nat ltac:(lia)). pose proof (HN 5%nat ltac:(lia)). pose proof (HN 7%nat ltac:(lia)).
  apply col_wide; try (apply HB; lia); (apply zbetween; [reflexivity|]); rewrite ?plus_IZR, ?minus_IZR, ?plus_IZR, ?minus_IZR, !mult_IZR; [unfold odd1 in O1 | unfold odd2 in O2]; lra.
Qed.
Theorem idct_accurate_in_range : forall b x y, length b = 64%nat ->
  (forall x y, (x < 8)%nat -> (y < 8)%nat -> Rabs (iso_idct b x y) <= 500) -> (x < 8)%nat -> (y < 8)%nat ->
  Rabs (IZR (nth (8 * y + x) (idct b) 0%Z) - iso_idct b x y) <= 585 / 1000 + IZR (acsum b) / 11000.
Proof.
  intros b x y HL H Hx Hy. rewrite idct_in_range by assumption. rewrite <- iso_exact. exact (zidct_near b x y HL Hx Hy).
Qed.
