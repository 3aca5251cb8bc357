(** IdctProofs: the IDCT without wrap-around, and DC-only blocks. *)
From Verif Require Import Base BitReader BlockModel SpecBlock.

(** The same computation over unbounded integers ([x >> n] is division by 2^n rounding down). *)
Definition zrow (s0 s1 s2 s3 s4 s5 s6 s7 : Z) : list Z :=
  if (s1 =? 0) && (s2 =? 0) && (s3 =? 0) && (s4 =? 0) && (s5 =? 0) && (s6 =? 0) && (s7 =? 0)
  then repeat (s0 * 8) 8
  else
    let x0 := s0 * 2048 + 128 in
    let x1 := s4 * 2048 in
    let x2 := s6 in
    let x3 := s2 in
    let x4 := s1 in
    let x5 := s7 in
    let x6 := s5 in
    let x7 := s3 in
    let x8 := w7 * (x4 + x5) in
    let x4 := x8 + w1mw7 * x4 in
    let x5 := x8 - w1pw7 * x5 in
    let x8 := w3 * (x6 + x7) in
    let x6 := x8 - w3mw5 * x6 in
    let x7 := x8 - w3pw5 * x7 in
    let x8 := x0 + x1 in
    let x0 := x0 - x1 in
    let x1 := w6 * (x3 + x2) in
    let x2 := x1 - w2pw6 * x2 in
    let x3 := x1 + w2mw6 * x3 in
    let x1 := x4 + x6 in
    let x4 := x4 - x6 in
    let x6 := x5 + x7 in
    let x5 := x5 - x7 in
    let x7 := x8 + x3 in
    let x8 := x8 - x3 in
    let x3 := x0 + x2 in
    let x0 := x0 - x2 in
    let x2 := (r2 * (x4 + x5) + 128) / 256 in
    let x4 := (r2 * (x4 - x5) + 128) / 256 in
    [(x7 + x1) / 256; (x3 + x2) / 256; (x0 + x4) / 256; (x8 + x6) / 256;
     (x8 - x6) / 256; (x0 - x4) / 256; (x3 - x2) / 256; (x7 - x1) / 256].

Definition zcol (s0 s1 s2 s3 s4 s5 s6 s7 : Z) : list Z :=
  let y0 := s0 * 256 + 8192 in
  let y1 := s4 * 256 in
  let y2 := s6 in
  let y3 := s2 in
  let y4 := s1 in
  let y5 := s7 in
  let y6 := s5 in
  let y7 := s3 in
  let y8 := w7 * (y4 + y5) + 4 in
  let y4 := (y8 + w1mw7 * y4) / 8 in
  let y5 := (y8 - w1pw7 * y5) / 8 in
  let y8 := w3 * (y6 + y7) + 4 in
  let y6 := (y8 - w3mw5 * y6) / 8 in
  let y7 := (y8 - w3pw5 * y7) / 8 in
  let y8 := y0 + y1 in
  let y0 := y0 - y1 in
  let y1 := w6 * (y3 + y2) + 4 in
  let y2 := (y1 - w2pw6 * y2) / 8 in
  let y3 := (y1 + w2mw6 * y3) / 8 in
  let y1 := y4 + y6 in
  let y4 := y4 - y6 in
  let y6 := y5 + y7 in
  let y5 := y5 - y7 in
  let y7 := y8 + y3 in
  let y8 := y8 - y3 in
  let y3 := y0 + y2 in
  let y0 := y0 - y2 in
  let y2 := (r2 * (y4 + y5) + 128) / 256 in
  let y4 := (r2 * (y4 - y5) + 128) / 256 in
  [(y7 + y1) / 16384; (y3 + y2) / 16384; (y0 + y4) / 16384; (y8 + y6) / 16384;
   (y8 - y6) / 16384; (y0 - y4) / 16384; (y3 - y2) / 16384; (y7 - y1) / 16384].

Definition zrows (b : block) : block :=
  flat_map (fun y => apply8 zrow (fun x => nth (8 * y + x) b 0)) (seq 0 8).
Definition zcols (b : block) : block :=
  let cols := map (fun x => apply8 zcol (fun y => nth (8 * y + x) b 0)) (seq 0 8) in
  flat_map (fun y => map (fun x => nth y (nth x cols []) 0) (seq 0 8)) (seq 0 8).
Definition zidct (b : block) : block := zcols (zrows b).

(** ** No wrap-around *)

Lemma add32_eq : forall a b z, z = add32 a b -> -2147483648 <= a + b < 2147483648 -> z = a + b.
Proof. intros. subst. apply i32_small. lia. Qed.
Lemma sub32_eq : forall a b z, z = sub32 a b -> -2147483648 <= a - b < 2147483648 -> z = a - b.
Proof. intros. subst. apply i32_small. lia. Qed.
Lemma mul32_eq : forall a b z, z = mul32 a b -> -2147483648 <= a * b < 2147483648 -> z = a * b.
Proof. intros. subst. apply i32_small. lia. Qed.
Lemma shl32_eq : forall a n z, z = shl32 a n -> 0 <= n -> -2147483648 <= a * 2 ^ n < 2147483648 -> z = a * 2 ^ n.
Proof. intros. subst. unfold shl32. rewrite Z.shiftl_mul_pow2 by lia. apply i32_small. lia. Qed.
Lemma shr32_eq : forall a n z, z = shr32 a n -> 0 <= n -> z = a / 2 ^ n.
Proof. intros. subst. unfold shr32. now rewrite Z.shiftr_div_pow2 by lia. Qed.

(** A division is bounded by its argument: facts for lia. *)
Lemma div_bounds : forall x k, 0 < k -> k * (x / k) <= x < k * (x / k) + k.
Proof.
  intros. pose proof (Z.div_mod x k ltac:(lia)). pose proof (Z.mod_pos_bound x k H). lia.
Qed.

Ltac atom x := first [is_var x | is_const x | match x with Zpos _ => idtac end].

(** Name the result of an innermost operation and show that it does not wrap. *)
Ltac opstep :=
  match goal with
  | |- context [shl32 ?a ?n] => atom a; let z := fresh "z" in let H := fresh "H" in
      remember (shl32 a n) as z eqn:H; apply shl32_eq in H; [|lia|lia];
      change (2 ^ 11) with 2048 in H; change (2 ^ 8) with 256 in H; change (2 ^ 3) with 8 in H
  | |- context [add32 ?a ?b] => atom a; atom b; let z := fresh "z" in let H := fresh "H" in
      remember (add32 a b) as z eqn:H; apply add32_eq in H; [|lia]
  | |- context [sub32 ?a ?b] => atom a; atom b; let z := fresh "z" in let H := fresh "H" in
      remember (sub32 a b) as z eqn:H; apply sub32_eq in H; [|lia]
  | |- context [mul32 ?a ?b] => atom a; atom b; let z := fresh "z" in let H := fresh "H" in
      remember (mul32 a b) as z eqn:H; apply mul32_eq in H; [|lia]
  | |- context [shr32 ?a ?n] => atom a; let z := fresh "z" in let H := fresh "H" in
      remember (shr32 a n) as z eqn:H; apply shr32_eq in H; [|lia];
      change (2 ^ 8) with 256 in H; change (2 ^ 3) with 8 in H; change (2 ^ 14) with 16384 in H;
      match type of H with _ = ?x / ?k => let D := fresh "D" in
        assert (D : k * z <= x < k * z + k) by (rewrite H; apply div_bounds; lia) end
  end.
Ltac consts := change w1pw7 with 3406; change w1mw7 with 2276; change w2pw6 with 3784; change w2mw6 with 1568;
  change w3pw5 with 4017; change w3mw5 with 799; change w3 with 2408; change w6 with 1108; change w7 with 565; change r2 with 181.



Lemma row_nowrap : forall s0 s1 s2 s3 s4 s5 s6 s7 a1 a2 a3 a4 a5 a6 a7,
  -4096 <= s0 <= 4096 ->
  -a1 <= s1 <= a1 -> -a2 <= s2 <= a2 -> -a3 <= s3 <= a3 -> -a4 <= s4 <= a4 -> -a5 <= s5 <= a5 ->
  -a6 <= s6 <= a6 -> -a7 <= s7 <= a7 -> a1 + a2 + a3 + a4 + a5 + a6 + a7 <= 2900 ->
  idct_row s0 s1 s2 s3 s4 s5 s6 s7 = zrow s0 s1 s2 s3 s4 s5 s6 s7.
Proof.
  intros s0 s1 s2 s3 s4 s5 s6 s7 a1 a2 a3 a4 a5 a6 a7 H0 H1 H2 H3 H4 H5 H6 H7 HA. unfold idct_row, zrow.
  destruct ((s1 =? 0) && (s2 =? 0) && (s3 =? 0) && (s4 =? 0) && (s5 =? 0) && (s6 =? 0) && (s7 =? 0)).
  - f_equal. opstep. exact H.
  - cbv zeta. consts. repeat opstep. subst; reflexivity.
Qed.

(** In a column the odd inputs meet the multiplication by 181. *)
Lemma col_nowrap : forall s0 s1 s2 s3 s4 s5 s6 s7 a0 a1 a2 a3 a4 a5 a6 a7,
  -a0 <= s0 <= a0 -> -a1 <= s1 <= a1 -> -a2 <= s2 <= a2 -> -a3 <= s3 <= a3 -> -a4 <= s4 <= a4 -> -a5 <= s5 <= a5 ->
  -a6 <= s6 <= a6 -> -a7 <= s7 <= a7 -> a0 <= 1000000 ->
  a1 + a2 + a3 + a4 + a5 + a6 + a7 <= 23600 ->
  idct_col s0 s1 s2 s3 s4 s5 s6 s7 = zcol s0 s1 s2 s3 s4 s5 s6 s7.
Proof.
  intros s0 s1 s2 s3 s4 s5 s6 s7 a0 a1 a2 a3 a4 a5 a6 a7 H0 H1 H2 H3 H4 H5 H6 H7 HA0 HA. unfold idct_col, zcol.
  cbv zeta. consts. repeat opstep. subst; reflexivity.
Qed.

(** ** Bounds *)
Ltac divs := repeat match goal with |- context [?x / ?k] =>
  lazymatch x with context [_ / _] => fail | _ => idtac end;
  let z := fresh "q" in let H := fresh "Hq" in pose proof (div_bounds x k ltac:(lia)) as H;
  let E := fresh "E" in remember (x / k) as z eqn:E; clear E end.

Lemma row_bound : forall s0 s1 s2 s3 s4 s5 s6 s7 a0 a1 a2 a3 a4 a5 a6 a7,
  -a0 <= s0 <= a0 -> -a1 <= s1 <= a1 -> -a2 <= s2 <= a2 -> -a3 <= s3 <= a3 -> -a4 <= s4 <= a4 -> -a5 <= s5 <= a5 ->
  -a6 <= s6 <= a6 -> -a7 <= s7 <= a7 ->
  Forall (fun o => - (2048 * a0 + 2842 * (a1 + a2 + a3 + a4 + a5 + a6 + a7) + 512) <= 256 * o
                   <= 2048 * a0 + 2842 * (a1 + a2 + a3 + a4 + a5 + a6 + a7) + 512)
    (zrow s0 s1 s2 s3 s4 s5 s6 s7).
Proof.
  intros s0 s1 s2 s3 s4 s5 s6 s7 a0 a1 a2 a3 a4 a5 a6 a7 H0 H1 H2 H3 H4 H5 H6 H7. unfold zrow.
  destruct ((s1 =? 0) && (s2 =? 0) && (s3 =? 0) && (s4 =? 0) && (s5 =? 0) && (s6 =? 0) && (s7 =? 0)).
  - apply Forall_forall. intros o Ho. apply repeat_spec in Ho. subst o. lia.
  - cbv zeta. consts.
    repeat (apply Forall_cons; [divs; lia|]). apply Forall_nil.
Qed.

Lemma row_length : forall s0 s1 s2 s3 s4 s5 s6 s7, length (zrow s0 s1 s2 s3 s4 s5 s6 s7) = 8%nat.
Proof. intros. unfold zrow. destruct (_ && _); reflexivity. Qed.

Lemma nth_flat8 : forall (f : nat -> list Z) n k y x, (forall i, length (f i) = 8%nat) -> (x < 8)%nat -> (y < n)%nat ->
  nth (8 * y + x) (flat_map f (seq k n)) 0 = nth x (f (k + y)%nat) 0.
Proof.
  induction n; intros k y x Hf Hx Hy; [lia|]. cbn [seq flat_map].
  destruct y as [|y].
  - rewrite app_nth1 by (rewrite Hf; lia). f_equal. f_equal. lia.
  - rewrite app_nth2 by (rewrite Hf; lia). rewrite Hf.
    replace (8 * S y + x - 8)%nat with (8 * y + x)%nat by lia. rewrite IHn by (auto; lia).
    f_equal. f_equal. lia.
Qed.

(** The samples of a block by row and column. *)
Definition at8 (b : block) (y x : nat) : Z := nth (8 * y + x) b 0.

Lemma at8_zrows : forall b y x, (y < 8)%nat -> (x < 8)%nat ->
  at8 (zrows b) y x = nth x (apply8 zrow (at8 b y)) 0.
Proof.
  intros. unfold at8, zrows. rewrite (nth_flat8 _ 8 0 y x) by (auto; intros; apply row_length). reflexivity.
Qed.

Lemma at8_zcols : forall b y x, (y < 8)%nat -> (x < 8)%nat ->
  at8 (zcols b) y x = nth y (apply8 zcol (fun i => at8 b i x)) 0.
Proof.
  intros b y x Hy Hx. unfold at8, zcols. cbv zeta.
  rewrite (nth_flat8 _ 8 0 y x) by (auto; intros; now rewrite map_length).
  change (0 + y)%nat with y.
  rewrite (nth_indep _ 0 ((fun x => nth y (nth x (map (fun x => apply8 zcol (fun i => nth (8 * i + x) b 0)) (seq 0 8)) []) 0) 0%nat))
    by (rewrite map_length, seq_length; lia).
  rewrite (map_nth (fun x => nth y (nth x (map (fun x => apply8 zcol (fun i => nth (8 * i + x) b 0)) (seq 0 8)) []) 0)).
  rewrite seq_nth by lia. cbn [Nat.add].
  f_equal. rewrite (nth_indep _ [] (apply8 zcol (fun i => nth (8 * i + 0) b 0))) by (rewrite map_length, seq_length; lia).
  rewrite (map_nth (fun x => apply8 zcol (fun i => nth (8 * i + x) b 0))). rewrite seq_nth by lia. reflexivity.
Qed.

(** The sum of the magnitudes of a row, and of the AC coefficients. *)
Definition rowabs (b : block) (y : nat) : Z :=
  Z.abs (at8 b y 0) + Z.abs (at8 b y 1) + Z.abs (at8 b y 2) + Z.abs (at8 b y 3) +
  Z.abs (at8 b y 4) + Z.abs (at8 b y 5) + Z.abs (at8 b y 6) + Z.abs (at8 b y 7).
Definition acsum (b : block) : Z := sum (map Z.abs (tl b)).

Lemma acsum_rows : forall b, length b = 64%nat ->
  acsum b = rowabs b 0 - Z.abs (at8 b 0 0) + rowabs b 1 + rowabs b 2 + rowabs b 3 + rowabs b 4 + rowabs b 5 + rowabs b 6 + rowabs b 7.
Proof.
  intros b H. do 64 (destruct b as [|? b]; [discriminate|]). destruct b; [|discriminate].
  unfold acsum, rowabs, at8, sum. cbn [tl map fold_right nth Nat.mul Nat.add]. ring.
Qed.

Lemma rowabs_nonneg : forall b y, 0 <= rowabs b y.
Proof. intros. unfold rowabs. lia. Qed.

Lemma ext8 : forall f g (h : nat -> Z), (forall a b c d e i j k, f a b c d e i j k = g a b c d e i j k) -> apply8 f h = apply8 g h.
Proof. intros. apply H. Qed.

Theorem idct_nowrap : forall b, length b = 64%nat -> -2048 <= nth 0 b 0 <= 2048 -> acsum b <= 2100 ->
  idct b = zidct b.
Proof.
  intros b Hl H0 Hs. rewrite acsum_rows in Hs by exact Hl.
  pose proof (rowabs_nonneg b) as Hn.
  assert (Hrows : idct_rows b = zrows b).
  { unfold idct_rows, zrows. apply flat_map_ext_in || idtac.
    rewrite !flat_map_concat_map. f_equal. apply map_ext_in. intros y Hy. apply in_seq in Hy.
    change (fun x : nat => nth (8 * y + x) b 0) with (at8 b y). unfold apply8.
    apply row_nowrap with (a1 := Z.abs (at8 b y 1)) (a2 := Z.abs (at8 b y 2)) (a3 := Z.abs (at8 b y 3))
      (a4 := Z.abs (at8 b y 4)) (a5 := Z.abs (at8 b y 5)) (a6 := Z.abs (at8 b y 6)) (a7 := Z.abs (at8 b y 7)); try lia.
    - destruct (Nat.eq_dec y 0) as [->|]; [unfold at8; cbn [Nat.mul Nat.add]; lia|].
      assert (rowabs b y <= 2100).
      { pose proof (Hn 1%nat). pose proof (Hn 2%nat). pose proof (Hn 3%nat). pose proof (Hn 4%nat).
        pose proof (Hn 5%nat). pose proof (Hn 6%nat). pose proof (Hn 7%nat).
        assert (0 <= rowabs b 0 - Z.abs (at8 b 0 0)) by (unfold rowabs; lia).
        assert (y = 1 \/ y = 2 \/ y = 3 \/ y = 4 \/ y = 5 \/ y = 6 \/ y = 7)%nat as [->|[->|[->|[->|[->|[->| ->]]]]]] by lia; lia. }
      unfold rowabs in H. lia.
    - assert (rowabs b y - Z.abs (at8 b y 0) <= 2100).
      { pose proof (Hn 1%nat). pose proof (Hn 2%nat). pose proof (Hn 3%nat). pose proof (Hn 4%nat).
        pose proof (Hn 5%nat). pose proof (Hn 6%nat). pose proof (Hn 7%nat).
        assert (0 <= rowabs b 0 - Z.abs (at8 b 0 0)) by (unfold rowabs; lia).
        assert (y = 0 \/ y = 1 \/ y = 2 \/ y = 3 \/ y = 4 \/ y = 5 \/ y = 6 \/ y = 7)%nat as [->|[->|[->|[->|[->|[->|[->| ->]]]]]]] by lia; lia. }
      unfold rowabs in H. lia. }
  unfold idct, zidct. rewrite Hrows. unfold idct_cols, zcols. cbv zeta.
  assert (E : map (fun x => apply8 idct_col (fun y => nth (8 * y + x) (zrows b) 0)) (seq 0 8) =
              map (fun x => apply8 zcol (fun y => nth (8 * y + x) (zrows b) 0)) (seq 0 8)).
  2:{ rewrite E. reflexivity. }
  apply map_ext_in. intros x Hx. apply in_seq in Hx.
  change (fun y : nat => nth (8 * y + x) (zrows b) 0) with (fun y => at8 (zrows b) y x). unfold apply8.
  (* the bound of an entry of the intermediate block *)
  assert (Hb : forall y, (y < 8)%nat -> 256 * Z.abs (at8 (zrows b) y x) <= 2048 * Z.abs (at8 b y 0) + 2842 * (rowabs b y - Z.abs (at8 b y 0)) + 512).
  { intros y Hy. rewrite at8_zrows by lia. unfold apply8.
    pose proof (row_bound (at8 b y 0) (at8 b y 1) (at8 b y 2) (at8 b y 3) (at8 b y 4) (at8 b y 5) (at8 b y 6) (at8 b y 7)
      (Z.abs (at8 b y 0)) (Z.abs (at8 b y 1)) (Z.abs (at8 b y 2)) (Z.abs (at8 b y 3)) (Z.abs (at8 b y 4)) (Z.abs (at8 b y 5)) (Z.abs (at8 b y 6)) (Z.abs (at8 b y 7))
      ltac:(lia) ltac:(lia) ltac:(lia) ltac:(lia) ltac:(lia) ltac:(lia) ltac:(lia) ltac:(lia)) as HF.
    rewrite Forall_forall in HF. specialize (HF (nth x (zrow (at8 b y 0) (at8 b y 1) (at8 b y 2) (at8 b y 3) (at8 b y 4) (at8 b y 5) (at8 b y 6) (at8 b y 7)) 0)).
    assert (In (nth x (zrow (at8 b y 0) (at8 b y 1) (at8 b y 2) (at8 b y 3) (at8 b y 4) (at8 b y 5) (at8 b y 6) (at8 b y 7)) 0)
      (zrow (at8 b y 0) (at8 b y 1) (at8 b y 2) (at8 b y 3) (at8 b y 4) (at8 b y 5) (at8 b y 6) (at8 b y 7)))
      by (apply nth_In; rewrite row_length; lia).
    specialize (HF H). unfold rowabs. lia. }
  assert (Hr : forall y, 0 <= Z.abs (at8 b y 0) <= rowabs b y) by (intros; unfold rowabs; lia).
  pose proof (Hr 0%nat). pose proof (Hr 1%nat). pose proof (Hr 2%nat). pose proof (Hr 3%nat).
  pose proof (Hr 4%nat). pose proof (Hr 5%nat). pose proof (Hr 6%nat). pose proof (Hr 7%nat).
  pose proof (Hb 0%nat ltac:(lia)). pose proof (Hb 1%nat ltac:(lia)). pose proof (Hb 2%nat ltac:(lia)). pose proof (Hb 3%nat ltac:(lia)).
  pose proof (Hb 4%nat ltac:(lia)). pose proof (Hb 5%nat ltac:(lia)). pose proof (Hb 6%nat ltac:(lia)). pose proof (Hb 7%nat ltac:(lia)).
  assert (Z.abs (at8 b 0 0) <= 2048) by (clear - H0; unfold at8; cbn [Nat.mul Nat.add]; lia).
  clear Hn Hr Hb Hrows.
  generalize dependent (at8 (zrows b) 0 x). generalize dependent (at8 (zrows b) 1 x).
  generalize dependent (at8 (zrows b) 2 x). generalize dependent (at8 (zrows b) 3 x).
  generalize dependent (at8 (zrows b) 4 x). generalize dependent (at8 (zrows b) 5 x).
  generalize dependent (at8 (zrows b) 6 x). generalize dependent (at8 (zrows b) 7 x).
  intros t7 B7 t6 B6 t5 B5 t4 B4 t3 B3 t2 B2 t1 B1 t0 B0.
  apply col_nowrap with (a0 := Z.abs t0) (a1 := Z.abs t1) (a2 := Z.abs t2) (a3 := Z.abs t3) (a4 := Z.abs t4)
    (a5 := Z.abs t5) (a6 := Z.abs t6) (a7 := Z.abs t7); try (clear - B0; lia);
    generalize dependent (Z.abs (at8 b 0 0)); generalize dependent (Z.abs (at8 b 1 0)); generalize dependent (Z.abs (at8 b 2 0));
    generalize dependent (Z.abs (at8 b 3 0)); generalize dependent (Z.abs (at8 b 4 0)); generalize dependent (Z.abs (at8 b 5 0));
    generalize dependent (Z.abs (at8 b 6 0)); generalize dependent (Z.abs (at8 b 7 0)); intros.
  - lia.
  - lia.
Qed.

(** ** Blocks with only a DC coefficient *)
Lemma zcol_dc : forall s0, zcol s0 0 0 0 0 0 0 0 = repeat ((s0 * 256 + 8192) / 16384) 8.
Proof.
  intros s0. unfold zcol. cbv zeta. consts. cbn [repeat].
  repeat (f_equal; [divs; lia|]). f_equal; divs; lia.
Qed.

Lemma zidct_dc : forall dc, zidct (dc :: repeat 0 63) = repeat ((dc + 4) / 8) 64.
Proof.
  intros dc. unfold zidct.
  assert (E : zrows (dc :: repeat 0 63) = repeat (dc * 8) 8 ++ repeat 0 56) by reflexivity.
  rewrite E. unfold zcols. cbv zeta.
  assert (Ec : map (fun x => apply8 zcol (fun y => nth (8 * y + x) (repeat (dc * 8) 8 ++ repeat 0 56) 0)) (seq 0 8)
               = repeat (repeat ((dc + 4) / 8) 8) 8).
  { assert (H : zcol (dc * 8) 0 0 0 0 0 0 0 = repeat ((dc + 4) / 8) 8).
    { rewrite zcol_dc. f_equal.
      replace (dc * 8 * 256 + 8192) with ((dc + 4) * 2048) by lia. change 16384 with (8 * 2048).
      apply Z.div_mul_cancel_r; lia. }
    cbn [map seq]. unfold apply8. cbn [nth repeat app Nat.mul Nat.add]. rewrite H. reflexivity. }
  rewrite Ec. reflexivity.
Qed.

Theorem idct_dc_only : forall dc, -2048 <= dc <= 2048 -> idct (dc :: repeat 0 63) = repeat ((dc + 4) / 8) 64.
Proof.
  intros dc H. rewrite idct_nowrap; [apply zidct_dc | reflexivity | exact H | vm_compute; discriminate].
Qed.
