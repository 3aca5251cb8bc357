(** C74: the inverse DCT against the exact transform on real numbers (SpecIdct). These theorems use the axioms
    of the standard library's real numbers. *)
From Coq Require Import Reals Lra.
From Verif Require Import Base BitReader BlockModel SpecBlock IdctProofs SpecIdct IdctReal IdctRange.
Open Scope R_scope.

(** Every sample is within 0.585 + S/11000 of the exact inverse transform, where S is the sum of the magnitudes
    of the AC coefficients, for every block whose exact inverse transform stays within -500..500. The samples of a
    picture are 0..255 and differences of samples -255..255. *)
Theorem C74_accuracy : forall b x y, length b = 64%nat ->
  (forall x y, (x < 8)%nat -> (y < 8)%nat -> Rabs (iso_idct b x y) <= 500) -> (x < 8)%nat -> (y < 8)%nat ->
  Rabs (IZR (nth (8 * y + x) (idct b) 0%Z) - iso_idct b x y) <= 585 / 1000 + IZR (sum (map Z.abs (tl b))) / 11000.
Proof. exact idct_accurate_in_range. Qed.

(** So a block with S up to 4500 decodes to one of the two integers next to the exact value, and the magnitudes
    of the coefficients alone can ensure the range. *)
Theorem C74_adjacent : forall b x y, length b = 64%nat ->
  (forall x y, (x < 8)%nat -> (y < 8)%nat -> Rabs (iso_idct b x y) <= 500) -> (sum (map Z.abs (tl b)) <= 4500)%Z ->
  (x < 8)%nat -> (y < 8)%nat ->
  iso_idct b x y - 1 < IZR (nth (8 * y + x) (idct b) 0%Z) < iso_idct b x y + 1.
Proof.
  intros b x y HL H HS Hx Hy. pose proof (rabs_in _ _ (C74_accuracy b x y HL H Hx Hy)) as A. apply IZR_le in HS. lra.
Qed.
Theorem C74_small_coefficients : forall b x y, length b = 64%nat -> (-2048 <= nth 0 b 0%Z <= 2048)%Z ->
  (sum (map Z.abs (tl b)) <= 2100)%Z -> (x < 8)%nat -> (y < 8)%nat ->
  Rabs (IZR (nth (8 * y + x) (idct b) 0%Z) - iso_idct b x y) < 8 / 10.
Proof.
  intros b x y HL HD HS Hx Hy. pose proof (idct_accurate b x y HL ltac:(lia) HS Hx Hy) as A. unfold acsum in A. apply IZR_le in HS. lra.
Qed.

(** The range alone excludes overflow of the 32-bit intermediate values, whatever the coefficients. *)
Theorem C45_no_overflow_in_range : forall b, length b = 64%nat ->
  (forall x y, (x < 8)%nat -> (y < 8)%nat -> Rabs (iso_idct b x y) <= 500) -> idct b = zidct b.
Proof. exact idct_in_range. Qed.

(** A block that meets the range and whose coefficients are large: 1000 at four frequencies. *)
Definition four_waves : list Z :=
  [1000; 0; 0; 0; 1000; 0; 0; 0]%Z ++ repeat 0%Z 24 ++ [1000; 0; 0; 0; -1000; 0; 0; 0]%Z ++ repeat 0%Z 24.
Example four_waves_range : length four_waves = 64%nat /\ sum (map Z.abs (tl four_waves)) = 3000%Z /\
  forall x y, (x < 8)%nat -> (y < 8)%nat -> Rabs (iso_idct four_waves x y) <= 500.
Proof.
  split; [reflexivity|]. split; [reflexivity|]. intros x y Hx Hy. rewrite <- iso_exact.
  assert (W : forall z, (z < 8)%nat -> kw z 4 = 2048 \/ kw z 4 = - 2048).
  { intros z Hz. do 8 (destruct z as [|z]; [cbn [kw]; kk_numerals; kk_fold_all; rewrite kk4; lra|]). lia. }
  assert (R0 : row_out four_waves x 0 = (2048 * 1000 + 1000 * kw x 4) / 256).
  { unfold row_out. rewrite ex_kw. cbn [rsum]. unfold row_at, at8. cbn [nth Nat.mul Nat.add four_waves app repeat kw]. field. }
  assert (R4 : row_out four_waves x 4 = (2048 * 1000 - 1000 * kw x 4) / 256).
  { unfold row_out. rewrite ex_kw. cbn [rsum]. unfold row_at, at8. cbn [nth Nat.mul Nat.add four_waves app repeat kw]. field. }
  assert (RZ : forall v, (v < 8)%nat -> v <> 0%nat -> v <> 4%nat -> row_out four_waves x v = 0).
  { intros v Hv N0 N4. do 8 (destruct v as [|v]; [try congruence; unfold row_out; rewrite ex_kw; cbn [rsum]; unfold row_at, at8; cbn [nth Nat.mul Nat.add four_waves app repeat]; field|]). lia. }
  rewrite ex_kw. cbn [rsum]. rewrite R0, R4, !RZ by lia. change (kw y 0) with 2048.
  apply Rabs_le. destruct (W x Hx) as [-> | ->], (W y Hy) as [-> | ->]; lra.
Qed.
Example four_waves_sample : nth 0 (idct four_waves) 0%Z = 250%Z /\ IZR 250 = iso_idct four_waves 0 0.
Proof.
  split; [vm_compute; reflexivity|]. rewrite <- iso_exact, ex_kw. cbn [rsum]. unfold row_out. rewrite !ex_kw. cbn [rsum].
  unfold row_at, at8. cbn [nth Nat.mul Nat.add four_waves app repeat kw]. kk_numerals. rewrite kk4. field.
Qed.

Print Assumptions C74_accuracy.
Print Assumptions C74_adjacent.
Print Assumptions C74_small_coefficients.
Print Assumptions C45_no_overflow_in_range.
