(** DequantProofs: inverse scan, inverse quantisation, saturation, mismatch control, clamping. *)
From Verif Require Import Base BitReader VlcTables BlockModel SpecVid SpecVlc SpecBlock VlcProofs BlockProofs.

Lemma nth_map_combine : forall A B C (f : A * B -> C) a b i da db dc,
  (i < length a)%nat -> (i < length b)%nat ->
  nth i (map f (combine a b)) dc = f (nth i a da, nth i b db).
Proof.
  induction a; intros b i da db dc Ha Hb; [cbn in Ha; lia|].
  destruct b; [cbn in Hb; lia|]. destruct i; cbn; [reflexivity|].
  apply IHa; cbn in *; lia.
Qed.

Lemma nth_combine : forall A B (a : list A) (b : list B) i da db, length a = length b ->
  nth i (combine a b) (da, db) = (nth i a da, nth i b db).
Proof. intros. now rewrite combine_nth. Qed.

(** * Scans *)

Definition is_alt (alternate_scan : Z) : bool := negb (alternate_scan =? 0).

Lemma scan_length : forall alt, length (concat (scan alt)) = 64%nat.
Proof. intros. unfold scan. destruct (alt =? 0); reflexivity. Qed.

Lemma scan_positions_ok : forall alt, forallb (fun n => Nat.eqb (nth (nth n (scan_order alt) 0%nat) (concat (if alt then scan_1 else scan_0)) 0%nat) n)
  (seq 0 64) = true.
Proof. intros []; vm_compute; reflexivity. Qed.

Lemma order_perm_ok : forall alt, forallb (fun p => existsb (fun n => Nat.eqb (nth n (scan_order alt) 0%nat) p) (seq 0 64)) (seq 0 64) = true.
Proof. intros []; vm_compute; reflexivity. Qed.

Lemma order_range_ok : forall alt, forallb (fun n => Nat.ltb (nth n (scan_order alt) 0%nat) 64) (seq 0 64) = true.
Proof. intros []; vm_compute; reflexivity. Qed.

Lemma order_range : forall alt n, (n < 64)%nat -> (nth n (scan_order alt) 0 < 64)%nat.
Proof.
  intros alt n H. pose proof (order_range_ok alt) as Hf. rewrite forallb_forall in Hf.
  apply Nat.ltb_lt, (Hf n). apply in_seq. lia.
Qed.

Lemma order_surj : forall alt p, (p < 64)%nat -> exists n, (n < 64)%nat /\ nth n (scan_order alt) 0%nat = p.
Proof.
  intros alt p H. pose proof (order_perm_ok alt) as Hf. rewrite forallb_forall in Hf.
  specialize (Hf p). rewrite existsb_exists in Hf. destruct Hf as (n & Hn & E); [apply in_seq; lia|].
  apply in_seq in Hn. apply Nat.eqb_eq in E. exists n. split; [lia|exact E].
Qed.

Lemma scan_number : forall alt n, (n < 64)%nat ->
  nth (nth n (scan_order (is_alt alt)) 0%nat) (concat (scan alt)) 0%nat = n.
Proof.
  intros alt n H. pose proof (scan_positions_ok (is_alt alt)) as Hf. rewrite forallb_forall in Hf.
  specialize (Hf n). rewrite Nat.eqb_eq in Hf. unfold scan, is_alt in *.
  destruct (alt =? 0); apply Hf, in_seq; lia.
Qed.

Lemma order_inj : forall alt a b, (a < 64)%nat -> (b < 64)%nat ->
  nth a (scan_order alt) 0%nat = nth b (scan_order alt) 0%nat -> a = b.
Proof.
  intros alt a b Ha Hb E.
  assert (Hs : exists z, is_alt z = alt) by (exists (if alt then 1 else 0); destruct alt; reflexivity).
  destruct Hs as [z <-]. rewrite <- (scan_number z a Ha), E. now apply scan_number.
Qed.

Lemma inverse_scan_length : forall alt q, length (inverse_scan alt q) = 64%nat.
Proof. intros. unfold inverse_scan. now rewrite map_length, scan_length. Qed.

Lemma inverse_scan_at : forall alt q n, (n < 64)%nat ->
  nth (nth n (scan_order (is_alt alt)) 0%nat) (inverse_scan alt q) 0 = nth n q 0.
Proof.
  intros alt q n H. unfold inverse_scan.
  rewrite (nth_indep _ 0 (nth 0 q 0))
    by (rewrite map_length, scan_length; now apply order_range).
  rewrite (map_nth (fun n => nth n q 0)). now rewrite scan_number.
Qed.

(** * Inverse quantisation *)

Lemma qs_table : forall t code, 0 <= t <= 1 -> 0 <= code < 32 ->
  quantiser_scale t code = iso_quantiser_scale t code.
Proof.
  assert (H : forallb (fun c => (quantiser_scale 0 (Z.of_nat c) =? iso_quantiser_scale 0 (Z.of_nat c)) &&
                                (quantiser_scale 1 (Z.of_nat c) =? iso_quantiser_scale 1 (Z.of_nat c))) (seq 0 32) = true)
    by (vm_compute; reflexivity).
  intros t code Ht Hc. rewrite forallb_forall in H. specialize (H (Z.to_nat code)).
  rewrite Bool.andb_true_iff, !Z.eqb_eq in H. rewrite Z2Nat.id in H by lia.
  destruct H as [H0 H1]; [apply in_seq; lia|].
  assert (t = 0 \/ t = 1) as [->| ->] by lia; assumption.
Qed.

Lemma iso_qs_range : forall t code, 0 <= code < 32 -> 0 <= iso_quantiser_scale t code <= 112.
Proof.
  intros. unfold iso_quantiser_scale. destruct (t =? 0); [lia|].
  repeat match goal with |- context [?a <=? ?b] => destruct (Z.leb_spec a b) end; lia.
Qed.

Lemma sign_sgn : forall x, signInt32 x = Z.sgn x.
Proof.
  intros. unfold signInt32. destruct (Z.gtb_spec x 0), (Z.ltb_spec x 0); try lia.
Qed.

Lemma quot_abs_le : forall a b, 0 <= b -> Z.abs a <= b * 32 -> Z.abs (Z.quot a 32) <= b.
Proof.
  intros. rewrite <- (Z.quot_abs a 32) by lia. change (Z.abs 32) with 32.
  rewrite Z.quot_div_nonneg by lia. apply Z.div_le_upper_bound; lia.
Qed.

Definition in32 (x : Z) : Prop := -2147483648 <= x < 2147483648.

Lemma dequant1_iso : forall intra prec qs p w q,
  0 <= prec <= 3 -> 0 <= qs <= 112 -> 0 <= w < 256 ->
  (p = 0%nat -> intra = true -> -268435456 <= q < 268435456) ->
  (p <> 0%nat \/ intra = false -> -2048 <= q <= 2048) ->
  dequant1 intra prec qs p w q = iso_dequant intra prec qs p w q.
Proof.
  intros intra prec qs p w q Hp Hq Hw H0 H1. unfold dequant1, iso_dequant.
  destruct intra.
  - rewrite Bool.andb_true_r. destruct (Nat.eqb_spec p 0) as [->|Hn].
    + specialize (H0 eq_refl eq_refl).
      rewrite Z.shiftl_mul_pow2, Z.mul_1_l by lia.
      assert (2 ^ (3 - prec) = 8 \/ 2 ^ (3 - prec) = 4 \/ 2 ^ (3 - prec) = 2 \/ 2 ^ (3 - prec) = 1).
      { assert (prec = 0 \/ prec = 1 \/ prec = 2 \/ prec = 3) as [->|[->|[->| ->]]] by lia; auto. }
      rewrite (i32_small (2 ^ (3 - prec))) by lia. apply i32_small. nia.
    + specialize (H1 (or_introl Hn)).
      assert (-2048 * 255 <= q * w <= 2048 * 255) by nia.
      assert (-2048 * 255 * 112 <= q * w * qs <= 2048 * 255 * 112) by nia.
      rewrite (i32_small (q * w)) by lia. rewrite (i32_small (q * w * qs)) by lia.
      rewrite i32_small by lia. reflexivity.
  - rewrite Bool.andb_false_r. specialize (H1 (or_intror eq_refl)).
    rewrite sign_sgn. rewrite (i32_small (q * 2)) by lia.
    assert (-1 <= Z.sgn q <= 1) by lia.
    rewrite (i32_small (q * 2 + Z.sgn q)) by lia.
    assert (-4097 * 255 <= (q * 2 + Z.sgn q) * w <= 4097 * 255) by nia.
    assert (-4097 * 255 * 112 <= (q * 2 + Z.sgn q) * w * qs <= 4097 * 255 * 112) by nia.
    rewrite (i32_small ((q * 2 + Z.sgn q) * w)) by lia.
    rewrite i32_small by lia. f_equal. ring.
Qed.

Lemma saturate_iso : forall x, saturate x = iso_saturate x.
Proof. intros. unfold saturate, iso_saturate. destruct (Z.gtb_spec x 2047), (Z.ltb_spec x (-2048)); lia. Qed.

Lemma dequant_length : forall intra prec qs W Q, length W = 64%nat -> length Q = 64%nat ->
  length (dequant intra prec qs W Q) = 64%nat.
Proof.
  intros. unfold dequant. rewrite map_length, combine_length, combine_length, seq_length. lia.
Qed.

Lemma dequant_at : forall intra prec qs W Q p, length W = 64%nat -> length Q = 64%nat -> (p < 64)%nat ->
  nth p (dequant intra prec qs W Q) 0 = dequant1 intra prec qs p (nth p W 0) (nth p Q 0).
Proof.
  intros intra prec qs W Q p HW HQ Hp. unfold dequant.
  rewrite (nth_map_combine _ _ _ _ _ _ p 0%nat (0, 0) 0);
    [|rewrite seq_length; lia|rewrite combine_length; lia].
  rewrite seq_nth by lia. rewrite nth_combine by lia. reflexivity.
Qed.

(** * Sums and mismatch control *)

Lemma sum_app : forall a b, sum (a ++ b) = sum a + sum b.
Proof. unfold sum. induction a; intros; cbn; [lia|]. rewrite IHa. lia. Qed.

Lemma i32_parity : forall x, Z.odd (i32 x) = Z.odd x.
Proof.
  intros. unfold i32. rewrite Z.odd_sub. rewrite Bool.xorb_comm. cbn [Z.odd].
  rewrite <- Z.bit0_odd, <- (Z.bit0_odd x).
  change 4294967296 with (2 ^ 32). rewrite Z.mod_pow2_bits_low by lia.
  rewrite !Z.bit0_odd. rewrite Z.odd_add. cbn [Z.odd]. destruct (Z.odd x); reflexivity.
Qed.

Lemma isum_parity : forall l, Z.odd (isum l) = Z.odd (sum l).
Proof.
  assert (H : forall l a, Z.odd (fold_left (fun a x => i32 (a + x)) l a) = Z.odd (a + sum l)).
  { induction l as [|x l IH]; intros a; cbn [fold_left sum fold_right].
    - now rewrite Z.add_0_r.
    - rewrite IH. rewrite Z.odd_add, i32_parity, Z.odd_add. cbn [sum].
      change (fold_right Z.add 0 l) with (sum l). rewrite !Z.odd_add. now rewrite Bool.xorb_assoc. }
  intros. unfold isum. rewrite H. reflexivity.
Qed.

Lemma mismatch_eq : forall F, (length F = 64)%nat -> -2147483647 <= nth 63 F 0 < 2147483647 ->
  mismatch F = if Z.odd (sum F) then F
               else set_nth 63 (if Z.odd (nth 63 F 0) then nth 63 F 0 - 1 else nth 63 F 0 + 1) F.
Proof.
  intros F HF Hr. unfold mismatch. rewrite <- Z.negb_odd, isum_parity. destruct (Z.odd (sum F)); [reflexivity|].
  cbn [negb]. cbv zeta. rewrite !i32_small by lia. reflexivity.
Qed.

Lemma sum_set_nth : forall l i v, (i < length l)%nat -> sum (set_nth i v l) = sum l - nth i l 0 + v.
Proof.
  unfold sum. induction l; intros i v H; [cbn in H; lia|].
  destruct i; cbn [set_nth fold_right nth]; [lia|]. rewrite IHl by (cbn in H; lia). lia.
Qed.

Lemma mismatch_odd : forall F, (length F = 64)%nat -> -2147483647 <= nth 63 F 0 < 2147483647 ->
  Z.odd (sum (mismatch F)) = true.
Proof.
  intros F HF Hr. rewrite mismatch_eq by assumption. destruct (Z.odd (sum F)) eqn:E; [exact E|].
  rewrite sum_set_nth by lia. destruct (Z.odd (nth 63 F 0)).
  - replace (sum F - nth 63 F 0 + (nth 63 F 0 - 1)) with (sum F - 1) by lia.
    rewrite Z.odd_sub, E. reflexivity.
  - replace (sum F - nth 63 F 0 + (nth 63 F 0 + 1)) with (sum F + 1) by lia.
    rewrite Z.odd_add, E. reflexivity.
Qed.

(** * Clamping *)
Lemma clamp1_spec : forall x, clamp1 x = Z.max 0 (Z.min 255 x).
Proof.
  intros. unfold clamp1. destruct (Z.gtb_spec x 255); [lia|]. destruct (Z.ltb_spec x 0); [lia|].
  unfold u8. rewrite Z.mod_small; lia.
Qed.

(** The sum does not depend on the order. *)
Lemma sum_reorder : forall alt G, length G = 64%nat ->
  sum G = sum (map (fun k => nth (nth k (scan_order alt) 0%nat) G 0) (seq 0 64)).
Proof.
  intros alt G H. do 64 (destruct G as [|? G]; [discriminate|]). destruct G; [|discriminate].
  destruct alt; unfold sum; cbv [map seq scan_order alternate_order]; 
  (match goal with |- context [zigzag] => let z := eval vm_compute in zigzag in change zigzag with z | _ => idtac end);
  cbn [nth fold_right]; ring.
Qed.
