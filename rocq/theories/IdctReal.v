(** IdctReal: how far the integer inverse DCT is from the exact one (C74). *)
From Coq Require Import Reals Lra Lia List ZArith Psatz.
From Verif Require Import Base BlockModel SpecIdct IdctProofs.
Open Scope R_scope.

(** * The cosines *)
Definition ck (n : Z) : R := cos (IZR n * PI / 16).
Lemma ck_neg : forall n, ck (- n) = ck n.
Proof. intro n. unfold ck. rewrite opp_IZR. replace (- IZR n * PI / 16) with (- (IZR n * PI / 16)) by field. apply cos_neg. Qed.
Lemma ck_half : forall n, ck (16 + n) = - ck n.
Proof. intro n. unfold ck. rewrite plus_IZR. replace ((16 + IZR n) * PI / 16) with (IZR n * PI / 16 + PI) by field. apply neg_cos. Qed.
Lemma ck_flip : forall n, ck (16 - n) = - ck n.
Proof. intro n. replace (16 - n)%Z with (16 + - n)%Z by lia. now rewrite ck_half, ck_neg. Qed.
Lemma ck_back : forall n, ck (n + 16) = - ck n.
Proof. intro n. rewrite Z.add_comm. apply ck_half. Qed.
Lemma ck_sq : forall n, 2 * (ck n * ck n) = 1 + ck (2 * n).
Proof.
  intro n. unfold ck. rewrite mult_IZR. replace (2 * IZR n * PI / 16) with (2 * (IZR n * PI / 16)) by field. rewrite cos_2a_cos. ring.
Qed.
Lemma ck_pos : forall n, (0 <= n < 8)%Z -> 0 < ck n.
Proof.
  intros n [H0 H1]. unfold ck. apply IZR_le in H0. apply IZR_lt in H1. pose proof PI_RGT_0. apply cos_gt_0.
  - apply Rlt_le_trans with 0; [lra|]. apply Rmult_le_pos; [|lra]. apply Rmult_le_pos; lra.
  - unfold Rdiv. nra.
Qed.

Definition q : R := sqrt 2.
Lemma q_sq : q * q = 2.
Proof. unfold q. apply sqrt_sqrt. lra. Qed.
Lemma q_pos : 0 < q.
Proof. unfold q. apply sqrt_lt_R0. lra. Qed.
Lemma between_sq : forall x lo hi, 0 < x -> 0 <= hi -> lo * lo <= x * x -> x * x <= hi * hi -> lo <= x <= hi.
Proof. intros. split; nra. Qed.
Lemma q_in : 1414213562 / 1000000000 <= q <= 1414213563 / 1000000000.
Proof. apply between_sq; [apply q_pos | lra | rewrite q_sq; lra | rewrite q_sq; lra]. Qed.

Definition kk (n : Z) : R := 2048 * q * ck n.
Lemma kk_sq : forall n, kk n * kk n = 2048 * 2048 * (1 + ck (2 * n)).
Proof. intro n. unfold kk. rewrite <- ck_sq. replace (2048 * q * ck n * (2048 * q * ck n)) with (2048 * 2048 * (q * q) * (ck n * ck n)) by ring. rewrite q_sq. ring. Qed.
Lemma kk_pos : forall n, (0 <= n < 8)%Z -> 0 < kk n.
Proof. intros n H. unfold kk. pose proof (ck_pos n H). pose proof q_pos. apply Rmult_lt_0_compat; [lra | assumption]. Qed.
Lemma ck4 : ck 4 = q / 2.
Proof. pose proof (ck_sq 4) as H. pose proof (ck_flip 8) as F. change (16 - 8)%Z with 8%Z in F. change (2 * 4)%Z with 8%Z in H.
  pose proof (ck_pos 4 ltac:(lia)). pose proof q_pos. pose proof q_sq. assert (E : ck 8 = 0) by lra. rewrite E in H. nra. Qed.
Lemma kk4 : kk 4 = 2048.
Proof. unfold kk. rewrite ck4. pose proof q_sq. replace (2048 * q * (q / 2)) with (1024 * (q * q)) by field. rewrite q_sq. lra. Qed.
Lemma ck2_in : 9238795 / 10000000 <= ck 2 <= 9238796 / 10000000.
Proof. pose proof (ck_sq 2) as H. change (2 * 2)%Z with 4%Z in H. rewrite ck4 in H. pose proof q_in. apply between_sq; [apply ck_pos; lia | lra | lra | lra]. Qed.
Lemma ck6_in : 3826834 / 10000000 <= ck 6 <= 3826835 / 10000000.
Proof. pose proof (ck_sq 6) as H. change (2 * 6)%Z with (16 - 4)%Z in H. rewrite ck_flip, ck4 in H. pose proof q_in. apply between_sq; [apply ck_pos; lia | lra | lra | lra]. Qed.
Lemma kk2_in : 267584 / 100 <= kk 2 <= 267585 / 100.
Proof. unfold kk. pose proof q_in. pose proof ck2_in. split; nra. Qed.
Lemma kk6_in : 110836 / 100 <= kk 6 <= 110837 / 100.
Proof. unfold kk. pose proof q_in. pose proof ck6_in. split; nra. Qed.
Lemma kk1_in : 284065 / 100 <= kk 1 <= 284066 / 100.
Proof. pose proof (kk_sq 1) as H. change (2 * 1)%Z with 2%Z in H. pose proof ck2_in. apply between_sq; [apply kk_pos; lia | lra | lra | lra]. Qed.
Lemma kk7_in : 56504 / 100 <= kk 7 <= 56505 / 100.
Proof. pose proof (kk_sq 7) as H. change (2 * 7)%Z with (16 - 2)%Z in H. rewrite ck_flip in H. pose proof ck2_in. apply between_sq; [apply kk_pos; lia | lra | lra | lra]. Qed.
Lemma kk3_in : 240819 / 100 <= kk 3 <= 240820 / 100.
Proof. pose proof (kk_sq 3) as H. change (2 * 3)%Z with 6%Z in H. pose proof ck6_in. apply between_sq; [apply kk_pos; lia | lra | lra | lra]. Qed.
Lemma kk5_in : 160910 / 100 <= kk 5 <= 160911 / 100.
Proof. pose proof (kk_sq 5) as H. change (2 * 5)%Z with (16 - 6)%Z in H. rewrite ck_flip in H. pose proof ck6_in. apply between_sq; [apply kk_pos; lia | lra | lra | lra]. Qed.

(** * Reduction of the angles *)
Lemma ck_period : forall n k, ck (n + 32 * Z.of_nat k) = ck n.
Proof.
  intros n k. unfold ck. rewrite plus_IZR, mult_IZR, <- INR_IZR_INZ.
  replace ((IZR n + 32 * INR k) * PI / 16) with (IZR n * PI / 16 + 2 * INR k * PI) by field. apply cos_period.
Qed.
Definition fold16 (n : Z) : Z := let m := (n mod 32)%Z in if (16 <? m)%Z then (32 - m)%Z else m.
Definition fold8 (n : Z) : bool * Z := let m := fold16 n in if (8 <? m)%Z then (true, (16 - m)%Z) else (false, m).
Lemma ck_fold : forall n, (0 <= n)%Z -> ck n = (if fst (fold8 n) then - ck (snd (fold8 n)) else ck (snd (fold8 n))).
Proof.
  intros n Hn. assert (E : ck n = ck (fold16 n)).
  { unfold fold16. cbv zeta. pose proof (Z.div_mod n 32 ltac:(lia)) as D. pose proof (Z.div_pos n 32 Hn ltac:(lia)) as P.
    assert (E : ck n = ck (n mod 32)). { rewrite D at 1. rewrite Z.add_comm. rewrite <- (Z2Nat.id (n / 32)) by assumption. apply ck_period. }
    rewrite E. destruct (16 <? n mod 32)%Z; [|reflexivity].
    replace (32 - n mod 32)%Z with (- (n mod 32) + 32 * Z.of_nat 1)%Z by lia. now rewrite ck_period, ck_neg. }
  rewrite E. unfold fold8. cbv zeta. destruct (8 <? fold16 n)%Z; cbn [fst snd]; [|reflexivity]. rewrite ck_flip. ring.
Qed.
Lemma kk_fold : forall n, (0 <= n)%Z -> kk n = (if fst (fold8 n) then - kk (snd (fold8 n)) else kk (snd (fold8 n))).
Proof. intros n Hn. unfold kk. rewrite (ck_fold n Hn). destruct (fst (fold8 n)); ring. Qed.
Ltac kk_fold_at n := let e := eval vm_compute in (fold8 n) in
  match e with (?s, ?m) => first [ constr_eq n m | rewrite (kk_fold n ltac:(lia)); change (fold8 n) with (s, m); cbn [fst snd]; cbv iota ] end.
Ltac kk_fold_all := repeat match goal with |- context [kk ?n] =>
  let e := eval vm_compute in (fold8 n) in match e with (?s, ?m) => tryif constr_eq n m then fail else (rewrite (kk_fold n ltac:(lia)); change (fold8 n) with (s, m); cbn [fst snd]; cbv iota) end end.

(** * One row *)
Lemma prod_in : forall s a d e, - a <= s <= a -> - e <= d <= e -> - (e * a) <= s * d <= e * a.
Proof. intros s a d e H1 H2. assert (0 <= a) by lra. assert (0 <= e) by lra. split; nra. Qed.
Lemma div_IZR : forall x k, (0 < k)%Z -> IZR k * IZR (x / k) <= IZR x < IZR k * IZR (x / k) + IZR k.
Proof.
  intros x k H. destruct (div_bounds x k H) as [H1 H2]. apply IZR_le in H1. apply IZR_lt in H2. rewrite mult_IZR in H1. rewrite plus_IZR, mult_IZR in H2. split; assumption.
Qed.
(** 2048 times the exact row, at x *)
Definition exact8 (x : Z) (s0 s1 s2 s3 s4 s5 s6 s7 : R) : R :=
  2048 * s0 + s1 * kk ((2 * x + 1) * 1) + s2 * kk ((2 * x + 1) * 2) + s3 * kk ((2 * x + 1) * 3) + s4 * kk ((2 * x + 1) * 4) +
  s5 * kk ((2 * x + 1) * 5) + s6 * kk ((2 * x + 1) * 6) + s7 * kk ((2 * x + 1) * 7).
Definition e0 : R := 52 / 100.
(** The coefficients of the integer transform *)
Definition weight (x u : nat) : R := match x, u with
  | 0%nat, 1%nat => 2841  | 0%nat, 2%nat => 2676  | 0%nat, 3%nat => 2408  | 0%nat, 4%nat => 2048  | 0%nat, 5%nat => 1609  | 0%nat, 6%nat => 1108  | 0%nat, 7%nat => 565
  | 1%nat, 1%nat => (308243 / 128)  | 1%nat, 2%nat => 1108  | 1%nat, 3%nat => (- (144619 / 256))  | 1%nat, 4%nat => (- 2048)  | 1%nat, 5%nat => (- (727077 / 256))  | 1%nat, 6%nat => (- 2676)  | 1%nat, 7%nat => (- (102989 / 64))
  | 2%nat, 1%nat => (102989 / 64)  | 2%nat, 2%nat => (- 1108)  | 2%nat, 3%nat => (- (727077 / 256))  | 2%nat, 4%nat => (- 2048)  | 2%nat, 5%nat => (144619 / 256)  | 2%nat, 6%nat => 2676  | 2%nat, 7%nat => (308243 / 128)
  | 3%nat, 1%nat => 565  | 3%nat, 2%nat => (- 2676)  | 3%nat, 3%nat => (- 1609)  | 3%nat, 4%nat => 2048  | 3%nat, 5%nat => 2408  | 3%nat, 6%nat => (- 1108)  | 3%nat, 7%nat => (- 2841)
  | 4%nat, 1%nat => (- 565)  | 4%nat, 2%nat => (- 2676)  | 4%nat, 3%nat => 1609  | 4%nat, 4%nat => 2048  | 4%nat, 5%nat => (- 2408)  | 4%nat, 6%nat => (- 1108)  | 4%nat, 7%nat => 2841
  | 5%nat, 1%nat => (- (102989 / 64))  | 5%nat, 2%nat => (- 1108)  | 5%nat, 3%nat => (727077 / 256)  | 5%nat, 4%nat => (- 2048)  | 5%nat, 5%nat => (- (144619 / 256))  | 5%nat, 6%nat => 2676  | 5%nat, 7%nat => (- (308243 / 128))
  | 6%nat, 1%nat => (- (308243 / 128))  | 6%nat, 2%nat => 1108  | 6%nat, 3%nat => (144619 / 256)  | 6%nat, 4%nat => (- 2048)  | 6%nat, 5%nat => (727077 / 256)  | 6%nat, 6%nat => (- 2676)  | 6%nat, 7%nat => (102989 / 64)
  | 7%nat, 1%nat => (- 2841)  | 7%nat, 2%nat => 2676  | 7%nat, 3%nat => (- 2408)  | 7%nat, 4%nat => 2048  | 7%nat, 5%nat => (- 1609)  | 7%nat, 6%nat => 1108  | 7%nat, 7%nat => (- 565)
  | _, O => 2048 | _, _ => 0 end.
Ltac kks := pose proof kk1_in; pose proof kk2_in; pose proof kk3_in; pose proof kk4; pose proof kk5_in; pose proof kk6_in; pose proof kk7_in.
Lemma weight_near : forall x u, (x < 8)%nat -> (1 <= u < 8)%nat -> - e0 <= kk ((2 * Z.of_nat x + 1) * Z.of_nat u) - weight x u <= e0.
Proof.
  intros x u Hx Hu. kks. unfold e0.
  do 8 (destruct x as [|x]; [do 8 (destruct u as [|u]; [try lia; cbn [weight];
    match goal with |- context [kk ?n] => let v := eval vm_compute in n in change n with v end; kk_fold_all; lra|]); lia|]). lia.
Qed.

Definition weighted (x : nat) (s0 s1 s2 s3 s4 s5 s6 s7 : R) : R :=
  2048 * s0 + weight x 1 * s1 + weight x 2 * s2 + weight x 3 * s3 + weight x 4 * s4 + weight x 5 * s5 + weight x 6 * s6 + weight x 7 * s7.
(** Rewriting IZR of an expression *)
Ltac izr H := repeat first [rewrite plus_IZR in H | rewrite minus_IZR in H | rewrite mult_IZR in H | rewrite opp_IZR in H].
Ltac quotients := repeat match goal with |- context [IZR (?x / ?k)] =>
  let D := fresh "D" in pose proof (div_IZR x k ltac:(lia)) as D; let z := fresh "z" in set (z := (x / k)%Z) in *; clearbody z end.
Ltac quotients_in := repeat match goal with
  | H : context [IZR ?e] |- _ => match e with context [(?x / ?k)%Z] =>
      let D := fresh "D" in pose proof (div_IZR x k ltac:(lia)) as D; let z := fresh "z" in set (z := (x / k)%Z) in *; clearbody z end end.
Ltac izr_all := repeat match goal with H : context [IZR ?e] |- _ => progress izr H end.
Lemma row_weights : forall s0 s1 s2 s3 s4 s5 s6 s7 x, (x < 8)%nat ->
  - (1285 / 10) <= 256 * IZR (nth x (zrow s0 s1 s2 s3 s4 s5 s6 s7) 0%Z) - weighted x (IZR s0) (IZR s1) (IZR s2) (IZR s3) (IZR s4) (IZR s5) (IZR s6) (IZR s7) <= 1285 / 10.
Proof.
  intros s0 s1 s2 s3 s4 s5 s6 s7 x Hx. unfold zrow.
  destruct ((s1 =? 0) && (s2 =? 0) && (s3 =? 0) && (s4 =? 0) && (s5 =? 0) && (s6 =? 0) && (s7 =? 0))%Z%bool eqn:E.
  - repeat (apply andb_prop in E; destruct E as [E ?]). repeat match goal with H : (_ =? 0)%Z = true |- _ => apply Z.eqb_eq in H; subst end.
    assert (N : nth x (repeat (s0 * 8)%Z 8) 0%Z = (s0 * 8)%Z) by (do 8 (destruct x as [|x]; [reflexivity|]); lia).
    rewrite N. unfold weighted. rewrite mult_IZR. lra.
  - clear E. cbv zeta. unfold w1mw7, w1pw7, w2mw6, w2pw6, w3mw5, w3pw5, w1, w2, w3, w5, w6, w7, r2, weighted.
    do 8 (destruct x as [|x]; [cbn [nth weight]; quotients; quotients_in; izr_all; lra|]). lia.
Qed.
Lemma col_weights : forall s0 s1 s2 s3 s4 s5 s6 s7 x, (x < 8)%nat ->
  - 8197 <= 16384 * IZR (nth x (zcol s0 s1 s2 s3 s4 s5 s6 s7) 0%Z) - weighted x (IZR s0) (IZR s1) (IZR s2) (IZR s3) (IZR s4) (IZR s5) (IZR s6) (IZR s7) / 8 <= 8197.
Proof.
  intros s0 s1 s2 s3 s4 s5 s6 s7 x Hx. unfold zcol.
  cbv zeta. unfold w1mw7, w1pw7, w2mw6, w2pw6, w3mw5, w3pw5, w1, w2, w3, w5, w6, w7, r2, weighted.
  do 8 (destruct x as [|x]; [cbn [nth weight]; quotients; quotients_in; izr_all; lra|]). lia.
Qed.

(** * Rows and columns together *)
Definition ex (x : nat) (s : nat -> R) : R :=
  2048 * s 0%nat + (s 1%nat * kk ((2 * Z.of_nat x + 1) * 1) + s 2%nat * kk ((2 * Z.of_nat x + 1) * 2) + s 3%nat * kk ((2 * Z.of_nat x + 1) * 3) +
  s 4%nat * kk ((2 * Z.of_nat x + 1) * 4) + s 5%nat * kk ((2 * Z.of_nat x + 1) * 5) + s 6%nat * kk ((2 * Z.of_nat x + 1) * 6) + s 7%nat * kk ((2 * Z.of_nat x + 1) * 7)).
Definition ac (s : nat -> R) : R := Rabs (s 1%nat) + Rabs (s 2%nat) + Rabs (s 3%nat) + Rabs (s 4%nat) + Rabs (s 5%nat) + Rabs (s 6%nat) + Rabs (s 7%nat).
Lemma abs_in : forall x, - Rabs x <= x <= Rabs x.
Proof. intro x. pose proof (Rle_abs x). pose proof (Rle_abs (- x)) as H0. rewrite Rabs_Ropp in H0. lra. Qed.
Lemma weighted_near : forall x s, (x < 8)%nat ->
  - (e0 * ac s) <= weighted x (s 0%nat) (s 1%nat) (s 2%nat) (s 3%nat) (s 4%nat) (s 5%nat) (s 6%nat) (s 7%nat) - ex x s <= e0 * ac s.
Proof.
  intros x s Hx. unfold weighted, ex, ac.
  assert (P : forall u, (1 <= u < 8)%nat -> - (e0 * Rabs (s u)) <= s u * (kk ((2 * Z.of_nat x + 1) * Z.of_nat u) - weight x u) <= e0 * Rabs (s u)).
  { intros u Hu. apply prod_in; [apply abs_in | apply weight_near; assumption]. }
  pose proof (P 1%nat ltac:(lia)) as P1. pose proof (P 2%nat ltac:(lia)) as P2. pose proof (P 3%nat ltac:(lia)) as P3. pose proof (P 4%nat ltac:(lia)) as P4.
  pose proof (P 5%nat ltac:(lia)) as P5. pose proof (P 6%nat ltac:(lia)) as P6. pose proof (P 7%nat ltac:(lia)) as P7.
  cbn [Z.of_nat Pos.of_succ_nat Pos.succ] in *. unfold e0 in *. lra.
Qed.
(** No cosine is larger than the first. *)
Definition m0 : R := 284066 / 100.
Lemma kk_small : forall x u, (x < 8)%nat -> (1 <= u < 8)%nat -> - m0 <= kk ((2 * Z.of_nat x + 1) * Z.of_nat u) <= m0.
Proof.
  intros x u Hx Hu. kks. unfold m0.
  do 8 (destruct x as [|x]; [do 8 (destruct u as [|u]; [try lia;
    match goal with |- context [kk ?n] => let v := eval vm_compute in n in change n with v end; kk_fold_all; lra|]); lia|]). lia.
Qed.
Lemma ex_small : forall x s, (x < 8)%nat -> - (2048 * Rabs (s 0%nat) + m0 * ac s) <= ex x s <= 2048 * Rabs (s 0%nat) + m0 * ac s.
Proof.
  intros x s Hx. unfold ex, ac.
  assert (P : forall u, (1 <= u < 8)%nat -> - (m0 * Rabs (s u)) <= s u * kk ((2 * Z.of_nat x + 1) * Z.of_nat u) <= m0 * Rabs (s u)).
  { intros u Hu. apply prod_in; [apply abs_in | apply kk_small; assumption]. }
  pose proof (P 1%nat ltac:(lia)) as P1. pose proof (P 2%nat ltac:(lia)) as P2. pose proof (P 3%nat ltac:(lia)) as P3. pose proof (P 4%nat ltac:(lia)) as P4.
  pose proof (P 5%nat ltac:(lia)) as P5. pose proof (P 6%nat ltac:(lia)) as P6. pose proof (P 7%nat ltac:(lia)) as P7. pose proof (abs_in (s 0%nat)).
  cbn [Z.of_nat Pos.of_succ_nat Pos.succ] in *. unfold m0 in *. lra.
Qed.
Lemma ex_minus : forall x s t, ex x (fun v => s v - t v) = ex x s - ex x t.
Proof. intros. unfold ex. ring. Qed.

(** The exact values of the rows, and of the columns over them *)
Definition row_at (b : block) (v : nat) (u : nat) : R := IZR (at8 b v u).
Definition row_out (b : block) (x v : nat) : R := ex x (row_at b v) / 256.
Lemma row_near : forall b v x, (v < 8)%nat -> (x < 8)%nat ->
  Rabs (IZR (at8 (zrows b) v x) - row_out b x v) <= (1285 / 10 + e0 * ac (row_at b v)) / 256.
Proof.
  intros b v x Hv Hx. rewrite at8_zrows by assumption. unfold apply8, row_out.
  pose proof (row_weights (at8 b v 0) (at8 b v 1) (at8 b v 2) (at8 b v 3) (at8 b v 4) (at8 b v 5) (at8 b v 6) (at8 b v 7) x Hx) as W.
  pose proof (weighted_near x (row_at b v) Hx) as N. change (IZR (at8 b v 0)) with (row_at b v 0%nat) in W. change (IZR (at8 b v 1)) with (row_at b v 1%nat) in W. change (IZR (at8 b v 2)) with (row_at b v 2%nat) in W. change (IZR (at8 b v 3)) with (row_at b v 3%nat) in W. change (IZR (at8 b v 4)) with (row_at b v 4%nat) in W. change (IZR (at8 b v 5)) with (row_at b v 5%nat) in W. change (IZR (at8 b v 6)) with (row_at b v 6%nat) in W. change (IZR (at8 b v 7)) with (row_at b v 7%nat) in W. apply Rabs_le. unfold e0 in *. lra.
Qed.
Lemma ac_IZR : forall b v, ac (row_at b v) = IZR (rowabs b v) - Rabs (row_at b v 0).
Proof. intros. unfold ac, row_at, rowabs. rewrite !plus_IZR, !abs_IZR. ring. Qed.
Lemma zidct_near : forall b x y, length b = 64%nat -> (x < 8)%nat -> (y < 8)%nat ->
  Rabs (IZR (at8 (zidct b) y x) - ex y (row_out b x) / (8 * 16384)) <= 585 / 1000 + IZR (acsum b) / 11000.
Proof.
  intros b x y HL Hx Hy. unfold zidct. rewrite at8_zcols by assumption. unfold apply8.
  set (r := fun v => IZR (at8 (zrows b) v x)). set (d := fun v => r v - row_out b x v).
  pose proof (col_weights (at8 (zrows b) 0 x) (at8 (zrows b) 1 x) (at8 (zrows b) 2 x) (at8 (zrows b) 3 x) (at8 (zrows b) 4 x) (at8 (zrows b) 5 x) (at8 (zrows b) 6 x) (at8 (zrows b) 7 x) y Hy) as W.
  pose proof (weighted_near y r Hy) as N. change (IZR (at8 (zrows b) 0 x)) with (r 0%nat) in W. change (IZR (at8 (zrows b) 1 x)) with (r 1%nat) in W. change (IZR (at8 (zrows b) 2 x)) with (r 2%nat) in W. change (IZR (at8 (zrows b) 3 x)) with (r 3%nat) in W. change (IZR (at8 (zrows b) 4 x)) with (r 4%nat) in W. change (IZR (at8 (zrows b) 5 x)) with (r 5%nat) in W. change (IZR (at8 (zrows b) 6 x)) with (r 6%nat) in W. change (IZR (at8 (zrows b) 7 x)) with (r 7%nat) in W.
  pose proof (ex_small y d Hy) as D. replace (ex y d) with (ex y r - ex y (row_out b x)) in D by (symmetry; apply ex_minus).
  assert (ND : forall v, (v < 8)%nat -> Rabs (d v) <= (1285 / 10 + e0 * (IZR (rowabs b v) - Rabs (row_at b v 0))) / 256).
  { intros v Hv. rewrite <- ac_IZR. apply row_near; assumption. }
  assert (NR : forall v, (v < 8)%nat -> Rabs (r v) <= (1285 / 10 + 285 / 100 * 1000 * IZR (rowabs b v)) / 256).
  { intros v Hv. specialize (ND v Hv). pose proof (ex_small x (row_at b v) Hx) as S. rewrite ac_IZR in S. pose proof (abs_in (d v)) as A.
    replace (r v) with (d v + ex x (row_at b v) / 256) by (unfold d, row_out; ring). pose proof (Rabs_pos (row_at b v 0)). 
    assert (0 <= IZR (rowabs b v)) by (apply IZR_le; apply rowabs_nonneg).
    assert (Rabs (row_at b v 0) <= IZR (rowabs b v)). { rewrite <- (Rplus_0_r (Rabs _)). pose proof (ac_IZR b v) as E. assert (0 <= ac (row_at b v)) by (unfold ac; repeat apply Rplus_le_le_0_compat; apply Rabs_pos). lra. }
    apply Rabs_le. unfold e0, m0 in *. lra. }
  assert (AS : IZR (acsum b) = IZR (rowabs b 0) - Rabs (row_at b 0 0) + IZR (rowabs b 1) + IZR (rowabs b 2) + IZR (rowabs b 3) + IZR (rowabs b 4) + IZR (rowabs b 5) + IZR (rowabs b 6) + IZR (rowabs b 7)).
  { rewrite acsum_rows by assumption. rewrite !plus_IZR, minus_IZR. unfold row_at. now rewrite abs_IZR. }
  assert (PR : forall v, 0 <= IZR (rowabs b v)) by (intro; apply IZR_le; apply rowabs_nonneg).
  assert (P0 : 0 <= IZR (rowabs b 0) - Rabs (row_at b 0 0)) by (rewrite <- ac_IZR; unfold ac; repeat apply Rplus_le_le_0_compat; apply Rabs_pos).
  assert (PA : forall v, 0 <= Rabs (row_at b v 0)) by (intro; apply Rabs_pos).
  pose proof (ND 0%nat ltac:(lia)) as D0. pose proof (ND 1%nat ltac:(lia)) as D1. pose proof (ND 2%nat ltac:(lia)) as D2. pose proof (ND 3%nat ltac:(lia)) as D3.
  pose proof (ND 4%nat ltac:(lia)) as D4. pose proof (ND 5%nat ltac:(lia)) as D5. pose proof (ND 6%nat ltac:(lia)) as D6. pose proof (ND 7%nat ltac:(lia)) as D7.
  pose proof (NR 1%nat ltac:(lia)) as R1. pose proof (NR 2%nat ltac:(lia)) as R2. pose proof (NR 3%nat ltac:(lia)) as R3.
  pose proof (NR 4%nat ltac:(lia)) as R4. pose proof (NR 5%nat ltac:(lia)) as R5. pose proof (NR 6%nat ltac:(lia)) as R6. pose proof (NR 7%nat ltac:(lia)) as R7.
  pose proof (PR 1%nat). pose proof (PR 2%nat). pose proof (PR 3%nat). pose proof (PR 4%nat). pose proof (PR 5%nat). pose proof (PR 6%nat). pose proof (PR 7%nat).
  pose proof (PA 1%nat). pose proof (PA 2%nat). pose proof (PA 3%nat). pose proof (PA 4%nat). pose proof (PA 5%nat). pose proof (PA 6%nat). pose proof (PA 7%nat).
  unfold ac in N, D. clear ND NR PR PA. apply Rabs_le. unfold e0, m0 in *.
  lra.
Qed.

(** * The exact transform *)
Definition wt (x u : nat) : R := scale u * basis x u.
Lemma kk_wt : forall x u, (u <> 0)%nat -> kk ((2 * Z.of_nat x + 1) * Z.of_nat u) = 2048 * q * wt x u.
Proof.
  intros x u Hu. unfold kk, ck, wt, scale, basis. destruct u; [congruence|]. rewrite mult_IZR, plus_IZR, mult_IZR, <- !INR_IZR_INZ. ring.
Qed.
Lemma q_wt0 : forall x, q * wt x 0 = 1.
Proof.
  intro x. unfold wt, scale, basis. change (INR 0) with 0. replace ((2 * INR x + 1) * 0 * PI / 16) with 0 by field. rewrite cos_0. fold q. pose proof q_pos. field. lra.
Qed.
Lemma ex_sum : forall x s, ex x s = 2048 * q * rsum 8 (fun u => wt x u * s u).
Proof.
  intros x s. unfold ex. cbn [rsum].
  pose proof (kk_wt x 1 ltac:(lia)) as E1. pose proof (kk_wt x 2 ltac:(lia)) as E2. pose proof (kk_wt x 3 ltac:(lia)) as E3. pose proof (kk_wt x 4 ltac:(lia)) as E4.
  pose proof (kk_wt x 5 ltac:(lia)) as E5. pose proof (kk_wt x 6 ltac:(lia)) as E6. pose proof (kk_wt x 7 ltac:(lia)) as E7. pose proof (q_wt0 x) as E0.
  cbn [Z.of_nat Pos.of_succ_nat Pos.succ] in *. rewrite E1, E2, E3, E4, E5, E6, E7.
  replace (2048 * s 0%nat) with (2048 * (q * wt x 0) * s 0%nat) by (rewrite E0; ring). ring.
Qed.
Lemma rsum_scale : forall n c f, rsum n (fun u => c * f u) = c * rsum n f.
Proof. induction n; intros c f; cbn [rsum]; [ring|]. rewrite IHn. ring. Qed.
Lemma rsum_ext : forall n f g, (forall u, (u < n)%nat -> f u = g u) -> rsum n f = rsum n g.
Proof. induction n; intros f g H; cbn [rsum]; [reflexivity|]. rewrite (IHn f g), (H n) by auto. reflexivity. Qed.
Lemma rsum_plus : forall n f g, rsum n (fun u => f u + g u) = rsum n f + rsum n g.
Proof. induction n; intros f g; cbn [rsum]; [ring|]. rewrite IHn. ring. Qed.
Lemma rsum_zero : forall n, rsum n (fun _ => 0) = 0.
Proof. induction n; cbn [rsum]; [ring|]. rewrite IHn. ring. Qed.
Lemma rsum_swap : forall n m f, rsum n (fun u => rsum m (fun v => f u v)) = rsum m (fun v => rsum n (fun u => f u v)).
Proof.
  induction n; intros m f; cbn [rsum]; [symmetry; apply rsum_zero|]. rewrite IHn, <- rsum_plus. reflexivity.
Qed.
Lemma iso_exact : forall b x y, ex y (row_out b x) / (8 * 16384) = iso_idct b x y.
Proof.
  intros b x y. rewrite ex_sum. unfold iso_idct. rewrite rsum_swap.
  rewrite (rsum_ext 8 (fun v => rsum 8 (fun u => scale u * scale v * coefficient b u v * basis x u * basis y v)) (fun v => wt y v * rsum 8 (fun u => wt x u * row_at b v u))).
  2:{ intros v _. rewrite <- rsum_scale. apply rsum_ext. intros u _. unfold wt, coefficient, row_at, at8. ring. }
  rewrite (rsum_ext 8 (fun u => wt y u * row_out b x u) (fun v => (8 * q) * (wt y v * rsum 8 (fun u => wt x u * row_at b v u)))).
  2:{ intros v _. unfold row_out. rewrite ex_sum. field. }
  rewrite rsum_scale. replace (2048 * q * (8 * q * rsum 8 (fun v => wt y v * rsum 8 (fun u => wt x u * row_at b v u)))) with ((q * q) * 16384 * rsum 8 (fun v => wt y v * rsum 8 (fun u => wt x u * row_at b v u))) by ring.
  rewrite q_sq. field.
Qed.
Lemma idct_accurate : forall b x y, length b = 64%nat -> (Z.abs (nth 0 b 0%Z) <= 2048)%Z -> (acsum b <= 2100)%Z -> (x < 8)%nat -> (y < 8)%nat ->
  Rabs (IZR (nth (8 * y + x) (idct b) 0%Z) - iso_idct b x y) <= 585 / 1000 + IZR (acsum b) / 11000.
Proof.
  intros b x y HL HD HA Hx Hy. rewrite idct_nowrap by (assumption || lia). rewrite <- iso_exact. exact (zidct_near b x y HL Hx Hy).
Qed.
