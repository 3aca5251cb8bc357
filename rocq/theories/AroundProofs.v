(** AroundProofs: predictions with any vector (C117). *)
From Coq Require Import Lia.
From Verif Require Import Base VidModel SpecVlc SpecMotion MbModel Exec FrameProofs MbProofs ForwardProofs SpillProofs SpecAround.

Definition seen (w h i row col : Z) (mv : Z * Z) (u v : Z) : Prop := forall x y, needed i row col mv u v x y -> 0 <= y + x / plane_w i w < plane_h i h.
Lemma pel_around : forall S f w h i row col mv u v (s : S), frame420 f w h -> bytes_frame f -> 0 <= i < 6 -> seen w h i row col mv u v ->
  mc_pel f i row col (fst mv) (snd mv) v u s = (Ok (predict1_around w f i row col mv u v), s) /\ 0 <= predict1_around w f i row col mv u v <= 255.
Proof.
  intros S f w h i row col mv u v s Hf Hb Hi Sn. rewrite (pel_eq S f w h) by auto. cbv zeta. unfold seen, needed in Sn. cbv zeta in Sn.
  unfold predict1_around, half_sample, around. cbv zeta. rewrite !double_plus_div, !double_plus_mod, !sample_eq by auto.
  rewrite (frame_stride f w h i Hf). pose proof (frame_len f w h i Hf Hi) as L. pose proof (bytes_channel f i Hb) as B. pose proof (plane_pos f w h i Hf) as PW.
  set (mx := block_vector i (fst mv)) in *. set (my := block_vector i (snd mv)) in *. set (p := channel f i) in *. set (W := plane_w i w) in *. set (H := plane_h i h) in *.
  destruct (half_bit mx) as [_ Hx]. destruct (half_bit my) as [_ Hy].
  set (x := block_x i col + u + mx / 2) in *. set (y := block_y i row + v + my / 2) in *.
  rewrite !flat_same by exact PW.
  assert (G : forall x' y', (x' = x \/ x' = x + mx mod 2) -> (y' = y \/ y' = y + my mod 2) -> pl_get p (y' * W + x') s = (Ok (pl_at p (y' * W + x')), s) /\ 0 <= pl_at p (y' * W + x') <= 255).
  { intros x' y' A C. pose proof (proj1 (flat_in W H x' y' PW) (Sn x' y' (conj A C))). split; [apply pl_get_in; lia | apply B; lia]. }
  clearbody x y p W H. clear Sn B L PW Hf Hb.
  unfold mc_sample. destruct Hx as [Ex|Ex], Hy as [Ey|Ey]; rewrite Ex, Ey in *; cbn [Z.eqb Pos.eqb negb andb].
  - rewrite !Z.add_0_r, mean1. apply G; now left.
  - destruct (G x y) as [G1 R1]; [now left..|]. destruct (G x (y + 1)) as [G2 R2]; [now left | now right|].
    rewrite (bind_ok _ _ _ _ _ _ _ _ G1). replace (y * W + x + W) with ((y + 1) * W + x) by lia. rewrite (bind_ok _ _ _ _ _ _ _ _ G2).
    rewrite !Z.add_0_r. unfold ret. rewrite mean2 by lia. split; [do 3 f_equal; lia | apply mean4_range; assumption].
  - destruct (G x y) as [G1 R1]; [now left..|]. destruct (G (x + 1) y) as [G2 R2]; [now right | now left|].
    rewrite (bind_ok _ _ _ _ _ _ _ _ G1). replace (y * W + x + 1) with (y * W + (x + 1)) by lia. rewrite (bind_ok _ _ _ _ _ _ _ _ G2).
    rewrite !Z.add_0_r. unfold ret. rewrite mean2 by lia. split; [reflexivity | apply mean4_range; assumption].
  - destruct (G x y) as [G1 R1]; [now left..|]. destruct (G (x + 1) y) as [G2 R2]; [now right | now left|].
    destruct (G x (y + 1)) as [G3 R3]; [now left | now right|]. destruct (G (x + 1) (y + 1)) as [G4 R4]; [now right..|].
    rewrite (bind_ok _ _ _ _ _ _ _ _ G1). replace (y * W + x + 1) with (y * W + (x + 1)) by lia. rewrite (bind_ok _ _ _ _ _ _ _ _ G2).
    replace (y * W + x + W) with ((y + 1) * W + x) by lia. rewrite (bind_ok _ _ _ _ _ _ _ _ G3).
    replace ((y + 1) * W + x + 1) with ((y + 1) * W + (x + 1)) by lia. rewrite (bind_ok _ _ _ _ _ _ _ _ G4).
    unfold ret. rewrite Z.quot_div_nonneg by lia. split; [reflexivity | apply mean4_range; assumption].
Qed.

(** The block *)
Definition sees (w h i row col : Z) (ref : option (image * (Z * Z))) (u v : Z) : Prop := match ref with Some (_, mv) => seen w h i row col mv u v | None => True end.
Lemma around_range : forall past future w h i row col u v, 0 <= i < 6 -> sized_ref w h past -> sized_ref w h future -> ref_bytes past -> ref_bytes future ->
  sees w h i row col past u v -> sees w h i row col future u v -> 0 <= predict_around w past future i row col u v <= 255.
Proof.
  intros past future w h i row col u v Hi P1 F1 BP BF P2 F2. unfold predict_around.
  destruct past as [[f a]|], future as [[g b]|]; cbn [sized_ref ref_bytes sees] in *; try (lia || now apply (pel_around unit _ w h _ _ _ _ _ _ tt)).
  pose proof (proj2 (pel_around unit f w h i row col a u v tt P1 BP Hi P2)). pose proof (proj2 (pel_around unit g w h i row col b u v tt F1 BF Hi F2)).
  split; [apply Z.div_pos; lia | apply Z.div_le_upper_bound; lia].
Qed.
Lemma compensation_around : forall S m w h i row col fs b (s : S), 0 <= i < 6 ->
  sized_ref w h (past_ref m fs) -> sized_ref w h (future_ref m fs) -> ref_bytes (past_ref m fs) -> ref_bytes (future_ref m fs) -> small b ->
  on_lines w h i row col (past_ref m fs) -> on_lines w h i row col (future_ref m fs) ->
  motion_compensation m i row col fs b s =
  (Ok (map (fun k => nth k b 0 + predict_around w (past_ref m fs) (future_ref m fs) i row col (Z.of_nat k mod 8) (Z.of_nat k / 8)) (seq 0 64)), s).
Proof.
  intros S m w h i row col fs b s Hi P1 F1 BP BF Hb P2 F2. unfold motion_compensation. cbv zeta. apply mapM_ok. intros k Hk.
  apply in_seq in Hk. pose proof (Z.mod_pos_bound (Z.of_nat k) 8 ltac:(lia)) as Hu. assert (Hv : 0 <= Z.of_nat k / 8 < 8) by (split; [apply Z.div_pos; lia | apply Z.div_lt_upper_bound; lia]).
  set (u := Z.of_nat k mod 8) in *. set (v := Z.of_nat k / 8) in *.
  assert (P3 : sees w h i row col (past_ref m fs) u v) by (destruct (past_ref m fs) as [[f mv]|]; [|exact I]; intros x y; now apply P2).
  assert (F3 : sees w h i row col (future_ref m fs) u v) by (destruct (future_ref m fs) as [[f mv]|]; [|exact I]; intros x y; now apply F2).
  pose proof (around_range _ _ w h i row col u v Hi P1 F1 BP BF P3 F3) as Rg.
  assert (I32 : i32 (nth k b 0 + predict_around w (past_ref m fs) (future_ref m fs) i row col u v) = nth k b 0 + predict_around w (past_ref m fs) (future_ref m fs) i row col u v).
  { apply i32_small. pose proof (Hb k). change (2 ^ 30) with 1073741824 in *. lia. }
  rewrite <- I32. clear I32 Rg P2 F2. unfold past_ref, future_ref in *.
  destruct (mc_ref (mv_fwd m) (fs_past fs)) as [f|], (mc_ref (mv_bwd m) (fs_future fs)) as [g|]; unfold predict_around; cbn [with_mv option_map sized_ref sees ref_bytes] in *.
  - destruct (pel_around S f w h i row col (mv_of m 0) u v s P1 BP Hi P3) as (E1 & _). destruct (pel_around S g w h i row col (mv_of m 1) u v s F1 BF Hi F3) as (E2 & _).
    cbn [mv_of fst snd] in E1, E2. rewrite bind_assoc, (bind_ok _ _ _ _ _ _ _ _ E1), bind_ret. rewrite bind_assoc, (bind_ok _ _ _ _ _ _ _ _ E2), bind_ret.
    cbn [fst snd]. change (1 + 1 =? 0) with false. change (1 + 1 - 1) with 1. rewrite Z.shiftr_div_pow2 by lia. reflexivity.
  - destruct (pel_around S f w h i row col (mv_of m 0) u v s P1 BP Hi P3) as (E1 & _).
    cbn [mv_of fst snd] in E1. rewrite bind_assoc, (bind_ok _ _ _ _ _ _ _ _ E1), !bind_ret.
    cbn [fst snd]. change (1 + 0 =? 0) with false. change (1 + 0 - 1) with 0. rewrite Z.shiftr_0_r, Z.add_0_r. reflexivity.
  - destruct (pel_around S g w h i row col (mv_of m 1) u v s F1 BF Hi F3) as (E2 & _).
    cbn [mv_of fst snd] in E2. rewrite bind_ret, bind_assoc, (bind_ok _ _ _ _ _ _ _ _ E2), bind_ret.
    cbn [fst snd]. change (0 + 1 =? 0) with false. change (0 + 1 - 1) with 0. rewrite Z.shiftr_0_r, Z.add_0_l. reflexivity.
  - reflexivity.
Qed.

(** Either every needed sample is on the lines, or one is not *)
Lemma search : forall (P : Z -> Prop) n, 0 <= n -> (forall u, P u \/ ~ P u) -> (forall u, 0 <= u < n -> P u) \/ (exists u, 0 <= u < n /\ ~ P u).
Proof.
  intros P n Hn D. revert n Hn. apply (natlike_ind (fun n => (forall u, 0 <= u < n -> P u) \/ (exists u, 0 <= u < n /\ ~ P u))).
  - left. intros u Hu. lia.
  - intros n Hn IH. unfold Z.succ. destruct IH as [A|(u & Hu & N)]; [|right; exists u; split; [lia | exact N] ].
    destruct (D n) as [Y|N]; [left | right; exists n; split; [lia | exact N] ]. intros u Hu. destruct (Z.eq_dec u n) as [->|]; [exact Y | apply A; lia].
Qed.
Lemma seen_dec : forall w h i row col mv u v, seen w h i row col mv u v \/ (exists x y, needed i row col mv u v x y /\ ~ 0 <= y + x / plane_w i w < plane_h i h).
Proof.
  intros w h i row col mv u v. unfold seen, needed. cbv zeta.
  set (x0 := block_x i col + u + block_vector i (fst mv) / 2). set (y0 := block_y i row + v + block_vector i (snd mv) / 2).
  set (dx := block_vector i (fst mv) mod 2). set (dy := block_vector i (snd mv) mod 2). set (W := plane_w i w). set (H := plane_h i h). clearbody x0 y0 dx dy W H.
  assert (D : forall x y, 0 <= y + x / W < H \/ ~ 0 <= y + x / W < H) by (intros; lia).
  destruct (D x0 y0) as [D1|N]; [|right; exists x0, y0; tauto]. destruct (D (x0 + dx) y0) as [D2|N]; [|right; exists (x0 + dx), y0; tauto].
  destruct (D x0 (y0 + dy)) as [D3|N]; [|right; exists x0, (y0 + dy); tauto]. destruct (D (x0 + dx) (y0 + dy)) as [D4|N]; [|right; exists (x0 + dx), (y0 + dy); tauto].
  left. intros x y ([->| ->] & [->| ->]); assumption.
Qed.
Lemma on_or_off : forall w h i row col ref, on_lines w h i row col ref \/ off w h i row col ref.
Proof.
  intros w h i row col [[f mv]|]; [|now left]. cbn [on_lines off].
  set (P := fun u v => seen w h i row col mv u v).
  assert (D : forall u v, P u v \/ ~ P u v) by (intros u v; destruct (seen_dec w h i row col mv u v) as [A|(x & y & N & O)]; [now left | right; intro B; exact (O (B x y N))]).
  assert (D' : forall u, (forall v, 0 <= v < 8 -> P u v) \/ ~ (forall v, 0 <= v < 8 -> P u v)).
  { intro u. destruct (search (P u) 8 ltac:(lia) (D u)) as [A|(v & Hv & N)]; [now left | right; intro B; exact (N (B v Hv))]. }
  destruct (search (fun u => forall v, 0 <= v < 8 -> P u v) 8 ltac:(lia) D') as [A|(u & Hu & N)].
  - left. intros u v x y Hu Hv Nd. exact (A u Hu v Hv x y Nd).
  - right. destruct (search (P u) 8 ltac:(lia) (D u)) as [A|(v & Hv & O)]; [contradiction|]. destruct (seen_dec w h i row col mv u v) as [A|(x & y & Nd & Out)]; [contradiction|].
    exists u, v, x, y. auto.
Qed.
Lemma not_both : forall w h i row col r1 r2, sized_ref w h r1 -> sized_ref w h r2 -> ~ (on_lines w h i row col r1 /\ on_lines w h i row col r2) -> bad_ref w h i row col r1 \/ bad_ref w h i row col r2.
Proof.
  intros w h i row col r1 r2 S1 S2 N. assert (B : forall r, sized_ref w h r -> off w h i row col r -> bad_ref w h i row col r) by (intros [[f mv]|] S0 O; [now split | exact O]).
  destruct (on_or_off w h i row col r1) as [A|A]; [|left; auto]. destruct (on_or_off w h i row col r2) as [A'|A']; [tauto | right; auto].
Qed.

(** Inside the plane nothing goes around *)
Lemma around_inside : forall w (at_ : Z -> Z -> Z) x y, 0 <= x < w -> around w at_ x y = at_ x y.
Proof. intros w at_ x y H. unfold around. rewrite Z.mod_small, Z.div_small by lia. now rewrite Z.add_0_r. Qed.
