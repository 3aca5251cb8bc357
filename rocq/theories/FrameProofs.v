(** FrameProofs: motion compensation and writing to the frame. *)
From Verif Require Import Base BitReader Exec Local Mono TsRobust VidModel BlockModel BlockProofs MbModel SpecMotion.

Lemma mapM_ok : forall S A B (f : A -> M S B) (g : A -> B) l (s : S),
  (forall x, In x l -> f x s = (Ok (g x), s)) -> mapM f l s = (Ok (map g l), s).
Proof.
  intros S A B f g l s. induction l as [|x l IH]; intro H; [reflexivity|]. cbn [mapM map].
  rewrite (bind_ok _ _ _ _ _ _ _ _ (H x (or_introl eq_refl))). rewrite (bind_ok _ _ _ _ _ _ _ _ (IH (fun y Hy => H y (or_intror Hy)))). reflexivity.
Qed.

Lemma six : forall i, 0 <= i < 6 -> i = 0 \/ i = 1 \/ i = 2 \/ i = 3 \/ i = 4 \/ i = 5.
Proof. lia. Qed.
Ltac six H := apply six in H; destruct H as [-> | [-> | [-> | [-> | [-> | ->] ] ] ] ].

Definition stride_of (f : image) (i : Z) : Z := if i <? 4 then im_ys f else im_cs f.
Lemma mc_stride_eq : forall f i, 0 <= i < 6 -> mc_stride f i = stride_of f i.
Proof. intros f i H. six H; reflexivity. Qed.
Lemma quarter_bits : forall i, 0 <= i < 6 -> i < 4 -> Z.shiftl (Z.land i 2) 2 = 8 * (i / 2) /\ Z.shiftl (Z.land i 1) 3 = 8 * (i mod 2) /\
  Z.shiftr (Z.land i 2) 1 = i / 2 /\ 0 <= i / 2 <= 1 /\ 0 <= i mod 2 <= 1.
Proof. intros i H L. six H; try lia; vm_compute; intuition discriminate. Qed.
Lemma mc_index_eq : forall f i row col, 0 <= i < 6 -> mc_index f i row col = block_y i row * stride_of f i + block_x i col.
Proof.
  intros f i row col H. unfold mc_index, block_y, block_x, stride_of. destruct (Z.ltb_spec i 4).
  - destruct (quarter_bits i H) as (-> & -> & _); [lia|]. lia.
  - rewrite (proj2 (Z.ltb_lt i 6)) by lia. lia.
Qed.
Lemma sample_eq : forall f i x y, 0 <= i < 6 -> sample f i x y = pl_at (channel f i) (y * stride_of f i + x).
Proof. intros f i x y H. six H; reflexivity. Qed.
Lemma frame_len : forall f w h i, frame420 f w h -> 0 <= i < 6 -> pl_len (channel f i) = plane_w i w * plane_h i h.
Proof. intros f w h i (_ & _ & _ & _ & _ & _ & A & B & C) H. six H; assumption. Qed.
Lemma frame_stride : forall f w h i, frame420 f w h -> stride_of f i = plane_w i w.
Proof. intros f w h i (_ & _ & _ & _ & A & B & _). unfold stride_of, plane_w. destruct (i <? 4); assumption. Qed.

Lemma in_plane : forall w h x y, 0 <= x < w -> 0 <= y < h -> 0 <= y * w + x < w * h.
Proof. intros. nia. Qed.

Lemma pl_get_in : forall S (p : plane) i (s : S), 0 <= i < pl_len p -> pl_get p i s = (Ok (pl_at p i), s).
Proof. intros S p i s H. unfold pl_get. now rewrite (proj2 (Z.leb_le 0 i)), (proj2 (Z.ltb_lt i (pl_len p))) by lia. Qed.

Lemma mean1 : forall a, (a + a + a + a) / 4 = a.
Proof. intro a. symmetry. apply Z.div_unique with 0; lia. Qed.
Lemma mean2 : forall a b, 0 <= a -> 0 <= b -> Z.quot (a + b) 2 = (a + b + a + b) / 4.
Proof.
  intros a b A B. rewrite Z.quot_div_nonneg by lia. replace (a + b + a + b) with ((a + b) * 2) by lia.
  change 4 with (2 * 2). now rewrite Z.div_mul_cancel_r by lia.
Qed.

Definition bytes_plane (p : plane) : Prop := forall k, 0 <= k < pl_len p -> 0 <= pl_at p k <= 255.
Definition bytes_frame (f : image) : Prop := bytes_plane (im_y f) /\ bytes_plane (im_cb f) /\ bytes_plane (im_cr f).
Lemma bytes_channel : forall f i, bytes_frame f -> bytes_plane (channel f i).
Proof.
  intros f i (A & B & C). unfold channel. destruct (i <? 4); [exact A|]. destruct (i =? 4); [exact B|]. destruct (i =? 5); [exact C|].
  intros k. cbn. lia.
Qed.

Lemma half_bit : forall z, (Z.land z 1 =? 1) = negb (z mod 2 =? 0) /\ (z mod 2 = 0 \/ z mod 2 = 1).
Proof.
  intro z. pose proof (Z.mod_pos_bound z 2). change 1 with (Z.ones 1) at 1. rewrite Z.land_ones by lia. change (2 ^ 1) with 2.
  destruct (Z.eqb_spec (z mod 2) 1), (Z.eqb_spec (z mod 2) 0); cbn; lia.
Qed.
Lemma double_plus_div : forall a z, (2 * a + z) / 2 = a + z / 2.
Proof. intros. rewrite Z.mul_comm, Z.add_comm, Z.div_add by lia. lia. Qed.
Lemma double_plus_mod : forall a z, (2 * a + z) mod 2 = z mod 2.
Proof. intros. rewrite Z.mul_comm, Z.add_comm, Z.mod_add by lia. reflexivity. Qed.

Lemma mc_pel_ok : forall S f w h i row col mv u v (s : S), frame420 f w h -> bytes_frame f -> 0 <= i < 6 ->
  vector_in w h i row col mv -> 0 <= u < 8 -> 0 <= v < 8 ->
  mc_pel f i row col (fst mv) (snd mv) v u s = (Ok (predict1 f i row col mv u v), s).
Proof.
  intros S f w h i row col mv u v s Hf Hb Hi (X1 & X2 & Y1 & Y2) Hu Hv. unfold mc_pel.
  assert (EV : (if (i =? 4) || (i =? 5) then (Z.shiftr (fst mv) 1, Z.shiftr (snd mv) 1) else (fst mv, snd mv)) =
               (block_vector i (fst mv), block_vector i (snd mv))).
  { unfold block_vector. rewrite !Z.shiftr_div_pow2 by lia. six Hi; reflexivity. }
  rewrite EV. clear EV. set (mx := block_vector i (fst mv)) in *. set (my := block_vector i (snd mv)) in *. cbv zeta.
  rewrite mc_stride_eq, mc_index_eq by auto. unfold predict1, predict1_at. fold mx my. unfold half_sample. cbv zeta.
  rewrite !double_plus_div, !double_plus_mod, !sample_eq by auto. rewrite !Z.shiftr_div_pow2 by lia. change (2 ^ 1) with 2.
  rewrite (frame_stride f w h i Hf). pose proof (frame_len f w h i Hf Hi) as L. pose proof (bytes_channel f i Hb) as B.
  set (p := channel f i) in *. set (W := plane_w i w) in *. set (H := plane_h i h) in *.
  destruct (half_bit mx) as [-> Hx]. destruct (half_bit my) as [-> Hy].
  set (x := block_x i col + u + mx / 2). set (y := block_y i row + v + my / 2).
  replace (block_y i row * W + block_x i col + my / 2 * W + mx / 2 + v * W + u) with (y * W + x) by (unfold x, y; lia).
  assert (RX : 0 <= x < W /\ x + mx mod 2 < W) by (unfold x; pose proof (Z.div_mod mx 2); pose proof (Z.mod_pos_bound mx 2); lia).
  assert (RY : 0 <= y < H /\ y + my mod 2 < H) by (unfold y; pose proof (Z.div_mod my 2); pose proof (Z.mod_pos_bound my 2); lia).
  clearbody x y p W H. clear X1 X2 Y1 Y2.
  assert (G : forall x' y', 0 <= x' < W -> 0 <= y' < H -> pl_get p (y' * W + x') s = (Ok (pl_at p (y' * W + x')), s) /\ 0 <= pl_at p (y' * W + x') <= 255).
  { intros x' y' A C. pose proof (in_plane W H x' y' A C). split; [apply pl_get_in; lia | apply B; lia]. }
  unfold mc_sample. destruct Hx as [Ex|Ex], Hy as [Ey|Ey]; rewrite Ex, Ey in *; cbn [Z.eqb Pos.eqb negb andb].
  - rewrite !Z.add_0_r, mean1. now apply G.
  - destruct (G x y) as [G1 R1]; [lia..|]. destruct (G x (y + 1)) as [G2 R2]; [lia..|].
    rewrite (bind_ok _ _ _ _ _ _ _ _ G1). replace (y * W + x + W) with ((y + 1) * W + x) by lia. rewrite (bind_ok _ _ _ _ _ _ _ _ G2).
    rewrite !Z.add_0_r. unfold ret. rewrite mean2 by lia. do 3 f_equal. lia.
  - destruct (G x y) as [G1 R1]; [lia..|]. destruct (G (x + 1) y) as [G2 R2]; [lia..|].
    rewrite (bind_ok _ _ _ _ _ _ _ _ G1). replace (y * W + x + 1) with (y * W + (x + 1)) by lia. rewrite (bind_ok _ _ _ _ _ _ _ _ G2).
    rewrite !Z.add_0_r. unfold ret. rewrite mean2 by lia. reflexivity.
  - destruct (G x y) as [G1 R1]; [lia..|]. destruct (G (x + 1) y) as [G2 R2]; [lia..|].
    destruct (G x (y + 1)) as [G3 R3]; [lia..|]. destruct (G (x + 1) (y + 1)) as [G4 R4]; [lia..|].
    rewrite (bind_ok _ _ _ _ _ _ _ _ G1). replace (y * W + x + 1) with (y * W + (x + 1)) by lia. rewrite (bind_ok _ _ _ _ _ _ _ _ G2).
    replace (y * W + x + W) with ((y + 1) * W + x) by lia. rewrite (bind_ok _ _ _ _ _ _ _ _ G3).
    replace ((y + 1) * W + x + 1) with ((y + 1) * W + (x + 1)) by lia. rewrite (bind_ok _ _ _ _ _ _ _ _ G4).
    unfold ret. rewrite Z.quot_div_nonneg by lia. reflexivity.
Qed.

Lemma mean4_range : forall a b c d, 0 <= a <= 255 -> 0 <= b <= 255 -> 0 <= c <= 255 -> 0 <= d <= 255 -> 0 <= (a + b + c + d) / 4 <= 255.
Proof. intros. split; [apply Z.div_pos; lia | apply Z.div_le_upper_bound; lia]. Qed.
Lemma predict1_range : forall f w h i row col mv u v, frame420 f w h -> bytes_frame f -> 0 <= i < 6 ->
  vector_in w h i row col mv -> 0 <= u < 8 -> 0 <= v < 8 -> 0 <= predict1 f i row col mv u v <= 255.
Proof.
  intros f w h i row col mv u v Hf Hb Hi (X1 & X2 & Y1 & Y2) Hu Hv. unfold predict1, predict1_at, half_sample. cbv zeta.
  rewrite !sample_eq by auto. rewrite (frame_stride f w h i Hf). pose proof (frame_len f w h i Hf Hi) as L. pose proof (bytes_channel f i Hb) as B.
  set (mx := block_vector i (fst mv)) in *. set (my := block_vector i (snd mv)) in *.
  rewrite !double_plus_div, !double_plus_mod.
  set (W := plane_w i w) in *. set (H := plane_h i h) in *.
  pose proof (Z.div_mod mx 2). pose proof (Z.mod_pos_bound mx 2). pose proof (Z.div_mod my 2). pose proof (Z.mod_pos_bound my 2).
  apply mean4_range; apply B; rewrite L; apply in_plane; lia.
Qed.

(** The references of a macroblock *)
Definition mv_of (m : mvdata) (s : nat) : Z * Z := (nth (mvi 0 s 0) (mv_act m) 0, nth (mvi 0 s 1) (mv_act m) 0).
Definition with_mv (f : option image) (mv : Z * Z) : option (image * (Z * Z)) := option_map (fun f => (f, mv)) f.
Definition past_ref (m : mvdata) (fs : framestore) := with_mv (mc_ref (mv_fwd m) (fs_past fs)) (mv_of m 0).
Definition future_ref (m : mvdata) (fs : framestore) := with_mv (mc_ref (mv_bwd m) (fs_future fs)) (mv_of m 1).
Definition ref_bytes (x : option (image * (Z * Z))) : Prop := match x with Some (f, _) => bytes_frame f | None => True end.

Lemma motion_compensation_ok : forall S m w h i row col fs b (s : S), 0 <= i < 6 ->
  reference_in w h i row col (past_ref m fs) -> reference_in w h i row col (future_ref m fs) ->
  ref_bytes (past_ref m fs) -> ref_bytes (future_ref m fs) ->
  motion_compensation m i row col fs b s =
  (Ok (map (fun k => i32 (nth k b 0 + predict (past_ref m fs) (future_ref m fs) i row col (Z.of_nat k mod 8) (Z.of_nat k / 8))) (seq 0 64)), s).
Proof.
  intros S m w h i row col fs b s Hi HP HF BP BF. unfold motion_compensation. cbv zeta. apply mapM_ok. intros k Hk.
  apply in_seq in Hk. pose proof (Z.mod_pos_bound (Z.of_nat k) 8). assert (0 <= Z.of_nat k / 8 < 8).
  { split; [apply Z.div_pos; lia | apply Z.div_lt_upper_bound; lia]. }
  unfold past_ref, future_ref in *. set (u := Z.of_nat k mod 8) in *. set (v := Z.of_nat k / 8) in *.
  destruct (mc_ref (mv_fwd m) (fs_past fs)) as [f|], (mc_ref (mv_bwd m) (fs_future fs)) as [g|]; unfold predict, predict_at; cbn [with_mv option_map reference_in ref_bytes] in *.
  - destruct HP as [P1 P2], HF as [F1 F2].
    pose proof (mc_pel_ok S f w h i row col (mv_of m 0) u v s P1 BP Hi P2 ltac:(lia) ltac:(lia)) as E1.
    pose proof (mc_pel_ok S g w h i row col (mv_of m 1) u v s F1 BF Hi F2 ltac:(lia) ltac:(lia)) as E2.
    cbn [mv_of fst snd] in E1, E2. rewrite bind_assoc, (bind_ok _ _ _ _ _ _ _ _ E1), bind_ret. rewrite bind_assoc, (bind_ok _ _ _ _ _ _ _ _ E2), bind_ret.
    cbn [fst snd]. change (1 + 1 =? 0) with false. change (1 + 1 - 1) with 1. rewrite Z.shiftr_div_pow2 by lia. reflexivity.
  - destruct HP as [P1 P2].
    pose proof (mc_pel_ok S f w h i row col (mv_of m 0) u v s P1 BP Hi P2 ltac:(lia) ltac:(lia)) as E1.
    cbn [mv_of fst snd] in E1. rewrite bind_assoc, (bind_ok _ _ _ _ _ _ _ _ E1), !bind_ret.
    cbn [fst snd]. change (1 + 0 =? 0) with false. change (1 + 0 - 1) with 0. rewrite Z.shiftr_0_r, Z.add_0_r. reflexivity.
  - destruct HF as [F1 F2].
    pose proof (mc_pel_ok S g w h i row col (mv_of m 1) u v s F1 BF Hi F2 ltac:(lia) ltac:(lia)) as E2.
    cbn [mv_of fst snd] in E2. rewrite bind_ret, bind_assoc, (bind_ok _ _ _ _ _ _ _ _ E2), bind_ret.
    cbn [fst snd]. change (0 + 1 =? 0) with false. change (0 + 1 - 1) with 0. rewrite Z.shiftr_0_r, Z.add_0_l. reflexivity.
  - reflexivity.
Qed.

Lemma predict_range : forall past future w h i row col u v, 0 <= i < 6 ->
  reference_in w h i row col past -> reference_in w h i row col future -> ref_bytes past -> ref_bytes future ->
  0 <= u < 8 -> 0 <= v < 8 -> 0 <= predict past future i row col u v <= 255.
Proof.
  intros past future w h i row col u v Hi HP HF BP BF Hu Hv. unfold predict, predict_at.
  destruct past as [[f a]|], future as [[g b]|]; cbn [reference_in ref_bytes] in *.
  - fold (predict1 f i row col a u v) (predict1 g i row col b u v). destruct HP as [P1 P2], HF as [F1 F2]. pose proof (predict1_range f w h i row col a u v P1 BP Hi P2 Hu Hv). pose proof (predict1_range g w h i row col b u v F1 BF Hi F2 Hu Hv).
    split; [apply Z.div_pos; lia | apply Z.div_le_upper_bound; lia].
  - fold (predict1 f i row col a u v). destruct HP. now apply predict1_range with w h.
  - fold (predict1 g i row col b u v). destruct HF. now apply predict1_range with w h.
  - lia.
Qed.

(** * Writing *)
Lemma pl_write_in : forall S p off di src (s : S), 0 <= di -> off + di + Z.of_nat (length src) <= pl_len p ->
  exists p', pl_write p off di src s = (Ok p', s) /\ pl_len p' = pl_len p /\
    forall k, pl_at p' k = let d := k - (off + di) in
      if (0 <=? d) && (d <? Z.of_nat (length src)) then nth (Z.to_nat d) src 0 else pl_at p k.
Proof.
  intros S p off di src s H1 H2. unfold pl_write. cbv zeta. rewrite (proj2 (Z.leb_le 0 di)), (proj2 (Z.leb_le _ (pl_len p))) by lia. cbn [andb].
  eexists. split; [reflexivity|]. split; [reflexivity|]. intro k. cbn [pl_at].
  replace (off + di <=? k) with (0 <=? k - (off + di)) by (destruct (Z.leb_spec 0 (k - (off + di))), (Z.leb_spec (off + di) k); lia).
  replace (k <? off + di + Z.of_nat (length src)) with (k - (off + di) <? Z.of_nat (length src))
    by (destruct (Z.ltb_spec (k - (off + di)) (Z.of_nat (length src))), (Z.ltb_spec k (off + di + Z.of_nat (length src))); lia).
  reflexivity.
Qed.

(** Lines of [n] samples, [st] apart; [line j] is the j-th. *)
Definition covers (st n cnt d : Z) : bool := (0 <=? d) && (d <? cnt * st) && (d mod st <? n).
Lemma covers_first : forall st n cnt d, 0 < n <= st -> 1 <= cnt -> 0 <= d < st -> covers st n cnt d = (d <? n).
Proof.
  intros st n cnt d H1 H2 H3. unfold covers. rewrite (proj2 (Z.leb_le 0 d)), (proj2 (Z.ltb_lt d (cnt * st))) by nia. cbn [andb]. now rewrite Z.mod_small by lia.
Qed.
Lemma covers_next : forall st n cnt d, 0 < n <= st -> st <= d -> covers st n cnt d = covers st n (cnt - 1) (d - st).
Proof.
  intros st n cnt d H1 H2. unfold covers. replace ((d - st) mod st) with (d mod st).
  - replace (0 <=? d) with true by (symmetry; apply Z.leb_le; lia). replace (0 <=? d - st) with true by (symmetry; apply Z.leb_le; lia).
    replace (d - st <? (cnt - 1) * st) with (d <? cnt * st) by (destruct (Z.ltb_spec d (cnt * st)), (Z.ltb_spec (d - st) ((cnt - 1) * st)); nia). reflexivity.
  - replace (d - st) with (d + (-1) * st) by lia. now rewrite Z.mod_add by lia.
Qed.
Lemma covers_neg : forall st n cnt d, d < 0 -> covers st n cnt d = false.
Proof. intros. unfold covers. now rewrite (proj2 (Z.leb_gt 0 d)) by lia. Qed.
Lemma covers_past : forall st n cnt d, cnt * st <= d -> covers st n cnt d = false.
Proof. intros. unfold covers. rewrite (proj2 (Z.ltb_ge d (cnt * st))) by lia. now rewrite andb_false_r. Qed.

Lemma write_rows_ok : forall S rows p off base st y0 (s : S), 8 <= st -> (forall r, In r rows -> length r = 8%nat) ->
  0 <= base + y0 * st -> off + base + (y0 + Z.of_nat (length rows) - 1) * st + 8 <= pl_len p ->
  exists p', write_rows p off base st y0 rows s = (Ok p', s) /\ pl_len p' = pl_len p /\
    forall k, let d := k - (off + base + y0 * st) in
      pl_at p' k = if covers st 8 (Z.of_nat (length rows)) d then nth (Z.to_nat (d mod st)) (nth (Z.to_nat (d / st)) rows []) 0 else pl_at p k.
Proof.
  intros S. induction rows as [|row rows IH]; intros p off base st y0 s Hst Hl H0 Hn.
  - exists p. split; [reflexivity|]. split; [reflexivity|]. intro k. cbv zeta. destruct (Z.lt_ge_cases (k - (off + base + y0 * st)) 0).
    + now rewrite covers_neg. + rewrite covers_past by (cbn [length]; lia). reflexivity.
  - cbn [write_rows]. assert (L : length row = 8%nat) by (apply Hl; now left).
    cbn [length] in Hn. rewrite Nat2Z.inj_succ in Hn.
    destruct (pl_write_in S p off (base + y0 * st) row s) as (p1 & E1 & L1 & A1); [lia | rewrite L; nia |].
    rewrite (bind_ok _ _ _ _ _ _ _ _ E1).
    destruct (IH p1 off base st (y0 + 1) s) as (p2 & E2 & L2 & A2); [lia | intros; apply Hl; now right | lia | rewrite L1; lia |].
    exists p2. split; [exact E2|]. split; [congruence|]. intro k. cbv zeta in A2 |- *. rewrite A2, A1. rewrite L. cbv zeta. clear A1 A2 E1 E2.
    set (d := k - (off + base + y0 * st)). replace (k - (off + base + (y0 + 1) * st)) with (d - st) by (unfold d; lia).
    replace (k - (off + (base + y0 * st))) with d by (unfold d; lia). clearbody d.
    cbn [length]. rewrite (Nat2Z.inj_succ (length rows)).
    destruct (Z.lt_ge_cases d 0) as [D|D].
    + rewrite (covers_neg _ _ _ (d - st)), (covers_neg _ _ _ d) by lia. now rewrite (proj2 (Z.leb_gt 0 d)) by lia.
    + destruct (Z.lt_ge_cases d st) as [D2|D2].
      * rewrite (covers_neg _ _ _ (d - st)) by lia. rewrite covers_first by lia. rewrite (proj2 (Z.leb_le 0 d)) by lia. cbn [andb].
        rewrite Z.mod_small, Z.div_small by lia. reflexivity.
      * rewrite (covers_next st 8 (Z.succ (Z.of_nat (length rows))) d) by lia. replace (Z.succ (Z.of_nat (length rows)) - 1) with (Z.of_nat (length rows)) by lia.
        destruct (covers st 8 (Z.of_nat (length rows)) (d - st)).
        -- replace (d / st) with ((d - st) / st + 1).
           ++ rewrite Z2Nat.inj_add by (try apply Z.div_pos; lia). change (Z.to_nat 1) with 1%nat. rewrite Nat.add_1_r. cbn [nth]. f_equal. f_equal.
              replace (d - st) with (d + (-1) * st) by lia. now rewrite Z.mod_add by lia.
           ++ replace (d - st) with (d + (-1) * st) by lia. rewrite Z.div_add by lia. lia.
        -- rewrite (proj2 (Z.ltb_ge d (Z.of_nat 8))) by lia. now rewrite andb_false_r.
Qed.

Lemma rows8_length : forall cb r, length cb = 64%nat -> In r (rows8 cb) -> length r = 8%nat.
Proof.
  intros cb r H Hr. unfold rows8 in Hr. apply in_map_iff in Hr. destruct Hr as (y & <- & Hy). apply in_seq in Hy.
  rewrite firstn_length, skipn_length. lia.
Qed.
Lemma nth_firstn_lt : forall A n (l : list A) k d, (k < n)%nat -> nth k (firstn n l) d = nth k l d.
Proof. induction n; intros l k d H; [lia|]. destruct l; [destruct k; reflexivity|]. destruct k; [reflexivity|]. cbn. apply IHn. lia. Qed.
Lemma nth_skipn_eq : forall A n (l : list A) k d, nth k (skipn n l) d = nth (n + k) l d.
Proof. induction n; intros l k d; [reflexivity|]. destruct l; [destruct k; reflexivity|]. cbn. apply IHn. Qed.
Lemma rows8_nth : forall cb y u, (y < 8)%nat -> (u < 8)%nat -> nth u (nth y (rows8 cb) []) 0 = nth (8 * y + u) cb 0.
Proof.
  intros cb y u Hy Hu. unfold rows8.
  rewrite (nth_indep _ [] ((fun y => firstn 8 (skipn (8 * y) cb)) 0%nat)) by (rewrite map_length, seq_length; lia).
  rewrite (map_nth (fun y => firstn 8 (skipn (8 * y) cb))), seq_nth by lia. rewrite nth_firstn_lt, nth_skipn_eq by lia. reflexivity.
Qed.

(** * One block *)
Definition hits (field : bool) (i row col x y : Z) : bool :=
  (block_x i col <=? x) && (x <? block_x i col + 8) &&
  (if field && (i <? 4) then (16 * row <=? y) && (y <? 16 * row + 16) && ((y - 16 * row) mod 2 =? i / 2)
   else (block_y i row <=? y) && (y <? block_y i row + 8)).
Definition line (field : bool) (i row y : Z) : Z := if field && (i <? 4) then (y - 16 * row) / 2 else y - block_y i row.

Lemma frame_dims : forall f w h, frame420 f w h -> exists a b, 0 < a /\ 0 < b /\ w = 16 * a /\ h = 16 * b.
Proof.
  intros f w h (A & B & C & D & _). exists (w / 16), (h / 16). pose proof (Z.div_mod w 16). pose proof (Z.div_mod h 16). lia.
Qed.
Lemma half16 : forall a, 16 * a / 2 = 8 * a.
Proof. intro a. replace (16 * a) with (8 * a * 2) by lia. now rewrite Z.div_mul by lia. Qed.

Lemma set_channel_frame : forall f i p w h, frame420 f w h -> 0 <= i < 6 -> pl_len p = pl_len (channel f i) -> frame420 (set_channel f i p) w h.
Proof.
  intros f i p w h (A & B & C & D & E & F & G & H & I) Hi L. unfold frame420. six Hi; cbn in *; intuition congruence.
Qed.
Lemma set_channel_dims : forall f i p, im_w (set_channel f i p) = im_w f /\ im_h (set_channel f i p) = im_h f.
Proof. intros. unfold set_channel. destruct (i <? 4), (i =? 4), (i =? 5); split; reflexivity. Qed.
Lemma set_channel_strides : forall f i p j, stride_of (set_channel f i p) j = stride_of f j.
Proof. intros. unfold set_channel, stride_of. destruct (i <? 4), (i =? 4), (i =? 5); reflexivity. Qed.
(** Blocks 0-3 share a plane. *)
Definition same_plane (i j : Z) : bool := if i <? 4 then j <? 4 else i =? j.
Lemma set_channel_channel : forall f i j p, 0 <= i < 6 -> 0 <= j < 6 ->
  channel (set_channel f i p) j = if same_plane i j then p else channel f j.
Proof. intros f i j p Hi Hj. six Hi; six Hj; reflexivity. Qed.

Lemma cover_frame : forall W x y bx by0, 8 <= W -> 0 <= x < W -> 0 <= bx -> bx + 8 <= W ->
  let d := y * W + x - (by0 * W + bx) in
  covers W 8 8 d = (bx <=? x) && (x <? bx + 8) && ((by0 <=? y) && (y <? by0 + 8)) /\
  (bx <= x -> d mod W = x - bx /\ d / W = y - by0).
Proof.
  intros W x y bx by0 HW Hx Hb0 Hb d.
  assert (Hd : bx <= x -> d mod W = x - bx /\ d / W = y - by0).
  { intro L. split; [symmetry; apply Z.mod_unique with (y - by0); [left|]; unfold d; lia |
      symmetry; apply Z.div_unique with (x - bx); [left|]; unfold d; lia]. }
  split; [|exact Hd]. unfold covers.
  destruct (Z.leb_spec bx x) as [L|L]; cbn [andb].
  - destruct (Hd L) as [-> _]. replace (x - bx <? 8) with (x <? bx + 8) by (destruct (Z.ltb_spec (x - bx) 8), (Z.ltb_spec x (bx + 8)); lia).
    replace (0 <=? d) with (by0 <=? y) by (unfold d; destruct (Z.leb_spec by0 y), (Z.leb_spec 0 (y * W + x - (by0 * W + bx))); nia).
    destruct (Z.ltb_spec x (bx + 8)); [|now rewrite andb_false_r]. rewrite andb_true_r. cbn [andb]. f_equal.
    unfold d. destruct (Z.ltb_spec y (by0 + 8)), (Z.ltb_spec (y * W + x - (by0 * W + bx)) (8 * W)); nia.
  - assert (E : d mod W = x - bx + W) by (symmetry; apply Z.mod_unique with (y - by0 - 1); [left|]; unfold d; lia).
    rewrite E. rewrite (proj2 (Z.ltb_ge (x - bx + W) 8)) by lia. now rewrite andb_false_r.
Qed.

Lemma cover_field : forall W x y bx y0 q, 8 <= W -> 0 <= x < W -> 0 <= bx -> bx + 8 <= W -> 0 <= q <= 1 ->
  let d := y * W + x - ((y0 + q) * W + bx) in
  covers (W * 2) 8 8 d = (bx <=? x) && (x <? bx + 8) && ((y0 <=? y) && (y <? y0 + 16) && ((y - y0) mod 2 =? q)) /\
  (bx <= x -> (y - y0) mod 2 = q -> d mod (W * 2) = x - bx /\ d / (W * 2) = (y - y0) / 2).
Proof.
  intros W x y bx y0 q HW Hx Hb0 Hb Hq d.
  pose proof (Z.div_mod (y - y0) 2) as DM. pose proof (Z.mod_pos_bound (y - y0) 2) as MB.
  set (e := (y - y0) / 2) in *. set (g := (y - y0) mod 2) in *. clearbody e g. assert (Y : y = y0 + 2 * e + g) by lia. clear DM.
  assert (Hd : bx <= x -> g = q -> d mod (W * 2) = x - bx /\ d / (W * 2) = e).
  { intros L G. split; [symmetry; apply Z.mod_unique with e; [left|]; unfold d; subst; lia |
      symmetry; apply Z.div_unique with (x - bx); [left|]; unfold d; subst; lia]. }
  split; [|exact Hd]. unfold covers.
  destruct (Z.leb_spec bx x) as [L|L]; cbn [andb].
  - destruct (Z.eqb_spec g q) as [G|G].
    + destruct (Hd L G) as [-> _]. replace (x - bx <? 8) with (x <? bx + 8) by (destruct (Z.ltb_spec (x - bx) 8), (Z.ltb_spec x (bx + 8)); lia).
      assert (D : d = (2 * W) * e + (x - bx)) by (unfold d; subst y g; lia).
      replace (0 <=? d) with (0 <=? e) by (rewrite D; destruct (Z.leb_spec 0 e), (Z.leb_spec 0 ((2 * W) * e + (x - bx))); nia).
      replace (y0 <=? y) with (0 <=? e) by (destruct (Z.leb_spec 0 e), (Z.leb_spec y0 y); lia).
      destruct (Z.ltb_spec x (bx + 8)); [|now rewrite andb_false_r]. rewrite !andb_true_r. cbn [andb]. f_equal.
      replace (y <? y0 + 16) with (e <? 8) by (destruct (Z.ltb_spec e 8), (Z.ltb_spec y (y0 + 16)); lia).
      rewrite D. destruct (Z.ltb_spec e 8), (Z.ltb_spec ((2 * W) * e + (x - bx)) (8 * (W * 2))); nia.
    + assert (E : d mod (W * 2) = W + (x - bx)).
      { symmetry. apply Z.mod_unique with (if g <? q then e - 1 else e); [left; lia|]. unfold d. subst y. destruct (Z.ltb_spec g q).
        - assert (g = 0 /\ q = 1) as [-> ->] by lia. lia. - assert (g = 1 /\ q = 0) as [-> ->] by lia. lia. }
      rewrite E. rewrite (proj2 (Z.ltb_ge (W + (x - bx)) 8)) by lia. now rewrite !andb_false_r.
  - assert (E : exists z, d mod (W * 2) = z /\ 8 <= z).
    { destruct (Z.eq_dec g q) as [G|G].
      - exists (2 * W + (x - bx)). split; [symmetry; apply Z.mod_unique with (e - 1); [left|]; unfold d; subst; lia | lia].
      - exists (W + (x - bx)). split; [|lia]. symmetry. apply Z.mod_unique with (if g <? q then e - 1 else e); [left; lia|]. unfold d. subst y. destruct (Z.ltb_spec g q).
        + assert (g = 0 /\ q = 1) as [-> ->] by lia. lia. + assert (g = 1 /\ q = 0) as [-> ->] by lia. lia. }
    destruct E as (z & -> & Hz). rewrite (proj2 (Z.ltb_ge z 8)) by lia. now rewrite andb_false_r.
Qed.

Lemma update_block : forall S row i col field f w h cb (s : S), frame420 f w h -> 0 <= i < 6 -> mb_in w h row col -> length cb = 64%nat ->
  exists p, update_frame_slice row i col field f cb s = (Ok (set_channel f i p), s) /\ pl_len p = pl_len (channel f i) /\
    forall x y, 0 <= x < plane_w i w -> 0 <= y < plane_h i h ->
      pl_at p (y * stride_of f i + x) =
      if hits field i row col x y then nth (Z.to_nat (8 * line field i row y + (x - block_x i col))) cb 0 else sample f i x y.
Proof.
  intros S row i col field f w h cb s Hf Hi (R1 & R2 & C1 & C2) Hcb.
  pose proof (frame_len f w h i Hf Hi) as HL. pose proof (frame_stride f w h i Hf) as HS.
  destruct (frame_dims f w h Hf) as (a & b & Ha & Hb & -> & ->).
  unfold update_frame_slice.
  assert (G : exists base st, slice_pos f i col field = (base, st) /\
     ((field && (i <? 4) = true /\ slice_off f i row + base = (16 * row + i / 2) * stride_of f i + block_x i col /\ st = stride_of f i * 2 /\ 0 <= i / 2 <= 1) \/
      (field && (i <? 4) = false /\ slice_off f i row + base = block_y i row * stride_of f i + block_x i col /\ st = stride_of f i)) /\ 0 <= base).
  { unfold slice_pos, slice_off, block_x, block_y. unfold stride_of in HS |- *. destruct (Z.ltb_spec i 4) as [L|L].
    - destruct (quarter_bits i Hi L) as (E1 & E2 & E3 & B1 & B2). rewrite E1, E2, E3. unfold plane_w in HS. rewrite (proj2 (Z.ltb_lt i 4) L) in HS.
      destruct field; cbn [andb]; (eexists; eexists; split; [reflexivity|]; split; [|nia]).
      + left. split; [reflexivity|]. split; [lia|]. split; [reflexivity | exact B1].
      + right. split; [reflexivity|]. split; [lia | reflexivity].
    - rewrite (proj2 (Z.ltb_lt i 6)) by lia. rewrite andb_false_r. eexists; eexists; split; [reflexivity|]. split; [|lia].
      right. split; [reflexivity|]. split; [lia | reflexivity]. }
  destruct G as (base & st & -> & G & Hbase).
  assert (BX : 0 <= block_x i col /\ block_x i col + 8 <= plane_w i (16 * a)).
  { unfold block_x, plane_w. rewrite half16. destruct (Z.ltb_spec i 4) as [L|L]; [|lia]. destruct (quarter_bits i Hi L) as (_ & _ & _ & _ & B2). lia. }
  assert (BY : 0 <= block_y i row /\ block_y i row + 8 <= plane_h i (16 * b)).
  { unfold block_y, plane_h. rewrite half16. destruct (Z.ltb_spec i 4) as [L|L]; [|lia]. destruct (quarter_bits i Hi L) as (_ & _ & _ & B1 & _). lia. }
  assert (BF : i <? 4 = true -> plane_h i (16 * b) = 16 * b) by (intro E; unfold plane_h; now rewrite E).
  assert (HW : 8 <= stride_of f i) by lia.
  rewrite <- HS in *. set (W := stride_of f i) in *.
  destruct (write_rows_ok S (rows8 cb) (channel f i) (slice_off f i row) base st 0 s) as (p & E & L & A).
  - destruct G as [(_ & _ & -> & _) | (_ & _ & ->)]; lia.
  - intros r Hr. now apply rows8_length with cb.
  - lia.
  - change (Z.of_nat (length (rows8 cb))) with 8. rewrite HL. destruct G as [(EB & EO & -> & Q) | (_ & EO & ->)].
    + apply andb_true_iff in EB. destruct EB as [_ EB]. rewrite (BF EB). replace (slice_off f i row + base + (0 + 8 - 1) * (W * 2) + 8) with ((16 * row + i / 2 + 14) * W + (block_x i col + 8)) by lia. nia.
    + replace (slice_off f i row + base + (0 + 8 - 1) * W + 8) with ((block_y i row + 7) * W + (block_x i col + 8)) by lia. nia.
  - exists p. rewrite (bind_ok _ _ _ _ _ _ _ _ E). split; [reflexivity|]. split; [exact L|]. intros x y Hx Hy.
    specialize (A (y * W + x)). cbv zeta in A. change (Z.of_nat (length (rows8 cb))) with 8 in A. rewrite Z.add_0_r in A. rewrite A. clear A E L.
    rewrite sample_eq by auto. fold W. unfold hits, line.
    destruct G as [(EB & EO & -> & Q) | (EB & EO & ->)]; rewrite EB, EO.
    + destruct (cover_field W x y (block_x i col) (16 * row) (i / 2)) as [HC HD]; try lia. rewrite HC.
      match goal with |- (if ?c then _ else _) = _ => destruct c eqn:EC end; [|reflexivity]. apply andb_true_iff in EC. destruct EC as [EC1 EC2]. apply andb_true_iff in EC1, EC2.
      destruct EC1 as [X1 X2], EC2 as [Y1 Y2]. apply andb_true_iff in Y1. destruct Y1 as [Y1 Y3]. apply Z.eqb_eq in Y2. apply Z.leb_le in X1, Y1. apply Z.ltb_lt in X2, Y3.
      destruct (HD X1 Y2) as [-> ->]. assert (0 <= (y - 16 * row) / 2 < 8) by (split; [apply Z.div_pos; lia | apply Z.div_lt_upper_bound; lia]).
      rewrite rows8_nth by lia. f_equal. lia.
    + destruct (cover_frame W x y (block_x i col) (block_y i row)) as [HC HD]; try lia. rewrite HC.
      match goal with |- (if ?c then _ else _) = _ => destruct c eqn:EC end; [|reflexivity]. apply andb_true_iff in EC. destruct EC as [EC1 EC2]. apply andb_true_iff in EC1, EC2.
      destruct EC1 as [X1 X2], EC2 as [Y1 Y2]. apply Z.leb_le in X1, Y1. apply Z.ltb_lt in X2, Y2.
      destruct (HD X1) as [-> ->]. rewrite rows8_nth by lia. f_equal. lia.
Qed.

(** The same, as frames *)
Definition sample_at (f : image) (i x y : Z) : Z := sample f i x y.
Lemma update_frame_ok : forall S row i col field f w h cb (s : S), frame420 f w h -> 0 <= i < 6 -> mb_in w h row col -> length cb = 64%nat ->
  exists f', update_frame_slice row i col field f cb s = (Ok f', s) /\ frame420 f' w h /\ im_w f' = im_w f /\ im_h f' = im_h f /\
    forall j x y, 0 <= j < 6 -> 0 <= x < plane_w j w -> 0 <= y < plane_h j h ->
      sample f' j x y = if same_plane i j && hits field i row col x y
                        then nth (Z.to_nat (8 * line field i row y + (x - block_x i col))) cb 0 else sample f j x y.
Proof.
  intros S row i col field f w h cb s Hf Hi Hm Hcb.
  destruct (update_block S row i col field f w h cb s Hf Hi Hm Hcb) as (p & E & L & A).
  exists (set_channel f i p). split; [exact E|]. split; [now apply set_channel_frame|]. destruct (set_channel_dims f i p) as [D1 D2]. split; [exact D1|]. split; [exact D2|].
  intros j x y Hj Hx Hy. rewrite sample_eq by auto. rewrite set_channel_channel, set_channel_strides by auto.
  destruct (same_plane i j) eqn:SP; cbn [andb].
  - assert (Q : plane_w j w = plane_w i w /\ plane_h j h = plane_h i h /\ stride_of f j = stride_of f i /\ forall x y, sample f j x y = sample f i x y).
    { unfold plane_w, plane_h, stride_of, sample. revert SP. clear - Hi Hj. six Hi; six Hj; cbn; intro; try discriminate; auto. }
    destruct Q as (Q1 & Q2 & Q3 & Q4). rewrite Q1 in Hx. rewrite Q2 in Hy. rewrite Q3, Q4. now apply A.
  - now rewrite sample_eq by auto.
Qed.

Definition written (w h row col : Z) (field : bool) (i : Z) (cb : list Z) (f f' : image) : Prop :=
  frame420 f' w h /\ im_w f' = im_w f /\ im_h f' = im_h f /\
  forall j x y, 0 <= j < 6 -> 0 <= x < plane_w j w -> 0 <= y < plane_h j h ->
    sample f' j x y = if same_plane i j && hits field i row col x y
                      then nth (Z.to_nat (8 * line field i row y + (x - block_x i col))) cb 0 else sample f j x y.

(** The block a luma sample of a macroblock belongs to, and its place in it *)
Definition luma_block (field : bool) (x y : Z) : Z := if field then 2 * (y mod 2) + x / 8 else 2 * (y / 8) + x / 8.
Definition luma_place (field : bool) (x y : Z) : Z := if field then 8 * (y / 2) + x mod 8 else 8 * (y mod 8) + x mod 8.

Ltac dm a b := pose proof (Z.div_mod a b ltac:(lia)); pose proof (Z.mod_pos_bound a b ltac:(lia)).
Lemma hits_luma : forall field i row col x y, 0 <= i < 4 -> hits field i row col x y =
  in_mbs 16 row col 1 x y && (i =? luma_block field (x - 16 * col) (y - 16 * row)).
Proof.
  intros field i row col x y Hi. unfold hits, in_mbs, luma_block, block_x, block_y.
  rewrite (proj2 (Z.ltb_lt i 4)) by lia. rewrite andb_true_r.
  dm (x - 16 * col) 8. dm (y - 16 * row) 8. dm (y - 16 * row) 2. dm i 2.
  apply Bool.eq_iff_eq_true. destruct field; rewrite ?andb_true_iff, ?Z.leb_le, ?Z.ltb_lt, ?Z.eqb_eq; split; lia.
Qed.
Lemma luma_place_eq : forall field i row col x y, 0 <= i < 4 -> in_mbs 16 row col 1 x y = true ->
  i = luma_block field (x - 16 * col) (y - 16 * row) ->
  8 * line field i row y + (x - block_x i col) = luma_place field (x - 16 * col) (y - 16 * row).
Proof.
  intros field i row col x y Hi Hin E. unfold in_mbs in Hin. rewrite !andb_true_iff, !Z.leb_le, !Z.ltb_lt in Hin.
  unfold line, luma_place, luma_block, block_x, block_y in *. rewrite (proj2 (Z.ltb_lt i 4)) by lia. rewrite andb_true_r.
  dm (x - 16 * col) 8. dm (y - 16 * row) 8. dm (y - 16 * row) 2. dm i 2. destruct field; lia.
Qed.
Lemma luma_block_range : forall field row col x y, in_mbs 16 row col 1 x y = true ->
  0 <= luma_block field (x - 16 * col) (y - 16 * row) < 4.
Proof.
  intros field row col x y Hin. unfold in_mbs in Hin. rewrite !andb_true_iff, !Z.leb_le, !Z.ltb_lt in Hin. unfold luma_block.
  dm (x - 16 * col) 8. dm (y - 16 * row) 8. dm (y - 16 * row) 2. destruct field; lia.
Qed.
Lemma hits_chroma : forall field i row col x y, 4 <= i < 6 -> hits field i row col x y = in_mbs 8 row col 1 x y.
Proof.
  intros field i row col x y Hi. unfold hits, in_mbs, block_x, block_y. rewrite (proj2 (Z.ltb_ge i 4)) by lia. rewrite andb_false_r.
  apply Bool.eq_iff_eq_true. rewrite !andb_true_iff, !Z.leb_le, !Z.ltb_lt. split; lia.
Qed.

Lemma six_written : forall w h row col field c0 c1 c2 c3 c4 c5 f f1 f2 f3 f4 f5 f6,
  written w h row col field 0 c0 f f1 -> written w h row col field 1 c1 f1 f2 -> written w h row col field 2 c2 f2 f3 ->
  written w h row col field 3 c3 f3 f4 -> written w h row col field 4 c4 f4 f5 -> written w h row col field 5 c5 f5 f6 ->
  replaces w h f f6 row col 1
    (fun x y => mb_luma field [c0; c1; c2; c3] (x - 16 * col) (y - 16 * row))
    (fun x y => nth (Z.to_nat (8 * (y - 8 * row) + (x - 8 * col))) c4 0)
    (fun x y => nth (Z.to_nat (8 * (y - 8 * row) + (x - 8 * col))) c5 0).
Proof.
  intros w h row col field c0 c1 c2 c3 c4 c5 f f1 f2 f3 f4 f5 f6 (_ & D1 & E1 & A1) (_ & D2 & E2 & A2) (_ & D3 & E3 & A3) (_ & D4 & E4 & A4) (_ & D5 & E5 & A5) (F6 & D6 & E6 & A6).
  split; [exact F6|]. split; [congruence|]. split; [congruence|]. split; [|split].
  - intros x y Hx Hy. pose proof (fun j => A1 j x y) as B1. pose proof (fun j => A2 j x y) as B2. pose proof (fun j => A3 j x y) as B3.
    pose proof (fun j => A4 j x y) as B4. pose proof (fun j => A5 j x y) as B5. pose proof (fun j => A6 j x y) as B6.
    specialize (B1 0 ltac:(lia) Hx Hy). specialize (B2 0 ltac:(lia) Hx Hy). specialize (B3 0 ltac:(lia) Hx Hy).
    specialize (B4 0 ltac:(lia) Hx Hy). specialize (B5 0 ltac:(lia) Hx Hy). specialize (B6 0 ltac:(lia) Hx Hy).
    unfold same_plane in *. change (4 <? 4) with false in *. change (5 <? 4) with false in *. change (4 =? 0) with false in *. change (5 =? 0) with false in *.
    change (0 <? 4) with true in *. change (1 <? 4) with true in *. change (2 <? 4) with true in *. change (3 <? 4) with true in *.
    cbn [andb] in *. change (sample f6 0 x y) with (luma f6 x y) in B6. change (sample f 0 x y) with (luma f x y) in B1.
    rewrite B6, B5, B4, B3, B2, B1. clear B1 B2 B3 B4 B5 B6 A1 A2 A3 A4 A5 A6. rewrite !hits_luma by lia.
    destruct (in_mbs 16 row col 1 x y) eqn:IN; cbn [andb]; [|reflexivity].
    pose proof (luma_block_range field row col x y IN) as R.
    assert (P : forall i, 0 <= i < 4 -> i = luma_block field (x - 16 * col) (y - 16 * row) ->
       8 * line field i row y + (x - block_x i col) = luma_place field (x - 16 * col) (y - 16 * row)) by (intros; now apply luma_place_eq).
    assert (Q : mb_luma field [c0; c1; c2; c3] (x - 16 * col) (y - 16 * row) =
       nth (Z.to_nat (luma_place field (x - 16 * col) (y - 16 * row))) (nth (Z.to_nat (luma_block field (x - 16 * col) (y - 16 * row))) [c0; c1; c2; c3] []) 0).
    { unfold mb_luma, luma_place, luma_block. destruct field; reflexivity. }
    rewrite Q. clear Q. remember (luma_block field (x - 16 * col) (y - 16 * row)) as i eqn:Ei.
    assert (C : i = 0 \/ i = 1 \/ i = 2 \/ i = 3) by lia.
    destruct C as [C | [C | [C | C] ] ]; rewrite C in *; cbn [Z.eqb Pos.eqb]; rewrite P by (auto; lia); reflexivity.
  - intros x y Hx Hy. pose proof (fun j => A1 j x y) as B1. pose proof (fun j => A2 j x y) as B2. pose proof (fun j => A3 j x y) as B3.
    pose proof (fun j => A4 j x y) as B4. pose proof (fun j => A5 j x y) as B5. pose proof (fun j => A6 j x y) as B6.
    specialize (B1 4 ltac:(lia) Hx Hy). specialize (B2 4 ltac:(lia) Hx Hy). specialize (B3 4 ltac:(lia) Hx Hy).
    specialize (B4 4 ltac:(lia) Hx Hy). specialize (B5 4 ltac:(lia) Hx Hy). specialize (B6 4 ltac:(lia) Hx Hy).
    unfold same_plane in *. cbn [Z.ltb Z.compare Pos.compare Pos.compare_cont Z.eqb Pos.eqb andb] in *.
    change (sample f6 4 x y) with (blue f6 x y) in B6. change (sample f 4 x y) with (blue f x y) in B1.
    rewrite B6, B5, B4, B3, B2, B1. rewrite hits_chroma by lia. destruct field; reflexivity.
  - intros x y Hx Hy. pose proof (fun j => A1 j x y) as B1. pose proof (fun j => A2 j x y) as B2. pose proof (fun j => A3 j x y) as B3.
    pose proof (fun j => A4 j x y) as B4. pose proof (fun j => A5 j x y) as B5. pose proof (fun j => A6 j x y) as B6.
    specialize (B1 5 ltac:(lia) Hx Hy). specialize (B2 5 ltac:(lia) Hx Hy). specialize (B3 5 ltac:(lia) Hx Hy).
    specialize (B4 5 ltac:(lia) Hx Hy). specialize (B5 5 ltac:(lia) Hx Hy). specialize (B6 5 ltac:(lia) Hx Hy).
    unfold same_plane in *. cbn [Z.ltb Z.compare Pos.compare Pos.compare_cont Z.eqb Pos.eqb andb] in *.
    change (sample f6 5 x y) with (red f6 x y) in B6. change (sample f 5 x y) with (red f x y) in B1.
    rewrite B6, B5, B4, B3, B2, B1. rewrite hits_chroma by lia. destruct field; reflexivity.
Qed.

(** * Skipped macroblocks of P pictures *)
Lemma pl_slice_in : forall S p si w (s : S), 0 <= si -> 0 <= w -> si + w <= pl_len p ->
  pl_slice p si w s = (Ok (map (fun k => pl_at p (si + Z.of_nat k)) (seq 0 (Z.to_nat w))), s).
Proof.
  intros. unfold pl_slice. now rewrite (proj2 (Z.leb_le 0 si)), (proj2 (Z.leb_le 0 w)), (proj2 (Z.leb_le (si + w) (pl_len p))) by lia.
Qed.

Lemma copy_lines_ok : forall S n v src dst off srcoff st x w (s : S), 0 <= x -> 0 < w -> w <= st -> 0 <= v -> 0 <= off -> 0 <= srcoff ->
  srcoff + (v + Z.of_nat n - 1) * st + x + w <= pl_len src -> off + (v + Z.of_nat n - 1) * st + x + w <= pl_len dst ->
  exists p, copy_lines n v src dst off srcoff st st x w s = (Ok p, s) /\ pl_len p = pl_len dst /\
    forall k, let d := k - (off + v * st + x) in
      pl_at p k = if covers st w (Z.of_nat n) d then pl_at src (srcoff - off + k) else pl_at dst k.
Proof.
  intros S. induction n as [|n IH]; intros v src dst off srcoff st x w s Hx Hw Hws Hv Ho Hso Hs Hd.
  - exists dst. split; [reflexivity|]. split; [reflexivity|]. intro k. cbv zeta. destruct (Z.lt_ge_cases (k - (off + v * st + x)) 0).
    + now rewrite covers_neg. + rewrite covers_past by lia. reflexivity.
  - cbn [copy_lines]. rewrite Nat2Z.inj_succ in Hs, Hd.
    rewrite (bind_ok _ _ _ _ _ _ _ _ (pl_slice_in S src (srcoff + v * st + x) w s ltac:(nia) ltac:(lia) ltac:(nia))).
    set (l := map _ _). assert (L : Z.of_nat (length l) = w) by (unfold l; rewrite map_length, seq_length; lia).
    destruct (pl_write_in S dst off (v * st + x) l s) as (p1 & E1 & L1 & A1); [nia | rewrite L; nia|].
    rewrite (bind_ok _ _ _ _ _ _ _ _ E1).
    destruct (IH (v + 1) src p1 off srcoff st x w s) as (p2 & E2 & L2 & A2); try lia.
    exists p2. split; [exact E2|]. split; [congruence|]. intro k. cbv zeta in A2 |- *. rewrite A2, A1. rewrite L. cbv zeta. clear A2 A1 E1 E2.
    set (d := k - (off + v * st + x)). replace (k - (off + (v + 1) * st + x)) with (d - st) by (unfold d; lia).
    replace (k - (off + (v * st + x))) with d by (unfold d; lia).
    rewrite (Nat2Z.inj_succ n). assert (K : k = d + (off + v * st + x)) by (unfold d; lia). clearbody d.
    destruct (Z.lt_ge_cases d 0) as [D|D].
    + rewrite (covers_neg _ _ _ (d - st)), (covers_neg _ _ _ d) by lia. now rewrite (proj2 (Z.leb_gt 0 d)) by lia.
    + destruct (Z.lt_ge_cases d st) as [D2|D2].
      * rewrite (covers_neg _ _ _ (d - st)) by lia. rewrite covers_first by lia. rewrite (proj2 (Z.leb_le 0 d)) by lia. cbn [andb].
        destruct (Z.ltb_spec d w); [|reflexivity]. unfold l.
        rewrite (nth_indep _ 0 ((fun k => pl_at src (srcoff + v * st + x + Z.of_nat k)) 0%nat)) by (rewrite map_length, seq_length; lia).
        rewrite (map_nth (fun k => pl_at src (srcoff + v * st + x + Z.of_nat k))), seq_nth by lia. f_equal. lia.
      * rewrite (covers_next st w (Z.succ (Z.of_nat n)) d) by lia. replace (Z.succ (Z.of_nat n) - 1) with (Z.of_nat n) by lia.
        destruct (covers st w (Z.of_nat n) (d - st)); [reflexivity|].
        rewrite (proj2 (Z.ltb_ge d w)) by lia. now rewrite andb_false_r.
Qed.

Lemma cover_mbs : forall W x y size row col n, 0 < size -> 0 <= x < W -> 0 <= col -> 1 <= n -> size * (col + n) <= W ->
  covers W (n * size) size (y * W + x - (size * row * W + col * size)) = in_mbs size row col n x y.
Proof.
  intros W x y size row col n Hs Hx Hc Hn Hw. unfold covers, in_mbs.
  destruct (Z.leb_spec (size * col) x) as [L|L]; cbn [andb].
  - assert (E : (y * W + x - (size * row * W + col * size)) mod W = x - size * col) by (symmetry; apply Z.mod_unique with (y - size * row); [left|]; lia).
    rewrite E. replace (x - size * col <? n * size) with (x <? size * (col + n)) by (destruct (Z.ltb_spec (x - size * col) (n * size)), (Z.ltb_spec x (size * (col + n))); lia).
    destruct (Z.ltb_spec x (size * (col + n))); [|now rewrite andb_false_r]. rewrite andb_true_r. cbn [andb]. 
    replace (y * W + x - (size * row * W + col * size)) with ((y - size * row) * W + (x - size * col)) by lia. set (e := y - size * row).
    replace (size * row <=? y) with (0 <=? e) by (unfold e; destruct (Z.leb_spec 0 (y - size * row)), (Z.leb_spec (size * row) y); lia).
    replace (y <? size * row + size) with (e <? size) by (unfold e; destruct (Z.ltb_spec (y - size * row) size), (Z.ltb_spec y (size * row + size)); lia).
    f_equal; [destruct (Z.leb_spec 0 e), (Z.leb_spec 0 (e * W + (x - size * col))); nia | destruct (Z.ltb_spec e size), (Z.ltb_spec (e * W + (x - size * col)) (size * W)); nia].
  - assert (E : (y * W + x - (size * row * W + col * size)) mod W = x - size * col + W) by (symmetry; apply Z.mod_unique with (y - size * row - 1); [left|]; nia).
    rewrite E. rewrite (proj2 (Z.ltb_ge (x - size * col + W) (n * size))) by nia. now rewrite andb_false_r.
Qed.

Lemma copy_plane : forall S k (src dst : plane) W H size row col n (s : S), Z.of_nat k = size -> 0 < size -> 
  pl_len src = W * H -> pl_len dst = W * H -> 0 <= row -> size * row + size <= H -> 0 <= col -> 1 <= n -> size * (col + n) <= W ->
  exists p, copy_lines k 0 src dst (size * row * W) (row * size * W) W W (col * size) (n * size) s = (Ok p, s) /\ pl_len p = W * H /\
    forall x y, 0 <= x < W -> 0 <= y < H -> pix p W x y = if in_mbs size row col n x y then pix src W x y else pix dst W x y.
Proof.
  intros S k src dst W H size row col n s Hk Hs L1 L2 Hr Hh Hc Hn Hw.
  destruct (copy_lines_ok S k 0 src dst (size * row * W) (row * size * W) W (col * size) (n * size) s) as (p & E & L & A); try nia.
  exists p. split; [exact E|]. split; [congruence|]. intros x y Hx Hy. unfold pix. specialize (A (y * W + x)). cbv zeta in A. rewrite A.
  rewrite Hk. replace (y * W + x - (size * row * W + 0 * W + col * size)) with (y * W + x - (size * row * W + col * size)) by lia.
  rewrite cover_mbs by lia. replace (row * size * W - size * row * W + (y * W + x)) with (y * W + x) by lia. reflexivity.
Qed.

Lemma pframe_copy_ok : forall S row col n dest src w h (s : S), frame420 dest w h -> frame420 src w h ->
  0 <= row -> 16 * row + 16 <= h -> 0 <= col -> 1 <= n -> 16 * (col + n) <= w ->
  exists f', pframe_copy_macroblocks row col n dest src s = (Ok f', s) /\ replaces w h dest f' row col n (luma src) (blue src) (red src).
Proof.
  intros S row col n dest src w h s Hd Hs Hr Hh Hc Hn Hw.
  destruct (frame_dims dest w h Hd) as (a & b & Ha & Hb & -> & ->).
  pose proof Hd as (_ & _ & M1 & M2 & Y1 & C1 & LY1 & LB1 & LR1). pose proof Hs as (_ & _ & _ & _ & Y2 & C2 & LY2 & LB2 & LR2).
  rewrite !half16 in *. unfold pframe_copy_macroblocks, slice_off. change (0 <? 4) with true. change (4 <? 4) with false. change (5 <? 4) with false. change (4 <? 6) with true. change (5 <? 6) with true. cbv iota. rewrite Y1, Y2, C1, C2.
  destruct (copy_plane S 16 (im_y src) (im_y dest) (16 * a) (16 * b) 16 row col n s) as (p0 & E0 & L0 & A0); try lia.
  destruct (copy_plane S 8 (im_cb src) (im_cb dest) (8 * a) (8 * b) 8 row col n s) as (p1 & E1 & L1 & A1); try lia.
  destruct (copy_plane S 8 (im_cr src) (im_cr dest) (8 * a) (8 * b) 8 row col n s) as (p2 & E2 & L2 & A2); try lia.
  rewrite (bind_ok _ _ _ _ _ _ _ _ E0), (bind_ok _ _ _ _ _ _ _ _ E1), (bind_ok _ _ _ _ _ _ _ _ E2).
  eexists. split; [reflexivity|]. unfold replaces, luma, blue, red. cbn [im_y im_cb im_cr im_ys im_cs im_w im_h]. rewrite Y1, Y2, C1, C2, !half16.
  split; [|split; [reflexivity|split; [reflexivity|split; [exact A0|split; [exact A1|exact A2]]]]].
  unfold frame420. cbn [im_y im_cb im_cr im_ys im_cs im_w im_h]. rewrite !half16. repeat split; lia.
Qed.
