(** MbProofs: the blocks of a macroblock; skipped macroblocks of B pictures; addresses. *)
From Verif Require Import Base BitReader Exec Local Mono TsRobust PesLocal Huffman VlcTables SpecVlc VidModel BlockModel VlcProofs BlockProofs DequantProofs MbModel SpecMotion MotionProofs FrameProofs.

(** The block that is written: residual plus prediction, clamped *)
Definition recon (past future : option (image * (Z * Z))) (i row col : Z) (res : list Z) : list Z :=
  map (fun k => clamp255 (nth k res 0 + predict past future i row col (Z.of_nat k mod 8) (Z.of_nat k / 8))) (seq 0 64).
Definition small (res : list Z) : Prop := forall k, - 2 ^ 30 <= nth k res 0 < 2 ^ 30.
Lemma small_zero : small block_zero.
Proof. intro k. unfold block_zero. rewrite nth_repeat. lia. Qed.
Lemma recon_length : forall past future i row col res, length (recon past future i row col res) = 64%nat.
Proof. intros. unfold recon. now rewrite map_length, seq_length. Qed.

(** Everything needed to predict macroblock [col] of row [row] *)
Definition refs_in (w h row col : Z) (m : mvdata) (fs : framestore) : Prop :=
  ref_bytes (past_ref m fs) /\ ref_bytes (future_ref m fs) /\
  forall i, 0 <= i < 6 -> reference_in w h i row col (past_ref m fs) /\ reference_in w h i row col (future_ref m fs).

Lemma put_block_ok : forall S m fs w h row col i field res f (s : S), 0 <= i < 6 -> frame420 f w h -> mb_in w h row col ->
  refs_in w h row col m fs -> small res ->
  exists b f', put_block m fs row col i field res f s = (Ok (b, f'), s) /\
    written w h row col field i (recon (past_ref m fs) (future_ref m fs) i row col res) f f'.
Proof.
  intros S m fs w h row col i field res f s Hi Hf Hm (BP & BF & HR) Hs. destruct (HR i Hi) as [HP HF]. unfold put_block.
  rewrite (bind_ok _ _ _ _ _ _ _ _ (motion_compensation_ok S m w h i row col fs res s Hi HP HF BP BF)).
  set (b := map _ _).
  assert (EC : block_clamp b = recon (past_ref m fs) (future_ref m fs) i row col res).
  { unfold block_clamp, b, recon. rewrite map_map. apply map_ext_in. intros k Hk. apply in_seq in Hk.
    pose proof (Z.mod_pos_bound (Z.of_nat k) 8). assert (0 <= Z.of_nat k / 8 < 8) by (split; [apply Z.div_pos; lia | apply Z.div_lt_upper_bound; lia]).
    pose proof (predict_range (past_ref m fs) (future_ref m fs) w h i row col (Z.of_nat k mod 8) (Z.of_nat k / 8) Hi HP HF BP BF ltac:(lia) ltac:(lia)).
    rewrite i32_small by (pose proof (Hs k); change (2 ^ 30) with 1073741824 in *; lia). apply clamp1_spec. }
  rewrite EC.
  destruct (update_frame_ok S row i col field f w h (recon (past_ref m fs) (future_ref m fs) i row col res) s Hf Hi Hm (recon_length _ _ _ _ _ _)) as (f' & E & F1 & F2 & F3 & F4).
  exists b, f'. rewrite (bind_ok _ _ _ _ _ _ _ _ E). split; [reflexivity|]. repeat split; auto; apply F1.
Qed.

(** What a macroblock becomes: the residual in its place plus the prediction, when luma blocks are in frame order *)
Lemma recon_nth : forall past future i row col res k, (k < 64)%nat ->
  nth k (recon past future i row col res) 0 = clamp255 (nth k res 0 + predict past future i row col (Z.of_nat k mod 8) (Z.of_nat k / 8)).
Proof.
  intros past future i row col res k H. unfold recon.
  set (g := fun k => clamp255 (nth k res 0 + predict past future i row col (Z.of_nat k mod 8) (Z.of_nat k / 8))).
  rewrite (nth_indep _ 0 (g 0%nat)) by (rewrite map_length, seq_length; lia). rewrite (map_nth g), seq_nth by lia. reflexivity.
Qed.

Lemma place_coords : forall u v, 0 <= u < 8 -> 0 <= v < 8 ->
  Z.of_nat (Z.to_nat (8 * v + u)) mod 8 = u /\ Z.of_nat (Z.to_nat (8 * v + u)) / 8 = v.
Proof.
  intros u v Hu Hv. rewrite Z2Nat.id by lia. split; [symmetry; apply Z.mod_unique with v; [left|]; lia | symmetry; apply Z.div_unique with u; [left|]; lia].
Qed.

Lemma replaces_ext : forall w h f f' row col n ly lb lr ly' lb' lr', replaces w h f f' row col n ly lb lr ->
  (forall x y, in_mbs 16 row col n x y = true -> ly x y = ly' x y) ->
  (forall x y, in_mbs 8 row col n x y = true -> lb x y = lb' x y) ->
  (forall x y, in_mbs 8 row col n x y = true -> lr x y = lr' x y) -> replaces w h f f' row col n ly' lb' lr'.
Proof.
  intros w h f f' row col n ly lb lr ly' lb' lr' (A & B & C & D & E & F) H1 H2 H3. split; [exact A|]. split; [exact B|]. split; [exact C|].
  split; [|split]; intros x y Hx Hy; [rewrite D | rewrite E | rewrite F]; auto; destruct (in_mbs _ _ _ _ _ _) eqn:I; auto.
Qed.

Lemma in_mbs_spec : forall size row col n x y, in_mbs size row col n x y = true <->
  size * col <= x < size * (col + n) /\ size * row <= y < size * row + size.
Proof. intros. unfold in_mbs. rewrite !andb_true_iff, !Z.leb_le, !Z.ltb_lt. lia. Qed.

Lemma recon_luma : forall past future row col r0 r1 r2 r3 x y, 0 <= x < 16 -> 0 <= y < 16 ->
  mb_luma false [recon past future 0 row col r0; recon past future 1 row col r1; recon past future 2 row col r2; recon past future 3 row col r3] x y =
  clamp255 (mb_luma false [r0; r1; r2; r3] x y + predict_at past future 0 (16 * col + x) (16 * row + y)).
Proof.
  intros past future row col r0 r1 r2 r3 x y Hx Hy. unfold mb_luma.
  dm x 8. dm y 8. set (qx := x / 8) in *. set (qy := y / 8) in *. set (ux := x mod 8) in *. set (uy := y mod 8) in *. clearbody qx qy ux uy.
  assert (C : (qx = 0 \/ qx = 1) /\ (qy = 0 \/ qy = 1)) by lia. destruct (place_coords ux uy) as [P1 P2]; [lia..|].
  assert (PI : forall i a b, predict_at past future i a b = predict_at past future 0 a b \/ ~ (0 <= i < 4)).
  { intros i a b. destruct (Z.lt_ge_cases i 4) as [L|L]; [|right; lia]. destruct (Z.lt_ge_cases i 0) as [L0|L0]; [right; lia|]. left.
    unfold predict_at, predict1_at, sample, block_vector. rewrite (proj2 (Z.ltb_lt i 4)) by lia. reflexivity. }
  destruct C as [[-> | ->] [-> | ->]]; change (Z.to_nat (2 * 0 + 0)) with 0%nat; change (Z.to_nat (2 * 0 + 1)) with 1%nat;
    change (Z.to_nat (2 * 1 + 0)) with 2%nat; change (Z.to_nat (2 * 1 + 1)) with 3%nat; cbn [nth]; rewrite recon_nth by lia; rewrite P1, P2;
    f_equal; f_equal; unfold predict, block_x, block_y; cbn [Z.ltb Z.compare Pos.compare Pos.compare_cont].
  - change (0 mod 2) with 0. change (0 / 2) with 0. f_equal; lia.
  - change (2 mod 2) with 0. change (2 / 2) with 1. destruct (PI 2 (16 * col + 8 * 0 + ux) (16 * row + 8 * 1 + uy)) as [-> | N]; [|lia]. f_equal; lia.
  - change (1 mod 2) with 1. change (1 / 2) with 0. destruct (PI 1 (16 * col + 8 * 1 + ux) (16 * row + 8 * 0 + uy)) as [-> | N]; [|lia]. f_equal; lia.
  - change (3 mod 2) with 1. change (3 / 2) with 1. destruct (PI 3 (16 * col + 8 * 1 + ux) (16 * row + 8 * 1 + uy)) as [-> | N]; [|lia]. f_equal; lia.
Qed.
Lemma recon_chroma : forall past future i row col res x y, 4 <= i -> 0 <= x < 8 -> 0 <= y < 8 ->
  nth (Z.to_nat (8 * y + x)) (recon past future i row col res) 0 =
  clamp255 (nth (Z.to_nat (8 * y + x)) res 0 + predict_at past future i (8 * col + x) (8 * row + y)).
Proof.
  intros past future i row col res x y Hi Hx Hy. rewrite recon_nth by lia. destruct (place_coords x y) as [-> ->]; [lia..|].
  unfold predict, block_x, block_y. rewrite (proj2 (Z.ltb_ge i 4)) by lia. reflexivity.
Qed.

(** The six blocks of a macroblock in frame order *)
Definition mb_result (past future : option (image * (Z * Z))) (row col : Z) (res : list (list Z)) : (Z -> Z -> Z) * (Z -> Z -> Z) * (Z -> Z -> Z) :=
  (fun x y => clamp255 (mb_luma false (firstn 4 res) (x - 16 * col) (y - 16 * row) + predict_at past future 0 x y),
   fun x y => clamp255 (nth (Z.to_nat (8 * (y - 8 * row) + (x - 8 * col))) (nth 4 res []) 0 + predict_at past future 4 x y),
   fun x y => clamp255 (nth (Z.to_nat (8 * (y - 8 * row) + (x - 8 * col))) (nth 5 res []) 0 + predict_at past future 5 x y)).

Lemma six_recon : forall w h row col past future r0 r1 r2 r3 r4 r5 f f1 f2 f3 f4 f5 f6,
  written w h row col false 0 (recon past future 0 row col r0) f f1 -> written w h row col false 1 (recon past future 1 row col r1) f1 f2 ->
  written w h row col false 2 (recon past future 2 row col r2) f2 f3 -> written w h row col false 3 (recon past future 3 row col r3) f3 f4 ->
  written w h row col false 4 (recon past future 4 row col r4) f4 f5 -> written w h row col false 5 (recon past future 5 row col r5) f5 f6 ->
  replaces w h f f6 row col 1 (fst (fst (mb_result past future row col [r0; r1; r2; r3; r4; r5])))
    (snd (fst (mb_result past future row col [r0; r1; r2; r3; r4; r5]))) (snd (mb_result past future row col [r0; r1; r2; r3; r4; r5])).
Proof.
  intros. eapply replaces_ext; [eapply six_written; eassumption| | |]; cbn [fst snd mb_result firstn nth]; intros x y I; apply in_mbs_spec in I.
  - rewrite recon_luma by lia. replace (16 * col + (x - 16 * col)) with x by lia. replace (16 * row + (y - 16 * row)) with y by lia. reflexivity.
  - rewrite recon_chroma by lia. replace (8 * col + (x - 8 * col)) with x by lia. replace (8 * row + (y - 8 * row)) with y by lia. reflexivity.
  - rewrite recon_chroma by lia. replace (8 * col + (x - 8 * col)) with x by lia. replace (8 * row + (y - 8 * row)) with y by lia. reflexivity.
Qed.

(** ** Skipped macroblocks of B pictures *)
Lemma predict_at_range : forall past future w h i row col x y, 0 <= i < 6 ->
  reference_in w h i row col past -> reference_in w h i row col future -> ref_bytes past -> ref_bytes future ->
  block_x i col <= x < block_x i col + 8 -> block_y i row <= y < block_y i row + 8 ->
  0 <= predict_at past future i x y <= 255.
Proof.
  intros past future w h i row col x y Hi HP HF BP BF Hx Hy.
  pose proof (predict_range past future w h i row col (x - block_x i col) (y - block_y i row) Hi HP HF BP BF ltac:(lia) ltac:(lia)) as R.
  unfold predict in R. now replace (block_x i col + (x - block_x i col)) with x in R by lia; replace (block_y i row + (y - block_y i row)) with y in R by lia.
Qed.
Lemma clamp_id : forall z, 0 <= z <= 255 -> clamp255 z = z.
Proof. intros. unfold clamp255. lia. Qed.
Lemma zero_nth : forall k, nth k block_zero 0 = 0.
Proof. intro k. unfold block_zero. apply nth_repeat. Qed.
Lemma mb_luma_zero : forall field x y, mb_luma field [block_zero; block_zero; block_zero; block_zero] x y = 0.
Proof.
  intros field x y. unfold mb_luma.
  assert (Z0 : forall n k, nth k (nth n [block_zero; block_zero; block_zero; block_zero] []) 0 = 0).
  { intros n k. do 4 (destruct n as [|n]; [apply zero_nth|]). destruct n; destruct k; reflexivity. }
  destruct field; apply Z0.
Qed.

Lemma bframe_blocks_ok : forall S m fs w h row col f (s : S), frame420 f w h -> mb_in w h row col -> refs_in w h row col m fs ->
  exists f', bframe_blocks m fs row col [0; 1; 2; 3; 4; 5] f s = (Ok f', s) /\
    replaces w h f f' row col 1 (predict_at (past_ref m fs) (future_ref m fs) 0) (predict_at (past_ref m fs) (future_ref m fs) 4)
      (predict_at (past_ref m fs) (future_ref m fs) 5).
Proof.
  intros S m fs w h row col f s Hf Hm Hr. cbn [bframe_blocks].
  destruct (put_block_ok S m fs w h row col 0 false block_zero f s ltac:(lia) Hf Hm Hr small_zero) as (b1 & f1 & E1 & W1).
  rewrite (bind_ok _ _ _ _ _ _ _ _ E1). cbn [snd].
  destruct (put_block_ok S m fs w h row col 1 false block_zero f1 s ltac:(lia) (proj1 W1) Hm Hr small_zero) as (b2 & f2 & E2 & W2).
  rewrite (bind_ok _ _ _ _ _ _ _ _ E2). cbn [snd].
  destruct (put_block_ok S m fs w h row col 2 false block_zero f2 s ltac:(lia) (proj1 W2) Hm Hr small_zero) as (b3 & f3 & E3 & W3).
  rewrite (bind_ok _ _ _ _ _ _ _ _ E3). cbn [snd].
  destruct (put_block_ok S m fs w h row col 3 false block_zero f3 s ltac:(lia) (proj1 W3) Hm Hr small_zero) as (b4 & f4 & E4 & W4).
  rewrite (bind_ok _ _ _ _ _ _ _ _ E4). cbn [snd].
  destruct (put_block_ok S m fs w h row col 4 false block_zero f4 s ltac:(lia) (proj1 W4) Hm Hr small_zero) as (b5 & f5 & E5 & W5).
  rewrite (bind_ok _ _ _ _ _ _ _ _ E5). cbn [snd].
  destruct (put_block_ok S m fs w h row col 5 false block_zero f5 s ltac:(lia) (proj1 W5) Hm Hr small_zero) as (b6 & f6 & E6 & W6).
  rewrite (bind_ok _ _ _ _ _ _ _ _ E6). cbn [snd].
  exists f6. split; [reflexivity|]. eapply replaces_ext; [eapply six_recon; eassumption| | |]; destruct Hr as (BP & BF & HR);
    cbn [fst snd mb_result firstn nth]; intros x y I; apply in_mbs_spec in I.
  - rewrite mb_luma_zero, Z.add_0_l. apply clamp_id.
    dm (x - 16 * col) 8. dm (y - 16 * row) 8. set (i := 2 * ((y - 16 * row) / 8) + (x - 16 * col) / 8).
    assert (Hi : 0 <= i < 4) by (unfold i; lia).
    assert (EI : predict_at (past_ref m fs) (future_ref m fs) 0 x y = predict_at (past_ref m fs) (future_ref m fs) i x y).
    { unfold predict_at, predict1_at, sample, block_vector. rewrite (proj2 (Z.ltb_lt i 4)) by lia. reflexivity. }
    rewrite EI. destruct (HR i ltac:(lia)) as [HP HF].
    assert (EQ : i mod 2 = (x - 16 * col) / 8 /\ i / 2 = (y - 16 * row) / 8).
    { split; [symmetry; apply Z.mod_unique with ((y - 16 * row) / 8); [left|]; unfold i; lia | symmetry; apply Z.div_unique with ((x - 16 * col) / 8); [left|]; unfold i; lia]. }
    apply (predict_at_range _ _ w h i row col); auto; [lia| |]; unfold block_x, block_y; rewrite (proj2 (Z.ltb_lt i 4)) by lia; lia.
  - rewrite zero_nth, Z.add_0_l. apply clamp_id. destruct (HR 4 ltac:(lia)) as [HP HF].
    apply (predict_at_range _ _ w h 4 row col); auto; [lia| |]; unfold block_x, block_y; cbn [Z.ltb Z.compare Pos.compare Pos.compare_cont]; lia.
  - rewrite zero_nth, Z.add_0_l. apply clamp_id. destruct (HR 5 ltac:(lia)) as [HP HF].
    apply (predict_at_range _ _ w h 5 row col); auto; [lia| |]; unfold block_x, block_y; cbn [Z.ltb Z.compare Pos.compare Pos.compare_cont]; lia.
Qed.

Lemma in_mbs_split : forall size row col n x y, 0 < size -> 0 <= n -> in_mbs size row col (n + 1) x y = in_mbs size row col 1 x y || in_mbs size row (col + 1) n x y.
Proof. intros. apply Bool.eq_iff_eq_true. rewrite orb_true_iff, !in_mbs_spec. nia. Qed.
Lemma replaces_app : forall w h f f1 f2 row col n ly lb lr, 0 <= n -> replaces w h f f1 row col 1 ly lb lr -> replaces w h f1 f2 row (col + 1) n ly lb lr ->
  replaces w h f f2 row col (n + 1) ly lb lr.
Proof.
  intros w h f f1 f2 row col n ly lb lr Hn (A & B & C & D & E & F) (A' & B' & C' & D' & E' & F').
  split; [exact A'|]. split; [congruence|]. split; [congruence|].
  split; [|split]; intros x y Hx Hy; [rewrite D', D | rewrite E', E | rewrite F', F]; auto; rewrite in_mbs_split by lia;
    destruct (in_mbs _ row col 1 x y), (in_mbs _ row (col + 1) n x y); reflexivity.
Qed.
Lemma replaces_none : forall w h f row col ly lb lr, frame420 f w h -> replaces w h f f row col 0 ly lb lr.
Proof.
  intros w h f row col ly lb lr Hf. assert (N : forall size x y, in_mbs size row col 0 x y = false).
  { intros. destruct (in_mbs size row col 0 x y) eqn:E; [|reflexivity]. apply in_mbs_spec in E. lia. }
  repeat split; try apply Hf; intros; now rewrite N.
Qed.

Lemma bframe_copy_ok : forall S n m fs w h row col f (s : S), frame420 f w h ->
  (forall c, col <= c < col + Z.of_nat n -> mb_in w h row c /\ refs_in w h row c m fs) ->
  exists f', bframe_copy_macroblocks n m fs row col f s = (Ok f', s) /\
    replaces w h f f' row col (Z.of_nat n) (predict_at (past_ref m fs) (future_ref m fs) 0) (predict_at (past_ref m fs) (future_ref m fs) 4)
      (predict_at (past_ref m fs) (future_ref m fs) 5).
Proof.
  intros S. induction n as [|n IH]; intros m fs w h row col f s Hf H.
  - exists f. split; [reflexivity|]. now apply replaces_none.
  - cbn [bframe_copy_macroblocks]. destruct (H col ltac:(lia)) as [Hm Hr].
    destruct (bframe_blocks_ok S m fs w h row col f s Hf Hm Hr) as (f1 & E1 & R1). rewrite (bind_ok _ _ _ _ _ _ _ _ E1).
    destruct (IH m fs w h row (col + 1) f1 s (proj1 R1)) as (f2 & E2 & R2); [intros c Hc; apply H; lia|].
    exists f2. split; [exact E2|]. rewrite Nat2Z.inj_succ. unfold Z.succ. eapply replaces_app; eauto. lia.
Qed.

(** * Macroblock addresses *)
Lemma mba_not_escape : forall c inc l, mba_code c inc -> (11 <= length (c ++ l))%nat -> dec (firstn 11 (c ++ l)) <> 8.
Proof.
  intros c inc l [Hi (v & n & H & ->)] L E.
  assert (N : forallb (fun p => negb (bits_eqb (firstn (Z.to_nat (snd p)) mb_escape) (enc (Z.to_nat (snd p)) (fst p))) && (Z.to_nat (snd p) <=? 11)%nat) b1 = true) by (vm_compute; reflexivity).
  rewrite forallb_forall in N. specialize (N _ (nth_error_In _ _ H)). cbn [fst snd] in N. apply andb_true_iff in N. destruct N as [N1 N2].
  apply Nat.leb_le in N2. apply negb_true_iff in N1.
  assert (EE : firstn 11 (enc (Z.to_nat n) v ++ l) = mb_escape).
  { rewrite <- (enc_dec (firstn 11 (enc (Z.to_nat n) v ++ l))). rewrite firstn_length_le by exact L. rewrite E. reflexivity. }
  rewrite firstn_app, enc_length in EE. rewrite firstn_all2 in EE by (rewrite enc_length; lia).
  rewrite <- EE in N1. rewrite firstn_app, enc_length, Nat.sub_diag, app_nil_r in N1. rewrite firstn_all2 in N1 by (rewrite enc_length; lia).
  assert (R : forall x, bits_eqb x x = true) by (unfold bits_eqb; induction x as [|a x IHx]; [reflexivity|]; cbn; rewrite Bool.eqb_reflx; exact IHx).
  rewrite R in N1. discriminate.
Qed.

Lemma escapes_run : forall n fuel i0 c inc r l, (n < fuel)%nat -> mba_code c inc -> (11 <= length (c ++ l))%nat ->
  mba_escapes fuel i0 (setb r (concat (repeat mb_escape n) ++ c ++ l)) = (Ok (i0 + 33 * Z.of_nat n), setb r (c ++ l)).
Proof.
  induction n as [|n IH]; intros fuel i0 c inc r l Hf Hc Hl; destruct fuel as [|fuel]; try lia; cbn [mba_escapes repeat concat app].
  - rewrite <- (firstn_skipn 11 (c ++ l)) at 1. rewrite (bind_ok _ _ _ _ _ _ _ _ (peek_n_app 11 r (firstn 11 (c ++ l)) _ (firstn_length_le _ Hl))).
    rewrite firstn_skipn. rewrite (proj2 (Z.eqb_neq _ _) (mba_not_escape c inc l Hc Hl)). unfold ret. do 2 f_equal. lia.
  - unfold mb_escape at 1. rewrite <- app_assoc. rewrite (bind_ok _ _ _ _ _ _ _ _ (peek_enc 11 8 r _ ltac:(vm_compute; split; [discriminate | reflexivity]))).
    rewrite Z.eqb_refl. assert (E : forall l, skip_n 11 (setb r (enc 11 8 ++ l)) = (Ok tt, setb r l)) by (intro; apply skip_app; apply enc_length).
    rewrite (bind_ok _ _ _ _ _ _ _ _ (ignore_ok _ _ _ _ _ _ _ (E _))). rewrite IH with (inc := inc) by (auto; lia). do 2 f_equal. lia.
Qed.

Lemma mb_increment_run : forall n c inc r l, mba_code c inc -> (11 <= length (c ++ l))%nat ->
  mb_increment (setb r (concat (repeat mb_escape n) ++ c ++ l)) = (Ok (33 * Z.of_nat n + inc), setb r l).
Proof.
  intros n c inc r l Hc Hl. unfold mb_increment. rewrite rbits_setb.
  assert (L : (n < S (length (concat (repeat mb_escape n) ++ c ++ l)))%nat).
  { rewrite app_length. assert ((n <= length (concat (repeat mb_escape n)))%nat); [|lia].
    clear. induction n; [cbn; lia|]. cbn [repeat concat]. rewrite app_length. unfold mb_escape at 1. rewrite enc_length. lia. }
  rewrite (bind_ok _ _ _ _ _ _ _ _ (escapes_run n _ 0 c inc r l L Hc Hl)).
  rewrite (bind_ok _ _ _ _ _ _ _ _ (proj1 mba_exact c inc r l Hc)). unfold ret. do 2 f_equal; lia.
Qed.

(** * The coded block pattern *)
Lemma bit_test : forall c k, 0 <= k -> (Z.land c (Z.shiftl 1 k) =? Z.shiftl 1 k) = Z.testbit c k.
Proof.
  intros c k Hk. rewrite Z.shiftl_1_l. destruct (Z.testbit c k) eqn:T.
  - apply Z.eqb_eq. apply Z.bits_inj'. intros n Hn. rewrite Z.land_spec. destruct (Z.eq_dec n k) as [->|N].
    + now rewrite T, Z.pow2_bits_true by lia.
    + rewrite Z.pow2_bits_false by lia. apply andb_false_r.
  - apply Z.eqb_neq. intro E. assert (B : Z.testbit (Z.land c (2 ^ k)) k = true) by (rewrite E; apply Z.pow2_bits_true; lia).
    rewrite Z.land_spec, T in B. discriminate.
Qed.
Lemma pattern_run : forall S cbp intra pattern cf (s : S), cf = ChromaFormat420 ->
  exists pc, pattern_code cbp intra pattern cf s = (Ok pc, s) /\ length pc = 12%nat /\
    forall i, (i < 6)%nat -> nth i pc false = intra || (pattern && Z.testbit cbp (5 - Z.of_nat i)).
Proof.
  intros S cbp intra pattern cf s ->. unfold pattern_code. change ((ChromaFormat420 =? ChromaFormat422) || (ChromaFormat420 =? ChromaFormat444)) with false.
  rewrite andb_false_r. eexists. split; [reflexivity|]. split; [reflexivity|]. intros i Hi.
  rewrite <- bit_test by lia. do 6 (destruct i as [|i]; [cbn -[Z.land Z.shiftl Z.sub]; rewrite ?andb_true_r; reflexivity|]). lia.
Qed.

(** * The vectors of a macroblock *)
Definition pmv (m : mvdata) (r s t : nat) : Z := nth (mvi r s t) (mv_pred m) 0.
Definition mv_wf (m : mvdata) : Prop := length (mv_pred m) = 8%nat /\ length (mv_act m) = 8%nat.
(** The predictions fit their f_codes, with a bit to spare for field vectors *)
Definition mv_fits (e : piccodext) (m : mvdata) : Prop :=
  forall r s t, (r < 2)%nat -> (s < 2)%nat -> (t < 2)%nat -> - 32 * mv_f (f_code e s t) <= pmv m r s t < 32 * mv_f (f_code e s t).
Definition acts_fit (e : piccodext) (m : mvdata) : Prop :=
  forall r s t, (r < 2)%nat -> (s < 2)%nat -> (t < 2)%nat -> mv_range (f_code e s t) (nth (mvi r s t) (mv_act m) 0).
Definition f_codes_ok (e : piccodext) : Prop := forall s t, (s < 2)%nat -> (t < 2)%nat -> 1 <= f_code e s t.

Lemma mvi_lt : forall r s t, (r < 2)%nat -> (s < 2)%nat -> (t < 2)%nat -> (mvi r s t < 8)%nat.
Proof. unfold mvi. lia. Qed.
Lemma mvi_inj : forall r s t r' s' t', (s < 2)%nat -> (t < 2)%nat -> (s' < 2)%nat -> (t' < 2)%nat -> mvi r s t = mvi r' s' t' -> r = r' /\ s = s' /\ t = t'.
Proof. unfold mvi. lia. Qed.
Lemma store_wf : forall r s t pa m, mv_wf m -> mv_wf (mv_store r s t pa m).
Proof. intros r s t pa m [A B]. split; cbn; rewrite set_nth_length; assumption. Qed.
Lemma store_pred : forall r s t pa m r' s' t', mv_wf m -> (r < 2)%nat -> (s < 2)%nat -> (t < 2)%nat -> (s' < 2)%nat -> (t' < 2)%nat ->
  pmv (mv_store r s t pa m) r' s' t' = if Nat.eqb r r' && Nat.eqb s s' && Nat.eqb t t' then fst pa else pmv m r' s' t'.
Proof.
  intros r s t pa m r' s' t' [A B] Hr Hs Ht Hs' Ht'. unfold pmv. cbn [mv_store mv_pred]. rewrite nth_set_nth by (rewrite A; apply mvi_lt; auto).
  destruct (Nat.eqb_spec r r') as [->|N], (Nat.eqb_spec s s') as [->|N2], (Nat.eqb_spec t t') as [->|N3]; cbn [andb];
    destruct (Nat.eqb_spec (mvi r' s' t') (mvi r' s' t')); try congruence; try reflexivity;
    match goal with |- (if Nat.eqb ?a ?b then _ else _) = _ => destruct (Nat.eqb_spec a b) as [E|E]; [unfold mvi in E; lia | reflexivity] end.
Qed.
Lemma store_act : forall r s t pa m r' s' t', mv_wf m -> (r < 2)%nat -> (s < 2)%nat -> (t < 2)%nat -> (s' < 2)%nat -> (t' < 2)%nat ->
  nth (mvi r' s' t') (mv_act (mv_store r s t pa m)) 0 = if Nat.eqb r r' && Nat.eqb s s' && Nat.eqb t t' then snd pa else nth (mvi r' s' t') (mv_act m) 0.
Proof.
  intros r s t pa m r' s' t' [A B] Hr Hs Ht Hs' Ht'. cbn [mv_store mv_act]. rewrite nth_set_nth by (rewrite B; apply mvi_lt; auto).
  destruct (Nat.eqb_spec r r') as [->|N], (Nat.eqb_spec s s') as [->|N2], (Nat.eqb_spec t t') as [->|N3]; cbn [andb];
    destruct (Nat.eqb_spec (mvi r' s' t') (mvi r' s' t')); try congruence; try reflexivity;
    match goal with |- (if Nat.eqb ?a ?b then _ else _) = _ => destruct (Nat.eqb_spec a b) as [E|E]; [unfold mvi in E; lia | reflexivity] end.
Qed.

(** The vector (r,s) becomes [v]; in field format of a frame picture the vertical prediction is doubled *)
Definition mv_put (e : piccodext) (field : bool) (r s : nat) (v : Z * Z) (m : mvdata) : mvdata :=
  mv_store r s 1 ((if is_halved e field 1 then 2 * snd v else snd v), snd v) (mv_store r s 0 (fst v, fst v) m).
Definition mv_prediction (e : piccodext) (field : bool) (r s : nat) (m : mvdata) : Z * Z :=
  (pmv m r s 0, if is_halved e field 1 then pmv m r s 1 / 2 else pmv m r s 1).

Lemma half_fits : forall e field t f p, 1 <= f -> - 32 * f <= p < 32 * f -> - 32 * f <= (if is_halved e field t then p / 2 else p) < 32 * f.
Proof.
  intros e field t f p Hf H. destruct (is_halved e field t); [|exact H]. dm p 2. lia.
Qed.
Lemma half0 : forall e field, is_halved e field 0 = false.
Proof. intros. unfold is_halved. cbn [Nat.eqb]. now rewrite andb_false_r. Qed.

Lemma motion_vector_run : forall e field r s m rd l v c, f_codes_ok e -> mv_wf (ms_mvd m) -> mv_fits e (ms_mvd m) -> (r < 2)%nat -> (s < 2)%nat ->
  pair_code (f_code e s 0) (f_code e s 1) (mv_prediction e field r s (ms_mvd m)) v c ->
  motion_vector e field false r s (m, setb rd (c ++ l)) = (Ok tt, (ms_set_mvd (mv_put e field r s v (ms_mvd m)) m, setb rd l)).
Proof.
  intros e field r s m rd l v c Hf Hw Hp Hr Hs (cx & cy & -> & R1 & R2 & V1 & V2). unfold motion_vector. rewrite <- app_assoc.
  unfold mv_prediction in V1, V2. cbn [fst snd] in V1, V2.
  assert (F0 : 1 <= f_code e s 0) by (apply Hf; lia). assert (F1 : 1 <= f_code e s 1) by (apply Hf; lia).
  assert (E0 : motion_vector_part e field false r s 0 (m, setb rd (cx ++ cy ++ l)) =
    (Ok tt, (ms_set_mvd (mv_store r s 0 ((if is_halved e field 0 then 2 * fst v else fst v), fst v) (ms_mvd m)) m, setb rd (cy ++ l)))).
  { apply mv_part_run with (p := pmv (ms_mvd m) r s 0); auto; rewrite ?half0; try reflexivity; apply Hp; lia. }
  rewrite (bind_ok _ _ _ _ _ _ _ _ E0). rewrite half0. set (m1 := ms_set_mvd _ m).
  assert (EP : pmv (ms_mvd m1) r s 1 = pmv (ms_mvd m) r s 1).
  { unfold m1. cbn [ms_mvd ms_set_mvd]. rewrite store_pred by (auto; lia). now rewrite !Nat.eqb_refl. }
  erewrite (mv_part_run e field r s 1 m1 rd l _ (snd v) cy); eauto.
  - apply half_fits; [apply mv_f_pos; lia|]. change (nth (mvi r s 1) (mv_pred (ms_mvd m1)) 0) with (pmv (ms_mvd m1) r s 1). rewrite EP. apply Hp; lia.
  - change (nth (mvi r s 1) (mv_pred (ms_mvd m1)) 0) with (pmv (ms_mvd m1) r s 1). rewrite EP. exact V2.
Qed.

Lemma put_wf : forall e field r s v m, mv_wf m -> mv_wf (mv_put e field r s v m).
Proof. intros. unfold mv_put. now apply store_wf, store_wf. Qed.
Lemma put_pred : forall e field r s v m r' s' t', mv_wf m -> (r < 2)%nat -> (s < 2)%nat -> (s' < 2)%nat -> (t' < 2)%nat ->
  pmv (mv_put e field r s v m) r' s' t' =
  if Nat.eqb r r' && Nat.eqb s s' then (if Nat.eqb t' 0 then fst v else if is_halved e field 1 then 2 * snd v else snd v) else pmv m r' s' t'.
Proof.
  intros. unfold mv_put. rewrite store_pred by (auto using store_wf; lia). rewrite store_pred by (auto; lia). cbn [fst snd].
  destruct (Nat.eqb r r' && Nat.eqb s s'); cbn [andb]; [|reflexivity].
  destruct t' as [|[|t'] ]; cbn [Nat.eqb]; try reflexivity. lia.
Qed.
Lemma put_act : forall e field r s v m r' s', mv_wf m -> (r < 2)%nat -> (s < 2)%nat -> (s' < 2)%nat ->
  (nth (mvi r' s' 0) (mv_act (mv_put e field r s v m)) 0, nth (mvi r' s' 1) (mv_act (mv_put e field r s v m)) 0) =
  if Nat.eqb r r' && Nat.eqb s s' then v else (nth (mvi r' s' 0) (mv_act m) 0, nth (mvi r' s' 1) (mv_act m) 0).
Proof.
  intros. unfold mv_put. rewrite !store_act by (auto using store_wf; lia). cbn [fst snd].
  destruct (Nat.eqb r r' && Nat.eqb s s'); cbn [andb Nat.eqb]; [now destruct v | reflexivity].
Qed.
Lemma put_fits : forall e field r s v m, f_codes_ok e -> mv_wf m -> mv_fits e m -> (r < 2)%nat -> (s < 2)%nat ->
  mv_range (f_code e s 0) (fst v) -> mv_range (f_code e s 1) (snd v) -> mv_fits e (mv_put e field r s v m).
Proof.
  intros e field r s v m Hf Hw Hp Hr Hs V1 V2 r' s' t' Hr' Hs' Ht'. rewrite put_pred by auto.
  assert (F0 : 1 <= mv_f (f_code e s 0)) by (apply mv_f_pos, Hf; lia). assert (F1 : 1 <= mv_f (f_code e s 1)) by (apply mv_f_pos, Hf; lia).
  destruct (Nat.eqb_spec r r') as [<-|], (Nat.eqb_spec s s') as [<-|]; cbn [andb]; try (apply Hp; auto).
  unfold mv_range in *. destruct t' as [|[|t'] ]; cbn [Nat.eqb]; [lia | destruct (is_halved e field 1); lia | lia].
Qed.
Lemma put_acts : forall e field r s v m, mv_wf m -> acts_fit e m -> (r < 2)%nat -> (s < 2)%nat ->
  mv_range (f_code e s 0) (fst v) -> mv_range (f_code e s 1) (snd v) -> acts_fit e (mv_put e field r s v m).
Proof.
  intros e field r s v m Hw Ha Hr Hs V1 V2 r' s' t' Hr' Hs' Ht'. pose proof (put_act e field r s v m r' s' Hw Hr Hs Hs') as E.
  assert (E0 := f_equal fst E). assert (E1 := f_equal snd E). clear E. cbn [fst snd] in E0, E1.
  destruct (Nat.eqb_spec r r') as [<-|N], (Nat.eqb_spec s s') as [<-|N2]; cbn [andb] in E0, E1; cbn [fst snd] in E0, E1;
    (destruct t' as [|[|t'] ]; [rewrite E0 | rewrite E1 | lia]); auto; apply Ha; auto.
Qed.

(** Frame format: one vector for each direction *)
Definition frame_format (e : piccodext) (mb : mbmode) : Prop := pc_fpfd e = 1 \/ mo_frame_motion mb = 2.
Lemma vectors_frame_run : forall e mb s m rd l v c, frame_format e mb -> f_codes_ok e -> mv_wf (ms_mvd m) -> mv_fits e (ms_mvd m) -> (s < 2)%nat ->
  pair_code (f_code e s 0) (f_code e s 1) (pmv (ms_mvd m) 0 s 0, pmv (ms_mvd m) 0 s 1) v c ->
  motion_vectors e mb s (m, setb rd (c ++ l)) = (Ok tt, (ms_set_mvd (mv_put e false 0 s v (ms_mvd m)) m, setb rd l)).
Proof.
  intros e mb s m rd l v c Hff Hf Hw Hp Hs Hc. unfold motion_vectors.
  assert (EI : mv_info e mb (m, setb rd (c ++ l)) = (Ok (1, false, false), (m, setb rd (c ++ l)))).
  { unfold mv_info. destruct Hff as [-> | ->]; [reflexivity|]. destruct (pc_fpfd e =? 1); reflexivity. }
  rewrite (bind_ok _ _ _ _ _ _ _ _ EI). cbn [andb negb]. change (1 =? 1) with true. cbv iota. rewrite bind_ret.
  apply motion_vector_run; auto.
Qed.
(** Field format in a frame picture: two vectors, each after its field select bit *)
Lemma vectors_field_run : forall e mb s m rd l b1 b2 v1 c1 v2 c2, pc_fpfd e <> 1 -> mo_frame_motion mb = 1 ->
  f_codes_ok e -> mv_wf (ms_mvd m) -> mv_fits e (ms_mvd m) -> (s < 2)%nat ->
  pair_code (f_code e s 0) (f_code e s 1) (mv_prediction e true 0 s (ms_mvd m)) v1 c1 ->
  pair_code (f_code e s 0) (f_code e s 1) (mv_prediction e true 1 s (ms_mvd m)) v2 c2 ->
  motion_vectors e mb s (m, setb rd ([b1 : bool] ++ c1 ++ [b2 : bool] ++ c2 ++ l)) =
  (Ok tt, (ms_set_mvd (mv_put e true 1 s v2 (mv_put e true 0 s v1 (ms_mvd m))) m, setb rd l)).
Proof.
  intros e mb s m rd l d1 d2 v1 c1 v2 c2 H1 H2 Hf Hw Hp Hs C1 C2. unfold motion_vectors.
  assert (EI : forall st : mstate * reader, mv_info e mb st = (Ok (2, true, false), st)).
  { intro st. unfold mv_info. rewrite (proj2 (Z.eqb_neq _ _) H1), H2. reflexivity. }
  rewrite (bind_ok _ _ _ _ _ _ _ _ (EI _)). change (2 =? 1) with false. cbv iota.
  assert (E1 : forall b l', read_n 1 (setb rd ([b] ++ l')) = (Ok (dec [b : bool]), setb rd l')) by (intros; apply read_n_app; reflexivity).
  erewrite bind_onr_ok by apply E1.
  erewrite bind_ok by (apply motion_vector_run; eauto). erewrite bind_onr_ok by apply E1.
  assert (EP : mv_prediction e true 1 s (mv_put e true 0 s v1 (ms_mvd m)) = mv_prediction e true 1 s (ms_mvd m)).
  { unfold mv_prediction. rewrite !put_pred by (auto; lia). reflexivity. }
  destruct C1 as (? & ? & _ & R1 & R2 & _).
  rewrite (motion_vector_run e true 1 s (ms_set_mvd (mv_put e true 0 s v1 (ms_mvd m)) m) rd l v2 c2); auto.
  - cbn [ms_mvd ms_set_mvd]. now apply put_wf.
  - cbn [ms_mvd ms_set_mvd]. apply put_fits; auto.
  - cbn [ms_mvd ms_set_mvd]. rewrite EP. exact C2.
Qed.

(** A history of vectors in frame format *)
Fixpoint decode_vectors (n : nat) (e : piccodext) (mb : mbmode) (s : nat) : MB (list (Z * Z)) :=
  match n with
  | O => ret []
  | S n => motion_vectors e mb s ;; m <- own ;; vs <- decode_vectors n e mb s ;; ret (mv_of (ms_mvd m) s :: vs)
  end.
Lemma decode_vectors_run : forall vs e mb s m rd l p c, frame_format e mb -> f_codes_ok e -> mv_wf (ms_mvd m) -> mv_fits e (ms_mvd m) -> (s < 2)%nat ->
  p = (pmv (ms_mvd m) 0 s 0, pmv (ms_mvd m) 0 s 1) -> pairs_code (f_code e s 0) (f_code e s 1) p vs c ->
  exists m', decode_vectors (length vs) e mb s (m, setb rd (c ++ l)) = (Ok vs, (m', setb rd l)).
Proof.
  induction vs as [|v vs IH]; intros e mb s m rd l p c Hff Hf Hw Hp Hs Ep Hc; inversion Hc; subst.
  - exists m. reflexivity.
  - cbn [length decode_vectors]. rewrite <- app_assoc. erewrite bind_ok by (eapply vectors_frame_run; eauto).
    match goal with H : pair_code _ _ _ _ _ |- _ => destruct H as (? & ? & _ & R1 & R2 & _) end.
    set (m1 := ms_set_mvd _ m). unfold own at 1, bind at 1. cbn [fst].
    assert (W : mv_wf (ms_mvd m1)) by (unfold m1; cbn [ms_mvd ms_set_mvd]; now apply put_wf).
    destruct (IH e mb s m1 rd l v d) as (m' & E); auto.
    + unfold m1. cbn [ms_mvd ms_set_mvd]. apply put_fits; auto.
    + unfold m1. cbn [ms_mvd ms_set_mvd]. rewrite !put_pred by (auto; lia). rewrite !Nat.eqb_refl. cbn [andb Nat.eqb]. unfold is_halved. cbn [andb]. now destruct v.
    + exists m'. rewrite (bind_ok _ _ _ _ _ _ _ _ E). unfold ret. do 3 f_equal.
      unfold mv_of, m1. cbn [ms_mvd ms_set_mvd]. rewrite put_act by auto. now rewrite !Nat.eqb_refl.
Qed.

(** Any history *)
Definition mv_good (e : piccodext) (m : mvdata) : Prop := mv_wf m /\ mv_fits e m /\ acts_fit e m.
Lemma reset_good : forall e m, f_codes_ok e -> mv_good e (mv_reset m).
Proof.
  intros e m Hf. split; [split; reflexivity|].
  assert (Z0 : forall r s t, nth (mvi r s t) (repeat 0 8) 0 = 0) by (intros; apply nth_repeat).
  split; intros r s t Hr Hs Ht; unfold pmv, mv_range, mv_reset; cbn [mv_pred mv_act]; rewrite Z0; pose proof (mv_f_pos _ (Hf s t Hs Ht)); lia.
Qed.
Lemma motion_vector_good : forall e field dmv r s m rd st', f_codes_ok e -> mv_good e (ms_mvd m) -> (r < 2)%nat -> (s < 2)%nat ->
  motion_vector e field dmv r s (m, rd) = (Ok tt, st') -> mv_good e (ms_mvd (fst st')).
Proof.
  intros e field dmv r s m rd st' Hf (W & P & A) Hr Hs H. unfold motion_vector in H. apply bind_ok_inv in H. destruct H as ([] & [m1 rd1] & H1 & H2).
  assert (F0 : 1 <= f_code e s 0) by (apply Hf; lia). assert (F1 : 1 <= f_code e s 1) by (apply Hf; lia).
  apply mv_part_any in H1; auto; [|apply half_fits; [now apply mv_f_pos | apply P; auto]]. destruct H1 as (vx & Vx & E1). cbn [fst] in E1. rewrite half0 in E1.
  assert (EP : pmv (ms_mvd m1) r s 1 = pmv (ms_mvd m) r s 1).
  { rewrite E1. cbn [ms_mvd ms_set_mvd]. rewrite store_pred by (auto; lia). now rewrite !Nat.eqb_refl. }
  apply mv_part_any in H2; auto.
  2:{ apply half_fits; [now apply mv_f_pos|]. change (nth (mvi r s 1) (mv_pred (ms_mvd m1)) 0) with (pmv (ms_mvd m1) r s 1). rewrite EP. apply P; auto. }
  destruct H2 as (vy & Vy & E2). rewrite E2. cbn [ms_mvd ms_set_mvd]. rewrite E1. cbn [ms_mvd ms_set_mvd].
  change (mv_good e (mv_put e field r s (vx, vy) (ms_mvd m))). split; [now apply put_wf|]. split; [now apply put_fits | now apply put_acts].
Qed.
Lemma onr_state : forall S A (m : M reader A) (s : S * reader) a s', onr m s = (Ok a, s') -> fst s' = fst s.
Proof. intros S A m [x r] a s' H. unfold onr in H. cbn [fst snd] in H. destruct (m r) as [y r']. inversion H. reflexivity. Qed.
Lemma motion_vectors_good : forall e mb s m rd st', f_codes_ok e -> mv_good e (ms_mvd m) -> (s < 2)%nat ->
  motion_vectors e mb s (m, rd) = (Ok tt, st') -> mv_good e (ms_mvd (fst st')).
Proof.
  intros e mb s m rd st' Hf G Hs H. unfold motion_vectors in H. apply bind_ok_inv in H. destruct H as ([[count field] dmv] & st0 & H0 & H).
  assert (st0 = (m, rd)). { unfold mv_info in H0. repeat match type of H0 with (if ?c then _ else _) _ = _ => destruct c end; inversion H0; reflexivity. }
  subst st0. destruct (count =? 1).
  - apply bind_ok_inv in H. destruct H as ([] & [m1 rd1] & H1 & H2).
    assert (m1 = m). { destruct (field && negb dmv); [|now inversion H1]. apply bind_ok_inv in H1. destruct H1 as (x & s2 & X & Y). apply onr_state in X. inversion Y; subst. exact X. }
    subst m1. eapply motion_vector_good in H2; eauto.
  - apply bind_ok_inv in H. destruct H as (x & [m1 rd1] & X & H). apply onr_state in X. cbn [fst] in X. subst m1.
    apply bind_ok_inv in H. destruct H as ([] & [m2 rd2] & H2 & H). eapply motion_vector_good in H2; eauto. cbn [fst] in H2.
    apply bind_ok_inv in H. destruct H as (y & [m3 rd3] & Y & H). apply onr_state in Y. cbn [fst] in Y. subst m3.
    eapply motion_vector_good in H; eauto.
Qed.

(** * The transform's output fits a sample sum *)
Lemma i32_range : forall x, - 2147483648 <= i32 x < 2147483648.
Proof. intro x. unfold i32. pose proof (Z.mod_pos_bound (x + 2147483648) 4294967296). lia. Qed.
Lemma shr14_range : forall x, - 2147483648 <= x < 2147483648 -> - 2 ^ 17 <= shr32 x 14 < 2 ^ 17.
Proof.
  intros x H. unfold shr32. rewrite Z.shiftr_div_pow2 by lia. change (2 ^ 14) with 16384. change (2 ^ 17) with 131072.
  split; [apply Z.div_le_lower_bound; lia | apply Z.div_lt_upper_bound; lia].
Qed.
Lemma idct_col_range : forall a b c d e f g h z, In z (idct_col a b c d e f g h) -> - 2 ^ 17 <= z < 2 ^ 17.
Proof.
  intros. unfold idct_col in H. cbv zeta in H. cbn [In] in H.
  repeat (destruct H as [<-|H]; [apply shr14_range; apply i32_range|]). contradiction.
Qed.
Lemma idct_length : forall b, length (idct b) = 64%nat.
Proof. reflexivity. Qed.
Lemma idct_small : forall b, small (idct b).
Proof.
  intros b k. destruct (Nat.lt_ge_cases k 64) as [L|L]; [|rewrite nth_overflow by (rewrite idct_length; lia); lia].
  assert (H : forall z, In z (idct b) -> - 2 ^ 17 <= z < 2 ^ 17).
  { intros z Hz. unfold idct, idct_cols in Hz. apply in_flat_map in Hz. destruct Hz as (y & Hy & Hz). apply in_map_iff in Hz. destruct Hz as (x & <- & Hx).
    set (g := fun x => apply8 idct_col (fun y => nth (8 * y + x) (idct_rows b) 0)) in *. apply in_seq in Hx, Hy.
    rewrite (nth_indep _ [] (g 0%nat)) by (rewrite map_length, seq_length; lia). rewrite (map_nth g).
    assert (LL : length (g (nth x (seq 0 8) 0%nat)) = 8%nat) by reflexivity.
    eapply idct_col_range. unfold g, apply8. apply nth_In. change (y < 8)%nat. lia. }
  assert (In (nth k (idct b) 0) (idct b)) as HI by (apply nth_In; rewrite idct_length; lia).
  apply H in HI. change (2 ^ 17) with 131072 in HI. change (2 ^ 30) with 1073741824. lia.
Qed.
