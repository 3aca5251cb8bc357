(** CanvasProofs: frames as canvases; the coefficients of a block. *)
From Coq Require Import Permutation.
From Verif Require Import Base BitReader Exec Local TsRobust VlcTables Huffman BlockModel VidModel SpecVid SpecVlc SpecBlock SpecMotion VidProofs VlcProofs BlockProofs DequantProofs IdctProofs PropertiesBlock
  MbModel MotionProofs FrameProofs MbProofs SpecNext SpecPicture.

(** * Canvases *)
Lemma sample_looks : forall f c i x y, looks f c -> 0 <= i < 6 -> 0 <= x < plane_w i (cv_w c) -> 0 <= y < plane_h i (cv_h c) ->
  sample f i x y = csample c i x y /\ 0 <= csample c i x y <= 255.
Proof.
  intros f c i x y (_ & _ & _ & L & B & R) Hi Hx Hy. unfold sample, csample, plane_w, plane_h in *. destruct (i <? 4); [now apply L|]. destruct (i =? 4); [now apply B | now apply R].
Qed.
Lemma predict1_looks : forall f c i row col mv x y, looks f c -> 0 <= i < 6 -> vector_in (cv_w c) (cv_h c) i row col mv ->
  block_x i col <= x < block_x i col + 8 -> block_y i row <= y < block_y i row + 8 ->
  predict1_at f i mv x y = cpredict1 c i mv x y.
Proof.
  intros f c i row col mv x y L Hi (V1 & V2 & V3 & V4) Hx Hy. unfold predict1_at, cpredict1, half_sample.
  set (x2 := 2 * x + block_vector i (fst mv)). set (y2 := 2 * y + block_vector i (snd mv)).
  assert (X : 0 <= x2 <= 2 * (plane_w i (cv_w c) - 1)) by (unfold x2; lia). assert (Y : 0 <= y2 <= 2 * (plane_h i (cv_h c) - 1)) by (unfold y2; lia).
  clearbody x2 y2. dm x2 2. dm y2 2. f_equal.
  rewrite !(fun x y Hx Hy => proj1 (sample_looks f c i x y L Hi Hx Hy)) by lia. reflexivity.
Qed.
Definition ref_looks (f : option (image * (Z * Z))) (c : option (canvas * (Z * Z))) : Prop :=
  match f, c with Some (f, a), Some (c, b) => looks f c /\ a = b | None, None => True | _, _ => False end.
Definition ref_in (w h i row col : Z) (c : option (canvas * (Z * Z))) : Prop :=
  match c with Some (c, mv) => cv_w c = w /\ cv_h c = h /\ vector_in w h i row col mv | None => True end.
Lemma predict_looks : forall past future cp cf w h i row col x y, ref_looks past cp -> ref_looks future cf -> 0 <= i < 6 ->
  ref_in w h i row col cp -> ref_in w h i row col cf -> block_x i col <= x < block_x i col + 8 -> block_y i row <= y < block_y i row + 8 ->
  predict_at past future i x y = cpredict cp cf i x y.
Proof.
  intros past future cp cf w h i row col x y LP LF Hi IP IF Hx Hy. unfold predict_at, cpredict.
  destruct past as [[f a]|], cp as [[p b]|]; try destruct LP as [LP <-]; try contradiction;
  destruct future as [[g a']|], cf as [[q b']|]; try destruct LF as [LF <-]; try contradiction; cbn [ref_in] in *;
  try (destruct IP as (<- & <- & IP)); try (destruct IF as (W & H & IF));
  rewrite ?(predict1_looks f p i row col a x y LP Hi IP Hx Hy); try reflexivity.
  - rewrite <- W, <- H in IF. now rewrite (predict1_looks g q i row col a' x y LF Hi IF Hx Hy).
  - rewrite <- W, <- H in IF. now rewrite (predict1_looks g q i row col a' x y LF Hi IF Hx Hy).
Qed.
Lemma div_lt_plane : forall w h k, 0 < w -> 0 <= k < w * h -> 0 <= k mod w < w /\ 0 <= k / w < h /\ k = k / w * w + k mod w.
Proof.
  intros w h k Hw Hk. pose proof (Z.mod_pos_bound k w Hw). pose proof (Z.div_mod k w ltac:(lia)).
  split; [lia|]. split; [|lia]. split; [apply Z.div_pos; lia | apply Z.div_lt_upper_bound; lia].
Qed.
Lemma looks_bytes : forall f c, looks f c -> bytes_frame f.
Proof.
  intros f c ((W & H & MW & MH & YS & CS & LY & LB & LR) & _ & _ & L & B & R).
  assert (W2 : 0 < cv_w c / 2) by (dm (cv_w c) 16; dm (cv_w c) 2; lia).
  split; [|split]; intros k Hk; [rewrite LY in Hk | rewrite LB in Hk | rewrite LR in Hk]; (edestruct (div_lt_plane) as (K1 & K2 & K3); [|exact Hk|]); auto.
  - destruct (L _ _ K1 K2) as [E Rg]. unfold luma, pix in E. rewrite YS, <- K3 in E. now rewrite E.
  - destruct (B _ _ K1 K2) as [E Rg]. unfold blue, pix in E. rewrite CS, <- K3 in E. now rewrite E.
  - destruct (R _ _ K1 K2) as [E Rg]. unfold red, pix in E. rewrite CS, <- K3 in E. now rewrite E.
Qed.
Lemma looks_paint : forall f f' c row col n ly lb lr cy cb cr, looks f c -> replaces (cv_w c) (cv_h c) f f' row col n ly lb lr ->
  (forall x y, in_mbs 16 row col n x y = true -> ly x y = cy x y /\ 0 <= cy x y <= 255) ->
  (forall x y, in_mbs 8 row col n x y = true -> lb x y = cb x y /\ 0 <= cb x y <= 255) ->
  (forall x y, in_mbs 8 row col n x y = true -> lr x y = cr x y /\ 0 <= cr x y <= 255) -> looks f' (paint c row col n cy cb cr).
Proof.
  intros f f' c row col n ly lb lr cy cb cr (F & W & H & L & B & R) (F' & W' & H' & L' & B' & R') EY EB ER.
  unfold looks, paint. cbn [cv_w cv_h cv_y cv_b cv_r]. split; [exact F'|]. split; [congruence|]. split; [congruence|].
  split; [|split]; intros x y Hx Hy; [rewrite L' by auto | rewrite B' by auto | rewrite R' by auto]; destruct (in_mbs _ _ _ _ _ _) eqn:I; auto.
Qed.

(** * Coefficients *)
Lemma index_of_ok : forall alt p, (p < 64)%nat -> (index_of p (scan_order alt) < 64)%nat /\ nth (index_of p (scan_order alt)) (scan_order alt) 0%nat = p.
Proof.
  intros alt p H. assert (C : forallb (fun p => (index_of p (scan_order alt) <? 64)%nat && (nth (index_of p (scan_order alt)) (scan_order alt) 0 =? p)%nat) (seq 0 64) = true) by (destruct alt; vm_compute; reflexivity).
  rewrite forallb_forall in C. specialize (C p). rewrite in_seq in C. specialize (C ltac:(lia)). apply andb_true_iff in C. destruct C as [C1 C2].
  apply Nat.ltb_lt in C1. apply Nat.eqb_eq in C2. auto.
Qed.
Lemma list64 : forall (l : list Z) g, length l = 64%nat -> (forall p, (p < 64)%nat -> nth p l 0 = g p) -> l = map g (seq 0 64).
Proof.
  intros l g L H. apply nth_ext with 0 0; [rewrite map_length, seq_length; exact L|]. intros n Hn. rewrite L in Hn. rewrite H by lia.
  rewrite (nth_indep _ 0 (g 0%nat)) by (rewrite map_length, seq_length; lia). rewrite (map_nth g), seq_nth by lia. reflexivity.
Qed.
Lemma sum_perm : forall (f : nat -> Z) l l', Permutation l l' -> sum (map f l) = sum (map f l').
Proof. intros f l l' H. induction H; cbn; try lia. unfold sum in *. lia. Qed.
Lemma scan_perm : forall alt, Permutation (scan_order alt) (seq 0 64).
Proof.
  intro alt. apply NoDup_Permutation_bis; [|destruct alt; vm_compute; repeat constructor|].
  - assert (N : forallb (fun i => (index_of (nth i (scan_order alt) 0) (scan_order alt) =? i)%nat) (seq 0 64) = true) by (destruct alt; vm_compute; reflexivity).
    rewrite forallb_forall in N. apply (NoDup_nth _ 0%nat). assert (L : length (scan_order alt) = 64%nat) by (destruct alt; reflexivity). rewrite L.
    intros i j Hi Hj E. pose proof (N i ltac:(apply in_seq; lia)) as Ni. pose proof (N j ltac:(apply in_seq; lia)) as Nj. apply Nat.eqb_eq in Ni, Nj. congruence.
  - assert (C : forallb (fun p => (p <? 64)%nat) (scan_order alt) = true) by (destruct alt; vm_compute; reflexivity).
    rewrite forallb_forall in C. intros p Hp. specialize (C p Hp). apply Nat.ltb_lt in C. apply in_seq. lia.
Qed.
Lemma nth_map_seq : forall l, length l = 64%nat -> map (fun k => nth k l 0%nat) (seq 0 64) = l.
Proof.
  intros l L. apply nth_ext with 0%nat 0%nat; [rewrite map_length, seq_length; auto|]. intros n Hn. rewrite map_length, seq_length in Hn.
  rewrite (nth_indep _ 0%nat (nth 0 l 0)%nat) by (rewrite map_length, seq_length; lia). rewrite (map_nth (fun k => nth k l 0%nat)), seq_nth by lia. reflexivity.
Qed.
Lemma index_nth : forall alt k, (k < 64)%nat -> index_of (nth k (scan_order alt) 0%nat) (scan_order alt) = k.
Proof.
  intros alt k H. assert (N : forallb (fun i => (index_of (nth i (scan_order alt) 0) (scan_order alt) =? i)%nat) (seq 0 64) = true) by (destruct alt; vm_compute; reflexivity).
  rewrite forallb_forall in N. specialize (N k ltac:(apply in_seq; lia)). now apply Nat.eqb_eq.
Qed.

Lemma decode_iso : forall P e q (intra : bool) Q, pce_holds (pp_pce P) e -> 0 <= e_dc (pp_pce P) <= 3 -> matrix_ok (if intra then pp_intra P else pp_non_intra P) ->
  0 <= q < 32 -> length Q = 64%nat ->
  (forall k, (k < 64)%nat -> if intra && Nat.eqb k 0 then -268435456 <= nth k Q 0 < 268435456 else -2048 <= nth k Q 0 <= 2048) ->
  decode_block (if intra then pp_intra P else pp_non_intra P) (pc_alt e) (pc_qtype e) (pc_dc e) q intra Q = iso_coefficients P q intra Q.
Proof.
  intros P e q intra Q (_ & _ & _ & _ & Edc & _ & _ & _ & _ & Eq & _ & Ea & _) Hdc [WL WR] Hq LQ HQ. set (W := if intra then pp_intra P else pp_non_intra P) in *.
  rewrite Ea, Eq, Edc. assert (QT : 0 <= Z.b2z (e_qtype (pp_pce P)) <= 1) by (destruct (e_qtype _); cbn; lia).
  assert (AL : negb (Z.b2z (e_alt (pp_pce P)) =? 0) = e_alt (pp_pce P)) by (destruct (e_alt _); reflexivity).
  unfold iso_coefficients. fold W. set (alt := e_alt (pp_pce P)) in *. apply list64.
  - apply (C43_range_and_parity W (Z.b2z alt) (Z.b2z (e_qtype (pp_pce P))) (e_dc (pp_pce P)) q intra Q WL).
  - intros p Hp. destruct (index_of_ok alt p Hp) as [I1 I2].
    pose proof (C43_inverse_quantisation W (Z.b2z alt) (Z.b2z (e_qtype (pp_pce P))) (e_dc (pp_pce P)) q intra Q (index_of p (scan_order alt)) WL WR LQ Hdc QT Hq HQ I1) as C.
    cbv zeta in C. rewrite AL in C. rewrite I2 in C. rewrite C. clear C.
    set (at_ := fun p => iso_saturate (iso_dequant intra (e_dc (pp_pce P)) (iso_quantiser_scale (Z.b2z (e_qtype (pp_pce P))) q) p (nth p W 0) (nth (index_of p (scan_order alt)) Q 0))).
    assert (ES : sum (map (fun k => iso_saturate (iso_dequant intra (e_dc (pp_pce P)) (iso_quantiser_scale (Z.b2z (e_qtype (pp_pce P))) q) (nth k (scan_order alt) 0%nat)
        (nth (nth k (scan_order alt) 0%nat) W 0) (nth k Q 0))) (seq 0 64)) = sum (map at_ (seq 0 64))).
    { transitivity (sum (map at_ (map (fun k => nth k (scan_order alt) 0%nat) (seq 0 64)))).
      - rewrite map_map. f_equal. apply map_ext_in. intros k Hk. apply in_seq in Hk. unfold at_. now rewrite index_nth by lia.
      - rewrite nth_map_seq by (destruct alt; reflexivity). apply sum_perm, scan_perm. }
    rewrite ES. reflexivity.
Qed.
