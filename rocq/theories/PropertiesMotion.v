(** PropertiesMotion: C47-C51, C58, C69-C72 - motion vectors, prediction, the layout of macroblocks,
    skipped macroblocks, macroblock addresses, coded block patterns. *)
From Verif Require Import Base BitReader Exec Local TsRobust Huffman VlcTables SpecVlc VidModel BlockModel VlcProofs BlockProofs MbModel SpecMotion
  MotionProofs FrameProofs MbProofs.

(** * C47: motion vectors *)

(** A picture coding extension with f_codes 3, 2, 4, 1, frame_pred_frame_dct [fpfd] *)
Definition ex_e (fpfd : Z) : piccodext := mkPCE 3 2 4 1 0 3 false fpfd false 0 0 0 false false false false false 0 false 0 0.
Definition ex_ms : mstate := mkMS [0; 0; 0] mv_zero 1 (create_frame_buffer 16 16 1).
Definition no_mode (frame_motion : Z) : mbmode := mkMode (mkMBT false true false false false) frame_motion 0 false.

(** Vectors coded one after the other decode to those vectors; the bits after them are left. *)
Theorem C47_vectors : forall e mb s vs m rd rest p c,
  frame_format e mb -> f_codes_ok e -> mv_wf (ms_mvd m) -> mv_fits e (ms_mvd m) -> (s < 2)%nat ->
  p = (pmv (ms_mvd m) 0 s 0, pmv (ms_mvd m) 0 s 1) ->
  pairs_code (f_code e s 0) (f_code e s 1) p vs c ->
  exists m', decode_vectors (length vs) e mb s (m, setb rd (c ++ rest)) = (Ok vs, (m', setb rd rest)).
Proof. intros. eapply decode_vectors_run; eauto. Qed.

(** One vector: it is the vector used, it is the next prediction, and nothing else changes. *)
Theorem C47_vector : forall e mb s m rd rest v c,
  frame_format e mb -> f_codes_ok e -> mv_wf (ms_mvd m) -> mv_fits e (ms_mvd m) -> (s < 2)%nat ->
  pair_code (f_code e s 0) (f_code e s 1) (pmv (ms_mvd m) 0 s 0, pmv (ms_mvd m) 0 s 1) v c ->
  exists m', motion_vectors e mb s (m, setb rd (c ++ rest)) = (Ok tt, (m', setb rd rest)) /\
    mv_of (ms_mvd m') s = v /\ (pmv (ms_mvd m') 0 s 0, pmv (ms_mvd m') 0 s 1) = v /\
    (forall s', (s' < 2)%nat -> s' <> s -> mv_of (ms_mvd m') s' = mv_of (ms_mvd m) s' /\ forall t, (t < 2)%nat -> pmv (ms_mvd m') 0 s' t = pmv (ms_mvd m) 0 s' t) /\
    ms_frame m' = ms_frame m /\ ms_dcp m' = ms_dcp m /\ ms_qsc m' = ms_qsc m.
Proof.
  intros e mb s m rd rest v c Hff Hf Hw Hp Hs Hc. eexists. split; [eapply vectors_frame_run; eauto|]. cbn [ms_mvd ms_set_mvd ms_frame ms_dcp ms_qsc].
  split; [unfold mv_of; rewrite put_act by (auto; lia); now rewrite !Nat.eqb_refl|].
  split; [rewrite !put_pred by (auto; lia); rewrite !Nat.eqb_refl; cbn [andb Nat.eqb]; unfold is_halved; cbn [andb]; now destruct v|].
  split; [|auto]. intros s' Hs' N. split.
  - unfold mv_of. rewrite put_act by (auto; lia). rewrite (proj2 (Nat.eqb_neq s s')) by auto. reflexivity.
  - intros t Ht. rewrite put_pred by (auto; lia). rewrite (proj2 (Nat.eqb_neq s s')) by auto. reflexivity.
Qed.

(** Two vectors for two fields: the vertical components are coded against half the prediction and the
    predictions become twice the vectors (7.6.3.1). *)
Theorem C47_field_vectors : forall e mb s m rd rest b1 b2 v1 c1 v2 c2,
  pc_struct e = FramePicture -> pc_fpfd e <> 1 -> mo_frame_motion mb = 1 ->
  f_codes_ok e -> mv_wf (ms_mvd m) -> mv_fits e (ms_mvd m) -> (s < 2)%nat ->
  pair_code (f_code e s 0) (f_code e s 1) (pmv (ms_mvd m) 0 s 0, pmv (ms_mvd m) 0 s 1 / 2) v1 c1 ->
  pair_code (f_code e s 0) (f_code e s 1) (pmv (ms_mvd m) 1 s 0, pmv (ms_mvd m) 1 s 1 / 2) v2 c2 ->
  exists m', motion_vectors e mb s (m, setb rd ([b1 : bool] ++ c1 ++ [b2 : bool] ++ c2 ++ rest)) = (Ok tt, (m', setb rd rest)) /\
    (nth (mvi 0 s 0) (mv_act (ms_mvd m')) 0, nth (mvi 0 s 1) (mv_act (ms_mvd m')) 0) = v1 /\
    (nth (mvi 1 s 0) (mv_act (ms_mvd m')) 0, nth (mvi 1 s 1) (mv_act (ms_mvd m')) 0) = v2 /\
    (pmv (ms_mvd m') 0 s 0, pmv (ms_mvd m') 0 s 1) = (fst v1, 2 * snd v1) /\
    (pmv (ms_mvd m') 1 s 0, pmv (ms_mvd m') 1 s 1) = (fst v2, 2 * snd v2).
Proof.
  intros e mb s m rd rest d1 d2 v1 c1 v2 c2 Hst H1 H2 Hf Hw Hp Hs C1 C2.
  assert (HH : is_halved e true 1 = true) by (unfold is_halved; rewrite Hst; reflexivity).
  eexists. split; [eapply vectors_field_run; eauto; unfold mv_prediction; rewrite HH; eauto|]. cbn [ms_mvd ms_set_mvd].
  pose proof (put_wf e true 0 s v1 _ Hw) as W1.
  rewrite !put_act by (auto; lia). rewrite !put_pred by (auto; lia). rewrite !Nat.eqb_refl, HH. cbn [Nat.eqb andb]. auto.
Qed.

(** Every vector of the range has a code after every prediction. *)
Theorem C47_codable : forall fx fy p v, 1 <= fx -> 1 <= fy -> mv_range fx (fst v) -> mv_range fy (snd v) -> exists c, pair_code fx fy p v c.
Proof.
  intros fx fy p v Hx Hy R1 R2. destruct (vector_code_exists fx (fst p) (fst v) Hx) as (cx & X). destruct (vector_code_exists fy (snd p) (snd v) Hy) as (cy & Y).
  exists (cx ++ cy), cx, cy. auto.
Qed.
Theorem C47_all_codable : forall fx fy vs p, 1 <= fx -> 1 <= fy -> (forall v, In v vs -> mv_range fx (fst v) /\ mv_range fy (snd v)) ->
  exists c, pairs_code fx fy p vs c.
Proof.
  intros fx fy. induction vs as [|v vs IH]; intros p Hx Hy H; [exists []; constructor|].
  destruct (H v (or_introl eq_refl)) as [R1 R2]. destruct (C47_codable fx fy p v Hx Hy R1 R2) as (c & C).
  destruct (IH v Hx Hy) as (d & D); [intros u Hu; apply H; now right|]. exists (c ++ d). econstructor; eauto.
Qed.

(** Whatever the bits are: vectors that are read are in the range of their f_codes, and so is everything
    they are predicted from; a reset starts this. *)
Theorem C47_range : forall e mb s m rd st', f_codes_ok e -> mv_good e (ms_mvd m) -> (s < 2)%nat ->
  motion_vectors e mb s (m, rd) = (Ok tt, st') -> mv_good e (ms_mvd (fst st')).
Proof. exact motion_vectors_good. Qed.
Theorem C47_range_start : forall e m, f_codes_ok e -> mv_good e (mv_reset m) /\ mv_good e mv_zero.
Proof. intros. split; [now apply reset_good | exact (reset_good e mv_zero H)]. Qed.

Lemma ex_e_codes : forall x, f_codes_ok (ex_e x).
Proof. intros x [|[|s] ] [|[|t] ] Hs Ht; try lia; cbn; lia. Qed.
Example C47_hyp : frame_format (ex_e 1) (no_mode 0) /\ f_codes_ok (ex_e 1) /\ mv_good (ex_e 1) (ms_mvd ex_ms) /\
  exists c, pairs_code (f_code (ex_e 1) 0 0) (f_code (ex_e 1) 0 1) (0, 0) [(-64, 31); (63, -32); (5, 0)] c /\ (20 <= length c)%nat.
Proof.
  split; [now left|]. split; [apply ex_e_codes|]. split; [apply (reset_good _ mv_zero), ex_e_codes|].
  (* -64 from 0: motion_code -16, residual 3 *)
  assert (MC : forall m c, nth_error (map (fun p => enc (Z.to_nat (snd p)) (fst p)) b10) (Z.to_nat (Z.abs m)) = Some c -> m <> 0 -> motion_code_code (c ++ [m <? 0]) m).
  { intros m c H N. right. split; [exact N|]. exists c. split; [|reflexivity]. rewrite nth_error_map in H. destruct (nth_error b10 _) as [[v n]|] eqn:E; [|discriminate].
    exists v, n. split; [exact E|]. cbn in H. now inversion H. }
  assert (M0 : motion_code_code [true] 0) by (left; split; [reflexivity|]; exists 1, 1; split; reflexivity).
  eexists. split.
  - econstructor.
    { exists (enc 10 12 ++ [true] ++ enc 2 3), (enc 10 12 ++ [false] ++ enc 1 0). split; [reflexivity|]. split; [vm_compute; split; [discriminate|reflexivity]|].
      split; [vm_compute; split; [discriminate|reflexivity]|]. split.
      - exists (-64), 0. split; [|reflexivity]. apply (delta_down 3 (enc 10 12 ++ [true]) 16 3); [apply (MC (-16)); [reflexivity|lia] | lia | vm_compute; split; [discriminate|reflexivity]].
      - exists 31, 0. split; [|reflexivity]. apply (delta_up 2 (enc 10 12 ++ [false]) 16 0); [apply (MC 16); [reflexivity|lia] | lia | vm_compute; split; [discriminate|reflexivity]]. }
    econstructor.
    { (* 63 from -64 is -1 modulo 128; -32 from 31 is 1 modulo 64 *)
      exists ([false; true] ++ [true] ++ enc 2 0), ([false; true] ++ [false] ++ enc 1 0). split; [reflexivity|]. split; [vm_compute; split; [discriminate|reflexivity]|].
      split; [vm_compute; split; [discriminate|reflexivity]|]. split.
      - exists (-1), (-1). split; [|reflexivity]. apply (delta_down 3 ([false; true] ++ [true]) 1 0); [apply (MC (-1)); [reflexivity|lia] | lia | vm_compute; split; [discriminate|reflexivity]].
      - exists 1, 1. split; [|reflexivity]. apply (delta_up 2 ([false; true] ++ [false]) 1 0); [apply (MC 1); [reflexivity|lia] | lia | vm_compute; split; [discriminate|reflexivity]]. }
    econstructor; [|constructor].
    { exists (enc 10 13 ++ [true] ++ enc 2 1), (enc 10 12 ++ [false] ++ enc 1 1). split; [reflexivity|]. split; [vm_compute; split; [discriminate|reflexivity]|].
      split; [vm_compute; split; [discriminate|reflexivity]|]. split.
      - exists (-58), 0. split; [|reflexivity]. apply (delta_down 3 (enc 10 13 ++ [true]) 15 1); [apply (MC (-15)); [reflexivity|lia] | lia | vm_compute; split; [discriminate|reflexivity]].
      - exists 32, 0. split; [|reflexivity]. apply (delta_up 2 (enc 10 12 ++ [false]) 16 1); [apply (MC 16); [reflexivity|lia] | lia | vm_compute; split; [discriminate|reflexivity]]. }
  - vm_compute. lia.
Qed.

(** * C48: prediction *)

Theorem C48_prediction : forall S m w h i row col fs past future b (s : S), 0 <= i < 6 ->
  past = (if mv_fwd m then option_map (fun f => (f, mv_of m 0)) (fs_past fs) else None) ->
  future = (if mv_bwd m then option_map (fun f => (f, mv_of m 1)) (fs_future fs) else None) ->
  reference_in w h i row col past -> reference_in w h i row col future -> ref_bytes past -> ref_bytes future -> small b ->
  motion_compensation m i row col fs b s =
    (Ok (map (fun k => nth k b 0 + predict past future i row col (Z.of_nat k mod 8) (Z.of_nat k / 8)) (seq 0 64)), s) /\
  forall u v, 0 <= u < 8 -> 0 <= v < 8 -> 0 <= predict past future i row col u v <= 255.
Proof.
  intros S m w h i row col fs past future b s Hi EP EF HP HF BP BF Hb.
  assert (EP' : past = past_ref m fs) by (rewrite EP; unfold past_ref, with_mv, mc_ref; now destruct (mv_fwd m)).
  assert (EF' : future = future_ref m fs) by (rewrite EF; unfold future_ref, with_mv, mc_ref; now destruct (mv_bwd m)).
  clear EP EF. rewrite EP', EF' in *. split; [|intros; eapply predict_range; eauto].
  rewrite (motion_compensation_ok S m w h) by auto. do 2 f_equal. apply map_ext_in. intros k Hk. apply in_seq in Hk.
  pose proof (Z.mod_pos_bound (Z.of_nat k) 8). assert (0 <= Z.of_nat k / 8 < 8) by (split; [apply Z.div_pos; lia | apply Z.div_lt_upper_bound; lia]).
  pose proof (predict_range (past_ref m fs) (future_ref m fs) w h i row col (Z.of_nat k mod 8) (Z.of_nat k / 8) Hi HP HF BP BF ltac:(lia) ltac:(lia)).
  apply i32_small. pose proof (Hb k). change (2 ^ 30) with 1073741824 in *. lia.
Qed.

(** Which references: none for intra macroblocks, the past one for P macroblocks without a vector, and
    otherwise those the macroblock type asks for. *)
Theorem C48_references : forall t pct m,
  (mb_intra t = true -> mv_fwd (mv_previous t pct m) = false /\ mv_bwd (mv_previous t pct m) = false) /\
  (mb_intra t = false -> pct = PFrame -> mb_motion_backward t = false ->
     mv_fwd (mv_previous t pct m) = true /\ mv_bwd (mv_previous t pct m) = false) /\
  (mb_intra t = false -> mb_motion_forward t = true \/ mb_motion_backward t = true ->
     mv_fwd (mv_previous t pct m) = mb_motion_forward t /\ mv_bwd (mv_previous t pct m) = mb_motion_backward t) /\
  (forall s, mv_of (mv_previous t pct m) s = mv_of m s).
Proof.
  intros t pct m. unfold mv_previous. split; [|split; [|split] ].
  - intros ->. auto.
  - intros -> -> ->. rewrite Z.eqb_refl. destruct (mb_motion_forward t); auto.
  - intros -> H. destruct (mb_motion_forward t), (mb_motion_backward t), (pct =? PFrame); cbn; auto; destruct H; discriminate.
  - intro s. unfold mv_of. repeat match goal with |- context [if ?c then _ else _] => destruct c end; reflexivity.
Qed.

(** Intra: no prediction. *)
Theorem C48_intra : forall S m i row col fs t pct b (s : S), mb_intra t = true -> small b -> length b = 64%nat ->
  motion_compensation (mv_previous t pct m) i row col fs b s = (Ok b, s).
Proof.
  intros S m i row col fs t pct b s Ht Hb Hl. destruct (proj1 (C48_references t pct m) Ht) as [F B]. unfold motion_compensation. rewrite F, B.
  unfold mc_ref. assert (E : b = map (fun k => nth k b 0) (seq 0 64)) by (rewrite <- Hl; clear; induction b as [|x b IH]; [reflexivity|]; cbn [length seq map nth]; f_equal; rewrite <- seq_shift, map_map; exact IH).
  transitivity (Ok (map (fun k => nth k b 0) (seq 0 64)), s); [|now rewrite <- E]. apply mapM_ok. intros k Hk. rewrite !bind_ret. unfold ret. cbn [fst snd]. change (0 + 0 =? 0) with true. cbv iota.
  rewrite Z.add_0_r, i32_small; [reflexivity|]. pose proof (Hb k). change (2 ^ 30) with 1073741824 in *. lia.
Qed.

(** A frame of one macroblock *)
Definition tiny (g : Z -> Z -> Z) : image :=
  mkImage (mkPlane 256 (fun i => g (i mod 16) (i / 16))) (mkPlane 64 (fun i => g (i mod 8) (i / 8))) (mkPlane 64 (fun i => g (i mod 8) (i / 8))) 16 8 16 16.
Lemma tiny_frame : forall g, frame420 (tiny g) 16 16.
Proof. intro g. repeat split; reflexivity. Qed.
Lemma tiny_bytes : forall g, (forall x y, 0 <= x < 16 -> 0 <= y < 16 -> 0 <= g x y <= 255) -> bytes_frame (tiny g).
Proof.
  intros g H. assert (D : forall n k, 0 < n -> 0 <= k < n * n -> 0 <= k mod n < n /\ 0 <= k / n < n).
  { intros n k Hn Hk. split; [apply Z.mod_pos_bound; lia|]. split; [apply Z.div_pos; lia | apply Z.div_lt_upper_bound; lia]. }
  split; [|split]; intros k Hk; cbn [tiny im_y im_cb im_cr pl_len pl_at] in Hk |- *.
  - destruct (D 16 k ltac:(lia) ltac:(lia)). now apply H.
  - destruct (D 8 k ltac:(lia) ltac:(lia)). apply H; lia.
  - destruct (D 8 k ltac:(lia) ltac:(lia)). apply H; lia.
Qed.
Definition ex_mv (fx fy bx by_ : Z) (fwd bwd : bool) : mvdata := mkMV (repeat 0 8) [fx; fy; bx; by_; 0; 0; 0; 0] fwd bwd.
Definition ex_fs (p f : image) : framestore := mkFS (mkRef None 0 false) (mkRef None 0 false) (Some p) (Some f).

(** Block 0 predicted from (3.5, 8) of one frame and from (0, 0.5) of another *)
Definition ex_past := tiny (fun x y => 10 * x + y).
Definition ex_future := tiny (fun x y => 255 - 2 * y).
Example C48_hyp : let past := Some (ex_past, (7, 16)) in let future := Some (ex_future, (0, 1)) in
  reference_in 16 16 0 0 0 past /\ reference_in 16 16 0 0 0 future /\ ref_bytes past /\ ref_bytes future /\
  predict past future 0 0 0 7 7 = ((115 + 125) / 2 + (241 + 239) / 2) / 2.
Proof.
  cbv zeta. split; [split; [apply tiny_frame | repeat split; vm_compute; discriminate]|]. split; [split; [apply tiny_frame | repeat split; vm_compute; discriminate]|].
  split; [apply tiny_bytes; intros; lia|]. split; [apply tiny_bytes; intros; lia|]. vm_compute. reflexivity.
Qed.

(** * C49: the place of the blocks *)

(** The six blocks, written one after the other *)
Fixpoint write_blocks {S} (row col : Z) (field : bool) (i : Z) (bs : list (list Z)) (f : image) : M S image :=
  match bs with
  | [] => ret f
  | b :: bs => f' <- update_frame_slice row i col field f b ;; write_blocks row col field (i + 1) bs f'
  end.
Theorem C49_tiling : forall S row col field w h f b0 b1 b2 b3 b4 b5 (s : S), frame420 f w h -> mb_in w h row col ->
  (forall b, In b [b0; b1; b2; b3; b4; b5] -> length b = 64%nat) ->
  exists f', write_blocks row col field 0 [b0; b1; b2; b3; b4; b5] f s = (Ok f', s) /\
    replaces w h f f' row col 1
      (fun x y => mb_luma field [b0; b1; b2; b3] (x - 16 * col) (y - 16 * row))
      (fun x y => nth (Z.to_nat (8 * (y - 8 * row) + (x - 8 * col))) b4 0)
      (fun x y => nth (Z.to_nat (8 * (y - 8 * row) + (x - 8 * col))) b5 0).
Proof.
  intros S row col field w h f b0 b1 b2 b3 b4 b5 s Hf Hm HL. cbn [write_blocks].
  assert (L : length b0 = 64%nat /\ length b1 = 64%nat /\ length b2 = 64%nat /\ length b3 = 64%nat /\ length b4 = 64%nat /\ length b5 = 64%nat) by (repeat split; apply HL; cbn; auto 10).
  destruct L as (L0 & L1 & L2 & L3 & L4 & L5).
  destruct (update_frame_ok S row 0 col field f w h b0 s Hf ltac:(lia) Hm L0) as (f1 & E1 & W1). rewrite (bind_ok _ _ _ _ _ _ _ _ E1).
  destruct (update_frame_ok S row 1 col field f1 w h b1 s (proj1 W1) ltac:(lia) Hm L1) as (f2 & E2 & W2). change (0 + 1) with 1. rewrite (bind_ok _ _ _ _ _ _ _ _ E2).
  destruct (update_frame_ok S row 2 col field f2 w h b2 s (proj1 W2) ltac:(lia) Hm L2) as (f3 & E3 & W3). change (1 + 1) with 2. rewrite (bind_ok _ _ _ _ _ _ _ _ E3).
  destruct (update_frame_ok S row 3 col field f3 w h b3 s (proj1 W3) ltac:(lia) Hm L3) as (f4 & E4 & W4). change (2 + 1) with 3. rewrite (bind_ok _ _ _ _ _ _ _ _ E4).
  destruct (update_frame_ok S row 4 col field f4 w h b4 s (proj1 W4) ltac:(lia) Hm L4) as (f5 & E5 & W5). change (3 + 1) with 4. rewrite (bind_ok _ _ _ _ _ _ _ _ E5).
  destruct (update_frame_ok S row 5 col field f5 w h b5 s (proj1 W5) ltac:(lia) Hm L5) as (f6 & E6 & W6). change (4 + 1) with 5. rewrite (bind_ok _ _ _ _ _ _ _ _ E6).
  exists f6. split; [reflexivity|]. exact (six_written w h row col field b0 b1 b2 b3 b4 b5 f f1 f2 f3 f4 f5 f6 W1 W2 W3 W4 W5 W6).
Qed.
Example C49_hyp : frame420 (create_frame_buffer 33 20 1) 48 32 /\ mb_in 48 32 1 2.
Proof. repeat split; vm_compute; congruence. Qed.

(** * C50: skipped macroblocks of P pictures *)

Theorem C50_skipped_P : forall S row col n dest past w h (s : S), frame420 dest w h -> frame420 past w h ->
  0 <= row -> 16 * row + 16 <= h -> 0 <= col -> 1 <= n -> 16 * (col + n) <= w ->
  exists f', pframe_copy_macroblocks row col n dest past s = (Ok f', s) /\
    replaces w h dest f' row col n (luma past) (blue past) (red past).
Proof. exact pframe_copy_ok. Qed.
(** In a picture: before the next macroblock is decoded, the macroblocks that its address skips become
    those of the past frame. *)
Theorem C50_in_picture : forall v row address incr m rd past w h, frame420 (ms_frame m) w h -> frame420 past w h ->
  fs_past (v_fs v) = Some past -> 0 <= row -> 16 * row + 16 <= h -> 0 <= address -> 2 <= incr -> 16 * (address + incr) <= w ->
  exists f', copy_skipped v PFrame row address incr (m, rd) = (Ok tt, (ms_set_frame f' m, rd)) /\
    replaces w h (ms_frame m) f' row (address + 1) (incr - 1) (luma past) (blue past) (red past).
Proof.
  intros v row address incr m rd past w h Hd Hs HP Hr Hh Ha Hi Hw.
  destruct (pframe_copy_ok _ row (address + 1) (incr - 1) (ms_frame m) past w h (m, rd) Hd Hs) as (f' & E & R); try lia.
  exists f'. split; [|exact R]. unfold copy_skipped. rewrite (proj2 (Z.eqb_neq address (-1))) by lia. rewrite (proj2 (Z.gtb_lt incr 1)) by lia.
  cbn [negb andb]. rewrite Z.eqb_refl, HP. unfold deref. rewrite bind_ret. unfold bind at 1, own. cbn [fst]. rewrite (bind_ok _ _ _ _ _ _ _ _ E). reflexivity.
Qed.
Example C50_hyp : frame420 (create_frame_buffer 64 16 1) 64 16 /\ 16 * (1 + 3) <= 64.
Proof. repeat split; vm_compute; congruence. Qed.

(** * C72: skipped macroblocks of B pictures *)

Theorem C72_skipped_B : forall v row address incr m rd past future w h, frame420 (ms_frame m) w h ->
  past = (if mv_fwd (ms_mvd m) then option_map (fun f => (f, mv_of (ms_mvd m) 0)) (fs_past (v_fs v)) else None) ->
  future = (if mv_bwd (ms_mvd m) then option_map (fun f => (f, mv_of (ms_mvd m) 1)) (fs_future (v_fs v)) else None) ->
  ref_bytes past -> ref_bytes future -> 0 <= address -> 2 <= incr ->
  (forall c, address < c < address + incr -> mb_in w h row c /\ forall i, 0 <= i < 6 -> reference_in w h i row c past /\ reference_in w h i row c future) ->
  exists f', copy_skipped v BFrame row address incr (m, rd) = (Ok tt, (ms_set_frame f' m, rd)) /\
    replaces w h (ms_frame m) f' row (address + 1) (incr - 1) (predict_at past future 0) (predict_at past future 4) (predict_at past future 5).
Proof.
  intros v row address incr m rd past future w h Hd EP EF BP BF Ha Hi H.
  assert (EP' : past = past_ref (ms_mvd m) (v_fs v)) by (rewrite EP; unfold past_ref, with_mv, mc_ref; now destruct (mv_fwd (ms_mvd m))).
  assert (EF' : future = future_ref (ms_mvd m) (v_fs v)) by (rewrite EF; unfold future_ref, with_mv, mc_ref; now destruct (mv_bwd (ms_mvd m))).
  clear EP EF. rewrite EP', EF' in *.
  destruct (bframe_copy_ok _ (Z.to_nat (incr - 1)) (ms_mvd m) (v_fs v) w h row (address + 1) (ms_frame m) (m, rd) Hd) as (f' & E & R).
  { intros c Hc. destruct (H c ltac:(lia)) as [H1 H2]. split; [exact H1|]. split; [exact BP|]. split; [exact BF | exact H2]. }
  rewrite Z2Nat.id in R by lia. exists f'. split; [|exact R]. unfold copy_skipped. rewrite (proj2 (Z.eqb_neq address (-1))) by lia.
  rewrite (proj2 (Z.gtb_lt incr 1)) by lia. cbn [negb andb]. change (BFrame =? PFrame) with false. cbv iota. rewrite Z.eqb_refl.
  unfold bind at 1, own. cbn [fst]. rewrite (bind_ok _ _ _ _ _ _ _ _ E). reflexivity.
Qed.
Example C72_hyp : let f := create_frame_buffer 64 16 1 in let past := Some (f, (-3, 0)) in let future := Some (f, (2, 0)) in
  frame420 f 64 16 /\ ref_bytes past /\ ref_bytes future /\
  (forall c, 0 < c < 0 + 3 -> mb_in 64 16 0 c /\ forall i, 0 <= i < 6 -> reference_in 64 16 i 0 c past /\ reference_in 64 16 i 0 c future).
Proof.
  cbv zeta. assert (F : frame420 (create_frame_buffer 64 16 1) 64 16) by (repeat split; reflexivity).
  assert (B : bytes_frame (create_frame_buffer 64 16 1)) by (repeat split; vm_compute; discriminate).
  split; [exact F|]. split; [exact B|]. split; [exact B|]. intros c Hc. assert (C : c = 1 \/ c = 2) by lia.
  split; [destruct C as [-> | ->]; repeat split; vm_compute; discriminate|]. intros i Hi.
  assert (I : i = 0 \/ i = 1 \/ i = 2 \/ i = 3 \/ i = 4 \/ i = 5) by lia.
  destruct C as [-> | ->]; destruct I as [-> | [-> | [-> | [-> | [-> | ->] ] ] ] ]; (split; (split; [exact F | repeat split; vm_compute; discriminate])).
Qed.

(** * C51: macroblock addresses *)

Theorem C51_increment : forall n c inc rd rest, mba_code c inc -> (11 <= length (c ++ rest))%nat ->
  mb_increment (setb rd (concat (repeat mb_escape n) ++ c ++ rest)) = (Ok (33 * Z.of_nat n + inc), setb rd rest).
Proof. exact mb_increment_run. Qed.
Theorem C51_every_increment : forall inc, 1 <= inc <= 33 -> exists c, mba_code c inc.
Proof.
  intros inc H. destruct (nth_error b1 (Z.to_nat (inc - 1))) as [[v n]|] eqn:E.
  - exists (enc (Z.to_nat n) v). split; [lia|]. exists v, n. auto.
  - apply nth_error_None in E. change (length b1) with 33%nat in E. lia.
Qed.
Example C51_hyp : mba_code [false; true; true] 2 /\ concat (repeat mb_escape 2) ++ [false; true; true] =
  map (fun b => b =? 1) [0;0;0;0;0;0;0;1;0;0;0; 0;0;0;0;0;0;0;1;0;0;0; 0;1;1].
Proof. split; [split; [lia|]; exists 3, 3; split; reflexivity | reflexivity]. Qed.

(** * C58: coded block pattern *)

Theorem C58_pattern : forall S cbp intra pattern (s : S), exists pc,
  pattern_code cbp intra pattern ChromaFormat420 s = (Ok pc, s) /\
  forall i, (i < 6)%nat -> nth i pc false = true <-> intra = true \/ (pattern = true /\ Z.testbit cbp (5 - Z.of_nat i) = true).
Proof.
  intros S cbp intra pattern s. destruct (pattern_run S cbp intra pattern _ s eq_refl) as (pc & E & _ & H). exists pc. split; [exact E|].
  intros i Hi. rewrite (H i Hi), orb_true_iff, andb_true_iff. reflexivity.
Qed.
Theorem C58_count : block_count ChromaFormat420 = 6%nat.
Proof. reflexivity. Qed.

(** * C69: field based prediction *)

(** The claim for one forward predicted luma block: the prediction is that of the two fields. *)
Definition field_prediction_claim : Prop :=
  forall e mb m rd rest b1 b2 v1 c1 v2 c2 f w h i row col,
  pc_struct e = FramePicture -> pc_fpfd e <> 1 -> mo_frame_motion mb = 1 ->
  f_codes_ok e -> mv_wf (ms_mvd m) -> mv_fits e (ms_mvd m) ->
  mv_fwd (ms_mvd m) = true -> mv_bwd (ms_mvd m) = false ->
  pair_code (f_code e 0 0) (f_code e 0 1) (pmv (ms_mvd m) 0 0 0, pmv (ms_mvd m) 0 0 1 / 2) v1 c1 ->
  pair_code (f_code e 0 0) (f_code e 0 1) (pmv (ms_mvd m) 1 0 0, pmv (ms_mvd m) 1 0 1 / 2) v2 c2 ->
  frame420 f w h -> bytes_frame f -> mb_in w h row col -> 0 <= i < 4 ->
  v1 = (0, 0) -> v2 = (0, 0) ->
  exists m', motion_vectors e mb 0 (m, setb rd ([b1 : bool] ++ c1 ++ [b2 : bool] ++ c2 ++ rest)) = (Ok tt, (m', setb rd rest)) /\
    motion_compensation (ms_mvd m') i row col (ex_fs f f) block_zero tt =
    (Ok (map (fun k => predict_field_luma f (b1, v1) (b2, v2) (block_x i col + Z.of_nat k mod 8) (block_y i row + Z.of_nat k / 8)) (seq 0 64)), tt).

Lemma zero_vectors : pair_code 3 2 (0, 0) (0, 0) [true; true].
Proof.
  assert (M0 : motion_code_code [true] 0) by (left; split; [reflexivity|]; exists 1, 1; split; reflexivity).
  exists [true], [true]. split; [reflexivity|]. split; [vm_compute; split; [discriminate|reflexivity]|]. split; [vm_compute; split; [discriminate|reflexivity]|].
  split; exists 0, 0; (split; [now constructor | reflexivity]).
Qed.

(** Both fields from the top field of a frame whose bottom field is white: the code delivers white lines. *)
Theorem C69_field_prediction_refuted : ~ field_prediction_claim.
Proof.
  intro H. set (m := mkMS [0; 0; 0] (mkMV (repeat 0 8) (repeat 0 8) true false) 1 (tiny (fun _ _ => 0))).
  specialize (H (ex_e 0) (no_mode 1) m (mkR [] EEOF [] (fun _ _ => EUnexpectedEOF)) [] false false (0, 0) [true; true] (0, 0) [true; true]
    (tiny (fun _ y => if y mod 2 =? 0 then 0 else 255)) 16 16 0 0 0 eq_refl ltac:(discriminate) eq_refl (ex_e_codes 0)).
  destruct H as (m' & E & C); try reflexivity; try lia.
  - split; reflexivity.
  - apply (reset_good (ex_e 0) mv_zero), ex_e_codes.
  - apply zero_vectors.
  - apply zero_vectors.
  - apply tiny_frame.
  - apply tiny_bytes. intros x y _ _. destruct (y mod 2 =? 0); lia.
  - repeat split; vm_compute; discriminate.
  - vm_compute in E. assert (X := f_equal (fun z => ms_mvd (fst (snd z))) E). cbn [fst snd] in X. rewrite <- X in C. vm_compute in C. discriminate.
Qed.

(** What the code does instead: neither the selected fields nor the second vector make a difference. *)
Theorem C69_second_vector_ignored : forall e mb s m rd rest b1 b2 v1 c1 v2 c2 b1' b2' v2' c2',
  pc_struct e = FramePicture -> pc_fpfd e <> 1 -> mo_frame_motion mb = 1 ->
  f_codes_ok e -> mv_wf (ms_mvd m) -> mv_fits e (ms_mvd m) -> (s < 2)%nat ->
  pair_code (f_code e s 0) (f_code e s 1) (pmv (ms_mvd m) 0 s 0, pmv (ms_mvd m) 0 s 1 / 2) v1 c1 ->
  pair_code (f_code e s 0) (f_code e s 1) (pmv (ms_mvd m) 1 s 0, pmv (ms_mvd m) 1 s 1 / 2) v2 c2 ->
  pair_code (f_code e s 0) (f_code e s 1) (pmv (ms_mvd m) 1 s 0, pmv (ms_mvd m) 1 s 1 / 2) v2' c2' ->
  exists m1 m2, motion_vectors e mb s (m, setb rd ([b1 : bool] ++ c1 ++ [b2 : bool] ++ c2 ++ rest)) = (Ok tt, (m1, setb rd rest)) /\
    motion_vectors e mb s (m, setb rd ([b1' : bool] ++ c1 ++ [b2' : bool] ++ c2' ++ rest)) = (Ok tt, (m2, setb rd rest)) /\
    forall S i row col fs b (x : S), motion_compensation (ms_mvd m1) i row col fs b x = motion_compensation (ms_mvd m2) i row col fs b x.
Proof.
  intros e mb s m rd rest b1 b2 v1 c1 v2 c2 b1' b2' v2' c2' Hst H1 H2 Hf Hw Hp Hs C1 C2 C2'.
  assert (HH : is_halved e true 1 = true) by (unfold is_halved; rewrite Hst; reflexivity).
  eexists; eexists. split; [eapply vectors_field_run; eauto; unfold mv_prediction; rewrite HH; eauto|].
  split; [eapply vectors_field_run; eauto; unfold mv_prediction; rewrite HH; eauto|].
  intros S i row col fs b x. cbn [ms_mvd ms_set_mvd].
  pose proof (put_wf e true 0 s v1 _ Hw) as W1.
  assert (A : forall v s', (s' < 2)%nat ->
    nth (mvi 0 s' 0) (mv_act (mv_put e true 1 s v (mv_put e true 0 s v1 (ms_mvd m)))) 0 = nth (mvi 0 s' 0) (mv_act (mv_put e true 0 s v1 (ms_mvd m))) 0 /\
    nth (mvi 0 s' 1) (mv_act (mv_put e true 1 s v (mv_put e true 0 s v1 (ms_mvd m)))) 0 = nth (mvi 0 s' 1) (mv_act (mv_put e true 0 s v1 (ms_mvd m))) 0).
  { intros v s' Hs'. pose proof (put_act e true 1 s v _ 0 s' W1 ltac:(lia) Hs Hs') as E. cbn [Nat.eqb andb] in E.
    split; [exact (f_equal fst E) | exact (f_equal snd E)]. }
  unfold motion_compensation. destruct (A v2 0%nat ltac:(lia)) as [-> ->]. destruct (A v2' 0%nat ltac:(lia)) as [-> ->].
  destruct (A v2 1%nat ltac:(lia)) as [-> ->]. destruct (A v2' 1%nat ltac:(lia)) as [-> ->]. reflexivity.
Qed.

(** * C70: rounding *)

(** The claim: C48 with the standard's rounding *)
Definition conforming_prediction : Prop := forall m w h i row col fs past future b, 0 <= i < 6 ->
  past = (if mv_fwd m then option_map (fun f => (f, mv_of m 0)) (fs_past fs) else None) ->
  future = (if mv_bwd m then option_map (fun f => (f, mv_of m 1)) (fs_future fs) else None) ->
  reference_in w h i row col past -> reference_in w h i row col future -> ref_bytes past -> ref_bytes future -> small b ->
  motion_compensation m i row col fs b tt =
    (Ok (map (fun k => nth k b 0 + predict_std past future i (block_x i col + Z.of_nat k mod 8) (block_y i row + Z.of_nat k / 8)) (seq 0 64)), tt).

(** Between samples 0 and 1 the standard has 1, the code 0. *)
Theorem C70_rounding_refuted : ~ conforming_prediction.
Proof.
  intro H. set (f := tiny (fun x _ => x mod 2)).
  assert (B : bytes_frame f) by (apply tiny_bytes; intros; pose proof (Z.mod_pos_bound x 2); lia).
  specialize (H (ex_mv 1 0 0 0 true false) 16 16 0 0 0 (ex_fs f f) (Some (f, (1, 0))) None block_zero ltac:(lia) eq_refl eq_refl).
  specialize (H ltac:(split; [apply tiny_frame | repeat split; vm_compute; discriminate]) I B I small_zero). vm_compute in H. discriminate.
Qed.
(** The mean of a past 0 and a future 1 *)
Theorem C70_average_refuted : ~ conforming_prediction.
Proof.
  intro H. assert (B : forall z, 0 <= z <= 1 -> bytes_frame (tiny (fun _ _ => z))) by (intros; apply tiny_bytes; intros; lia).
  specialize (H (ex_mv 0 0 0 0 true true) 16 16 0 0 0 (ex_fs (tiny (fun _ _ => 0)) (tiny (fun _ _ => 1)))
    (Some (tiny (fun _ _ => 0), (0, 0))) (Some (tiny (fun _ _ => 1), (0, 0))) block_zero ltac:(lia) eq_refl eq_refl).
  specialize (H ltac:(split; [apply tiny_frame | repeat split; vm_compute; discriminate]) ltac:(split; [apply tiny_frame | repeat split; vm_compute; discriminate])
    (B 0 ltac:(lia)) (B 1 ltac:(lia)) small_zero). vm_compute in H. discriminate.
Qed.
(** A luma vector of -1 (half a sample to the left) is a chroma vector of 0, not of -1. *)
Theorem C70_chroma_vector_refuted : ~ (forall i v, 0 <= i < 6 -> block_vector i v = block_vector_std i v).
Proof. intro H. specialize (H 4 (-1) ltac:(lia)). vm_compute in H. discriminate. Qed.

(** Where nothing has to be rounded - one reference, whole samples - the prediction is the standard's. *)
Theorem C70_whole_samples_partial : forall f i mv x y, 0 <= i < 6 ->
  (if i <? 4 then fst mv mod 2 = 0 /\ snd mv mod 2 = 0 else fst mv mod 4 = 0 /\ snd mv mod 4 = 0) ->
  predict_at (Some (f, mv)) None i x y = predict_std (Some (f, mv)) None i x y /\
  predict_at None (Some (f, mv)) i x y = predict_std None (Some (f, mv)) i x y.
Proof.
  intros f i [a b] x y Hi H. cbn [fst snd] in H.
  assert (E : predict1_at f i (a, b) x y = predict1_std f i (a, b) x y); [|split; exact E].
  unfold predict1_at, predict1_std, block_vector, block_vector_std. cbn [fst snd].
  assert (V : forall v, (if i <? 4 then v mod 2 = 0 else v mod 4 = 0) -> exists w, (if i <? 4 then v else v / 2) = 2 * w /\ (if i <? 4 then v else Z.quot v 2) = 2 * w).
  { intros v Hv. destruct (i <? 4).
    - exists (v / 2). pose proof (Z.div_mod v 2). lia.
    - exists (v / 4). pose proof (Z.div_mod v 4). assert (Ev : v = 2 * (v / 4) * 2) by lia. rewrite Ev at 1 3. rewrite Z.div_mul, Z.quot_mul by lia. auto. }
  destruct (i <? 4) eqn:I.
  - destruct H as [H1 H2]. destruct (V a H1) as (wa & A1 & _), (V b H2) as (wb & B1 & _). subst a b.
    unfold half_sample, half_sample_std. replace (2 * x + 2 * wa) with ((x + wa) * 2) by lia. replace (2 * y + 2 * wb) with ((y + wb) * 2) by lia.
    rewrite !Z.div_mul, !Z.mod_mul, !Z.add_0_r by lia. set (z := sample f i (x + wa) (y + wb)).
    replace (z + z + z + z) with (z * 4) by lia. rewrite Z.div_mul by lia. apply Z.div_unique with 2; lia.
  - destruct H as [H1 H2]. destruct (V a H1) as (wa & -> & ->), (V b H2) as (wb & -> & ->).
    unfold half_sample, half_sample_std. replace (2 * x + 2 * wa) with ((x + wa) * 2) by lia. replace (2 * y + 2 * wb) with ((y + wb) * 2) by lia.
    rewrite !Z.div_mul, !Z.mod_mul, !Z.add_0_r by lia. set (z := sample f i (x + wa) (y + wb)).
    replace (z + z + z + z) with (z * 4) by lia. rewrite Z.div_mul by lia. apply Z.div_unique with 2; lia.
Qed.

(** * C71: predicted macroblocks are the prediction plus the residual *)

(** Six blocks of a macroblock: prediction, clamping and writing *)
Fixpoint put_blocks {S} (m : mvdata) (fs : framestore) (row col : Z) (field : bool) (i : Z) (res : list (list Z)) (f : image) : M S image :=
  match res with
  | [] => ret f
  | b :: res => bf <- put_block m fs row col i field b f ;; put_blocks m fs row col field (i + 1) res (snd bf)
  end.
(** The claim, for either order of the residual's lines *)
Definition reconstruction_claim (field : bool) : Prop := forall S m fs past future w h row col f r0 r1 r2 r3 r4 r5 (s : S),
  past = (if mv_fwd m then option_map (fun f => (f, mv_of m 0)) (fs_past fs) else None) ->
  future = (if mv_bwd m then option_map (fun f => (f, mv_of m 1)) (fs_future fs) else None) ->
  frame420 f w h -> mb_in w h row col -> ref_bytes past -> ref_bytes future ->
  (forall i, 0 <= i < 6 -> reference_in w h i row col past /\ reference_in w h i row col future) ->
  (forall r, In r [r0; r1; r2; r3; r4; r5] -> small r) ->
  exists f', put_blocks m fs row col field 0 [r0; r1; r2; r3; r4; r5] f s = (Ok f', s) /\
    replaces w h f f' row col 1
      (fun x y => clamp255 (mb_luma field [r0; r1; r2; r3] (x - 16 * col) (y - 16 * row) + predict_at past future 0 x y))
      (fun x y => clamp255 (nth (Z.to_nat (8 * (y - 8 * row) + (x - 8 * col))) r4 0 + predict_at past future 4 x y))
      (fun x y => clamp255 (nth (Z.to_nat (8 * (y - 8 * row) + (x - 8 * col))) r5 0 + predict_at past future 5 x y)).

Theorem C71_frame_order_partial : reconstruction_claim false.
Proof.
  intros S m fs past future w h row col f r0 r1 r2 r3 r4 r5 s EP EF Hf Hm BP BF HR HS.
  assert (EP' : past = past_ref m fs) by (rewrite EP; unfold past_ref, with_mv, mc_ref; now destruct (mv_fwd m)).
  assert (EF' : future = future_ref m fs) by (rewrite EF; unfold future_ref, with_mv, mc_ref; now destruct (mv_bwd m)).
  clear EP EF. rewrite EP', EF' in *. assert (Hr : refs_in w h row col m fs) by (split; [exact BP|]; split; [exact BF | exact HR]).
  assert (HS0 : small r0) by (apply HS; cbn; auto 10). assert (HS1 : small r1) by (apply HS; cbn; auto 10). assert (HS2 : small r2) by (apply HS; cbn; auto 10).
  assert (HS3 : small r3) by (apply HS; cbn; auto 10). assert (HS4 : small r4) by (apply HS; cbn; auto 10). assert (HS5 : small r5) by (apply HS; cbn; auto 10).
  cbn [put_blocks].
  destruct (put_block_ok S m fs w h row col 0 false r0 f s ltac:(lia) Hf Hm Hr HS0) as (b1 & f1 & E1 & W1). rewrite (bind_ok _ _ _ _ _ _ _ _ E1). cbn [snd]. change (0 + 1) with 1.
  destruct (put_block_ok S m fs w h row col 1 false r1 f1 s ltac:(lia) (proj1 W1) Hm Hr HS1) as (b2 & f2 & E2 & W2). rewrite (bind_ok _ _ _ _ _ _ _ _ E2). cbn [snd]. change (1 + 1) with 2.
  destruct (put_block_ok S m fs w h row col 2 false r2 f2 s ltac:(lia) (proj1 W2) Hm Hr HS2) as (b3 & f3 & E3 & W3). rewrite (bind_ok _ _ _ _ _ _ _ _ E3). cbn [snd]. change (2 + 1) with 3.
  destruct (put_block_ok S m fs w h row col 3 false r3 f3 s ltac:(lia) (proj1 W3) Hm Hr HS3) as (b4 & f4 & E4 & W4). rewrite (bind_ok _ _ _ _ _ _ _ _ E4). cbn [snd]. change (3 + 1) with 4.
  destruct (put_block_ok S m fs w h row col 4 false r4 f4 s ltac:(lia) (proj1 W4) Hm Hr HS4) as (b5 & f5 & E5 & W5). rewrite (bind_ok _ _ _ _ _ _ _ _ E5). cbn [snd]. change (4 + 1) with 5.
  destruct (put_block_ok S m fs w h row col 5 false r5 f5 s ltac:(lia) (proj1 W5) Hm Hr HS5) as (b6 & f6 & E6 & W6). rewrite (bind_ok _ _ _ _ _ _ _ _ E6). cbn [snd].
  exists f6. split; [reflexivity|]. exact (six_recon w h row col _ _ r0 r1 r2 r3 r4 r5 f f1 f2 f3 f4 f5 f6 W1 W2 W3 W4 W5 W6).
Qed.

(** Field order: no motion and no residual should repeat the reference; its lines come out permuted. *)
Theorem C71_field_order_refuted : ~ reconstruction_claim true.
Proof.
  intro H. set (f := tiny (fun _ y => y)).
  assert (B : bytes_frame f) by (apply tiny_bytes; intros; lia).
  destruct (H unit (ex_mv 0 0 0 0 true false) (ex_fs f f) (Some (f, (0, 0))) None 16 16 0 0 (tiny (fun _ _ => 0)) block_zero block_zero block_zero block_zero block_zero block_zero tt
    eq_refl eq_refl (tiny_frame _)) as (f' & E & _ & _ & _ & L & _); auto.
  - repeat split; vm_compute; discriminate.
  - exact I.
  - intros i Hi. split; [|exact I]. split; [apply tiny_frame|].
    assert (C : i = 0 \/ i = 1 \/ i = 2 \/ i = 3 \/ i = 4 \/ i = 5) by lia.
    destruct C as [-> | [-> | [-> | [-> | [-> | ->] ] ] ] ]; repeat split; vm_compute; discriminate.
  - intros r Hr. cbn in Hr. intuition (subst; apply small_zero).
  - specialize (L 0 1 ltac:(lia) ltac:(lia)).
    assert (X := f_equal (fun z => match fst z with Ok f => luma f 0 1 | _ => 1 end) E). cbn [fst] in X. rewrite L in X. vm_compute in X. discriminate.
Qed.

Print Assumptions C47_vectors.
Print Assumptions C47_field_vectors.
Print Assumptions C47_range.
Print Assumptions C48_prediction.
Print Assumptions C49_tiling.
Print Assumptions C50_in_picture.
Print Assumptions C51_increment.
Print Assumptions C58_pattern.
Print Assumptions C69_field_prediction_refuted.
Print Assumptions C69_second_vector_ignored.
Print Assumptions C70_rounding_refuted.
Print Assumptions C71_frame_order_partial.
Print Assumptions C71_field_order_refuted.
Print Assumptions C72_skipped_B.
