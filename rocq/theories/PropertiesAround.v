(** PropertiesAround: predictions with any vector (C117). *)
From Coq Require Import Lia.
From Verif Require Import Base VidModel SpecVlc SpecMotion MbModel Exec FrameProofs MbProofs ForwardProofs SpillProofs PropertiesMotion SpecAround AroundProofs.

(** Every vector: as long as the lines last the prediction runs around the edges, and otherwise it is a panic. *)
Theorem C117_prediction : forall S m w h i row col fs past future b (s : S), 0 <= i < 6 ->
  past = (if mv_fwd m then option_map (fun f => (f, mv_of m 0)) (fs_past fs) else None) ->
  future = (if mv_bwd m then option_map (fun f => (f, mv_of m 1)) (fs_future fs) else None) ->
  sized_ref w h past -> sized_ref w h future -> ref_bytes past -> ref_bytes future -> small b ->
  (on_lines w h i row col past /\ on_lines w h i row col future ->
     motion_compensation m i row col fs b s =
       (Ok (map (fun k => nth k b 0 + predict_around w past future i row col (Z.of_nat k mod 8) (Z.of_nat k / 8)) (seq 0 64)), s) /\
     forall u v, 0 <= u < 8 -> 0 <= v < 8 -> 0 <= predict_around w past future i row col u v <= 255) /\
  (~ (on_lines w h i row col past /\ on_lines w h i row col future) -> exists s', motion_compensation m i row col fs b s = (Panic, s')).
Proof.
  intros S m w h i row col fs past future b s Hi EP EF HP HF BP BF Hb.
  assert (EP' : past = past_ref m fs) by (rewrite EP; unfold past_ref, with_mv, mc_ref; now destruct (mv_fwd m)).
  assert (EF' : future = future_ref m fs) by (rewrite EF; unfold future_ref, with_mv, mc_ref; now destruct (mv_bwd m)).
  clear EP EF. rewrite EP', EF' in *. split.
  - intros (P & F). split; [now apply (compensation_around S m w h)|]. intros u v Hu Hv. apply (around_range _ _ w h); auto.
    + destruct (past_ref m fs) as [[f mv]|]; [|exact Logic.I]. intros x y. now apply P.
    + destruct (future_ref m fs) as [[f mv]|]; [|exact Logic.I]. intros x y. now apply F.
  - intro N. apply not_both in N; [|assumption..]. exact (compensation_dies S m w h i row col fs b s Hi N).
Qed.

(** Where the vector does not lead out of the reference, this is the prediction of C48. *)
Theorem C117_inside : forall w h i row col past future, 0 <= i < 6 -> reference_in w h i row col past -> reference_in w h i row col future ->
  sized_ref w h past /\ sized_ref w h future /\ on_lines w h i row col past /\ on_lines w h i row col future /\
  forall u v, 0 <= u < 8 -> 0 <= v < 8 -> predict_around w past future i row col u v = predict past future i row col u v.
Proof.
  intros w h i row col past future Hi HP HF.
  assert (A : forall r, reference_in w h i row col r -> sized_ref w h r /\ on_lines w h i row col r).
  { intros [[f mv]|]; [|now split]. intros (Hf & V). split; [exact Hf|]. intros u v x y Hu Hv Nd. unfold vector_in, needed in *. cbv zeta in Nd.
    set (mx := block_vector i (fst mv)) in *. set (my := block_vector i (snd mv)) in *. pose proof (Z.div_mod mx 2 ltac:(lia)). pose proof (Z.mod_pos_bound mx 2 ltac:(lia)).
    pose proof (Z.div_mod my 2 ltac:(lia)). pose proof (Z.mod_pos_bound my 2 ltac:(lia)). rewrite Z.div_small by lia. lia. }
  split; [now apply A|]. split; [now apply A|]. split; [now apply A|]. split; [now apply A|]. intros u v Hu Hv.
  assert (B : forall f mv, vector_in w h i row col mv -> predict1_around w f i row col mv u v = predict1 f i row col mv u v).
  { intros f mv V. unfold predict1_around, predict1, predict1_at, half_sample. cbv zeta. unfold vector_in in V. rewrite !double_plus_div, !double_plus_mod.
    set (mx := block_vector i (fst mv)) in *. set (my := block_vector i (snd mv)) in *. pose proof (Z.div_mod mx 2 ltac:(lia)). pose proof (Z.mod_pos_bound mx 2 ltac:(lia)).
    rewrite !around_inside by lia. reflexivity. }
  unfold predict_around, predict. destruct past as [[f a]|], future as [[g b]|]; cbn [reference_in] in HP, HF; rewrite ?B by tauto; reflexivity.
Qed.

(** Block 1 of a frame of one macroblock, one sample to the right: its last column comes from the first of the line below. *)
Example C117_hyp : let past := Some (ex_past, (2, 0)) in let future := None in
  sized_ref 16 16 past /\ ref_bytes past /\ on_lines 16 16 1 0 0 past /\ on_lines 16 16 1 0 0 future /\ ~ reference_in 16 16 1 0 0 past /\
  predict_around 16 past future 1 0 0 6 3 = 153 /\ predict_around 16 past future 1 0 0 7 3 = 4.
Proof.
  cbv zeta. split; [apply tiny_frame|]. split; [apply tiny_bytes; intros; lia|]. split.
  - intros u v x y Hu Hv Nd. unfold needed in Nd. change (block_x 1 0) with 8 in Nd. change (block_y 1 0) with 0 in Nd. change (block_vector 1 (fst (2, 0)) / 2) with 1 in Nd. change (block_vector 1 (snd (2, 0)) / 2) with 0 in Nd.
    change (block_vector 1 (fst (2, 0)) mod 2) with 0 in Nd. change (block_vector 1 (snd (2, 0)) mod 2) with 0 in Nd. cbv zeta in Nd. change (plane_w 1 16) with 16. change (plane_h 1 16) with 16.
    assert (0 <= x / 16 <= 1) by (split; [apply Z.div_pos; lia | apply Z.div_le_upper_bound; lia]). lia.
  - split; [exact Logic.I|]. split; [|split; vm_compute; reflexivity]. intros (_ & V). unfold vector_in in V. vm_compute in V. destruct V as (_ & V & _). now apply V.
Qed.
(** The same vector in block 3, which ends on the last line: a panic. *)
Example C117_panic_hyp : let m := ex_mv 2 0 0 0 true false in let past := Some (ex_past, (2, 0)) in
  past = (if mv_fwd m then option_map (fun f => (f, mv_of m 0)) (fs_past (ex_fs ex_past ex_future)) else None) /\
  sized_ref 16 16 past /\ ref_bytes past /\ ~ on_lines 16 16 3 0 0 past /\
  exists s', motion_compensation m 3 0 0 (ex_fs ex_past ex_future) (repeat 0 64) tt = (Panic, s').
Proof.
  cbv zeta. assert (N : ~ on_lines 16 16 3 0 0 (Some (ex_past, (2, 0)))).
  { intro H. specialize (H 7 7 16 15 ltac:(lia) ltac:(lia)). change (plane_w 3 16) with 16 in H. change (plane_h 3 16) with 16 in H. change (16 / 16) with 1 in H. assert (0 <= 15 + 1 < 16); [|lia]. apply H. split; left; vm_compute; reflexivity. }
  split; [reflexivity|]. split; [apply tiny_frame|]. split; [apply tiny_bytes; intros; lia|]. split; [exact N|].
  eapply (proj2 (C117_prediction unit (ex_mv 2 0 0 0 true false) 16 16 3 0 0 (ex_fs ex_past ex_future) (Some (ex_past, (2, 0))) None (repeat 0 64) tt ltac:(lia) eq_refl eq_refl (tiny_frame _) Logic.I _ Logic.I _)). tauto.
  Unshelve. + apply tiny_bytes; intros; lia. + exact small_zero.
Qed.
Print Assumptions C117_prediction.
Print Assumptions C117_inside.
