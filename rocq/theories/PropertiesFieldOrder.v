(** PropertiesFieldOrder: what becomes of a predicted macroblock in field DCT order (C71). *)
From Coq Require Import Lia.
From Verif Require Import Base VidModel SpecVlc SpecMotion BlockModel MbModel Exec FrameProofs MbProofs PropertiesMotion.

(** The lines of the prediction of a macroblock come in the order of the residual's: the upper eight go to the even lines, the
    lower eight to the odd ones.  Chroma is right. *)
Theorem C71_field_order : forall S m fs past future w h row col f r0 r1 r2 r3 r4 r5 (s : S),
  past = (if mv_fwd m then option_map (fun f => (f, mv_of m 0)) (fs_past fs) else None) ->
  future = (if mv_bwd m then option_map (fun f => (f, mv_of m 1)) (fs_future fs) else None) ->
  frame420 f w h -> mb_in w h row col -> ref_bytes past -> ref_bytes future ->
  (forall i, 0 <= i < 6 -> reference_in w h i row col past /\ reference_in w h i row col future) ->
  (forall r, In r [r0; r1; r2; r3; r4; r5] -> small r) ->
  exists f', put_blocks m fs row col true 0 [r0; r1; r2; r3; r4; r5] f s = (Ok f', s) /\
    replaces w h f f' row col 1
      (fun x y => clamp255 (mb_luma true [r0; r1; r2; r3] (x - 16 * col) (y - 16 * row) +
                            predict_at past future 0 x (16 * row + 8 * ((y - 16 * row) mod 2) + (y - 16 * row) / 2)))
      (fun x y => clamp255 (nth (Z.to_nat (8 * (y - 8 * row) + (x - 8 * col))) r4 0 + predict_at past future 4 x y))
      (fun x y => clamp255 (nth (Z.to_nat (8 * (y - 8 * row) + (x - 8 * col))) r5 0 + predict_at past future 5 x y)).
Proof.
  intros S m fs past future w h row col f r0 r1 r2 r3 r4 r5 s EP EF Hf Hm BP BF HR HS.
  assert (EP' : past = past_ref m fs) by (rewrite EP; unfold past_ref, with_mv, mc_ref; now destruct (mv_fwd m)).
  assert (EF' : future = future_ref m fs) by (rewrite EF; unfold future_ref, with_mv, mc_ref; now destruct (mv_bwd m)).
  clear EP EF. rewrite EP', EF' in *. assert (Hr : refs_in w h row col m fs) by (split; [exact BP|]; split; [exact BF | exact HR]).
  assert (HS0 : small r0) by (apply HS; cbn; auto 10). assert (HS1 : small r1) by (apply HS; cbn; auto 10). assert (HS2 : small r2) by (apply HS; cbn; auto 10).
  assert (HS3 : small r3) by (apply HS; cbn; auto 10). assert (HS4 : small r4) by (apply HS; cbn; auto 10). assert (HS5 : small r5) by (apply HS; cbn; auto 10).
  cbn [put_blocks].
  destruct (put_block_ok S m fs w h row col 0 true r0 f s ltac:(lia) Hf Hm Hr HS0) as (b1 & f1 & E1 & W1). rewrite (bind_ok _ _ _ _ _ _ _ _ E1). cbn [snd]. change (0 + 1) with 1.
  destruct (put_block_ok S m fs w h row col 1 true r1 f1 s ltac:(lia) (proj1 W1) Hm Hr HS1) as (b2 & f2 & E2 & W2). rewrite (bind_ok _ _ _ _ _ _ _ _ E2). cbn [snd]. change (1 + 1) with 2.
  destruct (put_block_ok S m fs w h row col 2 true r2 f2 s ltac:(lia) (proj1 W2) Hm Hr HS2) as (b3 & f3 & E3 & W3). rewrite (bind_ok _ _ _ _ _ _ _ _ E3). cbn [snd]. change (2 + 1) with 3.
  destruct (put_block_ok S m fs w h row col 3 true r3 f3 s ltac:(lia) (proj1 W3) Hm Hr HS3) as (b4 & f4 & E4 & W4). rewrite (bind_ok _ _ _ _ _ _ _ _ E4). cbn [snd]. change (3 + 1) with 4.
  destruct (put_block_ok S m fs w h row col 4 true r4 f4 s ltac:(lia) (proj1 W4) Hm Hr HS4) as (b5 & f5 & E5 & W5). rewrite (bind_ok _ _ _ _ _ _ _ _ E5). cbn [snd]. change (4 + 1) with 5.
  destruct (put_block_ok S m fs w h row col 5 true r5 f5 s ltac:(lia) (proj1 W5) Hm Hr HS5) as (b6 & f6 & E6 & W6). rewrite (bind_ok _ _ _ _ _ _ _ _ E6). cbn [snd].
  exists f6. split; [reflexivity|]. eapply replaces_ext; [eapply six_written; eassumption| | |]; intros x y I; apply in_mbs_spec in I.
  - cbv beta. set (x' := x - 16 * col). set (y' := y - 16 * row). assert (Hx : 0 <= x' < 16) by (unfold x'; lia). assert (Hy : 0 <= y' < 16) by (unfold y'; lia). replace x with (16 * col + x') by (unfold x'; lia). clearbody x' y'. clear x y I.
    unfold mb_luma. dm x' 8. dm y' 2. set (qx := x' / 8) in *. set (ux := x' mod 8) in *. set (qy := y' / 2) in *. set (ry := y' mod 2) in *. clearbody qx ux qy ry.
    assert (C : (qx = 0 \/ qx = 1) /\ (ry = 0 \/ ry = 1)) by lia. destruct (place_coords ux qy) as [P1 P2]; [lia..|].
    assert (PI : forall past future i a b, 0 <= i < 4 -> predict_at past future i a b = predict_at past future 0 a b).
    { intros p q i a b Hi. unfold predict_at, predict1_at, sample, block_vector. rewrite (proj2 (Z.ltb_lt i 4)) by lia. reflexivity. }
    destruct C as [[-> | ->] [-> | ->]]; change (Z.to_nat (2 * 0 + 0)) with 0%nat; change (Z.to_nat (2 * 0 + 1)) with 1%nat;
      change (Z.to_nat (2 * 1 + 0)) with 2%nat; change (Z.to_nat (2 * 1 + 1)) with 3%nat; cbn [nth]; rewrite recon_nth by lia; rewrite P1, P2; unfold predict; rewrite ?(PI _ _ 1), ?(PI _ _ 2), ?(PI _ _ 3) by lia;
      f_equal; f_equal; unfold block_x, block_y; cbn [Z.ltb Z.compare Pos.compare Pos.compare_cont].
    + change (0 mod 2) with 0. change (0 / 2) with 0. f_equal; lia.
    + change (2 mod 2) with 0. change (2 / 2) with 1. f_equal; lia.
    + change (1 mod 2) with 1. change (1 / 2) with 0. f_equal; lia.
    + change (3 mod 2) with 1. change (3 / 2) with 1. f_equal; lia.
  - cbn [nth]. rewrite recon_chroma by lia. replace (8 * col + (x - 8 * col)) with x by lia. replace (8 * row + (y - 8 * row)) with y by lia. reflexivity.
  - cbn [nth]. rewrite recon_chroma by lia. replace (8 * col + (x - 8 * col)) with x by lia. replace (8 * row + (y - 8 * row)) with y by lia. reflexivity.
Qed.
(** A macroblock of one frame, predicted from another with lines numbered from 0: no motion, no residual *)
Example C71_field_order_hyp : let f := tiny (fun _ y => y) in
  frame420 (tiny (fun _ _ => 0)) 16 16 /\ mb_in 16 16 0 0 /\ ref_bytes (Some (f, (0, 0))) /\ (forall i, 0 <= i < 6 -> reference_in 16 16 i 0 0 (Some (f, (0, 0)))) /\ small block_zero /\
  match put_blocks (ex_mv 0 0 0 0 true false) (ex_fs f f) 0 0 true 0 (repeat block_zero 6) (tiny (fun _ _ => 0)) tt with
  | (Ok f', _) => map (luma f' 5) [0; 1; 2; 3; 14; 15] = [0; 8; 1; 9; 7; 15]
  | _ => False
  end.
Proof.
  cbv zeta. split; [apply tiny_frame|]. split; [repeat split; vm_compute; discriminate|]. split; [apply tiny_bytes; intros; lia|]. split; [|split; [apply small_zero | vm_compute; reflexivity] ].
  intros i Hi. split; [apply tiny_frame|]. assert (C : i = 0 \/ i = 1 \/ i = 2 \/ i = 3 \/ i = 4 \/ i = 5) by lia.
  destruct C as [-> | [-> | [-> | [-> | [-> | ->] ] ] ] ]; repeat split; vm_compute; discriminate.
Qed.
Print Assumptions C71_field_order.
