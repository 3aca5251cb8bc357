(** PropertiesRight: C103 - every frame that Next returns is the one its bits stand for, or they break a rule. *)
From Coq Require Import Lia.
From Verif Require Import Base BitReader VidModel SpecVid VidProofs VidStream SpecVlc SpecBlock SpecMotion SpecPicture BlockModel MbModel SpecNext SpecStore NextProofs SpecSyntax SyntaxProofs After SpecRules RulesProofs ContextProofs ClearProofs ExampleStream PropertiesEnd.

(** Whatever the stream: what Next has read to return frames are pictures with their headers, each frame that it has returned
    is that of one of them, and each of these frames shows what the picture's slices stand for - predicted from the frames
    before and after it in display order, with the matrices in force - unless they break one of the rules. *)
Theorem C103_right : forall n r imgs v' r', rlater r = [] -> nexts n (new_vidseq, r) = (Ok imgs, (v', r')) ->
  exists c shs, rbits r = c ++ rbits r' /\ shots_bits None shs c /\
    Forall (fun img => In img (map s_frame shs)) imgs /\
    forall before sh later, shs = before ++ sh :: later -> right before sh.
Proof.
  intros n r imgs v' r' Hr H. destruct (nexts_shots n None [] new_vidseq r imgs v' r' Hr eq_refl ltac:(congruence) eq_refl H) as (shs & (c & S & A & _ & _ & _ & R) & F).
  exists c, shs. split; [exact (after_bits _ _ _ A)|]. split; [exact S|]. split; [exact F|]. intros before sh later E. exact (rights_split [] shs R (shots_ok _ _ _ S I) before sh later E).
Qed.
(** It is one or the other: data that follow the syntax and keep the rules stand for one list of slices, and break none of
    the rules. *)
Theorem C103_exclusive : forall sh past future ls, let P := shot_params sh past future in
  x_chroma (c_ext (s_ctx sh)) = 1 -> params_ok P -> slices_code P ls (s_data sh) ->
  ~ slices_wrong (shot_layer sh) P (s_data sh) /\ forall ls', slices_code P ls' (s_data sh) -> ls' = ls.
Proof.
  intros sh past future ls P Ch PO H. split.
  - intros (c1 & c2 & E & H' & W). assert (LY : layer_for (shot_layer sh) P) by (split; [reflexivity|]; split; [reflexivity | exact Ch]).
    destruct H' as [->|(ls' & H')]; [apply (slices_not_wrong _ _ _ LY PO W [] ls (s_data sh) []); [now right | now left | exact E] | apply (slices_not_wrong _ _ _ LY PO W ls' ls (s_data sh) c1); [now right | now right | exact E]].
  - intros ls' H'. apply (slices_unique P PO ls' ls (s_data sh)); now right.
Qed.
(** The P picture of the sequence in ExampleStream *)
Example C103_exclusive_hyp : forall f, let sh := mkShot false xs_ctx (mkSpic 3 2 65535 (false, 7) (false, 7) []) xs_pce (slice_bits p_slice p_bits) f in
  let P := shot_params sh (Is f0) Unknown in x_chroma (c_ext (s_ctx sh)) = 1 /\ params_ok P /\ slices_code P [p_slice] (s_data sh).
Proof.
  intros f sh P. split; [reflexivity|]. assert (E : P = xs_type 2 (Is f0) Unknown) by reflexivity. rewrite E. split; [apply xs_params_ok; lia|]. apply slices_one, p_slice_code, sized_f.
Qed.

(** The calls of C76_hyp meet the hypotheses.  And a B picture between an I and a P picture meets those of [right]. *)
Definition rx_shot (g : bool) (tr t : Z) (data : list bool) (f : image) : shot :=
  mkShot g xs_ctx (mkSpic tr t 65535 (false, 7) (false, 7) []) xs_pce data f.
Example C103_hyp :
  (forall r, exists imgs v' r', nexts 8 (new_vidseq, setb r (enc_sequence 2 xs_groups)) = (Ok imgs, (v', r')) /\ length imgs = 8%nat) /\
  forall a b f, looks a f0 -> looks b f1 ->
    let before := [rx_shot true 0 1 (slice_bits i_slice i_bits) a; rx_shot false 3 2 (slice_bits p_slice p_bits) b] in
    let sh := rx_shot false 1 3 (slice_bits b_slice b_bits) f in
    described sh /\ reference_frames before sh (Is f0) (Is f1).
Proof.
  split; [exact C76_hyp|]. intros a b f La Lb before sh. split.
  - unfold described, plain, sh, rx_shot, s_type. cbn. repeat split; try lia; congruence.
  - assert (R : refs (history before ++ opening sh) = [((1, 0), a); ((1, 3), b)]) by reflexivity.
    unfold reference_frames. rewrite R. change (group_after (history before ++ opening sh), p_tr (s_hdr sh)) with (1, 1). change (s_type sh) with 3.
    assert (S1 : shown_before (1, 0) (1, 1)) by (right; cbn; lia). assert (S2 : shown_before (1, 1) (1, 3)) by (right; cbn; lia). assert (S3 : shown_before (1, 0) (1, 3)) by (right; cbn; lia).
    assert (N1 : ~ shown_before (1, 3) (1, 1)) by (intros [X|(_ & X)]; cbn in X; lia). assert (N2 : ~ shown_before (1, 1) (1, 0)) by (intros [X|(_ & X)]; cbn in X; lia).
    split; [intros _; split; [rewrite R; cbn [map fst in_order]; repeat constructor; exact S3|]|split].
    + intros l p g E. rewrite R in E. change [((1, 0), a); ((1, 3), b)] with ([((1, 0), a)] ++ [((1, 3), b)]) in E. apply app_inj_tail in E. destruct E as (<- & E). injection E as <- _. split; [repeat constructor; exact S1 | now right].
    + exists a, f0. split; [|split; [exact La | reflexivity] ]. exists (1, 0). split; [now left|]. split; [exact S1|]. intros q g [I|[I|[] ] ] Q; injection I as <- _; [now left | contradiction].
    + exists b, f1. split; [|split; [exact Lb | reflexivity] ]. exists (1, 3). split; [right; now left|]. split; [exact S2|]. intros q g [I|[I|[] ] ] Q; injection I as <- _; [contradiction | now left].
Qed.
(** Data that break a rule: a slice of a P picture with the quantiser scale 0; and one with a vector that leads out of the picture *)
Example C103_wrong_hyp : forall y t, slices_wrong y (xs_type 2 (Is f0) Unknown) (code 1 ++ enc 5 0 ++ flags_code None ++ t) /\
  slices_wrong y (xs_type 2 (Is f0) Unknown) (code 1 ++ enc 5 5 ++ flags_code None ++ enc 1 1 ++ enc 3 1 ++ enc 1 1 ++ enc 2 1 ++ [true] ++ t).
Proof.
  intros y t. split; (eexists [], _; split; [reflexivity|]; split; [now left|]).
  - exists 0, 0, None, t. split; [lia|]. split; [lia|]. split; [exact I|]. split; [reflexivity|]. right. now left.
  - exists 0, 5, None, (enc 1 1 ++ enc 3 1 ++ enc 1 1 ++ enc 2 1 ++ [true] ++ t). split; [lia|]. split; [lia|]. split; [exact I|]. split; [reflexivity|]. right. right.
    exists [], [], (enc 1 1 ++ enc 3 1 ++ enc 1 1 ++ enc 2 1 ++ [true] ++ t). split; [reflexivity|]. split; [reflexivity|]. cbn [after_mbs].
    exists (enc 1 1 ++ enc 3 1 ++ enc 1 1 ++ enc 2 1 ++ [true]), t. split; [now rewrite <- !app_assoc|]. left.
    exists (mkMb 1 None (Some (0, -1)) None NotCoded). split; [repeat split; discriminate|]. split.
    + exists (enc 1 1), (enc 3 1), (enc 1 1 ++ enc 2 1 ++ [true]), [], []. split; [exact xs_incr1|]. split; [exists 1, 3; split; [cbn; tauto | reflexivity]|].
      split; [|split; [reflexivity | split; [reflexivity | reflexivity] ] ]. exists (enc 1 1), (enc 2 1 ++ [true]). split; [reflexivity|]. split; [unfold mv_range; cbn; lia|]. split; [unfold mv_range; cbn; lia|]. split; [exact zero_vector|]. apply (down_vector 0 1 (enc 2 1)); [lia|]. exists 1, 2. split; reflexivity.
    + apply past_outside. right. right. exists 0. split; [lia|]. intro V. unfold vector_in in V. cbn in V. lia.
Qed.
Print Assumptions C103_right.
Print Assumptions C103_exclusive.
