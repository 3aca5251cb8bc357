(** PropertiesStray: C115 - the only causes of a panic of Next in I, P and B pictures, and that proper pictures have none. *)
From Coq Require Import Lia.
From Verif Require Import Base BitReader VidModel SpecVid VidProofs VidStream SpecVlc VlcProofs SpecBlock SpecMotion SpecPicture BlockModel MbModel SpecNext SpecStore NextProofs SpecSyntax SyntaxProofs After SpecPanic SpecCertain SpecRules RulesProofs ContextProofs ClearProofs
  SpecUnsupported SpecStray StrayProofs StrayStream StrayClear ExampleStream PropertiesBlock PropertiesCertain PropertiesRight.

(** Whatever the stream: if a call of Next panics, after any number of calls that have returned frames, then there are - from
    the beginning of the stream - pictures with their headers, of which the frames returned are; each of their frames shows
    what the picture's slices stand for, unless these break a rule (C103); and there follow headers with an extension that the
    decoder does not support, or the headers of a picture and slices with something on which the decoder panics: a slice
    below the picture, an address beyond the row, motion types 0 and 3, a prediction from outside the reference or from one
    of another size, a block of more than 64 coefficients.  For a picture that SpecPicture does not describe, or whose slices
    break a rule before, nothing is said. *)
Theorem C115_panics : forall n r imgs v' r' s', rlater r = [] -> nexts n (new_vidseq, r) = (Ok imgs, (v', r')) -> next (v', r') = (Panic, s') ->
  exists shs c d, rbits r = c ++ d /\ shots_bits None shs c /\ Forall (fun img => In img (map s_frame shs)) imgs /\
    (forall before sh later, shs = before ++ sh :: later -> right before sh) /\
    (stopped_at (in_force shs) d \/ exists sh, shot_bits (in_force shs) sh d /\ stray shs sh).
Proof. exact nexts_stray. Qed.
(** Proper pictures have no cause for a panic: if the slices follow the syntax and keep the rules, and another start code than
    a slice's comes next, or nothing, then neither is there anything on which the decoder panics, nor do they break a rule. *)
Theorem C115_exclusive : forall sh past future ls c rest, let P := shot_params sh past future in
  x_chroma (c_ext (s_ctx sh)) = 1 -> params_ok P -> slices_code P ls c ->
  (rest = [] \/ exists b u, rest = code b ++ u /\ 0 <= b < 256 /\ ~ 1 <= b <= 175) ->
  s_data sh = c ++ rest ->
  ~ slices_stray (shot_layer sh) P (s_data sh) /\ ~ slices_wrong (shot_layer sh) P (s_data sh).
Proof.
  intros sh past future ls c rest P Ch PO H Rs E. assert (LY : layer_for (shot_layer sh) P) by (split; [reflexivity|]; split; [reflexivity | exact Ch]).
  assert (X : forall c1 c2, s_data sh = c1 ++ c2 -> c1 = [] \/ (exists ls', slices_code P ls' c1) -> slice_bad (shot_layer sh) P c2 -> False).
  { intros c1 c2 E2 H' W. rewrite E in E2. destruct H' as [->|(ls' & H')]; [apply (slices_not_bad _ _ _ _ LY PO W Rs [] ls c []) | apply (slices_not_bad _ _ _ _ LY PO W Rs ls' ls c c1)]; first [exact E2 | now right | now left]. }
  split; intros (c1 & c2 & E2 & H' & W); apply (X c1 c2 E2 H'); [now apply stray_bad | now apply wrong_bad].
Qed.

(** * Examples *)

(** An I picture; then a P picture whose first macroblock has a vector that leads out of it *)
Definition st_down : list bool := enc 1 1 ++ enc 3 1 ++ enc 1 1 ++ enc 2 1 ++ [true].
Definition st_data (m : list bool) : list bool := ct_slice 1 (m ++ ct_pmb ++ ct_pmb) ++ code sequence_end_code.
Definition st_stream (m : list bool) : list bool := ct_stream ++ enc_picture_head (ct_head 2 xs_pce) ++ st_data m.
Example C115_hyp : forall r, rlater r = [] ->
  let s0 := (new_vidseq, setb r (st_stream st_down)) in
  rlater (setb r (st_stream st_down)) = [] /\
  match nexts 1 s0 with (Ok imgs, s) => length imgs = 1%nat /\ match next s with (Panic, _) => True | _ => False end | _ => False end.
Proof. intros r R s0. split; [exact R|]. subst s0. clear R. lazy. split; [reflexivity | exact Logic.I]. Qed.
(** The second picture, after the first with any frame that shows what it should, meets the hypotheses of [stray], and there is
    a cause for the panic in it. *)
Example C115_stray_hyp : forall a f, looks a f0 ->
  let before := [rx_shot true 0 1 (slice_bits i_slice i_bits) a] in
  let sh := rx_shot false 1 2 (st_data st_down) f in
  described sh /\ reference_frames before sh (Is f0) Unknown /\ slices_stray (shot_layer sh) (shot_params sh (Is f0) Unknown) (s_data sh).
Proof.
  intros a f La before sh. split; [|split].
  - unfold described, plain, sh, rx_shot, s_type. cbn. repeat split; try lia; congruence.
  - assert (R : refs (history before ++ opening sh) = [((1, 0), a)]) by reflexivity.
    unfold reference_frames. rewrite R. change (group_after (history before ++ opening sh), p_tr (s_hdr sh)) with (1, 1). change (s_type sh) with 2.
    assert (S1 : shown_before (1, 0) (1, 1)) by (right; cbn; lia).
    split; [intros _; split; [rewrite R; cbn [map fst in_order]; repeat constructor|]|split; [|reflexivity] ].
    + intros l p g E. rewrite R in E. change [((1, 0), a)] with ([] ++ [((1, 0), a)]) in E. apply app_inj_tail in E. destruct E as (<- & E). injection E as <- _. split; [constructor | now left].
    + exists a, f0. split; [|split; [exact La | reflexivity] ]. exists (1, 0). split; [now left|]. split; [exact S1|]. intros q g [I|[] ] Q; injection I as <- _; now left.
  - change (shot_params sh (Is f0) Unknown) with (xs_type 2 (Is f0) Unknown). change (s_data sh) with (st_data st_down). exists [], (st_data st_down). split; [reflexivity|]. split; [now left|].
    unfold st_data, ct_slice, stuffed. set (st := stuffing _ _). rewrite <- !app_assoc. eexists 0, _. split; [lia|]. split; [reflexivity|]. right.
    exists 5, None, [], [], (st_down ++ ct_pmb ++ ct_pmb ++ st ++ code sequence_end_code). split; [lia|]. split; [exact Logic.I|]. split; [reflexivity|]. split; [reflexivity|]. cbn [after_mbs].
    apply stray_vector with (b := mkMb 1 None (Some (0, -1)) None NotCoded) (c1 := st_down) (c2 := ct_pmb ++ ct_pmb ++ st ++ code sequence_end_code); [reflexivity | repeat split; discriminate | |].
    + exists (enc 1 1), (enc 3 1), (enc 1 1 ++ enc 2 1 ++ [true]), []. split; [exact xs_incr1|]. split; [exists 1, 3; split; [cbn; tauto | reflexivity]|].
      split; [|split; reflexivity]. exists (enc 1 1), (enc 2 1 ++ [true]). split; [reflexivity|]. split; [unfold mv_range; cbn; lia|]. split; [unfold mv_range; cbn; lia|]. split; [exact zero_vector|]. apply (down_vector 0 1 (enc 2 1)); [lia|]. exists 1, 2. split; reflexivity.
    + left. right. right. exists 0. split; [lia|]. intro V. unfold vector_in in V. cbn in V. lia.
Qed.
(** The P picture of the sequence in ExampleStream, with the next picture's header after it *)
Example C115_exclusive_hyp : forall f u, let rest := code 0 ++ u in
  let sh := rx_shot false 3 2 (slice_bits p_slice p_bits ++ rest) f in
  let P := shot_params sh (Is f0) Unknown in
  x_chroma (c_ext (s_ctx sh)) = 1 /\ params_ok P /\ slices_code P [p_slice] (slice_bits p_slice p_bits) /\
  (exists b v, rest = code b ++ v /\ 0 <= b < 256 /\ ~ 1 <= b <= 175) /\ s_data sh = slice_bits p_slice p_bits ++ rest.
Proof.
  intros f u rest sh P. split; [reflexivity|]. assert (E : P = xs_type 2 (Is f0) Unknown) by reflexivity. rewrite E. split; [apply xs_params_ok; lia|]. split; [apply slices_one, p_slice_code, sized_f|].
  split; [|reflexivity]. exists 0, u. split; [reflexivity|]. lia.
Qed.
Print Assumptions C115_panics.
Print Assumptions C115_exclusive.
