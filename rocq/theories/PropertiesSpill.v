(** PropertiesSpill: C116 - predictions from above the first or below the last line of a reference make Next panic. *)
From Coq Require Import Lia.
From Verif Require Import Base BitReader VidModel SpecVid VidProofs VidStream SpecVlc VlcProofs SpecBlock SpecMotion SpecPicture BlockModel MbModel SpecNext SpecStore NextProofs SpecSyntax SyntaxProofs After SpecPanic SpecCertain SpecRules RulesProofs ContextProofs ClearProofs
  SpecUnsupported SpecAround SpecSpill SpillProofs SpillStream SpecStray StrayStream ExampleStream PropertiesBlock PropertiesCertain PropertiesRight PropertiesStray.

(** Whatever the stream: the frames returned by any number of calls of Next belong to pictures in none of which a block was to
    be predicted from samples above the first line or below the last line of its reference frame - where, beyond the left and
    the right edge, the lines are continued by the ones before and after (C117). *)
Theorem C116_never : forall n r imgs v' r', rlater r = [] -> nexts n (new_vidseq, r) = (Ok imgs, (v', r')) ->
  exists c shs, rbits r = c ++ rbits r' /\ shots_bits None shs c /\ Forall (fun img => In img (map s_frame shs)) imgs /\
    forall before sh later past future, shs = before ++ sh :: later -> described sh -> reference_frames before sh past future ->
      ~ slices_spill (shot_params sh past future) (s_data sh).
Proof.
  intros n r imgs v' r' Hr H. destruct (nexts_shots n None [] new_vidseq r imgs v' r' Hr eq_refl ltac:(congruence) eq_refl H) as (shs & (c & S & A & _ & _ & _ & R) & F).
  exists c, shs. split; [exact (after_bits _ _ _ A)|]. split; [exact S|]. split; [exact F|]. intros before sh later past future E De Rf.
  destruct (rights_at [] shs R (shots_ok _ _ _ S Logic.I) before sh later E) as (K & W & R1). exact (proj2 (right_both before sh past future K W R1 De Rf)).
Qed.
(** And if the stream goes on with the headers of such a picture and slices in one of which, after right ones, there is such a
    block, then the frames that are already decoded are returned, without reading on, and the call after them panics.  [k] is
    what was in force for the last picture. *)
Theorem C116_panics : forall n r imgs v' r', rlater r = [] -> nexts n (new_vidseq, r) = (Ok imgs, (v', r')) ->
  exists c shs, rbits r = c ++ rbits r' /\ shots_bits None shs c /\ Forall (fun img => In img (map s_frame shs)) imgs /\
    forall k og p d rest f past future, let sh := mkShot (some og) (ctx_items k (pd_items p)) (pd_hdr p) (pd_pce p) d f in
      in_force shs = Some k -> opt_wf wf_group_head og -> wf_picture_head p ->
      rbits r' = opt enc_group_head og ++ enc_picture_head p ++ d ++ rest -> (length (d ++ rest) mod 8 = 0)%nat -> (23 <= length rest)%nat ->
      described sh -> reference_frames shs sh past future -> slices_spill (shot_params sh past future) d ->
      exists m more v2 s', nexts m (v', r') = (Ok more, (v2, r')) /\ next (v2, r') = (Panic, s').
Proof.
  intros n r imgs v' r' Hr H. destruct (nexts_shots n None [] new_vidseq r imgs v' r' Hr eq_refl ltac:(congruence) eq_refl H) as (shs & (c & S & A & I1 & _ & FS & R) & F).
  exists c, shs. split; [exact (after_bits _ _ _ A)|]. split; [exact S|]. split; [exact F|]. intros k og p d rest f past future sh Fo Wg Wp E M8 Hl De Rf Sp.
  destruct (drained v' r') as (m & more & fc & N & TG). exists m, more, (set_fc fc v'). pose proof (shots_ok _ _ _ S Logic.I) as Ok.
  assert (Okk : ctx_ok k).
  { unfold in_force in Fo. destruct (rev shs) as [|x l] eqn:El; [discriminate|]. injection Fo as <-. rewrite Forall_forall in Ok. apply (Ok x). apply in_rev. rewrite El. now left. }
  rewrite <- in_force_last, Fo in I1. destruct (spill_panics shs (set_fc fc v') r' k og p sh past future rest) as (s' & D); try assumption.
  - repeat split.
  - exists s'. split; [exact N | exact D].
Qed.
(** Among them are all vectors that lead to samples between the left and the right edge of the reference but above or below it. *)
Theorem C116_vertical : forall P row col ref, vertical P row col ref -> beyond P row col ref.
Proof.
  intros P row col [[c mv]|] H; [|exact H]. destruct H as (W & H & i & Hi & X1 & X2 & Y). split; [exact W|]. split; [exact H|].
  set (mx := block_vector i (fst mv)) in *. set (my := block_vector i (snd mv)) in *. pose proof (Z.div_mod mx 2 ltac:(lia)). pose proof (Z.mod_pos_bound mx 2 ltac:(lia)).
  pose proof (Z.div_mod my 2 ltac:(lia)). pose proof (Z.mod_pos_bound my 2 ltac:(lia)). set (x := block_x i col + 0 + mx / 2).
  assert (Dx : x / plane_w i (pp_w P) = 0) by (apply Z.div_small; unfold x; lia).
  destruct Y as [Y|Y]; [exists i, 0, 0, x, (block_y i row + 0 + my / 2) | exists i, 0, 7, x, (block_y i row + 7 + my / 2 + my mod 2)]; rewrite Dx; (split; [exact Hi|]); (split; [lia|]); (split; [lia|]).
  - split; [split; left; reflexivity | lia].
  - split; [split; [left; reflexivity | right; reflexivity] | lia].
Qed.

(** * Examples *)

(** The streams of C115: an I picture, then a P picture whose first macroblock has a vector that leads out of the picture *)
Definition sp_data : list bool := ct_slice 1 (st_down ++ ct_pmb ++ ct_pmb).
Example C116_hyp : forall r, rlater r = [] ->
  rlater (setb r (st_stream st_down)) = [] /\
  match nexts 1 (new_vidseq, setb r (st_stream st_down)) with
  | (Ok imgs, (_, r')) => length imgs = 1%nat /\ rbits r' = opt enc_group_head None ++ enc_picture_head (ct_head 2 xs_pce) ++ sp_data ++ code sequence_end_code
  | _ => False
  end.
Proof. intros r R. split; [exact R|]. clear R. lazy. split; reflexivity. Qed.
Example C116_spill_hyp : forall a f, looks a f0 ->
  let shs := [rx_shot true 0 1 (slice_bits i_slice i_bits) a] in
  let p := ct_head 2 xs_pce in
  let rest := code sequence_end_code in
  exists k, let sh := mkShot (some (None : option sgroup_head)) (ctx_items k (pd_items p)) (pd_hdr p) (pd_pce p) sp_data f in
    in_force shs = Some k /\ wf_picture_head p /\ (length (sp_data ++ rest) mod 8 = 0)%nat /\ (23 <= length rest)%nat /\
    described sh /\ reference_frames shs sh (Is f0) Unknown /\ slices_spill (shot_params sh (Is f0) Unknown) sp_data.
Proof.
  intros a f La shs p rest. exists xs_ctx. intro sh. split; [reflexivity|]. split; [apply ct_picture_wf; [lia | now left]|]. split; [reflexivity|]. split; [cbn; lia|].
  change sh with (rx_shot false 1 2 sp_data f). destruct (C115_stray_hyp a f La) as (De & Rf & _). split; [exact De|]. split; [exact Rf|].
  change (shot_params (rx_shot false 1 2 sp_data f) (Is f0) Unknown) with (xs_type 2 (Is f0) Unknown). exists [], sp_data. split; [reflexivity|]. split; [now left|].
  unfold sp_data, ct_slice, stuffed. set (st := stuffing _ _). rewrite <- !app_assoc. exists 0, 5, None, [], [], (st_down ++ ct_pmb ++ ct_pmb ++ st). split; [lia|]. split; [lia|]. split; [exact Logic.I|]. split; [reflexivity|]. split; [constructor|]. cbn [after_mbs].
  apply spill_vector with (b := mkMb 1 None (Some (0, -1)) None NotCoded) (c1 := st_down) (c2 := ct_pmb ++ ct_pmb ++ st); [reflexivity | repeat split; discriminate | |].
  - exists (enc 1 1), (enc 3 1), (enc 1 1 ++ enc 2 1 ++ [true]), [], []. split; [exact xs_incr1|]. split; [exists 1, 3; split; [cbn; tauto | reflexivity]|].
    split; [|split; [reflexivity | split; reflexivity] ]. exists (enc 1 1), (enc 2 1 ++ [true]). split; [reflexivity|]. split; [unfold mv_range; cbn; lia|]. split; [unfold mv_range; cbn; lia|]. split; [exact zero_vector|]. apply (down_vector 0 1 (enc 2 1)); [lia|]. exists 1, 2. split; reflexivity.
  - left. split; [reflexivity|]. split; [reflexivity|]. exists 0, 0, 0, 0, (-1). split; [lia|]. split; [lia|]. split; [lia|]. split; [|cbn; lia]. split; left; reflexivity.
Qed.
(** A vector upwards in the first row is a vertical one.  One sample to the right from the last macroblock of the last row of a
    picture, where no line follows, is not, but leads beyond the reference as well. *)
Example C116_vertical_hyp : vertical (xs_type 2 (Is f0) Unknown) 0 0 (Some (f0, (0, -1))) /\
  beyond (xs_type 2 (Is f0) Unknown) 0 2 (Some (f0, (2, 0))) /\ ~ vertical (xs_type 2 (Is f0) Unknown) 0 2 (Some (f0, (2, 0))).
Proof.
  split; [split; [reflexivity|]; split; [reflexivity|]; exists 0; cbn; lia|]. split.
  - split; [reflexivity|]. split; [reflexivity|]. exists 3, 7, 7, 48, 15. split; [lia|]. split; [lia|]. split; [lia|]. split; [split; left; reflexivity | vm_compute; intros (_ & H); discriminate].
  - intros (_ & _ & i & Hi & X1 & X2 & Y). assert (D : i = 0 \/ i = 1 \/ i = 2 \/ i = 3 \/ i = 4 \/ i = 5) by lia. destruct D as [->|[->|[->|[->|[->| ->] ] ] ] ]; cbn in X1, X2, Y; lia.
Qed.
(** Frames without such blocks: eight pictures of three types (C103) *)
Example C116_never_hyp : forall r, exists imgs v' r', nexts 8 (new_vidseq, setb r (enc_sequence 2 xs_groups)) = (Ok imgs, (v', r')) /\ length imgs = 8%nat.
Proof. exact (proj1 C103_hyp). Qed.
Print Assumptions C116_never.
Print Assumptions C116_panics.
Print Assumptions C116_vertical.
