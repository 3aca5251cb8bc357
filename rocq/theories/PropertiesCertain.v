(** PropertiesCertain: C112 - what in a stream makes Next panic for certain, and that a stream of proper syntax is decoded to
    its end, without an error, unless Next panics. *)
From Coq Require Import Lia.
From Verif Require Import Base BitReader VidModel SpecVid VidProofs VidStream SpecVlc SpecBlock SpecMotion SpecPicture SpecNext SpecSyntax SpecPanic SpecUnsupported SpecCertain MbModel PropertiesPes PropertiesVidHeaders PropertiesBlock ExampleStream NextProofs PropertiesNext ForwardProofs.

(** The loop that calls Next until there is an error, on a stream that has one of these: it panics; [k] zero bytes may come first *)
Theorem C112_panics : forall k d rd, rlater rd = [] -> sure_stream d ->
  exists n s, nexts n (new_vidseq, setb rd (bb (repeat 0 k) ++ d)) = (Panic, s).
Proof. intros k d rd Rl S. destruct (sure_panics k d rd Rl S) as (n & s & E). eauto. Qed.

(** Pictures of proper syntax, and then whatever begins with another start code: an error is only returned when all of the
    pictures have been read. *)
Theorem C112_no_error : forall k o c rest rd n e v' r', rlater rd = [] -> whole_stream None o c -> c <> [] -> not_slice rest ->
  nexts n (new_vidseq, setb rd (bb (repeat 0 k) ++ c ++ rest)) = (Err e, (v', r')) -> exists t, rest = t ++ rbits r'.
Proof. exact whole_no_error. Qed.

(** And before the end of the sequence: the loop panics, or it gets to the end, where it gets EOS. *)
Theorem C112_to_end : forall k o c t rd, rlater rd = [] -> whole_stream None o c -> c <> [] -> (length t mod 8 = 0)%nat ->
  let s0 := (new_vidseq, setb rd (bb (repeat 0 k) ++ c ++ code sequence_end_code ++ t)) in
  (exists n s, nexts n s0 = (Panic, s)) \/
  exists n imgs s v' r', nexts n s0 = (Ok imgs, s) /\ next s = (Err EOS, (v', r')) /\ rbits r' = t.
Proof. intros k o c t rd Rl H Ne L s0. destruct (whole_to_end k o c t rd Rl H Ne L) as [(n & s & E) | X]; [left; eauto | now right]. Qed.

(** * Examples *)

Definition ct_head (t : Z) (pce : spce) : spicture_head := mkPictureHead (mkSpic (if t =? 2 then 1 else 0) t 65535 (false, 7) (false, 7) []) 0 pce 0 [].
Definition ct_heads (t : Z) (pce : spce) : list bool := enc_start xs_start ++ enc_group_head (mkGroupHead (xs_gop true) 0 []) ++ enc_picture_head (ct_head t pce).
Definition ct_layer (t : Z) (pce : spce) : layer := mkLayer (pd_hdr (ct_head t pce)) pce 1 16.
Definition ct_mb : list bool := enc 1 1 ++ enc 1 1 ++ flat_bits.
(** A P macroblock with the vector 0, 0 *)
Definition ct_pmb : list bool := enc 1 1 ++ enc 3 1 ++ enc 1 1 ++ enc 1 1.
Definition ct_slice (row : Z) (c : list bool) : list bool := stuffed (code row ++ enc 5 5 ++ flags_code None ++ c) 1.
(** Reserved or dual prime motion types need frame_pred_frame_dct = 0 *)
Definition ct_free : spce := mkSpce 1 1 1 1 0 3 true false false false false false false true true None.

Lemma ct_pce_wf : forall pce, pce = xs_pce \/ pce = ct_free -> wf_pce pce.
Proof. intros pce [-> | ->]; repeat split; cbn; try lia; exact I. Qed.
Lemma ct_picture_wf : forall t pce, 0 <= t < 8 -> pce = xs_pce \/ pce = ct_free -> wf_picture_head (ct_head t pce).
Proof. intros t pce Ht Hp. split; [repeat split; cbn; try lia; try constructor; destruct (t =? 2); lia|]. split; [now apply ct_pce_wf|]. split; constructor. Qed.
Lemma ct_heads_ok : forall t pce, 0 <= t < 8 -> pce = xs_pce \/ pce = ct_free -> heads None (xs_seq, xs_sext) (ct_head t pce) (ct_heads t pce).
Proof.
  intros t pce Ht Hp. exists (Some xs_start), (Some (mkGroupHead (xs_gop true) 0 [])). split; [reflexivity|]. split; [exact xs_start_wf|].
  split; [split; [repeat split; cbn; lia | split; constructor]|]. split; [now apply ct_picture_wf | reflexivity].
Qed.
Lemma ct_block : forall y k c, (k < 6)%nat -> e_vlc (y_pce y) = false -> c = (if Nat.ltb k 4 then dc0l else dc0c) ++ b14_eob -> block_syn y true k c.
Proof.
  intros y k c Hk V ->. unfold block_syn. exists 0. eexists _, [], b14_eob. split; [reflexivity|]. rewrite V. split; [|split; [apply empty_from; lia | cbn; lia] ].
  pose proof (xs_dc0 k Hk) as X. do 6 (destruct k as [|k]; [exact X|]). lia.
Qed.
Lemma ct_mb_head : forall t pce, t = 1 -> e_fpfd pce = true -> e_conceal pce = false -> mb_head_at (ct_layer t pce) (false, false, false, false, true) 1 (enc 1 1 ++ enc 1 1).
Proof.
  intros t pce -> F C. unfold mb_head_at. cbn [y_pce ct_layer]. rewrite C. cbn [andb orb negb]. unfold y_fpfd. cbn [y_pce ct_layer]. rewrite F. rewrite !andb_false_r. cbn [negb andb only_if orb].
  exists 0, OneFrame, (enc 1 1), (enc 1 1), [], [], [], [], [], []. split; [now rewrite !app_nil_r|]. split; [exact xs_incr1|]. split; [exists 1, 1; split; [cbn; auto | reflexivity]|].
  repeat split; try reflexivity. discriminate.
Qed.
Lemma ct_blocks : blocks_syn (ct_layer 1 xs_pce) true 0 (SpecSyntax.coded_blocks (ct_layer 1 xs_pce) true 0) flat_bits.
Proof.
  change (SpecSyntax.coded_blocks (ct_layer 1 xs_pce) true 0) with (repeat true 6). cbn [repeat blocks_syn only_if]. unfold flat_bits.
  do 4 (exists (dc0l ++ b14_eob); eexists; split; [reflexivity|]; split; [apply ct_block; [lia | reflexivity | reflexivity]|]).
  exists (dc0c ++ b14_eob). eexists. split; [reflexivity|]. split; [apply ct_block; [lia | reflexivity | reflexivity]|].
  exists (dc0c ++ b14_eob), []. split; [now rewrite app_nil_r|]. split; [apply ct_block; [lia | reflexivity | reflexivity] | reflexivity].
Qed.
Lemma ct_mb_at : mb_at (ct_layer 1 xs_pce) 1 ct_mb.
Proof.
  exists false, false, false, false, true, 0, (enc 1 1 ++ enc 1 1), [], flat_bits. split; [reflexivity|]. split; [now apply ct_mb_head|]. split; [reflexivity|]. exact ct_blocks.
Qed.
Lemma ct_zero : component_syn 1 (enc 1 1).
Proof. exists 0, (enc 1 1), []. split; [reflexivity|]. split; [left; split; [reflexivity | has_tac] | reflexivity]. Qed.
Lemma ct_pmb_at : mb_at (ct_layer 2 xs_pce) 1 ct_pmb.
Proof.
  exists false, true, false, false, false, 0, ct_pmb, [], []. split; [reflexivity|]. split; [|split; [reflexivity | do 6 (exists [], []; split; [reflexivity|]; split; [reflexivity|]); reflexivity] ].
  exists 0, OneFrame, (enc 1 1), (enc 3 1), [], [], [], (enc 1 1 ++ enc 1 1), [], []. split; [reflexivity|]. split; [exact xs_incr1|]. split; [exists 1, 3; split; [cbn; auto | reflexivity]|].
  repeat split; try reflexivity. exists (enc 1 1), (enc 1 1). split; [reflexivity|]. split; exact ct_zero.
Qed.

(** An I and a P picture, which are decoded to the end *)
Definition ct_stream : list bool := ct_heads 1 xs_pce ++ ct_slice 1 (ct_mb ++ ct_mb ++ ct_mb).
Definition ct_second : list bool := enc_picture_head (ct_head 2 xs_pce) ++ ct_slice 1 (ct_pmb ++ ct_pmb ++ ct_pmb).
Lemma mb_at_syn : forall y n c, mb_at y n c -> mb_syn y c.
Proof. intros y n c (a & b & d & e & f & g & c1 & c2 & c3 & -> & H & X). exists a, b, d, e, f, g, c1, c2, c3. split; [reflexivity|]. split; [now exists n | exact X]. Qed.
Lemma ct_slice_whole : forall y m n, y_vertical y = 16 -> mb_at y n m -> (length (ct_slice 1 (m ++ m ++ m)) mod 8 = 0)%nat -> whole_slice y (ct_slice 1 (m ++ m ++ m)).
Proof.
  intros y m n V M L. apply mb_at_syn in M. split; [|exact L].
  exists 1, [], (enc 5 5), None, [m; m; m]. eexists. split; [lia|]. rewrite V. split; [reflexivity|]. split; [reflexivity|]. split; [exact I|]. split; [discriminate|].
  split; [repeat (apply Forall_cons; [assumption|]); apply Forall_nil|]. unfold ct_slice, stuffed, stuffing. change (bb (repeat 0 1)) with (repeat false 8). rewrite <- repeat_app. cbn [concat]. rewrite app_nil_r. cbn [app]. rewrite <- !app_assoc. reflexivity.
Qed.
Example C112_whole_hyp : whole_stream None (Some (xs_seq, xs_sext)) (ct_stream ++ ct_second) /\ not_slice (code sequence_end_code) /\
  forall rd, let s0 := (new_vidseq, setb rd ((ct_stream ++ ct_second) ++ code sequence_end_code ++ bb [1])) in
    match nexts 2 s0 with (Ok imgs, s) => length imgs = 2%nat /\ match next s with (Err EOS, (_, r')) => rbits r' = bb [1] | _ => False end | _ => False end.
Proof.
  split; [|split].
  - replace (ct_stream ++ ct_second) with (ct_stream ++ ct_second ++ []) by now rewrite app_nil_r. eapply whole_cons; [|eapply whole_cons; [|apply whole_nil] ].
    + exists (ct_head 1 xs_pce), (ct_heads 1 xs_pce), [ct_slice 1 (ct_mb ++ ct_mb ++ ct_mb)]. split; [unfold ct_stream; cbn [concat]; now rewrite app_nil_r|].
      split; [apply ct_heads_ok; [lia | auto]|]. split; [discriminate|]. apply Forall_cons; [|apply Forall_nil]. eapply ct_slice_whole; [reflexivity | exact ct_mb_at | reflexivity].
    + exists (ct_head 2 xs_pce), (enc_picture_head (ct_head 2 xs_pce)), [ct_slice 1 (ct_pmb ++ ct_pmb ++ ct_pmb)]. split; [unfold ct_second; cbn [concat]; now rewrite app_nil_r|].
      split; [|split; [discriminate|]; apply Forall_cons; [|apply Forall_nil]; eapply ct_slice_whole; [reflexivity | exact ct_pmb_at | reflexivity] ].
      exists None, None. split; [reflexivity|]. split; [exact I|]. split; [exact I|]. split; [apply ct_picture_wf; [lia | auto] | reflexivity].
  - exists sequence_end_code, []. split; [now rewrite app_nil_r|]. split; [reflexivity | unfold sequence_end_code; lia].
  - intros rd s0. subst s0. lazy. split; reflexivity.
Qed.

(** One picture, with a slice on which the decoder panics.  A start code follows. *)
Definition ct_bad (t : Z) (pce : spce) (row : Z) (c : list bool) : list bool := ct_heads t pce ++ ct_slice row c ++ code sequence_end_code.
Lemma ct_sure : forall t pce row c u, 0 <= t < 8 -> pce = xs_pce \/ pce = ct_free -> 1 <= row <= 175 -> ct_slice row c ++ code sequence_end_code = code row ++ u -> (length u mod 8 = 0)%nat ->
  sure_slice (ct_layer t pce) 3 1 row u -> sure_stream (ct_bad t pce row c).
Proof.
  intros t pce row c u Ht Hp Hr E L Su. exists None, [], (ct_bad t pce row c). split; [reflexivity|]. split; [apply whole_nil|]. right.
  exists (xs_seq, xs_sext), (ct_head t pce), (ct_heads t pce), (ct_slice row c ++ code sequence_end_code). split; [reflexivity|]. split; [now apply ct_heads_ok|].
  exists [], row, u. split; [exact E|]. split; [exact Hr|]. split; [constructor|]. split; [exact L | exact Su].
Qed.
Lemma ct_in : forall t pce row c, 0 <= t < 8 -> pce = xs_pce \/ pce = ct_free -> 1 <= row <= 175 -> (length (ct_slice row c) mod 8 = 0)%nat ->
  forall (ms : list (Z * list bool)) d, c = concat (map snd ms) ++ d -> Forall (fun m => mb_at (ct_layer t pce) (fst m) (snd m)) ms ->
  (forall t', (23 <= length t')%nat -> sure_mb (ct_layer t pce) (3 * (8 * (1 - row) + 1)) (-1 + fold_right Z.add 0 (map fst ms)) (d ++ t')) ->
  sure_stream (ct_bad t pce row c).
Proof.
  intros t pce row c Ht Hp Hr L ms d -> F Su.
  set (st := stuffing (length (code row ++ enc 5 5 ++ flags_code None ++ concat (map snd ms) ++ d)) 1).
  apply (ct_sure t pce row _ (enc 5 5 ++ flags_code None ++ concat (map snd ms) ++ d ++ st ++ code sequence_end_code)); auto.
  - unfold ct_slice, stuffed. fold st. now rewrite <- !app_assoc.
  - assert (E : length (ct_slice row (concat (map snd ms) ++ d)) = (length (enc 5 5 ++ flags_code None ++ concat (map snd ms) ++ d ++ st) + 4 * 8)%nat).
    { unfold ct_slice, stuffed. fold st. rewrite !app_length, code_length. lia. }
    rewrite E, Nat.mod_add in L by lia. replace (enc 5 5 ++ flags_code None ++ concat (map snd ms) ++ d ++ st ++ code sequence_end_code) with ((enc 5 5 ++ flags_code None ++ concat (map snd ms) ++ d ++ st) ++ code sequence_end_code) by now rewrite <- !app_assoc.
    rewrite app_length, code_length. change 32%nat with (4 * 8)%nat. now rewrite Nat.mod_add by lia.
  - right. exists [], (enc 5 5), None, ms, (d ++ st ++ code sequence_end_code). split; [reflexivity|]. split; [reflexivity|]. split; [reflexivity|]. split; [exact I|]. split; [exact F|].
    apply Su. rewrite app_length, code_length. lia.
Qed.
(** Slices below the picture *)
Example C112_below_hyp : sure_stream (ct_bad 1 xs_pce 3 ct_mb).
Proof. eapply ct_sure; [lia | auto | lia | reflexivity | reflexivity | left; lia]. Qed.
(** A fourth macroblock, in a picture of three *)
Example C112_fourth_hyp : sure_stream (ct_bad 1 xs_pce 1 (ct_mb ++ ct_mb ++ ct_mb ++ ct_mb)).
Proof.
  apply (ct_in 1 xs_pce 1) with (ms := [(1, ct_mb); (1, ct_mb); (1, ct_mb)]) (d := ct_mb); [lia | auto | lia | reflexivity | reflexivity | repeat (apply Forall_cons; [exact ct_mb_at|]); apply Forall_nil|].
  intros t' L. right. exists 1, false, false, false, false, true, 0, (enc 1 1 ++ enc 1 1), [], flat_bits, t'. split; [unfold ct_mb; now rewrite <- !app_assoc|]. split; [exact L|].
  split; [now apply ct_mb_head|]. split; [reflexivity|]. left. split; [left; split; [reflexivity | cbn; lia] | exact ct_blocks].
Qed.
(** More than 64 coefficients *)
Example C112_over_hyp : sure_stream (ct_bad 1 xs_pce 1 (ct_mb ++ enc 1 1 ++ enc 1 1 ++ dc0l ++ overrun_bits)).
Proof.
  apply (ct_in 1 xs_pce 1) with (ms := [(1, ct_mb)]) (d := (enc 1 1 ++ enc 1 1 ++ dc0l ++ overrun_bits)); [lia | auto | lia | reflexivity | reflexivity | repeat (apply Forall_cons; [exact ct_mb_at|]); apply Forall_nil|].
  intros t' L. right. exists 1, false, false, false, false, true, 0, (enc 1 1 ++ enc 1 1), [], (dc0l ++ overrun_bits), t'. split; [now rewrite <- !app_assoc|]. split; [exact L|].
  split; [now apply ct_mb_head|]. split; [reflexivity|]. right. exists 0%nat, [], (dc0l ++ overrun_bits). split; [reflexivity|]. split; [reflexivity|]. split; [reflexivity|].
  exists 0, dc0l, [(63, 1); (0, 1)], overrun_bits. split; [reflexivity|]. split; [exact (xs_dc0 0 ltac:(lia))|]. split; [|apply Nat.ltb_lt; reflexivity].
  unfold overrun_bits. apply syms_cons; [apply (code_escape false false 63 1); lia|]. rewrite <- (app_nil_r (dct_escape_prefix ++ enc 6 0 ++ enc 12 1)). apply syms_cons; [apply (code_escape false false 0 1); lia | apply syms_nil].
Qed.
(** Picture coding type 4; the reserved frame motion type; dual prime prediction *)
Example C112_type_hyp : sure_stream (ct_bad 4 xs_pce 1 ct_mb).
Proof.
  apply (ct_in 4 xs_pce 1) with (ms := []) (d := ct_mb); [lia | auto | lia | reflexivity | reflexivity | apply Forall_nil|].
  intros t' L. left. exists 1, (enc 1 1). eexists. split; [unfold ct_mb; rewrite <- app_assoc; reflexivity|]. split; [exact xs_incr1|]. split; [rewrite app_length; lia|]. right; left. cbn. lia.
Qed.
Example C112_motion_hyp : sure_stream (ct_bad 2 ct_free 1 (enc 1 1 ++ enc 3 1 ++ enc 2 0)) /\ sure_stream (ct_bad 2 ct_free 1 (enc 1 1 ++ enc 3 1 ++ enc 2 3 ++ enc 1 1)).
Proof.
  split.
  - apply (ct_in 2 ct_free 1) with (ms := []) (d := (enc 1 1 ++ enc 3 1 ++ enc 2 0)); [lia | auto | lia | reflexivity | reflexivity | apply Forall_nil|].
    intros t' L. left. exists 1, (enc 1 1), (enc 3 1 ++ enc 2 0 ++ t'). split; [now rewrite <- !app_assoc|]. split; [exact xs_incr1|]. split; [rewrite !app_length; lia|]. right; right.
    exists false, true, false, false, false, 0, (enc 3 1), (enc 2 0), [], [], [], t'. split; [reflexivity|]. split; [exists 1, 3; split; [cbn; auto | reflexivity]|].
    split; [split; [lia | reflexivity]|]. split; [reflexivity|]. split; [reflexivity|]. split; [reflexivity|]. left. split; reflexivity.
  - apply (ct_in 2 ct_free 1) with (ms := []) (d := (enc 1 1 ++ enc 3 1 ++ enc 2 3 ++ enc 1 1)); [lia | auto | lia | reflexivity | reflexivity | apply Forall_nil|].
    intros t' L. left. exists 1, (enc 1 1), (enc 3 1 ++ enc 2 3 ++ enc 1 1 ++ t'). split; [now rewrite <- !app_assoc|]. split; [exact xs_incr1|]. split; [rewrite !app_length; lia|]. right; right.
    exists false, true, false, false, false, 3, (enc 3 1), (enc 2 3), [], [], (enc 1 1), t'. split; [reflexivity|]. split; [exists 1, 3; split; [cbn; auto | reflexivity]|].
    split; [split; [lia | reflexivity]|]. split; [reflexivity|]. split; [reflexivity|]. split; [reflexivity|]. right; left. split; [reflexivity|]. split; [reflexivity | exact ct_zero].
Qed.

Print Assumptions C112_panics.
Print Assumptions C112_no_error.
Print Assumptions C112_to_end.
