(** PropertiesPsPipe: C79, from program streams to pictures. *)
From Verif Require Import Base BitReader SpecIO SpecPipe SpecPes SpecPs PesModel PsModel PsProofs PsReaders PropertiesPes PropertiesPs.
From Verif Require Import VidModel SpecVid SpecNext SpecPicture MbModel VidProofs VidStream PropertiesVidHeaders NextProofs ExampleStream PropertiesNext PropertiesPipe.

(** A bit reader over an io.Reader that behaves like a reader over some bytes up to the end of those bytes, and
    then in some way (the pack reader does not return io.EOF twice, C31). *)
Definition over_until (a : answers) (r : reader) : Prop :=
  exists content e later sh, r = mkR (bb content) e later sh /\
    forall sizes, positive sizes -> until_err' (a sizes) = map Ok (until_err (ideal_reads e sizes content)).

Lemma over_pack : forall packs after r fuel r2, Forall wf_pack packs -> Forall (fun p => snd p <> []) packs -> (packets_in packs < fuel)%nat ->
  over_until (fun sizes => pr_reads fuel sizes (new_packreader (setb r (enc_packs packs ++ enc_end ++ after)))) r2 ->
  exists e later sh, r2 = mkR (bb (packs_content packs)) e later sh.
Proof.
  intros packs after r fuel r2 H1 H2 Hf (content & e & later & sh & -> & H). exists e, later, sh. f_equal.
  specialize (H [S (length content + length (packs_content packs))] (Forall_cons _ (Nat.lt_0_succ _) (Forall_nil _))). cbv beta in H. rewrite C30_reads in H by auto.
  cbn [ideal_reads] in H. unfold ideal_read in H. rewrite !(proj2 (Nat.leb_gt _ _)) in H by lia. cbn in H. injection H as H _. now f_equal.
Qed.

(** NewPackReader, NewVideoSequence, AlignTo, Next over a program stream with an end code, whose packets carry
    nothing but the video: some bytes and then the sequence.  (With other streams among the packets: refuted below.) *)
Theorem C79_video_only_partial : forall packs after r junk vb g gs fuel,
  Forall wf_pack packs -> Forall (fun p => snd p <> []) packs -> (packets_in packs < fuel)%nat ->
  packs_content packs = junk ++ vb -> sequence_of picture_coded (g :: gs) -> bb vb = enc_sequence 0 (g :: gs) ->
  (forall j, (j < length junk)%nat -> ~ code_at 435 (bb (junk ++ vb)) j) ->
  (exists r2, over_until (fun sizes => pr_reads fuel sizes (new_packreader (setb r (enc_packs packs ++ enc_end ++ after)))) r2) /\
  forall r2, over_until (fun sizes => pr_reads fuel sizes (new_packreader (setb r (enc_packs packs ++ enc_end ++ after)))) r2 -> plays r2 (g :: gs).
Proof.
  intros packs after r junk vb g gs fuel H1 H2 Hf HC HS HV HN. split.
  - exists (mkR (bb (junk ++ vb)) EEOF [] (fun _ _ => EEOF)), (junk ++ vb), EEOF, [], (fun _ _ => EEOF). split; [reflexivity|]. intros sizes _. rewrite <- HC. now apply C30_reads.
  - intros r2 H. destruct (over_pack _ _ _ _ _ H1 H2 Hf H) as (e & later & sh & ->). eapply plays_bytes; [exact HS | exact HV | exact HN |]. now rewrite HC.
Qed.

(** Two packs with the example sequence, two bytes before it *)
Definition ex_ps : list pack := [(mkSpack 3600 0 25200 31 [] None, [PsPes (mkSpes 224 plain_head ex_d1); PsPadding [255; 255] ]); (mkSpack 7200 0 25200 31 [255] None, [PsPes (mkSpes 224 plain_head ex_d2)])].
Example C79_hyp : Forall wf_pack ex_ps /\ Forall (fun p : pack => snd p <> []) ex_ps /\ packs_content ex_ps = [9; 9] ++ ex_video /\
  sequence_of picture_coded xs_groups /\ bb ex_video = enc_sequence 0 xs_groups /\ (forall j, (j < length [9; 9])%nat -> ~ code_at 435 (bb ([9; 9] ++ ex_video)) j).
Proof.
  split; [|split; [repeat constructor; discriminate | split; [vm_compute; reflexivity | split; [apply xs_groups_coded | split; [apply ex_video_bits | exact ex_no_code] ] ] ] ].
  apply Forall_cons; [|apply Forall_cons; [|apply Forall_nil] ].
  - split; [repeat split; cbn; lia|]. apply Forall_cons; [|apply Forall_cons; [|apply Forall_nil] ]; [split; [exact PropertiesPipe.ex_pes1 | cbn; lia] | split; [apply bytes_check; reflexivity | cbn; lia] ].
  - split; [split; [cbn; lia|]; split; [cbn; lia|]; split; [cbn; lia|]; split; [cbn; lia | exact I]|]. apply Forall_cons; [|apply Forall_nil]. split; [exact PropertiesPipe.ex_pes2 | cbn; lia].
Qed.

(** A program stream with an audio packet (stream id 192) between two video packets: the pack reader hands over the
    payloads of all packets, and Next fails although the video packets carry a complete sequence. *)
Definition ex_mux : list pack := [(mkSpack 3600 0 25200 31 [] None,
  [PsPes (mkSpes 224 plain_head (firstn 8 ex_video)); PsPes (mkSpes 192 plain_head (repeat 0 4)); PsPes (mkSpes 224 plain_head (skipn 8 ex_video))])].
Definition of_stream (id : Z) (i : psitem) : list Z := match i with PsPes s => if se_id s =? id then se_payload s else [] | PsPadding _ => [] end.
Lemma audio_id : carries_header 192.
Proof. split; [lia|]. cbn. intuition lia. Qed.
Lemma ex_mux_wf : Forall wf_pack ex_mux.
Proof.
  apply Forall_cons; [|apply Forall_nil]. split; [repeat split; cbn; lia|]. cbn [snd].
  repeat apply Forall_cons; [ | | | apply Forall_nil]; (split; [|cbn; lia]); (split; [first [apply video_id | apply audio_id]|]; split; [apply plain_head_wf|]; split; [|vm_compute; reflexivity]).
  - apply bytes_check. vm_compute. reflexivity.
  - apply bytes_check. vm_compute. reflexivity.
  - apply bytes_check. vm_compute. reflexivity.
Qed.
Theorem C79_multiplex_refuted : exists packs vb gs, Forall wf_pack packs /\ Forall (fun p : pack => snd p <> []) packs /\
  flat_map (of_stream 224) (flat_map snd packs) = vb /\ bb vb = enc_sequence 0 gs /\ sequence_of picture_coded gs /\
  forall after r fuel r2, (packets_in packs < fuel)%nat ->
    over_until (fun sizes => pr_reads fuel sizes (new_packreader (setb r (enc_packs packs ++ enc_end ++ after)))) r2 -> ~ plays r2 gs.
Proof.
  exists ex_mux, ex_video, xs_groups. split; [apply ex_mux_wf|]. split; [repeat constructor; discriminate|]. split; [vm_compute; reflexivity|]. split; [apply ex_video_bits|]. split; [apply xs_groups_coded|].
  intros after r fuel r2 Hf H. destruct (over_pack _ _ _ _ _ ex_mux_wf ltac:(repeat constructor; discriminate) Hf H) as (e & later & sh & ->). intros (r3 & imgs & v' & r' & A & N & _).
  assert (F : fails_after 0 (align_to 435 (mkR (bb (packs_content ex_mux)) e later sh)) = true) by (vm_compute; reflexivity).
  destruct (fails_after_spec _ _ F) as (r4 & A2 & i2 & s2 & e2 & s3 & N2 & X). rewrite A in A2. injection A2 as <-. cbn in N2. injection N2 as <- <-.
  change (length (shown xs_groups)) with 8%nat in N. cbn [nexts] in N. unfold bind at 1 in N. rewrite X in N. discriminate N.
Qed.
Print Assumptions C79_video_only_partial.
Print Assumptions C79_multiplex_refuted.
