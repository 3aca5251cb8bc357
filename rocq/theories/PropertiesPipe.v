(** C75: from transport packets to pictures. *)
From Verif Require Import Base BitReader SpecIO SpecPipe SpecTs TsModel TsProofs TsReaders SpecPes PesModel PesProofs PesReaders PipeProofs PropertiesTs PropertiesPes.
From Verif Require Import VidModel SpecVid SpecNext SpecPicture MbModel VidProofs VidStream PropertiesVidHeaders NextProofs ExampleStream PropertiesNext.

(** What a player does with the bit reader over the elementary stream: AlignTo the sequence header, then Next
    until the end. [plays r gs]: it gets the pictures of [gs] in display order and then the end of the sequence. *)
Definition plays (r : reader) (gs : list sgroup) : Prop := exists r3 imgs v' r',
  align_to 435 r = (Ok tt, r3) /\
  nexts (length (shown gs)) (new_vidseq, r3) = (Ok imgs, (v', r')) /\ Forall2 looks imgs (shown gs) /\
  exists r'', next (v', r') = (Err EOS, (v', r'')).

Lemma aligned_bb : forall bs, aligned (bb bs) = bb bs.
Proof. intro bs. unfold aligned. rewrite bb_length. rewrite Nat.mul_comm, Nat.mod_mul by lia. reflexivity. Qed.
Lemma plays_bytes : forall junk g gs vb r, sequence_of picture_coded (g :: gs) -> bb vb = enc_sequence 0 (g :: gs) ->
  (forall j, (j < length junk)%nat -> ~ code_at 435 (bb (junk ++ vb)) j) -> rbits r = bb (junk ++ vb) -> plays r (g :: gs).
Proof.
  intros junk g gs vb r C E N R.
  assert (S0 : exists l, enc_sequence 0 (g :: gs) = enc 32 435 ++ l).
  { destruct C as (_ & _ & C). cbn [groups_all] in C. destruct (gr_start g) as [st|] eqn:EG; [|contradiction].
    unfold enc_sequence. cbn [repeat bb flat_map app]. unfold enc_group. rewrite EG. unfold enc_start, stuffed, enc_seq, enc_seq_with.
    change 435 with (256 + 179). rewrite <- (code_enc 179) by lia. change sequence_header_code with 179. rewrite <- !app_assoc. eexists. reflexivity. }
  destruct S0 as (l & S0).
  assert (AT : code_at 435 (bb (junk ++ vb)) (length junk)).
  { unfold code_at. rewrite bb_app, skipn_app_exact by apply bb_length. rewrite E, S0. apply firstn_app_exact. apply enc_length. }
  destruct (C34_align_to 435 r ltac:(lia)) as [(j & C1 & C2 & C3) | (C1 & _)]; rewrite R, aligned_bb in *.
  2:{ exfalso. exact (C1 _ AT). }
  assert (j = length junk). { destruct (Nat.lt_trichotomy j (length junk)) as [L|[L|L] ]; [exfalso; exact (N j L C1) | exact L | exfalso; exact (C2 _ L AT)]. }
  subst j. rewrite bb_app, skipn_app_exact in C3 by apply bb_length. rewrite E in C3.
  destruct (C73_sequences 0 g gs r C) as (imgs & v' & H1 & H2 & H3).
  exists (setb r (enc_sequence 0 (g :: gs))), imgs, v', (setb r (code sequence_end_code)). split; [exact C3|]. split; [exact H1|]. split; [exact H2|]. eexists. exact H3.
Qed.

(** The program of the README: NewPayloadUnitReader, pes.NewPayloadReader, AlignTo, Next. The accepted transport
    packets [ps] make up units of one PES packet of length 0 each, as transport streams carry video; the
    payloads of all units but the last together are some bytes before a sequence header and the sequence. *)
Theorem C75_units_partial : forall w r ps id us bss junk vb g gs fuel fuel', tester_ok w -> rlater r = [] ->
  Forall wf_sp ps -> Forall (fun s => w (go_packet s) = true -> has_payload s = true) ps ->
  complete_units w ps = bss -> carries_header id -> Forall2 (open_unit id) us bss ->
  concat (map snd us) = junk ++ vb -> sequence_of picture_coded (g :: gs) -> bb vb = enc_sequence 0 (g :: gs) ->
  (forall j, (j < length junk)%nat -> ~ code_at 435 (bb (junk ++ vb)) j) ->
  (length ps < fuel)%nat -> (length us < fuel')%nat ->
  exists r1 r2,
    over (fun sizes => ur_reads fuel sizes (new_ureader (setb r (enc_sps ps)) w)) r1 /\
    over (fun sizes => es_reads fuel' sizes (new_esreader r1)) r2 /\
    plays r2 (g :: gs).
Proof.
  intros w r ps id us bss junk vb g gs fuel fuel' Hw Hr Hwf Hp HU Hid Hus HC HS HV HN Hf Hf'.
  exists (unit_source (rfin r) (rshort r) bss), (mkR (bb (junk ++ vb)) (rfin r) [] (rshort r)). split; [|split].
  - apply over_units. intros sizes _. rewrite <- HU. now apply C13_unit_reader.
  - apply over_bytes. intros sizes _. rewrite <- HC. now apply (es_open_units id).
  - eapply plays_bytes; [exact HS | exact HV | exact HN | reflexivity].
Qed.

(** The same with NewPayloadReader and PES packets that have a length. *)
Theorem C75_packets : forall w r ps es pb junk vb g gs fuel fuel', tester_ok w -> rlater r = [] ->
  Forall wf_sp ps -> Forall (fun s => w (go_packet s) = true -> has_payload s = true) ps ->
  concat (map sp_payload (filter (fun s => w (go_packet s)) ps)) = pb -> bb pb = enc_pess es -> Forall wf_pes es ->
  concat (map se_payload es) = junk ++ vb -> sequence_of picture_coded (g :: gs) -> bb vb = enc_sequence 0 (g :: gs) ->
  (forall j, (j < length junk)%nat -> ~ code_at 435 (bb (junk ++ vb)) j) ->
  (length ps < fuel)%nat -> (length es < fuel')%nat ->
  exists r1 r2,
    over (fun sizes => pr_reads fuel sizes (new_preader (setb r (enc_sps ps)) w)) r1 /\
    over (fun sizes => es_reads fuel' sizes (new_esreader r1)) r2 /\
    plays r2 (g :: gs).
Proof.
  intros w r ps es pb junk vb g gs fuel fuel' Hw Hr Hwf Hp HU HB He HC HS HV HN Hf Hf'.
  exists (mkR (bb pb) (rfin r) [] (rshort r)), (mkR (bb (junk ++ vb)) (rfin r) [] (rshort r)). split; [|split].
  - apply over_bytes. intros sizes _. rewrite <- HU. now apply C10_payload_reader.
  - apply over_bytes. intros sizes _. rewrite <- HC, HB.
    exact (C26_payload_reader (mkR [] (rfin r) [] (rshort r)) es sizes fuel' eq_refl He Hf').
  - eapply plays_bytes; [exact HS | exact HV | exact HN | reflexivity].
Qed.

(** ** Concrete streams *)
Definition ex_video : list Z := get_bytes 315 (enc_sequence 0 xs_groups).
Example ex_video_bits : bb ex_video = enc_sequence 0 xs_groups.
Proof. vm_compute. reflexivity. Qed.
Definition plain_head : shead := mkShead 0 false false false false NoStamp None 0.
Definition ex_d1 : list Z := [9; 9] ++ firstn 173 ex_video.
Definition ex_d2 : list Z := skipn 173 ex_video.
Definition open_bytes (d : list Z) : list Z := [0; 0; 1; 224; 0; 0; 128; 0; 0] ++ d.
Definition stuffing_field (n : nat) : saf := AFBody (mkSBody false false false None None None None None (repeat 255 n)).
(** Three units for PID 33, and a packet of another PID between them *)
Definition ex_ts : list spacket :=
  [mkSP false true false 33 0 0 (SPayload (open_bytes ex_d1)); ex_p4;
   mkSP false true false 33 0 1 (SFieldPayload (stuffing_field 31) (open_bytes ex_d2));
   mkSP false true false 33 0 2 (SPayload (repeat 0 184))].
Lemma bytes_check : forall l, forallb (fun b => (0 <=? b) && (b <? 256)) l = true -> bytes l.
Proof. intros l H. apply Forall_forall. intros x Hx. rewrite forallb_forall in H. specialize (H x Hx). apply andb_true_iff in H. unfold byte. lia. Qed.
Lemma ex_bytes : bytes ex_d1 /\ bytes ex_d2 /\ bytes (open_bytes ex_d1) /\ bytes (open_bytes ex_d2).
Proof. repeat split; apply bytes_check; vm_compute; reflexivity. Qed.
Lemma ex_ts_wf : Forall wf_sp ex_ts.
Proof.
  destruct ex_bytes as (_ & _ & B1 & B2). repeat apply Forall_cons; [ | apply ex_p4_wf | | | apply Forall_nil].
  - split; [cbn; lia|]. split; [cbn; lia|]. split; [cbn; lia|]. cbn [sp_content]. split; [exact B1 | vm_compute; reflexivity].
  - split; [cbn; lia|]. split; [cbn; lia|]. split; [cbn; lia|]. cbn [sp_content]. split; [|split; [exact I|split; [exact B2 | vm_compute; reflexivity] ] ].
    cbn [wf_saf stuffing_field sa_pcr sa_opcr sa_splice sa_private sa_ext sa_stuffing]. repeat (split; [exact I|]). split; [apply bytes_repeat; unfold byte; lia | vm_compute; reflexivity].
  - split; [cbn; lia|]. split; [cbn; lia|]. split; [cbn; lia|]. cbn [sp_content]. split; [apply bytes_repeat; unfold byte; lia | vm_compute; reflexivity].
Qed.
Lemma ex_no_code : forall j, (j < 2)%nat -> ~ code_at 435 (bb ([9; 9] ++ ex_video)) j.
Proof. intros j Hj C. unfold code_at in C. destruct j as [|[|j] ]; [vm_compute in C; discriminate | vm_compute in C; discriminate | lia]. Qed.
Lemma plain_head_wf : wf_head plain_head.
Proof. split; [|vm_compute; reflexivity]. split; [cbn; lia|]. split; exact I. Qed.
Lemma video_id : carries_header 224.
Proof. split; [lia|]. cbn. intuition lia. Qed.
Lemma ex_concat : concat [ex_d1; ex_d2] = [9; 9] ++ ex_video.
Proof. vm_compute. reflexivity. Qed.
Example C75_units_hyp : tester_ok (IsPID 33) /\ Forall wf_sp ex_ts /\ Forall (fun s => IsPID 33 (go_packet s) = true -> has_payload s = true) ex_ts /\
  complete_units (IsPID 33) ex_ts = [open_bytes ex_d1; open_bytes ex_d2] /\
  carries_header 224 /\ Forall2 (open_unit 224) [(plain_head, ex_d1); (plain_head, ex_d2)] [open_bytes ex_d1; open_bytes ex_d2] /\
  concat (map snd [(plain_head, ex_d1); (plain_head, ex_d2)]) = [9; 9] ++ ex_video /\
  sequence_of picture_coded xs_groups /\ bb ex_video = enc_sequence 0 xs_groups /\
  (forall j, (j < length [9; 9])%nat -> ~ code_at 435 (bb ([9; 9] ++ ex_video)) j).
Proof.
  split; [apply ok_IsPID|]. split; [apply ex_ts_wf|]. split; [repeat constructor|]. split; [vm_compute; reflexivity|]. split; [apply video_id|]. split.
  { repeat apply Forall2_cons; [ | | apply Forall2_nil]; (split; [apply plain_head_wf|]; split; [apply ex_bytes | vm_compute; reflexivity]). }
  split; [apply ex_concat|]. split; [apply xs_groups_coded|]. split; [apply ex_video_bits | exact ex_no_code].
Qed.

(** PES packets with a length: 3 bytes of header after the length field. *)
Definition ex_pes_packets : list spes := [mkSpes 224 plain_head ex_d1; mkSpes 224 plain_head ex_d2].
Definition bounded_bytes (d : list Z) : list Z := [0; 0; 1; 224; 0; 3 + blen d; 128; 0; 0] ++ d.
Lemma ex_pes_wf : Forall wf_pes ex_pes_packets.
Proof.
  repeat apply Forall_cons; [ | | apply Forall_nil]; (split; [apply video_id|]; split; [apply plain_head_wf|]; split; [apply ex_bytes | vm_compute; reflexivity]).
Qed.
Lemma ex_pes1 : wf_pes (mkSpes 224 plain_head ex_d1).
Proof. exact (Forall_inv ex_pes_wf). Qed.
Lemma ex_pes2 : wf_pes (mkSpes 224 plain_head ex_d2).
Proof. exact (Forall_inv (Forall_inv_tail ex_pes_wf)). Qed.
Definition ex_ts_bounded : list spacket :=
  [mkSP false true false 33 0 0 (SPayload (bounded_bytes ex_d1)); ex_p4;
   mkSP false true false 33 0 1 (SFieldPayload (stuffing_field 31) (bounded_bytes ex_d2));
   mkSP false true false 33 0 2 (SPayload (repeat 0 184))].
Lemma ex_bounded_bytes : bytes (bounded_bytes ex_d1) /\ bytes (bounded_bytes ex_d2).
Proof. split; apply bytes_check; vm_compute; reflexivity. Qed.
Lemma ex_ts_bounded_wf : Forall wf_sp ex_ts_bounded.
Proof.
  destruct ex_bounded_bytes as (B1 & B2). repeat apply Forall_cons; [ | apply ex_p4_wf | | | apply Forall_nil].
  - split; [cbn; lia|]. split; [cbn; lia|]. split; [cbn; lia|]. cbn [sp_content]. split; [exact B1 | vm_compute; reflexivity].
  - split; [cbn; lia|]. split; [cbn; lia|]. split; [cbn; lia|]. cbn [sp_content]. split; [|split; [exact I|split; [exact B2 | vm_compute; reflexivity] ] ].
    cbn [wf_saf stuffing_field sa_pcr sa_opcr sa_splice sa_private sa_ext sa_stuffing]. repeat (split; [exact I|]). split; [apply bytes_repeat; unfold byte; lia | vm_compute; reflexivity].
  - split; [cbn; lia|]. split; [cbn; lia|]. split; [cbn; lia|]. cbn [sp_content]. split; [apply bytes_repeat; unfold byte; lia | vm_compute; reflexivity].
Qed.
Example C75_packets_hyp : let ps := firstn 3 ex_ts_bounded in
  Forall wf_sp ps /\ Forall (fun s => IsPID 33 (go_packet s) = true -> has_payload s = true) ps /\
  bb (concat (map sp_payload (filter (fun s => IsPID 33 (go_packet s)) ps))) = enc_pess ex_pes_packets /\
  Forall wf_pes ex_pes_packets /\ concat (map se_payload ex_pes_packets) = [9; 9] ++ ex_video.
Proof.
  cbv zeta. split.
  { pose proof ex_ts_bounded_wf as W. unfold ex_ts_bounded in *. cbn [firstn]. apply Forall_cons_iff in W. destruct W as (W1 & W). apply Forall_cons_iff in W. destruct W as (W2 & W).
    apply Forall_cons_iff in W. destruct W as (W3 & _). repeat apply Forall_cons; auto. }
  split; [repeat constructor|]. split; [vm_compute; reflexivity|]. split; [apply ex_pes_wf | apply ex_concat].
Qed.

Definition fails_after (n : nat) (q : res unit * reader) : bool :=
  match q with
  | (Ok _, r) => match nexts n (new_vidseq, r) with (Ok _, s) => match next s with (Err _, _) => true | _ => false end | _ => false end
  | _ => false
  end.
Lemma fails_after_spec : forall n a, fails_after n a = true ->
  exists r3, a = (Ok tt, r3) /\ exists imgs s' e s'', nexts n (new_vidseq, r3) = (Ok imgs, s') /\ next s' = (Err e, s'').
Proof.
  intros n [ [ [] | e | | ] r] H; cbn [fails_after] in H; try discriminate. exists r. split; [reflexivity|].
  destruct (nexts n (new_vidseq, r)) as [ [imgs|e| |] s'] eqn:N; try discriminate. destruct (next s') as [ [i|e| |] s''] eqn:X; try discriminate.
  exists imgs, s', e, s''. auto.
Qed.
(** The README's program on the same units with packets that have a length: the elementary stream breaks off with
    EOP after each packet, and Next fails although the sequence is complete. *)
Theorem C75_bounded_units_refuted : 
  exists ps es gs, Forall wf_sp ps /\ Forall (fun s => IsPID 33 (go_packet s) = true -> has_payload s = true) ps /\
  map bb (complete_units (IsPID 33) ps) = map enc_pes es /\ Forall wf_pes es /\ 
  concat (map se_payload es) = [9; 9] ++ ex_video /\ bb ex_video = enc_sequence 0 gs /\ sequence_of picture_coded gs /\
  forall r fuel, rlater r = [] -> (length ps < fuel)%nat ->
  exists r1 r2 r3,
    over (fun sizes => ur_reads fuel sizes (new_ureader (setb r (enc_sps ps)) (IsPID 33))) r1 /\
    over (fun sizes => es_reads fuel sizes (new_esreader r1)) r2 /\
    align_to 435 r2 = (Ok tt, r3) /\ exists n imgs s' e s'',
    nexts n (new_vidseq, r3) = (Ok imgs, s') /\ (n < length (shown gs))%nat /\ next s' = (Err e, s'').
Proof.
  exists ex_ts_bounded, ex_pes_packets, xs_groups.
  split; [apply ex_ts_bounded_wf|]. split; [repeat constructor|]. split; [vm_compute; reflexivity|]. split; [apply ex_pes_wf|]. split; [apply ex_concat|].
  split; [apply ex_video_bits|]. split; [apply xs_groups_coded|]. intros r fuel Hr Hf.
  assert (U : complete_units (IsPID 33) ex_ts_bounded = [bounded_bytes ex_d1; bounded_bytes ex_d2]) by (vm_compute; reflexivity).
  exists (unit_source (rfin r) (rshort r) [bounded_bytes ex_d1; bounded_bytes ex_d2]), (unit_source (rfin r) (rshort r) [ex_d1; ex_d2]).
  assert (F : fails_after 2 (align_to 435 (unit_source (rfin r) (rshort r) [ex_d1; ex_d2])) = true) by (vm_compute; reflexivity).
  destruct (fails_after_spec _ _ F) as (r3 & A & imgs & s' & e & s'' & N & X).
  exists r3. split; [|split; [|split; [exact A|exists 2%nat, imgs, s', e, s''; split; [exact N|]; split; [vm_compute; lia | exact X] ] ] ].
  - apply over_units. intros sizes _. rewrite <- U. apply C13_unit_reader; auto; [apply ok_IsPID | apply ex_ts_bounded_wf | repeat constructor].
  - apply over_units. intros sizes P. change [ex_d1; ex_d2] with (map se_payload ex_pes_packets). apply es_bounded_units; [|exact P|cbn in Hf; lia].
    repeat apply Forall2_cons; [ | | apply Forall2_nil]; (split; [first [exact ex_pes1 | exact ex_pes2] | vm_compute; reflexivity]).
Qed.

Print Assumptions C75_units_partial.
Print Assumptions C75_packets.
Print Assumptions C75_bounded_units_refuted.
