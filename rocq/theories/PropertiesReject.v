(** PropertiesReject: C114 - streams that break the syntax, and streams that end too soon, are not taken for others: the decoder
    returns the error, if it has not panicked before. *)
From Coq Require Import Lia.
From Verif Require Import Base BitReader VidModel SpecVid VidProofs VidStream SpecVlc SpecBlock SpecMotion SpecPicture SpecNext SpecSyntax SpecPanic SpecUnsupported SpecCertain SpecReject MbModel VlcProofs PropertiesPes PropertiesVidHeaders PropertiesBlock ExampleStream NextProofs PropertiesNext ForwardProofs BlockProofs RejectProofs.
From Verif Require Import PropertiesCut PropertiesCertain.
From Verif Require CutProofs ErrorProofs.

(** The loop that calls Next until there is an error, on a stream that breaks the syntax in one of these ways: it panics, or it
    ends with the error for that; [k] zero bytes may come first. *)
Theorem C114_rejects : forall k e d rd, rlater rd = [] -> rejected_stream e d ->
  let s0 := (new_vidseq, setb rd (bb (repeat 0 k) ++ d)) in
  (exists n s, nexts n s0 = (Panic, s)) \/ exists n imgs s s', nexts n s0 = (Ok imgs, s) /\ next s = (Err e, s').
Proof. intros k e d rd Rl S s0. destruct (rejected_plays k e d rd Rl S) as [(n & s & E) | X]; [left; eauto | now right]. Qed.

(** If the fault is in the headers before the first picture, or in those of it, then it does not panic: the first Next returns
    the error. *)
Theorem C114_first : forall k e d rd, rejected false e d -> exists s', next (new_vidseq, setb rd (bb (repeat 0 k) ++ d)) = (Err e, s').
Proof. exact rejected_first. Qed.

(** A stream of proper syntax of which the source gives only the first bytes, or which has no sequence_end_code: the loop panics,
    or it ends with an error of the source. *)
Theorem C114_cut : forall k o c l x rd, rlater rd = [] -> whole_stream None o c -> c <> [] -> bb (repeat 0 k) ++ c = l ++ x -> (length x mod 8 = 0)%nat ->
  let s0 := (new_vidseq, setb rd l) in
  (exists n s, nexts n s0 = (Panic, s)) \/ exists n imgs s e s', nexts n s0 = (Ok imgs, s) /\ next s = (Err e, s') /\ source_error rd e.
Proof.
  intros k o c l x rd Rl H Ne E Lx s0. destruct (whole_cut (source_error rd) k o c l x rd) as [(n & s & D) | X]; auto; [|left; eauto].
  split; [exact Rl|]. split; [now left | intros n j; right; eauto].
Qed.

(** * Examples *)

Lemma ct_stream_whole : whole_stream None (Some (xs_seq, xs_sext)) ct_stream.
Proof.
  rewrite <- (app_nil_r ct_stream). eapply whole_cons; [|apply whole_nil].
  exists (ct_head 1 xs_pce), (ct_heads 1 xs_pce), [ct_slice 1 (ct_mb ++ ct_mb ++ ct_mb)]. split; [unfold ct_stream; cbn [concat]; now rewrite app_nil_r|].
  split; [apply ct_heads_ok; [lia | auto]|]. split; [discriminate|]. apply Forall_cons; [|apply Forall_nil]. eapply ct_slice_whole; [reflexivity | exact ct_mb_at | reflexivity].
Qed.
(** After a picture, one with a slice that breaks the syntax after [u] *)
Definition rj_bad (t : Z) (u : list bool) : list bool := ct_stream ++ enc_picture_head (ct_head t xs_pce) ++ code 1 ++ enc 5 5 ++ u.
Lemma rj_slice : forall t e u, 0 <= t < 8 -> broken_slice (ct_layer t xs_pce) e (enc 5 5 ++ u) -> (length (enc 5 5 ++ u) mod 8 = 0)%nat -> rejected_stream e (rj_bad t u).
Proof.
  intros t e u Ht B L. exists (Some (xs_seq, xs_sext)), ct_stream. eexists. split; [reflexivity|]. split; [exact ct_stream_whole|]. right.
  exists (xs_seq, xs_sext), (ct_head t xs_pce), (enc_picture_head (ct_head t xs_pce)), (code 1 ++ enc 5 5 ++ u). split; [reflexivity|].
  split; [exists None, None; split; [reflexivity|]; split; [exact I|]; split; [exact I|]; split; [apply ct_picture_wf; [lia | auto] | reflexivity]|].
  exists [], 1, (enc 5 5 ++ u). split; [reflexivity|]. split; [lia|]. split; [constructor|]. split; [exact L | exact B].
Qed.
(** What the decoder does with it *)
Definition rj_result (d : list bool) (rd : reader) : option (nat * err) :=
  match nexts 1 (new_vidseq, setb rd d) with
  | (Ok imgs, s) => match next s with (Err e, _) => Some (length imgs, e) | _ => None end
  | _ => None
  end.
(** The seven bits between intra_slice and extra_bit_slice *)
Definition rj_reserved : list bool := [true; false] ++ enc 7 64 ++ enc 2 0.
Example C114_reserved_hyp : rejected_stream ErrInvalidReservedBits (rj_bad 2 rj_reserved) /\ forall rd, rj_result (rj_bad 2 rj_reserved) rd = Some (1%nat, ErrInvalidReservedBits).
Proof.
  split; [|intro rd; lazy; reflexivity]. apply rj_slice; [lia | | reflexivity].
  exists [], (enc 5 5), rj_reserved. split; [reflexivity|]. split; [reflexivity|]. split; [reflexivity|]. left. split; [reflexivity|]. exists false, 64, (enc 2 0). split; [reflexivity | lia].
Qed.
(** No code word: decoding fails *)
Lemma rj_no_code : forall A (m : M reader A) T (K : list bool -> Prop) d, decodes_exactly m T -> (forall c, K c -> exists a, T c a) -> (24 <= length d)%nat ->
  (forall rd, exists e r', m (setb rd d) = (Err e, r')) -> no_code K d.
Proof.
  intros A m T K d (H & _) HK L E. split; [exact L|]. intros c t Kc ->. destruct (HK c Kc) as (a & Ta). destruct (E (mkR [] EEOF [] (fun _ _ => EUnexpectedEOF))) as (e & r' & X). rewrite (H c a _ t Ta) in X. discriminate.
Qed.
Lemma rj_mb : forall t (ms : list (Z * list bool)) d, 0 <= t < 8 -> Forall (fun m => mb_at (ct_layer t xs_pce) (fst m) (snd m)) ms -> broken_mb (ct_layer t xs_pce) d ->
  (length (enc 5 5 ++ [false] ++ concat (map snd ms) ++ d) mod 8 = 0)%nat -> rejected_stream ErrMissingHuffmanValue (rj_bad t ([false] ++ concat (map snd ms) ++ d)).
Proof.
  intros t ms d Ht F B L. apply rj_slice; [exact Ht | | exact L]. exists [], (enc 5 5). eexists. split; [reflexivity|]. split; [reflexivity|]. split; [reflexivity|]. right. split; [reflexivity|].
  exists None, ms, d. split; [reflexivity|]. split; [exact I|]. split; [exact F | exact B].
Qed.
(** In the second macroblock, a block with 26 zero bits after its DC coefficient, where no run/level code is *)
Definition rj_block : list bool := enc 1 1 ++ enc 1 1 ++ dc0l ++ repeat false 26 ++ enc 13 255.
Example C114_block_hyp : rejected_stream ErrMissingHuffmanValue (rj_bad 1 ([false] ++ ct_mb ++ rj_block)) /\
  forall rd, rj_result (rj_bad 1 ([false] ++ ct_mb ++ rj_block)) rd = Some (1%nat, ErrMissingHuffmanValue).
Proof.
  split; [|intro rd; lazy; reflexivity]. replace (ct_mb ++ rj_block) with (concat (map snd [(1, ct_mb)]) ++ rj_block) by (cbn [concat map snd]; now rewrite app_nil_r). apply rj_mb; [lia | apply Forall_cons; [exact ct_mb_at | apply Forall_nil] | | reflexivity].
  right; right. exists 1, false, false, false, false, true, 0, (enc 1 1 ++ enc 1 1), [], 0%nat, [], (dc0l ++ repeat false 26 ++ enc 13 255). split; [reflexivity|]. split; [now apply ct_mb_head|]. split; [reflexivity|].
  split; [reflexivity|]. split; [reflexivity|]. exists 0, dc0l, [], [], (repeat false 26 ++ enc 13 255). split; [reflexivity|]. split; [exact (xs_dc0 0 ltac:(lia))|]. split; [apply syms_nil|]. split; [cbn; lia|].
  eapply rj_no_code; [exact (dct_exact false 1) | intros c (x & Hx); exists (symbol_result x); exists x; split; [exact Hx | reflexivity] | apply Nat.leb_le; reflexivity | intro rd; eexists _, _; lazy; reflexivity].
Qed.
(** In a P picture, an address increment and then no macroblock type; and 11 bits that are no address increment *)
Example C114_type_hyp : rejected_stream ErrMissingHuffmanValue (rj_bad 2 ([false] ++ ct_pmb ++ enc 1 1 ++ enc 6 0 ++ enc 21 5)) /\
  forall rd, rj_result (rj_bad 2 ([false] ++ ct_pmb ++ enc 1 1 ++ enc 6 0 ++ enc 21 5)) rd = Some (1%nat, ErrMissingHuffmanValue).
Proof.
  split; [|intro rd; lazy; reflexivity]. change (ct_pmb ++ enc 1 1 ++ enc 6 0 ++ enc 21 5) with (concat (map snd [(1, ct_pmb)]) ++ enc 1 1 ++ enc 6 0 ++ enc 21 5). apply rj_mb; [lia | apply Forall_cons; [exact ct_pmb_at | apply Forall_nil] | | reflexivity].
  right; left. exists 1, (enc 1 1), (enc 6 0 ++ enc 21 5). split; [reflexivity|]. split; [exact xs_incr1|]. split; [cbn; lia|].
  eapply rj_no_code; [exact mbtype_P_exact | | apply Nat.leb_le; reflexivity | intro rd; eexists _, _; lazy; reflexivity].
  intros c (ty & Hc). destruct (ErrorProofs.fields_all ty) as (m & <-). now exists m.
Qed.
Example C114_increment_hyp : rejected_stream ErrMissingHuffmanValue (rj_bad 2 ([false] ++ ct_pmb ++ mb_escape ++ enc 11 2 ++ enc 22 5)) /\
  forall rd, rj_result (rj_bad 2 ([false] ++ ct_pmb ++ mb_escape ++ enc 11 2 ++ enc 22 5)) rd = Some (1%nat, ErrMissingHuffmanValue).
Proof.
  split; [|intro rd; lazy; reflexivity]. change (ct_pmb ++ mb_escape ++ enc 11 2 ++ enc 22 5) with (concat (map snd [(1, ct_pmb)]) ++ mb_escape ++ enc 11 2 ++ enc 22 5). apply rj_mb; [lia | apply Forall_cons; [exact ct_pmb_at | apply Forall_nil] | | reflexivity].
  left. exists 1%nat, (enc 11 2 ++ enc 22 5). split; [reflexivity|]. split; [|cbn; auto 20].
  split; [apply Nat.leb_le; reflexivity|]. intros c t [-> | (n & Hn)]; [discriminate|].
  assert (X : no_code (fun c => exists n, mba_code c n) (enc 11 2 ++ enc 22 5)) by (eapply rj_no_code; [exact mba_exact | now intros c0 H | apply Nat.leb_le; reflexivity | intro rd; eexists _, _; lazy; reflexivity]).
  apply (proj2 X). eauto.
Qed.

(** Headers before the first picture: an extension instead of the sequence header; a marker bit that is 0 in the sequence
    extension; a group of pictures header and then a sequence header; a byte 5 after a picture header; no slice in the picture *)
Definition rj_bytes : list bool := enc_start xs_start ++ enc_group_head (mkGroupHead (xs_gop true) 0 []).
Lemma rj_start : opt_wf wf_start (Some xs_start) /\ opt_wf wf_group_head (Some (mkGroupHead (xs_gop true) 0 [])).
Proof. split; [exact xs_start_wf | split; [repeat split; cbn; lia | split; constructor] ]. Qed.
Example C114_first_hyp : rejected false ErrUnexpectedStartCode (code extension_code ++ enc 32 0) /\
  rejected false ErrMissingMarkerBit (stuffed (enc_seq xs_seq) 2 ++ (code extension_code ++ enc 4 1) ++ enc 27 7 ++ [false] ++ enc 16 0) /\
  rejected false ErrUnexpectedStartCode (rj_bytes ++ enc_start xs_start) /\
  rejected false ErrUnexpectedNonZeroByte (rj_bytes ++ stuffed (enc_pic (pd_hdr (ct_head 1 xs_pce))) 1 ++ enc 8 5 ++ code extension_code) /\
  rejected false ErrUnexpectedStartCode (ct_heads 1 xs_pce ++ code sequence_end_code).
Proof.
  destruct rj_start as (Ws & Wg). repeat split.
  - apply rej_start_code; [|discriminate]. exists extension_code, (enc 32 0). split; [reflexivity|]. split; [unfold extension_code; lia|]. split; [cbn; unfold extension_code, sequence_header_code; lia | reflexivity].
  - apply rej_extension_marker; [apply Ws|]. exists (enc 27 7), (enc 16 0). split; [reflexivity|]. split; reflexivity.
  - unfold rj_bytes. rewrite <- app_assoc. apply (rej_after_group false (Some xs_start) (mkGroupHead (xs_gop true) 0 [])); [discriminate | exact Ws | exact Wg |].
    exists sequence_header_code, (skipn 32 (enc_start xs_start)). split; [lazy; reflexivity|]. split; [unfold sequence_header_code; lia|]. split; [cbn; unfold sequence_header_code, picture_code, extension_code, user_data_code; lia | reflexivity].
  - unfold rj_bytes. rewrite <- app_assoc. apply (rej_picture_stuffing false (Some xs_start) (Some (mkGroupHead (xs_gop true) 0 [])) (pd_hdr (ct_head 1 xs_pce))); [discriminate | exact Ws | exact Wg | apply (ct_picture_wf 1 xs_pce); auto; lia|].
    exists 1%nat, 5, (code extension_code). split; [reflexivity|]. split; [lia|]. split; [lia|]. split; [apply Nat.leb_le; reflexivity | reflexivity].
  - unfold ct_heads. rewrite <- !app_assoc. apply (rej_no_slice false (Some xs_start) (Some (mkGroupHead (xs_gop true) 0 []))); [discriminate | exact Ws | exact Wg | apply (ct_picture_wf 1 xs_pce); auto; lia | |].
    + exists sequence_end_code, []. split; [reflexivity|]. split; [unfold sequence_end_code; lia|]. split; [cbn; unfold sequence_end_code, extension_code, user_data_code; lia | reflexivity].
    + exists sequence_end_code, []. split; [reflexivity|]. split; [reflexivity | unfold sequence_end_code; lia].
Qed.
(** Between pictures, an extension that belongs to none of them *)
Example C114_between_hyp : rejected_stream ErrUnexpectedStartCode (ct_stream ++ code extension_code ++ enc 32 0) /\
  forall rd, rj_result (ct_stream ++ code extension_code ++ enc 32 0) rd = Some (1%nat, ErrUnexpectedStartCode).
Proof.
  split; [|intro rd; lazy; reflexivity]. exists (Some (xs_seq, xs_sext)), ct_stream. eexists. split; [reflexivity|]. split; [exact ct_stream_whole|]. left.
  apply rej_start_code; [|intros _]; exists extension_code, (enc 32 0); split; try reflexivity.
  - split; [unfold extension_code; lia|]. split; [cbn; unfold extension_code, sequence_header_code, picture_code, group_code, sequence_end_code; lia | reflexivity].
  - split; [reflexivity | unfold extension_code; lia].
Qed.
(** All but the last three bytes of a stream *)
Example C114_cut_hyp : exists l x, bb (repeat 0 0) ++ ct_stream = l ++ x /\ length x = 24%nat /\ whole_stream None (Some (xs_seq, xs_sext)) ct_stream /\
  forall fin short, let rd := mkR [] fin [] short in match next (new_vidseq, setb rd l) with (Err e, _) => source_error rd e | _ => False end.
Proof.
  exists (firstn (length ct_stream - 24) ct_stream), (skipn (length ct_stream - 24) ct_stream). split; [lazy; reflexivity|]. split; [lazy; reflexivity|]. split; [exact ct_stream_whole|]. intros fin short rd. subst rd. lazy. first [now left | right; eauto].
Qed.

Print Assumptions C114_rejects.
Print Assumptions C114_first.
Print Assumptions C114_cut.
