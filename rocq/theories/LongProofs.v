(** LongProofs: a group of more than 1024 pictures, whose temporal_references wrap around (C53). *)
From Coq Require Import Lia.
From Verif Require Import Base BitReader VidModel SpecVid SpecMotion SpecNext SpecPicture MbModel Exec VidProofs SliceProofs NextProofs PropertiesVidHeaders ExampleStream.

(** temporal_reference is the position of the picture in display order modulo 1024 (6.3.9): [n] I pictures *)
Definition intra_pictures (n : nat) : list spicture := map (fun k => i_pic (Z.of_nat k mod 1024)) (seq 0 n).
Definition intra_group (n : nat) : sgroup := mkGroup (Some xs_start) (xs_gop true) 0 [] (intra_pictures n).

Lemma i_ref : forall tr, is_ref (i_pic tr) = true.
Proof. reflexivity. Qed.
Lemma i_tref : forall tr, tref (i_pic tr) = tr.
Proof. reflexivity. Qed.
Lemma i_items : forall tr, pi_items (i_pic tr) = [].
Proof. reflexivity. Qed.
Lemma i_frame : forall tr, pi_frame (i_pic tr) = pi_frame (i_pic 0).
Proof. reflexivity. Qed.
Lemma display_refs : forall l held, Forall (fun p => is_ref p = true) l -> reorder held l = match held with Some r => [r] | None => [] end ++ l.
Proof.
  induction l as [|p l IH]; intros held F; [now destruct held|]. cbn [reorder]. rewrite (Forall_inv F). rewrite IH by exact (Forall_inv_tail F). reflexivity.
Qed.
Lemma intra_refs : forall n, Forall (fun p => is_ref p = true) (intra_pictures n).
Proof. intro n. apply Forall_forall. intros p H. unfold intra_pictures in H. apply in_map_iff in H. destruct H as (k & <- & _). apply i_ref. Qed.
Lemma intra_wf : forall n, Forall wf_picture (intra_pictures n).
Proof. intro n. apply Forall_forall. intros p H. unfold intra_pictures in H. apply in_map_iff in H. destruct H as (k & <- & _). apply i_wf. apply Z.mod_pos_bound. lia. Qed.
Lemma intra_decodes : forall l o lt, pictures_all picture_decodes xs_ctx o lt (map (fun k => i_pic (Z.of_nat k mod 1024)) l).
Proof.
  induction l as [|k l IH]; intros o lt; cbn [map pictures_all]; [exact I|]. rewrite i_items. split; [|apply IH].
  apply coded_decodes. apply i_coded.
Qed.
Lemma intra_after : forall l o lt, fst (fst (after_pictures xs_ctx o lt (map (fun k => i_pic (Z.of_nat k mod 1024)) l))) = xs_ctx.
Proof. induction l as [|k l IH]; intros; cbn [map after_pictures]; [reflexivity|]. rewrite i_items. apply IH. Qed.
Lemma intra_group_wf : forall n, wf_group (intra_group n).
Proof. intro n. split; [apply xs_start_wf|]. split; [repeat split; cbn; lia|]. split; [constructor|]. split; [constructor | apply intra_wf]. Qed.
Lemma intra_group_valid : forall m, (S m <= 1024)%nat -> valid_group (intra_group (S m)).
Proof.
  intros m LE. split.
  - cbn [intra_group gr_pics]. unfold display. rewrite display_refs by apply intra_refs. cbn [app]. unfold intra_pictures, numbers. rewrite !map_map, map_length, seq_length.
    apply map_ext_in. intros k H. apply in_seq in H. rewrite i_tref. apply Z.mod_small. lia.
  - exists (i_pic 0), (map (fun k => i_pic (Z.of_nat k mod 1024)) (seq 1 m)). split; reflexivity.
Qed.

(** The picture after the first 1024 has temporal_reference 0, and is not returned. *)
Lemma long_next : forall o l v rd, between xs_ctx o l None [] 1024 v ->
  exists v', next (v, setb rd (enc_picture (i_pic 0) ++ code sequence_end_code)) = (Err EOS, (v', setb rd [])).
Proof.
  intros o l v rd B. pose proof (between_tryget _ _ _ _ _ B) as T.
  assert (SH : v_sh v <> None) by (destruct (bt_force _ _ _ _ _ _ _ B) as ((h0 & -> & _) & _); discriminate).
  destruct (picture_part_run xs_ctx o l (i_pic 0) v rd (code sequence_end_code)) as (f & v1 & R & LF & F1 & Fs & Fc & h & Ph & Pt).
  - apply i_wf. lia.
  - exact (bt_force _ _ _ _ _ _ _ B).
  - rewrite i_items. apply coded_decodes, i_coded.
  - split; intro K; discriminate K.
  - apply end_unit.
  - rewrite i_tref in Pt. rewrite (bt_fc _ _ _ _ _ _ _ B) in Fc.
    unfold next. unfold own at 1, bind at 1. cbn [fst]. rewrite T. cbn [snd setb rbits].
    destruct (length (enc_picture (i_pic 0) ++ code sequence_end_code)) as [|m] eqn:EL.
    { exfalso. rewrite app_length in EL. assert (length (code sequence_end_code) = 32%nat) by reflexivity. lia. }
    cbn [next_loop]. rewrite (bind_ok _ _ _ _ _ _ _ _ (eq_trans (step_picture v rd (i_pic 0) _ SH) R)).
    unfold own at 1, bind at 1. cbn [fst]. rewrite Ph. unfold deref. rewrite bind_ret. rewrite Pt, Fc. change (0 =? 1024) with false. cbv iota.
    destruct F1 as ((h1 & F1 & _) & _).
    assert (ES : step (v1, setb rd (code sequence_end_code)) = (Err EOS, (v1, setb rd []))).
    { unfold step. unfold own at 1, bind at 1. cbn [fst]. rewrite F1. rewrite <- (app_nil_r (code sequence_end_code)).
      erewrite bind_onr_ok by (apply peek_code; unfold sequence_end_code; lia).
      change ((256 + sequence_end_code =? PictureStartCode) || (256 + sequence_end_code =? GroupStartCode)) with false. cbv iota.
      erewrite bind_onr_ok by (apply peek_code; unfold sequence_end_code; lia). change (256 + sequence_end_code =? SequenceEndStartCode) with true. cbv iota.
      erewrite bind_onr_ok by (apply skip_app; reflexivity). reflexivity. }
    exists v1. unfold bind. now rewrite ES.
Qed.

Lemma long_enc : forall m, Z.of_nat (S m) = 1024 -> flat_map enc_group [intra_group (S (S m))] =
  enc_start xs_start ++ group_bits (intra_group (S m)) (enc_picture (i_pic 0) ++ rest_of (map (fun k => i_pic (Z.of_nat k mod 1024)) (seq 1 m)) (enc_picture (i_pic 0))).
Proof.
  intros m Hm.
  assert (E : intra_pictures (S (S m)) = i_pic 0 :: map (fun k => i_pic (Z.of_nat k mod 1024)) (seq 1 m) ++ [i_pic 0]).
  { unfold intra_pictures. replace (S (S m)) with (1 + (m + 1))%nat by lia. rewrite seq_app, map_app, seq_app, map_app. cbn [seq map app plus Nat.add]. rewrite Hm. reflexivity. }
  cbn [flat_map]. rewrite app_nil_r. unfold enc_group, intra_group, group_bits, rest_of. cbn [gr_start gr_hdr gr_k gr_items gr_pics]. rewrite E. cbn [flat_map]. rewrite flat_map_app. cbn [flat_map]. now rewrite app_nil_r.
Qed.
Lemma long_nexts_of : forall m rd, Z.of_nat (S m) = 1024 -> exists imgs v' v2,
  nexts (S m) (new_vidseq, setb rd (enc_sequence 0 [intra_group (S (S m))])) = (Ok imgs, (v', setb rd (enc_picture (i_pic 0) ++ code sequence_end_code))) /\
  Forall2 looks imgs (map pi_frame (intra_pictures (S m))) /\
  next (v', setb rd (enc_picture (i_pic 0) ++ code sequence_end_code)) = (Err EOS, (v2, setb rd [])).
Proof.
  intros m rd Hm. set (g := intra_group (S m)). set (ps := map (fun k => i_pic (Z.of_nat k mod 1024)) (seq 1 m)). set (rest := enc_picture (i_pic 0) ++ code sequence_end_code).
  assert (EP : gr_pics g = i_pic 0 :: ps) by reflexivity.
  assert (AR : at_unit rest) by (apply picture_unit; [apply i_wf; lia | apply end_unit]).
  assert (A2 : at_code (enc_picture (i_pic 0) ++ rest_of ps rest)).
  { unfold rest_of. rewrite app_assoc. change (enc_picture (i_pic 0) ++ flat_map enc_picture ps) with (flat_map enc_picture (i_pic 0 :: ps)). rewrite <- EP. apply pictures_at; [apply intra_wf | now apply unit_at_code]. }
  destruct (step_first_group 0 xs_start g (i_pic 0) (rest_of ps rest) new_vidseq rd eq_refl (intra_group_wf (S m)) eq_refl A2) as (v0 & ES & F & Fs).
  assert (EB : enc_sequence 0 [intra_group (S (S m))] = bb (repeat 0 0) ++ enc_start xs_start ++ group_bits g (enc_picture (i_pic 0) ++ rest_of ps rest)).
  { unfold enc_sequence. rewrite long_enc by exact Hm. fold ps. unfold group_bits, rest_of, rest. now rewrite <- !app_assoc. }
  assert (NB : enc_sequence 0 [intra_group (S (S m))] <> []) by (rewrite EB; cbn [repeat bb flat_map app]; apply start_nonnil).
  destruct (group_nexts g xs_ctx Unknown Unknown new_vidseq v0 rd (enc_sequence 0 [intra_group (S (S m))]) rest (i_pic 0) ps EP eq_refl NB) as (imgs & v1 & N & L1 & B1);
    [rewrite EB; exact ES | exact F | exact Fs | exact I | exact I | split; discriminate | apply intra_group_wf | apply intra_group_valid; lia | apply intra_decodes | exact AR |].
  assert (DP : display (gr_pics g) = intra_pictures (S m)) by (unfold display; rewrite display_refs by apply intra_refs; reflexivity).
  rewrite DP in N, L1, B1.
  assert (LE : length (intra_pictures (S m)) = S m) by (unfold intra_pictures; now rewrite map_length, seq_length). rewrite LE in N, B1.
  assert (EC : fst (fst (after_pictures xs_ctx Unknown Unknown (gr_pics g))) = xs_ctx) by apply intra_after.
  destruct (after_pictures xs_ctx Unknown Unknown (gr_pics g)) as ((c1 & o1) & l1). cbn [fst] in EC. subst c1. rewrite Hm in B1.
  destruct (long_next o1 l1 v1 rd B1) as (v2 & NX). exists imgs, v1, v2. split; [exact N|]. split; [exact L1 | exact NX].
Qed.
Lemma long_nexts : forall rd, exists imgs v' v2,
  nexts 1024 (new_vidseq, setb rd (enc_sequence 0 [intra_group 1025])) = (Ok imgs, (v', setb rd (enc_picture (i_pic 0) ++ code sequence_end_code))) /\
  Forall2 looks imgs (map pi_frame (intra_pictures 1024)) /\
  next (v', setb rd (enc_picture (i_pic 0) ++ code sequence_end_code)) = (Err EOS, (v2, setb rd [])).
Proof. intro rd. exact (long_nexts_of 1023 rd eq_refl). Qed.
