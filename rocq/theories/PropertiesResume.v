(** PropertiesResume: C80, decoding goes on after damage. *)
From Coq Require Import Lia.
From Verif Require Import Base BitReader VidModel SpecVid SpecNext SpecPicture BlockModel MbModel Exec Local TsRobust VidProofs VidStream VidExt PropertiesVidHeaders NextProofs SliceProofs PropertiesNext ExampleStream PropertiesPipe.

(** * Frames that are left over from before *)
Definition stored (v : vidseq) (f : image) : Prop := rf_frame (fs_0 (v_fs v)) = Some f \/ rf_frame (fs_1 (v_fs v)) = Some f.
Lemma tryget_stored : forall v f, fs_tryget (v_fc v) (v_fs v) = Some f -> stored v f /\ (rf_tr (fs_0 (v_fs v)) = v_fc v \/ rf_tr (fs_1 (v_fs v)) = v_fc v).
Proof.
  intros v f H. unfold fs_tryget in H. assert (G : forall x, ref_get (v_fc v) x = Some f -> rf_frame x = Some f /\ rf_tr x = v_fc v).
  { intros x E. unfold ref_get in E. destruct (rf_frame x); [|discriminate]. destruct (negb (rf_prev x) && (rf_tr x =? v_fc v)) eqn:B; [|discriminate]. apply andb_prop in B. split; [exact E | lia]. }
  unfold stored. destruct (ref_get (v_fc v) (fs_0 (v_fs v))) eqn:E.
  - injection H as ->. apply G in E. tauto.
  - apply G in H. tauto.
Qed.
Lemma next_left : forall v r f, fs_tryget (v_fc v) (v_fs v) = Some f -> next (v, r) = (Ok f, (set_fc (u32 (v_fc v + 1)) v, r)).
Proof. intros v r f H. unfold next. unfold own at 1, bind at 1. cbn [fst]. now rewrite H. Qed.
Lemma left_over : forall v, exists fs v1, (length fs <= 2)%nat /\ Forall (stored v) fs /\ (forall r, nexts (length fs) (v, r) = (Ok fs, (v1, r))) /\
  v_sh v1 = v_sh v /\ v_fs v1 = v_fs v /\ fs_tryget (v_fc v1) (v_fs v1) = None /\ (forall c, in_force c v -> in_force c v1).
Proof.
  intro v. destruct (fs_tryget (v_fc v) (v_fs v)) as [a|] eqn:E0.
  2:{ exists [], v. split; [cbn; lia|]. split; [apply Forall_nil|]. auto 10. }
  pose (v1 := set_fc (u32 (v_fc v + 1)) v). destruct (fs_tryget (v_fc v1) (v_fs v1)) as [b|] eqn:E1.
  2:{ exists [a], v1. split; [cbn; lia|]. split; [apply Forall_cons; [now apply tryget_stored | apply Forall_nil]|]. split; [intro r; cbn [length nexts]; rewrite (bind_ok _ _ _ _ _ _ _ _ (next_left v r a E0)); reflexivity | auto]. }
  pose (v2 := set_fc (u32 (v_fc v1 + 1)) v1). destruct (fs_tryget (v_fc v2) (v_fs v2)) as [c|] eqn:E2.
  - exfalso. apply tryget_stored in E0, E1, E2. subst v2 v1. cbn [set_fc v_fc v_fs] in *. unfold u32 in *. change (2 ^ 32) with 4294967296 in *.
    pose proof (Z.div_mod (v_fc v + 1) 4294967296 ltac:(lia)). pose proof (Z.mod_pos_bound (v_fc v + 1) 4294967296 ltac:(lia)).
    pose proof (Z.div_mod ((v_fc v + 1) mod 4294967296 + 1) 4294967296 ltac:(lia)). pose proof (Z.mod_pos_bound ((v_fc v + 1) mod 4294967296 + 1) 4294967296 ltac:(lia)). lia.
  - exists [a; b], v2. split; [cbn; lia|]. split; [apply Forall_cons; [now apply tryget_stored | apply Forall_cons; [exact (proj1 (tryget_stored v1 b E1)) | apply Forall_nil] ]|].
    split; [intro r; cbn [length nexts]; rewrite (bind_ok _ _ _ _ _ _ _ _ (next_left v r a E0)); fold v1; rewrite bind_assoc; rewrite (bind_ok _ _ _ _ _ _ _ _ (next_left v1 r b E1)); reflexivity | auto].
Qed.

(** * From a sequence header *)

(** Whatever happened to the decoder before - any state [v], and [r] anywhere in the stream -: when AlignTo finds the
    sequence header of a sequence, Next returns at most two frames that had been decoded before, and then the frames
    of the sequence. *)
Theorem C80_sequence : forall v r junk q t, sequence_of picture_coded q -> q <> [] -> (length t mod 8 = 0)%nat ->
  aligned (rbits r) = bb junk ++ flat_map enc_group q ++ code sequence_end_code ++ t ->
  (forall j, (j < length junk)%nat -> ~ code_at 435 (aligned (rbits r)) j) ->
  exists r3 before v1 imgs v2 r4, align_to 435 r = (Ok tt, r3) /\
    nexts (length before) (v, r3) = (Ok before, (v1, r3)) /\ (length before <= 2)%nat /\ Forall (stored v) before /\
    nexts (length (shown q)) (v1, r3) = (Ok imgs, (v2, r4)) /\ Forall2 looks imgs (shown q) /\
    next (v2, r4) = (Err EOS, (v2, setb r t)).
Proof.
  intros v r junk q t C Hq Ht E N. destruct q as [|g gs]; [congruence|]. clear Hq.
  destruct (left_over v) as (bf & v1 & L2 & ST & NB & SH & FS & TG & _).
  exists (setb r (flat_map enc_group (g :: gs) ++ code sequence_end_code ++ t)), bf, v1.
  assert (A : at_unit (code sequence_end_code ++ t)) by (exists sequence_end_code, t; repeat split; auto; cbn; auto).
  destruct (sequence_from v1 0 g gs r (code sequence_end_code ++ t) TG (fun _ => eq_refl) (coded_valid _ C) A) as (imgs & v2 & c & o & l & fc & H1 & H2 & B & _).
  exists imgs, v2, (setb r (code sequence_end_code ++ t)).
  assert (AT : code_at 435 (aligned (rbits r)) (length junk)).
  { unfold code_at. rewrite E, skipn_app_exact by apply bb_length. destruct C as (_ & _ & C). cbn [groups_all] in C. destruct (gr_start g) as [st|] eqn:EG; [|contradiction].
    cbn [flat_map]. unfold enc_group at 1. rewrite EG. unfold enc_start, stuffed, enc_seq, enc_seq_with. change 435 with (256 + 179). rewrite <- (code_enc 179) by lia. change sequence_header_code with 179.
    rewrite <- !app_assoc. apply firstn_app_exact. reflexivity. }
  destruct (C34_align_to 435 r ltac:(lia)) as [(j & C1 & C2 & C3) | (C1 & _)]; [|exfalso; exact (C1 _ AT)].
  assert (j = length junk). { destruct (Nat.lt_trichotomy j (length junk)) as [K|[K|K] ]; [exfalso; exact (N j K C1) | exact K | exfalso; exact (C2 _ K AT)]. }
  subst j. rewrite E, skipn_app_exact in C3 by apply bb_length.
  split; [exact C3|]. split; [apply NB|]. split; [exact L2|]. split; [exact ST|]. split; [exact H1|]. split; [exact H2|]. eapply next_end. exact B.
Qed.

(** * From a group of pictures *)

(** The same when AlignTo finds a group of pictures while the sequence's header, extension and matrices are in force: the
    frames of this group and those after it, up to the end of the sequence.  Its pictures must do without references from before it. *)
Theorem C80_group : forall v r junk c g gs t, in_force c v -> Forall wf_group (g :: gs) -> Forall valid_group (g :: gs) -> gr_start g = None ->
  groups_all picture_coded (Some c) Unknown Unknown (g :: gs) -> (length t mod 8 = 0)%nat ->
  aligned (rbits r) = bb junk ++ flat_map enc_group (g :: gs) ++ code sequence_end_code ++ t ->
  (forall j, (j < length junk)%nat -> ~ code_at 440 (aligned (rbits r)) j) ->
  exists r3 before v1 imgs v2 r4, align_to 440 r = (Ok tt, r3) /\
    nexts (length before) (v, r3) = (Ok before, (v1, r3)) /\ (length before <= 2)%nat /\ Forall (stored v) before /\
    nexts (length (shown (g :: gs))) (v1, r3) = (Ok imgs, (v2, r4)) /\ Forall2 looks imgs (shown (g :: gs)) /\
    next (v2, r4) = (Err EOS, (v2, setb r t)).
Proof.
  intros v r junk c g gs t F W V S D Ht E N. apply (groups_mono _ _ coded_decodes) in D.
  destruct (left_over v) as (bf & v1 & L2 & ST & NB & SH & FS & TG & FF). specialize (FF c F).
  set (rest := code sequence_end_code ++ t) in *.
  exists (setb r (flat_map enc_group (g :: gs) ++ rest)), bf, v1.
  assert (A : at_unit rest) by (exists sequence_end_code, t; repeat split; auto; cbn; auto).
  pose proof (Forall_inv W) as Wg. pose proof (Forall_inv_tail W) as Wt. pose proof (Forall_inv V) as Vg. pose proof (Forall_inv_tail V) as Vt.
  pose proof Vg as (_ & p & ps & EP & _). pose proof Wg as (_ & _ & _ & _ & WP).
  assert (A1 : at_unit (flat_map enc_group gs ++ rest)) by (apply groups_unit; auto).
  assert (A2 : at_code (enc_picture p ++ rest_of ps (flat_map enc_group gs ++ rest))).
  { unfold rest_of. rewrite app_assoc. change (enc_picture p ++ flat_map enc_picture ps) with (flat_map enc_picture (p :: ps)). rewrite <- EP. apply pictures_at; [exact WP | now apply unit_at_code]. }
  cbn [groups_all] in D. rewrite S in D. destruct D as (Dp & D).
  assert (EB : flat_map enc_group (g :: gs) ++ rest = group_bits g (enc_picture p ++ rest_of ps (flat_map enc_group gs ++ rest))).
  { cbn [flat_map]. unfold enc_group at 1, group_bits, rest_of. rewrite EP, S. cbn [flat_map app]. now rewrite <- !app_assoc. }
  assert (SH1 : v_sh v1 <> None). { destruct FF as ((h0 & -> & _) & _). discriminate. }
  destruct (group_nexts g c Unknown Unknown v1 v1 r (flat_map enc_group (g :: gs) ++ rest) (flat_map enc_group gs ++ rest) p ps EP TG) as (imgs & v2 & H1 & L1 & B1); auto.
  { rewrite EB. apply group_bits_nonnil. }
  { rewrite EB. now apply step_group. }
  { exact I. } { exact I. } { split; discriminate. }
  destruct (after_pictures c Unknown Unknown (gr_pics g)) as ((c1 & o1) & l1).
  destruct (groups_nexts gs _ _ _ _ _ r rest B1 Wt Vt D A) as (imgs2 & v3 & c2 & o2 & l2 & fc2 & N2 & L3 & B2 & _).
  exists (imgs ++ imgs2), v3, (setb r rest).
  assert (SE : shown (g :: gs) = frames_of g ++ flat_map frames_of gs) by apply shown_frames.
  assert (AT : code_at 440 (aligned (rbits r)) (length junk)).
  { unfold code_at. rewrite E, skipn_app_exact by apply bb_length. rewrite EB. unfold group_bits, stuffed, enc_gop. change 440 with (256 + 184). rewrite <- (code_enc 184) by lia. change group_code with 184.
    rewrite <- !app_assoc. apply firstn_app_exact. reflexivity. }
  destruct (C34_align_to 440 r ltac:(lia)) as [(j & C1 & C2 & C3) | (C1 & _)]; [|exfalso; exact (C1 _ AT)].
  assert (j = length junk). { destruct (Nat.lt_trichotomy j (length junk)) as [K|[K|K] ]; [exfalso; exact (N j K C1) | exact K | exfalso; exact (C2 _ K AT)]. }
  subst j. rewrite E, skipn_app_exact in C3 by apply bb_length.
  split; [exact C3|]. split; [apply NB|]. split; [exact L2|]. split; [exact ST|].
  split; [|split; [rewrite SE; now apply Forall2_app | eapply next_end; exact B2] ].
  rewrite SE, app_length. unfold frames_of at 1. rewrite map_length. eapply nexts_app; [exact H1 | exact N2].
Qed.

(** * A damaged stream *)

(** The example sequence breaks off in its third picture, two bytes of garbage, and the sequence once more: two frames,
    an error, and then the reader is one byte before the second sequence. *)
Definition ex_damaged : list Z := firstn 160 ex_video ++ [255; 255] ++ ex_video.
Definition ex_reader : reader := mkR (bb ex_damaged) EEOF [] (fun _ _ => EEOF).
Definition damage_check : bool :=
  match nexts 2 (new_vidseq, ex_reader) with
  | (Ok _, s) =>
      match next s with
      | (Err _, (v, r)) => Nat.eqb (length (rbits r)) 2528 && (if list_eq_dec Bool.bool_dec (rbits r) (bb ([255] ++ ex_video)) then true else false) &&
          match rf_frame (fs_1 (v_fs v)) with Some _ => true | None => false end
      | _ => false
      end
  | _ => false
  end.
Example C80_sequence_hyp : sequence_of picture_coded xs_groups /\ xs_groups <> [] /\
  exists imgs s e v r f, nexts 2 (new_vidseq, ex_reader) = (Ok imgs, s) /\ next s = (Err e, (v, r)) /\ stored v f /\
    aligned (rbits r) = bb [255] ++ flat_map enc_group xs_groups ++ code sequence_end_code ++ [] /\
    (forall j, (j < length [255])%nat -> ~ code_at 435 (aligned (rbits r)) j).
Proof.
  split; [apply xs_groups_coded|]. split; [discriminate|].
  assert (D : damage_check = true) by (vm_compute; reflexivity). unfold damage_check in D.
  destruct (nexts 2 (new_vidseq, ex_reader)) as [ [imgs|e| |] s] eqn:N; try discriminate D.
  destruct (next s) as [ [i|e| |] [v r] ] eqn:X; try discriminate D. apply andb_prop in D. destruct D as (D & D3). apply andb_prop in D. destruct D as (_ & D2).
  destruct (list_eq_dec Bool.bool_dec (rbits r) (bb ([255] ++ ex_video))) as [E|]; [|discriminate D2]. destruct (rf_frame (fs_1 (v_fs v))) as [f|] eqn:Ef; [|discriminate D3].
  exists imgs, s, e, v, r, f. split; [reflexivity|]. split; [exact X|]. split; [right; exact Ef|]. rewrite E, aligned_bb. split.
  - rewrite bb_app, ex_video_bits. unfold enc_sequence. cbn [repeat]. change (bb []) with (@nil bool). now rewrite !app_nil_r.
  - intros j Hj C. unfold code_at in C. destruct j as [|j]; [vm_compute in C; discriminate | cbn in Hj; lia].
Qed.
Example C80_group_hyp : forall v, in_force xs_ctx v -> let g := mkGroup None (xs_gop true) 2 [] [i_pic 0; p_pic 3 f0; b_pic 1 f0 f1; b_pic 2 f0 f1] in
  in_force xs_ctx v /\ Forall wf_group [g] /\ Forall valid_group [g] /\ gr_start g = None /\ groups_all picture_coded (Some xs_ctx) Unknown Unknown [g].
Proof.
  intros v F g. destruct sized_f as (S0 & S1 & S2 & S3). split; [exact F|]. split.
  { apply Forall_cons; [|apply Forall_nil]. split; [exact I|]. split; [repeat split; cbn; lia|]. split; [constructor|]. split; [constructor|].
    cbn [gr_pics g]. apply Forall_cons; [apply i_wf; lia|]. apply Forall_cons; [apply p_wf; lia|]. apply Forall_cons; [apply b_wf; lia|]. apply Forall_cons; [apply b_wf; lia | apply Forall_nil]. }
  split. { apply Forall_cons; [|apply Forall_nil]. split; [reflexivity|]; eexists _, _; split; reflexivity. }
  split; [reflexivity|]. cbn [groups_all g gr_start gr_pics pictures_all]. unfold ctx_items. cbn [pi_items i_pic p_pic b_pic xs_pic fold_left].
  split; [|exact I]. split; [apply i_coded|]. split; [apply (p_coded Unknown f0 3); assumption|]. split; [apply (b_coded f0 f1 1); assumption|]. split; [apply (b_coded f0 f1 2); assumption | exact I].
Qed.

Print Assumptions C80_sequence.
Print Assumptions C80_group.
