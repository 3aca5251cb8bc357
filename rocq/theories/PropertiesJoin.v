(** PropertiesJoin: C83, decoding that starts in the middle of a stream. *)
From Coq Require Import Lia.
From Verif Require Import Base BitReader VidModel SpecVid SpecMotion SpecNext SpecPicture BlockModel MbModel Exec Local TsRobust VidProofs VidStream VidExt PropertiesVidHeaders NextProofs SliceProofs PropertiesNext ExampleStream PropertiesPipe.

(** * Slices without a past picture *)

Definition without_past (P : params) : params := mkParams (pp_type P) (pp_pce P) (pp_intra P) (pp_non_intra P) (pp_w P) (pp_h P) Missing (pp_future P).
Lemma past_missing : forall P s, past_of (without_past P) s = None.
Proof. intros P s. unfold past_of. destruct (fst (ps_dirs s)); reflexivity. Qed.
Lemma intra_missing : forall P blocks p i c, intra_code P p i blocks c -> intra_code (without_past P) p i blocks c.
Proof.
  intros P blocks. induction blocks as [|(dc & rls) blocks IH]; intros p i c H; [exact H|]. cbn [intra_code] in *. destruct H as (c1 & c2 & c3 & E & H1 & H2 & H3).
  exists c1, c2, c3. auto 10.
Qed.
Lemma mb_missing : forall P s b c, mb_code P s b c -> mb_code (without_past P) s b c.
Proof.
  intros P s b c (c1 & c2 & c3 & c4 & c5 & H1 & H2 & H3 & H4 & H5 & H6). exists c1, c2, c3, c4, c5. repeat (split; [assumption|]). split; [|exact H6].
  unfold body_code in *. destruct (b_body b); [now apply intra_missing | exact H5 | exact H5].
Qed.
Lemma mbs_missing : forall P row mbs addr s c, pp_type P = 3 -> mbs_code P row addr s mbs c -> mbs_code (without_past P) row addr s mbs c.
Proof.
  intros P row mbs. induction mbs as [|b mbs IH]; intros addr s c T H; [exact H|]. cbn [mbs_code] in *.
  destruct H as ((K1 & K2 & K3 & K3' & K4 & (A1 & A2) & K6 & K7 & K8) & c1 & c2 & E & H1 & H2). split.
  - split; [exact K1|]. split; [exact K2|]. split; [exact K3|]. split; [exact K3'|]. split; [exact K4|]. cbv zeta. rewrite past_missing. split; [split; [discriminate | exact A2]|]. split; [exact I|]. split; [exact K7|].
    intros L1 L2. destruct (K8 L1 L2) as (M1 & _ & M3). split; [exact M1|]. split; [intro T2; cbn [without_past pp_type] in T2; lia|]. intros _ col Hc. rewrite past_missing. split; [exact I|]. apply (M3 T col Hc).
  - exists c1, c2. split; [exact E|]. split; [now apply mb_missing|]. apply (IH _ _ _ T H2).
Qed.
Lemma slices_missing : forall P ls c, pp_type P = 3 -> slices_code P ls c -> slices_code (without_past P) ls c.
Proof.
  intros P ls c T H. assert (G : forall l d, slice_code P l d -> slice_code (without_past P) l d).
  { intros l d (K1 & K2 & K3 & K4 & K5 & c1 & K6 & K7). repeat (split; [assumption|]). exists c1. split; [now apply mbs_missing | exact K7]. }
  induction H as [l c H | l ls c d H _ IH]; [apply slices_one; auto | apply slices_cons; auto].
Qed.

(** * The pictures a decoder shows instead *)

(** The same picture in the stream; it need not look the same *)
Definition same_bits (p p' : spicture) : Prop := exists f, p' = mkPicture (pi_hdr p) (pi_k1 p) (pi_pce p) (pi_k2 p) (pi_items p) (pi_data p) f.
Inductive instead : list spicture -> list spicture -> Prop :=
| instead_b : forall p p' ps ps', is_ref p = false -> same_bits p p' -> instead ps ps' -> instead (p :: ps) (p' :: ps')
| instead_rest : forall ps, match ps with p :: _ => is_ref p = true | [] => True end -> instead ps ps.

Lemma b_missing : forall c o l p, is_ref p = false -> picture_coded c o l p -> exists p', same_bits p p' /\ picture_coded c Missing l p'.
Proof.
  intros c o l p R (K1 & K2 & K3 & K4 & K5 & K6 & K7 & ls & K8 & K9). unfold is_ref in R. apply negb_false_iff, Z.eqb_eq in R.
  pose (P := params_of c o l p). exists (mkPicture (pi_hdr p) (pi_k1 p) (pi_pce p) (pi_k2 p) (pi_items p) (pi_data p) (picture_paint (without_past P) ls)).
  split; [eexists; reflexivity|].
  assert (E : forall p', pi_hdr p' = pi_hdr p -> pi_pce p' = pi_pce p -> params_of c Missing l p' = without_past P).
  { intros p' E1 E2. unfold P, params_of, without_past. cbn [pp_type pp_pce pp_intra pp_non_intra pp_w pp_h pp_future]. rewrite E1, E2, R. reflexivity. }
  unfold picture_coded. rewrite E by reflexivity. split; [exact K1|]. split; [exact K2|]. split; [exact K3|]. split; [exact K4|]. split; [exact K5|]. split; [exact K6|]. split; [exact K7|].
  exists ls. split; [|reflexivity]. apply slices_missing; [exact R | exact K8].
Qed.
(** An I or P picture does not depend on the older of the two references. *)
Lemma ref_any_older : forall c o o' l p, is_ref p = true -> picture_coded c o l p -> picture_coded c o' l p.
Proof.
  intros c o o' l p R H. unfold is_ref in R. apply negb_true_iff in R. unfold picture_coded in *.
  assert (E : params_of c o' l p = params_of c o l p) by (unfold params_of; rewrite R; destruct (p_type (pi_hdr p) =? 2); reflexivity). now rewrite E.
Qed.

Lemma pictures_instead : forall ps c o l, pictures_all picture_coded c o l ps ->
  exists ps', instead ps ps' /\ pictures_all picture_coded c Missing l ps' /\
    fst (fst (after_pictures c Missing l ps')) = fst (fst (after_pictures c o l ps)) /\ snd (after_pictures c Missing l ps') = snd (after_pictures c o l ps).
Proof.
  induction ps as [|p ps IH]; intros c o l H.
  - exists []. split; [now apply instead_rest|]. split; [exact I|]. split; reflexivity.
  - destruct H as (H1 & H2). cbv zeta in *. destruct (is_ref p) eqn:R.
    + exists (p :: ps). split; [now apply instead_rest|]. cbn [pictures_all after_pictures]. unfold older, latest in *. rewrite R in *.
      split; [split; [eapply ref_any_older; eauto | exact H2]|]. split; reflexivity.
    + unfold older, latest in H2. rewrite R in H2. destruct (IH _ _ _ H2) as (ps' & J1 & J2 & J3 & J4). destruct (b_missing _ _ _ _ R H1) as (p' & (f & E) & D).
      exists (p' :: ps'). split; [apply instead_b; [exact R | exists f; exact E | exact J1]|].
      assert (R' : is_ref p' = false) by (rewrite E; exact R). assert (I' : pi_items p' = pi_items p) by (now rewrite E).
      cbn [pictures_all after_pictures]. cbv zeta. unfold older, latest. rewrite I', R, R'. auto.
Qed.
Lemma groups_missing : forall gs c o l, Forall valid_group gs -> groups_all picture_coded (Some c) o l gs -> groups_all picture_coded (Some c) Missing l gs.
Proof.
  intros [|g gs] c o l V H; [exact I|]. cbn [groups_all] in *. inversion V as [|? ? (_ & p & ps & E & T) ? E1]; subst. rewrite E in *.
  assert (R : is_ref p = true) by (unfold is_ref; now rewrite T).
  assert (G : forall c, (pictures_all picture_coded c o l (p :: ps) /\ (let '(c, o, l) := after_pictures c o l (p :: ps) in groups_all picture_coded (Some c) o l gs)) ->
    pictures_all picture_coded c Missing l (p :: ps) /\ (let '(c, o, l) := after_pictures c Missing l (p :: ps) in groups_all picture_coded (Some c) o l gs)).
  { intros c1 ((H1 & H2) & H3). cbn [pictures_all after_pictures] in *. cbv zeta in *. unfold older, latest in *. rewrite R in *. split; [split; [eapply ref_any_older; eauto | exact H2] | exact H3]. }
  destruct (gr_start g); apply G; exact H.
Qed.

(** * Display order *)
Lemma instead_enc : forall ps ps', instead ps ps' -> flat_map enc_picture ps' = flat_map enc_picture ps /\ (Forall wf_picture ps -> Forall wf_picture ps') /\ length ps' = length ps.
Proof.
  induction 1 as [p p' ps ps' R (f & ->) _ (IH1 & IH2 & IH3) | ps _]; [|auto]. cbn [flat_map length]. rewrite IH1, IH3. split; [reflexivity|]. split; [|reflexivity].
  intro W. inversion W; subst. apply Forall_cons; auto.
Qed.
(** The pictures before the reference [r] of a group that starts with it *)
Lemma instead_display : forall ps ps', instead ps ps' -> forall r, exists n rest B B',
  reorder (Some r) ps = B ++ r :: rest /\ reorder (Some r) ps' = B' ++ r :: rest /\ length B = n /\ length B' = n /\ map tref B' = map tref B.
Proof.
  induction 1 as [p p' ps ps' R (f & E) _ IH | ps H]; intro r.
  - destruct (IH r) as (n & rest & B & B' & H1 & H2 & H3 & H4 & H5). assert (R' : is_ref p' = false) by (rewrite E; exact R).
    exists (S n), rest, (p :: B), (p' :: B'). cbn [reorder length map app]. rewrite R, R', H1, H2, H3, H4, H5. replace (tref p') with (tref p) by (now rewrite E). auto 10.
  - destruct ps as [|p ps].
    + exists O, [], [], []. auto 10.
    + exists O, (reorder (Some p) ps), [], []. cbn [reorder]. rewrite H. auto 10.
Qed.

(** * Starting at a group *)

(** The number of pictures that are displayed before the first reference of a group, by its temporal_reference *)
Definition leading (g : sgroup) : nat := match gr_pics g with p :: _ => Z.to_nat (tref p) | [] => O end.

Lemma numbers_nth : forall k n, (k < n)%nat -> nth_error (numbers n) k = Some (Z.of_nat k).
Proof. intros k n H. unfold numbers. apply map_nth_error. rewrite (nth_error_nth' _ O) by (now rewrite seq_length). now rewrite seq_nth. Qed.

Lemma groups_tail : forall gs0 gs c o l, groups_all picture_coded c o l (gs0 ++ gs) -> exists c o l, groups_all picture_coded c o l gs.
Proof.
  induction gs0 as [|h gs0 IH]; intros gs c o l D; [eauto|]. cbn [app groups_all] in D.
  destruct (match gr_start h with Some s => Some (ctx_start s) | None => c end) as [c1|]; [|contradiction].
  destruct D as (_ & D). destruct (after_pictures c1 o l (gr_pics h)) as ((c2 & o2) & l2). eapply IH; eauto.
Qed.

(** What is decoded is what is shown, except for the leading pictures. *)
Lemma joined : forall gs0 g gs s, sequence_of picture_coded (gs0 ++ g :: gs) -> gr_start g = Some s ->
  exists g', flat_map enc_group (g' :: gs) = flat_map enc_group (g :: gs) /\ Forall wf_group (g' :: gs) /\ Forall valid_group (g' :: gs) /\
    groups_all picture_coded None Missing Missing (g' :: gs) /\
    length (shown (g' :: gs)) = length (shown (g :: gs)) /\ skipn (leading g) (shown (g' :: gs)) = skipn (leading g) (shown (g :: gs)).
Proof.
  intros gs0 g gs s (W & V & D) ST.
  apply Forall_app in W. destruct W as (_ & W). apply Forall_app in V. destruct V as (_ & V).
  assert (D' : exists c o l, groups_all picture_coded c o l (g :: gs)).
  { exact (groups_tail gs0 (g :: gs) None Unknown Unknown D). }
  clear D. destruct D' as (c & o & l & D). cbn [groups_all] in D. rewrite ST in D. destruct D as (D1 & D2).
  inversion V as [|? ? (TR & p & ps & EP & TY) VG]; subst. inversion W as [|? ? (W1 & W2 & W3 & W4 & W5) WG]; subst. rewrite EP in *.
  assert (R : is_ref p = true) by (unfold is_ref; now rewrite TY).
  cbn [pictures_all after_pictures] in D1, D2. cbv zeta in *. unfold older, latest in D1, D2. rewrite R in D1, D2. destruct D1 as (D0 & D1).
  destruct (pictures_instead _ _ _ _ D1) as (ps' & J1 & J2 & J3 & J4).
  destruct (instead_enc _ _ J1) as (E1 & E2 & E3). destruct (instead_display _ _ J1 p) as (n & rest & B & B' & K1 & K2 & K3 & K4 & K5).
  assert (DP : display (p :: ps) = B ++ p :: rest) by (unfold display; cbn [reorder]; rewrite R; exact K1).
  assert (DP' : display (p :: ps') = B' ++ p :: rest) by (unfold display; cbn [reorder]; rewrite R; exact K2).
  exists (mkGroup (gr_start g) (gr_hdr g) (gr_k g) (gr_items g) (p :: ps')).
  assert (LD : leading g = n).
  { unfold leading. rewrite EP. rewrite DP, map_app in TR. cbn [map] in TR. assert (H : nth_error (map tref B ++ tref p :: map tref rest) n = Some (tref p)).
    { rewrite nth_error_app2 by (rewrite map_length; lia). rewrite map_length, K3, Nat.sub_diag. reflexivity. }
    assert (LN : (n < length (p :: ps))%nat). { assert (L : length (map tref B ++ tref p :: map tref rest) = length (numbers (length (p :: ps)))) by now rewrite TR.
      unfold numbers in L. rewrite app_length, !map_length, seq_length in L. cbn [length] in L |- *. rewrite map_length in L. lia. }
    rewrite TR, numbers_nth in H by exact LN. injection H as H. lia. }
  split. { cbn [flat_map]. f_equal. unfold enc_group. cbn [gr_start gr_hdr gr_k gr_items gr_pics]. rewrite EP. cbn [flat_map]. now rewrite E1. }
  split. { apply Forall_cons; [|exact WG]. cbn. inversion W5; subst. repeat (split; [assumption|]). apply Forall_cons; auto. }
  split. { apply Forall_cons; [|exact VG]. split; [|cbn; eauto]. cbn [gr_pics]. rewrite DP', map_app, K5, <- map_app. cbn [length]. rewrite E3. rewrite <- DP. exact TR. }
  split.
  { cbn [groups_all gr_start gr_pics]. rewrite ST. cbn [pictures_all after_pictures]. cbv zeta. unfold older, latest. rewrite R. split.
    - split; [|exact J2]. unfold picture_coded in *. assert (E : forall o l, params_of (ctx_items (ctx_start s) (pi_items p)) o l p = params_of (ctx_items (ctx_start s) (pi_items p)) Unknown Unknown p) by (intros; unfold params_of; rewrite TY; reflexivity).
      rewrite E. rewrite E in D0. exact D0.
    - destruct (after_pictures (ctx_items (ctx_start s) (pi_items p)) Missing (Is (pi_frame p)) ps') as ((c1 & o1) & l1).
      destruct (after_pictures (ctx_items (ctx_start s) (pi_items p)) l (Is (pi_frame p)) ps) as ((c2 & o2) & l2). cbn [fst snd] in J3, J4. subst c2 l2.
      destruct gs as [|h gs]; [exact I|]. inversion VG as [|? ? (_ & q & qs & EQ & TQ) ? ]; subst. cbn [groups_all] in *. rewrite EQ in *.
      assert (RQ : is_ref q = true) by (unfold is_ref; now rewrite TQ). 
      assert (G : forall c, (pictures_all picture_coded c o2 l1 (q :: qs) /\ (let '(c, o, l) := after_pictures c o2 l1 (q :: qs) in groups_all picture_coded (Some c) o l gs)) ->
        pictures_all picture_coded c o1 l1 (q :: qs) /\ (let '(c, o, l) := after_pictures c o1 l1 (q :: qs) in groups_all picture_coded (Some c) o l gs)).
      { intros c3 ((H1 & H2) & H3). cbn [pictures_all after_pictures] in *. cbv zeta in *. unfold older, latest in *. rewrite RQ in *. split; [split; [eapply ref_any_older; eauto | exact H2] | exact H3]. }
      destruct (gr_start h); apply G; exact D2. }
  unfold shown. cbn [flat_map gr_pics]. rewrite EP, DP, DP', !map_app, LD. split.
  - rewrite !app_length, !map_length. lia.
  - rewrite <- !app_assoc. rewrite !skipn_app_exact by (rewrite map_length; lia). reflexivity.
Qed.

(** AlignTo stops at the header. *)
Lemma align_here : forall g gs s r junk t, gr_start g = Some s ->
  aligned (rbits r) = bb junk ++ flat_map enc_group (g :: gs) ++ code sequence_end_code ++ t ->
  (forall j, (j < length junk)%nat -> ~ code_at 435 (aligned (rbits r)) j) ->
  align_to 435 r = (Ok tt, setb r (flat_map enc_group (g :: gs) ++ code sequence_end_code ++ t)).
Proof.
  intros g gs s r junk t ST E N.
  assert (AT : code_at 435 (aligned (rbits r)) (length junk)).
  { unfold code_at. rewrite E, skipn_app_exact by apply bb_length.
    cbn [flat_map]. unfold enc_group at 1. rewrite ST. unfold enc_start, stuffed, enc_seq, enc_seq_with. change 435 with (256 + 179). rewrite <- (code_enc 179) by lia. change sequence_header_code with 179.
    rewrite <- !app_assoc. apply firstn_app_exact. reflexivity. }
  destruct (C34_align_to 435 r ltac:(lia)) as [(j & C1 & C2 & C3) | (C1 & _)]; [|exfalso; exact (C1 _ AT)].
  assert (j = length junk). { destruct (Nat.lt_trichotomy j (length junk)) as [K|[K|K] ]; [exfalso; exact (N j K C1) | exact K | exfalso; exact (C2 _ K AT)]. }
  subst j. rewrite E, skipn_app_exact in C3 by apply bb_length.
  exact C3.
Qed.

(** A decoder that starts at the sequence header of any group [g] of a sequence returns as many frames as are left,
    and all of them are right from the first reference picture on: only the leading pictures - those that are
    displayed before the first picture of the group - may be wrong. *)
Theorem C83_join_partial : forall gs0 g gs s r junk t, sequence_of picture_coded (gs0 ++ g :: gs) -> gr_start g = Some s -> (length t mod 8 = 0)%nat ->
  aligned (rbits r) = bb junk ++ flat_map enc_group (g :: gs) ++ code sequence_end_code ++ t ->
  (forall j, (j < length junk)%nat -> ~ code_at 435 (aligned (rbits r)) j) ->
  exists r1 imgs v2 r2, align_to 435 r = (Ok tt, r1) /\
    nexts (length (shown (g :: gs))) (new_vidseq, r1) = (Ok imgs, (v2, r2)) /\ length imgs = length (shown (g :: gs)) /\
    Forall2 looks (skipn (leading g) imgs) (skipn (leading g) (shown (g :: gs))) /\
    next (v2, r2) = (Err EOS, (v2, setb r t)).
Proof.
  intros gs0 g gs s r junk t C ST Ht E N.
  pose proof (align_here g gs s r junk t ST E N) as C3.
  destruct (joined gs0 g gs s C ST) as (g' & J1 & J2 & J3 & J4 & J5 & J6).
  assert (A : at_unit (code sequence_end_code ++ t)) by (exists sequence_end_code, t; repeat split; auto; cbn; auto).
  destruct (sequence_from_refs Missing Missing new_vidseq 0 g' gs r (code sequence_end_code ++ t)) as (imgs & v2 & c & o & l & fc & H1 & H2 & B & _); auto.
  { reflexivity. } { reflexivity. } { exact (groups_mono _ _ coded_decodes (g' :: gs) None Missing Missing J4). }
  exists (setb r (flat_map enc_group (g :: gs) ++ code sequence_end_code ++ t)), imgs, v2, (setb r (code sequence_end_code ++ t)).
  rewrite J1, J5 in H1. split; [exact C3|]. split; [exact H1|].
  assert (L : length imgs = length (shown (g :: gs))). { rewrite <- J5. clear - H2. induction H2; cbn; auto. }
  split; [exact L|]. split; [|eapply next_end; exact B]. rewrite <- J6. generalize (leading g). clear - H2. intro k.
  revert k. induction H2; intros [|k]; cbn [skipn]; auto.
Qed.

(** * A stream whose middle is decoded wrongly *)

(** B pictures all of whose macroblocks repeat the past picture, in an open group I2 B0 B1 after the group I0 P1 *)
Definition r_mbs : list smb := [mkMb 1 None (Some (0, 0)) None NotCoded; mkMb 2 None (Some (0, 0)) None NotCoded].
Definition r_bits : list bool := (enc 1 1 ++ enc 4 2 ++ (enc 1 1 ++ enc 1 1)) ++ (enc 3 3 ++ enc 4 2 ++ (enc 1 1 ++ enc 1 1)).
Definition r_slice : sslice := mkSlice 0 5 None r_mbs 0.
Lemma r_slice_code : forall past future, sized past -> slice_code (xs_type 3 (Is past) future) r_slice (slice_bits r_slice r_bits).
Proof.
  intros past future (SW & SH). unfold slice_code, r_slice, slice_bits. cbn [sl_row sl_q sl_flags sl_mbs sl_k].
  split; [lia|]. split; [cbn; lia|]. split; [lia|]. split; [discriminate|]. split; [exact I|]. eexists. split; [|reflexivity].
  unfold r_mbs, r_bits. set (P := xs_type 3 (Is past) future). cbn [mbs_code].
  split; [|eexists _, _; split; [reflexivity|]; split; [|split; [|eexists _, []; split; [symmetry; apply app_nil_r|]; split; [|reflexivity] ] ] ].
  - split; [cbn; lia|]. split; [unfold mb_in; cbn; lia|]. split; [exact I|].
    split; [now intros|]. split; [exact I|]. split; [split; cbn; discriminate|]. split; [cbn -[vector_in]; six|]. split; [exact I|]. intros H; lia.
  - exists (enc 1 1), (enc 4 2), (enc 1 1 ++ enc 1 1), [], []. split; [apply xs_incr1|]. split; [exists 2, 4; split; [cbn; tauto | reflexivity]|].
    split. { cbn [opt_vector b_forward]. exists (enc 1 1), (enc 1 1). split; [reflexivity|]. split; [unfold mv_range, mv_f; cbn; lia|]. split; [unfold mv_range, mv_f; cbn; lia|].
      split; apply zero_vector. }
    split; [reflexivity|]. split; reflexivity.
  - split; [cbn; lia|]. split; [unfold mb_in; cbn; lia|]. split; [exact I|].
    split; [now intros|]. split; [exact I|]. split; [split; cbn; discriminate|]. split; [cbn -[vector_in]; six|]. split; [exact I|]. intros _ _. split; [discriminate|]. split; [intro H; discriminate H|].
    intros _ col Hc. assert (col = 1) as -> by (cbn in Hc; lia). split; [cbn -[vector_in]; six | exact I].
  - exists (enc 3 3), (enc 4 2), (enc 1 1 ++ enc 1 1), [], []. split; [apply xs_incr2|]. split; [exists 2, 4; split; [cbn; tauto | reflexivity]|].
    split. { cbn [opt_vector b_forward]. exists (enc 1 1), (enc 1 1). split; [reflexivity|]. split; [unfold mv_range, mv_f; cbn; lia|]. split; [unfold mv_range, mv_f; cbn; lia|].
      split; apply zero_vector. }
    split; [reflexivity|]. split; reflexivity.
Qed.
Definition r_frame (past future : canvas) : canvas := picture_paint (xs_type 3 (Is past) (Is future)) [r_slice].
Definition r_pic (tr : Z) (past future : canvas) : spicture := xs_pic tr 3 r_slice r_bits (r_frame past future).
Lemma r_coded : forall f g tr, sized f -> picture_coded xs_ctx (Is f) (Is g) (r_pic tr f g).
Proof. intros f g tr S. apply (xs_coded (Is f) (Is g) tr 3); [lia | now apply r_slice_code]. Qed.
Definition join_first : sgroup := mkGroup (Some xs_start) (xs_gop true) 0 [] [i_pic 0; p_pic 1 f0].
Definition join_second : sgroup := mkGroup (Some xs_start) (xs_gop false) 0 [] [i_pic 2; r_pic 0 f1 f2; r_pic 1 f1 f2].
Lemma join_coded : sequence_of picture_coded ([join_first] ++ [join_second]).
Proof.
  destruct sized_f as (S0 & S1 & S2 & S3). cbn [app]. split; [|split].
  - apply Forall_cons; [|apply Forall_cons; [|apply Forall_nil] ].
    + split; [apply xs_start_wf|]. split; [repeat split; cbn; lia|]. split; [constructor|]. split; [constructor|].
      cbn [join_first gr_pics]. apply Forall_cons; [apply i_wf; lia|]. apply Forall_cons; [apply p_wf; lia | apply Forall_nil].
    + split; [apply xs_start_wf|]. split; [repeat split; cbn; lia|]. split; [constructor|]. split; [constructor|].
      cbn [join_second gr_pics]. apply Forall_cons; [apply i_wf; lia|]. apply Forall_cons; [apply xs_wf; [lia | lia | reflexivity | reflexivity]|]. apply Forall_cons; [apply xs_wf; [lia | lia | reflexivity | reflexivity] | apply Forall_nil].
  - apply Forall_cons; [|apply Forall_cons; [|apply Forall_nil] ]; (split; [reflexivity|]; eexists _, _; split; reflexivity).
  - cbn [groups_all join_first join_second gr_start gr_pics]. change (ctx_start xs_start) with xs_ctx. split; [|split; [|exact I] ].
    + cbn [pictures_all]. unfold ctx_items. cbn [pi_items i_pic p_pic xs_pic fold_left].
      split; [apply i_coded|]. split; [apply (p_coded Unknown f0 1); assumption | exact I].
    + cbn [pictures_all]. unfold ctx_items. cbn [pi_items i_pic r_pic xs_pic fold_left].
      split; [apply i_coded|]. split; [apply (r_coded f1 f2 0); assumption|]. split; [apply (r_coded f1 f2 1); assumption | exact I].
Qed.
Definition join_bits : list bool := bb [1; 2; 3] ++ flat_map enc_group [join_second] ++ code sequence_end_code ++ [].
Example C83_hyp : forall rd, let r := setb rd join_bits in
  sequence_of picture_coded ([join_first] ++ join_second :: []) /\ gr_start join_second = Some xs_start /\ leading join_second = 2%nat /\
  aligned (rbits r) = bb [1; 2; 3] ++ flat_map enc_group [join_second] ++ code sequence_end_code ++ [] /\
  (forall j, (j < length [1; 2; 3])%nat -> ~ code_at 435 (aligned (rbits r)) j).
Proof.
  intros rd r. split; [exact join_coded|]. split; [reflexivity|]. split; [reflexivity|].
  assert (A : aligned (rbits r) = join_bits). { unfold aligned, r. cbn [setb rbits]. replace (length join_bits mod 8)%nat with O by (vm_compute; reflexivity). reflexivity. }
  rewrite A. split; [reflexivity|]. intros j Hj C. unfold code_at in C.
  destruct j as [|[|[|j] ] ]; [vm_compute in C; discriminate | vm_compute in C; discriminate | vm_compute in C; discriminate | cbn in Hj; lia].
Qed.

(** The leading pictures of an open group are returned without an error, and wrong: here black pictures instead of a
    copy of the picture before, whose first sample is 130. *)
Definition r_frame0 (future : canvas) : canvas := picture_paint (xs_type 3 Missing (Is future)) [r_slice].
Definition r_pic0 (tr : Z) (future : canvas) : spicture := xs_pic tr 3 r_slice r_bits (r_frame0 future).
Lemma r_coded0 : forall g tr, picture_coded xs_ctx Missing (Is g) (r_pic0 tr g).
Proof.
  intros g tr. apply (xs_coded Missing (Is g) tr 3); [lia|].
  assert (H : slices_code (without_past (xs_type 3 (Is f0) (Is g))) [r_slice] (slice_bits r_slice r_bits)) by (apply slices_missing; [reflexivity | apply slices_one, r_slice_code; repeat split]).
  change (without_past (xs_type 3 (Is f0) (Is g))) with (xs_type 3 Missing (Is g)) in H. inversion H as [? ? H1 | ? ? ? ? ? H1]; subst; [exact H1 | inversion H1].
Qed.
Lemma nothing : forall j k, nth k (nth j (repeat no_residual 6) []) 0 = 0.
Proof.
  intros j k. destruct (lt_dec j 6) as [H|H].
  - replace (nth j (repeat no_residual 6) []) with no_residual; [apply nth_repeat|]. do 6 (destruct j as [|j]; [reflexivity|]). lia.
  - rewrite (nth_overflow (repeat no_residual 6)) by (rewrite repeat_length; lia). now destruct k.
Qed.
Lemma r_black : forall g x y, cv_y (r_frame0 g) x y = 0.
Proof.
  intros g x y. unfold r_frame0, picture_paint, slice_paint, r_slice, r_mbs. cbn [fold_left sl_row sl_q sl_mbs mbs_paint b_incr].
  change (-1 =? -1) with true. change (-1 + 1 =? -1) with false. cbv iota. unfold paint_skipped. change (2 - 1 <=? 0) with false. change (pp_type (xs_type 3 Missing (Is g)) =? 2) with false. cbv iota zeta.
  unfold paint_mb. cbn [paint cv_y b_body residuals field_dct]. unfold mb_luma. rewrite !nothing.
  assert (E : forall s, past_of (xs_type 3 Missing (Is g)) s = None) by (intro s; unfold past_of; now destruct (fst (ps_dirs s))). rewrite !E.
  unfold blank. cbn [cv_y]. repeat (match goal with |- context [if in_mbs ?a ?b ?c ?d ?e ?f then _ else _] => destruct (in_mbs a b c d e f) end); reflexivity.
Qed.
Theorem C83_leading_refuted : forall rd, exists r1 f imgs v2 r2 right rights,
  align_to 435 (setb rd join_bits) = (Ok tt, r1) /\
  nexts (length (shown [join_second])) (new_vidseq, r1) = (Ok (f :: imgs), (v2, r2)) /\
  shown [join_second] = right :: rights /\ cv_y right 0 0 = 130 /\ (forall x y, 0 <= x < 48 -> 0 <= y < 16 -> luma f x y = 0) /\ ~ looks f right.
Proof.
  intro rd. destruct (C83_hyp rd) as (C & _ & _ & A & N). cbv zeta in *.
  pose proof (align_here join_second [] xs_start _ [1; 2; 3] [] eq_refl A N) as AL.
  pose (g' := mkGroup (Some xs_start) (xs_gop false) 0 [] [i_pic 2; r_pic0 0 f2; r_pic0 1 f2]).
  assert (U : at_unit (code sequence_end_code ++ [])) by (rewrite app_nil_r; apply end_unit).
  assert (W : Forall wf_group [g']).
  { apply Forall_cons; [|apply Forall_nil]. split; [apply xs_start_wf|]. split; [repeat split; cbn; lia|]. split; [constructor|]. split; [constructor|].
    cbn [g' gr_pics]. apply Forall_cons; [apply i_wf; lia|]. apply Forall_cons; [apply xs_wf; [lia | lia | reflexivity | reflexivity]|]. apply Forall_cons; [apply xs_wf; [lia | lia | reflexivity | reflexivity] | apply Forall_nil]. }
  assert (V : Forall valid_group [g']) by (apply Forall_cons; [|apply Forall_nil]; split; [reflexivity|]; eexists _, _; split; reflexivity).
  assert (G : groups_all picture_coded None Missing Missing [g']).
  { cbn [groups_all g' gr_start gr_pics]. change (ctx_start xs_start) with xs_ctx. split; [|exact I]. cbn [pictures_all]. unfold ctx_items. cbn [pi_items i_pic r_pic0 xs_pic fold_left].
    split; [apply i_coded|]. split; [apply (r_coded0 f2 0)|]. split; [apply (r_coded0 f2 1) | exact I]. }
  destruct (sequence_from_refs Missing Missing new_vidseq 0 g' [] rd (code sequence_end_code ++ [])) as (imgs & v2 & c & o & l & fc & H1 & H2 & _); auto.
  { reflexivity. } { reflexivity. } { exact (groups_mono _ _ coded_decodes [g'] None Missing Missing G). }
  assert (S' : shown [g'] = [r_frame0 f2; r_frame0 f2; i_frame]) by reflexivity.
  assert (SR : shown [join_second] = [r_frame f1 f2; r_frame f1 f2; i_frame]) by reflexivity.
  rewrite S' in H1, H2. rewrite SR. inversion H2 as [|f ? imgs' ? L H3 E1 E2]; subst. cbn [length] in *.
  exists (setb rd (flat_map enc_group [join_second] ++ code sequence_end_code ++ [])), f, imgs', v2, (setb rd (code sequence_end_code ++ [])), (r_frame f1 f2), [r_frame f1 f2; i_frame].
  split; [exact AL|]. split; [exact H1|]. split; [reflexivity|]. split; [lazy; reflexivity|].
  assert (B : forall x y, 0 <= x < 48 -> 0 <= y < 16 -> luma f x y = 0). { destruct L as (_ & _ & _ & L & _). intros x y Hx Hy. rewrite <- (r_black f2 x y). apply (L x y Hx Hy). }
  split; [exact B|]. intros (_ & _ & _ & LR & _). destruct (LR 0 0) as (LR1 & _); [cbn; lia | cbn; lia|]. rewrite (B 0 0) in LR1 by lia.
  assert (X : cv_y (r_frame f1 f2) 0 0 = 130) by (lazy; reflexivity). lia.
Qed.

Print Assumptions C83_join_partial.
Print Assumptions C83_leading_refuted.
