(** PropertiesOrder: C125 - slices that arrive in another order, or more than once. *)
From Coq Require Import Lia.
From Verif Require Import Base BitReader VidModel SpecVid SpecVlc SpecBlock SpecMotion SpecNext SpecPicture SpecLoss SpecOrder BlockModel MbModel NextProofs SliceProofs LossProofs OrderProofs ExampleStream PropertiesLoss.

(** A sequence of which any slices are lost - but never all those of a picture - and the others arrive, picture by picture,
    in any order, as long as only slices with no macroblock in common change places, and slices repeated: Next returns as many frames as for the whole sequence, and then the end of
    the sequence; each frame is as if the slices had arrived in their order ([looks_but] and [hurt_shown] are those of C118). *)
Theorem C125_lost_and_mixed : forall k g gs gs' rd, sequence_cut (g :: gs) -> sequence_mixed (g :: gs) gs' ->
  exists imgs v',
    nexts (length (shown (map fst (g :: gs)))) (new_vidseq, setb rd (enc_sequence k gs')) =
      (Ok imgs, (v', setb rd (code sequence_end_code))) /\
    Forall2 looks_but imgs (hurt_shown unhurt unhurt (g :: gs)) /\
    next (v', setb rd (code sequence_end_code)) = (Err EOS, (v', setb rd [])).
Proof.
  intros k g gs ms rd (W & V & C) M.
  destruct (groups_mix (g :: gs) ms None Unknown Unknown Unknown Unknown unhurt unhurt W V C Logic.I Logic.I M) as (gs' & G1 & G2 & G3 & G4 & G5 & G6).
  destruct gs' as [|g' gs']; [discriminate G6|].
  assert (EN : enc_sequence k (g' :: gs') = enc_sequence k ms) by (unfold enc_sequence; now rewrite G1).
  assert (EL : length (shown (g' :: gs')) = length (shown (map fst (g :: gs)))).
  { rewrite <- (shown_length _ unhurt unhurt _ _ _ C). unfold shown. rewrite map_length. clear - G5. induction G5; cbn; auto. }
  destruct (sequence_nexts k g' gs' rd (coded_valid _ (conj G2 (conj G3 G4)))) as (imgs & v' & N1 & N2 & N3).
  rewrite EN, EL in N1. exists imgs, v'. split; [exact N1|]. split; [|exact N3]. exact (looks_bears_all _ _ _ N2 G5).
Qed.

(** Nothing lost: the frames are those of the sequence with the slices in their order. *)
Theorem C125_mixed : forall k g gs gs' rd, sequence_cut (g :: gs) -> Forall whole_group (g :: gs) -> sequence_mixed (g :: gs) gs' ->
  exists imgs v',
    nexts (length (shown (map fst (g :: gs)))) (new_vidseq, setb rd (enc_sequence k gs')) =
      (Ok imgs, (v', setb rd (code sequence_end_code))) /\
    Forall2 looks imgs (shown (map fst (g :: gs))) /\
    next (v', setb rd (code sequence_end_code)) = (Err EOS, (v', setb rd [])).
Proof.
  intros k g gs ms rd H W M. destruct (C125_lost_and_mixed k g gs ms rd H M) as (imgs & v' & N1 & N2 & N3).
  exists imgs, v'. split; [exact N1|]. split; [|exact N3]. clear N1 N3.
  destruct (C118_pictures _ H) as (EP & CS).
  destruct (sequence_nexts 0 (fst g) (map fst gs) rd (coded_valid _ CS)) as (wi & vw & _ & M2 & _).
  change (fst g :: map fst gs) with (map fst (g :: gs)) in M2. rewrite <- EP in *.
  assert (NN : Forall (fun h => none (hu_rows h)) (hurt_shown unhurt unhurt (g :: gs))) by (apply none_groups; [exact W | intros r X; exact X | intros r X; exact X]).
  revert N2 NN M2. generalize (hurt_shown unhurt unhurt (g :: gs)). clear. intros hs N2. revert wi.
  induction N2 as [|f h imgs hs H1 H2 IH]; intros wi NN M2; [constructor|]. cbn [map] in *. apply Forall_cons_iff in NN. destruct NN as [NN1 NN2].
  inversion M2 as [|f' c wi' cs L1 L2]; subst. constructor; [now apply (looks_again _ f') | exact (IH _ NN2 L2)].
Qed.

(** Slices of different rows have no macroblock in common, nor have slices of one row of which one ends before the other begins. *)
Theorem C125_apart : forall a b, sl_row a <> sl_row b \/ last_mb a < first_mb b \/ last_mb b < first_mb a -> apart a b.
Proof. intros a b H row col ((E1 & E2) & (E3 & E4)). lia. Qed.

(** ** An example: pictures of 48 x 32 samples, the I picture with one slice in the first row and two in the second; they
    arrive last first, and the last of them twice. *)
Definition or_mb (n : Z) : smb := mkMb n None None None (Intra false (flat 128 128 128)).
Definition or_a : sslice := mkSlice 1 5 None [or_mb 1] 0.
Definition or_b : sslice := mkSlice 1 5 None [or_mb 2] 1.
Definition or_abits : list bool := slice_bits or_a (enc 1 1 ++ enc 1 1 ++ flat_bits).
Definition or_bbits : list bool := slice_bits or_b (enc 3 3 ++ enc 1 1 ++ flat_bits).
Lemma or_flat : forall P p, e_vlc (pp_pce P) = false -> p 0%nat = 128 -> p 1%nat = 128 -> p 2%nat = 128 -> intra_code P p 0 (flat 128 128 128) flat_bits.
Proof.
  intros P p V H0 H1 H2. cbn [intra_code flat]. rewrite V. unfold flat_bits.
  exists dc0l, b14_eob. eexists. split; [rewrite <- !app_assoc; reflexivity|]. cbn [component]. rewrite H0. split; [apply (xs_dc0 0); lia|]. split; [apply empty_from; lia|].
  exists dc0l, b14_eob. eexists. split; [reflexivity|]. split; [apply (xs_dc0 1); lia|]. split; [apply empty_from; lia|].
  exists dc0l, b14_eob. eexists. split; [reflexivity|]. split; [apply (xs_dc0 2); lia|]. split; [apply empty_from; lia|].
  exists dc0l, b14_eob. eexists. split; [reflexivity|]. split; [apply (xs_dc0 3); lia|]. split; [apply empty_from; lia|].
  exists dc0c, b14_eob. eexists. split; [reflexivity|]. change (set_dc _ _ _ 1%nat) with (p 1%nat). rewrite H1. split; [apply (xs_dc0 4); lia|]. split; [apply empty_from; lia|].
  exists dc0c, b14_eob, []. split; [reflexivity|]. change (set_dc _ _ _ 2%nat) with (p 2%nat). rewrite H2. split; [apply (xs_dc0 5); lia|]. split; [apply empty_from; lia|].
  reflexivity.
Qed.
Lemma or_flat_ok : forall P, e_fpfd (pp_pce P) = true -> e_dc (pp_pce P) = 0 -> body_ok P (Intra false (flat 128 128 128)).
Proof.
  intros P H1 H2. cbn [body_ok]. rewrite H2. split; [reflexivity|]. split; [auto|]. unfold flat.
  repeat (apply Forall_cons; [cbn; split; [lia|]; split; [constructor | lia]|]). apply Forall_nil.
Qed.
Lemma or_a_code : forall past future, slice_code (ls_type 1 past future) or_a or_abits.
Proof.
  intros past future. unfold slice_code, or_abits, or_a, slice_bits. cbn [sl_row sl_q sl_flags sl_mbs sl_k].
  split; [lia|]. split; [cbn; lia|]. split; [lia|]. split; [discriminate|]. split; [exact Logic.I|]. eexists. split; [|reflexivity].
  set (P := ls_type 1 past future). cbn [mbs_code]. split; [|eexists _, []; split; [symmetry; apply app_nil_r|]; split; [|reflexivity] ].
  - split; [cbn; lia|]. split; [unfold mb_in; cbn; lia|]. split; [now apply or_flat_ok|].
    split; [now intros|]. split; [exact Logic.I|]. split; [split; discriminate|]. split; [exact Logic.I|]. split; [exact Logic.I|]. cbn; lia.
  - exists (enc 1 1), (enc 1 1), [], [], flat_bits. split; [apply xs_incr1|]. split; [exists 1, 1; split; [cbn; auto | reflexivity]|].
    split; [reflexivity|]. split; [reflexivity|]. split; [|reflexivity]. now apply or_flat.
Qed.
Lemma or_b_code : forall past future, slice_code (ls_type 1 past future) or_b or_bbits.
Proof.
  intros past future. unfold slice_code, or_bbits, or_b, slice_bits. cbn [sl_row sl_q sl_flags sl_mbs sl_k].
  split; [lia|]. split; [cbn; lia|]. split; [lia|]. split; [discriminate|]. split; [exact Logic.I|]. eexists. split; [|reflexivity].
  set (P := ls_type 1 past future). cbn [mbs_code]. split; [|eexists _, []; split; [symmetry; apply app_nil_r|]; split; [|reflexivity] ].
  - split; [cbn; lia|]. split; [unfold mb_in; cbn; lia|]. split; [now apply or_flat_ok|].
    split; [now intros|]. split; [exact Logic.I|]. split; [split; discriminate|]. split; [exact Logic.I|]. split; [exact Logic.I|]. cbn; lia.
  - exists (enc 3 3), (enc 1 1), [], [], flat_bits. split; [apply xs_incr2|]. split; [exists 1, 1; split; [cbn; auto | reflexivity]|].
    split; [reflexivity|]. split; [reflexivity|]. split; [|reflexivity]. now apply or_flat.
Qed.
Definition or_slices : list sslice := [ls_i 0; or_a; or_b].
Definition or_cuts : cuts := [(true, slice_bits (ls_i 0) i_bits); (true, or_abits); (true, or_bbits)].
Definition or_f0 : canvas := picture_paint (ls_type 1 Unknown Unknown) or_slices.
Definition or_f1 : canvas := picture_paint (ls_type 2 (Is or_f0) Unknown) [ls_p 0; ls_p 1].
Definition or_pic (d : list bool) (f : canvas) : spicture := mkPicture (mkSpic 0 1 65535 (false, 7) (false, 7) []) 0 xs_pce 1 [] d f.
Definition or_I : spicture := or_pic (concat (map snd or_cuts)) or_f0.
Definition or_P : spicture := ls_pic 1 2 ls_p p_bits or_f1.
Definition or_I' : spicture := or_pic (concat [or_bbits; or_bbits; or_abits; slice_bits (ls_i 0) i_bits]) or_f0.
Definition or_group (start : option sstart) : lgroup := (mkGroup start (xs_gop true) 0 [] [or_I; or_P], [or_cuts; ls_cuts ls_p p_bits true]).
Definition or_mixed (start : option sstart) : sgroup := mkGroup start (xs_gop true) 0 [] [or_I'; or_P].

Lemma shuffled_refl : forall l, shuffled l l.
Proof. induction l; constructor; auto. Qed.
Lemma or_codes : forall past future, Forall2 (slice_code (ls_type 1 past future)) or_slices (map snd or_cuts).
Proof. intros. unfold or_slices, or_cuts. cbn [map snd]. constructor; [apply ls_i_code0|]. constructor; [apply or_a_code|]. constructor; [apply or_b_code | constructor]. Qed.
Lemma or_params : forall o l d f, params_of ls_ctx o l (or_pic d f) = ls_type 1 Unknown Unknown.
Proof. reflexivity. Qed.
Lemma or_params_P : forall o l f, params_of ls_ctx o l (ls_pic 1 2 ls_p p_bits f) = ls_type 2 l Unknown.
Proof. reflexivity. Qed.
Lemma or_cut : forall o l, picture_cut ls_ctx o l or_I or_cuts.
Proof.
  intros o l. unfold picture_cut, or_I. rewrite or_params. pose proof (or_codes Unknown Unknown) as F. split; [|split; [|split] ].
  - unfold picture_coded. rewrite or_params. repeat (split; [cbn; lia || exact Logic.I|]).
    split. { repeat split; cbn; lia. } split. { repeat split; cbn; lia. }
    repeat (split; [cbn; lia|]). split; [apply ls_params_ok; lia|]. exists or_slices. split; [|reflexivity].
    change (pi_data (or_pic (concat (map snd or_cuts)) or_f0)) with (concat (map snd or_cuts)). apply slices_of; [exact F | discriminate].
  - exists or_slices. split; [exact F | reflexivity].
  - reflexivity.
  - left. reflexivity.
Qed.
Lemma or_mix : forall o l, picture_mixed ls_ctx o l or_I or_cuts or_I'.
Proof.
  intros o l. exists or_slices, [(or_b, or_bbits); (or_b, or_bbits); (or_a, or_abits); (ls_i 0, slice_bits (ls_i 0) i_bits)].
  unfold or_I. rewrite or_params. split; [apply or_codes|]. split; [reflexivity|]. split; [|reflexivity]. cbn [or_slices or_cuts arriving].
  eapply shuffled_trans; [|apply shuffled_again].
  eapply shuffled_trans; [apply shuffled_swap|]; [apply C125_apart; left; cbn; lia|].
  eapply shuffled_trans; [apply shuffled_skip; apply shuffled_swap|]; [apply C125_apart; left; cbn; lia|].
  apply shuffled_swap. apply C125_apart. right. left. cbn. lia.
Qed.
Example C125_hyp : sequence_cut [or_group (Some ls_start); or_group None] /\ Forall whole_group [or_group (Some ls_start); or_group None] /\
  sequence_mixed [or_group (Some ls_start); or_group None] [or_mixed (Some ls_start); or_mixed None] /\
  firstn 32 (pi_data or_I') <> firstn 32 (pi_data or_I).
Proof.
  assert (WI : wf_picture or_I).
  { unfold wf_picture, or_I, or_pic. cbn [pi_hdr pi_pce pi_items pi_data p_type].
    split. { unfold wf_pic. cbn [p_tr p_type p_vbv p_forward p_backward p_extra snd]. change (2 ^ 10) with 1024. change (2 ^ 3) with 8. change (2 ^ 16) with 65536. repeat (split; [lia|]). constructor. }
    split. { repeat split; cbn; lia. } split; [constructor|]. split; [constructor|]. split; [lia|].
    apply (slices_shape _ _ _ (or_codes Unknown Unknown)). discriminate. }
  assert (WP : wf_picture or_P) by (apply ls_wf; [lia | lia | reflexivity | reflexivity]).
  assert (WG : forall st, match st with Some s => wf_start s | None => True end -> wf_group (fst (or_group st))).
  { intros st W. split; [exact W|]. split; [repeat split; cbn; lia|]. split; [constructor|]. split; [constructor|]. cbn [fst or_group gr_pics]. repeat (apply Forall_cons; [assumption|]). constructor. }
  assert (PK : forall o, picture_cut ls_ctx o (Is or_f0) or_P (ls_cuts ls_p p_bits true)).
  { intro o. apply (ls_cut o (Is or_f0) 1 2 ls_p p_bits true); [lia|]. intros r R. apply ls_p_code; [split; reflexivity | exact R]. }
  assert (PC : forall o l st, pictures_cut ls_ctx o l (pairs (or_group st))).
  { intros o l st. cbn [or_group pairs fst snd gr_pics combine pictures_cut]. cbv zeta. change (ctx_items ls_ctx (pi_items or_I)) with ls_ctx. change (ctx_items ls_ctx (pi_items or_P)) with ls_ctx.
    split; [apply or_cut|]. split; [|exact Logic.I]. apply PK. }
  assert (PM : forall o l st, pictures_mixed ls_ctx o l (pairs (or_group st)) (gr_pics (or_mixed st))).
  { intros o l st. cbn [or_group or_mixed pairs fst snd gr_pics combine pictures_mixed]. cbv zeta. change (ctx_items ls_ctx (pi_items or_I)) with ls_ctx. change (ctx_items ls_ctx (pi_items or_P)) with ls_ctx.
    split; [apply or_mix|]. split; [|exact Logic.I].
    exists [ls_p 0; ls_p 1], [(ls_p 0, slice_bits (ls_p 0) p_bits); (ls_p 1, slice_bits (ls_p 1) p_bits)].
    unfold or_P. rewrite or_params_P. split; [|split; [reflexivity|]; split; [apply shuffled_refl | reflexivity] ].
    cbn [ls_cuts map snd]. constructor; [apply ls_p_code0; split; reflexivity|]. constructor; [apply ls_p_code1; split; reflexivity | constructor]. }
  assert (AP : forall o l st, exists o' l', after_pictures ls_ctx o l (gr_pics (fst (or_group st))) = (ls_ctx, o', l')) by (intros; eexists _, _; reflexivity).
  split; [split; [|split] |split; [|split] ].
  - cbn [map]. destruct C118_hyp as ((WF & _) & _). cbn [ls_groups map] in WF. apply Forall_cons_iff in WF. destruct WF as [(WF & _) _].
    apply Forall_cons; [now apply WG | apply Forall_cons; [now apply WG | constructor] ].
  - cbn [map]. repeat (apply Forall_cons; [split; [reflexivity|]; eexists _, _; split; reflexivity|]). constructor.
  - cbn [groups_cut]. change (gr_start (fst (or_group (Some ls_start)))) with (Some ls_start). cbv iota. change (ctx_start ls_start) with ls_ctx.
    split; [reflexivity|]. split; [apply PC|]. destruct (AP Unknown Unknown (Some ls_start)) as (o & l & ->). change (gr_start (fst (or_group None))) with (@None sstart). cbv iota.
    split; [reflexivity|]. split; [apply PC|]. destruct (AP o l None) as (o' & l' & ->). exact Logic.I.
  - repeat constructor.
  - unfold sequence_mixed. cbn [groups_mixed]. change (gr_start (fst (or_group (Some ls_start)))) with (Some ls_start). cbv iota. change (ctx_start ls_start) with ls_ctx.
    repeat (split; [reflexivity|]). split; [apply PM|]. destruct (AP Unknown Unknown (Some ls_start)) as (o & l & ->). change (gr_start (fst (or_group None))) with (@None sstart). cbv iota.
    repeat (split; [reflexivity|]). split; [apply PM|]. destruct (AP o l None) as (o' & l' & ->). exact Logic.I.
  - lazy. discriminate.
Qed.

Print Assumptions C125_lost_and_mixed.
Print Assumptions C125_mixed.
Print Assumptions C125_apart.
