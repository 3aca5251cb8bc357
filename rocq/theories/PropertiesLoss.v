(** PropertiesLoss: C118 - slices that do not arrive. *)
From Coq Require Import Lia.
From Verif Require Import Base BitReader VidModel SpecVid SpecVlc SpecBlock SpecMotion SpecNext SpecPicture SpecLoss BlockModel MbModel NextProofs SliceProofs LossProofs ExampleStream PropertiesPes PropertiesVidHeaders.

(** A sequence of which any slices are lost, but never all those of a picture: Next returns as many frames as for the
    whole sequence, and then the end of the sequence; each frame shows its picture in all rows but those that
    [hurt_shown] lists, and zeros in the rows of which nothing arrived. *)
Theorem C118_lost_slices : forall k g gs rd, sequence_cut (g :: gs) ->
  exists imgs v',
    nexts (length (shown (map fst (g :: gs)))) (new_vidseq, setb rd (enc_sequence k (map thin_group (g :: gs)))) =
      (Ok imgs, (v', setb rd (code sequence_end_code))) /\
    Forall2 looks_but imgs (hurt_shown unhurt unhurt (g :: gs)) /\
    next (v', setb rd (code sequence_end_code)) = (Err EOS, (v', setb rd [])).
Proof.
  intros k g gs rd (W & V & C).
  destruct (groups_lose (g :: gs) None Unknown Unknown Unknown Unknown unhurt unhurt W V C Logic.I Logic.I) as (gs' & G1 & G2 & G3 & G4 & G5).
  destruct gs' as [|g' gs']; [inversion G1|].
  assert (EN : enc_sequence k (g' :: gs') = enc_sequence k (map thin_group (g :: gs))) by (unfold enc_sequence; now rewrite (enc_groups _ _ G1)).
  assert (EL : length (shown (g' :: gs')) = length (shown (map fst (g :: gs)))).
  { rewrite <- (shown_length _ unhurt unhurt _ _ _ C). unfold shown. rewrite map_length. clear - G5. induction G5; cbn; auto. }
  destruct (sequence_nexts k g' gs' rd (coded_valid _ (conj G2 (conj G3 G4)))) as (imgs & v' & N1 & N2 & N3).
  rewrite EN, EL in N1. exists imgs, v'. split; [exact N1|]. split; [|exact N3]. exact (looks_shows_all _ _ _ N2 G5).
Qed.

(** The frames that [hurt_shown] speaks of are those of the whole sequence. *)
Theorem C118_pictures : forall gs, sequence_cut gs ->
  map (fun h => pi_frame (hu_pic h)) (hurt_shown unhurt unhurt gs) = shown (map fst gs) /\ sequence_of picture_coded (map fst gs).
Proof.
  intros gs (W & V & C). split; [|split; [exact W|]; split; [exact V|]; exact (cut_coded _ _ _ _ C)].
  rewrite <- map_map. rewrite (hurt_shown_pics _ _ _ _ unhurt unhurt C). reflexivity.
Qed.

(** Losses do no harm for long: after a group that lost nothing, and as long as nothing is lost, the frames are right again. *)
Theorem C118_recovery : forall k gs1 g gs2 rd, sequence_cut (gs1 ++ g :: gs2) -> whole_group g -> Forall whole_group gs2 ->
  exists a b v',
    nexts (length (shown (map fst (gs1 ++ g :: gs2)))) (new_vidseq, setb rd (enc_sequence k (map thin_group (gs1 ++ g :: gs2)))) =
      (Ok (a ++ b), (v', setb rd (code sequence_end_code))) /\
    length a = length (shown (map fst (gs1 ++ [g]))) /\ Forall2 looks b (shown (map fst gs2)).
Proof.
  intros k gs1 g gs2 rd H W1 W2.
  assert (X : exists x xs, gs1 ++ g :: gs2 = x :: xs) by (destruct gs1; eexists _, _; reflexivity). destruct X as (x & xs & EX).
  pose proof H as (HW & HV & HC).
  destruct (whole_suffix gs1 g gs2 _ _ _ unhurt unhurt HC HV W1 W2) as (ha & hb & HS & B1 & B2 & B3).
  destruct (C118_pictures _ H) as (_ & CS).
  rewrite EX in *. destruct (C118_lost_slices k x xs rd H) as (imgs & v' & N1 & N2 & _).
  destruct (sequence_nexts 0 (fst x) (map fst xs) rd (coded_valid _ CS)) as (whole_imgs & vw & _ & M2 & _).
  rewrite HS in N2. apply Forall2_app_inv_r in N2. destruct N2 as (a & b & NA & NB & ->).
  exists a, b, v'. split; [exact N1|]. split.
  - unfold shown. rewrite map_length, <- B3, map_length. clear - NA. induction NA; cbn; auto.
  - unfold shown. rewrite <- B2.
    assert (RB : Forall (fun h => exists f, looks f (pi_frame (hu_pic h))) hb).
    { assert (R : Forall (fun c => exists f, looks f c) (shown (map fst (x :: xs)))) by (revert M2; cbn [map]; generalize (shown (fst x :: map fst xs)); intros cs M2; induction M2; constructor; eauto).
      pose proof (proj1 (C118_pictures _ H)) as EP. rewrite HS, map_app in EP. rewrite <- EP in R. apply Forall_app in R. destruct R as [_ R]. exact (proj1 (Forall_map _ _ _) R). }
    clear - NB B1 RB. induction NB as [|f h b hb H1 H2 IH]; [constructor|]. inversion B1; subst. inversion RB as [|? ? (f' & L) R2]; subst. cbn [map]. constructor; [now apply (looks_again _ f') | now apply IH].
Qed.

(** ** An example: pictures of 48 x 32 samples, of two rows with a slice each; three groups I P, of which the first loses
    the second slice of its I picture. *)
Definition ls_type (t : Z) (past future : known) : params := mkParams t xs_pce std_intra_matrix std_non_intra_matrix 48 32 past future.
Definition ls_i (r : Z) : sslice := mkSlice r 5 None i_mbs 0.
Definition ls_p (r : Z) : sslice := mkSlice r 5 (Some (false, [1; 2])) p_mbs 2.
Lemma ls_i_code0 : forall past future, slice_code (ls_type 1 past future) (ls_i 0) (slice_bits (ls_i 0) i_bits).
Proof.
  intros past future. unfold slice_code, ls_i, slice_bits. cbn [sl_row sl_q sl_flags sl_mbs sl_k].
  split; [lia|]. split; [cbn; lia|]. split; [lia|]. split; [discriminate|]. split; [exact I|]. eexists. split; [|reflexivity].
  unfold i_mbs, i_bits. set (P := ls_type 1 past future). cbn [mbs_code].
  split; [|eexists _, _; split; [reflexivity|]; split; [|split; [|eexists _, _; split; [reflexivity|]; split; [|split; [|eexists _, []; split; [symmetry; apply app_nil_r|]; split; [|reflexivity] ] ] ] ] ].
  - split; [cbn; lia|]. split; [unfold mb_in; cbn; lia|]. split.
    { cbn [body_ok b_body]. split; [reflexivity|]. split; [auto|].
      apply Forall_cons; [cbn; split; [lia|]; split; [apply Forall_cons; [cbn; lia | apply Forall_nil] | apply Nat.leb_le; reflexivity]|].
      repeat (apply Forall_cons; [cbn; split; [lia|]; split; [constructor | lia]|]). apply Forall_nil. }
    split; [now intros|]. split; [exact I|]. split; [split; discriminate|]. split; [exact I|]. split; [exact I|]. intros H; lia.
  - exists (enc 1 1), (enc 1 1), [], []. eexists. split; [apply xs_incr1|]. split; [exists 1, 1; split; [cbn; auto | reflexivity]|].
    split; [reflexivity|]. split; [reflexivity|]. split; [|reflexivity]. cbn [b_body body_code intra_code].
    exists (enc 2 1 ++ enc 2 3), ((enc 6 6 ++ [true]) ++ b14_eob). eexists. split; [rewrite <- !app_assoc; reflexivity|]. split.
    { exists 2, (enc 2 1). split; [split; [lia | has_tac]|]. cbn. split; [lia | reflexivity]. }
    split. { split; [discriminate|]. exists (enc 6 6 ++ [true]). split; [|reflexivity]. rewrite <- (app_nil_r (enc 6 6 ++ [true])). apply syms_cons; [|constructor].
      apply (code_vlc false false (enc 6 6) 1 (-2)). unfold dct_vlc. split; [lia|]. split; [lia|]. cbn -[enc]. eexists. split; [reflexivity | has_tac]. }
    exists dc0l, b14_eob. eexists. split; [reflexivity|]. split; [apply (xs_dc0 1); lia|]. split; [apply empty_from; lia|].
    exists dc0l, b14_eob. eexists. split; [reflexivity|]. split; [apply (xs_dc0 2); lia|]. split; [apply empty_from; lia|].
    exists dc0l, b14_eob. eexists. split; [reflexivity|]. split; [apply (xs_dc0 3); lia|]. split; [apply empty_from; lia|].
    exists dc0c, b14_eob. eexists. split; [reflexivity|]. split; [apply (xs_dc0 4); lia|]. split; [apply empty_from; lia|].
    exists dc0c, b14_eob, []. split; [reflexivity|]. split; [apply (xs_dc0 5); lia|]. split; [apply empty_from; lia|].
    reflexivity.
  - split; [cbn; lia|]. split; [unfold mb_in; cbn; lia|]. split; [now apply flat_ok|].
    split; [now intros|]. split; [exact I|]. split; [split; discriminate|]. split; [exact I|]. split; [exact I|]. cbn; lia.
  - exists (enc 1 1), (enc 1 1), [], [], flat_bits. split; [apply xs_incr1|]. split; [exists 1, 1; split; [cbn; auto | reflexivity]|].
    split; [reflexivity|]. split; [reflexivity|]. split; [|reflexivity]. now apply flat_code.
  - split; [cbn; lia|]. split; [unfold mb_in; cbn; lia|]. split; [now apply flat_ok|].
    split; [now intros|]. split; [exact I|]. split; [split; discriminate|]. split; [exact I|]. split; [exact I|]. cbn; lia.
  - exists (enc 1 1), (enc 1 1), [], [], flat_bits. split; [apply xs_incr1|]. split; [exists 1, 1; split; [cbn; auto | reflexivity]|].
    split; [reflexivity|]. split; [reflexivity|]. split; [|reflexivity]. now apply flat_code.
Qed.
Lemma ls_i_code1 : forall past future, slice_code (ls_type 1 past future) (ls_i 1) (slice_bits (ls_i 1) i_bits).
Proof.
  intros past future. unfold slice_code, ls_i, slice_bits. cbn [sl_row sl_q sl_flags sl_mbs sl_k].
  split; [lia|]. split; [cbn; lia|]. split; [lia|]. split; [discriminate|]. split; [exact I|]. eexists. split; [|reflexivity].
  unfold i_mbs, i_bits. set (P := ls_type 1 past future). cbn [mbs_code].
  split; [|eexists _, _; split; [reflexivity|]; split; [|split; [|eexists _, _; split; [reflexivity|]; split; [|split; [|eexists _, []; split; [symmetry; apply app_nil_r|]; split; [|reflexivity] ] ] ] ] ].
  - split; [cbn; lia|]. split; [unfold mb_in; cbn; lia|]. split.
    { cbn [body_ok b_body]. split; [reflexivity|]. split; [auto|].
      apply Forall_cons; [cbn; split; [lia|]; split; [apply Forall_cons; [cbn; lia | apply Forall_nil] | apply Nat.leb_le; reflexivity]|].
      repeat (apply Forall_cons; [cbn; split; [lia|]; split; [constructor | lia]|]). apply Forall_nil. }
    split; [now intros|]. split; [exact I|]. split; [split; discriminate|]. split; [exact I|]. split; [exact I|]. intros H; lia.
  - exists (enc 1 1), (enc 1 1), [], []. eexists. split; [apply xs_incr1|]. split; [exists 1, 1; split; [cbn; auto | reflexivity]|].
    split; [reflexivity|]. split; [reflexivity|]. split; [|reflexivity]. cbn [b_body body_code intra_code].
    exists (enc 2 1 ++ enc 2 3), ((enc 6 6 ++ [true]) ++ b14_eob). eexists. split; [rewrite <- !app_assoc; reflexivity|]. split.
    { exists 2, (enc 2 1). split; [split; [lia | has_tac]|]. cbn. split; [lia | reflexivity]. }
    split. { split; [discriminate|]. exists (enc 6 6 ++ [true]). split; [|reflexivity]. rewrite <- (app_nil_r (enc 6 6 ++ [true])). apply syms_cons; [|constructor].
      apply (code_vlc false false (enc 6 6) 1 (-2)). unfold dct_vlc. split; [lia|]. split; [lia|]. cbn -[enc]. eexists. split; [reflexivity | has_tac]. }
    exists dc0l, b14_eob. eexists. split; [reflexivity|]. split; [apply (xs_dc0 1); lia|]. split; [apply empty_from; lia|].
    exists dc0l, b14_eob. eexists. split; [reflexivity|]. split; [apply (xs_dc0 2); lia|]. split; [apply empty_from; lia|].
    exists dc0l, b14_eob. eexists. split; [reflexivity|]. split; [apply (xs_dc0 3); lia|]. split; [apply empty_from; lia|].
    exists dc0c, b14_eob. eexists. split; [reflexivity|]. split; [apply (xs_dc0 4); lia|]. split; [apply empty_from; lia|].
    exists dc0c, b14_eob, []. split; [reflexivity|]. split; [apply (xs_dc0 5); lia|]. split; [apply empty_from; lia|].
    reflexivity.
  - split; [cbn; lia|]. split; [unfold mb_in; cbn; lia|]. split; [now apply flat_ok|].
    split; [now intros|]. split; [exact I|]. split; [split; discriminate|]. split; [exact I|]. split; [exact I|]. cbn; lia.
  - exists (enc 1 1), (enc 1 1), [], [], flat_bits. split; [apply xs_incr1|]. split; [exists 1, 1; split; [cbn; auto | reflexivity]|].
    split; [reflexivity|]. split; [reflexivity|]. split; [|reflexivity]. now apply flat_code.
  - split; [cbn; lia|]. split; [unfold mb_in; cbn; lia|]. split; [now apply flat_ok|].
    split; [now intros|]. split; [exact I|]. split; [split; discriminate|]. split; [exact I|]. split; [exact I|]. cbn; lia.
  - exists (enc 1 1), (enc 1 1), [], [], flat_bits. split; [apply xs_incr1|]. split; [exists 1, 1; split; [cbn; auto | reflexivity]|].
    split; [reflexivity|]. split; [reflexivity|]. split; [|reflexivity]. now apply flat_code.
Qed.
Lemma ls_p_code0 : forall past future, cv_w past = 48 /\ cv_h past = 32 -> slice_code (ls_type 2 (Is past) future) (ls_p 0) (slice_bits (ls_p 0) p_bits).
Proof.
  intros past future (SW & SH). unfold slice_code, ls_p, slice_bits. cbn [sl_row sl_q sl_flags sl_mbs sl_k].
  split; [lia|]. split; [cbn; lia|]. split; [lia|]. split; [discriminate|]. split; [repeat (apply Forall_cons; [lia|]); apply Forall_nil|]. eexists. split; [|reflexivity].
  unfold p_mbs, p_bits. set (P := ls_type 2 (Is past) future). cbn [mbs_code].
  split; [|eexists _, _; split; [reflexivity|]; split; [|split; [|eexists _, []; split; [symmetry; apply app_nil_r|]; split; [|reflexivity] ] ] ].
  - split; [cbn; lia|]. split; [unfold mb_in; cbn; lia|]. split.
    { cbn [body_ok b_body]. split; [reflexivity|].
      repeat (apply Forall_cons; [cbn; first [exact I | split; [apply Forall_cons; [cbn; lia | apply Forall_nil] | apply Nat.leb_le; reflexivity] ]|]). apply Forall_nil. }
    split; [now intros|]. split; [exact I|]. split; [split; cbn; discriminate|]. split; [cbn -[vector_in]; six|]. split; [exact I|]. intros H; lia.
  - exists (enc 1 1), (enc 1 1), ((enc 3 1 ++ [false]) ++ enc 1 1), []. eexists. split; [apply xs_incr1|]. split; [exists 1, 1; split; [cbn; auto | reflexivity]|].
    split. { cbn [opt_vector b_forward]. exists (enc 3 1 ++ [false]), (enc 1 1). split; [reflexivity|]. split; [unfold mv_range, mv_f; cbn; lia|]. split; [unfold mv_range, mv_f; cbn; lia|].
      split; [apply (up_vector 0 2 (enc 3 1)); [lia | has_tac] | apply zero_vector]. }
    split; [reflexivity|]. split; [|reflexivity]. cbn [b_body body_code].
    exists (enc 7 20). eexists. split; [reflexivity|]. split; [split; [cbn; lia | has_tac]|].
    cbn [inter_code]. exists (([true] ++ [false]) ++ b14_eob). eexists. split; [rewrite <- !app_assoc; reflexivity|]. split; [apply one_first|].
    exists ((enc 4 5 ++ [true]) ++ b14_eob), []. split; [reflexivity|]. split; [apply two_first | reflexivity].
  - split; [cbn; lia|]. split; [unfold mb_in; cbn; lia|]. split; [exact I|].
    split; [now intros|]. split; [exact I|]. split; [split; cbn; discriminate|]. split; [cbn -[vector_in]; six|]. split; [exact I|]. intros _ _. split; [discriminate|]. split; [intros _; exists past; split; [reflexivity | split; assumption] | intro H; discriminate H].
  - exists (enc 3 3), (enc 3 1), ((enc 3 1 ++ [true]) ++ enc 1 1), [], []. split; [apply xs_incr2|]. split; [exists 1, 3; split; [cbn; auto | reflexivity]|].
    split. { cbn [opt_vector b_forward]. exists (enc 3 1 ++ [true]), (enc 1 1). split; [reflexivity|]. split; [unfold mv_range, mv_f; cbn; lia|]. split; [unfold mv_range, mv_f; cbn; lia|].
      split; [apply (down_vector 0 2 (enc 3 1)); [lia | has_tac] | apply zero_vector]. }
    split; [reflexivity|]. split; reflexivity.
Qed.
Lemma ls_p_code1 : forall past future, cv_w past = 48 /\ cv_h past = 32 -> slice_code (ls_type 2 (Is past) future) (ls_p 1) (slice_bits (ls_p 1) p_bits).
Proof.
  intros past future (SW & SH). unfold slice_code, ls_p, slice_bits. cbn [sl_row sl_q sl_flags sl_mbs sl_k].
  split; [lia|]. split; [cbn; lia|]. split; [lia|]. split; [discriminate|]. split; [repeat (apply Forall_cons; [lia|]); apply Forall_nil|]. eexists. split; [|reflexivity].
  unfold p_mbs, p_bits. set (P := ls_type 2 (Is past) future). cbn [mbs_code].
  split; [|eexists _, _; split; [reflexivity|]; split; [|split; [|eexists _, []; split; [symmetry; apply app_nil_r|]; split; [|reflexivity] ] ] ].
  - split; [cbn; lia|]. split; [unfold mb_in; cbn; lia|]. split.
    { cbn [body_ok b_body]. split; [reflexivity|].
      repeat (apply Forall_cons; [cbn; first [exact I | split; [apply Forall_cons; [cbn; lia | apply Forall_nil] | apply Nat.leb_le; reflexivity] ]|]). apply Forall_nil. }
    split; [now intros|]. split; [exact I|]. split; [split; cbn; discriminate|]. split; [cbn -[vector_in]; six|]. split; [exact I|]. intros H; lia.
  - exists (enc 1 1), (enc 1 1), ((enc 3 1 ++ [false]) ++ enc 1 1), []. eexists. split; [apply xs_incr1|]. split; [exists 1, 1; split; [cbn; auto | reflexivity]|].
    split. { cbn [opt_vector b_forward]. exists (enc 3 1 ++ [false]), (enc 1 1). split; [reflexivity|]. split; [unfold mv_range, mv_f; cbn; lia|]. split; [unfold mv_range, mv_f; cbn; lia|].
      split; [apply (up_vector 0 2 (enc 3 1)); [lia | has_tac] | apply zero_vector]. }
    split; [reflexivity|]. split; [|reflexivity]. cbn [b_body body_code].
    exists (enc 7 20). eexists. split; [reflexivity|]. split; [split; [cbn; lia | has_tac]|].
    cbn [inter_code]. exists (([true] ++ [false]) ++ b14_eob). eexists. split; [rewrite <- !app_assoc; reflexivity|]. split; [apply one_first|].
    exists ((enc 4 5 ++ [true]) ++ b14_eob), []. split; [reflexivity|]. split; [apply two_first | reflexivity].
  - split; [cbn; lia|]. split; [unfold mb_in; cbn; lia|]. split; [exact I|].
    split; [now intros|]. split; [exact I|]. split; [split; cbn; discriminate|]. split; [cbn -[vector_in]; six|]. split; [exact I|]. intros _ _. split; [discriminate|]. split; [intros _; exists past; split; [reflexivity | split; assumption] | intro H; discriminate H].
  - exists (enc 3 3), (enc 3 1), ((enc 3 1 ++ [true]) ++ enc 1 1), [], []. split; [apply xs_incr2|]. split; [exists 1, 3; split; [cbn; auto | reflexivity]|].
    split. { cbn [opt_vector b_forward]. exists (enc 3 1 ++ [true]), (enc 1 1). split; [reflexivity|]. split; [unfold mv_range, mv_f; cbn; lia|]. split; [unfold mv_range, mv_f; cbn; lia|].
      split; [apply (down_vector 0 2 (enc 3 1)); [lia | has_tac] | apply zero_vector]. }
    split; [reflexivity|]. split; reflexivity.
Qed.
Lemma ls_i_code : forall past future r, r = 0 \/ r = 1 -> slice_code (ls_type 1 past future) (ls_i r) (slice_bits (ls_i r) i_bits).
Proof. intros past future r [-> | ->]; [apply ls_i_code0 | apply ls_i_code1]. Qed.
Lemma ls_p_code : forall past future r, cv_w past = 48 /\ cv_h past = 32 -> r = 0 \/ r = 1 -> slice_code (ls_type 2 (Is past) future) (ls_p r) (slice_bits (ls_p r) p_bits).
Proof. intros past future r H [-> | ->]; [now apply ls_p_code0 | now apply ls_p_code1]. Qed.
Definition ls_seq : sseq := mkSseq 48 32 2 3 20000 112 false None None.
Definition ls_start : sstart := mkStart ls_seq 1 xs_sext 0 [XUser [1; 2; 3] ].
Definition ls_ctx : context := mkCtx ls_seq xs_sext std_intra_matrix std_non_intra_matrix std_intra_matrix std_non_intra_matrix.
Definition ls_cuts (s : Z -> sslice) (bits : list bool) (both : bool) : cuts := [(true, slice_bits (s 0) bits); (both, slice_bits (s 1) bits)].
Definition ls_pic (tr t : Z) (s : Z -> sslice) (bits : list bool) (f : canvas) : spicture :=
  mkPicture (mkSpic tr t 65535 (false, 7) (false, 7) []) 0 xs_pce 1 [] (concat (map snd (ls_cuts s bits true))) f.
Definition ls_f0 : canvas := picture_paint (ls_type 1 Unknown Unknown) [ls_i 0; ls_i 1].
Definition ls_f1 : canvas := picture_paint (ls_type 2 (Is ls_f0) Unknown) [ls_p 0; ls_p 1].
Definition ls_I : spicture := ls_pic 0 1 ls_i i_bits ls_f0.
Definition ls_P : spicture := ls_pic 1 2 ls_p p_bits ls_f1.
Definition ls_group (start : option sstart) (both : bool) : lgroup :=
  (mkGroup start (xs_gop true) 0 [] [ls_I; ls_P], [ls_cuts ls_i i_bits both; ls_cuts ls_p p_bits true]).
Definition ls_groups : list lgroup := [ls_group (Some ls_start) false; ls_group None true; ls_group None true].

Lemma ls_params_ok : forall t past future, 1 <= t <= 3 -> params_ok (ls_type t past future).
Proof. intros t past future Ht. exact (xs_params_ok t past future Ht). Qed.
Lemma ls_cut : forall o l tr t s bits both, 1 <= t <= 2 ->
  let P := ls_type t (if t =? 2 then l else Unknown) Unknown in
  (forall r, r = 0 \/ r = 1 -> slice_code P (s r) (slice_bits (s r) bits)) ->
  picture_cut ls_ctx o l (ls_pic tr t s bits (picture_paint P [s 0; s 1])) (ls_cuts s bits both).
Proof.
  intros o l tr t s bits both Ht P S. pose proof (S 0 (or_introl eq_refl)) as S0. pose proof (S 1 (or_intror eq_refl)) as S1.
  assert (E : params_of ls_ctx o l (ls_pic tr t s bits (picture_paint P [s 0; s 1])) = P) by (unfold P, ls_type, params_of; cbn [ls_pic pi_hdr p_type pi_pce]; replace (t =? 3) with false by lia; reflexivity).
  unfold picture_cut. rewrite E. split; [|split; [|split] ].
  - unfold picture_coded. rewrite E. repeat (split; [cbn; lia || exact Logic.I|]).
    split. { repeat split; cbn; lia. } split. { repeat split; cbn; lia. }
    repeat (split; [cbn; lia|]). split; [apply ls_params_ok; lia|]. exists [s 0; s 1]. split; [|reflexivity].
    cbn [ls_pic pi_data ls_cuts map snd concat]. constructor; [exact S0|]. rewrite app_nil_r. now constructor.
  - exists [s 0; s 1]. split; [|reflexivity]. cbn [ls_cuts map snd]. constructor; [exact S0|]. constructor; [exact S1 | constructor].
  - reflexivity.
  - left. reflexivity.
Qed.
Lemma ls_wf : forall tr t s bits f, 0 <= tr < 1024 -> 1 <= t <= 3 -> firstn 32 (concat (map snd (ls_cuts s bits true))) = code 1 -> (length (skipn 32 (concat (map snd (ls_cuts s bits true)))) mod 8 = 0)%nat ->
  wf_picture (ls_pic tr t s bits f).
Proof.
  intros tr t s bits f H1 H2 H3 H4. unfold wf_picture, ls_pic. cbn [pi_hdr pi_pce pi_items pi_data p_type].
  split. { unfold wf_pic. cbn [p_tr p_type p_vbv p_forward p_backward p_extra snd]. change (2 ^ 10) with 1024. change (2 ^ 3) with 8. change (2 ^ 16) with 65536. repeat (split; [lia|]). constructor. }
  split. { repeat split; cbn; lia. } split; [constructor|]. split; [constructor|]. split; [exact H2|].
  exists 1, (skipn 32 (concat (map snd (ls_cuts s bits true)))). split; [rewrite <- H3; symmetry; apply firstn_skipn|]. split; [lia | exact H4].
Qed.
Example C118_hyp : sequence_cut ls_groups /\ lost (ls_cuts ls_i i_bits false) 1 /\ gone (ls_cuts ls_i i_bits false) 1 /\ whole_group (ls_group None true).
Proof.
  assert (WI : wf_picture ls_I) by (apply ls_wf; [lia | lia | reflexivity | reflexivity]).
  assert (WP : wf_picture ls_P) by (apply ls_wf; [lia | lia | reflexivity | reflexivity]).
  assert (WG : forall st both, match st with Some s => wf_start s | None => True end -> wf_group (fst (ls_group st both))).
  { intros st both W. split; [exact W|]. split; [repeat split; cbn; lia|]. split; [constructor|]. split; [constructor|]. cbn [fst ls_group gr_pics]. repeat (apply Forall_cons; [assumption|]). constructor. }
  assert (PC : forall o l both, pictures_cut ls_ctx o l (pairs (ls_group None both))).
  { intros o l both. cbn [ls_group pairs fst snd gr_pics combine pictures_cut]. cbv zeta. change (ctx_items ls_ctx (pi_items ls_I)) with ls_ctx. change (ctx_items ls_ctx (pi_items ls_P)) with ls_ctx.
    split; [apply (ls_cut o l 0 1 ls_i i_bits both); [lia | intros r R; now apply ls_i_code]|]. split; [|exact Logic.I].
    apply (ls_cut _ (Is ls_f0) 1 2 ls_p p_bits true); [lia|]. intros r R. apply ls_p_code; [split; reflexivity | exact R]. }
  split; [split; [|split] |split; [|split] ].
  - cbn [ls_groups map]. apply Forall_cons; [|repeat (apply Forall_cons; [now apply WG|]); constructor]. apply WG.
    split. { repeat split; cbn; try lia; exact Logic.I. } split. { repeat split; cbn; lia. } split; [repeat constructor|].
    apply Forall_cons; [|apply Forall_nil]. split; [byte_list | no_prefix_tac].
  - cbn [ls_groups map]. repeat (apply Forall_cons; [split; [reflexivity|]; eexists _, _; split; reflexivity|]). constructor.
  - cbn [ls_groups groups_cut]. change (gr_start (fst (ls_group (Some ls_start) false))) with (Some ls_start). cbv iota. change (ctx_start ls_start) with ls_ctx.
    split; [reflexivity|]. split; [apply (PC Unknown Unknown false)|]. cbn [ls_group fst gr_pics after_pictures]. change (gr_start (fst (ls_group None true))) with (@None sstart). cbv iota.
    change (ctx_items ls_ctx (pi_items ls_I)) with ls_ctx. change (ctx_items ls_ctx (pi_items ls_P)) with ls_ctx.
    split; [reflexivity|]. split; [apply PC|]. cbn [ls_group fst gr_pics after_pictures gr_start]. cbv iota.
    change (ctx_items ls_ctx (pi_items ls_I)) with ls_ctx. change (ctx_items ls_ctx (pi_items ls_P)) with ls_ctx. split; [reflexivity|]. split; [apply PC | exact Logic.I].
  - exists (slice_bits (ls_i 1) i_bits). split; [right; left; reflexivity|]. eexists. unfold slice_bits, stuffed. rewrite <- !app_assoc. reflexivity.
  - intros c [X|[X|[] ] ]; [|discriminate X]. injection X as <-. intros [t T]. apply (f_equal (firstn 32)) in T. rewrite firstn_app in T. vm_compute in T. discriminate T.
  - repeat constructor.
Qed.

Print Assumptions C118_lost_slices.
Print Assumptions C118_pictures.
Print Assumptions C118_recovery.
