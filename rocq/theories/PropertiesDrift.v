(** PropertiesDrift: C91 - how far the frames returned by Next may be from those of the standard. *)
From Coq Require Import Lia.
From Verif Require Import Base BitReader VidModel SpecVid SpecVlc SpecBlock SpecMotion SpecNext SpecPicture SpecDrift BlockModel PropertiesPes PropertiesVidHeaders.
From Verif Require Import MbModel SliceProofs NextProofs ExampleStream DriftProofs PropertiesNext.

(** The frame [f] and the picture [q] of the standard differ by at most [e] in every sample of the plane *)
Definition luma_within (e : Z) (f : image) (q : canvas) : Prop :=
  im_w f = cv_w q /\ im_h f = cv_h q /\ forall x y, 0 <= x < cv_w q -> 0 <= y < cv_h q -> Z.abs (luma f x y - cv_y q x y) <= e.
Definition chroma_within (e : Z) (f : image) (q : canvas) : Prop :=
  forall x y, 0 <= x < cv_w q / 2 -> 0 <= y < cv_h q / 2 -> Z.abs (blue f x y - cv_b q x y) <= e /\ Z.abs (red f x y - cv_r q x y) <= e.

Lemma f2_length : forall A B (R : A -> B -> Prop) l m, Forall2 R l m -> length l = length m.
Proof. intros A B R l m H. induction H; cbn; congruence. Qed.
Lemma drift_hdr : forall n p q, pi_hdr q = pi_hdr p -> drift n q = drift n p.
Proof. intros n p q H. unfold drift. now rewrite H. Qed.
Lemma close_images : forall (R : spicture -> spicture -> Prop) (S : image -> spicture -> Prop) imgs ps qs,
  (forall f p q, looks f (pi_frame p) -> R p q -> S f q) -> Forall2 looks imgs (map pi_frame ps) -> Forall2 R ps qs -> Forall2 S imgs qs.
Proof.
  intros R S imgs ps qs RS H1 H2. revert imgs H1. induction H2 as [|p q ps qs H HH IH]; intros imgs H1; cbn [map] in H1; inversion H1; subst; constructor.
  - eapply RS; eassumption.
  - now apply IH.
Qed.

(** ** C91: luma.  For every coded sequence, the frames Next returns and the pictures the standard makes of the same data - whatever the
    vectors - differ in no luma sample of an I picture, in a P picture by at most the number of P pictures since the I picture, and in a B
    picture by two more. *)
Theorem C91_luma : forall k g gs hs n rd, sequence_of picture_coded (g :: gs) -> standard_of (fun _ => True) (g :: gs) hs ->
  0 <= n -> Forall (fun g => within n 0 (gr_pics g)) (g :: gs) ->
  exists imgs v',
    nexts (length (displayed hs)) (new_vidseq, setb rd (enc_sequence k (g :: gs))) = (Ok imgs, (v', setb rd (code sequence_end_code))) /\
    Forall2 (fun f q => luma_within (drift n q) f (pi_frame q)) imgs (displayed hs) /\
    next (v', setb rd (code sequence_end_code)) = (Err EOS, (v', setb rd [])).
Proof.
  intros k g gs hs n rd S T Hn W. destruct (C73_sequences k g gs rd S) as (imgs & v' & H1 & H2 & H3). destruct S as (S1 & S2 & S3).
  assert (C : Forall2 (pclose 0 n) (displayed (g :: gs)) (displayed hs)).
  { apply (groups_close 0 (fun _ => True) n (g :: gs) hs None Unknown Unknown Unknown Unknown); auto; [now left | intros; left; lia | exact I | exact I]. }
  exists imgs, v'. split; [|split; [|exact H3] ].
  - rewrite <- (f2_length _ _ _ _ _ C). unfold displayed. unfold shown in H1. rewrite map_length in H1. exact H1.
  - eapply close_images; [|exact H2 | exact C]. intros f p q (_ & L1 & L2 & L3 & _) (E & C1 & C2 & C3). rewrite (drift_hdr n p q E).
    split; [congruence|]. split; [congruence|]. intros x y Hx Hy. rewrite <- C1 in Hx. rewrite <- C2 in Hy. destruct (L3 x y Hx Hy) as (-> & _).
    assert (B := C3 x y). unfold plane_w, plane_h, csample in B. cbn in B. specialize (B Hx Hy). lia.
Qed.

(** Chroma: the same where no component of a vector is negative and odd. *)
Theorem C91_chroma : forall k g gs hs n rd, sequence_of picture_coded (g :: gs) -> standard_of vectors_halve (g :: gs) hs ->
  0 <= n -> Forall (fun g => within n 0 (gr_pics g)) (g :: gs) ->
  exists imgs v',
    nexts (length (displayed hs)) (new_vidseq, setb rd (enc_sequence k (g :: gs))) = (Ok imgs, (v', setb rd (code sequence_end_code))) /\
    Forall2 (fun f q => chroma_within (drift n q) f (pi_frame q)) imgs (displayed hs).
Proof.
  intros k g gs hs n rd S T Hn W. destruct (C73_sequences k g gs rd S) as (imgs & v' & H1 & H2 & H3). destruct S as (S1 & S2 & S3).
  assert (C4 : Forall2 (pclose 4 n) (displayed (g :: gs)) (displayed hs)).
  { apply (groups_close 4 vectors_halve n (g :: gs) hs None Unknown Unknown Unknown Unknown); auto; [right; now left | exact I | exact I]. }
  assert (C5 : Forall2 (pclose 5 n) (displayed (g :: gs)) (displayed hs)).
  { apply (groups_close 5 vectors_halve n (g :: gs) hs None Unknown Unknown Unknown Unknown); auto; [right; now right | exact I | exact I]. }
  exists imgs, v'. split.
  - rewrite <- (f2_length _ _ _ _ _ C4). unfold displayed. unfold shown in H1. rewrite map_length in H1. exact H1.
  - assert (B4 : Forall2 (fun f q => forall x y, 0 <= x < cv_w (pi_frame q) / 2 -> 0 <= y < cv_h (pi_frame q) / 2 -> Z.abs (blue f x y - cv_b (pi_frame q) x y) <= drift n q) imgs (displayed hs)).
    { eapply close_images; [|exact H2 | exact C4]. intros f p q (_ & _ & _ & _ & L & _) (E & A1 & A2 & A3). rewrite (drift_hdr n p q E).
      intros x y Hx Hy. rewrite <- A1 in Hx. rewrite <- A2 in Hy. destruct (L x y Hx Hy) as (-> & _).
      assert (B := A3 x y). unfold plane_w, plane_h, csample in B. cbn in B. specialize (B Hx Hy). lia. }
    assert (B5 : Forall2 (fun f q => forall x y, 0 <= x < cv_w (pi_frame q) / 2 -> 0 <= y < cv_h (pi_frame q) / 2 -> Z.abs (red f x y - cv_r (pi_frame q) x y) <= drift n q) imgs (displayed hs)).
    { eapply close_images; [|exact H2 | exact C5]. intros f p q (_ & _ & _ & _ & _ & L) (E & A1 & A2 & A3). rewrite (drift_hdr n p q E).
      intros x y Hx Hy. rewrite <- A1 in Hx. rewrite <- A2 in Hy. destruct (L x y Hx Hy) as (-> & _).
      assert (B := A3 x y). unfold plane_w, plane_h, csample in B. cbn in B. specialize (B Hx Hy). lia. }
    clear - B4 B5. induction B4 as [|f q fs qs H HH IH]; inversion B5; subst; constructor; [|auto]. intros x y Hx Hy. auto.
Qed.

(** Every coded sequence has the standard's pictures. *)
Theorem C91_standard_exists : forall gs, sequence_of picture_coded gs -> exists hs, standard_of (fun _ => True) gs hs.
Proof. intros gs (_ & _ & H). now apply groups_std_exist. Qed.

(** The sequence of ExampleStream meets the hypotheses, with one P picture after each I picture. *)
Example C91_hyp : sequence_of picture_coded xs_groups /\ (exists hs, standard_of (fun _ => True) xs_groups hs) /\
  Forall (fun g => within 1 0 (gr_pics g)) xs_groups.
Proof.
  split; [exact xs_groups_coded|]. split; [apply C91_standard_exists, xs_groups_coded|].
  apply Forall_cons; [|apply Forall_cons; [|apply Forall_nil] ]; vm_compute; repeat split; discriminate.
Qed.

(** * A sequence in which the difference grows with every P picture.
    48 x 16 samples.  Flat luma blocks 128 128 | 129 130 | 130 130; then two P pictures of half-sample vectors only. *)
Definition d_block : list (Z * list (Z * Z)) := [(129, []); (130, []); (129, []); (130, []); (128, []); (128, [])].
Definition di_mbs : list smb := [
  mkMb 1 None None None (Intra false (flat 128 128 128)); mkMb 1 None None None (Intra false d_block); mkMb 1 None None None (Intra false (flat 130 128 128))].
Definition up1 : list bool := enc 2 0 ++ enc 1 1.
Definition dn1 : list bool := enc 2 0 ++ enc 1 0.
Definition d_bits : list bool := (up1 ++ b14_eob) ++ (up1 ++ b14_eob) ++ (dn1 ++ b14_eob) ++ (up1 ++ b14_eob) ++ (dc0c ++ b14_eob) ++ (dc0c ++ b14_eob).
Definition di_bits : list bool := (enc 1 1 ++ enc 1 1 ++ flat_bits) ++ (enc 1 1 ++ enc 1 1 ++ d_bits) ++ (enc 1 1 ++ enc 1 1 ++ flat_bits).
Definition di_slice : sslice := mkSlice 0 5 None di_mbs 0.
Definition move (v : Z) : smb := mkMb 1 None (Some (v, 0)) None NotCoded.
Definition dp_slice (u v : Z) : sslice := mkSlice 0 5 None [move u; move v; move 0] 0.
Definition mv_bits (c : list bool) : list bool := enc 1 1 ++ enc 3 1 ++ (c ++ enc 1 1).
Definition dp_bits (c1 c2 c3 : list bool) : list bool := mv_bits c1 ++ mv_bits c2 ++ mv_bits c3.
Definition bits1 : list bool := dp_bits (enc 2 1 ++ [false]) (enc 10 14 ++ [false]) (enc 10 13 ++ [true]).
Definition bits2 : list bool := dp_bits (enc 2 1 ++ [false]) (enc 1 1) (enc 2 1 ++ [true]).

Lemma flat_code_at : forall y P p, y = 128 \/ y = 130 -> e_vlc (pp_pce P) = false -> p 0%nat = y -> p 1%nat = 128 -> p 2%nat = 128 ->
  intra_code P p 0 (flat y 128 128) flat_bits.
Proof.
  intros y P p Y V H0 H1 H2. destruct Y as [-> | ->]; cbn [intra_code flat]; rewrite V; unfold flat_bits.
  all: exists dc0l, b14_eob; eexists; split; [rewrite <- !app_assoc; reflexivity|]; cbn [component]; rewrite H0; split; [apply (xs_dc0 0); lia|]; split; [apply empty_from; lia|].
  all: exists dc0l, b14_eob; eexists; split; [reflexivity|]; split; [apply (xs_dc0 1); lia|]; split; [apply empty_from; lia|].
  all: exists dc0l, b14_eob; eexists; split; [reflexivity|]; split; [apply (xs_dc0 2); lia|]; split; [apply empty_from; lia|].
  all: exists dc0l, b14_eob; eexists; split; [reflexivity|]; split; [apply (xs_dc0 3); lia|]; split; [apply empty_from; lia|].
  all: exists dc0c, b14_eob; eexists; split; [reflexivity|]; change (set_dc _ _ _ 1%nat) with (p 1%nat); rewrite H1; split; [apply (xs_dc0 4); lia|]; split; [apply empty_from; lia|].
  all: exists dc0c, b14_eob, []; split; [reflexivity|]; change (set_dc _ _ _ 2%nat) with (p 2%nat); rewrite H2; split; [apply (xs_dc0 5); lia|]; split; [apply empty_from; lia|].
  all: reflexivity.
Qed.
Lemma up1_code : dc_code true up1 1.
Proof. exists 1, (enc 2 0). split; [split; [lia | has_tac] | cbn; split; [lia | reflexivity] ]. Qed.
Lemma dn1_code : dc_code true dn1 (-1).
Proof. exists 1, (enc 2 0). split; [split; [lia | has_tac] | cbn; split; [lia | reflexivity] ]. Qed.
Lemma d_code : forall P p, e_vlc (pp_pce P) = false -> p 0%nat = 128 -> p 1%nat = 128 -> p 2%nat = 128 -> intra_code P p 0 d_block d_bits.
Proof.
  intros P p V H0 H1 H2. cbn [intra_code d_block]. rewrite V. unfold d_bits.
  exists up1, b14_eob. eexists. split; [rewrite <- !app_assoc; reflexivity|]. cbn [component]. rewrite H0. split; [apply up1_code|]. split; [apply empty_from; lia|].
  exists up1, b14_eob. eexists. split; [reflexivity|]. split; [apply up1_code|]. split; [apply empty_from; lia|].
  exists dn1, b14_eob. eexists. split; [reflexivity|]. split; [apply dn1_code|]. split; [apply empty_from; lia|].
  exists up1, b14_eob. eexists. split; [reflexivity|]. split; [apply up1_code|]. split; [apply empty_from; lia|].
  exists dc0c, b14_eob. eexists. split; [reflexivity|]. change (set_dc _ _ _ 1%nat) with (p 1%nat). rewrite H1. split; [apply (xs_dc0 4); lia|]. split; [apply empty_from; lia|].
  exists dc0c, b14_eob, []. split; [reflexivity|]. change (set_dc _ _ _ 2%nat) with (p 2%nat). rewrite H2. split; [apply (xs_dc0 5); lia|]. split; [apply empty_from; lia|].
  reflexivity.
Qed.
Lemma intra_ok : forall P l, e_fpfd (pp_pce P) = true -> e_dc (pp_pce P) = 0 -> length l = 6%nat -> Forall (fun b => 0 <= fst b < 256 /\ snd b = []) l -> body_ok P (Intra false l).
Proof.
  intros P l H1 H2 H3 H4. cbn [body_ok]. rewrite H2. split; [exact H3|]. split; [auto|]. eapply Forall_impl; [|exact H4].
  intros (a & b) (A & B). cbn [fst snd] in *. subst b. cbn. split; [lia|]. split; [constructor | lia].
Qed.
Ltac flat_tac := apply intra_ok; [reflexivity | reflexivity | reflexivity | repeat (apply Forall_cons; [cbn; split; [lia | reflexivity]|]); apply Forall_nil].
Lemma di_slice_code : forall past future, slice_code (xs_type 1 past future) di_slice (slice_bits di_slice di_bits).
Proof.
  intros past future. unfold slice_code, di_slice, slice_bits. cbn [sl_row sl_q sl_flags sl_mbs sl_k].
  split; [lia|]. split; [cbn; lia|]. split; [lia|]. split; [discriminate|]. split; [exact I|]. eexists. split; [|reflexivity].
  unfold di_mbs, di_bits. set (P := xs_type 1 past future). cbn [mbs_code].
  split; [|eexists _, _; split; [reflexivity|]; split; [|split; [|eexists _, _; split; [reflexivity|]; split; [|split; [|eexists _, []; split; [symmetry; apply app_nil_r|]; split; [|reflexivity] ] ] ] ] ].
  - split; [cbn; lia|]. split; [unfold mb_in; cbn; lia|]. split; [flat_tac|].
    split; [now intros|]. split; [exact I|]. split; [split; discriminate|]. split; [exact I|]. split; [exact I|]. intros H; lia.
  - exists (enc 1 1), (enc 1 1), [], [], flat_bits. split; [apply xs_incr1|]. split; [exists 1, 1; split; [cbn; auto | reflexivity]|].
    split; [reflexivity|]. split; [reflexivity|]. split; [|reflexivity]. apply flat_code_at; auto.
  - split; [cbn; lia|]. split; [unfold mb_in; cbn; lia|]. split; [flat_tac|].
    split; [now intros|]. split; [exact I|]. split; [split; discriminate|]. split; [exact I|]. split; [exact I|]. cbn; lia.
  - exists (enc 1 1), (enc 1 1), [], [], d_bits. split; [apply xs_incr1|]. split; [exists 1, 1; split; [cbn; auto | reflexivity]|].
    split; [reflexivity|]. split; [reflexivity|]. split; [|reflexivity]. now apply d_code.
  - split; [cbn; lia|]. split; [unfold mb_in; cbn; lia|]. split; [flat_tac|].
    split; [now intros|]. split; [exact I|]. split; [split; discriminate|]. split; [exact I|]. split; [exact I|]. cbn; lia.
  - exists (enc 1 1), (enc 1 1), [], [], flat_bits. split; [apply xs_incr1|]. split; [exists 1, 1; split; [cbn; auto | reflexivity]|].
    split; [reflexivity|]. split; [reflexivity|]. split; [|reflexivity]. apply flat_code_at; auto.
Qed.
Lemma same_vector : forall p, vector_code 1 p p (enc 1 1).
Proof. intro p. exists 0, 0. split; [apply delta_zero; left; split; [reflexivity | has_tac] | lia]. Qed.
Ltac move_in := split; [cbn; lia|]; split; [unfold mb_in; cbn; lia|]; split; [exact I|];
  split; [now intros|]; split; [exact I|]; split; [split; cbn; discriminate|]; split; [cbn -[vector_in]; six|]; split; [exact I|]; cbn; intros; lia.
Ltac move_code c t := exists (enc 1 1), (enc 3 1), (c ++ enc 1 1), [], []; split; [apply xs_incr1|]; split; [exists 1, 3; split; [cbn; auto | reflexivity]|];
  split; [cbn [opt_vector b_forward move]; exists c, (enc 1 1); split; [reflexivity|]; split; [unfold mv_range, mv_f; cbn; lia|]; split; [unfold mv_range, mv_f; cbn; lia|];
      split; [t | apply zero_vector] |]; split; [reflexivity|]; split; reflexivity.
Ltac three := eexists _, _; split; [reflexivity|]; split; [|split; [|eexists _, _; split; [reflexivity|]; split; [|split; [|eexists _, []; split; [symmetry; apply app_nil_r|]; split; [|reflexivity] ] ] ] ].
Lemma dp1_slice_code : forall past future, sized past -> slice_code (xs_type 2 (Is past) future) (dp_slice 1 15) (slice_bits (dp_slice 1 15) bits1).
Proof.
  intros past future (SW & SH). unfold slice_code, dp_slice, slice_bits. cbn [sl_row sl_q sl_flags sl_mbs sl_k].
  split; [lia|]. split; [cbn; lia|]. split; [lia|]. split; [discriminate|]. split; [exact I|]. eexists. split; [|reflexivity].
  unfold bits1, dp_bits, mv_bits. set (P := xs_type 2 (Is past) future). cbn [mbs_code]. split; [move_in | three].
  - move_code (enc 2 1 ++ [false]) ltac:(apply (up_vector 0 1 (enc 2 1)); [lia | has_tac]).
  - move_in.
  - move_code (enc 10 14 ++ [false]) ltac:(apply (up_vector 1 14 (enc 10 14)); [lia | has_tac]).
  - move_in.
  - move_code (enc 10 13 ++ [true]) ltac:(apply (down_vector 15 15 (enc 10 13)); [lia | has_tac]).
Qed.
Lemma dp2_slice_code : forall past future, sized past -> slice_code (xs_type 2 (Is past) future) (dp_slice 1 1) (slice_bits (dp_slice 1 1) bits2).
Proof.
  intros past future (SW & SH). unfold slice_code, dp_slice, slice_bits. cbn [sl_row sl_q sl_flags sl_mbs sl_k].
  split; [lia|]. split; [cbn; lia|]. split; [lia|]. split; [discriminate|]. split; [exact I|]. eexists. split; [|reflexivity].
  unfold bits2, dp_bits, mv_bits. set (P := xs_type 2 (Is past) future). cbn [mbs_code]. split; [move_in | three].
  - move_code (enc 2 1 ++ [false]) ltac:(apply (up_vector 0 1 (enc 2 1)); [lia | has_tac]).
  - move_in.
  - move_code (enc 1 1) ltac:(apply (same_vector 1)).
  - move_in.
  - move_code (enc 2 1 ++ [true]) ltac:(apply (down_vector 1 1 (enc 2 1)); [lia | has_tac]).
Qed.
Definition di_frame : canvas := picture_paint (xs_type 1 Unknown Unknown) [di_slice].
Definition dp1_frame : canvas := picture_paint (xs_type 2 (Is di_frame) Unknown) [dp_slice 1 15].
Definition dp2_frame : canvas := picture_paint (xs_type 2 (Is dp1_frame) Unknown) [dp_slice 1 1].
Definition d_group (a b c : canvas) : sgroup :=
  mkGroup (Some xs_start) (xs_gop true) 0 [] [xs_pic 0 1 di_slice di_bits a; xs_pic 1 2 (dp_slice 1 15) bits1 b; xs_pic 2 2 (dp_slice 1 1) bits2 c].
Definition d_gr : sgroup := d_group di_frame dp1_frame dp2_frame.
(** The same data as the standard reconstructs it *)
Definition si_frame : canvas := picture_paint_std (xs_type 1 Unknown Unknown) [di_slice].
Definition sp1_frame : canvas := picture_paint_std (xs_type 2 (Is si_frame) Unknown) [dp_slice 1 15].
Definition sp2_frame : canvas := picture_paint_std (xs_type 2 (Is sp1_frame) Unknown) [dp_slice 1 1].
Definition d_std : sgroup := d_group si_frame sp1_frame sp2_frame.

Lemma d_sized : sized di_frame /\ sized dp1_frame.
Proof. split; split; reflexivity. Qed.
Lemma d_coded : sequence_of picture_coded [d_gr].
Proof.
  destruct d_sized as (S0 & S1). split; [|split].
  - apply Forall_cons; [|apply Forall_nil]. split; [apply xs_start_wf|]. split; [repeat split; cbn; lia|]. split; [constructor|]. split; [constructor|].
    cbn [gr_pics d_gr d_group]. repeat (apply Forall_cons; [apply xs_wf; [lia | lia | reflexivity | reflexivity]|]). apply Forall_nil.
  - apply Forall_cons; [|apply Forall_nil]. split; [reflexivity|]. eexists _, _; split; reflexivity.
  - cbn [groups_all gr_start gr_pics d_gr d_group]. split; [|exact I].
    cbn [pictures_all]. change (ctx_start xs_start) with xs_ctx. unfold ctx_items. cbn [pi_items xs_pic fold_left].
    split; [apply (xs_coded Unknown Unknown 0 1); [lia | apply di_slice_code]|].
    split; [apply (xs_coded Unknown (Is di_frame) 1 2); [lia | now apply dp1_slice_code]|].
    split; [apply (xs_coded (Is di_frame) (Is dp1_frame) 2 2); [lia | now apply dp2_slice_code] | exact I].
Qed.
Lemma d_standard : standard_of vectors_halve [d_gr] [d_std].
Proof.
  destruct d_sized as (S0 & S1). unfold standard_of. cbn [groups_twice]. split; [reflexivity|]. cbn [gr_start d_gr d_std d_group gr_pics]. split; [|exact I].
  cbn [pictures_twice]. change (ctx_start xs_start) with xs_ctx. unfold ctx_items. cbn [pi_items xs_pic fold_left].
  split; [reflexivity|]. split.
  { exists [di_slice]. split; [apply Forall_cons; [|apply Forall_nil]; repeat (apply Forall_cons; [split; exact I|]); apply Forall_nil|].
    split; [apply slices_one, di_slice_code | split; reflexivity]. }
  split; [reflexivity|]. split.
  { exists [dp_slice 1 15]. split; [apply Forall_cons; [|apply Forall_nil]; repeat (apply Forall_cons; [split; [cbn; lia | exact I]|]); apply Forall_nil|].
    split; [apply slices_one; now apply dp1_slice_code | split; reflexivity]. }
  split; [reflexivity|]. split; [|exact I].
  exists [dp_slice 1 1]. split; [apply Forall_cons; [|apply Forall_nil]; repeat (apply Forall_cons; [split; [cbn; lia | exact I]|]); apply Forall_nil|].
  split; [apply slices_one; now apply dp2_slice_code | split; reflexivity].
Qed.
Lemma d_samples : cv_y dp1_frame 15 0 = 128 /\ cv_y sp1_frame 15 0 = 129 /\ cv_y dp2_frame 15 0 = 128 /\ cv_y sp2_frame 15 0 = 130.
Proof. lazy. repeat split; reflexivity. Qed.
(** The bound is reached: after two P pictures the decoder is off by two, where the standard's picture has 130 it returns 128. *)
Theorem C91_reached : exists g hs, sequence_of picture_coded [g] /\ standard_of vectors_halve [g] hs /\ within 2 0 (gr_pics g) /\
  forall k rd, exists imgs v' img q,
    nexts 3 (new_vidseq, setb rd (enc_sequence k [g])) = (Ok imgs, (v', setb rd (code sequence_end_code))) /\
    nth_error imgs 2 = Some img /\ nth_error (displayed hs) 2 = Some q /\ drift 2 q = 2 /\ luma img 15 0 = 128 /\ cv_y (pi_frame q) 15 0 = 130.
Proof.
  exists d_gr, [d_std]. split; [exact d_coded|]. split; [exact d_standard|]. split; [cbn; lia|]. intros k rd.
  destruct (C73_sequences k d_gr [] rd d_coded) as (imgs & v' & H1 & H2 & _). change (length (shown [d_gr])) with 3%nat in H1.
  assert (E : nth_error (shown [d_gr]) 2 = Some dp2_frame) by reflexivity.
  assert (X : exists img, nth_error imgs 2 = Some img /\ looks img dp2_frame).
  { revert H2 E. generalize (shown [d_gr]). intros l H2 E. clear - H2 E. destruct H2 as [|? ? ? ? _ H2]; [discriminate|]. destruct H2 as [|? ? ? ? _ H2]; [discriminate|].
    destruct H2 as [|? ? ? ? H2 _]; [discriminate|]. injection E as <-. eexists. split; [reflexivity | exact H2]. }
  destruct X as (img & X1 & X2). exists imgs, v', img. eexists. split; [exact H1|]. split; [exact X1|]. split; [reflexivity|]. split; [reflexivity|].
  destruct d_samples as (_ & _ & S3 & S4). split; [|exact S4].
  destruct X2 as (_ & _ & _ & L & _). assert (Sz : cv_w dp2_frame = 48 /\ cv_h dp2_frame = 16) by (split; reflexivity). destruct Sz as (S1 & S2).
  destruct (L 15 0) as (-> & _); [lia | lia | exact S3].
Qed.
Print Assumptions C91_luma.
Print Assumptions C91_chroma.
Print Assumptions C91_standard_exists.
Print Assumptions C91_reached.
