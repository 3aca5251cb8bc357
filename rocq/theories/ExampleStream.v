(** ExampleStream: a concrete sequence that meets the hypotheses of the theorems on sequences - pictures of
    48 x 16 samples, I, P and B, with coefficients, vectors, patterns, a change of the quantiser and skipped
    macroblocks, in a closed group I0 P3 B1 B2 and an open one I2 B0 B1 P3. *)
From Coq Require Import Lia.
From Verif Require Import Base BitReader VidModel SpecVid SpecVlc SpecBlock SpecMotion SpecNext SpecPicture BlockModel PropertiesPes PropertiesVidHeaders.

Definition xs_pce : spce := mkSpce 1 1 1 1 0 3 true true false false false false false true true None.
Definition xs_type (t : Z) (past future : known) : params :=
  mkParams t xs_pce std_intra_matrix std_non_intra_matrix 48 16 past future.

(** * The slices *)
Definition dc0l : list bool := enc 3 4.
Definition dc0c : list bool := enc 2 0.
Definition flat (y b r : Z) : list (Z * list (Z * Z)) := [(y, []); (y, []); (y, []); (y, []); (b, []); (r, [])].
Definition i_mbs : list smb := [
  mkMb 1 None None None (Intra false [(131, [(1, -2)]); (131, []); (131, []); (131, []); (128, []); (128, [])]);
  mkMb 1 None None None (Intra false (flat 131 128 128));
  mkMb 1 None None None (Intra false (flat 131 128 128))].
Definition flat_bits : list bool := (dc0l ++ b14_eob) ++ (dc0l ++ b14_eob) ++ (dc0l ++ b14_eob) ++ (dc0l ++ b14_eob) ++ (dc0c ++ b14_eob) ++ (dc0c ++ b14_eob).
Definition i_bits : list bool :=
  (enc 1 1 ++ enc 1 1 ++ (enc 2 1 ++ enc 2 3) ++ (enc 6 6 ++ [true]) ++ b14_eob ++
   (dc0l ++ b14_eob) ++ (dc0l ++ b14_eob) ++ (dc0l ++ b14_eob) ++ (dc0c ++ b14_eob) ++ (dc0c ++ b14_eob)) ++
  (enc 1 1 ++ enc 1 1 ++ flat_bits) ++ (enc 1 1 ++ enc 1 1 ++ flat_bits).
Definition i_slice : sslice := mkSlice 0 5 None i_mbs 0.
Definition p_mbs : list smb := [
  mkMb 1 None (Some (2, 0)) None (Coded [Some [(0, 1)]; None; None; None; None; Some [(2, -1)]]);
  mkMb 2 None (Some (-2, 0)) None NotCoded].
Definition p_bits : list bool :=
  (enc 1 1 ++ enc 1 1 ++ ((enc 3 1 ++ [false]) ++ enc 1 1) ++ enc 7 20 ++ ([true] ++ [false]) ++ b14_eob ++ (enc 4 5 ++ [true]) ++ b14_eob) ++
  (enc 3 3 ++ enc 3 1 ++ ((enc 3 1 ++ [true]) ++ enc 1 1)).
Definition p_slice : sslice := mkSlice 0 5 (Some (false, [1; 2])) p_mbs 2.
Definition b_mbs : list smb := [
  mkMb 1 None (Some (0, 0)) (Some (1, 0)) NotCoded;
  mkMb 2 (Some 7) None (Some (-1, 0)) (Coded [None; None; None; Some [(0, 1)]; None; None])].
Definition b_bits : list bool :=
  (enc 1 1 ++ enc 2 2 ++ (enc 1 1 ++ enc 1 1) ++ ((enc 2 1 ++ [false]) ++ enc 1 1)) ++
  (enc 3 3 ++ enc 6 2 ++ enc 5 7 ++ ((enc 3 1 ++ [true]) ++ enc 1 1) ++ enc 4 13 ++ ([true] ++ [false]) ++ b14_eob).
Definition b_slice : sslice := mkSlice 0 5 None b_mbs 1.
Definition slice_bits (l : sslice) (c1 : list bool) : list bool :=
  stuffed (code (sl_row l + 1) ++ enc 5 (sl_q l) ++ flags_code (sl_flags l) ++ c1) (sl_k l).

Ltac has_tac := unfold has; do 2 eexists; split; [reflexivity | reflexivity].
Lemma xs_dc0 : forall (i : nat), (i < 6)%nat -> dc_code (Nat.eqb (component i) 0) (if Nat.eqb (component i) 0 then dc0l else dc0c) 0.
Proof.
  intros i H. do 6 (destruct i as [|i]; [cbn; exists 0; eexists; (split; [split; [lia | has_tac] | cbn; auto])|]). lia.
Qed.
Lemma empty_from : forall n, n <> 0 -> coded_from false n [] b14_eob.
Proof. intros n H. split; [congruence|]. exists []. split; [constructor | reflexivity]. Qed.
Lemma flat_code : forall P p, e_vlc (pp_pce P) = false -> p 0%nat = 131 -> p 1%nat = 128 -> p 2%nat = 128 ->
  intra_code P p 0 (flat 131 128 128) flat_bits.
Proof.
  intros P p V H0 H1 H2. cbn [intra_code flat]. rewrite V. unfold flat_bits.
  exists dc0l, b14_eob. eexists. split; [rewrite <- !app_assoc; reflexivity|]. cbn [component]. rewrite H0. split; [apply (xs_dc0 0); lia|]. split; [apply empty_from; lia|].
  exists dc0l, b14_eob. eexists. split; [reflexivity|]. split; [apply (xs_dc0 1); lia|]. split; [apply empty_from; lia|].
  exists dc0l, b14_eob. eexists. split; [reflexivity|]. split; [apply (xs_dc0 2); lia|]. split; [apply empty_from; lia|].
  exists dc0l, b14_eob. eexists. split; [reflexivity|]. split; [apply (xs_dc0 3); lia|]. split; [apply empty_from; lia|].
  exists dc0c, b14_eob. eexists. split; [reflexivity|]. change (set_dc _ _ _ 1%nat) with (p 1%nat). rewrite H1. split; [apply (xs_dc0 4); lia|]. split; [apply empty_from; lia|].
  exists dc0c, b14_eob, []. split; [reflexivity|]. change (set_dc _ _ _ 2%nat) with (p 2%nat). rewrite H2. split; [apply (xs_dc0 5); lia|]. split; [apply empty_from; lia|].
  reflexivity.
Qed.
Lemma xs_incr1 : incr_code 1 (enc 1 1).
Proof. exists 0%nat, 1, (enc 1 1). split; [reflexivity|]. split; [split; [lia | has_tac] | reflexivity]. Qed.
Lemma xs_incr2 : incr_code 2 (enc 3 3).
Proof. exists 0%nat, 2, (enc 3 3). split; [reflexivity|]. split; [split; [lia | has_tac] | reflexivity]. Qed.

Lemma flat_ok : forall P, e_fpfd (pp_pce P) = true -> e_dc (pp_pce P) = 0 -> body_ok P (Intra false (flat 131 128 128)).
Proof.
  intros P H1 H2. cbn [body_ok]. rewrite H2. split; [reflexivity|]. split; [auto|]. unfold flat.
  repeat (apply Forall_cons; [cbn; split; [lia|]; split; [constructor | lia]|]). apply Forall_nil.
Qed.
Lemma i_slice_code : forall past future, slice_code (xs_type 1 past future) i_slice (slice_bits i_slice i_bits).
Proof.
  intros past future. unfold slice_code, i_slice, slice_bits. cbn [sl_row sl_q sl_flags sl_mbs sl_k].
  split; [lia|]. split; [cbn; lia|]. split; [lia|]. split; [discriminate|]. split; [exact I|]. eexists. split; [|reflexivity].
  unfold i_mbs, i_bits. set (P := xs_type 1 past future). cbn [mbs_code].
  split; [|eexists _, _; split; [reflexivity|]; split; [|split; [|eexists _, _; split; [reflexivity|]; split; [|split; [|eexists _, []; split; [symmetry; apply app_nil_r|]; split; [|reflexivity] ] ] ] ] ].
  - split; [cbn; lia|]. split; [unfold mb_in; cbn; lia|]. split.
    { cbn [body_ok b_body]. split; [reflexivity|]. split; [auto|].
      apply Forall_cons; [cbn; split; [lia|]; split; [apply Forall_cons; [cbn; lia | apply Forall_nil] | apply Nat.leb_le; reflexivity]|].
      repeat (apply Forall_cons; [cbn; split; [lia|]; split; [constructor | lia]|]). apply Forall_nil. }
    split; [now intros|]. split; [exact I|]. split; [split; discriminate|]. split; [exact I|]. split; [exact I|]. intros H; lia.
  - exists (enc 1 1), (enc 1 1), [], []. eexists. split; [apply xs_incr1|]. split; [exists 1, 1; split; [cbn; auto | reflexivity]|].
    split; [reflexivity|]. split; [reflexivity|]. split; [|reflexivity]. cbn [b_body body_code intra_code].
    exists (enc 2 1 ++ enc 2 3), ((enc 6 6 ++ [true]) ++ b14_eob). eexists. split; [rewrite <- !app_assoc; reflexivity|]. split.
    { exists 2, (enc 2 1). split; [split; [lia | has_tac]|]. cbn. split; [lia | reflexivity]. }
    split. { split; [discriminate|]. exists (enc 6 6 ++ [true]). split; [|reflexivity]. rewrite <- (app_nil_r (enc 6 6 ++ [true])). apply syms_cons; [|constructor].
      apply (code_vlc false false (enc 6 6) 1 (-2)). unfold dct_vlc. split; [lia|]. split; [lia|]. cbn -[enc]. eexists. split; [reflexivity | has_tac]. }
    exists dc0l, b14_eob. eexists. split; [reflexivity|]. split; [apply (xs_dc0 1); lia|]. split; [apply empty_from; lia|].
    exists dc0l, b14_eob. eexists. split; [reflexivity|]. split; [apply (xs_dc0 2); lia|]. split; [apply empty_from; lia|].
    exists dc0l, b14_eob. eexists. split; [reflexivity|]. split; [apply (xs_dc0 3); lia|]. split; [apply empty_from; lia|].
    exists dc0c, b14_eob. eexists. split; [reflexivity|]. split; [apply (xs_dc0 4); lia|]. split; [apply empty_from; lia|].
    exists dc0c, b14_eob, []. split; [reflexivity|]. split; [apply (xs_dc0 5); lia|]. split; [apply empty_from; lia|].
    reflexivity.
  - split; [cbn; lia|]. split; [unfold mb_in; cbn; lia|]. split; [now apply flat_ok|].
    split; [now intros|]. split; [exact I|]. split; [split; discriminate|]. split; [exact I|]. split; [exact I|]. cbn; lia.
  - exists (enc 1 1), (enc 1 1), [], [], flat_bits. split; [apply xs_incr1|]. split; [exists 1, 1; split; [cbn; auto | reflexivity]|].
    split; [reflexivity|]. split; [reflexivity|]. split; [|reflexivity]. now apply flat_code.
  - split; [cbn; lia|]. split; [unfold mb_in; cbn; lia|]. split; [now apply flat_ok|].
    split; [now intros|]. split; [exact I|]. split; [split; discriminate|]. split; [exact I|]. split; [exact I|]. cbn; lia.
  - exists (enc 1 1), (enc 1 1), [], [], flat_bits. split; [apply xs_incr1|]. split; [exists 1, 1; split; [cbn; auto | reflexivity]|].
    split; [reflexivity|]. split; [reflexivity|]. split; [|reflexivity]. now apply flat_code.
Qed.

Definition sized (c : canvas) : Prop := cv_w c = 48 /\ cv_h c = 16.
Ltac six := split; [assumption|]; split; [assumption|]; intros i Hi; let h := fresh in
  assert (h : i = 0 \/ i = 1 \/ i = 2 \/ i = 3 \/ i = 4 \/ i = 5) by lia;
  destruct h as [-> | [-> | [-> | [-> | [-> | ->] ] ] ] ]; vm_compute; repeat split; discriminate.
Lemma zero_vector : vector_code 1 0 0 (enc 1 1).
Proof. exists 0, 0. split; [apply delta_zero; left; split; [reflexivity | has_tac] | reflexivity]. Qed.
Lemma up_vector : forall p m c, 0 < m -> has b10 (Z.to_nat m) c -> vector_code 1 p (p + m) (c ++ [false]).
Proof.
  intros p m c H Hc. exists m, 0. split; [|lia]. rewrite <- (app_nil_r (c ++ [false])). change (@nil bool) with (enc (Z.to_nat (1 - 1)) 0).
  replace m with ((m - 1) * mv_f 1 + 0 + 1) at 1 by (cbn; lia). apply delta_up; [|exact H | cbn; lia]. right. split; [lia|].
  exists c. rewrite Z.abs_eq by lia. split; [exact Hc|]. replace (m <? 0) with false by (symmetry; apply Z.ltb_ge; lia). reflexivity.
Qed.
Lemma down_vector : forall p m c, 0 < m -> has b10 (Z.to_nat m) c -> vector_code 1 p (p - m) (c ++ [true]).
Proof.
  intros p m c H Hc. exists (- m), 0. split; [|lia]. rewrite <- (app_nil_r (c ++ [true])). change (@nil bool) with (enc (Z.to_nat (1 - 1)) 0).
  replace m with ((m - 1) * mv_f 1 + 0 + 1) at 1 by (cbn; lia). apply delta_down; [|exact H | cbn; lia]. right. split; [lia|].
  exists c. replace (Z.abs (- m)) with m by lia. split; [exact Hc|]. replace (- m <? 0) with true by (symmetry; apply Z.ltb_lt; lia). reflexivity.
Qed.
Lemma one_first : coded_from false 0 [(0, 1)] (([true] ++ [false]) ++ b14_eob).
Proof.
  split; [discriminate|]. exists ([true] ++ [false]). split; [|reflexivity]. rewrite <- (app_nil_r ([true] ++ [false])). apply syms_cons; [|constructor].
  apply (code_vlc false true [true] 0 1). unfold dct_vlc. split; [lia|]. split; [lia|]. reflexivity.
Qed.
Lemma two_first : coded_from false 0 [(2, -1)] ((enc 4 5 ++ [true]) ++ b14_eob).
Proof.
  split; [discriminate|]. exists (enc 4 5 ++ [true]). split; [|reflexivity]. rewrite <- (app_nil_r (enc 4 5 ++ [true])). apply syms_cons; [|constructor].
  apply (code_vlc false true (enc 4 5) 2 (-1)). unfold dct_vlc. split; [lia|]. split; [lia|]. cbn -[enc]. eexists. split; [reflexivity | has_tac].
Qed.

Lemma p_slice_code : forall past future, sized past -> slice_code (xs_type 2 (Is past) future) p_slice (slice_bits p_slice p_bits).
Proof.
  intros past future (SW & SH). unfold slice_code, p_slice, slice_bits. cbn [sl_row sl_q sl_flags sl_mbs sl_k].
  split; [lia|]. split; [cbn; lia|]. split; [lia|]. split; [discriminate|]. split; [repeat (apply Forall_cons; [lia|]); apply Forall_nil|]. eexists. split; [|reflexivity].
  unfold p_mbs, p_bits. set (P := xs_type 2 (Is past) future). cbn [mbs_code].
  split; [|eexists _, _; split; [reflexivity|]; split; [|split; [|eexists _, []; split; [symmetry; apply app_nil_r|]; split; [|reflexivity] ] ] ].
  - split; [cbn; lia|]. split; [unfold mb_in; cbn; lia|]. split.
    { cbn [body_ok b_body]. split; [reflexivity|].
      repeat (apply Forall_cons; [cbn; first [exact I | split; [apply Forall_cons; [cbn; lia | apply Forall_nil] | apply Nat.leb_le; reflexivity] ]|]). apply Forall_nil. }
    split; [now intros|]. split; [exact I|]. split; [split; cbn; discriminate|]. split; [cbn -[vector_in]; six|]. split; [exact I|]. intros H; lia.
  - exists (enc 1 1), (enc 1 1), ((enc 3 1 ++ [false]) ++ enc 1 1), []. eexists. split; [apply xs_incr1|]. split; [exists 1, 1; split; [cbn; auto | reflexivity]|].
    split. { cbn [opt_vector b_forward]. exists (enc 3 1 ++ [false]), (enc 1 1). split; [reflexivity|]. split; [unfold mv_range, mv_f; cbn; lia|]. split; [unfold mv_range, mv_f; cbn; lia|].
      split; [apply (up_vector 0 2 (enc 3 1)); [lia | has_tac] | apply zero_vector]. }
    split; [reflexivity|]. split; [|reflexivity]. cbn [b_body body_code].
    exists (enc 7 20). eexists. split; [reflexivity|]. split; [split; [cbn; lia | has_tac]|].
    cbn [inter_code]. exists (([true] ++ [false]) ++ b14_eob). eexists. split; [rewrite <- !app_assoc; reflexivity|]. split; [apply one_first|].
    exists ((enc 4 5 ++ [true]) ++ b14_eob), []. split; [reflexivity|]. split; [apply two_first | reflexivity].
  - split; [cbn; lia|]. split; [unfold mb_in; cbn; lia|]. split; [exact I|].
    split; [now intros|]. split; [exact I|]. split; [split; cbn; discriminate|]. split; [cbn -[vector_in]; six|]. split; [exact I|]. intros _ _. split; [discriminate|]. split; [intros _; exists past; split; [reflexivity | split; assumption] | intro H; discriminate H].
  - exists (enc 3 3), (enc 3 1), ((enc 3 1 ++ [true]) ++ enc 1 1), [], []. split; [apply xs_incr2|]. split; [exists 1, 3; split; [cbn; auto | reflexivity]|].
    split. { cbn [opt_vector b_forward]. exists (enc 3 1 ++ [true]), (enc 1 1). split; [reflexivity|]. split; [unfold mv_range, mv_f; cbn; lia|]. split; [unfold mv_range, mv_f; cbn; lia|].
      split; [apply (down_vector 0 2 (enc 3 1)); [lia | has_tac] | apply zero_vector]. }
    split; [reflexivity|]. split; reflexivity.
Qed.
Lemma b_slice_code : forall past future, sized past -> sized future -> slice_code (xs_type 3 (Is past) (Is future)) b_slice (slice_bits b_slice b_bits).
Proof.
  intros past future (SW & SH) (TW & TH). unfold slice_code, b_slice, slice_bits. cbn [sl_row sl_q sl_flags sl_mbs sl_k].
  split; [lia|]. split; [cbn; lia|]. split; [lia|]. split; [discriminate|]. split; [exact I|]. eexists. split; [|reflexivity].
  unfold b_mbs, b_bits. set (P := xs_type 3 (Is past) (Is future)). cbn [mbs_code].
  split; [|eexists _, _; split; [reflexivity|]; split; [|split; [|eexists _, []; split; [symmetry; apply app_nil_r|]; split; [|reflexivity] ] ] ].
  - split; [cbn; lia|]. split; [unfold mb_in; cbn; lia|]. split; [exact I|].
    split; [now intros|]. split; [exact I|]. split; [split; cbn; discriminate|]. split; [cbn -[vector_in]; six|]. split; [cbn -[vector_in]; six|]. intros H; lia.
  - exists (enc 1 1), (enc 2 2), (enc 1 1 ++ enc 1 1), ((enc 2 1 ++ [false]) ++ enc 1 1), []. split; [apply xs_incr1|]. split; [exists 2, 2; split; [cbn; auto | reflexivity]|].
    split. { cbn [opt_vector b_forward]. exists (enc 1 1), (enc 1 1). split; [reflexivity|]. split; [unfold mv_range, mv_f; cbn; lia|]. split; [unfold mv_range, mv_f; cbn; lia|].
      split; apply zero_vector. }
    split. { cbn [opt_vector b_backward]. exists (enc 2 1 ++ [false]), (enc 1 1). split; [reflexivity|]. split; [unfold mv_range, mv_f; cbn; lia|]. split; [unfold mv_range, mv_f; cbn; lia|].
      split; [apply (up_vector 0 1 (enc 2 1)); [lia | has_tac] | apply zero_vector]. }
    split; reflexivity.
  - split; [cbn; lia|]. split; [unfold mb_in; cbn; lia|]. split.
    { cbn [body_ok b_body]. split; [reflexivity|].
      repeat (apply Forall_cons; [cbn; first [exact I | split; [apply Forall_cons; [cbn; lia | apply Forall_nil] | apply Nat.leb_le; reflexivity] ]|]). apply Forall_nil. }
    split; [now intros|]. split; [cbn; lia|]. split; [split; cbn; discriminate|]. split; [exact I|]. split; [cbn -[vector_in]; six|]. intros _ _. split; [discriminate|]. split; [intro H; discriminate H|].
    intros _ col Hc. assert (col = 1) as -> by (cbn in Hc; lia). split; [cbn -[vector_in]; six | cbn -[vector_in]; six].
  - exists (enc 3 3), (enc 6 2), [], ((enc 3 1 ++ [true]) ++ enc 1 1). eexists. split; [apply xs_incr2|]. split; [exists 2, 6; split; [cbn; tauto | reflexivity]|].
    split; [reflexivity|].
    split. { cbn [opt_vector b_backward]. exists (enc 3 1 ++ [true]), (enc 1 1). split; [reflexivity|]. split; [unfold mv_range, mv_f; cbn; lia|]. split; [unfold mv_range, mv_f; cbn; lia|].
      split; [apply (down_vector 1 2 (enc 3 1)); [lia | has_tac] | apply zero_vector]. }
    split; [|reflexivity]. cbn [b_body body_code].
    exists (enc 4 13). eexists. split; [reflexivity|]. split; [split; [cbn; lia | has_tac]|].
    cbn [inter_code]. exists (([true] ++ [false]) ++ b14_eob), []. split; [rewrite <- !app_assoc; reflexivity|]. split; [apply one_first | reflexivity].
Qed.

(** * The pictures and the sequence *)
Definition xs_seq : sseq := mkSseq 48 16 2 3 20000 112 false None None.
Definition xs_sext : ssext := mkSsext 72 true 1 0 0 0 0 false 0 0.
Definition xs_start : sstart := mkStart xs_seq 1 xs_sext 0 [XUser [1; 2; 3]].
Definition xs_gop (closed : bool) : sgop := mkSgop false 1 2 true 3 4 closed false.
Definition xs_pic (tr t : Z) (l : sslice) (bits : list bool) (f : canvas) : spicture :=
  mkPicture (mkSpic tr t 65535 (false, 7) (false, 7) []) 0 xs_pce 1 [] (slice_bits l bits) f.
Definition i_frame : canvas := picture_paint (xs_type 1 Unknown Unknown) [i_slice].
Definition p_frame (past : canvas) : canvas := picture_paint (xs_type 2 (Is past) Unknown) [p_slice].
Definition b_frame (past future : canvas) : canvas := picture_paint (xs_type 3 (Is past) (Is future)) [b_slice].
Definition i_pic (tr : Z) : spicture := xs_pic tr 1 i_slice i_bits i_frame.
Definition p_pic (tr : Z) (past : canvas) : spicture := xs_pic tr 2 p_slice p_bits (p_frame past).
Definition b_pic (tr : Z) (past future : canvas) : spicture := xs_pic tr 3 b_slice b_bits (b_frame past future).
Definition f0 : canvas := i_frame.
Definition f1 : canvas := p_frame f0.
Definition f2 : canvas := i_frame.
Definition f3 : canvas := p_frame f2.
Definition xs_groups : list sgroup := [
  mkGroup (Some xs_start) (xs_gop true) 0 [XUser [7]] [i_pic 0; p_pic 3 f0; b_pic 1 f0 f1; b_pic 2 f0 f1];
  mkGroup None (xs_gop false) 2 [] [i_pic 2; b_pic 0 f1 f2; b_pic 1 f1 f2; p_pic 3 f2]].

Definition xs_ctx : context := mkCtx xs_seq xs_sext std_intra_matrix std_non_intra_matrix std_intra_matrix std_non_intra_matrix.
Lemma std_matrices : matrix_ok std_intra_matrix /\ matrix_ok std_non_intra_matrix.
Proof.
  split; (split; [reflexivity|]); unfold std_intra_matrix, std_non_intra_matrix; cbn [repeat]; repeat (apply Forall_cons; [lia|]); apply Forall_nil.
Qed.
Lemma xs_params_ok : forall t past future, 1 <= t <= 3 -> params_ok (xs_type t past future).
Proof.
  intros t past future Ht. unfold params_ok, xs_type. cbn [pp_type pp_pce pp_intra pp_non_intra pp_w pp_h pp_past pp_future]. cbn [xs_pce e_struct e_conceal e_dc e_f00 e_f01 e_f10 e_f11].
  pose proof std_matrices as (M1 & M2). repeat (split; [lia || reflexivity || assumption|]). apply M2.
Qed.
Lemma xs_coded : forall o l tr t sl bits, 1 <= t <= 3 ->
  let past := if t =? 2 then l else if t =? 3 then o else Unknown in let future := if t =? 3 then l else Unknown in
  slice_code (xs_type t past future) sl (slice_bits sl bits) ->
  picture_coded xs_ctx o l (xs_pic tr t sl bits (picture_paint (xs_type t past future) [sl])).
Proof.
  intros o l tr t sl bits Ht past future S. unfold picture_coded.
  assert (E : params_of xs_ctx o l (xs_pic tr t sl bits (picture_paint (xs_type t past future) [sl])) = xs_type t past future) by reflexivity.
  rewrite E. repeat (split; [cbn; lia || exact I|]).
  split. { repeat split; cbn; lia. } split. { repeat split; cbn; lia. }
  repeat (split; [cbn; lia|]). split; [now apply xs_params_ok|]. exists [sl]. split; [now apply slices_one | reflexivity].
Qed.
Lemma xs_wf : forall tr t sl bits f, 0 <= tr < 1024 -> 1 <= t <= 3 -> firstn 32 (slice_bits sl bits) = code 1 -> (length (skipn 32 (slice_bits sl bits)) mod 8 = 0)%nat ->
  wf_picture (xs_pic tr t sl bits f).
Proof.
  intros tr t sl bits f H1 H2 H3 H4. unfold wf_picture, xs_pic. cbn [pi_hdr pi_pce pi_items pi_data p_type].
  split. { unfold wf_pic. cbn [p_tr p_type p_vbv p_forward p_backward p_extra snd]. change (2 ^ 10) with 1024. change (2 ^ 3) with 8. change (2 ^ 16) with 65536. repeat (split; [lia|]). constructor. }
  split. { repeat split; cbn; lia. } split; [constructor|]. split; [constructor|]. split; [exact H2|].
  exists 1, (skipn 32 (slice_bits sl bits)). split; [rewrite <- H3; symmetry; apply firstn_skipn|]. split; [lia | exact H4].
Qed.
Lemma i_wf : forall tr, 0 <= tr < 1024 -> wf_picture (i_pic tr).
Proof. intros. apply xs_wf; [assumption | lia | reflexivity | reflexivity]. Qed.
Lemma p_wf : forall tr f, 0 <= tr < 1024 -> wf_picture (p_pic tr f).
Proof. intros. apply xs_wf; [assumption | lia | reflexivity | reflexivity]. Qed.
Lemma b_wf : forall tr f g, 0 <= tr < 1024 -> wf_picture (b_pic tr f g).
Proof. intros. apply xs_wf; [assumption | lia | reflexivity | reflexivity]. Qed.
Lemma i_coded : forall o l tr, picture_coded xs_ctx o l (i_pic tr).
Proof. intros. apply (xs_coded o l tr 1); [lia | apply i_slice_code]. Qed.
Lemma p_coded : forall o f tr, sized f -> picture_coded xs_ctx o (Is f) (p_pic tr f).
Proof. intros o f tr S. apply (xs_coded o (Is f) tr 2); [lia | now apply p_slice_code]. Qed.
Lemma b_coded : forall f g tr, sized f -> sized g -> picture_coded xs_ctx (Is f) (Is g) (b_pic tr f g).
Proof. intros f g tr S T. apply (xs_coded (Is f) (Is g) tr 3); [lia | now apply b_slice_code]. Qed.
Lemma sized_f : sized f0 /\ sized f1 /\ sized f2 /\ sized f3.
Proof. repeat split. Qed.
Lemma xs_start_wf : wf_start xs_start.
Proof.
  split. { repeat split; cbn; try lia; exact I. } split. { repeat split; cbn; lia. } split; [repeat constructor|].
  apply Forall_cons; [|apply Forall_nil]. split; [byte_list | no_prefix_tac].
Qed.
Lemma xs_groups_coded : sequence_of picture_coded xs_groups.
Proof.
  destruct sized_f as (S0 & S1 & S2 & S3). split; [|split].
  - apply Forall_cons; [|apply Forall_cons; [|apply Forall_nil] ].
    + split; [apply xs_start_wf|]. split; [repeat split; cbn; lia|]. split; [repeat constructor|]. split; [apply Forall_cons; [split; [byte_list | no_prefix_tac] | apply Forall_nil]|].
      cbn [gr_pics]. apply Forall_cons; [apply i_wf; lia|]. apply Forall_cons; [apply p_wf; lia|]. apply Forall_cons; [apply b_wf; lia|]. apply Forall_cons; [apply b_wf; lia | apply Forall_nil].
    + split; [exact I|]. split; [repeat split; cbn; lia|]. split; [constructor|]. split; [constructor|].
      cbn [gr_pics]. apply Forall_cons; [apply i_wf; lia|]. apply Forall_cons; [apply b_wf; lia|]. apply Forall_cons; [apply b_wf; lia|]. apply Forall_cons; [apply p_wf; lia | apply Forall_nil].
  - apply Forall_cons; [|apply Forall_cons; [|apply Forall_nil] ]; (split; [reflexivity|]; eexists _, _; split; reflexivity).
  - unfold xs_groups. cbn [groups_all gr_start gr_pics]. split; [|split; [|exact I] ].
    + cbn [pictures_all]. change (ctx_start xs_start) with xs_ctx. unfold ctx_items. cbn [pi_items i_pic p_pic b_pic xs_pic fold_left].
      split; [apply i_coded|]. split; [apply (p_coded Unknown f0 3); assumption|]. split; [apply (b_coded f0 f1 1); assumption|]. split; [apply (b_coded f0 f1 2); assumption | exact I].
    + cbn [pictures_all]. change (ctx_start xs_start) with xs_ctx. unfold ctx_items. cbn [pi_items i_pic p_pic b_pic xs_pic fold_left].
      split; [apply i_coded|]. split; [apply (b_coded f1 f2 0); assumption|]. split; [apply (b_coded f1 f2 1); assumption|]. split; [apply (p_coded (Is f1) f2 3); assumption | exact I].
Qed.
