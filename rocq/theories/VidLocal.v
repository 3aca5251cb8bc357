(** VidLocal: truncated video headers. *)
From Verif Require Import Base BitReader Exec Local TsRobust Mono PesLocal PsLocal VidModel SpecVid VidProofs VidStream VidExt.

Lemma fields_truncated : forall A (m : M reader A) e a, local T8 m T8 -> safe m ->
  (forall r t, m (setb r (e ++ t)) = (Ok a, setb r t)) ->
  forall r k, rlater r = [] -> (8 * k < length e)%nat -> exists x r', m (setb r (firstn (8 * k) e)) = (Err x, r').
Proof.
  intros A m e a L S E r k Hr Hk.
  set (pad := repeat false (alignment (length e))).
  assert (M8 : (length (e ++ pad) mod 8 = 0)%nat).
  { unfold pad. rewrite app_length, repeat_length. apply alignment_sum. }
  assert (F : firstn (8 * k) e = firstn (8 * k) (e ++ pad)).
  { rewrite firstn_app. replace (8 * k - length e)%nat with 0%nat by lia. now rewrite firstn_O, app_nil_r. }
  assert (HX : lmod (skipn (8 * k) (e ++ pad)) = 0%nat).
  { apply Nat.mod_divides in M8 as [q Q]; [|lia]. apply lmod_mul with (k := (q - k)%nat). rewrite skipn_length. lia. }
  rewrite F. specialize (L r (firstn (8 * k) (e ++ pad)) (skipn (8 * k) (e ++ pad)) Hr I HX).
  rewrite firstn_skipn, E in L. specialize (S (setb r (firstn (8 * k) (e ++ pad)))).
  destruct (m (setb r (firstn (8 * k) (e ++ pad)))) as [[g|x| |] r']; cbn [fst] in S; try tauto; eauto.
  exfalso. destruct L as (l' & -> & _ & E2).
  assert (E3 : pad = l' ++ skipn (8 * k) (e ++ pad)) by (apply (f_equal (fun y => rbits (snd y))) in E2; exact E2).
  apply (f_equal (@length _)) in E3. rewrite app_length, skipn_length, app_length in E3. lia.
Qed.
Lemma loc_sc_assert : forall c, local T8 (sc_assert c) T8.
Proof. intro. unfold sc_assert, sc_check. loc_tac. Qed.
Lemma loc_id_assert : forall c, local T8 (id_assert c) T8.
Proof. intro. unfold id_assert, id_check. loc_tac. Qed.
Lemma loc_marker_bit : local T8 marker_bit T8.
Proof. unfold marker_bit. loc_tac. Qed.
Lemma loc_matrix : local T8 read_matrix T8.
Proof.
  Transparent read_matrix. unfold read_matrix. generalize 64%nat. induction n; cbn [read_entries]; [apply local_ret|].
  eapply local_bind; [apply loc_read|]. intro. eapply local_bind; [exact IHn|]. intro. apply local_ret.
Qed.
Global Opaque read_matrix.
Lemma loc_peek1 : local T8 peek1 T8.
Proof. unfold peek1. loc_tac. Qed.
Lemma loc_extra_loop : forall f acc, local T8 (extra_loop f acc) T8.
Proof.
  induction f; intro acc; cbn [extra_loop]; [intros r l x Hr Hl Hx; reflexivity|].
  eapply local_bind; [apply loc_peek1|]. intro. apply local_if; [apply local_ret|].
  eapply local_bind; [apply loc_skip|]. intro. eapply local_bind; [apply loc_read|]. intro. apply IHf.
Qed.
Lemma extra_more : forall f k acc r, fst (extra_loop f acc r) <> OutOfFuel -> extra_loop (f + k) acc r = extra_loop f acc r.
Proof.
  induction f; intros k acc r H; [cbn in H; congruence|]. cbn [extra_loop Nat.add] in *. unfold bind in *.
  destruct (peek1 r) as [[b|e| |] r1]; auto. destruct (negb b); auto. destruct (skip_n 1 r1) as [[u|e| |] r2]; auto.
  destruct (read_n 8 r2) as [[d|e| |] r3]; auto.
Qed.
Lemma loc_extra : local T8 (fun r => extra_loop (S (length (rbits r))) [] r) T8.
Proof.
  intros r l x Hr Hl Hx. rewrite !rbits_setb. pose proof (safe_extra (setb r l)) as T. cbv beta in T. rewrite rbits_setb in T.
  pose proof (loc_extra_loop (S (length l)) [] r l x Hr Hl Hx) as L.
  destruct (extra_loop (S (length l)) [] (setb r l)) as [[a|e| |] r'] eqn:E; cbn [fst] in T; try tauto.
  destruct L as (l' & -> & Q & E2). exists l'. split; auto. split; auto. rewrite app_length.
  replace (S (length l + length x)) with (S (length l) + length x)%nat by lia.
  rewrite extra_more; [exact E2|]. rewrite E2. discriminate.
Qed.
Ltac vloc := repeat first
  [ apply loc_read | apply loc_read1 | apply loc_skip | apply loc_sc_assert | apply loc_id_assert | apply loc_marker_bit
  | apply loc_matrix | apply loc_extra | apply local_ret | apply local_fail | apply local_if
  | match goal with |- local _ (match ?x with (_, _) => _ end) _ => destruct x end
  | eapply local_bind; [|intro] ].
Lemma loc_seq : local T8 sequence_header_fields T8.
Proof. unfold sequence_header_fields. vloc. Qed.
Lemma loc_sext : local T8 sequence_extension_fields T8.
Proof. unfold sequence_extension_fields. vloc. Qed.
Lemma loc_pic : local T8 picture_header_fields T8.
Proof. unfold picture_header_fields. vloc. Qed.
Lemma loc_pce : local T8 picture_coding_extension_fields T8.
Proof. unfold picture_coding_extension_fields. vloc. Qed.
Lemma safe_seq_fields : safe sequence_header_fields.
Proof. unfold sequence_header_fields. vsafe. Qed.
Lemma seq_truncated : forall s r k, wf_seq s -> rlater r = [] -> (8 * k < length (enc_seq s))%nat ->
  exists x r', read_sequence_header (setb r (firstn (8 * k) (enc_seq s))) = (Err x, r').
Proof.
  intros s r k W Hr Hk. destruct (fields_truncated _ _ _ _ loc_seq safe_seq_fields (fun r t => seq_fields_run s r t W) r k Hr Hk) as (x & r' & E).
  exists x, r'. unfold read_sequence_header. now rewrite (bind_err _ _ _ _ _ _ _ _ E).
Qed.
Lemma assign_err : forall A set (m : M reader A) v r x r', m r = (Err x, r') -> assign_header set m (v, r) = (Err x, (set None v, r')).
Proof. intros. unfold assign_header. cbn [fst snd]. now rewrite H. Qed.
Lemma sext_truncated : forall s v r k, wf_sext s -> rlater r = [] -> (8 * k < length (enc_sext s))%nat ->
  exists x s', vs_sequence_extension (v, setb r (firstn (8 * k) (enc_sext s))) = (Err x, s').
Proof.
  intros s v r k W Hr Hk. destruct (fields_truncated _ _ _ _ loc_sext safe_sext (fun r t => sext_fields_run s r t W) r k Hr Hk) as (x & r' & E).
  do 2 eexists. unfold vs_sequence_extension. exact (assign_err _ _ _ _ _ _ _ E).
Qed.
Lemma pic_truncated : forall s v r k, wf_pic s -> rlater r = [] -> (8 * k < length (enc_pic s))%nat ->
  exists x s', vs_picture_header (v, setb r (firstn (8 * k) (enc_pic s))) = (Err x, s').
Proof.
  intros s v r k W Hr Hk. destruct (fields_truncated _ _ _ _ loc_pic safe_pic (fun r t => pic_fields_run s r t W) r k Hr Hk) as (x & r' & E).
  do 2 eexists. unfold vs_picture_header. exact (assign_err _ _ _ _ _ _ _ E).
Qed.
Lemma pce_truncated : forall s v r k, wf_pce s -> rlater r = [] -> (8 * k < length (enc_pce s))%nat ->
  exists x s', vs_picture_coding_extension (v, setb r (firstn (8 * k) (enc_pce s))) = (Err x, s').
Proof.
  intros s v r k W Hr Hk. destruct (fields_truncated _ _ _ _ loc_pce safe_pce (fun r t => pce_fields_run s r t W) r k Hr Hk) as (x & r' & E).
  do 2 eexists. unfold vs_picture_coding_extension. exact (assign_err _ _ _ _ _ _ _ E).
Qed.

(** * What user_data accepts *)
Lemma user_loop_inv : forall f acc r d r', user_loop f acc r = (Ok d, r') ->
  exists e t, d = acc ++ e /\ bytes e /\ rbits r = bb e ++ prefix ++ t /\ r' = setb r (prefix ++ t) /\ no_prefix e.
Proof.
  induction f; intros acc r d r' H; [discriminate|]. cbn [user_loop] in H.
  apply bind_ok_inv in H as (v & r1 & H1 & H2). destruct (peek_n_ok_inv _ _ _ _ H1) as (L & -> & ->).
  destruct (Z.eqb_spec (dec (firstn 24 (rbits r))) StartCodePrefix) as [E|E].
  - inversion H2; subst. exists [], (skipn 24 (rbits r')).
    assert (P : prefix = firstn 24 (rbits r')).
    { unfold prefix. unfold StartCodePrefix in E. rewrite <- E.
      replace 24%nat with (length (firstn 24 (rbits r'))) at 1 by (rewrite firstn_length; lia). apply enc_dec. }
    rewrite P, firstn_skipn, app_nil_r. repeat split; auto; [constructor | destruct r'; reflexivity |].
    intros a b c x y Q _ _ _. apply (f_equal (@length _)) in Q. cbn [app length] in Q. rewrite app_length in Q. cbn [length] in Q.
    destruct y; [reflexivity | cbn in Q; lia].
  - apply bind_ok_inv in H2 as (b & r2 & H3 & H4). apply read_n_ok_inv in H3 as (L8 & Eb & ->).
    destruct (IHf _ _ _ _ H4) as (e & t & -> & B & R & -> & M).
    assert (Rb : byte (dec (firstn 8 (rbits r)))).
    { pose proof (dec_range (firstn 8 (rbits r))) as D. rewrite firstn_length in D. rewrite Nat.min_l in D by lia. exact D. }
    subst b. rewrite rbits_setb in R. set (b := dec (firstn 8 (rbits r))) in *.
    assert (Eu : u8 b = b) by (unfold u8, byte in *; now rewrite Z.mod_small).
    assert (Eb : enc 8 b = firstn 8 (rbits r)).
    { unfold b. replace 8%nat with (length (firstn 8 (rbits r))) at 1 by (rewrite firstn_length; lia). apply enc_dec. }
    exists (b :: e), t. rewrite Eu, <- app_assoc. split; [reflexivity|]. split; [constructor; auto|].
    split; [|split; [reflexivity|]].
    + rewrite bb_cons, <- app_assoc, <- R, Eb. now rewrite firstn_skipn.
    + intros a1 b1 c1 x y Q -> -> ->. destruct x as [|b' x].
      * exfalso. apply E.
        assert (W : firstn 24 (rbits r) = prefix).
        { rewrite <- (firstn_skipn 8 (rbits r)), <- Eb, R.
          replace (enc 8 b ++ bb e ++ prefix ++ t) with (bb ((b :: e) ++ [0; 0; 1]) ++ t)
            by (rewrite bb_app, bb_cons, <- !app_assoc; reflexivity).
          rewrite Q. cbn [app]. change (0 :: 0 :: 1 :: y) with ([0; 0; 1] ++ y). rewrite bb_app, <- app_assoc.
          change (bb [0; 0; 1]) with prefix. rewrite firstn_app_exact; reflexivity. }
        rewrite W. reflexivity.
      * cbn [app] in Q. injection Q as _ Q. eapply M; eauto.
Qed.
Lemma user_data_inv : forall r d r', (length (rbits r) mod 8 = 0)%nat -> user_data r = (Ok d, r') ->
  exists t, rbits r = enc_user d ++ prefix ++ t /\ r' = setb r (prefix ++ t) /\ bytes d /\ no_prefix d.
Proof.
  intros r d r' M H. unfold user_data in H. apply bind_ok_inv in H as (u & r1 & H1 & H2).
  assert (A : rbits r = code user_data_code ++ rbits r1 /\ r1 = setb r (rbits r1)).
  { unfold sc_assert, sc_check in H1. apply bind_ok_inv in H1 as (b & r0 & A & B). apply bind_ok_inv in A as (v & r00 & A1 & A2).
    destruct (peek_n_ok_inv _ _ _ _ A1) as (L & -> & ->). unfold ret in A2.
    assert (EE : b = (dec (firstn 32 (rbits r)) =? UserDataStartCode) /\ r0 = r) by (split; congruence). destruct EE as [-> ->]. clear A2.
    destruct (Z.eqb_spec (dec (firstn 32 (rbits r))) UserDataStartCode) as [E|]; [|inversion B].
    unfold skip_n in B. apply bind_ok_inv in B as (w & r3 & B1 & B2). apply read_n_ok_inv in B1 as (_ & _ & ->). inversion B2; subst.
    split; [|reflexivity]. rewrite rbits_setb. rewrite <- (firstn_skipn 32 (rbits r)) at 1. f_equal.
    replace (code user_data_code) with (enc 32 UserDataStartCode) by reflexivity. rewrite <- E.
    replace 32%nat with (length (firstn 32 (rbits r))) at 2 by (rewrite firstn_length; lia). symmetry. apply enc_dec. }
  destruct A as [A1 A2]. apply bind_ok_inv in H2 as (e & r2 & H2 & H3). apply user_loop_inv in H2 as (e' & t & -> & B & R & -> & N).
  cbn [app] in *. exists t. apply bind_ok_inv in H3 as (u2 & r3 & H3 & H4). inversion H4; subst. unfold enc_user. rewrite <- app_assoc, <- R.
  assert (T : (length t mod 8 = 0)%nat).
  { rewrite A1, R, !app_length, code_length, bb_length in M. change (length prefix) with 24%nat in M.
    replace (32 + (8 * length d + (24 + length t)))%nat with (length t + (7 + length d) * 8)%nat in M by lia.
    now rewrite Nat.mod_add in M by lia. }
  pose proof (next_start_code_run [] 0 r1 t ltac:(cbn; lia) T) as X. cbn [app repeat bb flat_map] in X. rewrite X in H3.
  assert (r' = setb r1 (prefix ++ t)) by congruence. subst r'. rewrite A2. auto.
Qed.
