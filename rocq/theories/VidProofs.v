(** VidProofs: running the video header model on encoded input. *)
From Verif Require Import Base BitReader Exec Local PesLocal VidModel SpecVid.

(** * Start codes *)
Lemma code_enc : forall b, 0 <= b < 256 -> code b = enc 32 (256 + b).
Proof.
  intros b H. unfold code, prefix. change 32%nat with (24 + 8)%nat. rewrite enc_app.
  change (2 ^ Z.of_nat 8) with 256. f_equal.
  - f_equal. apply Z.div_unique with b; lia.
  - rewrite <- enc_ext_mod, <- (enc_ext_mod 8 (256 + b)). f_equal. change (2 ^ Z.of_nat 8) with 256.
    rewrite <- (Z.add_mod_idemp_l 256) by lia. now rewrite Z.mod_same.
Qed.
Lemma code_length : forall b, length (code b) = 32%nat.
Proof. intros. unfold code, prefix. now rewrite app_length, !enc_length. Qed.

Lemma sc_check_code : forall c b r t, 0 <= b < 256 ->
  sc_check c (setb r (code b ++ t)) = (Ok (256 + b =? c), setb r (code b ++ t)).
Proof.
  intros. rewrite code_enc by auto. unfold sc_check. erewrite bind_ok; [reflexivity|].
  apply peek_enc. change (2 ^ Z.of_nat 32) with 4294967296. lia.
Qed.
Lemma peek_code : forall b r t, 0 <= b < 256 ->
  peek_n 32 (setb r (code b ++ t)) = (Ok (256 + b), setb r (code b ++ t)).
Proof.
  intros. rewrite code_enc by auto. apply peek_enc. change (2 ^ Z.of_nat 32) with 4294967296. lia.
Qed.
Lemma sc_assert_code : forall c b r t, 0 <= b < 256 -> 256 + b = c ->
  sc_assert c (setb r (code b ++ t)) = (Ok tt, setb r t).
Proof.
  intros. unfold sc_assert. erewrite bind_ok by (apply sc_check_code; auto).
  rewrite (proj2 (Z.eqb_eq _ _)) by auto. apply skip_app. apply code_length.
Qed.
Lemma id_assert_run : forall c r t, 0 <= c < 16 -> id_assert c (setb r (enc 4 c ++ t)) = (Ok tt, setb r t).
Proof.
  intros. unfold id_assert, id_check. rewrite bind_assoc.
  erewrite bind_ok; [|apply peek_enc; change (2 ^ Z.of_nat 4) with 16; lia].
  rewrite bind_ret, Z.eqb_refl. apply skip_enc.
Qed.
Lemma marker_run : forall r t, marker_bit (setb r (bit true ++ t)) = (Ok tt, setb r t).
Proof. intros. unfold marker_bit. erewrite bind_ok; [|apply read1_bit]. reflexivity. Qed.
Lemma marker_missing : forall r t, marker_bit (setb r (bit false ++ t)) = (Err ErrMissingMarkerBit, setb r t).
Proof. intros. unfold marker_bit. erewrite bind_ok; [|apply read1_bit]. reflexivity. Qed.
Lemma read_bit : forall b r t, read_n 1 (setb r (bit b ++ t)) = (Ok (Z.b2z b), setb r t).
Proof. intros. destruct b; reflexivity. Qed.

(** * next_start_code *)
Lemma mod8_app : forall A (a b : list A), (length b mod 8 = 0)%nat -> (length (a ++ b) mod 8 = length a mod 8)%nat.
Proof. intros. rewrite app_length. rewrite Nat.add_mod, H, Nat.add_0_r, Nat.mod_mod by lia. reflexivity. Qed.
Lemma bb_mod8 : forall l, (length (bb l) mod 8 = 0)%nat.
Proof. intros. rewrite bb_length, Nat.mul_comm. apply Nat.mod_mul. lia. Qed.
Lemma app_mod8 : forall A (a b : list A), (length a mod 8 = 0)%nat -> (length b mod 8 = 0)%nat -> (length (a ++ b) mod 8 = 0)%nat.
Proof. intros. rewrite mod8_app; auto. Qed.

Lemma vid_align_run : forall p r t, (length p < 8)%nat -> (length t mod 8 = 0)%nat ->
  vid_align (setb r (p ++ t)) = (Ok tt, setb r t).
Proof.
  intros. unfold vid_align. rewrite is_aligned_setb. rewrite mod8_app by auto.
  rewrite Nat.mod_small by auto. destruct p as [|b p]; [reflexivity|].
  cbn [length Nat.eqb]. unfold align_m, align. rewrite rbits_setb, setb_setb, mod8_app by auto.
  rewrite Nat.mod_small by auto. now rewrite skipn_app_exact.
Qed.

Definition window (l : list bool) : list bool := firstn 24 l.
Lemma nsc_prefix : forall f r t, nsc_loop (S f) (setb r (prefix ++ t)) = (Ok tt, setb r (prefix ++ t)).
Proof.
  intros. cbn [nsc_loop]. erewrite bind_ok; [|apply peek_enc; change (2 ^ Z.of_nat 24) with 16777216; lia].
  reflexivity.
Qed.
Lemma nsc_zero : forall f r t, (16 <= length t)%nat -> nsc_loop (S f) (setb r (enc 8 0 ++ t)) = nsc_loop f (setb r t) \/
  exists t', enc 8 0 ++ t = prefix ++ t'.
Proof.
  intros f r t H. cbn [nsc_loop].
  assert (E : enc 8 0 ++ t = (enc 8 0 ++ firstn 16 t) ++ skipn 16 t) by (rewrite <- app_assoc; f_equal; symmetry; apply firstn_skipn).
  assert (P : peek_n 24 (setb r (enc 8 0 ++ t)) = (Ok (dec (firstn 16 t)), setb r (enc 8 0 ++ t))).
  { rewrite E. rewrite peek_n_app; [|rewrite app_length, enc_length, firstn_length; lia].
    rewrite dec_app. now rewrite dec_enc by (cbn; lia). }
  erewrite bind_ok by exact P. destruct (dec (firstn 16 t) =? StartCodePrefix) eqn:D.
  - right. exists (skipn 16 t). rewrite E. f_equal. apply Z.eqb_eq in D.
    unfold prefix. change 24%nat with (8 + 16)%nat. rewrite (enc_app 8 16 1).
    change (1 / 2 ^ Z.of_nat 16) with 0. f_equal.
    rewrite <- (enc_dec (firstn 16 t)), D, firstn_length. now rewrite Nat.min_l by lia.
  - left. erewrite bind_ok; [|apply read_enc; cbn; lia]. reflexivity.
Qed.
Lemma prefix_zero : forall t t', (exists u, t = prefix ++ u) -> enc 8 0 ++ t = prefix ++ t' -> False.
Proof. intros t t' (u & ->) H. discriminate H. Qed.
Lemma zeros_window : forall k t t', enc 8 0 ++ bb (repeat 0 k) ++ prefix ++ t = prefix ++ t' -> False.
Proof.
  intros k t t' H. destruct k as [|[|[|k]]]; discriminate H.
Qed.
Lemma nsc_loop_run : forall k f r t, (k < f)%nat ->
  nsc_loop f (setb r (bb (repeat 0 k) ++ prefix ++ t)) = (Ok tt, setb r (prefix ++ t)).
Proof.
  induction k; intros f r t Hf; (destruct f; [lia|]).
  - apply nsc_prefix.
  - cbn [repeat]. rewrite bb_cons, <- app_assoc.
    destruct (nsc_zero f r (bb (repeat 0 k) ++ prefix ++ t)) as [E | (t' & E)].
    + rewrite !app_length. unfold prefix. rewrite enc_length. lia.
    + rewrite E. apply IHk. lia.
    + exfalso. eapply zeros_window. exact E.
Qed.
Lemma prefix_app_mod8 : forall t, (length t mod 8 = 0)%nat -> (length (prefix ++ t) mod 8 = 0)%nat.
Proof. intros. apply app_mod8; auto. Qed.
Lemma next_start_code_run : forall p k r t, (length p < 8)%nat -> (length t mod 8 = 0)%nat ->
  next_start_code (setb r (p ++ bb (repeat 0 k) ++ prefix ++ t)) = (Ok tt, setb r (prefix ++ t)).
Proof.
  intros. unfold next_start_code. erewrite bind_ok.
  2:{ apply vid_align_run; auto. apply app_mod8; [apply bb_mod8 | now apply prefix_app_mod8]. }
  cbv beta. apply nsc_loop_run. rewrite rbits_setb, app_length, bb_length, repeat_length. lia.
Qed.
Lemma alignment_small : forall n, (alignment n < 8)%nat.
Proof. intro. unfold alignment. apply Nat.mod_upper_bound. lia. Qed.
(** The form met at the end of a structure. *)
Lemma nsc_stuffing : forall n k r l, at_code l ->
  next_start_code (setb r (stuffing n k ++ l)) = (Ok tt, setb r l).
Proof.
  intros n k r l (t & -> & H). unfold stuffing. rewrite <- app_assoc. apply next_start_code_run; auto.
  rewrite repeat_length. apply alignment_small.
Qed.

(** * Matrices *)
Lemma read_entries_run : forall m r t, bytes m -> read_entries (length m) (setb r (bb m ++ t)) = (Ok m, setb r t).
Proof.
  induction m as [|b m IH]; intros r t H; [reflexivity|]. cbn [length read_entries]. rewrite bb_cons, <- app_assoc.
  pose proof (Forall_inv H) as Hb. pose proof (Forall_inv_tail H) as Hm. unfold byte in Hb.
  erewrite bind_ok; [|apply read_enc; cbn; lia].
  erewrite bind_ok; [|apply IH; auto]. unfold ret. unfold u8. rewrite Z.mod_small by lia. reflexivity.
Qed.
Lemma read_matrix_run : forall m r t, length m = 64%nat -> bytes m -> read_matrix (setb r (bb m ++ t)) = (Ok m, setb r t).
Proof. intros m r t L H. unfold read_matrix. rewrite <- L. now apply read_entries_run. Qed.
Global Opaque read_matrix.
Definition matrix_or (d : list Z) (m : option (list Z)) : list Z := match m with Some l => l | None => d end.
Definition present (m : option (list Z)) : bool := match m with Some _ => true | None => false end.
(** Load flag and matrix together. *)
Lemma load_run : forall A m d r t (k : bool -> qmatrix -> M reader A), wf_matrix m ->
  (l <- read1 ;; x <- (if l : bool then read_matrix else ret d) ;; k l x) (setb r (enc_matrix m ++ t)) =
  k (present m) (matrix_or d m) (setb r t).
Proof.
  intros A m d r t k H. destruct m as [m|]; unfold enc_matrix, present, matrix_or.
  - destruct H as [L B]. rewrite <- app_assoc. erewrite bind_ok; [|apply read1_bit]. cbv iota.
    erewrite bind_ok; [|apply read_matrix_run; auto]. reflexivity.
  - erewrite bind_ok; [|apply read1_bit]. reflexivity.
Qed.

Ltac vprim :=
  lazymatch goal with
  | |- sc_assert _ (setb _ (code _ ++ _)) = _ => apply sc_assert_code; [unfold sequence_header_code, extension_code, group_code, picture_code, user_data_code; lia | reflexivity]
  | |- id_assert _ (setb _ (enc 4 _ ++ _)) = _ => apply id_assert_run; cbv; split; congruence
  | |- marker_bit (setb _ (bit true ++ _)) = _ => apply marker_run
  | |- read1 (setb _ (bit _ ++ _)) = _ => apply read1_bit
  | |- read_n 1 (setb _ (bit _ ++ _)) = _ => apply read_bit
  | |- read_n _ (setb _ (enc _ _ ++ _)) = _ => apply read_enc; rng
  | |- skip_n _ (setb _ (enc _ _ ++ _)) = _ => apply skip_enc
  | |- peek_n _ (setb _ (enc _ _ ++ _)) = _ => apply peek_enc; rng
  end.
Ltac vstep :=
  cbv beta iota;
  lazymatch goal with
  | |- bind (bind _ _) _ _ = _ => rewrite bind_assoc
  | |- bind (ret _) _ _ = _ => rewrite bind_ret
  | |- bind (upd _) _ (_, _) = _ => rewrite bind_upd
  | |- bind (onr _) _ (_, _) = _ => erewrite bind_onr_ok; [ | vprim ]
  | |- bind _ _ _ = _ => erewrite bind_ok; [ | vprim ]
  end; cbv beta iota.
Ltac vrun := repeat vstep.

(** * Headers *)
Definition seq_holds (s : sseq) (h : seqheader) : Prop :=
  sh_horizontal h = q_horizontal s /\ sh_vertical h = q_vertical s /\ sh_aspect h = q_aspect s /\
  sh_frame_rate h = q_frame_rate s /\ sh_bit_rate h = q_bit_rate s /\ sh_vbv h = q_vbv s /\
  sh_constrained h = q_constrained s /\
  (sh_load_intra h = true <-> q_intra s <> None) /\ (sh_load_non_intra h = true <-> q_non_intra s <> None) /\
  (forall m, q_intra s = Some m -> sh_intra h = m) /\ (forall m, q_non_intra s = Some m -> sh_non_intra h = m).
Definition seq_of (s : sseq) : seqheader :=
  mkSeqH (q_horizontal s) (q_vertical s) (q_aspect s) (q_frame_rate s) (q_bit_rate s) (q_vbv s) (q_constrained s)
    (present (q_intra s)) (present (q_non_intra s)) (matrix_or zero_matrix (q_intra s)) (matrix_or zero_matrix (q_non_intra s)).
Lemma seq_of_holds : forall s, seq_holds s (seq_of s).
Proof.
  intro s. unfold seq_holds, seq_of; cbn. repeat (split; [reflexivity|]).
  split; [|split; [|split]].
  - destruct (q_intra s); cbn; split; congruence.
  - destruct (q_non_intra s); cbn; split; congruence.
  - intros m ->. reflexivity.
  - intros m ->. reflexivity.
Qed.
Lemma seq_fields_run : forall s r t, wf_seq s -> sequence_header_fields (setb r (enc_seq s ++ t)) = (Ok (seq_of s), setb r t).
Proof.
  intros s r t (H1 & H2 & H3 & H4 & H5 & H6 & H7 & H8). unfold sequence_header_fields, enc_seq, enc_seq_with. rewrite <- !app_assoc.
  vrun. rewrite load_run by auto. rewrite load_run by auto. reflexivity.
Qed.
Lemma seq_fields_marker : forall s r t, wf_seq s ->
  exists r', sequence_header_fields (setb r (enc_seq_with false s ++ t)) = (Err ErrMissingMarkerBit, r').
Proof.
  intros s r t (H1 & H2 & H3 & H4 & H5 & H6 & H7 & H8). unfold sequence_header_fields, enc_seq_with. rewrite <- !app_assoc.
  eexists. do 6 vstep. erewrite bind_err; [reflexivity|]. apply marker_missing.
Qed.

Definition sext_holds (s : ssext) (h : seqext) : Prop :=
  se_profile h = x_profile s /\ se_progressive h = Z.b2z (x_progressive s) /\ se_chroma h = x_chroma s /\
  se_hext h = x_h s /\ se_vext h = x_v s /\ se_bit_rate h = x_bit_rate s /\ se_vbv h = x_vbv s /\
  se_low_delay h = Z.b2z (x_low_delay s) /\ se_frame_n h = x_n s /\ se_frame_d h = x_d s.
Definition sext_of (s : ssext) : seqext :=
  mkSeqE (x_profile s) (Z.b2z (x_progressive s)) (x_chroma s) (x_h s) (x_v s) (x_bit_rate s) (x_vbv s)
    (Z.b2z (x_low_delay s)) (x_n s) (x_d s).
Lemma sext_of_holds : forall s, sext_holds s (sext_of s).
Proof. intro. repeat split; reflexivity. Qed.
Lemma sext_fields_run : forall s r t, wf_sext s -> sequence_extension_fields (setb r (enc_sext s ++ t)) = (Ok (sext_of s), setb r t).
Proof.
  intros s r t (H1 & H2 & H3 & H4 & H5 & H6 & H7 & H8). unfold sequence_extension_fields, enc_sext, enc_sext_with. rewrite <- !app_assoc.
  vrun. reflexivity.
Qed.
Lemma sext_fields_marker : forall s r t, wf_sext s ->
  exists r', sequence_extension_fields (setb r (enc_sext_with false s ++ t)) = (Err ErrMissingMarkerBit, r').
Proof.
  intros s r t (H1 & H2 & H3 & H4 & H5 & H6 & H7 & H8). unfold sequence_extension_fields, enc_sext_with. rewrite <- !app_assoc.
  eexists. do 8 vstep. erewrite bind_err; [reflexivity|]. apply marker_missing.
Qed.

Definition disp_holds (s : sdisp) (h : dispext) : Prop :=
  de_format h = d_format s /\ de_h h = d_h s /\ de_v h = d_v s /\
  match d_colour s with
  | None => de_colour h = false
  | Some (p, t, c) => de_colour h = true /\ de_primaries h = p /\ de_transfer h = t /\ de_matrix h = c
  end.
Definition disp_of (s : sdisp) : dispext :=
  match d_colour s with
  | None => mkDisp (d_format s) false 0 0 0 (d_h s) (d_v s)
  | Some (p, t, c) => mkDisp (d_format s) true p t c (d_h s) (d_v s)
  end.
Lemma disp_of_holds : forall s, disp_holds s (disp_of s).
Proof. intro s. unfold disp_holds, disp_of. destruct (d_colour s) as [[[p t] c]|]; cbn; repeat split; reflexivity. Qed.
Lemma disp_run : forall s n k r l, wf_disp s -> at_code l ->
  sequence_display_extension (setb r (enc_disp s ++ stuffing n k ++ l)) = (Ok (disp_of s), setb r l).
Proof.
  intros s n k r l (H1 & H2 & H3 & H4) Hl. unfold sequence_display_extension, enc_disp, enc_disp_with, disp_of. rewrite <- !app_assoc.
  destruct (d_colour s) as [[[p t] c]|]; rewrite <- ?app_assoc.
  - destruct H4 as (A & B & C). unfold byte in *. do 2 vstep.
    erewrite bind_ok; [|apply ignore_ok; apply read1_bit]. vrun.
    erewrite bind_ok; [|now apply nsc_stuffing]. reflexivity.
  - do 2 vstep. erewrite bind_ok; [|apply ignore_ok; apply read1_bit]. vrun.
    erewrite bind_ok; [|now apply nsc_stuffing]. reflexivity.
Qed.

(** GOP: the time code *)
Definition time_value (s : sgop) : Z :=
  Z.b2z (g_drop s) * 2 ^ 24 + g_hours s * 2 ^ 19 + g_minutes s * 2 ^ 13 + Z.b2z (g_marker s) * 2 ^ 12 + g_seconds s * 2 ^ 6 + g_pictures s.
Lemma enc_time_length : forall s, length (enc_time s) = 25%nat.
Proof. intro. unfold enc_time. rewrite !app_length, !enc_length. reflexivity. Qed.
Lemma dec_time : forall s, wf_gop s -> dec (enc_time s) = time_value s.
Proof.
  intros s (H1 & H2 & H3 & H4). unfold enc_time. rewrite !dec_app, !app_length, !enc_length.
  rewrite !dec_enc by (cbn; lia). unfold bit. cbn [length Nat.add]. unfold time_value.
  replace (dec [g_drop s]) with (Z.b2z (g_drop s)) by (destruct (g_drop s); reflexivity).
  replace (dec [g_marker s]) with (Z.b2z (g_marker s)) by (destruct (g_marker s); reflexivity).
  cbn [Z.of_nat Pos.of_succ_nat Pos.succ].
  change (2 ^ 24) with 16777216. change (2 ^ 19) with 524288. change (2 ^ 13) with 8192. change (2 ^ 12) with 4096. change (2 ^ 6) with 64.
  lia.
Qed.
Lemma time_range : forall s, wf_gop s -> 0 <= time_value s < 2 ^ 25.
Proof.
  intros s H. rewrite <- dec_time by auto. pose proof (dec_range (enc_time s)) as R. rewrite enc_time_length in R. exact R.
Qed.
Definition gop_of (s : sgop) : gophdr := mkGOP (time_value s) (g_closed s) (g_broken s).
Lemma gop_run : forall s n k r l, wf_gop s -> at_code l ->
  read_gop_header (setb r (enc_gop s ++ stuffing n k ++ l)) = (Ok (gop_of s), setb r l).
Proof.
  intros s n k r l H Hl. unfold read_gop_header, enc_gop. rewrite <- !app_assoc. vstep.
  erewrite bind_ok; [|apply read_n_app; apply enc_time_length]. rewrite dec_time by auto. vrun.
  erewrite bind_ok; [|now apply nsc_stuffing]. pose proof (time_range s H). rewrite i32_small; [reflexivity|].
  change (2 ^ 25) with 33554432 in *. lia.
Qed.
Lemma time_code_run : forall s, wf_gop s ->
  time_code (gop_of s) = mkTC (g_drop s) (g_hours s) (g_minutes s) (g_seconds s) (g_pictures s).
Proof.
  intros s (H1 & H2 & H3 & H4). unfold time_code, gop_of, go_time.
  change 63 with (Z.ones 6). change 31 with (Z.ones 5). rewrite !Z.land_ones, !Z.shiftr_div_pow2 by lia. unfold time_value.
  change (2 ^ 24) with 16777216. change (2 ^ 19) with 524288. change (2 ^ 13) with 8192. change (2 ^ 12) with 4096. change (2 ^ 6) with 64. change (2 ^ 5) with 32.
  change (2 ^ 5) with 32 in *. change (2 ^ 6) with 64 in *.
  set (h := g_hours s) in *. set (m := g_minutes s) in *. set (c := g_seconds s) in *. set (p := g_pictures s) in *.
  f_equal.
  - destruct (g_drop s); cbn [Z.b2z].
    + apply Z.eqb_eq. symmetry. apply Z.div_unique with (h * 524288 + m * 8192 + Z.b2z (g_marker s) * 4096 + c * 64 + p); destruct (g_marker s); cbn [Z.b2z]; lia.
    + apply Z.eqb_neq. rewrite Z.div_small; [lia|]. destruct (g_marker s); cbn [Z.b2z]; lia.
  - replace ((Z.b2z (g_drop s) * 16777216 + h * 524288 + m * 8192 + Z.b2z (g_marker s) * 4096 + c * 64 + p) / 524288) with (h + Z.b2z (g_drop s) * 32).
    + rewrite Z.mod_add by lia. apply Z.mod_small. lia.
    + apply Z.div_unique with (m * 8192 + Z.b2z (g_marker s) * 4096 + c * 64 + p); destruct (g_marker s), (g_drop s); cbn [Z.b2z]; lia.
  - replace ((Z.b2z (g_drop s) * 16777216 + h * 524288 + m * 8192 + Z.b2z (g_marker s) * 4096 + c * 64 + p) / 8192) with (m + (h + Z.b2z (g_drop s) * 32) * 64).
    + rewrite Z.mod_add by lia. apply Z.mod_small. lia.
    + apply Z.div_unique with (Z.b2z (g_marker s) * 4096 + c * 64 + p); destruct (g_marker s), (g_drop s); cbn [Z.b2z]; lia.
  - replace ((Z.b2z (g_drop s) * 16777216 + h * 524288 + m * 8192 + Z.b2z (g_marker s) * 4096 + c * 64 + p) / 64) with (c + (Z.b2z (g_marker s) + 2 * (m + (h + Z.b2z (g_drop s) * 32) * 64)) * 64).
    + rewrite Z.mod_add by lia. apply Z.mod_small. lia.
    + apply Z.div_unique with p; destruct (g_marker s), (g_drop s); cbn [Z.b2z]; lia.
  - replace (Z.b2z (g_drop s) * 16777216 + h * 524288 + m * 8192 + Z.b2z (g_marker s) * 4096 + c * 64 + p) with (p + (c + (Z.b2z (g_marker s) + 2 * (m + (h + Z.b2z (g_drop s) * 32) * 64)) * 64) * 64) by lia.
    rewrite Z.mod_add by lia. apply Z.mod_small. lia.
Qed.

(** Picture header *)
Lemma extra_run : forall ex f acc r t, bytes ex -> (length ex < f)%nat ->
  (e <- extra_loop f acc ;; skip_n 1 ;; ret e) (setb r (enc_extra ex ++ t)) = (Ok (acc ++ ex), setb r t).
Proof.
  induction ex as [|b ex IH]; intros f acc r t H Hf; (destruct f; [cbn in Hf; lia|]).
  - cbn [extra_loop]. unfold enc_extra. cbn [flat_map app]. rewrite app_nil_r. reflexivity.
  - cbn [extra_loop]. unfold enc_extra. cbn [flat_map]. unfold bit at 1. rewrite <- !app_assoc. cbn [app].
    rewrite bind_assoc. erewrite bind_ok; [|apply peek1_cons]. cbn [negb]. rewrite bind_assoc.
    erewrite bind_ok; [|apply (skip_app 1 r [true]); reflexivity]. rewrite bind_assoc.
    pose proof (Forall_inv H) as Hb. unfold byte in Hb.
    erewrite bind_ok; [|apply read_enc; cbn; lia]. unfold u8. rewrite Z.mod_small by lia.
    change (flat_map (fun b0 => true :: enc 8 b0) ex ++ bit false ++ t) with (flat_map (fun b0 => bit true ++ enc 8 b0) ex ++ (bit false ++ t)).
    rewrite (app_assoc _ (bit false)). change (flat_map (fun b0 => bit true ++ enc 8 b0) ex ++ bit false) with (enc_extra ex).
    rewrite IH; [|exact (Forall_inv_tail H) | cbn in Hf; lia]. rewrite <- app_assoc. reflexivity.
Qed.
Lemma enc_extra_length : forall ex, (length ex < length (enc_extra ex))%nat.
Proof.
  intro ex. unfold enc_extra. rewrite app_length. cbn [length bit].
  enough (length ex <= length (flat_map (fun b => bit true ++ enc 8 b) ex))%nat by lia.
  induction ex; [cbn; lia|]. cbn [flat_map]. rewrite !app_length, enc_length. change (length (bit true)) with 1%nat. cbn [length]. lia.
Qed.
Definition pic_holds (s : spic) (h : pichdr) : Prop :=
  ph_tr h = p_tr s /\ ph_type h = p_type s /\ ph_vbv h = p_vbv s /\ ph_extra h = p_extra s /\
  (p_type s = 2 \/ p_type s = 3 -> ph_fpf h = Z.b2z (fst (p_forward s)) /\ ph_ffc h = snd (p_forward s)) /\
  (p_type s = 3 -> ph_fpb h = Z.b2z (fst (p_backward s)) /\ ph_bfc h = snd (p_backward s)).
Definition pic_of (s : spic) : pichdr :=
  let f := (p_type s =? 2) || (p_type s =? 3) in
  let b := p_type s =? 3 in
  mkPH (p_tr s) (p_type s) (p_vbv s)
    (if f then Z.b2z (fst (p_forward s)) else 0) (if f then snd (p_forward s) else 0)
    (if b then Z.b2z (fst (p_backward s)) else 0) (if b then snd (p_backward s) else 0) (p_extra s).
Lemma pic_of_holds : forall s, pic_holds s (pic_of s).
Proof.
  intro s. unfold pic_holds, pic_of. cbn. repeat (split; [reflexivity|]). split.
  - intros [-> | ->]; split; reflexivity.
  - intros ->; split; reflexivity.
Qed.
Lemma fpel_run : forall A (c : bool) x r t (k : Z -> Z -> M reader A), 0 <= snd x < 2 ^ 3 ->
  ('(a, b) <- (if c then a <- read_n 1 ;; b <- read_n 3 ;; ret (a, b) else ret (0, 0)) ;; k a b)
    (setb r ((if c then enc_fpel x else []) ++ t)) =
  k (if c then Z.b2z (fst x) else 0) (if c then snd x else 0) (setb r t).
Proof.
  intros A c [y z] r t k H. cbn [fst snd] in *. destruct c; [|reflexivity]. unfold enc_fpel. rewrite <- app_assoc. cbn [fst snd].
  rewrite bind_assoc. erewrite bind_ok; [|apply read_bit]. rewrite bind_assoc. erewrite bind_ok; [|apply read_enc; cbn; lia]. reflexivity.
Qed.
Lemma pic_fields_run : forall s r t, wf_pic s -> picture_header_fields (setb r (enc_pic s ++ t)) = (Ok (pic_of s), setb r t).
Proof.
  intros s r t (H1 & H2 & H3 & H4 & H5 & H6). unfold picture_header_fields, enc_pic, pic_of. rewrite <- !app_assoc.
  do 4 vstep. unfold PFrame, BFrame.
  rewrite fpel_run by auto. rewrite fpel_run by auto.
  assert (E := extra_run (p_extra s) (S (length (enc_extra (p_extra s) ++ t))) [] r t H6).
  assert (L : (length (p_extra s) < S (length (enc_extra (p_extra s) ++ t)))%nat).
  { rewrite app_length. pose proof (enc_extra_length (p_extra s)). lia. }
  specialize (E L). cbn [app] in E.
  unfold bind in E |- *. rewrite rbits_setb.
  destruct (extra_loop _ _ _) as [[e|e| |] r1]; try discriminate E.
  destruct (skip_n 1 r1) as [[u|u| |] r2]; try discriminate E. cbv [ret] in E |- *. now injection E as -> ->.
Qed.

Definition pce_holds (s : spce) (h : piccodext) : Prop :=
  pc_f00 h = e_f00 s /\ pc_f01 h = e_f01 s /\ pc_f10 h = e_f10 s /\ pc_f11 h = e_f11 s /\
  pc_dc h = e_dc s /\ pc_struct h = e_struct s /\ pc_tff h = e_tff s /\ pc_fpfd h = Z.b2z (e_fpfd s) /\
  pc_conceal h = e_conceal s /\ pc_qtype h = Z.b2z (e_qtype s) /\ pc_vlc h = Z.b2z (e_vlc s) /\
  pc_alt h = Z.b2z (e_alt s) /\ pc_rff h = e_rff s /\ pc_c420 h = e_c420 s /\ pc_prog h = e_prog s /\
  match e_comp s with
  | None => pc_comp h = false
  | Some c => pc_comp h = true /\ pc_vaxis h = c_v_axis c /\ pc_fseq h = c_field c /\ pc_subc h = c_sub c /\
              pc_burst h = c_burst c /\ pc_phase h = c_phase c
  end.
Definition pce_of (s : spce) : piccodext :=
  match e_comp s with
  | None => mkPCE (e_f00 s) (e_f01 s) (e_f10 s) (e_f11 s) (e_dc s) (e_struct s) (e_tff s) (Z.b2z (e_fpfd s))
      (e_conceal s) (Z.b2z (e_qtype s)) (Z.b2z (e_vlc s)) (Z.b2z (e_alt s)) (e_rff s) (e_c420 s) (e_prog s)
      false false 0 false 0 0
  | Some c => mkPCE (e_f00 s) (e_f01 s) (e_f10 s) (e_f11 s) (e_dc s) (e_struct s) (e_tff s) (Z.b2z (e_fpfd s))
      (e_conceal s) (Z.b2z (e_qtype s)) (Z.b2z (e_vlc s)) (Z.b2z (e_alt s)) (e_rff s) (e_c420 s) (e_prog s)
      true (c_v_axis c) (c_field c) (c_sub c) (c_burst c) (c_phase c)
  end.
Lemma pce_of_holds : forall s, pce_holds s (pce_of s).
Proof. intro s. unfold pce_holds, pce_of. destruct (e_comp s); cbn; repeat split; reflexivity. Qed.
Lemma pce_fields_run : forall s r t, wf_pce s -> picture_coding_extension_fields (setb r (enc_pce s ++ t)) = (Ok (pce_of s), setb r t).
Proof.
  intros s r t (H1 & H2 & H3 & H4 & H5 & H6 & H7). unfold picture_coding_extension_fields, enc_pce, pce_of.
  destruct (e_comp s) as [c|]; rewrite <- !app_assoc.
  - destruct H7 as (A & B & C). vrun. reflexivity.
  - vrun. reflexivity.
Qed.

Definition temp_of (s : stemp) : tempext := mkTempE (t_select s) (t_forward s) (t_backward s).
Lemma temp_run : forall s n k r l, wf_temp s -> at_code l ->
  picture_temporal_scalable_extension (setb r (enc_temp s ++ stuffing n k ++ l)) = (Ok (temp_of s), setb r l).
Proof.
  intros s n k r l (H1 & H2 & H3) Hl. unfold picture_temporal_scalable_extension, enc_temp, enc_temp_with. rewrite <- !app_assoc.
  vrun. erewrite bind_ok; [|now apply nsc_stuffing]. reflexivity.
Qed.
