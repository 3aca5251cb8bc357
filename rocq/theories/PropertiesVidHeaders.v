(** PropertiesVidHeaders: C33 - C38, C54 - C57, C60, C66 - C68: start codes, headers and extensions of package video. *)
From Verif Require Import Base BitReader Exec Local TsRobust Mono PesModel PesLocal PsModel PropertiesPes VidModel SpecVid VidProofs VidStream VidExt VidLocal.

Lemma setb_same : forall r, setb r (rbits r) = r.
Proof. destruct r; reflexivity. Qed.
Lemma dec_is_code : forall n l c, (n <= length l)%nat -> 0 <= c < 2 ^ Z.of_nat n ->
  (dec (firstn n l) =? c) = true <-> firstn n l = enc n c.
Proof.
  intros n l c L H. rewrite Z.eqb_eq. split; intro E.
  - rewrite <- E. replace n with (length (firstn n l)) at 2 by (rewrite firstn_length; lia). symmetry. apply enc_dec.
  - rewrite E. now apply dec_enc.
Qed.
(** ** C33: Check and Assert, of package ps and video and of extension ids.
    [tests n c m]: [m] tells whether the next [n] bits are [c], and leaves the stream as it is. *)
Definition tests (n : nat) (c : Z) (m : M reader bool) : Prop := forall r,
  ((n <= length (rbits r))%nat -> exists b, m r = (Ok b, r) /\ (b = true <-> firstn n (rbits r) = enc n c)) /\
  ((length (rbits r) < n)%nat -> exists e r', m r = (Err e, r') /\ source_error r n e).
Definition asserts (n : nat) (c : Z) (bad : err) (m : M reader unit) : Prop := forall r,
  ((n <= length (rbits r))%nat -> firstn n (rbits r) = enc n c -> m r = (Ok tt, setb r (skipn n (rbits r)))) /\
  ((n <= length (rbits r))%nat -> firstn n (rbits r) <> enc n c -> m r = (Err bad, r)) /\
  ((length (rbits r) < n)%nat -> exists e r', m r = (Err e, r') /\ source_error r n e).
Lemma tests_gen : forall n c, 0 <= c < 2 ^ Z.of_nat n -> tests n c (v <- peek_n n ;; ret (v =? c)).
Proof.
  intros n c H r. split; intro L.
  - pose proof (peek_enough n r (rbits r) L) as P. rewrite setb_same in P.
    exists (dec (firstn n (rbits r)) =? c). split; [now erewrite bind_ok by exact P | now apply dec_is_code].
  - destruct (peek_short_err n r (rbits r) L) as (e & r' & E & S). rewrite setb_same in E. exists e, r'. split; auto. now erewrite bind_err by exact E.
Qed.
Lemma asserts_gen : forall n c bad, 0 <= c < 2 ^ Z.of_nat n ->
  asserts n c bad (t <- (v <- peek_n n ;; ret (v =? c)) ;; if t : bool then skip_n n else fail bad).
Proof.
  intros n c bad H r. destruct (tests_gen n c H r) as [T1 T2]. split; [|split].
  - intros L E. destruct (T1 L) as (b & E1 & E2). erewrite bind_ok by exact E1. rewrite (proj2 E2 E). unfold skip_n.
    erewrite bind_ok by (now apply read_n_enough). reflexivity.
  - intros L E. destruct (T1 L) as (b & E1 & E2). erewrite bind_ok by exact E1. destruct b; [|reflexivity]. exfalso. apply E, E2. reflexivity.
  - intro L. destruct (T2 L) as (e & r' & E & S). exists e, r'. split; auto. now erewrite bind_err by exact E.
Qed.
Theorem C33_check : forall c, 0 <= c < 2 ^ 32 -> tests 32 c (sc_check c) /\ tests 32 c (ps_check c).
Proof. intros c H. split; apply tests_gen; exact H. Qed.
Theorem C33_assert : forall c, 0 <= c < 2 ^ 32 ->
  asserts 32 c ErrUnexpectedStartCode (sc_assert c) /\ asserts 32 c ErrPsUnexpectedStartCode (ps_assert c).
Proof. intros c H. split; apply asserts_gen; exact H. Qed.
Theorem C33_extension_id : forall c, 0 <= c < 2 ^ 4 -> tests 4 c (id_check c) /\ asserts 4 c ErrUnexpectedExtensionID (id_assert c).
Proof. intros c H. split; [apply tests_gen | apply asserts_gen]; exact H. Qed.
(** The start codes have the values of table 6-1. *)
Theorem C33_codes : (forall b, 0 <= b < 256 -> enc 32 (256 + b) = code b) /\
  PictureStartCode = 256 + picture_code /\ UserDataStartCode = 256 + user_data_code /\
  SequenceHeaderStartCode = 256 + sequence_header_code /\ ExtensionStartCode = 256 + extension_code /\
  SequenceEndStartCode = 256 + sequence_end_code /\ GroupStartCode = 256 + group_code /\
  (forall b, is_slice (256 + b) = true <-> slice_codes b).
Proof.
  split; [intros; symmetry; now apply code_enc|]. repeat (split; [reflexivity|]). intro b. unfold is_slice, slice_codes.
  change MinSliceStartCode with 257. change MaxSliceStartCode with 431. rewrite andb_true_iff, !Z.leb_le. lia.
Qed.
Definition ex_r : reader := mkR [] EEOF [] (fun _ _ => EUnexpectedEOF).
Example C33_hyp : firstn 32 (rbits (setb ex_r (code 179 ++ [true]))) = enc 32 435 /\ firstn 32 (code 0 ++ [true]) <> enc 32 435.
Proof. split; [reflexivity | discriminate]. Qed.

(** ** C34: AlignTo.  Positions are counted in bytes from the next byte boundary. *)
Theorem C34_align_to : forall c r, 0 <= c < 2 ^ 32 ->
  (exists j, code_at c (aligned (rbits r)) j /\ (forall i, (i < j)%nat -> ~ code_at c (aligned (rbits r)) i) /\
     align_to c r = (Ok tt, setb r (skipn (8 * j) (aligned (rbits r))))) \/
  ((forall j, ~ code_at c (aligned (rbits r)) j) /\ exists e r', align_to c r = (Err e, r') /\ source_error r 32 e).
Proof.
  intros c r H. destruct (align_to_total c r H) as [A B].
  assert (D : (exists j, code_at c (aligned (rbits r)) j) \/ (forall j, ~ code_at c (aligned (rbits r)) j)).
  { assert (X : forall n, (exists j, (j < n)%nat /\ code_at c (aligned (rbits r)) j) \/ (forall j, (j < n)%nat -> ~ code_at c (aligned (rbits r)) j)).
    { induction n as [|n [(j & L & C) | N]]; [right; lia | left; exists j; split; [lia | auto] |].
      destruct (list_eq_dec bool_dec (firstn 32 (skipn (8 * n) (aligned (rbits r)))) (enc 32 c)) as [C|C].
      - left. exists n. split; [lia | exact C].
      - right. intros j L. destruct (Nat.eq_dec j n) as [->|]; [exact C|]. apply N. lia. }
    destruct (X (S (length (aligned (rbits r))))) as [(j & _ & C) | N]; [left; eauto|].
    right. intros j C. destruct (Nat.lt_ge_cases j (S (length (aligned (rbits r))))) as [L|L]; [exact (N j L C)|].
    unfold code_at in C. rewrite skipn_all2 in C by lia. apply (f_equal (@length _)) in C. now rewrite enc_length in C. }
  destruct D as [(j & C)|N].
  - left. destruct (first_occurrence _ _ _ C) as (i & C1 & C2). exists i. auto.
  - right. auto.
Qed.
Example C34_hyp : code_at 435 (aligned ([true] ++ bb [0; 0; 0; 1; 179])) 1 /\ ~ code_at 435 (aligned ([true] ++ bb [0; 0; 0; 1; 179])) 0.
Proof. split; [reflexivity | discriminate]. Qed.

(** ** C35: next_start_code, on the bytes [bs] after the next byte boundary *)
Theorem C35_next_start_code : forall r bs, aligned (rbits r) = bb bs -> bytes bs ->
  (* zero bytes up to a prefix *)
  (forall k t, bs = repeat 0 k ++ 0 :: 0 :: 1 :: t -> next_start_code r = (Ok tt, setb r (bb (0 :: 0 :: 1 :: t)))) /\
  (* another byte after the zeros *)
  (forall k b t, bs = repeat 0 k ++ b :: t -> b <> 0 -> (b = 1 -> (k < 2)%nat) -> (2 <= length t)%nat ->
     next_start_code r = (Err ErrUnexpectedNonZeroByte, setb r (bb t))) /\
  (* neither *)
  ((forall k t, bs <> repeat 0 k ++ 0 :: 0 :: 1 :: t) ->
   (forall k b t, bs = repeat 0 k ++ b :: t -> b <> 0 -> (b = 1 -> (k < 2)%nat) -> (length t < 2)%nat) ->
   exists e r', next_start_code r = (Err e, r') /\ source_error r 24 e).
Proof.
  intros r bs A B. destruct (next_start_code_total r bs A B) as [(o & y & X & E) | (N & E)].
  - assert (U : forall x1 x2, nsc_answer bs x1 -> nsc_answer bs x2 -> x1 = x2).
    { clear. intros x1 x2 H. revert x2. induction H; intros x2 H2; inversion H2; subst; auto; try congruence; exfalso; lia. }
    split; [|split].
    + intros k t ->. rewrite E. pose proof (U _ _ X (nsc_answer_complete_ok k t)) as Q. injection Q as -> ->. reflexivity.
    + intros k b t -> N K L. rewrite E. pose proof (U _ _ X (nsc_answer_complete_err k b t N K L)) as Q. injection Q as -> ->. reflexivity.
    + intros H1 H2. exfalso. assert (S := safe_nsc r). rewrite E in S. cbn [fst] in S. destruct o as [[]|e| |]; try tauto.
      * destruct (nsc_answer_ok _ _ X) as (k & t & -> & Q). eapply H1; eauto.
      * destruct (nsc_answer_err _ _ _ X) as (_ & k & b & Nb & Q & K & L). specialize (H2 k b y Q Nb K). lia.
  - split; [|split].
    + intros k t ->. exfalso. eapply N, nsc_answer_complete_ok.
    + intros k b t -> Nb K L. exfalso. eapply N, nsc_answer_complete_err; eauto.
    + auto.
Qed.
Example C35_hyp : aligned (rbits (setb ex_r ([false; false] ++ bb [0; 0; 0; 1; 179]))) = bb (repeat 0 1 ++ [0; 0; 1; 179]).
Proof. reflexivity. Qed.

(** ** C36: the sequence header *)
Theorem C36_sequence_header : forall s k r l, wf_seq s -> at_code l ->
  exists h, read_sequence_header (setb r (stuffed (enc_seq s) k ++ l)) = (Ok h, setb r l) /\ seq_holds s h.
Proof.
  intros s k r l W Hl. exists (seq_of s). split; [|apply seq_of_holds]. unfold read_sequence_header, stuffed. rewrite <- app_assoc.
  erewrite bind_ok by (now apply seq_fields_run). erewrite bind_ok by (now apply nsc_stuffing). reflexivity.
Qed.
Theorem C36_marker : forall s r t, wf_seq s ->
  exists r', read_sequence_header (setb r (enc_seq_with false s ++ t)) = (Err ErrMissingMarkerBit, r').
Proof.
  intros s r t W. destruct (seq_fields_marker s r t W) as (r' & E). exists r'. unfold read_sequence_header.
  now rewrite (bind_err _ _ _ _ _ _ _ _ E).
Qed.
Definition ex_matrix : list Z := 8 :: repeat 17 62 ++ [255].
Definition ex_seq : sseq := mkSseq 720 576 2 3 20000 112 false (Some ex_matrix) None.
Lemma ex_seq_wf : wf_seq ex_seq.
Proof.
  unfold wf_seq, ex_seq; cbn [q_horizontal q_vertical q_aspect q_frame_rate q_bit_rate q_vbv q_constrained q_intra q_non_intra wf_matrix].
  repeat (split; [lia|]). split; [|exact I]. split; [reflexivity|]. unfold ex_matrix, bytes.
  apply Forall_cons; [unfold byte; lia|]. apply Forall_app. split; [|apply Forall_cons; [unfold byte; lia | constructor]].
  apply Forall_forall. intros x Hx. apply repeat_spec in Hx. subst. unfold byte; lia.
Qed.
Lemma ex_at_code : forall b, at_code (code b).
Proof. intro b. exists (enc 8 b). split; reflexivity. Qed.
Example C36_hyp : wf_seq ex_seq /\ at_code (code extension_code).
Proof. split; [apply ex_seq_wf | apply ex_at_code]. Qed.

(** ** C37: the other headers *)
Lemma assign_run : forall A set (m : M reader A) e (x : A) k v r l, (forall r t, m (setb r (e ++ t)) = (Ok x, setb r t)) -> at_code l ->
  assign_header set m (v, setb r (stuffed e k ++ l)) = (Ok tt, (set (Some x) v, setb r l)).
Proof.
  intros A set m e x k v r l H Hl. unfold assign_header, stuffed. cbn [fst snd]. rewrite <- app_assoc, H, nsc_stuffing by auto. reflexivity.
Qed.
Theorem C37_sequence_extension : forall s k v r l, wf_sext s -> at_code l ->
  exists h, vs_sequence_extension (v, setb r (stuffed (enc_sext s) k ++ l)) = (Ok tt, (set_se (Some h) v, setb r l)) /\ sext_holds s h.
Proof.
  intros s k v r l W Hl. exists (sext_of s). split; [|apply sext_of_holds]. apply assign_run; auto. intros. now apply sext_fields_run.
Qed.
Theorem C37_picture_header : forall s k v r l, wf_pic s -> at_code l ->
  exists h, vs_picture_header (v, setb r (stuffed (enc_pic s) k ++ l)) = (Ok tt, (set_ph (Some h) v, setb r l)) /\ pic_holds s h.
Proof.
  intros s k v r l W Hl. exists (pic_of s). split; [|apply pic_of_holds]. apply assign_run; auto. intros. now apply pic_fields_run.
Qed.
Theorem C37_picture_coding_extension : forall s k v r l, wf_pce s -> at_code l ->
  exists h, vs_picture_coding_extension (v, setb r (stuffed (enc_pce s) k ++ l)) = (Ok tt, (set_pce (Some h) v, setb r l)) /\ pce_holds s h.
Proof.
  intros s k v r l W Hl. exists (pce_of s). split; [|apply pce_of_holds]. apply assign_run; auto. intros. now apply pce_fields_run.
Qed.
Theorem C37_group_header : forall s k r l, wf_gop s -> at_code l ->
  exists h, read_gop_header (setb r (stuffed (enc_gop s) k ++ l)) = (Ok h, setb r l) /\
    go_time h = dec (enc_time s) /\ go_closed h = g_closed s /\ go_broken h = g_broken s.
Proof.
  intros s k r l W Hl. exists (gop_of s). unfold stuffed. rewrite <- app_assoc. split; [now apply gop_run|]. rewrite dec_time by auto. repeat split.
Qed.
(** Display and temporal scalable extensions: their start code (32 bits) has been read. *)
Theorem C37_display_extension : forall s k r l, wf_disp s -> at_code l ->
  exists h, sequence_display_extension (setb r (enc_disp s ++ stuffing (32 + length (enc_disp s)) k ++ l)) = (Ok h, setb r l) /\ disp_holds s h.
Proof. intros s k r l W Hl. exists (disp_of s). split; [now apply disp_run | apply disp_of_holds]. Qed.
Theorem C37_temporal_extension : forall s k r l, wf_temp s -> at_code l ->
  exists h, picture_temporal_scalable_extension (setb r (enc_temp s ++ stuffing (32 + length (enc_temp s)) k ++ l)) = (Ok h, setb r l) /\
    te_select h = t_select s /\ te_forward h = t_forward s /\ te_backward h = t_backward s.
Proof. intros s k r l W Hl. exists (temp_of s). split; [now apply temp_run | repeat split]. Qed.
Theorem C37_sequence_extension_marker : forall s v r t, wf_sext s ->
  exists s', vs_sequence_extension (v, setb r (enc_sext_with false s ++ t)) = (Err ErrMissingMarkerBit, s').
Proof.
  intros s v r t W. destruct (sext_fields_marker s r t W) as (r' & E). eexists. unfold vs_sequence_extension. exact (assign_err _ _ _ _ _ _ _ E).
Qed.
Theorem C37_display_marker : forall s r t, wf_disp s ->
  exists r', sequence_display_extension (setb r (enc_disp_with false s ++ t)) = (Err ErrMissingMarkerBit, r').
Proof.
  intros s r t (H1 & H2 & H3 & H4). unfold sequence_display_extension, enc_disp_with. rewrite <- !app_assoc. eexists.
  destruct (d_colour s) as [[[p q] c]|]; rewrite <- ?app_assoc.
  - destruct H4 as (A & B & C). unfold byte in *. do 2 vstep. erewrite bind_ok; [|apply ignore_ok; apply read1_bit]. vrun.
    erewrite bind_err; [reflexivity|]. apply marker_missing.
  - do 2 vstep. erewrite bind_ok; [|apply ignore_ok; apply read1_bit]. vrun. erewrite bind_err; [reflexivity|]. apply marker_missing.
Qed.
Theorem C37_temporal_marker : forall s r t, wf_temp s ->
  exists r', picture_temporal_scalable_extension (setb r (enc_temp_with false s ++ t)) = (Err ErrMissingMarkerBit, r').
Proof.
  intros s r t (H1 & H2 & H3). unfold picture_temporal_scalable_extension, enc_temp_with. rewrite <- !app_assoc. eexists.
  vrun. erewrite bind_err; [reflexivity|]. apply marker_missing.
Qed.
Definition ex_sext : ssext := mkSsext 72 true 1 0 0 0 0 false 0 0.
Definition ex_pic : spic := mkSpic 5 3 65535 (false, 7) (false, 7) [1; 255].
Definition ex_pce : spce := mkSpce 3 2 3 1 2 3 true false false true true true false true true (Some (mkScomp true 5 false 64 255)).
Definition ex_gop : sgop := mkSgop true 23 59 true 58 29 true false.
Definition ex_disp : sdisp := mkSdisp 1 (Some (1, 2, 255)) 720 576.
Definition ex_temp : stemp := mkStemp 2 1023 512.
Example C37_hyp : wf_sext ex_sext /\ wf_pic ex_pic /\ wf_pce ex_pce /\ wf_gop ex_gop /\ wf_disp ex_disp /\ wf_temp ex_temp.
Proof.
  split; [repeat split; cbn; lia|]. split; [repeat split; try (cbn; lia); byte_list|]. split; [repeat split; cbn; lia|].
  split; [repeat split; cbn; lia|]. split; [repeat split; cbn; lia|]. repeat split; cbn; lia.
Qed.

(** ** C38: Size() *)
Theorem C38_before : size new_vidseq = (-1, -1).
Proof. reflexivity. Qed.
Lemma vs_seq_run : forall s k v r l, wf_seq s -> at_code l ->
  vs_sequence_header (v, setb r (stuffed (enc_seq s) k ++ l)) =
  (Ok tt, (set_sh (Some (seq_of s)) (set_q (matrix_or std_intra_matrix (q_intra s)) (matrix_or std_non_intra_matrix (q_non_intra s))
             (matrix_or std_intra_matrix (q_intra s)) (matrix_or std_non_intra_matrix (q_non_intra s)) v), setb r l)).
Proof.
  intros s k v r l W Hl. unfold vs_sequence_header.
  assert (E : read_sequence_header (setb r (stuffed (enc_seq s) k ++ l)) = (Ok (seq_of s), setb r l)).
  { unfold read_sequence_header, stuffed. rewrite <- app_assoc.
    erewrite bind_ok by (now apply seq_fields_run). erewrite bind_ok by (now apply nsc_stuffing). reflexivity. }
  erewrite bind_onr_ok by exact E. unfold upd. cbn [fst snd]. unfold seq_of. cbn [sh_load_intra sh_load_non_intra sh_intra sh_non_intra].
  destruct (q_intra s), (q_non_intra s); reflexivity.
Qed.
Lemma size_parts : forall a b, 0 <= a < 2 ^ 12 -> 0 <= b < 2 ^ 2 -> Z.lor a (u32 (Z.shiftl b 12)) = 4096 * b + a.
Proof.
  intros a b Ha Hb. rewrite Z.shiftl_mul_pow2 by lia. unfold u32. rewrite Z.mod_small by (change (2 ^ 12) with 4096; change (2 ^ 2) with 4 in *; lia).
  assert (L : Z.land a (b * 2 ^ 12) = 0).
  { apply Z.bits_inj'. intros n Hn. rewrite Z.land_spec, Z.bits_0. destruct (Z.lt_ge_cases n 12) as [L|L].
    - rewrite Z.mul_pow2_bits_low by lia. apply andb_false_r.
    - replace (Z.testbit a n) with false; [reflexivity|]. symmetry. destruct (Z.eq_dec a 0) as [->|]; [apply Z.bits_0|].
      apply Z.bits_above_log2; [lia|]. assert (Z.log2 a < 12) by (apply Z.log2_lt_pow2; lia). lia. }
  rewrite <- Z.lxor_lor, <- Z.add_nocarry_lxor by exact L. change (2 ^ 12) with 4096. lia.
Qed.
Theorem C38_size : forall s x k1 k2 v r l, wf_seq s -> wf_sext x -> at_code l ->
  exists v', (vs_sequence_header ;; vs_sequence_extension) (v, setb r (stuffed (enc_seq s) k1 ++ stuffed (enc_sext x) k2 ++ l)) = (Ok tt, (v', setb r l)) /\
    size v' = (4096 * x_h x + q_horizontal s, 4096 * x_v x + q_vertical s).
Proof.
  intros s x k1 k2 v r l Ws Wx Hl.
  assert (A : at_code (stuffed (enc_sext x) k2 ++ l)).
  { assert (P : exists t, stuffed (enc_sext x) k2 = prefix ++ t /\ (length t mod 8 = 0)%nat).
    { pose proof (stuffed_mod8 (length (enc_sext x)) k2 (enc_sext x) eq_refl) as M8. unfold stuffed in *.
      unfold enc_sext, enc_sext_with, code in *. rewrite <- !app_assoc in *. eexists. split; [reflexivity|].
      rewrite app_length in M8. change (length prefix) with (3 * 8)%nat in M8. rewrite Nat.add_comm in M8. now rewrite Nat.mod_add in M8 by lia. }
    destruct P as (t & -> & T). destruct Hl as (u & -> & U). exists (t ++ prefix ++ u). split; [now rewrite <- app_assoc|].
    apply app_mod8; auto. now apply prefix_app_mod8. }
  eexists. split.
  - erewrite bind_ok by (now apply vs_seq_run). unfold vs_sequence_extension. apply assign_run; auto. intros. now apply sext_fields_run.
  - destruct Ws as (W1 & W2 & _). destruct Wx as (_ & _ & X1 & X2 & _). unfold size. cbn [v_sh v_se set_se set_sh set_q seq_of sext_of sh_horizontal sh_vertical se_hext se_vext].
    now rewrite !size_parts by auto.
Qed.
Theorem C38_size_without_extension : forall s k v r l, wf_seq s -> at_code l -> v_se v = None ->
  exists v', vs_sequence_header (v, setb r (stuffed (enc_seq s) k ++ l)) = (Ok tt, (v', setb r l)) /\ size v' = (q_horizontal s, q_vertical s).
Proof.
  intros s k v r l W Hl N. eexists. split; [now apply vs_seq_run|]. unfold size. cbn [v_sh v_se set_sh set_q]. rewrite N. reflexivity.
Qed.
Example C38_hyp : wf_seq ex_seq /\ wf_sext ex_sext /\ at_code (code picture_code).
Proof. split; [apply ex_seq_wf|]. split; [apply C37_hyp | apply ex_at_code]. Qed.

(** ** C54, the part about extension and user data.
    After a sequence extension or a picture coding extension the loop ends on every finite stream; after a group
    of pictures header it never does when an extension start code follows: for every bound [f] on the number of
    turns the bound is reached, with nothing consumed. *)
Theorem C54_extensions_end : forall i v r, i <> 1 -> rlater r = [] -> fst (extension_and_user_data i (v, r)) <> OutOfFuel.
Proof. exact ext_user_data_nf. Qed.
Theorem C54_group_extension_refuted : forall f v r t, 
  ext_user_loop f 1 (v, setb r (code extension_code ++ t)) = (OutOfFuel, (v, setb r (code extension_code ++ t))).
Proof. exact ext_user_stuck. Qed.
(** Extensions and user data of a valid stream are consumed up to the next other start code. *)
Theorem C54_extensions_run : forall xs i v r l, Forall (allowed i) xs -> Forall wf_xitem xs -> at_other_code l ->
  exists v', extension_and_user_data i (v, setb r (enc_xitems xs ++ l)) = (Ok tt, (v', setb r l)) /\
    v_sh v' = v_sh v /\ v_se v' = v_se v /\ v_gop v' = v_gop v /\ v_ph v' = v_ph v /\ v_pce v' = v_pce v /\ v_fs v' = v_fs v /\ v_fc v' = v_fc v.
Proof.
  intros xs i v r l HA HW Hl. exists (items_effect xs v). split; [now apply ext_user_data_run|]. clear.
  revert v. induction xs as [|x xs IH]; intro v; [repeat split|]. cbn [items_effect fold_left]. fold (items_effect xs (item_effect x v)).
  destruct (IH (item_effect x v)) as (E1 & E2 & E3 & E4 & E5 & E6 & E7). rewrite E1, E2, E3, E4, E5, E6, E7. destruct x; repeat split.
Qed.
Definition ex_quant : squant := mkSquant (Some ex_matrix) None (Some (repeat 255 64)) None.
Definition ex_items : list xitem := [XUser [1; 2; 0; 0; 2]; XQuant ex_quant 3; XTemporal ex_temp 0; XUser []].
Lemma bytes_repeat : forall b n, byte b -> bytes (repeat b n).
Proof. intros b n H. apply Forall_forall. intros x Hx. apply repeat_spec in Hx. now subst. Qed.
Lemma ex_quant_wf : wf_quant ex_quant.
Proof.
  pose proof ex_seq_wf as (_ & _ & _ & _ & _ & _ & W & _). split; [exact W|]. split; [exact I|]. split; [|exact I].
  split; [reflexivity|]. apply bytes_repeat. unfold byte; lia.
Qed.
Ltac no_prefix_tac :=
  intros a b c x y E -> -> ->; cbn [app] in E;
  repeat (destruct x as [|? x]; cbn [app] in E; [injection E; intros; subst; try reflexivity; try discriminate|
    first [discriminate E | injection E as _ E]]); try (destruct x; discriminate E).
Lemma ex_items_wf : Forall wf_xitem ex_items.
Proof.
  unfold ex_items. apply Forall_cons; [split; [byte_list | no_prefix_tac]|].
  apply Forall_cons; [apply ex_quant_wf|]. apply Forall_cons; [apply C37_hyp|].
  apply Forall_cons; [split; [apply Forall_nil | no_prefix_tac]|]. apply Forall_nil.
Qed.
Example C54_hyp : Forall (allowed 2) ex_items /\ Forall wf_xitem ex_items /\ at_other_code (code 1).
Proof.
  split; [repeat (apply Forall_cons; [cbn; auto|]); apply Forall_nil|]. split; [apply ex_items_wf|].
  exists 1, []. unfold extension_code, user_data_code. rewrite app_nil_r. repeat split; try lia.
Qed.

(** ** C55: user data *)
Theorem C55_user_data : forall d r t, bytes d -> no_prefix d -> (length t mod 8 = 0)%nat ->
  user_data (setb r (enc_user d ++ prefix ++ t)) = (Ok d, setb r (prefix ++ t)).
Proof. exact user_data_run. Qed.
(** And whatever it returns is what stands between the start code and the next prefix. *)
Theorem C55_only : forall r d r', (length (rbits r) mod 8 = 0)%nat -> user_data r = (Ok d, r') ->
  exists t, rbits r = enc_user d ++ prefix ++ t /\ r' = setb r (prefix ++ t) /\ bytes d /\ no_prefix d.
Proof. exact user_data_inv. Qed.
Example C55_hyp : bytes [1; 2; 0; 0; 2] /\ no_prefix [1; 2; 0; 0; 2] /\ (length (enc_user [1; 2; 0; 0; 2]%Z) mod 8 = 0)%nat.
Proof. split; [byte_list|]. split; [no_prefix_tac | reflexivity]. Qed.

(** ** C56: the time code of a group of pictures header *)
Theorem C56_time_code : forall s k r l, wf_gop s -> at_code l ->
  exists h, read_gop_header (setb r (stuffed (enc_gop s) k ++ l)) = (Ok h, setb r l) /\
    time_code h = mkTC (g_drop s) (g_hours s) (g_minutes s) (g_seconds s) (g_pictures s).
Proof.
  intros s k r l W Hl. exists (gop_of s). unfold stuffed. rewrite <- app_assoc. split; [now apply gop_run | now apply time_code_run].
Qed.
Example C56_hyp : wf_gop ex_gop /\ at_code (code picture_code).
Proof. split; [apply C37_hyp | apply ex_at_code]. Qed.

(** ** C57: IsReserved.  Declared reserved: 0, 6 and everything above the last defined id, 10. *)
Definition declared_reserved (id : Z) : Prop := id = 0 \/ id = 6 \/ 11 <= id.
Theorem C57_is_reserved_partial : forall id, 0 <= id < 16 -> id <> 11 -> is_reserved id = true <-> declared_reserved id.
Proof. intros id H N. unfold is_reserved, declared_reserved. rewrite !orb_true_iff, !Z.eqb_eq, Z.ltb_lt. lia. Qed.
Theorem C57_refuted : declared_reserved 11 /\ is_reserved 11 = false.
Proof. split; [unfold declared_reserved; lia | reflexivity]. Qed.
Example C57_hyp : 0 <= 12 < 16 /\ 12 <> 11 /\ declared_reserved 12.
Proof. unfold declared_reserved. lia. Qed.

(** ** C60: quantiser matrices *)
Definition or_default (d : list Z) (m : option (list Z)) : list Z := match m with Some l => l | None => d end.
Theorem C60_sequence_header : forall s k v r l, wf_seq s -> at_code l ->
  exists v', vs_sequence_header (v, setb r (stuffed (enc_seq s) k ++ l)) = (Ok tt, (v', setb r l)) /\
    v_q0 v' = or_default std_intra_matrix (q_intra s) /\ v_q1 v' = or_default std_non_intra_matrix (q_non_intra s) /\
    v_q2 v' = or_default std_intra_matrix (q_intra s) /\ v_q3 v' = or_default std_non_intra_matrix (q_non_intra s).
Proof. intros s k v r l W Hl. eexists. split; [now apply vs_seq_run|]. repeat split. Qed.
Theorem C60_extension : forall s k v r l, wf_quant s -> at_other_code l ->
  exists v', extension_and_user_data 2 (v, setb r (enc_xitem (XQuant s k) ++ l)) = (Ok tt, (v', setb r l)) /\
    v_q0 v' = or_default (v_q0 v) (m_intra s) /\ v_q1 v' = or_default (v_q1 v) (m_non_intra s) /\
    v_q2 v' = or_default (or_default (v_q2 v) (m_intra s)) (m_chroma_intra s) /\
    v_q3 v' = or_default (or_default (v_q3 v) (m_non_intra s)) (m_chroma_non_intra s).
Proof.
  intros s k v r l W Hl. exists (quant_update s v). split; [|repeat split].
  pose proof (ext_user_data_run [XQuant s k] 2 v r l) as E. cbn [enc_xitems flat_map] in E. rewrite app_nil_r in E. apply E; auto.
  apply Forall_cons; [reflexivity | apply Forall_nil].
Qed.
Example C60_hyp : wf_seq ex_seq /\ wf_quant ex_quant /\ at_other_code (code 1).
Proof. split; [apply ex_seq_wf|]. split; [apply ex_quant_wf | apply C54_hyp]. Qed.

(** ** C66: a transmitted matrix goes to the positions the standard says (zigzag order).  It does not: for the
    matrix that is 1, 2, ..., 64 in transmission order, the decoder's intra matrix is not in zigzag order. *)
Definition ex_ramp : list Z := map Z.of_nat (seq 1 64).
Definition ex_ramp_seq : sseq := mkSseq 16 16 1 3 1 1 false (Some ex_ramp) None.
Lemma ex_ramp_wf : wf_seq ex_ramp_seq.
Proof.
  unfold wf_seq, ex_ramp_seq; cbn [q_horizontal q_vertical q_aspect q_frame_rate q_bit_rate q_vbv q_constrained q_intra q_non_intra wf_matrix].
  repeat (split; [lia|]). split; [|exact I]. split; [reflexivity|]. apply Forall_forall. intros x Hx. unfold ex_ramp in Hx.
  apply in_map_iff in Hx as (n & <- & Hn). apply in_seq in Hn. unfold byte. lia.
Qed.
Theorem C66_refuted : forall k v r l, at_code l ->
  exists v', vs_sequence_header (v, setb r (stuffed (enc_seq ex_ramp_seq) k ++ l)) = (Ok tt, (v', setb r l)) /\ ~ in_zigzag ex_ramp (v_q0 v').
Proof.
  intros k v r l Hl. eexists. split; [apply vs_seq_run; [apply ex_ramp_wf | exact Hl]|]. cbn [v_q0 set_sh set_q matrix_or q_intra ex_ramp_seq].
  intro H. specialize (H 2%nat ltac:(lia)). vm_compute in H. discriminate H.
Qed.
(** What holds: the default matrices, and transmitted ones that are symmetric in the two orders. *)
Theorem C66_partial : forall s m k v r l, wf_seq s -> at_code l -> q_intra s = Some m -> in_zigzag m m ->
  exists v', vs_sequence_header (v, setb r (stuffed (enc_seq s) k ++ l)) = (Ok tt, (v', setb r l)) /\ in_zigzag m (v_q0 v').
Proof.
  intros s m k v r l W Hl E Z. eexists. split; [now apply vs_seq_run|]. cbn [v_q0 set_sh set_q]. rewrite E. exact Z.
Qed.
Example C66_hyp : in_zigzag (repeat 16 64) (repeat 16 64) /\ zigzag <> seq 0 64 /\ firstn 6 zigzag = [0; 1; 8; 16; 9; 2]%nat.
Proof.
  split; [|split; [discriminate | reflexivity]].
  assert (Z : forallb (fun k => Nat.ltb (nth k zigzag 0%nat) 64) (seq 0 64) = true) by reflexivity.
  intros k Hk. rewrite forallb_forall in Z. specialize (Z k ltac:(apply in_seq; lia)). apply Nat.ltb_lt in Z.
  assert (R : forall j, (j < 64)%nat -> nth j (repeat 16 64) 0 = 16).
  { intros j Hj. apply (repeat_spec 64 16). apply nth_In. now rewrite repeat_length. }
  rewrite !R; auto.
Qed.

(** ** C67: every byte stream: the header parsers return; truncated headers are errors *)
Theorem C67_total :
  safe read_sequence_header /\ safe vs_sequence_extension /\ safe vs_picture_header /\ safe vs_picture_coding_extension /\
  safe read_gop_header /\ safe sequence_display_extension /\ safe picture_temporal_scalable_extension /\ safe quant_matrix_extension /\
  safe user_data /\ safe next_start_code.
Proof.
  repeat split; [apply safe_read_sequence_header | apply safe_vs_sext | apply safe_vs_pic | apply safe_vs_pce | apply safe_gop
   | apply safe_disp | apply safe_temp | apply safe_quant | apply safe_user | apply safe_nsc].
Qed.
Theorem C67_truncated_sequence_header : forall s r k, wf_seq s -> rlater r = [] -> (8 * k < length (enc_seq s))%nat ->
  exists x r', read_sequence_header (setb r (firstn (8 * k) (enc_seq s))) = (Err x, r').
Proof. exact seq_truncated. Qed.
Theorem C67_truncated_sequence_extension : forall s v r k, wf_sext s -> rlater r = [] -> (8 * k < length (enc_sext s))%nat ->
  exists x s', vs_sequence_extension (v, setb r (firstn (8 * k) (enc_sext s))) = (Err x, s').
Proof. exact sext_truncated. Qed.
Theorem C67_truncated_picture_header : forall s v r k, wf_pic s -> rlater r = [] -> (8 * k < length (enc_pic s))%nat ->
  exists x s', vs_picture_header (v, setb r (firstn (8 * k) (enc_pic s))) = (Err x, s').
Proof. exact pic_truncated. Qed.
Theorem C67_truncated_picture_coding_extension : forall s v r k, wf_pce s -> rlater r = [] -> (8 * k < length (enc_pce s))%nat ->
  exists x s', vs_picture_coding_extension (v, setb r (firstn (8 * k) (enc_pce s))) = (Err x, s').
Proof. exact pce_truncated. Qed.
Example C67_hyp : wf_seq ex_seq /\ rlater ex_r = [] /\ (8 * 75 < length (enc_seq ex_seq))%nat /\ wf_pce ex_pce /\ (8 * 10 < length (enc_pce ex_pce))%nat.
Proof. split; [apply ex_seq_wf|]. split; [reflexivity|]. split; [vm_compute; lia|]. split; [apply C37_hyp | vm_compute; lia]. Qed.

(** ** C68: TimeCode.String is "HH:MM:SS:FF" (';' before the pictures in drop frame) *)
Definition two (z : Z) : list Z := [48 + z / 10; 48 + z mod 10].
Definition smpte (t : timecode) : list Z :=
  two (tc_hours t) ++ [58] ++ two (tc_minutes t) ++ [58] ++ two (tc_seconds t) ++ [if tc_drop t then 59 else 58] ++ two (tc_pictures t).
Definition two_digits (z : Z) : Prop := 0 <= z < 100.
Definition printable (t : timecode) : Prop := two_digits (tc_hours t) /\ two_digits (tc_minutes t) /\ two_digits (tc_seconds t) /\ two_digits (tc_pictures t).
Lemma digits_10 : forall z, 10 <= z < 100 -> digits 10 z [] = two z.
Proof.
  intros z H. cbn [digits]. rewrite (proj2 (Z.eqb_neq _ _)). 2:{ assert (1 <= z / 10) by (apply Z.div_le_lower_bound; lia). lia. }
  rewrite (Z.div_div z 10 10) by lia. rewrite (Z.div_small z (10 * 10)) by lia. cbn [Z.eqb]. unfold two.
  rewrite (Z.mod_small (z / 10)) ; [reflexivity|]. split; [apply Z.div_pos; lia | apply Z.div_lt_upper_bound; lia].
Qed.
Lemma digits_1 : forall z, 0 <= z < 10 -> digits 10 z [] = [48 + z].
Proof. intros z H. cbn [digits]. rewrite (Z.div_small z 10) by lia. cbn [Z.eqb]. rewrite Z.mod_small by lia. reflexivity. Qed.
Lemma fmt_02d_two : forall z, two_digits z -> fmt_02d z = two z.
Proof.
  intros z H. unfold two_digits in H. unfold fmt_02d, fmt_d. rewrite (proj2 (Z.ltb_ge z 0)) by lia. destruct (Z.lt_ge_cases z 10).
  - rewrite digits_1 by lia. cbn [length Nat.ltb Nat.leb]. unfold two. rewrite Z.div_small, Z.mod_small by lia. reflexivity.
  - rewrite digits_10 by lia. reflexivity.
Qed.
Theorem C68_string_partial : forall t, printable t -> 10 <= tc_hours t -> time_string t = smpte t.
Proof.
  intros t (H & M & S & P) G. unfold time_string, smpte. rewrite !fmt_02d_two by auto. unfold fmt_d. unfold two_digits in H.
  rewrite (proj2 (Z.ltb_ge _ 0)) by lia. now rewrite digits_10 by lia.
Qed.
(** Below ten hours the first digit is missing: "1:02:03:04". *)
Theorem C68_refuted : forall t, printable t -> tc_hours t < 10 -> time_string t <> smpte t.
Proof.
  intros t (H & M & S & P) G E. unfold time_string, smpte in E. rewrite !fmt_02d_two in E by auto. apply (f_equal (@length _)) in E.
  unfold fmt_d in E. unfold two_digits in H. rewrite (proj2 (Z.ltb_ge _ 0)) in E by lia. rewrite digits_1 in E by lia.
  rewrite !app_length in E. cbn [length two] in E. lia.
Qed.
(** The string still determines the time code. *)
Theorem C68_injective : forall t u, printable t -> printable u -> time_string t = time_string u -> t = u.
Proof.
  intros t u (H & M & S & P) (H' & M' & S' & P') E. unfold time_string in E. rewrite !fmt_02d_two in E by auto.
  unfold two_digits in *.
  assert (T : forall a b, 0 <= a < 100 -> 0 <= b < 100 -> two a = two b -> a = b).
  { intros a b A B Q. unfold two in Q. assert (Q1 : 48 + a / 10 = 48 + b / 10) by congruence. assert (Q2 : 48 + a mod 10 = 48 + b mod 10) by congruence. pose proof (Z.div_mod a 10). pose proof (Z.div_mod b 10). lia. }
  assert (X : fmt_d (tc_hours t) = fmt_d (tc_hours u) /\ two (tc_minutes t) = two (tc_minutes u) /\ two (tc_seconds t) = two (tc_seconds u) /\
              [if tc_drop t then 59 else 58] = [if tc_drop u then 59 else 58] /\ two (tc_pictures t) = two (tc_pictures u)).
  { assert (L : length (fmt_d (tc_hours t)) = length (fmt_d (tc_hours u))).
    { apply (f_equal (@length _)) in E. rewrite !app_length in E. cbn [length two] in E. lia. }
    assert (Y : forall (a b : list Z) c d, length a = length b -> a ++ c = b ++ d -> a = b /\ c = d).
    { induction a; destruct b; intros c d LL EE; try discriminate LL; [auto|]. cbn in EE. injection EE as -> EE. destruct (IHa b c d ltac:(cbn in LL; lia) EE). subst. auto. }
    apply Y in E as [E1 E]; auto. apply Y in E as [_ E]; auto. apply Y in E as [E2 E]; auto. apply Y in E as [_ E]; auto.
    apply Y in E as [E3 E]; auto.  }
  destruct X as (X1 & X2 & X3 & X4 & X5).
  assert (HH : tc_hours t = tc_hours u).
  { unfold fmt_d in X1. rewrite !(proj2 (Z.ltb_ge _ 0)) in X1 by lia.
    destruct (Z.lt_ge_cases (tc_hours t) 10), (Z.lt_ge_cases (tc_hours u) 10).
    - rewrite !digits_1 in X1 by lia. assert (48 + tc_hours t = 48 + tc_hours u) by congruence. lia.
    - rewrite (digits_1 (tc_hours t)), (digits_10 (tc_hours u)) in X1 by lia. discriminate X1.
    - rewrite (digits_10 (tc_hours t)), (digits_1 (tc_hours u)) in X1 by lia. discriminate X1.
    - rewrite (digits_10 (tc_hours t)), (digits_10 (tc_hours u)) in X1 by lia. apply T; auto. }
  destruct t as [d1 h1 m1 s1 p1], u as [d2 h2 m2 s2 p2]. cbn [tc_drop tc_hours tc_minutes tc_seconds tc_pictures] in *.
  f_equal; auto. destruct d1, d2; try reflexivity; discriminate X4.
Qed.
Example C68_hyp : printable (mkTC true 23 59 58 29) /\ printable (mkTC false 1 2 3 4) /\ time_string (mkTC false 1 2 3 4) = [49; 58; 48; 50; 58; 48; 51; 58; 48; 52].
Proof. repeat split; cbn; lia. Qed.

Print Assumptions C33_check.
Print Assumptions C33_assert.
Print Assumptions C33_extension_id.
Print Assumptions C33_codes.
Print Assumptions C34_align_to.
Print Assumptions C35_next_start_code.
Print Assumptions C36_sequence_header.
Print Assumptions C36_marker.
Print Assumptions C37_sequence_extension.
Print Assumptions C37_picture_header.
Print Assumptions C37_picture_coding_extension.
Print Assumptions C37_group_header.
Print Assumptions C37_display_extension.
Print Assumptions C37_temporal_extension.
Print Assumptions C37_sequence_extension_marker.
Print Assumptions C37_display_marker.
Print Assumptions C37_temporal_marker.
Print Assumptions C38_before.
Print Assumptions C38_size.
Print Assumptions C38_size_without_extension.
Print Assumptions C54_extensions_end.
Print Assumptions C54_group_extension_refuted.
Print Assumptions C54_extensions_run.
Print Assumptions C55_user_data.
Print Assumptions C55_only.
Print Assumptions C56_time_code.
Print Assumptions C57_is_reserved_partial.
Print Assumptions C57_refuted.
Print Assumptions C60_sequence_header.
Print Assumptions C60_extension.
Print Assumptions C66_refuted.
Print Assumptions C66_partial.
Print Assumptions C67_total.
Print Assumptions C67_truncated_sequence_header.
Print Assumptions C67_truncated_sequence_extension.
Print Assumptions C67_truncated_picture_header.
Print Assumptions C67_truncated_picture_coding_extension.
Print Assumptions C68_string_partial.
Print Assumptions C68_refuted.
Print Assumptions C68_injective.
