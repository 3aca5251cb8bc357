(** PropertiesSyntax: C59 (what Next accepts), C93 (what the readers of headers accept).  A plain source ([rlater] is
    empty): the stream, then its end, again and again. *)
From Verif Require Import Base BitReader TsRobust After VlcTables BlockModel SpecVlc SpecBlock VidModel SpecVid VidProofs VidStream MbModel SpecMotion SpecPicture SpecNext NextProofs
  ExampleStream MbRunProofs SliceProofs PatternProofs SpecSyntax SyntaxProofs PropertiesVidHeaders PropertiesNext.

(** ** C59: frames come only from streams that follow the syntax, but for one deviation *)

(** What is accepted as a macroblock: one of the syntax; in P and B pictures also one that ends with nine zero bits in
    place of coded_block_pattern. *)
Definition accepted (y : layer) (c : list bool) : Prop := mb_syn y c \/ (y_type y <> 1 /\ mb_cut y c).

Lemma cut_not_intra : forall y c, mb_cut y c -> y_type y <> 1.
Proof.
  intros y c (q & f & b & i & c1 & _ & H) T. destruct H as (n & t & fm & ci & ct & cm & cd & cq & cf & cb & ck & _ & _ & (v & k & H & _) & _). rewrite T in H. cbn in H.
  repeat (destruct H as [H|H]; [discriminate H|]). contradiction.
Qed.
Lemma picture_mono : forall (A B : layer -> list bool -> Prop) y c, (forall y c, A y c -> B y c) -> picture_syn A y c -> picture_syn B y c.
Proof.
  intros A B y c H (T & ss & N & F & Q). split; [exact T|]. exists ss. split; [exact N|]. split; [|exact Q]. eapply Forall_impl; [|exact F].
  intros l (row & ext & q & fl & ms & j & H1 & H2 & H3 & H4 & H5 & H6 & H7). exists row, ext, q, fl, ms, j. split; [exact H1|]. split; [exact H2|]. split; [exact H3|]. split; [exact H4|]. split; [exact H5|]. split; [|exact H7].
  eapply Forall_impl; [|exact H6]. apply H.
Qed.
Lemma stream_mono : forall (A B : layer -> list bool -> Prop) o o' c, (forall y c, A y c -> B y c) -> stream_syn A o o' c -> stream_syn B o o' c.
Proof.
  intros A B o o' c H S. induction S as [|o h o' c d P S IH]; [constructor|]. econstructor; [|exact IH].
  destruct P as (c0 & c1 & c2 & p & e & c3 & H1 & H2 & H3 & H4 & g1 & g2 & ci & dd & P1 & P2 & P3 & P4 & P5 & P6 & P7).
  exists c0, c1, c2, p, e, c3. split; [exact H1|]. split; [exact H2|]. split; [exact H3|]. split; [exact H4|]. exists g1, g2, ci, dd. split; [exact P1|]. split; [exact P2|]. split; [exact P3|]. split; [exact P4|]. split; [exact P5|]. split; [|exact P7].
  eapply picture_mono; eauto.
Qed.
Lemma ok_accepted : forall y c, mb_ok y c -> accepted y c.
Proof. intros y c [H|H]; [now left | right; split; [eapply cut_not_intra; eauto | exact H]]. Qed.

(** If [n] calls of Next on a new decoder return frames, what has been read of the stream follows the syntax. *)
Theorem C59_partial : forall n r imgs v' r', rlater r = [] -> nexts n (new_vidseq, r) = (Ok imgs, (v', r')) ->
  exists c o, rbits r = c ++ rbits r' /\ stream_syn accepted None o c.
Proof.
  intros n r imgs v' r' Hr H. apply (nexts_after n None) in H; [|exact Hr|reflexivity|congruence]. destruct H as (o & c & _ & _ & S & A). exists c, o. split; [exact (after_bits _ _ _ A)|].
  eapply stream_mono; [|exact S]. exact ok_accepted.
Qed.

(** Without P and B pictures there is no deviation. *)
Theorem C59_intra : forall n r imgs v' r', rlater r = [] -> nexts n (new_vidseq, r) = (Ok imgs, (v', r')) ->
  exists c o, rbits r = c ++ rbits r' /\ stream_syn (fun y c => y_type y = 1 -> mb_syn y c) None o c.
Proof.
  intros n r imgs v' r' Hr H. apply C59_partial in H; [|exact Hr]. destruct H as (c & o & Q & S). exists c, o. split; [exact Q|]. eapply stream_mono; [|exact S].
  intros y d [H|(N & _)] T; [exact H | contradiction].
Qed.

(** No frame comes from data without a picture start code, or without a sequence header before it. *)
Lemma piece_codes : forall mb h c, piece_syn mb None h c -> exists a b d, c = a ++ code sequence_header_code ++ b ++ code picture_code ++ d.
Proof.
  intros mb h c (c0 & c1 & c2 & p & e & c3 & -> & _ & [S | (X & _)] & _ & P); [|discriminate].
  destruct S as (g1 & g2 & c4 & _ & _ & _ & _ & _ & ->). destruct P as (h1 & h2 & ci & d & _ & _ & _ & _ & _ & _ & ->).
  assert (E1 : exists t, enc_seq (fst h) = code sequence_header_code ++ t) by (unfold enc_seq; eexists; reflexivity). destruct E1 as (t & ->).
  assert (E2 : exists u, enc_pic p = code picture_code ++ u) by (unfold enc_pic; eexists; reflexivity). destruct E2 as (u & ->).
  exists c0, (t ++ g1 ++ enc_sext (snd h) ++ g2 ++ c4 ++ c2), (u ++ h1 ++ enc_pce e ++ h2 ++ ci ++ d). rewrite <- !app_assoc. reflexivity.
Qed.
Theorem C59_start_codes : forall r img s, rlater r = [] -> next (new_vidseq, r) = (Ok img, s) ->
  exists a b d, rbits r = a ++ code sequence_header_code ++ b ++ code picture_code ++ d.
Proof.
  intros r img [v' r'] Hr H. unfold next in H. rewrite bind_own in H. cbn [fst snd] in H.
  change (fs_tryget (v_fc new_vidseq) (v_fs new_vidseq)) with (@None image) in H. apply (next_loop_after _ None) in H; [|exact Hr|reflexivity|congruence].
  destruct H as (h & c & _ & _ & S & A). inversion S as [|o h' o' c1 c2 P S2]; subst. apply piece_codes in P. destruct P as (a & b & d & ->). exists a, b, (d ++ c2 ++ rbits r').
  rewrite (after_bits _ _ _ A), <- !app_assoc. reflexivity.
Qed.
(** Streams that are decoded: the one of [ExampleStream], and one with the deviation *)
Definition syntax_reader (l : list bool) : reader := mkR l EEOF [] (fun _ _ => EUnexpectedEOF).
Example C59_hyp : rlater (syntax_reader (enc_sequence 0 xs_groups)) = [] /\
  (exists imgs s, nexts (length (shown xs_groups)) (new_vidseq, syntax_reader (enc_sequence 0 xs_groups)) = (Ok imgs, s)) /\
  (exists imgs s, nexts 3 (new_vidseq, syntax_reader (enc_sequence 0 bad_groups)) = (Ok imgs, s)).
Proof.
  split; [reflexivity|]. split.
  - pose proof xs_groups_coded as X. unfold xs_groups in *. destruct (C73_sequences 0 _ _ (syntax_reader []) X) as (imgs & v' & N & _). eexists. eexists. exact N.
  - destruct (sequence_nexts 0 _ _ (syntax_reader []) bad_valid) as (imgs & v' & N & _). eexists. eexists. exact N.
Qed.

(** ** C93: the readers of headers accept nothing else *)

Theorem C93_sequence_header : forall r h r', read_sequence_header r = (Ok h, r') ->
  exists s g, wf_seq s /\ gap g /\ rbits r = enc_seq s ++ g ++ rbits r' /\ seq_holds s h.
Proof.
  intros r h r' E. unfold read_sequence_header in E. apply bind_ok_inv in E. destruct E as (h1 & q & E1 & E). apply seq_after in E1. destruct E1 as (s & W & A & ->). apply bind_ok_inv in E. destruct E as (u2 & q2 & E1 & E). apply gap_after in E1. destruct E1 as (g & t & G & Ag & _).
  assert (h = seq_of s /\ q2 = r') as [-> ->] by (unfold ret in E; split; congruence). exists s, g. split; [exact W|]. split; [exact G|]. split; [|apply seq_of_holds]. rewrite (after_bits _ _ _ A), (after_bits _ _ _ Ag). reflexivity.
Qed.
Lemma assigned : forall A (set : option A -> vidseq -> vidseq) m (S : Type) (wf : S -> Prop) enc_s of_s (holds : S -> A -> Prop) v r u v' r',
  (forall r h r', m r = (Ok h, r') -> exists s, wf s /\ after r (enc_s s) r' /\ h = of_s s) -> (forall s, holds s (of_s s)) ->
  assign_header set m (v, r) = (Ok u, (v', r')) -> exists s g h, wf s /\ gap g /\ rbits r = enc_s s ++ g ++ rbits r' /\ v' = set (Some h) v /\ holds s h.
Proof.
  intros A set m S wf enc_s of_s holds v r u v' r' Hm Hh H. apply assign_after in H. destruct H as (x & r1 & g & E & -> & G & Ag & _). apply Hm in E. destruct E as (s & W & As & ->).
  exists s, g, (of_s s). split; [exact W|]. split; [exact G|]. split; [rewrite (after_bits _ _ _ As), (after_bits _ _ _ Ag); reflexivity|]. split; [reflexivity | apply Hh].
Qed.
Theorem C93_sequence_extension : forall v r u v' r', vs_sequence_extension (v, r) = (Ok u, (v', r')) ->
  exists s g h, wf_sext s /\ gap g /\ rbits r = enc_sext s ++ g ++ rbits r' /\ v' = set_se (Some h) v /\ sext_holds s h.
Proof. intros v r u v' r' H. exact (assigned _ _ _ _ wf_sext enc_sext sext_of sext_holds _ _ _ _ _ sext_after sext_of_holds H). Qed.
Theorem C93_picture_header : forall v r u v' r', vs_picture_header (v, r) = (Ok u, (v', r')) ->
  exists s g h, wf_pic s /\ gap g /\ rbits r = enc_pic s ++ g ++ rbits r' /\ v' = set_ph (Some h) v /\ pic_holds s h.
Proof. intros v r u v' r' H. exact (assigned _ _ _ _ wf_pic enc_pic pic_of pic_holds _ _ _ _ _ pic_after pic_of_holds H). Qed.
Theorem C93_picture_coding_extension : forall v r u v' r', vs_picture_coding_extension (v, r) = (Ok u, (v', r')) ->
  exists s g h, wf_pce s /\ gap g /\ rbits r = enc_pce s ++ g ++ rbits r' /\ v' = set_pce (Some h) v /\ pce_holds s h.
Proof. intros v r u v' r' H. exact (assigned _ _ _ _ wf_pce enc_pce pce_of pce_holds _ _ _ _ _ pce_after pce_of_holds H). Qed.
Theorem C93_group_header : forall r h r', read_gop_header r = (Ok h, r') ->
  exists s g, wf_gop s /\ gap g /\ rbits r = enc_gop s ++ g ++ rbits r' /\ go_time h = dec (enc_time s) /\ go_closed h = g_closed s /\ go_broken h = g_broken s.
Proof.
  intros r h r' H. apply gop_after in H. destruct H as (s & g & t & W & G & A & _ & _ & H). exists s, g. split; [exact W|]. split; [exact G|]. split; [rewrite (after_bits _ _ _ A), <- app_assoc; reflexivity | exact H].
Qed.
(** After the extension start code *)
Theorem C93_display_extension : forall r h r', rlater r = [] -> sequence_display_extension r = (Ok h, r') ->
  exists s g, wf_disp s /\ gap g /\ rbits r = enc_disp s ++ g ++ rbits r' /\ disp_holds s h.
Proof.
  intros r h r' Hr H. apply disp_after in H; [|exact Hr]. destruct H as (s & g & t & W & G & A & _ & _ & ->). exists s, g. split; [exact W|]. split; [exact G|]. split; [rewrite (after_bits _ _ _ A), <- app_assoc; reflexivity | apply disp_of_holds].
Qed.
Theorem C93_temporal_extension : forall r h r', picture_temporal_scalable_extension r = (Ok h, r') ->
  exists s g, wf_temp s /\ gap g /\ rbits r = enc_temp s ++ g ++ rbits r' /\ te_select h = t_select s /\ te_forward h = t_forward s /\ te_backward h = t_backward s.
Proof.
  intros r h r' H. apply temp_after in H. destruct H as (s & g & t & W & G & A & _ & _ & ->). exists s, g. split; [exact W|]. split; [exact G|]. split; [rewrite (after_bits _ _ _ A), <- app_assoc; reflexivity | auto].
Qed.
(** A sequence of extensions and user data after a sequence extension (0), a group of pictures header (1), a picture
    coding extension (2); the stream is at a start code. *)
Theorem C93_extensions : forall i v r u v' r', rlater r = [] -> i = 0 \/ i = 1 \/ i = 2 -> at_code (rbits r) -> extension_and_user_data i (v, r) = (Ok u, (v', r')) ->
  exists c, xitems_syn i c /\ rbits r = c ++ rbits r'.
Proof.
  intros i v r u v' r' Hr Hi (t & Q & M) H. apply extension_and_user_data_after in H; [|exact Hr| |exact Hi].
  - destruct H as (_ & (c & X & A) & _). exists c. split; [exact X | exact (after_bits _ _ _ A)].
  - exists t. split; [exact Q|]. rewrite Q, app_length. change (length prefix) with (3 * 8)%nat. rewrite Nat.add_comm, Nat.mod_add by lia. exact M.
Qed.
(** Headers that are accepted *)
Example C93_hyp : (exists h r', read_sequence_header (setb ex_r (stuffed (enc_seq ex_seq) 1 ++ code 0)) = (Ok h, r')) /\
  (exists s, vs_sequence_extension (new_vidseq, setb ex_r (stuffed (enc_sext ex_sext) 1 ++ code 0)) = (Ok tt, s)) /\
  (exists s, vs_picture_header (new_vidseq, setb ex_r (stuffed (enc_pic ex_pic) 1 ++ code 0)) = (Ok tt, s)) /\
  (exists s, vs_picture_coding_extension (new_vidseq, setb ex_r (stuffed (enc_pce ex_pce) 1 ++ code 0)) = (Ok tt, s)) /\
  (exists h r', read_gop_header (setb ex_r (stuffed (enc_gop ex_gop) 1 ++ code 0)) = (Ok h, r')) /\
  (exists h r', sequence_display_extension (setb ex_r (enc_disp ex_disp ++ stuffing (32 + length (enc_disp ex_disp)) 1 ++ code 0)) = (Ok h, r')) /\
  (exists h r', picture_temporal_scalable_extension (setb ex_r (enc_temp ex_temp ++ stuffing (32 + length (enc_temp ex_temp)) 1 ++ code 0)) = (Ok h, r')).
Proof.
  assert (A : at_code (code 0)) by (exists (enc 8 0); split; reflexivity). destruct C37_hyp as (W1 & W2 & W3 & W4 & W5 & W6).
  split; [destruct (C36_sequence_header ex_seq 1 ex_r (code 0) ex_seq_wf A) as (h & E & _); eauto|].
  split; [destruct (C37_sequence_extension ex_sext 1 new_vidseq ex_r (code 0) W1 A) as (h & E & _); eauto|].
  split; [destruct (C37_picture_header ex_pic 1 new_vidseq ex_r (code 0) W2 A) as (h & E & _); eauto|].
  split; [destruct (C37_picture_coding_extension ex_pce 1 new_vidseq ex_r (code 0) W3 A) as (h & E & _); eauto|].
  split; [destruct (C37_group_header ex_gop 1 ex_r (code 0) W4 A) as (h & E & _); eauto|].
  split; [destruct (C37_display_extension ex_disp 1 ex_r (code 0) W5 A) as (h & E & _); eauto|].
  destruct (C37_temporal_extension ex_temp 1 ex_r (code 0) W6 A) as (h & E & _); eauto.
Qed.

Print Assumptions C59_partial.
Print Assumptions C59_intra.
Print Assumptions C59_start_codes.
Print Assumptions C93_sequence_header.
Print Assumptions C93_sequence_extension.
Print Assumptions C93_picture_header.
Print Assumptions C93_picture_coding_extension.
Print Assumptions C93_group_header.
Print Assumptions C93_display_extension.
Print Assumptions C93_temporal_extension.
Print Assumptions C93_extensions.
