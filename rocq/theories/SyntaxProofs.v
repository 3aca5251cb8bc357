(** SyntaxProofs: whatever the decoder accepts follows the syntax of SpecSyntax - the inverse of the round trips. *)
From Verif Require Import Base BitReader Exec Local TsRobust PesLocal After Huffman VlcTables BlockModel SpecVlc SpecBlock VlcProofs BlockProofs
  VidModel SpecVid VidProofs VidStream VidLocal MbModel SpecMotion MotionProofs SpecPicture EndProofs2 ShapeProofs NextProofs SpecSyntax.

Lemma marker_after : forall r u r', marker_bit r = (Ok u, r') -> after r (bit true) r'.
Proof.
  intros r u r' H. unfold marker_bit in H. apply bind_ok_inv in H as (b & r1 & H1 & H2). apply read1_after in H1. destruct b; inversion H2; subst. exact H1.
Qed.
Lemma assert_after : forall c r u r', 0 <= c < 256 -> sc_assert (256 + c) r = (Ok u, r') -> after r (code c) r'.
Proof. intros c r u r' Hc H. apply sc_assert_inv in H as (Q & R); [|exact Hc]. now apply after_intro. Qed.
Lemma id_assert_after : forall c r u r', id_assert c r = (Ok u, r') -> after r (enc 4 c) r'.
Proof.
  intros c r u r' H. unfold id_assert, id_check in H. apply bind_ok_inv in H as (b & r1 & H1 & H2). apply bind_ok_inv in H1 as (v & r2 & H1 & H3).
  inversion H3; subst. apply peek_after in H1 as (-> & _ & t & Q). destruct (Z.eqb_spec v c) as [Ev|]; [|discriminate]. rewrite Ev in Q.
  apply skip_after in H2 as (w & B & A). pose proof (after_bits _ _ _ A) as Q2. rewrite Q in Q2.
  enough (E : enc 4 c = enc 4 w) by (rewrite E; exact A).
  apply (f_equal (firstn 4)) in Q2. rewrite !firstn_app_exact in Q2 by apply enc_length. exact Q2.
Qed.
Lemma gap_after : forall r u r', next_start_code r = (Ok u, r') ->
  exists g t, gap g /\ after r g r' /\ rbits r' = prefix ++ t /\ (length (rbits r') mod 8 = 0)%nat.
Proof.
  intros r [] r' H. apply nsc_ok_inv in H as (al & k & t & L & Q & -> & M). exists (al ++ bb (repeat 0 k)), t.
  split; [exists al, k; auto|]. split; [|split; [reflexivity | exact M]]. apply after_intro; [rewrite rbits_setb, Q, <- app_assoc; reflexivity | now rewrite rbits_setb].
Qed.
(** Where a start code stands, next_start_code reads nothing. *)
Lemma nsc_here : forall r u r' t, rbits r = prefix ++ t -> (length (rbits r) mod 8 = 0)%nat -> next_start_code r = (Ok u, r') -> r' = r.
Proof.
  intros r u r' t E M H. assert (T : (length t mod 8 = 0)%nat).
  { rewrite E, app_length in M. change (length prefix) with 24%nat in M. replace (24 + length t)%nat with (length t + 3 * 8)%nat in M by lia. now rewrite Nat.mod_add in M by lia. }
  pose proof (next_start_code_run [] 0 r t ltac:(cbn; lia) T) as X. cbn [app repeat bb flat_map] in X. rewrite <- E, setb_rbits in X. congruence.
Qed.

(** * Headers *)
Tactic Notation "step_in" hyp(H) ident(x) ident(r1) :=
  let E := fresh "E" in apply bind_ok_inv in H; destruct H as (x & r1 & E & H);
  lazymatch type of E with
  | read_n 1 _ = _ => idtac
  | read_n _ _ = _ => let B := fresh "B" in apply read_after in E; destruct E as (B & E)
  | read1 _ = _ => apply read1_after in E
  | marker_bit _ = _ => apply marker_after in E
  | sc_assert _ _ = _ => apply (assert_after) in E; [|lia]
  | id_assert _ _ = _ => apply id_assert_after in E
  | _ => idtac
  end.
Tactic Notation "flag_in" hyp(H) ident(b) ident(r1) :=
  let E := fresh "E" in apply bind_ok_inv in H; let x := fresh "x" in destruct H as (x & r1 & E & H); apply read_bit_after in E; destruct E as (b & -> & E).

Lemma entries_after : forall n r l r', read_entries n r = (Ok l, r') -> length l = n /\ bytes l /\ after r (bb l) r'.
Proof.
  induction n as [|n IH]; intros r l r' H; cbn [read_entries] in H.
  - inversion H; subst. split; [reflexivity|]. split; [constructor | apply after_nil].
  - step_in H v r1. apply bind_ok_inv in H. destruct H as (t & r2 & Et & H). apply IH in Et. destruct Et as (L & Bt & At). inversion H; subst.
    change (2 ^ Z.of_nat 8) with 256 in B. assert (u8 v = v) as -> by (unfold u8; now rewrite Z.mod_small).
    cbn [length]. split; [reflexivity|]. split; [constructor; auto|]. rewrite bb_cons. chain.
Qed.
Lemma matrix_after : forall r l r', read_matrix r = (Ok l, r') -> length l = 64%nat /\ bytes l /\ after r (bb l) r'.
Proof. exact (entries_after 64). Qed.
Lemma load_after : forall r (b : bool) r1 m r2, after r (bit b) r1 -> (if b then read_matrix else ret zero_matrix) r1 = (Ok m, r2) ->
  exists o, wf_matrix o /\ after r (enc_matrix o) r2 /\ b = present o /\ m = matrix_or zero_matrix o.
Proof.
  intros r b r1 m r2 A H. destruct b.
  - apply matrix_after in H as (L & B & A2). exists (Some m). split; [split; assumption|]. split; [cbn [enc_matrix]; chain | split; reflexivity].
  - inversion H; subst. exists None. split; [exact I|]. split; [exact A | split; reflexivity].
Qed.

Lemma seq_after : forall r h r', sequence_header_fields r = (Ok h, r') -> exists s, wf_seq s /\ after r (enc_seq s) r' /\ h = seq_of s.
Proof.
  intros r h r' H. unfold sequence_header_fields in H. change SequenceHeaderStartCode with (256 + 179) in H.
  step_in H u r1. step_in H hz r2. step_in H vt r3. step_in H a r4. step_in H f r5. step_in H b r6. step_in H m r7. step_in H vbv r8. step_in H c r9.
  step_in H li r10. step_in H mi r11. destruct (load_after _ _ _ _ _ E8 E9) as (oi & Wi & Ai & -> & ->).
  step_in H ln r12. step_in H mn r13. destruct (load_after _ _ _ _ _ E10 E11) as (on & Wn & An & -> & ->). inversion H; subst.
  exists (mkSseq hz vt a f b vbv c oi on). split; [unfold wf_seq; cbn; auto 12|]. split; [|reflexivity]. unfold enc_seq, enc_seq_with. cbn [q_horizontal q_vertical q_aspect q_frame_rate q_bit_rate q_vbv q_constrained q_intra q_non_intra]. chain.
Qed.
Lemma sext_after : forall r h r', sequence_extension_fields r = (Ok h, r') -> exists s, wf_sext s /\ after r (enc_sext s) r' /\ h = sext_of s.
Proof.
  intros r h r' H. unfold sequence_extension_fields in H. change ExtensionStartCode with (256 + 181) in H.
  step_in H u r1. step_in H u2 r2. step_in H p r3. flag_in H g r4. step_in H c r5. step_in H hz r6. step_in H vt r7. step_in H b r8. step_in H m r9.
  step_in H vbv r10. flag_in H l r11. step_in H n r12. step_in H d r13. inversion H; subst.
  exists (mkSsext p g c hz vt b vbv l n d). split; [unfold wf_sext; cbn; auto 12|]. split; [|reflexivity]. unfold enc_sext, enc_sext_with. cbn [x_profile x_progressive x_chroma x_h x_v x_bit_rate x_vbv x_low_delay x_n x_d]. chain.
Qed.
Lemma extra_after : forall f acc r ex r', extra_loop f acc r = (Ok ex, r') -> exists l, ex = acc ++ l /\ bytes l /\
  after r (flat_map (fun b => bit true ++ enc 8 b) l) r' /\ exists t, rbits r' = false :: t.
Proof.
  induction f as [|f IH]; intros acc r ex r' H; cbn [extra_loop] in H; [discriminate|].
  apply bind_ok_inv in H. destruct H as (b & r1 & E & H). unfold peek1 in E. apply bind_ok_inv in E. destruct E as (v & r2 & E & E2). pose proof (peek_n_ok_inv _ _ _ _ E) as (_ & _ & ->).
  apply peek_after in E. destruct E as (_ & Bv & t & Q). inversion E2; subst. clear E2. destruct (v =? 1) eqn:Ev; cbn [negb] in H.
  - apply bind_ok_inv in H. destruct H as (u & r2 & E & H). apply skip_after in E. destruct E as (w & Bw & Aw). apply Z.eqb_eq in Ev. subst v.
    step_in H d r3. apply IH in H. destruct H as (l & -> & Bl & Al & T). change (2 ^ Z.of_nat 8) with 256 in B. assert (Ed : u8 d = d) by (unfold u8; now rewrite Z.mod_small). rewrite Ed.
    exists (d :: l). rewrite <- app_assoc. split; [reflexivity|]. split; [constructor; auto|]. split; [|exact T]. cbn [flat_map]. rewrite <- app_assoc.
    assert (Aw' : after r1 (bit true) r2).
    { pose proof (after_bits _ _ _ Aw) as Q2. rewrite Q in Q2. apply (f_equal (firstn 1)) in Q2. rewrite !firstn_app_exact in Q2 by apply enc_length. rewrite <- Q2 in Aw. exact Aw. }
    chain.
  - inversion H; subst. exists []. rewrite app_nil_r. split; [reflexivity|]. split; [constructor|]. split; [apply after_nil|]. exists t. rewrite Q. apply Z.eqb_neq in Ev. change (2 ^ Z.of_nat 1) with 2 in Bv. assert (v = 0) as -> by lia. reflexivity.
Qed.

Lemma pic_after : forall r h r', picture_header_fields r = (Ok h, r') -> exists s, wf_pic s /\ after r (enc_pic s) r' /\ h = pic_of s.
Proof.
  intros r h r' H. unfold picture_header_fields in H. change PictureStartCode with (256 + 0) in H.
  step_in H u r1. step_in H tr r2. step_in H ty r3. step_in H vbv r4.
  apply bind_ok_inv in H. destruct H as ([fpf ffc] & r5 & E3 & H). apply bind_ok_inv in H. destruct H as ([fpb bfc] & r6 & E4 & H).
  apply bind_ok_inv in H. destruct H as (ex & r7 & E5 & H). apply bind_ok_inv in H. destruct H as (u2 & r8 & E6 & H). inversion H; subst. clear H.
  apply extra_after in E5. destruct E5 as (l & -> & Bl & Al & t & Qt). cbn [app].
  assert (A6 : after r7 (bit false) r').
  { apply skip_after in E6. destruct E6 as (w & _ & A). pose proof (after_bits _ _ _ A) as Q2. rewrite Qt in Q2. apply (f_equal (firstn 1)) in Q2. rewrite firstn_app_exact in Q2 by apply enc_length. cbn [firstn] in Q2. rewrite <- Q2 in A. exact A. }
  assert (X3 : exists fw, 0 <= snd fw < 2 ^ 3 /\ after r4 (if (ty =? 2) || (ty =? 3) then enc_fpel fw else []) r5 /\
     (fpf, ffc) = if (ty =? 2) || (ty =? 3) then (Z.b2z (fst fw), snd fw) else (0, 0)).
  { unfold PFrame, BFrame in E3. destruct ((ty =? 2) || (ty =? 3)).
    - flag_in E3 a q1. step_in E3 b q2. inversion E3; subst. exists (a, ffc). split; [exact B2|]. split; [unfold enc_fpel; cbn [fst snd]; chain | reflexivity].
    - inversion E3; subst. exists (false, 0). split; [cbn; lia|]. split; [apply after_nil | reflexivity]. }
  assert (X4 : exists bw, 0 <= snd bw < 2 ^ 3 /\ after r5 (if ty =? 3 then enc_fpel bw else []) r6 /\
     (fpb, bfc) = if ty =? 3 then (Z.b2z (fst bw), snd bw) else (0, 0)).
  { unfold BFrame in E4. destruct (ty =? 3).
    - flag_in E4 a q1. step_in E4 b q2. inversion E4; subst. exists (a, bfc). split; [exact B2|]. split; [unfold enc_fpel; cbn [fst snd]; chain | reflexivity].
    - inversion E4; subst. exists (false, 0). split; [cbn; lia|]. split; [apply after_nil | reflexivity]. }
  destruct X3 as (fw & W3 & A3 & I3). destruct X4 as (bw & W4 & A4 & I4).
  exists (mkSpic tr ty vbv fw bw l). split; [unfold wf_pic; cbn [p_tr p_type p_vbv p_forward p_backward p_extra]; auto 12|]. split.
  - unfold enc_pic, enc_extra. cbn [p_tr p_type p_vbv p_forward p_backward p_extra]. chain.
  - unfold pic_of. cbn [p_tr p_type p_vbv p_forward p_backward p_extra]. destruct ((ty =? 2) || (ty =? 3)), (ty =? 3); congruence.
Qed.
Lemma pce_after : forall r h r', picture_coding_extension_fields r = (Ok h, r') -> exists s, wf_pce s /\ after r (enc_pce s) r' /\ h = pce_of s.
Proof.
  intros r h r' H. unfold picture_coding_extension_fields in H. change ExtensionStartCode with (256 + 181) in H.
  step_in H u r1. step_in H u2 r2. step_in H f00 r3. step_in H f01 r4. step_in H f10 r5. step_in H f11 r6. step_in H dc r7. step_in H st r8. step_in H tff r9.
  flag_in H fpfd r10. step_in H con r11. flag_in H qt r12. flag_in H vlc r13. flag_in H alt r14. step_in H rff r15. step_in H c420 r16. step_in H prog r17. step_in H comp r18.
  apply bind_ok_inv in H. destruct H as ([[[[va fs] sc] ba] sp] & r19 & EC & H). inversion H; subst. clear H. destruct comp.
  - step_in EC a q1. step_in EC b q2. step_in EC c q3. step_in EC d q4. step_in EC e q5. inversion EC; subst.
    exists (mkSpce f00 f01 f10 f11 dc st tff fpfd con qt vlc alt rff c420 prog (Some (mkScomp va fs sc ba sp))).
    split; [unfold wf_pce; cbn; auto 12|]. split; [|reflexivity].
    unfold enc_pce. cbn [e_f00 e_f01 e_f10 e_f11 e_dc e_struct e_tff e_fpfd e_conceal e_qtype e_vlc e_alt e_rff e_c420 e_prog e_comp c_v_axis c_field c_sub c_burst c_phase]. chain.
  - inversion EC; subst. exists (mkSpce f00 f01 f10 f11 dc st tff fpfd con qt vlc alt rff c420 prog None).
    split; [unfold wf_pce; cbn; auto 12|]. split; [|reflexivity].
    unfold enc_pce. cbn [e_f00 e_f01 e_f10 e_f11 e_dc e_struct e_tff e_fpfd e_conceal e_qtype e_vlc e_alt e_rff e_c420 e_prog e_comp]. chain.
Qed.
Lemma take_bits : forall n c, (n <= length c)%nat -> exists v, 0 <= v < 2 ^ Z.of_nat n /\ c = enc n v ++ skipn n c.
Proof.
  intros n c L. exists (dec (firstn n c)). pose proof (dec_range (firstn n c)) as D. pose proof (enc_dec (firstn n c)) as Q. rewrite firstn_length, Nat.min_l in D, Q by lia.
  split; [exact D|]. rewrite Q. symmetry. apply firstn_skipn.
Qed.
Lemma take_bit : forall n c, length c = S n -> exists b, c = bit b ++ skipn 1 c.
Proof. intros n [|b c] L; [discriminate|]. exists b. reflexivity. Qed.
Lemma time_exists : forall c, length c = 25%nat -> exists d h m mk s p, wf_gop (mkSgop d h m mk s p false false) /\
  forall cl br, enc_time (mkSgop d h m mk s p cl br) = c.
Proof.
  intros c L.
  destruct (take_bit 24 c L) as (d & Q1). set (c1 := skipn 1 c) in *. assert (L1 : length c1 = 24%nat) by (unfold c1; rewrite skipn_length; lia).
  destruct (take_bits 5 c1 ltac:(lia)) as (h & B2 & Q2). set (c2 := skipn 5 c1) in *. assert (L2 : length c2 = 19%nat) by (unfold c2; rewrite skipn_length; lia).
  destruct (take_bits 6 c2 ltac:(lia)) as (m & B3 & Q3). set (c3 := skipn 6 c2) in *. assert (L3 : length c3 = 13%nat) by (unfold c3; rewrite skipn_length; lia).
  destruct (take_bit 12 c3 L3) as (mk & Q4). set (c4 := skipn 1 c3) in *. assert (L4 : length c4 = 12%nat) by (unfold c4; rewrite skipn_length; lia).
  destruct (take_bits 6 c4 ltac:(lia)) as (s & B5 & Q5). set (c5 := skipn 6 c4) in *. assert (L5 : length c5 = 6%nat) by (unfold c5; rewrite skipn_length; lia).
  destruct (take_bits 6 c5 ltac:(lia)) as (p & B6 & Q6). rewrite skipn_all2, app_nil_r in Q6 by lia.
  exists d, h, m, mk, s, p. split; [unfold wf_gop; cbn [g_hours g_minutes g_seconds g_pictures]; auto|]. intros cl br. unfold enc_time. cbn [g_drop g_hours g_minutes g_marker g_seconds g_pictures].
  rewrite Q1, Q2, Q3, Q4, Q5, Q6. reflexivity.
Qed.
Lemma gop_after : forall r h r', read_gop_header r = (Ok h, r') -> exists s g t, wf_gop s /\ gap g /\ after r (enc_gop s ++ g) r' /\
  rbits r' = prefix ++ t /\ (length (rbits r') mod 8 = 0)%nat /\ go_time h = dec (enc_time s) /\ go_closed h = g_closed s /\ go_broken h = g_broken s.
Proof.
  intros r h r' H. unfold read_gop_header in H. change GroupStartCode with (256 + 184) in H.
  step_in H u r1. apply bind_ok_inv in H. destruct H as (t & r2 & E0 & H). apply read_n_inv in E0. destruct E0 as (c & L & Et & Q & R). pose proof (after_intro _ _ _ Q R) as A.
  destruct (time_exists c L) as (d & hh & m & mk & s & p & W & T).
  step_in H cl r3. step_in H br r4. apply bind_ok_inv in H. destruct H as (u2 & r5 & E3 & H). assert (h = mkGOP (i32 t) cl br /\ r' = r5) as [-> ->] by (unfold ret in H; split; congruence). clear H. apply gap_after in E3. destruct E3 as (g & tl & G & Ag & Qg & Mg).
  exists (mkSgop d hh m mk s p cl br), g, tl. split; [exact W|]. split; [exact G|]. split; [unfold enc_gop; rewrite T; cbn [g_closed g_broken]; rewrite <- !app_assoc; chain|]. split; [exact Qg|]. split; [exact Mg|].
  cbn [go_time go_closed go_broken g_closed g_broken]. split; [|auto]. rewrite T, Et. pose proof (dec_range c) as D. rewrite L in D. change (2 ^ Z.of_nat 25) with 33554432 in D. rewrite i32_small by lia. reflexivity.
Qed.

(** * Extensions and user data *)
Lemma disp_after : forall r h r', rlater r = [] -> sequence_display_extension r = (Ok h, r') -> exists s g t, wf_disp s /\ gap g /\ after r (enc_disp s ++ g) r' /\
  rbits r' = prefix ++ t /\ (length (rbits r') mod 8 = 0)%nat /\ h = disp_of s.
Proof.
  intros r h r' Hr H. unfold sequence_display_extension in H. step_in H u r1. step_in H f r2. apply bind_ok_inv in H. destruct H as (cd & r3 & E1 & H).
  apply bind_ok_inv in H. destruct H as ([[p t] m] & r4 & E2 & H).
  assert (X : after r2 (bit cd) r3).
  { unfold ignore_err in E1. destruct (read1 r2) as [[b|e| |] q] eqn:Eb; inversion E1; subst; [now apply read1_after|].
    exfalso. inversion E2; subst. unfold read1, bind, read_n in Eb. destruct (Nat.leb 1 (length (rbits r2))) eqn:El; [discriminate|]. apply Nat.leb_gt in El.
    destruct (rbits r2) eqn:Q2; [|cbn in El; lia]. unfold short in Eb. rewrite Q2 in Eb. unfold advance in Eb.
    assert (R2 : rlater r2 = []) by (rewrite (after_later _ _ _ E0), (after_later _ _ _ E); exact Hr). rewrite R2 in Eb. inversion Eb; subst. discriminate H. }
  assert (Y : exists o, (cd, p, t, m) = match o with None => (false, 0, 0, 0) | Some (p, t, c) => (true, p, t, c) end /\ match o with None => True | Some (p, t, c) => byte p /\ byte t /\ byte c end /\
      after r2 (match o with None => bit false | Some (p, t, c) => bit true ++ enc 8 p ++ enc 8 t ++ enc 8 c end) r4).
  { destruct cd.
    - step_in E2 a q1. step_in E2 b q2. step_in E2 c q3. inversion E2; subst. exists (Some (p, t, m)). split; [reflexivity|]. split; [unfold byte; auto|]. chain.
    - inversion E2; subst. exists None. split; [reflexivity|]. split; [exact I|exact X]. }
  destruct Y as (o & Eo & Wo & Ao). step_in H hz r5. step_in H u3 r6. step_in H vt r7. apply bind_ok_inv in H. destruct H as (u2 & r8 & E6 & H). inversion H; subst.
  apply gap_after in E6. destruct E6 as (g & tl & G & Ag & Qg & Mg).
  exists (mkSdisp f o hz vt), g, tl. split; [unfold wf_disp; cbn [d_format d_colour d_h d_v]; auto|]. split; [exact G|]. split; [unfold enc_disp, enc_disp_with; cbn [d_format d_colour d_h d_v]; rewrite <- !app_assoc; chain|]. split; [exact Qg|]. split; [exact Mg|].
  unfold disp_of. cbn [d_format d_colour d_h d_v]. destruct o as [[[p' t'] c']|]; injection Eo as -> -> -> ->; reflexivity.
Qed.
Lemma temp_after : forall r h r', picture_temporal_scalable_extension r = (Ok h, r') -> exists s g t, wf_temp s /\ gap g /\ after r (enc_temp s ++ g) r' /\
  rbits r' = prefix ++ t /\ (length (rbits r') mod 8 = 0)%nat /\ h = temp_of s.
Proof.
  intros r h r' H. unfold picture_temporal_scalable_extension in H. step_in H u r1. step_in H s r2. step_in H f r3. step_in H u3 r4. step_in H b r5.
  apply bind_ok_inv in H. destruct H as (u2 & r8 & E6 & H). inversion H; subst. apply gap_after in E6. destruct E6 as (g & tl & G & Ag & Qg & Mg).
  exists (mkStemp s f b), g, tl. split; [unfold wf_temp; cbn [t_select t_forward t_backward]; auto|]. split; [exact G|]. split; [unfold enc_temp, enc_temp_with; cbn [t_select t_forward t_backward]; rewrite <- !app_assoc; chain|]. auto.
Qed.

(** What a computation on the decoder's state may not change: the sequence header and its extension, the picture header
    and its extension *)
Definition headers (v : vidseq) := (v_sh v, v_se v, v_ph v, v_pce v).
Lemma qload_after : forall (f : qmatrix -> vidseq -> vidseq) s u s', (forall m v, headers (f m v) = headers v) ->
  (l <- onr read1 ;; (if l : bool then m <- onr read_matrix ;; upd (f m) else ret tt)) s = (Ok u, s') ->
  headers (fst s') = headers (fst s) /\ exists o, wf_matrix o /\ after (snd s) (enc_matrix o) (snd s').
Proof.
  intros f s u s' Hf H. apply bind_ok_inv in H. destruct H as (l & s1 & E & H). apply onr_inv in E. destruct E as (F1 & E). apply read1_after in E. destruct l.
  - apply bind_ok_inv in H. destruct H as (m & s2 & E2 & H). apply onr_inv in E2. destruct E2 as (F2 & E2). apply matrix_after in E2. destruct E2 as (L & B & A). apply upd_inv in H. subst s'. cbn [fst snd].
    split; [rewrite Hf; congruence|]. exists (Some m). split; [split; auto|]. cbn [enc_matrix]. chain.
  - inversion H; subst. split; [congruence|]. exists None. split; [exact I | exact E].
Qed.
Lemma quant_after : forall v r u v' r', rlater r = [] -> (exists t, rbits r = enc 4 3 ++ t) -> quant_matrix_extension (v, r) = (Ok u, (v', r')) ->
  headers v' = headers v /\ exists s g t, wf_quant s /\ gap g /\ after r (enc_quant s ++ g) r' /\
  rbits r' = prefix ++ t /\ (length (rbits r') mod 8 = 0)%nat.
Proof.
  intros v r u v' r' Hr (t0 & Q0) H. unfold quant_matrix_extension in H. apply bind_ok_inv in H. destruct H as ([] & [v1 r1] & E & H).
  assert (A0 : after r (enc 4 3) r1 /\ v1 = v).
  { pose proof (id_assert_run 3 r t0 ltac:(lia)) as X. rewrite <- Q0, setb_rbits in X. unfold ignore_err, onr in E. cbn [fst snd] in E. change QuantMatrixExtensionID with 3 in E. rewrite X in E. inversion E; subst. split; [|reflexivity]. apply after_intro; [rewrite rbits_setb; exact Q0 | now rewrite rbits_setb]. }
  clear E. destruct A0 as (A0 & ->).
  rewrite <- bind_assoc in H. apply bind_ok_inv in H. destruct H as ([] & s2 & E & H). apply qload_after in E; [|reflexivity]. destruct E as (F1 & o1 & W1 & A1).
  rewrite <- bind_assoc in H. apply bind_ok_inv in H. destruct H as ([] & s3 & E & H). apply qload_after in E; [|reflexivity]. destruct E as (F2 & o2 & W2 & A2).
  rewrite <- bind_assoc in H. apply bind_ok_inv in H. destruct H as ([] & s4 & E & H). apply qload_after in E; [|reflexivity]. destruct E as (F3 & o3 & W3 & A3).
  rewrite <- bind_assoc in H. apply bind_ok_inv in H. destruct H as ([] & s5 & E & H). apply qload_after in E; [|reflexivity]. destruct E as (F4 & o4 & W4 & A4).
  apply onr_inv in H. destruct H as (F5 & H). cbn [fst snd] in *. apply gap_after in H. destruct H as (g & tl & G & Ag & Qg & Mg).
  split; [congruence|]. exists (mkSquant o1 o2 o3 o4), g, tl. split; [unfold wf_quant; cbn [m_intra m_non_intra m_chroma_intra m_chroma_non_intra]; auto|]. split; [exact G|]. split; [|auto].
  unfold enc_quant. cbn [m_intra m_non_intra m_chroma_intra m_chroma_non_intra]. rewrite <- !app_assoc. chain.
Qed.
(** At a start code prefix on a byte boundary *)
Definition ready (r : reader) : Prop := exists t, rbits r = prefix ++ t /\ (length (rbits r) mod 8 = 0)%nat.
Lemma skip32_after : forall r c t, 0 <= c < 256 -> rbits r = code c ++ t -> skip_n 32 r = (Ok tt, setb r t).
Proof.
  intros r c t Hc Q. pose proof (skip_app 32 r (code c) t eq_refl) as X. rewrite <- Q, setb_rbits in X. exact X.
Qed.
Lemma body_after : forall i v r u v' r', rlater r = [] -> (i = 0 \/ i = 2) -> extension_body i (v, r) = (Ok u, (v', r')) ->
  headers v' = headers v /\ exists x c, xitem_syn x (code extension_code ++ c) /\ allowed i x /\ after r c r' /\ ready r'.
Proof.
  intros i v r u v' r' Hr Hi H. unfold extension_body in H. destruct Hi as [-> | ->]; cbn [Z.eqb] in H.
  - apply bind_ok_inv in H. destruct H as (id & [v1 r1] & E & H). apply onr_inv in E. destruct E as (F & E). cbn [fst snd] in F, E. apply peek_after in E. destruct E as (-> & _ & _). subst v1.
    destruct (id =? SequenceDisplayExtensionID).
    + apply bind_ok_inv in H. destruct H as (d & [v2 r2] & E & H). inversion H; subst. apply onr_inv in E. destruct E as (F & E). cbn [fst snd] in F, E. subst v'.
      apply disp_after in E; [|exact Hr]. destruct E as (s & g & t & W & G & A & Q & M & _). split; [reflexivity|].
      exists (XDisplay s 0), (enc_disp s ++ g). split; [split; [exact W | exists g; auto]|]. split; [reflexivity|]. split; [exact A | exists t; auto].
    + apply onr_inv in H. destruct H as (_ & H). cbn [fst snd] in H. unfold sequence_scalable_extension in H.
      apply bind_ok_inv in H. destruct H as (? & ? & _ & H). apply bind_ok_inv in H. destruct H as (? & ? & _ & H). apply bind_ok_inv in H. destruct H as (? & ? & _ & H). discriminate.
  - apply bind_ok_inv in H. destruct H as (id & [v1 r1] & E & H). apply onr_inv in E. destruct E as (F & E). cbn [fst snd] in F, E. apply peek_after in E. destruct E as (-> & _ & t0 & Q0). subst v1.
    destruct (Z.eqb_spec id QuantMatrixExtensionID) as [Ei|_].
    + subst id. apply quant_after in H; [|exact Hr|exists t0; exact Q0]. destruct H as (F & s & g & t & W & G & A & Q & M). split; [exact F|].
      exists (XQuant s 0), (enc_quant s ++ g). split; [split; [exact W | exists g; auto]|]. split; [reflexivity|]. split; [exact A | exists t; auto].
    + destruct (id =? CopyrightExtensionID); [discriminate|]. destruct (id =? PictureDisplayExtensionID); [discriminate|]. destruct (id =? PictureSpatialScalableExtensionID); [discriminate|].
      apply bind_ok_inv in H. destruct H as (d & [v2 r2] & E & H). inversion H; subst. apply onr_inv in E. destruct E as (F & E). cbn [fst snd] in F, E. subst v'.
      apply temp_after in E. destruct E as (s & g & t & W & G & A & Q & M & _). split; [reflexivity|].
      exists (XTemporal s 0), (enc_temp s ++ g). split; [split; [exact W | exists g; auto]|]. split; [reflexivity|]. split; [exact A | exists t; auto].
Qed.
Definition items_after (i : Z) (r r' : reader) : Prop :=
  exists xs cs, Forall2 xitem_syn xs cs /\ Forall (allowed i) xs /\ after r (concat cs) r'.
Lemma items_nil : forall i r, items_after i r r.
Proof. intros i r. exists [], []. split; [constructor|]. split; [constructor | apply after_nil]. Qed.
Lemma items_app : forall i r r1 r2, items_after i r r1 -> items_after i r1 r2 -> items_after i r r2.
Proof.
  intros i r r1 r2 (xs & cs & F & A & Q) (ys & ds & F' & A' & Q'). exists (xs ++ ys), (cs ++ ds). split; [now apply Forall2_app|]. split; [now apply Forall_app|].
  rewrite concat_app. eapply after_app; eauto.
Qed.
Lemma items_one : forall i r x c r', xitem_syn x c -> allowed i x -> after r c r' -> items_after i r r'.
Proof. intros i r x c r' W A Q. exists [x], [c]. split; [auto|]. split; [auto|]. cbn [concat]. now rewrite app_nil_r. Qed.
Lemma items_later : forall i r r', items_after i r r' -> rlater r' = rlater r.
Proof. intros i r r' (xs & cs & _ & _ & A). exact (after_later _ _ _ A). Qed.
Lemma data_after : forall f i v r u v' r', rlater r = [] -> ready r -> (i = 0 \/ i = 2) -> extension_data f i (v, r) = (Ok u, (v', r')) ->
  headers v' = headers v /\ items_after i r r' /\ ready r'.
Proof.
  induction f as [|f IH]; intros i v r u v' r' Hr Rd Hi H; cbn [extension_data] in H; [discriminate|].
  apply bind_ok_inv in H. destruct H as (b & [v1 r1] & E & H). apply onr_inv in E. destruct E as (F & E). cbn [fst snd] in F, E. apply peek_after in E. destruct E as (-> & _ & t & Q). subst v1.
  destruct (Z.eqb_spec b ExtensionStartCode) as [Eb|_]; cbn [negb] in H.
  - subst b. change (enc 32 ExtensionStartCode) with (code extension_code) in Q.
    apply bind_ok_inv in H. destruct H as ([] & [v1 r1] & E & H). unfold ignore_err, onr in E. cbn [fst snd] in E. rewrite (skip32_after r extension_code t ltac:(unfold extension_code; lia) Q) in E. inversion E; subst v1 r1. clear E.
    apply bind_ok_inv in H. destruct H as ([] & [v1 r1] & E & H). apply body_after in E; [|exact Hr|exact Hi]. destruct E as (F1 & x & c & W & A & Q1 & Rd1).
    assert (A0 : after r (code extension_code ++ c) r1). { eapply after_app; [|exact Q1]. apply after_intro; [rewrite rbits_setb; exact Q | now rewrite rbits_setb]. }
    apply IH in H; [|rewrite (after_later _ _ _ A0); exact Hr|exact Rd1|exact Hi]. destruct H as (F2 & It & Rd2). split; [congruence|]. split; [|exact Rd2].
    eapply items_app; [|exact It]. eapply items_one; eauto.
  - inversion H; subst. split; [reflexivity|]. split; [apply items_nil | exact Rd].
Qed.
Lemma user_after : forall r d r', ready r -> user_data r = (Ok d, r') -> xitem_syn (XUser d) (enc_user d) /\ after r (enc_user d) r' /\ ready r'.
Proof.
  intros r d r' (t0 & Q0 & M) H. apply user_data_inv in H; [|exact M]. destruct H as (t & Q & -> & B & N). split; [split; [split; assumption | reflexivity]|].
  split; [apply after_intro; [now rewrite rbits_setb | now rewrite rbits_setb]|]. exists t. rewrite rbits_setb. split; [reflexivity|].
  rewrite Q, app_length in M. assert (L : (length (enc_user d) mod 8 = 0)%nat).
  { unfold enc_user. rewrite app_length. change (length (code user_data_code)) with (4 * 8)%nat. assert (Lb : length (bb d) = (8 * length d)%nat) by apply bb_length. rewrite Lb. replace (4 * 8 + 8 * length d)%nat with ((4 + length d) * 8)%nat by lia. apply Nat.mod_mul. lia. }
  rewrite Nat.add_mod, L in M by lia. rewrite Nat.add_0_l, Nat.mod_mod in M by lia. exact M.
Qed.
Lemma ext_user_after : forall f i v r u v' r', rlater r = [] -> ready r -> (i = 0 \/ i = 1 \/ i = 2) -> ext_user_loop f i (v, r) = (Ok u, (v', r')) ->
  headers v' = headers v /\ items_after i r r' /\ ready r'.
Proof.
  induction f as [|f IH]; intros i v r u v' r' Hr Rd Hi H; cbn [ext_user_loop] in H; [discriminate|].
  apply bind_ok_inv in H. destruct H as (b & [v1 r1] & E & H). apply onr_inv in E. destruct E as (F & E). cbn [fst snd] in F, E. apply peek_after in E. destruct E as (-> & _ & t & Q). subst v1.
  destruct (negb (b =? ExtensionStartCode) && negb (b =? UserDataStartCode)) eqn:Eb.
  - inversion H; subst. split; [reflexivity|]. split; [apply items_nil | exact Rd].
  - apply bind_ok_inv in H. destruct H as ([] & [v1 r1] & E & H).
    assert (X : headers v1 = headers v /\ items_after i r r1 /\ ready r1).
    { destruct (negb (i =? 1) && (b =? ExtensionStartCode)) eqn:E1.
      - apply data_after in E; [exact E|exact Hr|exact Rd|]. apply andb_true_iff in E1. destruct E1 as (E1 & _). apply negb_true_iff, Z.eqb_neq in E1. lia.
      - destruct (b =? UserDataStartCode).
        + apply bind_ok_inv in E. destruct E as (d & [v2 r2] & E & E2). inversion E2; subst. apply onr_inv in E. destruct E as (F & E). cbn [fst snd] in F, E. subst v1.
          apply user_after in E; [|exact Rd]. destruct E as (W & A & R). split; [reflexivity|]. split; [|exact R]. eapply items_one; [exact W | exact I | exact A].
        + inversion E; subst. split; [reflexivity|]. split; [apply items_nil | exact Rd]. }
    destruct X as (F1 & I1 & R1). apply IH in H; [|rewrite (items_later _ _ _ I1); exact Hr|exact R1|exact Hi]. destruct H as (F2 & I2 & R2). split; [congruence|]. split; [|exact R2]. eapply items_app; eauto.
Qed.
Lemma extension_and_user_data_after : forall i v r u v' r', rlater r = [] -> ready r -> (i = 0 \/ i = 1 \/ i = 2) -> extension_and_user_data i (v, r) = (Ok u, (v', r')) ->
  headers v' = headers v /\ (exists c, xitems_syn i c /\ after r c r') /\ ready r'.
Proof.
  intros i v r u v' r' Hr Rd Hi H. apply ext_user_after in H; [|assumption..]. destruct H as (F & (xs & cs & A & B & C) & R). split; [exact F|]. split; [|exact R].
  exists (concat cs). split; [exists xs, cs; auto | exact C].
Qed.
Lemma assign_after : forall {A} (set : option A -> vidseq -> vidseq) m v r u v' r', assign_header set m (v, r) = (Ok u, (v', r')) ->
  exists x r1 g, m r = (Ok x, r1) /\ v' = set (Some x) v /\ gap g /\ after r1 g r' /\ ready r'.
Proof.
  intros A set m v r u v' r' H. unfold assign_header in H. cbn [fst snd] in H. destruct (m r) as [[x|e| |] r1] eqn:E; try discriminate.
  destruct (next_start_code r1) as [o r2] eqn:E2. inversion H; subst. apply gap_after in E2. destruct E2 as (g & t & G & Ag & Q & M). exists x, r1, g. split; [reflexivity|]. split; [reflexivity|]. split; [exact G|]. split; [exact Ag | exists t; auto].
Qed.

(** * Code words *)
Lemma hdecode_after : forall A (t : htable A) r a r', hdecode t r = (Ok a, r') -> exists c, In (c, a) (codes_of t) /\ after r c r'.
Proof. intros A t r a r' H. apply hdecode_ok_inv in H. destruct H as (c & Hc & Q & R). exists c. split; [exact Hc | now apply after_intro]. Qed.
(** The shortest strings that begin no code of a table *)
Fixpoint dead {A} (fuel : nat) (t : codes A) : list (list bool) :=
  match fuel with
  | O => []
  | S f => match leaf t with
           | Some _ => []
           | None => match t with [] => [[]] | _ => map (cons true) (dead f (branch true t)) ++ map (cons false) (dead f (branch false t)) end
           end
  end.
Lemma hwalk_err_inv : forall A f (t : codes A) r e r', rlater r = [] -> hwalk f t r = (Err e, r') -> rbits r' = [] \/ exists c, In c (dead f t) /\ after r c r'.
Proof.
  induction f as [|f IH]; intros t r e r' Hr H; [discriminate|]. cbn [hwalk] in H. cbn [dead]. destruct (leaf t) as [x|] eqn:El; [discriminate|].
  destruct t as [|h t]; [inversion H; subst; right; exists []; split; [now left | apply after_nil]|].
  remember (h :: t) as t0 eqn:Et. destruct (rbits r) as [|b l] eqn:Q.
  - left. unfold bind, read1, read_n, short, advance in H. unfold bind in H. rewrite Q, Hr in H. cbn [Nat.leb length] in H. inversion H. reflexivity.
  - assert (E : read1 r = (Ok b, setb r l)). { pose proof (read1_cons b r l) as X. rewrite <- Q, setb_rbits in X. exact X. }
    unfold bind in H. rewrite E in H. apply IH in H; [|exact Hr]. destruct H as [H | (c & Hc & A0)]; [now left|]. right. exists (b :: c). split.
    + apply in_or_app. destruct b; [left | right]; now apply in_map.
    + change (b :: c) with ([b] ++ c). eapply after_app; [|exact A0]. apply after_intro; [rewrite rbits_setb; exact Q | now rewrite rbits_setb].
Qed.
Lemma cbp_dead : dead (2 + maxlen (codes_of cbp_table)) (codes_of cbp_table) = [repeat false 9].
Proof. lazy. reflexivity. Qed.
Lemma cbp_err : forall r e r', rlater r = [] -> cbp_decode r = (Err e, r') -> rbits r' = [] \/ after r (repeat false 9) r'.
Proof.
  intros r e r' Hr H. unfold cbp_decode, hdecode in H. apply hwalk_err_inv in H; [|exact Hr]. rewrite cbp_dead in H. destruct H as [H | (c & [<- | []] & A)]; auto.
Qed.
Lemma mba_after : forall r a r', mba_decode r = (Ok a, r') -> exists c, mba_code c a /\ after r c r'.
Proof.
  intros r a r' H. apply hdecode_after in H. destruct H as (c & Hc & A). exists c. split; [|exact A]. unfold mba_code. rewrite <- (numbered_rel b1 1 c a) by lia.
  revert Hc. apply (codes_incl_dec _ Z.eqb); [apply Zeqb_ok | vm_compute; reflexivity].
Qed.
Lemma cbp_after : forall r a r', cbp_decode r = (Ok a, r') -> exists c, cbp_code c a /\ after r c r'.
Proof.
  intros r a r' H. apply hdecode_after in H. destruct H as (c & Hc & A). exists c. split; [|exact A]. unfold cbp_code. replace (Z.to_nat a) with (Z.to_nat (a - 0)) by lia. rewrite <- (numbered_rel b9 0 c a) by lia.
  revert Hc. apply (codes_incl_dec _ Z.eqb); [apply Zeqb_ok | vm_compute; reflexivity].
Qed.
Lemma motion_code_after : forall r m r', motion_code_decode r = (Ok m, r') -> exists c, motion_code_code c m /\ after r c r'.
Proof. intros r m r' H. apply motion_code_inv in H. destruct H as (c & Hc & Q & R). exists c. split; [exact Hc | now apply after_intro]. Qed.
Lemma mbtype_after : forall pct r t r',
  (if pct =? IFrame then mbtype_decode_I else if pct =? PFrame then mbtype_decode_P else if pct =? BFrame then mbtype_decode_B else panic) r = (Ok t, r') ->
  1 <= pct <= 3 /\ exists c, mbt_code (type_table pct) c (mbt_fields t) /\ after r c r'.
Proof.
  intros pct r t r' H. unfold IFrame, PFrame, BFrame in H.
  destruct (Z.eqb_spec pct 1) as [->|N1]; [|destruct (Z.eqb_spec pct 2) as [->|N2]; [|destruct (Z.eqb_spec pct 3) as [->|N3]; [|discriminate]]];
    (split; [lia|]); apply hdecode_after in H; destruct H as (c & Hc & A); exists c; (split; [|exact A]); cbn [type_table Z.eqb Pos.eqb]; apply mbt_codes_spec; revert Hc;
    (apply (codes_incl_dec _ mbt_eqb); [apply mbt_eqb_ok | vm_compute; reflexivity]).
Qed.
Lemma escapes_after : forall f n r m r', mba_escapes f n r = (Ok m, r') -> exists k, m = n + 33 * Z.of_nat k /\ after r (concat (repeat mb_escape k)) r'.
Proof.
  induction f as [|f IH]; intros n r m r' H; cbn [mba_escapes] in H; [discriminate|].
  apply bind_ok_inv in H. destruct H as (b & r1 & E & H). apply peek_after in E. destruct E as (-> & _ & t & Q).
  destruct (Z.eqb_spec b 8) as [Eb|_].
  - subst b. apply bind_ok_inv in H. destruct H as ([] & r1 & E & H). unfold ignore_err in E. pose proof (skip_app 11 r (enc 11 8) t eq_refl) as X. rewrite <- Q, setb_rbits in X. rewrite X in E. inversion E; subst r1.
    apply IH in H. destruct H as (k & -> & A). exists (S k). split; [lia|]. cbn [repeat concat]. eapply after_app; [|exact A]. apply after_intro; [rewrite rbits_setb; exact Q | now rewrite rbits_setb].
  - inversion H; subst. exists O. split; [lia | apply after_nil].
Qed.
Lemma increment_after : forall r n r', mb_increment r = (Ok n, r') -> exists c, incr_code n c /\ after r c r'.
Proof.
  intros r n r' H. unfold mb_increment in H. apply bind_ok_inv in H. destruct H as (e & r1 & E & H). apply escapes_after in E. destruct E as (k & -> & A).
  apply bind_ok_inv in H. destruct H as (i & r2 & E & H). assert (n = 0 + 33 * Z.of_nat k + i /\ r2 = r') as [-> ->] by (unfold ret in H; split; congruence). apply mba_after in E. destruct E as (c & Hc & A2).
  exists (concat (repeat mb_escape k) ++ c). split; [exists k, i, c; split; [lia | auto]|]. eapply after_app; eauto.
Qed.

(** * Macroblocks *)
(** A computation that reads nothing *)
Definition still {S A} (m : M (S * reader) A) : Prop := forall s a s', m s = (Ok a, s') -> snd s' = snd s.
Definition syn_mode (y : layer) (e : piccodext) (t : mbtype) (mt : Z) (mb : mbmode) : Prop :=
  mo_type mb = t /\
  (if y_frame y then mo_field_motion mb = 0 /\ (if (mb_motion_forward t || mb_motion_backward t) && negb (y_fpfd y) then mo_frame_motion mb = mt else mo_frame_motion mb = 0)
   else mo_frame_motion mb = 0 /\ (if mb_motion_forward t || mb_motion_backward t then mo_field_motion mb = mt else mo_field_motion mb = 0)).
Lemma pce_struct : forall y, (pc_struct (pce_of (y_pce y)) =? FramePicture) = y_frame y.
Proof. intro y. unfold y_frame, pce_of. destruct (e_comp (y_pce y)); reflexivity. Qed.
Lemma pce_fpfd : forall y, (pc_fpfd (pce_of (y_pce y)) =? 0) = negb (y_fpfd y) /\ (pc_fpfd (pce_of (y_pce y)) =? 1) = y_fpfd y.
Proof. intro y. unfold y_fpfd, pce_of. destruct (e_comp (y_pce y)); cbn; destruct (e_fpfd (y_pce y)); auto. Qed.
Lemma pce_f : forall y s t, f_code (pce_of (y_pce y)) s t = y_f y s t.
Proof. intros y s t. unfold f_code, y_f, pce_of. destruct (e_comp (y_pce y)); destruct s, t; reflexivity. Qed.
Lemma pce_conceal : forall y, pc_conceal (pce_of (y_pce y)) = e_conceal (y_pce y).
Proof. intro y. unfold pce_of. destruct (e_comp (y_pce y)); reflexivity. Qed.
Lemma pce_vlc : forall y, pc_vlc (pce_of (y_pce y)) = Z.b2z (e_vlc (y_pce y)).
Proof. intro y. unfold pce_of. destruct (e_comp (y_pce y)); reflexivity. Qed.
Lemma mode_after : forall y r mb r', macroblock_mode (y_type y) (pce_of (y_pce y)) r = (Ok mb, r') ->
  1 <= y_type y <= 3 /\ exists t mt c1 c2 c3, mbt_code (type_table (y_type y)) c1 (mbt_fields t) /\
    only_if ((mb_motion_forward t || mb_motion_backward t) && negb (y_frame y && y_fpfd y)) (fun c => 0 <= mt < 4 /\ c = enc 2 mt) c2 /\
    only_if (y_frame y && negb (y_fpfd y) && (mb_intra t || mb_pattern t)) (width 1) c3 /\
    syn_mode y (pce_of (y_pce y)) t mt mb /\ after r (c1 ++ c2 ++ c3) r'.
Proof.
  intros y r mb r' H. unfold macroblock_mode in H. apply bind_ok_inv in H. destruct H as (t & r1 & E & H). apply mbtype_after in E. destruct E as (T & c1 & Hc & A1). split; [exact T|].
  apply bind_ok_inv in H. destruct H as ([fm fd] & r2 & E & H).
  pose proof (pce_struct y) as X1. pose proof (proj1 (pce_fpfd y)) as X2.
  rewrite X1, X2 in *.
  assert (P : exists mt c2, only_if ((mb_motion_forward t || mb_motion_backward t) && negb (y_frame y && y_fpfd y)) (fun c => 0 <= mt < 4 /\ c = enc 2 mt) c2 /\
     after r1 c2 r2 /\ syn_mode y (pce_of (y_pce y)) t mt (mkMode t fm fd false)).
  { unfold syn_mode. cbn [mo_type mo_field_motion mo_frame_motion]. destruct (mb_motion_forward t || mb_motion_backward t); cbn [andb].
    - destruct (y_frame y); cbn [andb].
      + destruct (y_fpfd y); cbn [negb] in *.
        * inversion E; subst. exists 0, []. cbn [only_if]. auto using after_nil.
        * apply bind_ok_inv in E. destruct E as (x & r3 & E & E2). inversion E2; subst. apply read_after in E. destruct E as (B & A). exists fm, (enc 2 fm). cbn [only_if]. auto 6.
      + cbn [negb]. apply bind_ok_inv in E. destruct E as (x & r3 & E & E2). inversion E2; subst. apply read_after in E. destruct E as (B & A). exists fd, (enc 2 fd). cbn [only_if]. auto 6.
    - inversion E; subst. exists 0, []. cbn [only_if]. split; [reflexivity|]. split; [apply after_nil|]. destruct (y_frame y); auto. }
  destruct P as (mt & c2 & O2 & A2 & S).
  apply bind_ok_inv in H. destruct H as (d & r3 & E3 & H). inversion H; subst. clear H.
  assert (P : exists c3, only_if (y_frame y && negb (y_fpfd y) && (mb_intra t || mb_pattern t)) (width 1) c3 /\ after r2 c3 r').
  { destruct (y_frame y && negb (y_fpfd y) && (mb_intra t || mb_pattern t)); cbn [only_if].
    - apply read1_after in E3. exists (bit d). split; [reflexivity | exact E3].
    - inversion E3; subst. exists []. auto using after_nil. }
  destruct P as (c3 & O3 & A3). exists t, mt, c1, c2, c3. split; [exact Hc|]. split; [exact O2|]. split; [exact O3|]. split; [exact S|].
  eapply after_app; [exact A1|]. eapply after_app; eauto.
Qed.

(** In the decoder's state: [m] reads [c], described by [P] *)
Definition reads {A} (m : MB A) (P : list bool -> Prop) : Prop :=
  forall s a s', m s = (Ok a, s') -> exists c, P c /\ after (snd s) c (snd s').
Lemma reads_still : forall A (m : MB A), still m -> reads m (fun c => c = []).
Proof. intros A m H s a s' E. exists []. split; [reflexivity|]. rewrite (H _ _ _ E). apply after_nil. Qed.
Lemma reads_onr : forall A (m : M reader A) (P : list bool -> Prop), (forall r a r', m r = (Ok a, r') -> exists c, P c /\ after r c r') -> reads (onr m) P.
Proof. intros A m P H s a s' E. apply onr_inv in E. destruct E as (_ & E). exact (H _ _ _ E). Qed.
Lemma reads_bind : forall A B (m : MB A) (k : A -> MB B) (P Q R : list bool -> Prop), reads m P -> (forall a, reads (k a) Q) -> (forall c d, P c -> Q d -> R (c ++ d)) -> reads (bind m k) R.
Proof.
  intros A B m k P Q R Hm Hk HR s a s' H. apply bind_ok_inv in H. destruct H as (x & s1 & E & H). destruct (Hm _ _ _ E) as (c & Pc & A1). destruct (Hk _ _ _ _ H) as (d & Qd & A2).
  exists (c ++ d). split; [now apply HR | eapply after_app; eauto].
Qed.
Lemma reads_mono : forall A (m : MB A) (P Q : list bool -> Prop), reads m P -> (forall c, P c -> Q c) -> reads m Q.
Proof. intros A m P Q H Hi s a s' E. destruct (H _ _ _ E) as (c & Pc & A1). eauto. Qed.
Lemma still_ret : forall S A (a : A), still (ret a : M (S * reader) A).
Proof. intros S A a s x s' H. now inversion H. Qed.
Lemma still_upd : forall S (f : S -> S), still (upd f).
Proof. intros S f s x s' H. apply upd_inv in H. now subst. Qed.
Lemma still_bind : forall S A B (m : M (S * reader) A) (k : A -> M (S * reader) B), still m -> (forall a, still (k a)) -> still (bind m k).
Proof. intros S A B m k Hm Hk s a s' H. apply bind_ok_inv in H. destruct H as (x & s1 & E & H). rewrite (Hk _ _ _ _ H). exact (Hm _ _ _ E). Qed.
Lemma reads_onr1 : reads (onr (read_n 1)) (fun c => exists b, c = [b]).
Proof. apply reads_onr. intros r a r' H. apply read_bit_after in H. destruct H as (b & _ & A). exists [b]. split; [eauto | exact A]. Qed.

Lemma part_reads : forall y field dmv rr s t, reads (motion_vector_part (pce_of (y_pce y)) field dmv rr s t) (fun c => dmv = false /\ component_syn (y_f y s t) c).
Proof.
  intros y field dmv rr s t st a st' H. unfold motion_vector_part in H. rewrite pce_f in H. apply bind_ok_inv in H. destruct H as (m & s1 & E & H). apply onr_inv in E. destruct E as (_ & E).
  apply motion_code_after in E. destruct E as (c1 & Hc & A1). apply bind_ok_inv in H. destruct H as (res & s2 & E & H).
  destruct dmv; [discriminate|]. apply upd_inv in H. assert (Es : snd st' = snd s2) by (subst; reflexivity). rewrite Es.
  assert (X : exists c2, width (if (y_f y s t =? 1) || (m =? 0) then 0 else Z.to_nat (y_f y s t - 1)) c2 /\ after (snd s1) c2 (snd s2)).
  { rewrite <- negb_orb in E. destruct ((y_f y s t =? 1) || (m =? 0)); cbn [negb] in E.
    - inversion E; subst. exists []. split; [reflexivity | apply after_nil].
    - destruct (y_f y s t =? 0); [discriminate|]. apply onr_inv in E. destruct E as (_ & E). apply read_after in E. destruct E as (_ & A2). exists (enc (Z.to_nat (y_f y s t - 1)) res). split; [apply enc_length | exact A2]. }
  destruct X as (c2 & W & A2). exists (c1 ++ c2). split; [|eapply after_app; eauto]. split; [reflexivity|]. exists m, c1, c2. auto.
Qed.
Lemma vector_reads : forall y field dmv rr s, reads (motion_vector (pce_of (y_pce y)) field dmv rr s) (fun c => dmv = false /\ vector_syn y s c).
Proof.
  intros. unfold motion_vector. eapply reads_bind; [apply part_reads | intro; apply part_reads|]. cbn beta. intros c d (_ & H1) (D & H2). split; [exact D|]. exists c, d. auto.
Qed.
(** The form of the vectors, as mv_info sees it *)
Definition form_info (f : motion_form) : Z * bool * bool :=
  match f with OneFrame => (1, false, false) | OneField => (1, true, false) | TwoFields => (2, true, false) end.
Lemma info_form : forall y t mt mb s i s', syn_mode y (pce_of (y_pce y)) t mt mb -> (mb_intra t = true -> mb_motion_forward t = false /\ mb_motion_backward t = false) ->
  (mb_motion_forward t || mb_motion_backward t = false -> mb_intra t = true) ->
  mv_info (pce_of (y_pce y)) mb (s : mstate * reader) = (Ok i, s') -> snd i = true \/ exists f, form_of y (mb_intra t) mt f /\ i = form_info f.
Proof.
  intros y t mt mb s i s' (Ht & S) Hi Hn H. unfold mv_info in H. rewrite (proj2 (pce_fpfd y)) in H. unfold form_of. destruct (y_fpfd y).
  { inversion H; subst. right. exists OneFrame. auto. }
  destruct (y_frame y).
  - destruct S as (S1 & S2). cbn [negb] in S2. rewrite andb_true_r in S2. rewrite S1 in H. destruct (mb_motion_forward t || mb_motion_backward t) eqn:Em.
    + assert (mb_intra t = false) as -> by (destruct (mb_intra t); [destruct (Hi eq_refl) as [X1 X2]; rewrite X1, X2 in Em; discriminate | reflexivity]). rewrite S2 in H.
      destruct (Z.eqb_spec mt 1); [inversion H; subst; right; exists TwoFields; auto|]. destruct (Z.eqb_spec mt 2); [inversion H; subst; right; exists OneFrame; auto|].
      destruct (Z.eqb_spec mt 3); [inversion H; subst; now left|]. discriminate.
    + rewrite S2 in H. discriminate.
  - destruct S as (S1 & S2). rewrite S1 in H. destruct (mb_motion_forward t || mb_motion_backward t) eqn:Em.
    + assert (mb_intra t = false) as -> by (destruct (mb_intra t); [destruct (Hi eq_refl) as [X1 X2]; rewrite X1, X2 in Em; discriminate | reflexivity]). rewrite S2 in H.
      cbn [Z.eqb] in H. destruct (Z.eqb_spec mt 1); [inversion H; subst; right; exists OneField; auto|]. destruct (Z.eqb_spec mt 2); [inversion H; subst; right; exists TwoFields; auto|].
      destruct (Z.eqb_spec mt 3); [inversion H; subst; now left|]. discriminate.
    + rewrite S2 in H. discriminate.
Qed.
Lemma vectors_after : forall y t mt mb k s a s', syn_mode y (pce_of (y_pce y)) t mt mb -> (mb_intra t = true -> mb_motion_forward t = false /\ mb_motion_backward t = false) ->
  (mb_motion_forward t || mb_motion_backward t = false -> mb_intra t = true) ->
  motion_vectors (pce_of (y_pce y)) mb k s = (Ok a, s') -> exists f c, form_of y (mb_intra t) mt f /\ vectors_syn y k f c /\ after (snd s) c (snd s') /\ forall s0, mv_info (pce_of (y_pce y)) mb (s0 : mstate * reader) = (Ok (form_info f), s0).
Proof.
  intros y t mt mb k s a s' S Hi Hn H. unfold motion_vectors in H. apply bind_ok_inv in H. destruct H as (i & s1 & E & H). pose proof (mv_info_state _ _ _ _ _ _ E). subst s1.
  assert (G : forall s0 : mstate * reader, mv_info (pce_of (y_pce y)) mb s0 = (Ok i, s0)).
  { intro s0. unfold mv_info in *. repeat match goal with |- (if ?b then _ else _) _ = _ => destruct b end; inversion E; reflexivity. }
  destruct (info_form _ _ _ _ _ _ _ S Hi Hn E) as [D | (f & F & ->)].
  - destruct i as [[n field] dmv]. cbn [snd] in D. subst dmv. exfalso. destruct (n =? 1).
    + apply bind_ok_inv in H. destruct H as (? & s1 & _ & H). apply vector_reads in H. destruct H as (c & (D & _) & _). discriminate.
    + apply bind_ok_inv in H. destruct H as (? & s1 & _ & H). apply bind_ok_inv in H. destruct H as (? & s2 & H & _). apply vector_reads in H. destruct H as (c & (D & _) & _). discriminate.
  - exists f. destruct f; cbn [form_info Z.eqb Pos.eqb andb negb] in H.
    + apply bind_ok_inv in H. destruct H as (? & s1 & E1 & H). inversion E1; subst. apply vector_reads in H. destruct H as (c & (_ & V) & A). exists c. auto.
    + rewrite bind_assoc in H. apply bind_ok_inv in H. destruct H as (v & s1 & E1 & H). apply reads_onr1 in E1. destruct E1 as (c1 & (b & ->) & A1). rewrite bind_ret in H. apply vector_reads in H. destruct H as (c & (_ & V) & A).
      exists ([b] ++ c). split; [exact F|]. split; [exists b, c; auto|]. split; [eapply after_app; eauto | exact G].
    + apply bind_ok_inv in H. destruct H as (v & s1 & E1 & H). apply reads_onr1 in E1. destruct E1 as (c1 & (b & ->) & A1).
      apply bind_ok_inv in H. destruct H as (v2 & s2 & E2 & H). apply vector_reads in E2. destruct E2 as (c2 & (_ & V2) & A2).
      apply bind_ok_inv in H. destruct H as (v3 & s3 & E3 & H). apply reads_onr1 in E3. destruct E3 as (c3 & (b3 & ->) & A3).
      apply vector_reads in H. destruct H as (c4 & (_ & V4) & A4).
      exists ([b] ++ c2 ++ [b3] ++ c4). split; [exact F|]. split; [exists b, c2, b3, c4; auto|]. split; [|exact G]. eapply after_app; [exact A1|]. eapply after_app; [exact A2|]. eapply after_app; eauto.
Qed.

(** * Blocks *)
Lemma bwrite_reader : forall i v s a s', bwrite i v s = (Ok a, s') -> 0 <= i < 64 /\ snd s' = snd s.
Proof.
  intros i v s a s' H. unfold bwrite in H. destruct ((0 <=? i) && (i <? Z.of_nat blockSize)) eqn:E; inversion H; subst. apply andb_true_iff in E. destruct E as [E1 E2]. apply Z.leb_le in E1. apply Z.ltb_lt in E2. change (Z.of_nat blockSize) with 64 in E2. split; [lia | reflexivity].
Qed.
Lemma bzeros_reader : forall k n s a s', bzeros k n s = (Ok a, s') -> snd s' = snd s.
Proof.
  induction k as [|k IH]; intros n s a s' H; cbn [bzeros] in H; [now inversion H|]. apply bind_ok_inv in H. destruct H as (u & s1 & E & H). apply bwrite_reader in E. destruct E as (_ & E). apply IH in H. congruence.
Qed.
Lemma coeffs_after : forall f one n s a s', 0 <= n <= 64 -> block_coeffs f (dct_of one) n s = (Ok a, s') ->
  exists rls c, coded_from one n rls c /\ after (snd s) c (snd s') /\ n + Z.of_nat (length (expand rls)) <= 64.
Proof.
  induction f as [|f IH]; intros one n s a s' Hn H; cbn [block_coeffs] in H; [discriminate|].
  apply bind_ok_inv in H. destruct H as ([[run level] fin] & s1 & E & H). apply onr_inv in E. destruct E as (_ & E). apply dct_symbol_inv in E. destruct E as (c & sy & Hc & Q & V & R). pose proof (after_intro _ _ _ Q R) as A1.
  destruct sy as [run' level'|]; cbn [symbol_result] in V; injection V as -> -> ->.
  - apply bind_ok_inv in H. destruct H as (u & s2 & E2 & H). apply bzeros_reader in E2. apply bind_ok_inv in H. destruct H as (u2 & s3 & E3 & H). apply bwrite_reader in E3. destruct E3 as (B & E3).
    pose proof (dct_code_run _ _ _ _ _ Hc) as Hr. apply IH in H; [|lia]. destruct H as (rls & d & (_ & body & Sy & ->) & A2 & L). exists ((run', level') :: rls), (c ++ body ++ (if one then b15_eob else b14_eob)).
    split; [split; [discriminate|]; exists (c ++ body); split; [now constructor | now rewrite app_assoc]|]. split; [eapply after_app; [exact A1|]; rewrite <- E2, <- E3; exact A2|].
    rewrite expand_length_cons by lia. lia.
  - apply bzeros_reader in H. inversion Hc; subst. exists [], (if one then b15_eob else b14_eob). split; [split; [intros ->; discriminate|]; exists []; split; [constructor | reflexivity]|]. rewrite H. split; [exact A1 | cbn; lia].
Qed.
Lemma block_reads : forall y k cc intra b, nth k color_channel 0%nat = cc -> (k < 12)%nat -> reads (mb_block_read (pc_vlc (pce_of (y_pce y))) cc intra b) (block_syn y intra k).
Proof.
  intros y k cc intra b Hk Hk2 [m r] a [m' r'] H. unfold mb_block_read in H. cbn [fst snd] in H.
  destruct (block_read (pc_vlc (pce_of (y_pce y))) cc intra (mkBS b (ms_dcp m), r)) as [[u|e| |] [bs r1]] eqn:E; try discriminate.
  assert (r1 = r') by congruence. subst r1. clear H. cbn [snd]. unfold block_read in E. unfold block_syn.
  rewrite pce_vlc in E. assert (Ev : (Z.b2z (e_vlc (y_pce y)) =? 1) = e_vlc (y_pce y)) by (destruct (e_vlc (y_pce y)); reflexivity). rewrite Ev in E. destruct intra; cbn [andb] in E.
  - apply bind_ok_inv in E. destruct E as ([] & [bs1 r1] & E1 & E). apply dc_inv in E1. destruct E1 as (c1 & d & D & Q & R). cbn [snd] in Q, R. pose proof (after_intro _ _ _ Q R) as A1.
    change (if e_vlc (y_pce y) then dct_table_one else dct_table_zero) with (dct_of (e_vlc (y_pce y))) in E. apply coeffs_after in E; [|lia]. destruct E as (rls & c2 & C & A2 & L). cbn [snd] in A2.
    exists (c1 ++ c2). split; [|eapply after_app; eauto]. exists d, c1, rls, c2. split; [reflexivity|]. split; [|split; [exact C | lia]].
    replace (Nat.ltb k 4) with (Nat.eqb cc 0); [exact D|]. subst cc. do 12 (destruct k as [|k]; [reflexivity|]). lia.
  - change dct_table_zero with (dct_of false) in E. apply coeffs_after in E; [|lia]. destruct E as (rls & c2 & C & A2 & L). cbn [snd] in A2. exists c2. split; [|exact A2]. exists rls. split; [exact C | lia].
Qed.
Lemma still_put_block : forall m fs row col i il b f, still (put_block m fs row col i il b f : MB _).
Proof. intros m fs row col i il b f s bf s' H. apply put_block_shape in H. destruct H as (-> & _). reflexivity. Qed.
Lemma blocks_reads : forall v y se mb row addr coded k b, (k + length coded <= 12)%nat ->
  reads (mb_blocks v (pce_of (y_pce y)) se mb row addr (Z.of_nat k) coded b) (blocks_syn y (mb_intra (mo_type mb)) k coded).
Proof.
  intros v y se mb row addr. induction coded as [|x coded IH]; intros k b L; cbn [mb_blocks blocks_syn].
  - apply reads_still, still_ret.
  - cbn [length] in L. rewrite Nat2Z.id. eapply (reads_bind _ _ _ _ (only_if x (block_syn y (mb_intra (mo_type mb)) k)) (blocks_syn y (mb_intra (mo_type mb)) (S k) coded)).
    + destruct x; cbn [only_if].
      * eapply (reads_bind _ _ _ _ _ (fun c => c = [])); [apply (block_reads y k); [reflexivity | lia] | |intros c d Hc ->; now rewrite app_nil_r].
        intro a. apply reads_still. apply still_bind; [intros s q s' H; now inversion H | intro; apply still_ret].
      * apply reads_still, still_ret.
    + intro b1. eapply (reads_bind _ _ _ _ (fun c => c = [])); [apply reads_still; intros s q s' H; now inversion H| |intros c d -> Hd; exact Hd]. intro m.
      eapply (reads_bind _ _ _ _ (fun c => c = [])); [apply reads_still, still_put_block| |intros c d -> Hd; exact Hd]. intro bf.
      eapply (reads_bind _ _ _ _ (fun c => c = [])); [apply reads_still, still_upd| |intros c d -> Hd; exact Hd]. intro u.
      replace (Z.of_nat k + 1) with (Z.of_nat (S k)) by lia. apply IH. lia.
    + intros c d Hc Hd. exists c, d. auto.
Qed.

(** * Macroblocks, slices, pictures *)
Lemma types_intra : forall ty c pct, mbt_code (type_table pct) c ty -> let '(_, f, b, p, i) := ty in i = true -> f = false /\ b = false /\ p = false.
Proof.
  intros ty c pct (v & n & H & _). unfold type_table in H.
  destruct (pct =? 1); [|destruct (pct =? 2)]; cbn in H;
    repeat (destruct H as [H|H]; [injection H as <- <- <-; intro; first [discriminate | auto]|]); contradiction.
Qed.
Lemma land_bit : forall n j, 0 <= j -> (Z.land n (Z.shiftl 1 j) =? Z.shiftl 1 j) = Z.testbit n j.
Proof.
  intros n j Hj. rewrite Z.shiftl_mul_pow2, Z.mul_1_l by exact Hj.
  assert (B : forall i, 0 <= i -> Z.testbit (2 ^ j) i = (i =? j)). { intros i Hi. rewrite Z.pow2_bits_eqb by exact Hj. apply Z.eqb_sym. }
  destruct (Z.testbit n j) eqn:E.
  - apply Z.eqb_eq. apply Z.bits_inj'. intros i Hi. rewrite Z.land_spec, B by exact Hi. destruct (Z.eqb_spec i j) as [->|]; [now rewrite E | apply andb_false_r].
  - apply Z.eqb_neq. intro Q. apply (f_equal (fun x => Z.testbit x j)) in Q. rewrite Z.land_spec, B, Z.eqb_refl, E in Q by exact Hj. discriminate.
Qed.
Lemma pattern_after : forall y cbp intra pattern s pc s', pattern_code cbp intra pattern (y_chroma y) (s : mstate * reader) = (Ok pc, s') ->
  s' = s /\ firstn (block_count (y_chroma y)) pc = coded_blocks y intra (if pattern then cbp else 0) /\ (length (coded_blocks y intra (if pattern then cbp else 0)) <= 12)%nat.
Proof.
  intros y cbp intra pattern s pc s' H. unfold pattern_code in H. destruct (pattern && _); [discriminate|]. unfold ret in H. assert (s' = s) as -> by congruence. split; [reflexivity|].
  pose proof (f_equal fst H) as H1. cbn [fst] in H1. assert (X : forall a b : list bool, Ok a = Ok b -> a = b) by congruence. apply X in H1. subst pc. clear H X.
  assert (N : block_count (y_chroma y) = y_blocks y) by reflexivity. rewrite N. clear N.
  assert (L : (y_blocks y <= 12)%nat). { unfold y_blocks. destruct (y_chroma y =? 1); [lia|]. destruct (y_chroma y =? 2); [lia|]. destruct (y_chroma y =? 3); lia. }
  split; [|unfold coded_blocks; rewrite map_length, seq_length; exact L].
  unfold coded_blocks. rewrite map_map, firstn_map. replace (firstn (y_blocks y) (seq 0 12)) with (seq 0 (y_blocks y)).
  - apply map_ext_in. intros k Hk. apply in_seq in Hk. f_equal. destruct pattern; cbn [andb]; [|now rewrite Z.bits_0].
    destruct (Z.ltb_spec (Z.of_nat k) 6) as [K|K]; cbn [andb]; [apply land_bit; lia | symmetry; apply Z.testbit_neg_r; lia].
  - replace 12%nat with (y_blocks y + (12 - y_blocks y))%nat by lia. rewrite seq_app, firstn_app, seq_length, Nat.sub_diag. cbn [firstn]. rewrite app_nil_r. rewrite <- (seq_length (y_blocks y) 0) at 2. now rewrite firstn_all.
Qed.
Lemma still_skipped : forall v pct row addr incr, still (copy_skipped v pct row addr incr).
Proof.
  intros v pct row addr incr. unfold copy_skipped. destruct (negb (addr =? -1) && (incr >? 1)); [|apply still_ret]. destruct (pct =? PFrame); [|destruct (pct =? BFrame); [|apply still_ret]].
  - apply still_bind; [intros s a s' H; unfold deref in H; destruct (fs_past (v_fs v)); now inversion H|]. intro past. apply still_bind; [intros s q s' H; now inversion H|]. intro m.
    apply still_bind; [intros s q s' H; apply pframe_shape in H; destruct H as (-> & _); reflexivity | intro; apply still_upd].
  - apply still_bind; [intros s q s' H; now inversion H|]. intro m.
    apply still_bind; [intros s q s' H; apply bframe_shape in H; destruct H as (-> & _); reflexivity | intro; apply still_upd].
Qed.
Lemma still_when : forall c (m : MB unit), still m -> still (when c m).
Proof. intros c m H. destruct c; [exact H | apply still_ret]. Qed.
Lemma form_info_inj : forall f g, form_info f = form_info g -> f = g.
Proof. intros [] []; cbn; congruence. Qed.

(** A step that reads nothing leaves [A] about the same reader *)
Ltac quiet H A s1 := let E := fresh "E" in let u := fresh "u" in
  apply bind_ok_inv in H; destruct H as (u & s1 & E & H); apply still_when in E; [|unfold reset_dc, reset_mv; apply still_upd]; rewrite <- E in A; clear E; try clear u.
Lemma macroblock_after : forall v y sh row addr s a s', v_ph v = Some (pic_of (y_hdr y)) -> v_pce v = Some (pce_of (y_pce y)) -> v_se v = Some sh -> se_chroma sh = y_chroma y -> rlater (snd s) = [] ->
  macroblock v row addr s = (Ok a, s') -> 1 <= y_type y <= 3 /\ (rbits (snd s') = [] \/ exists c, (mb_syn y c \/ mb_cut y c) /\ after (snd s) c (snd s')).
Proof.
  intros v y sh row addr s a s' Hph Hpce Hse Hc Hr H. unfold macroblock in H. rewrite Hph, Hpce, Hse in H.
  apply bind_ok_inv in H. destruct H as (incr & s1 & E & H). apply onr_inv in E. destruct E as (_ & E). apply increment_after in E. destruct E as (c_incr & Hi & A).
  apply bind_ok_inv in H. destruct H as (x & sx & E & H). inversion E; subst x sx. clear E. apply bind_ok_inv in H. destruct H as (x & sx & E & H). inversion E; subst x sx. clear E. cbv zeta in H.
  change (ph_type (pic_of (y_hdr y))) with (y_type y) in H.
  apply bind_ok_inv in H. destruct H as (x & s2 & E & H). apply still_skipped in E. rewrite <- E in A. clear E x.
  quiet H A s3. quiet H A s4.
  apply bind_ok_inv in H. destruct H as (mb & s5 & E & H). apply onr_inv in E. destruct E as (_ & E). apply mode_after in E. destruct E as (T & t & mt & c1 & c2 & c3 & Ht & O2 & O3 & S & A1). split; [exact T|].
  pose proof (after_app _ _ _ _ _ A A1) as A0. clear A A1. rename A0 into A. rewrite (proj1 S) in H.
  pose proof (types_intra _ _ _ Ht) as Ti. cbn in Ti.
  quiet H A s6. quiet H A s7. quiet H A s8.
  apply bind_ok_inv in H. destruct H as (u & s9 & E & H).
  assert (X : exists c4, only_if (mb_quant t) (width 5) c4 /\ after (snd s8) c4 (snd s9)).
  { unfold when in E. destruct (mb_quant t); cbn [only_if].
    - apply bind_ok_inv in E. destruct E as (q & sq & E & E2). apply onr_inv in E. destruct E as (_ & E). apply read_after in E. destruct E as (_ & E). apply upd_inv in E2. subst s9. exists (enc 5 q). split; [reflexivity | exact E].
    - inversion E; subst. exists []. split; [reflexivity | apply after_nil]. }
  destruct X as (c4 & O4 & A4). clear E u. pose proof (after_app _ _ _ _ _ A A4) as A0. clear A A4. rename A0 into A.
  rewrite pce_conceal in H.
  apply bind_ok_inv in H. destruct H as (u & s10 & E & H).
  assert (X : exists f c5, (mb_motion_forward t || (mb_intra t && e_conceal (y_pce y)) = true -> form_of y (mb_intra t) mt f /\ forall s0, mv_info (pce_of (y_pce y)) mb (s0 : mstate * reader) = (Ok (form_info f), s0)) /\
     only_if (mb_motion_forward t || (mb_intra t && e_conceal (y_pce y))) (vectors_syn y 0 f) c5 /\ after (snd s9) c5 (snd s10)).
  { unfold when in E. destruct (mb_motion_forward t || (mb_intra t && e_conceal (y_pce y))) eqn:Q; cbn [only_if].
    - apply (vectors_after y t mt) in E; [|exact S|intro I; destruct (Ti I) as (? & ? & ?); split; congruence|].
      + destruct E as (f & c5 & F & V & A5 & G). exists f, c5. auto.
      + intro N. apply orb_false_iff in N. destruct N as [N _]. rewrite N in Q. cbn in Q. now apply andb_true_iff in Q.
    - inversion E; subst. exists OneFrame, []. split; [discriminate|]. split; [reflexivity | apply after_nil]. }
  destruct X as (f & c5 & F & O5 & A5). clear E u. pose proof (after_app _ _ _ _ _ A A5) as A0. clear A A5. rename A0 into A.
  apply bind_ok_inv in H. destruct H as (u & s11 & E & H).
  assert (X : exists g c6, (mb_motion_forward t || mb_motion_backward t || (mb_intra t && e_conceal (y_pce y)) = true -> form_of y (mb_intra t) mt g) /\
     (mb_motion_forward t || (mb_intra t && e_conceal (y_pce y)) = true -> g = f) /\ 
     only_if (mb_motion_backward t) (vectors_syn y 1 g) c6 /\ after (snd s10) c6 (snd s11)).
  { unfold when in E. destruct (mb_motion_backward t) eqn:Q; cbn [only_if].
    - apply (vectors_after y t mt) in E; [|exact S|intro I; destruct (Ti I) as (? & ? & ?); split; congruence|rewrite Q, orb_true_r; discriminate].
      destruct E as (g & c6 & F2 & V & A6 & G). exists g, c6. split; [auto|]. split; [|auto]. intro X. destruct (F X) as (_ & G2). specialize (G s10). specialize (G2 s10). rewrite G2 in G. symmetry. apply form_info_inj. congruence.
    - inversion E; subst. exists f, []. rewrite orb_false_r. split; [intro X; apply F; exact X|]. split; [reflexivity|]. split; [reflexivity | apply after_nil]. }
  destruct X as (g & c6 & F6 & G6 & O6 & A6). clear E u. pose proof (after_app _ _ _ _ _ A A6) as A0. clear A A6. rename A0 into A.
  assert (O5' : only_if (mb_motion_forward t || (mb_intra t && e_conceal (y_pce y))) (vectors_syn y 0 g) c5).
  { destruct (mb_motion_forward t || (mb_intra t && e_conceal (y_pce y))); [rewrite (G6 eq_refl); exact O5 | exact O5]. }
  clear O5 F G6 f.
  apply bind_ok_inv in H. destruct H as (u & s12 & E & H). apply still_upd in E. rewrite <- E in A. clear E u.
  apply bind_ok_inv in H. destruct H as (u & s13 & E & H).
  assert (X : exists c7, only_if (mb_intra t && e_conceal (y_pce y)) (fun c => c = [true]) c7 /\ after (snd s12) c7 (snd s13)).
  { unfold when in E. destruct (mb_intra t && e_conceal (y_pce y)); cbn [only_if].
    - apply onr_inv in E. destruct E as (_ & E). apply marker_after in E. exists [true]. auto.
    - inversion E; subst. exists []. split; [reflexivity | apply after_nil]. }
  destruct X as (c7 & O7 & A7). clear E u. pose proof (after_app _ _ _ _ _ A A7) as A0. clear A A7. rename A0 into A.
  assert (Head : mb_head_syn y (mb_quant t, mb_motion_forward t, mb_motion_backward t, mb_pattern t, mb_intra t) ((((((c_incr ++ c1 ++ c2 ++ c3) ++ c4) ++ c5) ++ c6) ++ c7))).
  { exists incr, mt, g, c_incr, c1, c2, c3, c4, c5, c6, c7. split; [rewrite <- !app_assoc; reflexivity|]. split; [exact Hi|]. split; [exact Ht|]. split; [exact O2|]. split; [exact O3|]. split; [exact O4|]. split; [exact F6|]. split; [exact O5'|]. split; [exact O6 | exact O7]. }
  revert A Head. generalize ((((((c_incr ++ c1 ++ c2 ++ c3) ++ c4) ++ c5) ++ c6) ++ c7)). intros c A Head.
  apply bind_ok_inv in H. destruct H as (x & sx & E & H). inversion E; subst x sx. clear E. rewrite Hc in H.
  apply bind_ok_inv in H. destruct H as (o & s14 & E & H). destruct o as [cbp|].
  - assert (X : exists c8, only_if (mb_pattern t) (fun c => cbp_code c cbp) c8 /\ after (snd s13) c8 (snd s14)).
    { destruct (mb_pattern t); cbn [only_if].
      - destruct s13 as [m13 r13]. unfold ignore_err, onr, coded_block_pattern, bind, ret in E. cbn [fst snd] in E. destruct (cbp_decode r13) as [q r14] eqn:Q.
        destruct ((y_chroma y =? ChromaFormat422) || (y_chroma y =? ChromaFormat444)); [discriminate|]. destruct q as [q|e| |]; try discriminate. inversion E; subst. apply cbp_after in Q. exact Q.
      - inversion E; subst. exists []. split; [reflexivity | apply after_nil]. }
    destruct X as (c8 & O8 & A8). pose proof (after_app _ _ _ _ _ A A8) as A0. clear A A8. rename A0 into A.
    apply bind_ok_inv in H. destruct H as (pc & s15 & E2 & H). apply pattern_after in E2. destruct E2 as (-> & P & L). rewrite P in H.
    apply bind_ok_inv in H. destruct H as (u & s16 & E3 & H). change 0 with (Z.of_nat 0) in E3. apply blocks_reads in E3; [|exact L]. destruct E3 as (c9 & B & A9). pose proof (after_app _ _ _ _ _ A A9) as A0.
    assert (Es : s' = s16) by (unfold ret in H; congruence). subst s16. right. exists ((c ++ c8) ++ c9). split; [|exact A0]. left. rewrite (proj1 S) in B.
    exists (mb_quant t), (mb_motion_forward t), (mb_motion_backward t), (mb_pattern t), (mb_intra t), cbp, c, c8, c9. split; [now rewrite <- app_assoc|]. auto.
  - assert (Es : s' = s14) by (unfold ret in H; congruence). subst s'. destruct (mb_pattern t); [|discriminate].
    destruct s13 as [m13 r13]. unfold ignore_err, onr, coded_block_pattern, bind, ret in E. cbn [fst snd] in E. destruct (cbp_decode r13) as [q r14] eqn:Q.
    destruct ((y_chroma y =? ChromaFormat422) || (y_chroma y =? ChromaFormat444)); [discriminate|]. destruct q as [q|e| |]; try discriminate. inversion E; subst. cbn [snd] in *.
    apply cbp_err in Q; [|rewrite (after_later _ _ _ A); exact Hr]. destruct Q as [Q|Q]; [now left|]. right. exists (c ++ repeat false 9). split; [|eapply after_app; eauto].
    right. exists (mb_quant t), (mb_motion_forward t), (mb_motion_backward t), (mb_intra t), c. auto.
Qed.

Lemma slice_extra_after : forall f r u r', slice_extra f r = (Ok u, r') -> exists l, bytes l /\ after r (flat_map (fun b => [true] ++ enc 8 b) l) r' /\ exists t, rbits r' = false :: t.
Proof.
  induction f as [|f IH]; intros r u r' H; cbn [slice_extra] in H; [discriminate|].
  apply bind_ok_inv in H. destruct H as (b & r1 & E & H). apply peek_after in E. destruct E as (-> & B & t & Q). change (2 ^ Z.of_nat 1) with 2 in B.
  destruct (Z.eqb_spec b 1) as [Eb|Nb]; cbn [negb] in H.
  - subst b. apply bind_ok_inv in H. destruct H as (u1 & r1 & E & H). pose proof (skip_app 1 r (enc 1 1) t eq_refl) as X. rewrite <- Q, setb_rbits in X. rewrite X in E. inversion E; subst r1.
    apply bind_ok_inv in H. destruct H as (v & r2 & E2 & H). apply read_after in E2. destruct E2 as (B2 & A2). apply IH in H. destruct H as (l & Bl & A3 & Z). exists (v :: l). split; [constructor; [exact B2 | exact Bl]|]. split; [|exact Z].
    cbn [flat_map]. eapply after_app; [|exact A3]. eapply after_app; [|exact A2]. apply after_intro; [rewrite rbits_setb; exact Q | now rewrite rbits_setb].
  - inversion H; subst. exists []. split; [constructor|]. split; [apply after_nil|]. exists t. assert (b = 0) by lia. subst b. exact Q.
Qed.
Lemma skip1_false : forall r u r' t, rbits r = false :: t -> skip_n 1 r = (Ok u, r') -> after r [false] r'.
Proof.
  intros r u r' t Q H. pose proof (skip_app 1 r [false] t eq_refl) as X. change ([false] ++ t) with (false :: t) in X. rewrite <- Q, setb_rbits in X. rewrite X in H. inversion H; subst.
  apply after_intro; [rewrite rbits_setb; exact Q | now rewrite rbits_setb].
Qed.
Lemma slice_flags_after : forall r u r', slice_flags r = (Ok u, r') -> exists fl, match fl with Some (_, extra) => bytes extra | None => True end /\ after r (flags_code fl) r'.
Proof.
  intros r u r' H. unfold slice_flags in H. apply bind_ok_inv in H. destruct H as (b & r1 & E & H). apply peek_after in E. destruct E as (-> & B & t & Q). change (2 ^ Z.of_nat 1) with 2 in B.
  apply bind_ok_inv in H. destruct H as (u1 & r1 & E & H). destruct (Z.eqb_spec b 1) as [Eb|Nb].
  - subst b. apply bind_ok_inv in E. destruct E as (x1 & q1 & E1 & E). apply read1_after in E1. pose proof (after_bits _ _ _ E1) as Q1. rewrite Q in Q1. assert (x1 = true) by (cbn in Q1; congruence). subst x1.
    apply bind_ok_inv in E. destruct E as (x2 & q2 & E2 & E). apply read1_after in E2. apply bind_ok_inv in E. destruct E as (x3 & q3 & E3 & E). apply read_after in E3. destruct E3 as (_ & E3).
    apply bind_ok_inv in E. destruct E as (x4 & q4 & E4 & E). destruct (Z.eqb_spec x3 0) as [E0|N0]; cbn [negb] in E4; [|discriminate]. subst x3. inversion E4; subst q4.
    apply slice_extra_after in E. destruct E as (l & Bl & A & z & Z). apply (skip1_false _ _ _ _ Z) in H. exists (Some (x2, l)). split; [exact Bl|]. unfold flags_code. eapply after_app; [|exact H].
    change [true; x2] with ([true] ++ [x2]). rewrite <- app_assoc. eapply after_app; [exact E1|]. eapply after_app; [exact E2|]. eapply after_app; [exact E3 | exact A].
  - inversion E; subst. exists None. split; [exact I|]. assert (b = 0) by lia. subst b. unfold flags_code. cbn [app]. eapply skip1_false; [exact Q | exact H].
Qed.
Definition mb_ok (y : layer) (c : list bool) : Prop := mb_syn y c \/ mb_cut y c.
Lemma slice_loop_after : forall f v y sh row addr s a s', v_ph v = Some (pic_of (y_hdr y)) -> v_pce v = Some (pce_of (y_pce y)) -> v_se v = Some sh -> se_chroma sh = y_chroma y -> rlater (snd s) = [] ->
  slice_loop f v row addr s = (Ok a, s') -> 1 <= y_type y <= 3 /\ exists ms, ms <> [] /\ Forall (mb_ok y) ms /\ after (snd s) (concat ms) (snd s') /\ exists t, rbits (snd s') = repeat false 23 ++ t.
Proof.
  induction f as [|f IH]; intros v y sh row addr s a s' Hph Hpce Hse Hc Hr H; cbn [slice_loop] in H; [discriminate|].
  apply bind_ok_inv in H. destruct H as (ad & s1 & E & H). apply (macroblock_after v y sh) in E; [|assumption..]. destruct E as (T & E). split; [exact T|].
  apply bind_ok_inv in H. destruct H as (nb & s2 & E2 & H). apply onr_inv in E2. destruct E2 as (F & E2). apply peek_after in E2. destruct E2 as (R2 & _ & t & Q).
  assert (s2 = s1) by (rewrite (surjective_pairing s2), (surjective_pairing s1); congruence). subst s2.
  destruct E as [E | (c & M & A)]; [exfalso; rewrite E in Q; apply (f_equal (@length bool)) in Q; rewrite app_length, enc_length in Q; cbn in Q; lia|].
  destruct (Z.eqb_spec nb 0) as [->|_].
  - inversion H; subst s'. exists [c]. split; [discriminate|]. split; [constructor; [exact M | constructor]|]. split; [cbn [concat]; rewrite app_nil_r; exact A|]. exists t. exact Q.
  - apply (IH v y sh) in H; try assumption; [|rewrite (after_later _ _ _ A); exact Hr]. destruct H as (_ & ms & N & Fa & A2 & Z). exists (c :: ms). split; [discriminate|]. split; [constructor; [exact M | exact Fa]|]. split; [|exact Z].
    cbn [concat]. eapply after_app; eauto.
Qed.
Lemma zeros_gap : forall al k (t u : list bool), (length al < 8)%nat -> al ++ bb (repeat 0 k) ++ t = repeat false 23 ++ u -> al ++ bb (repeat 0 k) = repeat false (length al + 8 * k).
Proof.
  intros al k t u L Q. assert (Ha : al = repeat false (length al)).
  { apply (f_equal (firstn (length al))) in Q. rewrite firstn_app, Nat.sub_diag, firstn_all in Q. cbn [firstn] in Q. rewrite app_nil_r in Q. rewrite Q at 1.
    rewrite firstn_app, repeat_length. replace (length al - 23)%nat with 0%nat by lia. cbn [firstn]. rewrite app_nil_r.
    replace 23%nat with (length al + (23 - length al))%nat by lia. rewrite repeat_app, firstn_app, repeat_length, Nat.sub_diag. cbn [firstn]. rewrite app_nil_r. rewrite <- (repeat_length false (length al)) at 1. apply firstn_all. }
  rewrite Ha at 1. rewrite repeat_app. f_equal. clear. induction k as [|k IH]; [reflexivity|]. replace (8 * S k)%nat with (8 + 8 * k)%nat by lia. rewrite repeat_app, <- IH. reflexivity.
Qed.
Lemma slice_after : forall v y q sh frame r img r', v_ph v = Some (pic_of (y_hdr y)) -> v_pce v = Some (pce_of (y_pce y)) -> v_se v = Some sh -> se_chroma sh = y_chroma y ->
  v_sh v = Some q -> sh_vertical q = y_vertical y -> rlater r = [] -> slice v frame r = (Ok img, r') ->
  1 <= y_type y <= 3 /\ (exists c, slice_syn (mb_ok y) y c /\ after r c r') /\ ready r'.
Proof.
  intros v y q sh frame r img r' Hph Hpce Hse Hc Hsh Hv Hr H. unfold slice in H.
  match type of H with match ?m r with _ => _ end = _ => destruct (m r) as [[[[e row] qsc]|er| |] r1] eqn:E end; try discriminate.
  apply bind_ok_inv in E. destruct E as (c0 & q1 & E1 & E). apply read_after in E1. destruct E1 as (B0 & A0).
  destruct (is_slice c0) eqn:Is; cbn [negb] in E; [|discriminate]. rewrite Hpce in E. apply bind_ok_inv in E. destruct E as (e1 & q2 & E1 & E). inversion E1; subst e1 q2. clear E1. cbv zeta in E.
  destruct ((16 * _ * _ <=? _) && _ && _) eqn:Rw in E; [|discriminate]. rewrite Hsh in E. apply bind_ok_inv in E. destruct E as (e1 & q2 & E1 & E). inversion E1; subst e1 q2. clear E1.
  apply bind_ok_inv in E. destruct E as (u & q2 & E1 & E).
  assert (X : exists ext, only_if (2800 <? y_vertical y) (width 3) ext /\ after q1 ext q2).
  { rewrite Z.gtb_ltb, Hv in E1. unfold when in E1. destruct (2800 <? y_vertical y); cbn [only_if].
    - apply bind_ok_inv in E1. destruct E1 as (z & q3 & E1 & E2). inversion E2; subst. apply read_after in E1. destruct E1 as (_ & E1). exists (enc 3 z). split; [reflexivity | exact E1].
    - inversion E1; subst. exists []. split; [reflexivity | apply after_nil]. }
  destruct X as (ext & O1 & A1). clear E1 u. apply bind_ok_inv in E. destruct E as (qs & q3 & E1 & E). apply read_after in E1. destruct E1 as (_ & A2).
  apply bind_ok_inv in E. destruct E as (u & q4 & E1 & E). apply slice_flags_after in E1. destruct E1 as (fl & Wf & A3). assert (q4 = r1) by (unfold ret in E; congruence). subst q4. clear E u.
  match type of H with match ?lp with _ => _ end = _ => destruct lp as [[u|er| |] [m r2]] eqn:E end; try discriminate.
  apply (slice_loop_after _ v y sh) in E; try assumption; [|cbn [snd]; rewrite (after_later _ _ _ A3), (after_later _ _ _ A2), (after_later _ _ _ A1), (after_later _ _ _ A0); exact Hr].
  destruct E as (T & ms & N & Fa & A4 & t & Q). cbn [snd] in *. split; [exact T|]. apply bind_ok_inv in H. destruct H as ([] & r3 & E & H). inversion H; subst r3. clear H.
  apply nsc_ok_inv in E. destruct E as (al & k & t2 & L & Q2 & R2 & M).
  assert (A5 : after r2 (al ++ bb (repeat 0 k)) r'). { subst r'. apply after_intro; [rewrite rbits_setb, Q2, <- app_assoc; reflexivity | now rewrite rbits_setb]. }
  rewrite (zeros_gap al k (prefix ++ t2) t L) in A5 by (rewrite <- Q, Q2; reflexivity).
  split; [|exists t2; subst r'; rewrite rbits_setb; split; [reflexivity | exact M]].
  assert (Rc : exists rw, 1 <= rw <= 175 /\ c0 = 256 + rw). { exists (c0 - 256). unfold is_slice in Is. apply andb_true_iff in Is. destruct Is as [I1 I2]. apply Z.leb_le in I1, I2. change MinSliceStartCode with 257 in *. change MaxSliceStartCode with 431 in *. lia. }
  destruct Rc as (rw & Hrw & ->). exists (code rw ++ ext ++ enc 5 qs ++ flags_code fl ++ concat ms ++ repeat false (length al + 8 * k)). split.
  - exists rw, ext, (enc 5 qs), fl, ms, (length al + 8 * k)%nat. split; [exact Hrw|]. split; [exact O1|]. split; [apply enc_length|]. auto 6.
  - assert (Ec : enc 32 (256 + rw) = code rw).
    { change 32%nat with (24 + 8)%nat. rewrite enc_app. change (2 ^ Z.of_nat 8) with 256. replace ((256 + rw) / 256) with 1 by (apply Z.div_unique with rw; lia). unfold code. change (enc 24 1) with prefix. f_equal.
      rewrite <- (enc_ext_mod 8 (256 + rw)), <- (enc_ext_mod 8 rw). f_equal. change (2 ^ Z.of_nat 8) with 256. replace (256 + rw) with (rw + 1 * 256) by lia. apply Z.mod_add. lia. }
    rewrite Ec in A0. chain.
Qed.
Lemma slices_after : forall f v y q sh frame r img r', v_ph v = Some (pic_of (y_hdr y)) -> v_pce v = Some (pce_of (y_pce y)) -> v_se v = Some sh -> se_chroma sh = y_chroma y ->
  v_sh v = Some q -> sh_vertical q = y_vertical y -> rlater r = [] -> slices f v frame r = (Ok img, r') ->
  1 <= y_type y <= 3 /\ (exists ss, ss <> [] /\ Forall (slice_syn (mb_ok y) y) ss /\ after r (concat ss) r') /\ ready r'.
Proof.
  induction f as [|f IH]; intros v y q sh frame r img r' Hph Hpce Hse Hc Hsh Hv Hr H; cbn [slices] in H; [discriminate|].
  apply bind_ok_inv in H. destruct H as (fr & r1 & E & H). apply (slice_after v y q sh) in E; [|assumption..]. destruct E as (T & (c & S & A) & Rd). split; [exact T|].
  apply bind_ok_inv in H. destruct H as (nb & r2 & E & H). apply peek_after in E. destruct E as (-> & _). destruct (is_slice nb).
  - apply (IH v y q sh) in H; try assumption; [|rewrite (after_later _ _ _ A); exact Hr]. destruct H as (_ & (ss & N & F & A2) & Rd2). split; [|exact Rd2]. exists (c :: ss). split; [discriminate|]. split; [constructor; assumption|]. cbn [concat]. eapply after_app; eauto.
  - inversion H; subst. split; [|exact Rd]. exists [c]. split; [discriminate|]. split; [constructor; [exact S | constructor]|]. cbn [concat]. now rewrite app_nil_r.
Qed.
Lemma picture_after : forall v y q sh r img r', v_ph v = Some (pic_of (y_hdr y)) -> v_pce v = Some (pce_of (y_pce y)) -> v_se v = Some sh -> se_chroma sh = y_chroma y ->
  v_sh v = Some q -> sh_vertical q = y_vertical y -> rlater r = [] -> picture_data v r = (Ok img, r') ->
  (exists c, picture_syn mb_ok y c /\ after r c r') /\ ready r'.
Proof.
  intros v y q sh r img r' Hph Hpce Hse Hc Hsh Hv Hr H. unfold picture_data in H. destruct (size v) as [w h]. rewrite Hse in H.
  apply bind_ok_inv in H. destruct H as (x & r1 & E & H). inversion E; subst x r1. clear E. apply bind_ok_inv in H. destruct H as (fr & r1 & E & H). apply (slices_after _ v y q sh) in E; try assumption.
  destruct E as (T & (ss & N & F & A) & (t & Q & M)). apply bind_ok_inv in H. destruct H as (u & r2 & E & H). apply (nsc_here _ _ _ t) in E; [|assumption..]. subst r2. inversion H; subst.
  split; [|exists t; auto]. exists (concat ss). split; [split; [exact T | exists ss; auto] | exact A].
Qed.

(** * The stream *)
Lemma bind_own : forall T R B (k : T -> M (T * R) B) s, bind own k s = k (fst s) s.
Proof. reflexivity. Qed.
(** What the decoder has kept of the headers *)
Definition knows (v : vidseq) (o : option (sseq * ssext)) : Prop :=
  match o with None => v_sh v = None | Some (s, x) => v_sh v = Some (seq_of s) /\ v_se v = Some (sext_of x) end.
Lemma knows_headers : forall v v' o, headers v' = headers v -> knows v o -> knows v' o.
Proof. intros v v' o H. unfold headers in H. injection H as H1 H2 _ _. unfold knows. destruct o as [[s x]|]; rewrite H1, ?H2; auto. Qed.

(** A computation that leaves the headers and reads nothing *)
Definition calm {A} (m : V A) : Prop := forall s a s', m s = (Ok a, s') -> headers (fst s') = headers (fst s) /\ snd s' = snd s.
Lemma calm_upd : forall f, (forall v, headers (f v) = headers v) -> calm (upd f).
Proof. intros f Hf s a s' H. apply upd_inv in H. subst. cbn [fst snd]. auto. Qed.
Lemma calm_ret : forall A (a : A), calm (ret a).
Proof. intros A a s x s' H. inversion H; subst. auto. Qed.
Lemma calm_own : calm own.
Proof. intros s x s' H. inversion H; subst. auto. Qed.

Lemma more_after : forall s x v r img v' r', rlater r = [] -> ready r -> knows v (Some (s, x)) -> more_frames (v, r) = (Ok img, (v', r')) ->
  knows v' (Some (s, x)) /\ ready r' /\ exists c2 p e c3, (group_syn c2 \/ c2 = []) /\ coded_picture_syn mb_ok (s, x) p e c3 /\ after r (c2 ++ c3) r'.
Proof.
  intros s x v r img v' r' Hr Rd K H. unfold more_frames in H.
  apply bind_ok_inv in H. destruct H as (nb & [v0 r0] & E & H). apply onr_inv in E. destruct E as (F & E). cbn [fst snd] in F, E. apply peek_after in E. destruct E as (-> & _ & _). subst v0.
  apply bind_ok_inv in H. destruct H as (u & [v1 r1] & E & H).
  assert (X : knows v1 (Some (s, x)) /\ ready r1 /\ exists c2, (group_syn c2 \/ c2 = []) /\ after r c2 r1).
  { destruct (nb =? GroupStartCode).
    - apply bind_ok_inv in E. destruct E as (g & [v2 r2] & E1 & E). apply onr_inv in E1. destruct E1 as (F & E1). cbn [fst snd] in F, E1. subst v2. apply gop_after in E1. destruct E1 as (sg & gp & t & W & G & A & Q & M & _).
      apply bind_ok_inv in E. destruct E as (u2 & s3 & E1 & E). apply upd_inv in E1. subst s3. cbn [fst snd] in E.
      apply extension_and_user_data_after in E; [|rewrite (after_later _ _ _ A); exact Hr|exists t; auto|auto]. destruct E as (Hh & (c & Xi & A2) & Rd2).
      split; [eapply knows_headers; [exact Hh | exact K]|]. split; [exact Rd2|]. exists ((enc_gop sg ++ gp) ++ c). split; [left; exists sg, gp, c; split; [exact W|]; split; [exact G|]; split; [exact Xi | now rewrite <- app_assoc] | eapply after_app; eauto].
    - inversion E; subst. split; [exact K|]. split; [exact Rd|]. exists []. split; [now right | apply after_nil]. }
  destruct X as (K1 & Rd1 & c2 & G2 & A1). clear E u.
  assert (R1 : rlater r1 = []) by (rewrite (after_later _ _ _ A1); exact Hr).
  apply bind_ok_inv in H. destruct H as (u & [v2 r2] & E & H). apply assign_after in E. destruct E as (ph & q1 & g1 & E & -> & G1 & Ag1 & Rd2). apply pic_after in E. destruct E as (p & Wp & Ap & ->).
  apply bind_ok_inv in H. destruct H as (u2 & [v3 r3] & E & H). apply assign_after in E. destruct E as (pe & q2 & g2 & E & -> & G3 & Ag2 & Rd3). apply pce_after in E. destruct E as (e & We & Ae & ->).
  pose proof (after_app _ _ _ _ _ Ap Ag1) as X1. pose proof (after_app _ _ _ _ _ Ae Ag2) as X2. pose proof (after_app _ _ _ _ _ X1 X2) as X3.
  assert (R3 : rlater r3 = []) by (rewrite (after_later _ _ _ X3); exact R1).
  apply bind_ok_inv in H. destruct H as (u3 & [v4 r4] & E & H). apply extension_and_user_data_after in E; [|exact R3|exact Rd3|auto]. destruct E as (Hh & (ci & Xi & Ai) & Rd4).
  assert (R4 : rlater r4 = []) by (rewrite (after_later _ _ _ Ai); exact R3).
  rewrite bind_own in H. unfold headers in Hh. cbn [v_sh v_se v_ph v_pce set_ph set_pce] in Hh. injection Hh as H1 H2 H3 H4. cbn [fst snd] in H. rewrite H3 in H.
  apply bind_ok_inv in H. destruct H as (ph & s5 & E & H). inversion E; subst ph s5. clear E.
  rewrite bind_upd in H. rewrite bind_own in H. cbn [fst snd] in H.
  apply bind_ok_inv in H. destruct H as (fr & [v5 r5] & E & H). apply onr_inv in E. destruct E as (F & E). cbn [fst snd] in F, E. subst v5.
  destruct K1 as (K1 & K2).
  apply (picture_after _ (mkLayer p e (x_chroma x) (q_vertical s)) (seq_of s) (sext_of x)) in E; cbn [y_hdr y_pce y_chroma y_vertical v_sh v_se v_ph v_pce set_fs]; try assumption; try reflexivity; [|congruence|congruence].
  destruct E as ((d & Pd & Ad) & Rd5).
  apply bind_ok_inv in H. destruct H as (u4 & [v6 r6] & E & H). inversion H; subst v6 r6 fr. clear H.
  assert (Y : v_sh v' = v_sh v4 /\ v_se v' = v_se v4 /\ r' = r5). { destruct (_ || _) in E; inversion E; subst; auto. }
  destruct Y as (Y1 & Y2 & ->).
  split; [split; congruence|]. split; [exact Rd5|].
  exists c2, p, e, (((enc_pic p ++ g1) ++ (enc_pce e ++ g2)) ++ ci ++ d). split; [exact G2|]. split.
  - exists g1, g2, ci, d. split; [exact Wp|]. split; [exact We|]. split; [exact G1|]. split; [exact G3|]. split; [exact Xi|]. split; [exact Pd | now rewrite <- !app_assoc].
  - eapply after_app; [exact A1|]. eapply after_app; [exact X3|]. eapply after_app; eauto.
Qed.
Lemma continue_after : forall s x v r img v' r', rlater r = [] -> ready r -> knows v (Some (s, x)) -> continue_frames (v, r) = (Ok img, (v', r')) ->
  knows v' (Some (s, x)) /\ ready r' /\ exists ci c2 p e c3, xitems_syn 0 ci /\ (group_syn c2 \/ c2 = []) /\ coded_picture_syn mb_ok (s, x) p e c3 /\ after r (ci ++ c2 ++ c3) r'.
Proof.
  intros s x v r img v' r' Hr Rd K H. unfold continue_frames in H. apply bind_ok_inv in H. destruct H as (u & [v1 r1] & E & H). apply extension_and_user_data_after in E; [|exact Hr|exact Rd|auto]. destruct E as (Hh & (ci & Xi & Ai) & Rd1).
  apply (more_after s x) in H; [|rewrite (after_later _ _ _ Ai); exact Hr|exact Rd1|eapply knows_headers; eauto]. destruct H as (K2 & Rd2 & c2 & p & e & c3 & G & C & A). split; [exact K2|]. split; [exact Rd2|]. exists ci, c2, p, e, c3. split; [exact Xi|]. split; [exact G|]. split; [exact C|]. eapply after_app; eauto.
Qed.
Lemma header_after : forall v r u v' r', vs_sequence_header (v, r) = (Ok u, (v', r')) -> exists s g, wf_seq s /\ gap g /\ after r (enc_seq s ++ g) r' /\ ready r' /\ v_sh v' = Some (seq_of s).
Proof.
  intros v r u v' r' H. unfold vs_sequence_header in H. apply bind_ok_inv in H. destruct H as (h & [v1 r1] & E & H). apply onr_inv in E. destruct E as (F & E). cbn [fst snd] in F, E. subst v1.
  unfold read_sequence_header in E. apply bind_ok_inv in E. destruct E as (h1 & q & E1 & E). apply seq_after in E1. destruct E1 as (s & W & A & ->). apply bind_ok_inv in E. destruct E as (u2 & q2 & E1 & E). apply gap_after in E1. destruct E1 as (g & t & G & Ag & Q & M).
  assert (h = seq_of s /\ r1 = q2) as [-> ->] by (unfold ret in E; split; congruence). apply upd_inv in H. injection H as -> ->. exists s, g. split; [exact W|]. split; [exact G|]. split; [eapply after_app; eauto|]. split; [exists t; auto | reflexivity].
Qed.
Lemma restart_after : forall v r u v1 r1 u2 v2 r2 img v' r', rlater r = [] -> vs_sequence_header (v, r) = (Ok u, (v1, r1)) -> vs_sequence_extension (v1, r1) = (Ok u2, (v2, r2)) ->
  continue_frames (v2, r2) = (Ok img, (v', r')) -> exists h c1 c2 p e c3, knows v' (Some h) /\ ready r' /\ start_syn h c1 /\ (group_syn c2 \/ c2 = []) /\ coded_picture_syn mb_ok h p e c3 /\ after r (c1 ++ c2 ++ c3) r'.
Proof.
  intros v r u v1 r1 u2 v2 r2 img v' r' Hr E1 E2 H. apply header_after in E1. destruct E1 as (s & g1 & Ws & G1 & A1 & Rd1 & K1).
  apply assign_after in E2. destruct E2 as (se & q & g2 & E & -> & G2 & A3 & Rd2). apply sext_after in E. destruct E as (x & Wx & A2 & ->). pose proof (after_app _ _ _ _ _ A2 A3) as A23. pose proof (after_app _ _ _ _ _ A1 A23) as A13.
  apply (continue_after s x) in H; [|rewrite (after_later _ _ _ A13); exact Hr|exact Rd2|split; [exact K1 | reflexivity]]. destruct H as (K & Rd & ci & c2 & p & e & c3 & Xi & G & C & A).
  exists (s, x), (((enc_seq s ++ g1) ++ enc_sext x ++ g2) ++ ci), c2, p, e, c3. split; [exact K|]. split; [exact Rd|]. split; [|split; [exact G|]; split; [exact C|]].
  - exists g1, g2, ci. cbn [fst snd]. split; [exact Ws|]. split; [exact Wx|]. split; [exact G1|]. split; [exact G2|]. split; [exact Xi | now rewrite <- !app_assoc].
  - rewrite <- app_assoc. eapply after_app; [exact A13 | exact A].
Qed.
Lemma step_after : forall o v r img v' r', rlater r = [] -> knows v o -> (o <> None -> ready r) -> step (v, r) = (Ok img, (v', r')) ->
  exists h c, knows v' (Some h) /\ ready r' /\ piece_syn mb_ok o h c /\ after r c r'.
Proof.
  intros o v r img v' r' Hr K Rd H. unfold step in H. rewrite bind_own in H. cbn [fst snd] in H. destruct o as [[s x]|]; cbn [knows] in K.
  - rewrite (proj1 K) in H. specialize (Rd ltac:(discriminate)).
    apply bind_ok_inv in H. destruct H as (nb & [v0 r0] & E & H). apply onr_inv in E. destruct E as (F & E). cbn [fst snd] in F, E. apply peek_after in E. destruct E as (-> & _ & _). subst v0.
    destruct (_ || _) in H.
    + apply (more_after s x) in H; [|assumption..]. destruct H as (K2 & Rd2 & c2 & p & e & c3 & G & C & A). exists (s, x), (c2 ++ c3). split; [exact K2|]. split; [exact Rd2|]. split; [|exact A].
      exists [], [], c2, p, e, c3. split; [reflexivity|]. split; [reflexivity|]. split; [right; auto|]. auto.
    + apply bind_ok_inv in H. destruct H as (nb2 & [v0 r0] & E & H). apply onr_inv in E. destruct E as (F & E). cbn [fst snd] in F, E. apply peek_after in E. destruct E as (-> & _ & _). subst v0.
      destruct (_ =? _) in H; [apply bind_ok_inv in H; destruct H as (? & ? & _ & H); discriminate|].
      apply bind_ok_inv in H. destruct H as (u & [v1 r1] & E1 & H). apply bind_ok_inv in H. destruct H as (u2 & [v2 r2] & E2 & H).
      destruct (restart_after _ _ _ _ _ _ _ _ _ _ _ Hr E1 E2 H) as (h & c1 & c2 & p & e & c3 & K2 & Rd2 & S & G & C & A). exists h, (c1 ++ c2 ++ c3). split; [exact K2|]. split; [exact Rd2|]. split; [|exact A].
      exists [], c1, c2, p, e, c3. split; [reflexivity|]. split; [reflexivity|]. auto.
  - rewrite K in H. apply bind_ok_inv in H. destruct H as (u0 & [v0 r0] & E & H). apply onr_inv in E. destruct E as (F & E). cbn [fst snd] in F, E. subst v0. apply gap_after in E. destruct E as (g & t & G0 & A0 & _ & _).
    apply bind_ok_inv in H. destruct H as (u & [v1 r1] & E1 & H).
    apply bind_ok_inv in H. destruct H as (nb & [v3 r3] & E & H). apply onr_inv in E. destruct E as (F & E). cbn [fst snd] in F, E. apply peek_after in E. destruct E as (-> & _ & _). subst v3.
    destruct (negb _) in H; [discriminate|]. apply bind_ok_inv in H. destruct H as (u2 & [v2 r2] & E2 & H).
    assert (Hr0 : rlater r0 = []) by (rewrite (after_later _ _ _ A0); exact Hr).
    destruct (restart_after _ _ _ _ _ _ _ _ _ _ _ Hr0 E1 E2 H) as (h & c1 & c2 & p & e & c3 & K2 & Rd2 & S & G & C & A). exists h, (g ++ c1 ++ c2 ++ c3). split; [exact K2|]. split; [exact Rd2|]. split; [|eapply after_app; eauto].
    exists g, c1, c2, p, e, c3. split; [reflexivity|]. split; [exact G0|]. auto.
Qed.
Lemma stream_app : forall mb o o1 o2 c d, stream_syn mb o o1 c -> stream_syn mb o1 o2 d -> stream_syn mb o o2 (c ++ d).
Proof. intros mb o o1 o2 c d H. induction H as [|o h o' c e P H IH]; intro H2; [exact H2|]. rewrite <- app_assoc. econstructor; eauto. Qed.
Lemma stream_some : forall mb o o' c, stream_syn mb o o' c -> o <> None -> o' <> None.
Proof. intros mb o o' c H. induction H as [|o h o' c e P H IH]; intro N; [exact N|]. apply IH. discriminate. Qed.
Lemma next_loop_after : forall f o v r img v' r', rlater r = [] -> knows v o -> (o <> None -> ready r) -> next_loop f (v, r) = (Ok img, (v', r')) ->
  exists h c, knows v' (Some h) /\ ready r' /\ stream_syn mb_ok o (Some h) c /\ after r c r'.
Proof.
  induction f as [|f IH]; intros o v r img v' r' Hr K Rd H; cbn [next_loop] in H; [discriminate|].
  apply bind_ok_inv in H. destruct H as (im & [v1 r1] & E & H). destruct (step_after _ _ _ _ _ _ Hr K Rd E) as (h & c & K1 & Rd1 & P & A).
  rewrite bind_own in H. cbn [fst snd] in H. apply bind_ok_inv in H. destruct H as (ph & s2 & E2 & H). assert (s2 = (v1, r1)) by (unfold deref in E2; destruct (v_ph v1); inversion E2; reflexivity). subst s2.
  destruct (ph_tr ph =? v_fc v1).
  - rewrite bind_upd in H. inversion H; subst. exists h, c. split; [eapply knows_headers; [|exact K1]; reflexivity|]. split; [exact Rd1|]. split; [|exact A].
    rewrite <- (app_nil_r c). econstructor; [exact P | constructor].
  - apply (IH (Some h)) in H; [|rewrite (after_later _ _ _ A); exact Hr|exact K1|auto]. destruct H as (h2 & c2 & K2 & Rd2 & S & A2). exists h2, (c ++ c2). split; [exact K2|]. split; [exact Rd2|]. split; [econstructor; eauto | eapply after_app; eauto].
Qed.
Lemma next_after : forall o v r img v' r', rlater r = [] -> knows v o -> (o <> None -> ready r) -> next (v, r) = (Ok img, (v', r')) ->
  exists o' c, knows v' o' /\ (o' <> None -> ready r') /\ stream_syn mb_ok o o' c /\ after r c r'.
Proof.
  intros o v r img v' r' Hr K Rd H. unfold next in H. rewrite bind_own in H. cbn [fst snd] in H. destruct (fs_tryget (v_fc v) (v_fs v)).
  - rewrite bind_upd in H. inversion H; subst. exists o, []. split; [eapply knows_headers; [|exact K]; reflexivity|]. split; [exact Rd|]. split; [constructor | apply after_nil].
  - apply (next_loop_after _ o) in H; [|assumption..]. destruct H as (h & c & K1 & Rd1 & S & A). exists (Some h), c. auto.
Qed.
Lemma nexts_after : forall n o v r imgs v' r', rlater r = [] -> knows v o -> (o <> None -> ready r) -> nexts n (v, r) = (Ok imgs, (v', r')) ->
  exists o' c, knows v' o' /\ (o' <> None -> ready r') /\ stream_syn mb_ok o o' c /\ after r c r'.
Proof.
  induction n as [|n IH]; intros o v r imgs v' r' Hr K Rd H; cbn [nexts] in H.
  - inversion H; subst. exists o, []. split; [exact K|]. split; [exact Rd|]. split; [constructor | apply after_nil].
  - apply bind_ok_inv in H. destruct H as (im & [v1 r1] & E & H). destruct (next_after _ _ _ _ _ _ Hr K Rd E) as (o1 & c1 & K1 & Rd1 & S1 & A1).
    apply bind_ok_inv in H. destruct H as (ims & [v2 r2] & E2 & H). inversion H; subst. apply (IH o1) in E2; [|rewrite (after_later _ _ _ A1); exact Hr|exact K1|exact Rd1]. destruct E2 as (o2 & c2 & K2 & Rd2 & S2 & A2).
    exists o2, (c1 ++ c2). split; [exact K2|]. split; [exact Rd2|]. split; [eapply stream_app; eauto | eapply after_app; eauto].
Qed.
