(** AcceptProofs: what pes.Packet.Next and NewPackHeader accept - the inverse of the round trips. *)
From Verif Require Import Base BitReader Exec TsRobust PesModel SpecPes PesProofs PesLocal After PsModel SpecPs PsProofs PsLocal SpecAccept.

(** * PES headers *)
Lemma expect_after : forall n w e r u r', expect n w e r = (Ok u, r') -> after r (enc n w) r'.
Proof.
  intros n w e r u r'. unfold expect. destruct (read_n n r) as [[v|e'| |] r1] eqn:E; try discriminate.
  apply read_after in E. destruct E as (_ & E). destruct (Z.eqb_spec v w) as [->|]; [|discriminate]. intro H. inversion H; subst. exact E.
Qed.
Tactic Notation "take" hyp(H) ident(x) ident(r1) :=
  let E := fresh "E" in apply bind_ok_inv in H; destruct H as (x & r1 & E & H);
  lazymatch type of E with
  | read_n 1 _ = _ => idtac
  | read_n _ _ = _ => let B := fresh "B" in apply read_after in E; destruct E as (B & E)
  | read1 _ = _ => apply read1_after in E
  | expect _ _ _ _ = _ => apply expect_after in E
  | _ => idtac
  end.
Lemma three_parts : forall v1 v2 v3, 0 <= v1 < 2 ^ 3 -> 0 <= v2 < 2 ^ 15 -> 0 <= v3 < 2 ^ 15 ->
  exists t, 0 <= t < 2 ^ 33 /\ enc 3 (t / 2 ^ 30) = enc 3 v1 /\ enc 15 (t / 2 ^ 15) = enc 15 v2 /\ enc 15 t = enc 15 v3 /\
  Z.lor (Z.lor (Z.lor 0 (u32 (Z.shiftl v1 30))) (u32 (Z.shiftl v2 15))) v3 = low32 t.
Proof.
  intros v1 v2 v3 H1 H2 H3. exists (v1 * 2 ^ 30 + v2 * 2 ^ 15 + v3). set (t := v1 * 2 ^ 30 + v2 * 2 ^ 15 + v3).
  change (2 ^ 3) with 8 in *. change (2 ^ 15) with 32768 in *. change (2 ^ 30) with 1073741824 in *. change (2 ^ 33) with 8589934592 in *.
  assert (R : 0 <= t < 8589934592) by (unfold t; lia).
  assert (Q1 : t / 1073741824 = v1) by (unfold t; symmetry; apply Z.div_unique with (r := v2 * 32768 + v3); lia).
  assert (Q2 : t / 32768 = v1 * 32768 + v2) by (unfold t; symmetry; apply Z.div_unique with (r := v3); lia).
  assert (Q3 : (t / 32768) mod 32768 = v2) by (rewrite Q2; symmetry; apply Z.mod_unique with (q := v1); lia).
  assert (Q4 : t mod 32768 = v3) by (unfold t; symmetry; apply Z.mod_unique with (q := v1 * 32768 + v2); lia).
  split; [exact R|]. split; [now rewrite Q1|].
  split; [rewrite <- (enc_ext_mod 15 (t / 32768)); change (2 ^ Z.of_nat 15) with 32768; now rewrite Q3|].
  split; [rewrite <- (enc_ext_mod 15 t); change (2 ^ Z.of_nat 15) with 32768; now rewrite Q4|].
  pose proof (lor_parts t R) as L. change (2 ^ 3) with 8 in L. change (2 ^ 15) with 32768 in L. change (2 ^ 30) with 1073741824 in L. rewrite Q1, Q3, Q4, (Z.mod_small v1) in L by lia. exact L.
Qed.
Lemma stamp_after : forall m r t n r', read_time_stamp m r = (Ok (t, n), r') -> exists s, wf_stamp s /\ after r (enc_stamp m s) r' /\ t = low32 s /\ n = 5.
Proof.
  intros m r t n r' H. unfold read_time_stamp in H. take H u r1. take H v1 r2. take H u2 r3. take H v2 r4. take H u3 r5. take H v3 r6. take H u4 r7.
  destruct (three_parts v1 v2 v3 B B0 B1) as (s & W & Q1 & Q2 & Q3 & Q4). exists s. split; [exact W|].
  assert (t = low32 s /\ n = 5 /\ r7 = r') as (-> & -> & ->) by (unfold ret in H; rewrite <- Q4; split; [|split]; congruence).
  split; [|auto]. unfold enc_stamp. rewrite Q1, Q2, Q3. change (bit true) with (enc 1 1). chain.
Qed.
Lemma xt_after : forall r x n r', read_extension r = (Ok (x, n), r') -> exists s, wf_xt s /\ after r (enc_xt s) r' /\ x = go_xt s /\ n = xt_len s.
Proof.
  intros r x n r' H. unfold read_extension in H. take H f1 r1. take H f2 r2. take H f3 r3. take H f4 r4. take H u5 r5. apply skip_after in E3. destruct E3 as (rs & Brs & E3). take H f5 r6.
  take H dn r7. destruct dn as [data n1]. take H u8 r8. take H u9 r9. take H bn r10. destruct bn as [buf n2]. take H u11 r11.
  destruct f2; [discriminate|]. destruct f3; [discriminate|]. destruct f5; [discriminate|].
  assert (r8 = r7) as -> by (unfold ret in E6; congruence). assert (r9 = r7) as -> by (unfold ret in E7; congruence). assert (r11 = r10) as -> by (unfold ret in E9; congruence).
  assert (x = mkPExt f1 false false f4 false data buf /\ n = n2 /\ r' = r10) as (-> & -> & ->) by (unfold ret in H; split; [|split]; congruence).
  assert (P1 : exists op, match op with Some d => bytes d /\ blen d = 16 | None => True end /\ f1 = present op /\ data = match op with Some d => d | None => [] end /\
     n1 = (if present op then 17 else 1) /\ after r6 (match op with Some d => bb d | None => [] end) r7).
  { destruct f1.
    - take E5 d r12. apply bytes_after in E10; [|lia]. destruct E10 as (L & Bd & A). exists (Some d). unfold ret in E5. change (1 + 16) with 17 in E5.
      assert (data = d /\ n1 = 17 /\ r12 = r7) as (-> & -> & ->) by (split; [|split]; congruence). cbn [present]. auto.
    - exists None. unfold ret in E5. assert (data = [] /\ n1 = 1 /\ r6 = r7) as (-> & -> & ->) by (split; [|split]; congruence). cbn [present]. split; [exact I|]. do 3 (split; [reflexivity|]). apply after_nil. }
  destruct P1 as (op & Wp & -> & -> & -> & Ap).
  assert (P2 : exists ob, match ob with Some (_, size) => 0 <= size < 2 ^ 13 | None => True end /\ f4 = present ob /\ buf = match ob with Some (sc, sz) => Some (Z.b2z sc, sz) | None => None end /\
     n2 = (if present op then 17 else 1) + (if present ob then 2 else 0) /\ after r7 (match ob with Some (sc, sz) => enc 2 1 ++ bit sc ++ enc 13 sz | None => [] end) r10).
  { destruct f4.
    - take E8 ue r12. take E8 sc r13. take E8 sz r14. apply read_bit_after in E11. destruct E11 as (b & -> & E11). exists (Some (b, sz)). unfold ret in E8.
      assert (buf = Some (Z.b2z b, sz) /\ n2 = (if present op then 17 else 1) + 2 /\ r14 = r10) as (-> & -> & ->) by (split; [|split]; congruence). cbn [present].
      split; [exact B|]. do 3 (split; [reflexivity|]). chain.
    - exists None. unfold ret in E8. assert (buf = None /\ n2 = (if present op then 17 else 1) /\ r7 = r10) as (-> & -> & ->) by (split; [|split]; congruence). cbn [present].
      split; [exact I|]. do 2 (split; [reflexivity|]). split; [lia | apply after_nil]. }
  destruct P2 as (ob & Wb & -> & -> & -> & Ab).
  exists (mkSxt op rs ob). split; [unfold wf_xt; cbn [xt_private xt_reserved xt_pstd]; split; [exact Wp|]; split; [exact Brs | exact Wb]|].
  split; [unfold enc_xt; cbn [xt_private xt_reserved xt_pstd]; chain|]. split; [reflexivity|]. unfold xt_len. cbn [xt_private xt_reserved xt_pstd]. destruct (present op), (present ob); reflexivity.
Qed.
Lemma stuffing_after : forall k r u r', stuffing_loop k r = (Ok u, r') -> after r (bb (repeat 255 k)) r'.
Proof.
  induction k as [|k IH]; intros r u r' H; cbn [stuffing_loop] in H.
  - assert (r = r') as -> by (unfold ret in H; congruence). apply after_nil.
  - take H v r1. destruct (Z.eqb_spec v 255) as [->|]; [|discriminate]. apply IH in H. cbn [repeat]. rewrite bb_cons. chain.
Qed.
(** The Go header of a header with the forbidden flags *)
Definition go_head_01 (h : shead) : pheader :=
  mkPH (sh_scrambling h) (sh_priority h) (sh_alignment h) (sh_copyright h) (sh_original h) 1 false false false false false (present (sh_ext h)) (data_len h) 0 0
    (match sh_ext h with Some x => Some (go_xt x) | None => None end).
Definition head_bits (h : shead) (c : list bool) (g : pheader) : Prop :=
  (c = enc_head h /\ g = go_head h (data_len h)) \/ (sh_stamps h = NoStamp /\ c = enc_head_01 h /\ g = go_head_01 h).
Lemma header_after : forall r g n r', Z.of_nat (length (rbits r)) < 8 * (2 ^ 32 - 256) -> read_header r = (Ok (g, n), r') ->
  exists h c, wf_head h /\ after r c r' /\ head_bits h c g /\ n = 3 + data_len h.
Proof.
  intros r g n r' HL H. unfold read_header in H. take H u r1. take H sc r2. take H prio r3. take H dai r4. take H copr r5. take H orig r6. take H pd r7. take H escr r8. take H esr r9. take H dsm r10. take H aci r11. take H crc r12. take H extf r13. take H hdl r14.
  cbv zeta in H. take H pn r15. destruct pn as [pts n1]. take H qn r16. destruct qn as [[pts2 dts] n2]. take H v1 r17. take H v2 r18. take H v3 r19. take H v4 r20. take H v5 r21. take H xn r22. destruct xn as [ext n3]. take H st r23.
  destruct escr; [discriminate|]. destruct esr; [discriminate|]. destruct dsm; [discriminate|]. destruct aci; [discriminate|]. destruct crc; [discriminate|].
  assert (r17 = r16) as -> by (unfold ret in E15; congruence). assert (r18 = r16) as -> by (unfold ret in E16; congruence). assert (r19 = r16) as -> by (unfold ret in E17; congruence).
  assert (r20 = r16) as -> by (unfold ret in E18; congruence). assert (r21 = r16) as -> by (unfold ret in E19; congruence). clear E15 E16 E17 E18 E19.
  assert (PS : exists s, wf_stamps s /\ (pd = stamp_flags s \/ (pd = 1 /\ s = NoStamp)) /\ after r14 (enc_stamps s) r16 /\ n2 = 3 + stamps_len s /\
     pts2 = match s with NoStamp => 0 | Pts p => low32 p | PtsDts p _ => low32 p end /\ dts = match s with PtsDts _ d => low32 d | _ => 0 end).
  { destruct (Z.eqb_spec pd 2) as [->|N2].
    - take E13 tl r24. destruct tl as [t l]. apply stamp_after in E15. destruct E15 as (s & W & A & -> & ->). cbn [Z.eqb Pos.eqb] in E14. unfold ret in E13, E14.
      assert (pts = low32 s /\ n1 = 8 /\ r24 = r15) as (-> & -> & ->) by (split; [|split]; [congruence| |congruence]; change (u32 (minimumHeaderSize + 5)) with 8 in E13; congruence).
      exists (Pts s). assert (pts2 = low32 s /\ dts = 0 /\ n2 = 8 /\ r15 = r16) as (-> & -> & -> & ->) by (split; [|split; [|split]]; congruence).
      split; [exact W|]. split; [left; reflexivity|]. split; [exact A|]. auto.
    - unfold ret in E13. assert (pts = 0 /\ n1 = 3 /\ r14 = r15) as (-> & -> & ->) by (split; [|split]; [congruence| |congruence]; change minimumHeaderSize with 3 in E13; congruence).
      destruct (Z.eqb_spec pd 3) as [->|N3].
      + take E14 tl r24. destruct tl as [t l]. apply stamp_after in E15. destruct E15 as (s & W & A & -> & ->). take E14 tl r25. destruct tl as [t l]. apply stamp_after in E15. destruct E15 as (s2 & W2 & A2 & -> & ->).
        unfold ret in E14. change (u32 (u32 (3 + 5) + 5)) with 13 in E14. exists (PtsDts s s2). assert (pts2 = low32 s /\ dts = low32 s2 /\ n2 = 13 /\ r25 = r16) as (-> & -> & -> & ->) by (split; [|split; [|split]]; congruence).
        split; [split; assumption|]. split; [left; reflexivity|]. split; [cbn [enc_stamps]; chain|]. auto.
      + unfold ret in E14. exists NoStamp. assert (pts2 = 0 /\ dts = 0 /\ n2 = 3 /\ r15 = r16) as (-> & -> & -> & ->) by (split; [|split; [|split]]; congruence).
        split; [exact I|]. split; [change (2 ^ Z.of_nat 2) with 4 in B0; cbn [stamp_flags]; destruct (Z.eq_dec pd 1); [right; auto | left; lia]|]. split; [apply after_nil|]. auto. }
  destruct PS as (s & Ws & Fs & As & -> & -> & ->).
  assert (PX : exists o, match o with Some x => wf_xt x | None => True end /\ extf = present o /\ after r16 (match o with Some x => enc_xt x | None => [] end) r22 /\
     ext = match o with Some x => Some (go_xt x) | None => None end /\ n3 = 3 + stamps_len s + match o with Some x => xt_len x | None => 0 end).
  { assert (0 <= stamps_len s <= 10) by (destruct s; cbn; lia). destruct extf.
    - take E20 xl r24. destruct xl as [x l]. apply xt_after in E15. destruct E15 as (sx & Wx & Ax & -> & ->). pose proof (xt_len_range sx). exists (Some sx). unfold ret in E20. rewrite u32_small in E20 by lia.
      assert (ext = Some (go_xt sx) /\ n3 = 3 + stamps_len s + xt_len sx /\ r24 = r22) as (-> & -> & ->) by (split; [|split]; congruence). auto.
    - exists None. unfold ret in E20. assert (ext = None /\ n3 = 3 + stamps_len s /\ r16 = r22) as (-> & -> & ->) by (split; [|split]; congruence). split; [exact I|]. split; [reflexivity|]. split; [apply after_nil|]. split; [reflexivity | lia]. }
  destruct PX as (o & Wo & -> & Ao & -> & ->).
  set (pl := stamps_len s + match o with Some x => xt_len x | None => 0 end).
  assert (RP : 0 <= pl <= 29) by (unfold pl; destruct s; destruct o as [x|]; try pose proof (xt_len_range x); cbn [stamps_len]; lia).
  assert (EQ : 3 + stamps_len s + match o with Some x => xt_len x | None => 0 end = 3 + pl) by (unfold pl; lia). rewrite EQ in E21, H. clear EQ.
  replace (3 + pl - minimumHeaderSize) with pl in E21 by (unfold minimumHeaderSize; lia). rewrite (u32_small pl) in E21 by lia.
  unfold read_stuffing in E21. take E21 us r24. apply stuffing_after in E15. assert (st = u32 (hdl - pl) /\ r24 = r23) as (-> & ->) by (unfold ret in E21; split; congruence).
  change (2 ^ Z.of_nat 8) with 256 in B1.
  assert (L23 : (8 * Z.to_nat (u32 (hdl - pl)) <= length (rbits r))%nat).
  { apply after_length in E15. rewrite bb_length, repeat_length in E15. repeat match goal with A : after _ _ _ |- _ => apply after_length in A end. lia. }
  assert (hdl >= pl). { destruct (Z_lt_le_dec hdl pl) as [L|L]; [|lia]. exfalso. unfold u32 in L23. rewrite <- (Z.mod_unique (hdl - pl) 4294967296 (-1) (hdl - pl + 4294967296)) in L23 by lia. change (2 ^ 32) with 4294967296 in HL. lia. }
  rewrite (u32_small (hdl - pl)) in * by lia.
  exists (mkShead sc prio dai copr orig s o (Z.to_nat (hdl - pl))).
  assert (DL : data_len (mkShead sc prio dai copr orig s o (Z.to_nat (hdl - pl))) = hdl) by (unfold data_len, parts_len; cbn [sh_stamps sh_ext sh_stuffing]; fold pl; lia).
  assert (g = mkPH sc prio dai copr orig pd false false false false false (present o) hdl match s with NoStamp => 0 | Pts p => low32 p | PtsDts p _ => low32 p end match s with PtsDts _ d => low32 d | _ => 0 end
     match o with Some x => Some (go_xt x) | None => None end /\ n = 3 + hdl /\ r23 = r') as (-> & -> & ->).
  { unfold ret in H. rewrite u32_small in H by lia. replace (3 + pl + (hdl - pl)) with (3 + hdl) in H by lia. split; [|split]; congruence. }
  destruct Fs as [-> | (-> & ->)].
  - eexists. split; [split; [split; [exact B|]; split; [exact Ws | exact Wo] | rewrite DL; lia]|]. split; [|split; [left; split; [reflexivity|]; unfold go_head; cbn [sh_scrambling sh_priority sh_alignment sh_copyright sh_original sh_stamps sh_ext]; rewrite DL; reflexivity | rewrite DL; reflexivity]].
    unfold enc_head, enc_parts. rewrite DL. cbn [sh_scrambling sh_priority sh_alignment sh_copyright sh_original sh_stamps sh_ext sh_stuffing]. rewrite <- !app_assoc. chain.
  - eexists. split; [split; [split; [exact B|]; split; [exact Ws | exact Wo] | rewrite DL; lia]|]. split; [|split; [right; split; [reflexivity|]; split; [reflexivity|]; unfold go_head_01; cbn [sh_scrambling sh_priority sh_alignment sh_copyright sh_original sh_stamps sh_ext]; rewrite DL; reflexivity | rewrite DL; reflexivity]].
    unfold enc_head_01. rewrite DL. cbn [sh_scrambling sh_priority sh_alignment sh_copyright sh_original sh_stamps sh_ext sh_stuffing]. assert (A16 : after r14 [] r16) by exact As.
    assert (r14 = r16) as -> by (unfold after in A16; cbn [app] in A16; rewrite setb_rbits in A16; exact A16). chain.
Qed.

(** * PES packets *)
Lemma onrz_ok_inv : forall T A z (m : M reader A) (t : T) r a s, onrz z m (t, r) = (Ok a, s) -> exists r', m r = (Ok a, r') /\ s = (t, r').
Proof. intros T A z m t r a s H. unfold onrz in H. cbn [fst snd] in H. destruct (m r) as [[x|e| |] r1] eqn:E; inversion H; subst. eauto. Qed.
Lemma onr_ok_inv : forall T A (m : M reader A) (t : T) r a s, onr m (t, r) = (Ok a, s) -> exists r', m r = (Ok a, r') /\ s = (t, r').
Proof. intros T A m t r a s H. unfold onr in H. cbn [fst snd] in H. destruct (m r) as [[x|e| |] r1] eqn:E; inversion H; subst. eauto. Qed.
Lemma upd_ok_inv : forall T R (f : T -> T) (t : T) (r : R) u s, upd f (t, r) = (Ok u, s) -> s = (f t, r).
Proof. intros T R f t r u s H. unfold upd in H. cbn [fst snd] in H. congruence. Qed.
Lemma full_after : forall n r bs r', 0 <= n -> read_full n r = ((bs, None), r') -> blen bs = n /\ bytes bs /\ after r (bb bs) r'.
Proof. intros n r bs r' Hn H. apply bytes_after; [exact Hn|]. unfold read_bytes. rewrite H. reflexivity. Qed.
Lemma all_after : forall r bs e r', read_all r = ((bs, e), r') -> bytes bs /\ exists t, (length t < 8)%nat /\ rbits r = bb bs ++ t.
Proof.
  intros r bs e r' H. unfold read_all in H. assert (bs = get_bytes (Z.to_nat (avail r)) (rbits r)) as -> by congruence. split; [apply get_bytes_bytes|].
  exists (skipn (8 * Z.to_nat (avail r)) (rbits r)). unfold avail.
  pose proof (Z.div_mod (Z.of_nat (length (rbits r))) 8 ltac:(lia)). pose proof (Z.mod_pos_bound (Z.of_nat (length (rbits r))) 8 ltac:(lia)). pose proof (Z.div_pos (Z.of_nat (length (rbits r))) 8 ltac:(lia) ltac:(lia)).
  split; [rewrite skipn_length; lia|]. rewrite bb_get_bytes by lia. symmetry. apply firstn_skipn.
Qed.
Lemma start_after : forall p r u s, pes_next (p, r) = (Ok u, s) -> exists id len r1, 0 <= id < 2 ^ 8 /\ 0 <= len < 2 ^ 16 /\ after r (enc_start id len) r1 /\
  pes_rest id len (pset_length len (pset_id id p), r1) = (Ok u, s).
Proof.
  intros p r u s H. unfold pes_next in H. apply bind_ok_inv in H. destruct H as (v & s1 & E1 & H). apply onr_ok_inv in E1. destruct E1 as (r1 & E1 & ->). apply peek_after in E1. destruct E1 as (-> & _ & t & Q).
  apply bind_ok_inv in H. destruct H as (u1 & s1 & E1 & H). destruct (Z.eqb_spec v StartCodePrefix) as [->|]; [|discriminate]. change StartCodePrefix with 1 in Q. assert (s1 = (p, r)) as -> by (unfold ret in E1; congruence). clear E1 u1.
  apply bind_ok_inv in H. destruct H as (u1 & s1 & E1 & H). apply onr_ok_inv in E1. destruct E1 as (r1 & E1 & ->).
  assert (A1 : after r (enc 24 1) r1).
  { assert (X : skip_n 24 r = (Ok tt, setb r t)) by (rewrite <- (setb_rbits r), Q at 1; apply skip_enc). unfold ignore_err in E1. rewrite X in E1. assert (r1 = setb r t) as -> by congruence.
    apply after_intro; [rewrite rbits_setb; exact Q | reflexivity]. }
  apply bind_ok_inv in H. destruct H as (id & s1 & E2 & H). apply onrz_ok_inv in E2. destruct E2 as (r2 & E2 & ->). apply read_after in E2. destruct E2 as (B2 & A2).
  apply bind_ok_inv in H. destruct H as (u2 & s1 & E2 & H). apply upd_ok_inv in E2. subst s1.
  apply bind_ok_inv in H. destruct H as (len & s1 & E3 & H). apply onrz_ok_inv in E3. destruct E3 as (r3 & E3 & ->). apply read_after in E3. destruct E3 as (B3 & A3).
  apply bind_ok_inv in H. destruct H as (u3 & s1 & E3 & H). apply upd_ok_inv in E3. subst s1.
  exists id, len, r3. split; [exact B2|]. split; [exact B3|]. split; [unfold enc_start; chain | exact H].
Qed.
Lemma pes_after : forall p r u p' r', Z.of_nat (length (rbits r)) < 8 * (2 ^ 32 - 65536) -> pes_next (p, r) = (Ok u, (p', r')) ->
  exists id len, 0 <= id < 2 ^ 8 /\ 0 <= len < 2 ^ 16 /\ pp_id p' = id /\ pp_length p' = len /\
  ((carries_header id /\ exists h c g, wf_head h /\ head_bits h c g /\ pp_header p' = Some g /\ bytes (pp_payload p') /\
      (0 < len /\ len = 3 + data_len h + blen (pp_payload p') /\ after r (enc_start id len ++ c ++ bb (pp_payload p')) r' \/
       len = 0 /\ (rfin r = EEOF \/ rfin r = EOP) /\ r' = advance r /\ exists t, (length t < 8)%nat /\ rbits r = enc_start id len ++ c ++ bb (pp_payload p') ++ t)) \/
   (id = 190 /\ exists d, bytes d /\ blen d = len /\ after r (enc_padding d) r' /\ pp_header p' = pp_header p /\ pp_payload p' = pp_payload p) \/
   (In id headerless /\ id <> 190 /\ after r (enc_start id len) r' /\ pp_header p' = pp_header p /\ pp_payload p' = pp_payload p)).
Proof.
  intros p r u p' r' HL H. apply start_after in H. destruct H as (id & len & r1 & Bi & Bl & A1 & H). exists id, len. split; [exact Bi|]. split; [exact Bl|].
  pose proof (after_length _ _ _ A1) as L1. unfold pes_rest in H. destruct (has_pes_header id) eqn:Hh.
  - apply has_header_spec in Hh; [|exact Bi]. apply bind_ok_inv in H. destruct H as (hl & s1 & E & H). unfold pes_header in E. cbn [fst snd] in E.
    destruct (read_header r1) as [[[g n]|e| |] r2] eqn:ER; try discriminate. assert (hl = n /\ s1 = (pset_header (Some g) (pset_length len (pset_id id p)), r2)) as (-> & ->) by (split; congruence). clear E.
    apply header_after in ER; [|change (2 ^ 32) with 4294967296 in *; lia]. destruct ER as (h & c & Wh & Ah & Hb & ->). pose proof (after_length _ _ _ Ah) as L2. pose proof (data_len_range h). pose proof (proj2 Wh).
    destruct (Z.ltb_spec 0 len) as [Lp|Lp].
    + unfold pes_bounded in H. cbn [fst snd] in H. destruct (read_full (u32 (len - (3 + data_len h))) r2) as [[bs e] r3] eqn:EF. destruct e as [e|]; [discriminate|].
      assert (p' = pset_payload (copy_into (repeat 0 (Z.to_nat (u32 (len - (3 + data_len h))))) bs) (pset_header (Some g) (pset_length len (pset_id id p))) /\ r3 = r') as (-> & ->) by (split; congruence).
      assert (0 <= u32 (len - (3 + data_len h))) by (unfold u32; apply Z.mod_pos_bound; lia). apply full_after in EF; [|assumption]. destruct EF as (LB & BB & AB). rewrite copy_exact by exact LB.
      assert (LP : len >= 3 + data_len h). { destruct (Z_lt_le_dec len (3 + data_len h)); [|lia]. exfalso. apply after_length in AB. rewrite bb_length in AB. unfold blen in LB. unfold u32 in LB. rewrite <- (Z.mod_unique (len - (3 + data_len h)) 4294967296 (-1) (len - (3 + data_len h) + 4294967296)) in LB by lia. change (2 ^ 32) with 4294967296 in HL. lia. }
      rewrite u32_small in LB by (change (2 ^ 16) with 65536 in Bl; lia). cbn [pset_payload pset_header pset_length pset_id pp_id pp_length pp_header pp_payload].
      split; [reflexivity|]. split; [reflexivity|]. left. split; [exact Hh|]. exists h, c, g. split; [exact Wh|]. split; [exact Hb|]. split; [reflexivity|]. split; [exact BB|]. left. split; [exact Lp|]. split; [lia|]. chain.
    + assert (len = 0) as -> by lia. unfold pes_unbounded in H. cbn [fst snd] in H. destruct (read_all r2) as [[bs e] r3] eqn:EA. pose proof (all_after _ _ _ _ EA) as (BB & t & Lt & Qt).
      assert (HF : rfin r2 = rfin r) by (rewrite A1, Ah; reflexivity).
      assert (HR : advance r2 = advance r) by (rewrite A1, Ah; unfold advance; cbn [setb rlater rfin rshort]; destruct (rlater r2); reflexivity).
      assert (r3 = advance r2 /\ e = match rfin r2 with EEOF => None | e => Some e end) as (-> & He) by (unfold read_all in EA; split; congruence).
      assert (F : rfin r = EEOF \/ rfin r = EOP) by (rewrite <- HF; rewrite He in H; destruct (rfin r2); auto; discriminate).
      assert (p' = pset_payload bs (pset_header (Some g) (pset_length 0 (pset_id id p))) /\ r' = advance r2) as (-> & ->) by (destruct e as [[]|]; split; congruence).
      cbn [pset_payload pset_header pset_length pset_id pp_id pp_length pp_header pp_payload].
      split; [reflexivity|]. split; [reflexivity|]. left. split; [exact Hh|]. exists h, c, g. split; [exact Wh|]. split; [exact Hb|]. split; [reflexivity|]. split; [exact BB|]. right. split; [reflexivity|]. split; [exact F|]. split; [exact HR|].
      exists t. split; [exact Lt|]. rewrite (after_bits _ _ _ A1), (after_bits _ _ _ Ah), Qt. reflexivity.
  - assert (HI : In id headerless). { assert (N : ~ carries_header id) by (rewrite <- has_header_spec by exact Bi; congruence). unfold carries_header in N. destruct (in_dec Z.eq_dec id headerless); [assumption|]. exfalso. apply N. split; assumption. }
    destruct (Z.eqb_spec id padding_stream) as [->|N].
    + apply bind_ok_inv in H. destruct H as (d & s1 & E & H). apply onr_ok_inv in E. destruct E as (r2 & E & ->). apply bytes_after in E; [|lia]. destruct E as (LD & BD & AD).
      assert (p' = pset_length len (pset_id padding_stream p) /\ r2 = r') as (-> & ->) by (unfold ret in H; split; congruence). split; [reflexivity|]. split; [reflexivity|]. right; left. split; [reflexivity|].
      exists d. split; [exact BD|]. split; [exact LD|]. split; [unfold enc_padding; rewrite LD; chain|]. split; reflexivity.
    + assert (p' = pset_length len (pset_id id p) /\ r1 = r') as (-> & ->) by (unfold ret in H; split; congruence). split; [reflexivity|]. split; [reflexivity|]. right; right. split; [exact HI|]. split; [exact N|]. split; [exact A1|]. split; reflexivity.
Qed.

(** * Program stream pack headers *)
Lemma mark_after : forall n w r u r', marker n w r = (Ok u, r') -> after r (enc n w) r'.
Proof.
  intros n w r u r' H. unfold marker in H. apply bind_ok_inv in H. destruct H as (v & r1 & E & H). apply read_after in E. destruct E as (_ & E). destruct (Z.eqb_spec v w) as [->|]; [|discriminate].
  assert (r1 = r') as -> by (unfold ret in H; congruence). exact E.
Qed.
Lemma ps_check_after : forall c r b r', ps_check c r = (Ok b, r') -> r' = r /\ exists v t, 0 <= v < 2 ^ 32 /\ b = (v =? c) /\ rbits r = enc 32 v ++ t.
Proof.
  intros c r b r' H. unfold ps_check in H. apply bind_ok_inv in H. destruct H as (v & r1 & E & H). apply peek_after in E. destruct E as (-> & B & t & Q). split; [unfold ret in H; congruence|]. exists v, t. split; [exact B|]. split; [unfold ret in H; congruence | exact Q].
Qed.
Lemma ps_assert_after : forall c r u r', ps_assert c r = (Ok u, r') -> after r (enc 32 c) r'.
Proof.
  intros c r u r' H. unfold ps_assert in H. apply bind_ok_inv in H. destruct H as (b & r1 & E & H). apply ps_check_after in E. destruct E as (-> & v & t & _ & -> & Q). destruct (Z.eqb_spec v c) as [->|]; [|discriminate].
  apply skip_after in H. destruct H as (w & _ & A). exact (after_seen _ _ _ _ _ _ Q A).
Qed.
Lemma streams_after : forall f acc r l r', streams_loop f acc r = (Ok l, r') -> exists ss, Forall wf_sstream ss /\ l = acc ++ map go_sstream ss /\ after r (flat_map enc_sstream ss) r' /\ exists t, rbits r' = false :: t.
Proof.
  induction f as [|f IH]; intros acc r l r' H; cbn [streams_loop] in H; [discriminate|].
  apply bind_ok_inv in H. destruct H as (b & r1 & E & H). apply peek_after in E. destruct E as (-> & Bb & t & Q). change (2 ^ Z.of_nat 1) with 2 in Bb. destruct (Z.eqb_spec b 1) as [->|N]; cbn [negb] in H.
  - take H sid r2. take H u3 r3. apply mark_after in E0. take H sc r4. take H sz r5. apply IH in H. destruct H as (ss & F & -> & A & T).
    exists (mkSstream sid sc sz :: ss). split; [constructor; [|exact F]|].
    + unfold wf_sstream. cbn [st_id st_size]. change (2 ^ Z.of_nat 8) with 256 in B. change (2 ^ Z.of_nat 13) with (2 ^ 13) in B0. split; [|exact B0]. change (2 ^ 8) with 256.
      enough (128 <= sid) by lia. pose proof (after_bits _ _ _ E) as Q2. rewrite Q in Q2. change (enc 1 1) with [true] in Q2. cbn [app] in Q2.
      destruct (Z_lt_le_dec sid 128) as [Lt|]; [|lia]. exfalso. assert (D : dec (enc 8 sid) = sid) by (apply dec_enc; cbn; lia).
      assert (X : hd false (enc 8 sid) = true). { destruct (enc 8 sid) as [|x q] eqn:Eq; [apply (f_equal (@length bool)) in Eq; rewrite enc_length in Eq; discriminate|]. cbn [app] in Q2. cbn [hd]. congruence. }
      cbn [enc] in X. cbn [hd] in X. apply Z.testbit_true in X; [|lia]. change (2 ^ 7) with 128 in X. rewrite Z.div_small in X by lia. discriminate.
    + cbn [map flat_map]. rewrite <- app_assoc. split; [reflexivity|]. split; [|exact T]. unfold enc_sstream at 1. cbn [st_id st_scale st_size]. rewrite <- !app_assoc. chain.
  - assert (l = acc /\ r = r') as (-> & ->) by (unfold ret in H; split; congruence). exists []. split; [constructor|]. split; [rewrite app_nil_r; reflexivity|]. split; [apply after_nil|]. exists t. rewrite Q. assert (b = 0) as -> by lia. reflexivity.
Qed.
(** The Go header of a system header with any header_length *)
Definition go_sys_len (len : Z) (s : ssys) : sysheader :=
  mkSH len (sm_rate s) (sm_video s) (sm_fixed s) (sm_csps s) (sm_alock s) (sm_vlock s) 0 (sm_restrict s) (map go_sstream (sm_streams s)).
Definition wf_sys_fields (s : ssys) : Prop :=
  0 <= sm_rate s < 2 ^ 22 /\ 0 <= sm_audio s < 2 ^ 6 /\ 0 <= sm_video s < 2 ^ 5 /\ Forall wf_sstream (sm_streams s).
Lemma system_after : forall r g t r', rbits r = enc 32 443 ++ t -> read_system_header r = (Ok g, r') ->
  exists len s, 0 <= len < 2 ^ 16 /\ wf_sys_fields s /\ after r (enc_sys_len len s) r' /\ g = go_sys_len len s /\ exists t, rbits r' = false :: t.
Proof.
  intros r g t r' Q H. unfold read_system_header in H. take H u1 r1. apply skip_after in E. destruct E as (w & _ & E). pose proof (after_seen _ _ _ _ _ _ Q E) as E0. clear E.
  take H hl r2. take H u3 r3. apply mark_after in E1. take H rb r4. take H u5 r5. apply mark_after in E3. take H ab r6. take H fx r7. take H cs r8. take H sa r9. take H sv r10. take H u11 r11. apply mark_after in E9.
  take H vb r12. take H pr r13. take H u14 r14. apply skip_after in E12. destruct E12 as (rs & _ & E12). take H ss r15. apply streams_after in E13. destruct E13 as (l & F & -> & A & T). cbn [app] in H.
  assert (g = mkSH hl rb vb fx cs sa sv 0 pr (map go_sstream l) /\ r15 = r') as (-> & ->) by (unfold ret in H; split; congruence).
  exists hl, (mkSsys rb ab fx cs sa sv vb pr rs l). split; [exact B|]. split; [unfold wf_sys_fields; cbn [sm_rate sm_audio sm_video sm_streams]; auto|]. split; [|split; [reflexivity | exact T] ].
  unfold enc_sys_len. cbn [sm_rate sm_audio sm_fixed sm_csps sm_alock sm_vlock sm_video sm_restrict sm_reserved sm_streams]. change (bit true) with (enc 1 1). chain.
Qed.
Definition wf_pack_fields (p : spack) : Prop :=
  0 <= sk_base p < 2 ^ 33 /\ 0 <= sk_ext p < 2 ^ 9 /\ 0 <= sk_rate p < 2 ^ 22 /\ bytes (sk_stuffing p) /\ blen (sk_stuffing p) < 8.
Lemma pack_after : forall r g r', rlater r = [] -> new_pack_header r = (Ok g, r') ->
  exists p, wf_pack_fields p /\ pk_base g = low32 (sk_base p) /\ pk_ext g = sk_ext p /\ pk_rate g = sk_rate p /\
  match sk_sys p with
  | None => after r (enc_pack_start p) r' /\ pk_system g = None /\ exists v t, v <> 443 /\ 0 <= v < 2 ^ 32 /\ rbits r' = enc 32 v ++ t
  | Some s => exists len, 0 <= len < 2 ^ 16 /\ wf_sys_fields s /\ after r (enc_pack_start p ++ enc_sys_len len s) r' /\ pk_system g = Some (go_sys_len len s) /\ exists t, rbits r' = false :: t
  end.
Proof.
  intros r g r' Hr H. unfold new_pack_header in H. take H u1 r1. apply ps_assert_after in E. take H u2 r2. apply mark_after in E0. take H v1 r3. cbv zeta in H. take H u4 r4. apply mark_after in E2. take H v2 r5. take H u6 r6. apply mark_after in E4. take H v3 r7.
  take H u8 r8. apply mark_after in E6. take H ex r9. take H u10 r10. apply mark_after in E8. take H rt r11. take H u12 r12. apply mark_after in E10. take H u13 r13. apply mark_after in E11. take H u14 r14. apply skip_after in E12. destruct E12 as (rs & _ & E12).
  take H st r15. take H u16 r16. take H b r17. take H sys r18.
  destruct (three_parts v1 v2 v3 B B0 B1) as (tt0 & W & Q1 & Q2 & Q3 & Q4).
  change (2 ^ Z.of_nat 3) with 8 in B4.
  assert (R15 : rlater r15 = []). { repeat match goal with A : after _ _ _ |- _ => apply after_later in A end. congruence. }
  destruct (Nat.le_gt_cases (8 * Z.to_nat st) (length (rbits r15))) as [L|L].
  2:{ exfalso. destruct (stuffing_skip_short _ _ R15 L) as (rx & X & _ & Lx). assert (r16 = rx) as -> by congruence. unfold ps_check in E15. apply bind_ok_inv in E15. destruct E15 as (v & ry & Y & _). apply peek_after in Y. destruct Y as (_ & _ & t & Qy). rewrite Qy, app_length, enc_length in Lx. lia. }
  rewrite stuffing_skip_enough in E14 by exact L. assert (r16 = setb r15 (skipn (8 * Z.to_nat st) (rbits r15))) as -> by congruence.
  assert (AS : after r15 (bb (get_bytes (Z.to_nat st) (rbits r15))) (setb r15 (skipn (8 * Z.to_nat st) (rbits r15)))).
  { apply after_intro; [|reflexivity]. rewrite bb_get_bytes, rbits_setb by exact L. symmetry. apply firstn_skipn. }
  set (r16 := setb r15 (skipn (8 * Z.to_nat st) (rbits r15))) in *. clearbody r16. clear E14.
  set (sf := get_bytes (Z.to_nat st) (rbits r15)) in *. assert (Lsf : blen sf = st) by (unfold sf, blen; rewrite get_bytes_length; lia). assert (Bsf : bytes sf) by apply get_bytes_bytes. clearbody sf.
  assert (g = mkPKH (low32 tt0) ex rt sys /\ r18 = r') as (-> & ->) by (unfold ret in H; rewrite <- Q4; split; congruence).
  apply ps_check_after in E15. destruct E15 as (-> & v & t & Bv & -> & Qv).
  assert (AP : forall o, after r (enc_pack_start (mkSpack tt0 ex rt rs sf o)) r16).
  { intro o. unfold enc_pack_start. cbn [sk_base sk_ext sk_rate sk_reserved sk_stuffing]. rewrite Q1, Q2, Q3, Lsf. change (bit true) with (enc 1 1). chain. }
  assert (WP : forall o, wf_pack_fields (mkSpack tt0 ex rt rs sf o)).
  { intro o. unfold wf_pack_fields. cbn [sk_base sk_ext sk_rate sk_stuffing]. split; [exact W|]. split; [exact B2|]. split; [exact B3|]. split; [exact Bsf | lia]. }
  destruct (Z.eqb_spec v SystemHeaderStartCode) as [->|N].
  - apply bind_ok_inv in E16. destruct E16 as (h & r19 & ES & E16). apply (system_after _ _ _ _ Qv) in ES. destruct ES as (len & s & Bl & Ws & A & -> & T). assert (sys = Some (go_sys_len len s) /\ r19 = r') as (-> & ->) by (unfold ret in E16; split; congruence).
    exists (mkSpack tt0 ex rt rs sf (Some s)). split; [apply WP|]. do 3 (split; [reflexivity|]). cbn [sk_sys]. exists len. split; [exact Bl|]. split; [exact Ws|]. split; [|split; [reflexivity | exact T] ]. eapply after_app; [apply AP | exact A].
  - assert (sys = None /\ r16 = r') as (-> & ->) by (unfold ret in E16; split; congruence). exists (mkSpack tt0 ex rt rs sf None). split; [apply WP|]. do 3 (split; [reflexivity|]). cbn [sk_sys]. split; [apply AP|]. split; [reflexivity|].
    exists v, t. split; [exact N|]. split; [exact Bv | exact Qv].
Qed.
