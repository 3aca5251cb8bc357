(** PesLocal: truncated PES packets, panics of pes.Packet.Next, termination. *)
From Verif Require Import Base BitReader Exec Local TsLocal TsRobust Mono PesModel SpecPes PesProofs.

(** ** Locality *)
Lemma local_expect : forall n w e P, local P (expect n w e) (shift8 n P).
Proof.
  intros n w e P r l x Hr Hl Hx. pose proof (local_read_n n P r l x Hr Hl Hx) as L. unfold expect.
  destruct (read_n n (setb r l)) as [[v|e'| |] r'].
  - destruct L as (l' & -> & HQ & ->). destruct (v =? w); [|exact I]. exists l'. auto.
  - exact I.
  - destruct (read_n n (setb r (l ++ x))) as [[]]; simpl in *; congruence.
  - destruct (read_n n (setb r (l ++ x))) as [[]]; simpl in *; congruence.
Qed.
Lemma local_expect_at : forall n w e a b, ((a + (8 - n mod 8)) mod 8 = b)%nat ->
  local (at8 a) (expect n w e) (at8 b).
Proof. intros. eapply local_weaken; [apply local_expect | intros m Hm; exact Hm | intros m Hm; eapply shift8_fix; eassumption]. Qed.
Lemma local_panic : forall A P Q, local (A := A) P panic Q.
Proof. intros A P Q r l x Hr Hl Hx. reflexivity. Qed.

Ltac lrd q := eapply local_bind; [apply local_read_at with (b := q); reflexivity|]; intro.
Ltac lr1 q := eapply local_bind; [apply local_read1_at with (b := q); reflexivity|]; intro.
Ltac lsk q := eapply local_bind; [apply local_skip_at with (b := q); reflexivity|]; intro.
Ltac lex q := eapply local_bind; [apply local_expect_at with (b := q); reflexivity|]; intro.
Ltac lpan := eapply local_bind; [apply local_if; [apply local_panic | apply local_ret]|]; intro.

Lemma local_time_stamp : forall m, local (at8 0) (read_time_stamp m) (at8 0).
Proof.
  intro m. unfold read_time_stamp.
  lex 4%nat. lrd 1%nat. lex 0%nat. lrd 1%nat. lex 0%nat. lrd 1%nat. lex 0%nat. apply local_ret.
Qed.

Lemma local_extension : local (at8 0) read_extension (at8 0).
Proof.
  unfold read_extension.
  lr1 7%nat. lr1 6%nat. lr1 5%nat. lr1 4%nat. lsk 1%nat. lr1 0%nat.
  eapply local_bind with (Q := at8 0).
  { apply local_if; [|apply local_ret]. eapply local_bind; [apply local_read_bytes | intro; apply local_ret]. }
  intros [d n1]. lpan. lpan.
  eapply local_bind with (Q := at8 0).
  { apply local_if; [|apply local_ret]. lex 6%nat. lrd 5%nat. lrd 0%nat. apply local_ret. }
  intros [bf n2]. lpan. apply local_ret.
Qed.

Lemma local_stuffing : forall n, local (at8 0) (stuffing_loop n) (at8 0).
Proof.
  induction n; cbn [stuffing_loop]; [apply local_ret|].
  lrd 0%nat. apply local_if; [apply IHn | apply local_fail].
Qed.

Lemma local_header : local (at8 0) read_header (at8 0).
Proof.
  unfold read_header.
  lex 6%nat. lrd 4%nat. lr1 3%nat. lr1 2%nat. lr1 1%nat. lr1 0%nat. lrd 6%nat.
  lr1 5%nat. lr1 4%nat. lr1 3%nat. lr1 2%nat. lr1 1%nat. lr1 0%nat. lrd 0%nat.
  eapply local_bind with (Q := at8 0).
  { apply local_if; [|apply local_ret]. eapply local_bind; [apply local_time_stamp|]. intros []. apply local_ret. }
  intros [pts n1].
  eapply local_bind with (Q := at8 0).
  { apply local_if; [|apply local_ret].
    eapply local_bind; [apply local_time_stamp|]. intros [].
    eapply local_bind; [apply local_time_stamp|]. intros []. apply local_ret. }
  intros [[pts' dts] n2]. lpan. lpan. lpan. lpan. lpan.
  eapply local_bind with (Q := at8 0).
  { apply local_if; [|apply local_ret]. eapply local_bind; [apply local_extension|]. intros []. apply local_ret. }
  intros [ext n3].
  eapply local_bind with (Q := at8 0).
  { unfold read_stuffing. eapply local_bind; [apply local_stuffing | intro; apply local_ret]. }
  intro. apply local_ret.
Qed.

Lemma localp_header : localp (at8 0) pes_header (at8 0).
Proof.
  intros p r l x Hr Hl Hx. unfold pair_m, pes_header. cbn [fst snd].
  pose proof (local_header r l x Hr Hl Hx) as L.
  destruct (read_header (setb r l)) as [[[h n]|e| |] r'].
  - destruct L as (l' & -> & HQ & ->). exists l'. auto.
  - exact I.
  - destruct (read_header (setb r (l ++ x))) as [[[]|e| |] r'']; simpl in *; congruence.
  - destruct (read_header (setb r (l ++ x))) as [[[]|e| |] r'']; simpl in *; congruence.
Qed.

Lemma localp_bounded : forall n P, localp P (pes_bounded n) P.
Proof.
  intros n P p r l x Hr Hl Hx. unfold pair_m, pes_bounded. cbn [fst snd].
  destruct (Z.le_gt_cases n (avail (setb r l))) as [H|H].
  - rewrite read_full_ext by auto.
    destruct (read_full_ok _ _ H) as (bs & l' & E & EL). rewrite E. cbn [fst snd].
    exists l'. rewrite EL. auto.
  - destruct (read_full_err _ _ H) as (bs & e & r' & E). rewrite E. exact I.
Qed.

Lemma localp_rest : forall id len, 0 < len -> localp (at8 0) (pes_rest id len) (at8 0).
Proof.
  intros id len H. unfold pes_rest. apply localp_if.
  - eapply localp_bind; [apply localp_header|]. intro hl.
    rewrite (proj2 (Z.ltb_lt 0 len)) by auto. apply localp_bounded.
  - apply localp_if; [|apply localp_ret].
    eapply localp_bind; [apply localp_onr; apply local_read_bytes|]. intro. apply localp_ret.
Qed.

(** ** Length of an encoded packet *)
Lemma enc_stamp_length : forall m t, length (enc_stamp m t) = 40%nat.
Proof. intros. unfold enc_stamp, bit. autorewrite with len. reflexivity. Qed.
Lemma enc_xt_length : forall x, wf_xt x -> length (enc_xt x) = (8 * Z.to_nat (xt_len x))%nat.
Proof.
  intros x (H1 & _ & _). unfold enc_xt, xt_len, bit. rewrite !app_length, !enc_length. cbn [length].
  destruct (xt_private x) as [d|]; destruct (xt_pstd x) as [[sc sz]|]; cbn [present];
    autorewrite with len; cbn [length]; unfold blen in *; lia.
Qed.
Lemma enc_stamps_length : forall s, length (enc_stamps s) = (8 * Z.to_nat (stamps_len s))%nat.
Proof. intros [|p|p d]; cbn [enc_stamps stamps_len]; rewrite ?app_length, ?enc_stamp_length; reflexivity. Qed.
Lemma enc_parts_length : forall h hdl, wf_parts h -> length (enc_parts h hdl) = (8 * Z.to_nat (3 + parts_len h))%nat.
Proof.
  intros h hdl (_ & _ & H). unfold enc_parts, parts_len, bit. rewrite !app_length, !enc_length, enc_stamps_length. cbn [length].
  assert (0 <= stamps_len (sh_stamps h)) by (destruct (sh_stamps h); cbn; lia).
  destruct (sh_ext h) as [x|]; cbn [length].
  - rewrite enc_xt_length by auto. pose proof (xt_len_range x). lia.
  - lia.
Qed.
Lemma enc_head_length : forall h, wf_head h -> length (enc_head h) = (8 * Z.to_nat (3 + data_len h))%nat.
Proof.
  intros h [H _]. unfold enc_head. rewrite app_length, enc_parts_length, bb_length, repeat_length by auto.
  pose proof (parts_len_range h). unfold data_len. lia.
Qed.
Lemma enc_start_length : forall id len, length (enc_start id len) = 48%nat.
Proof. intros. unfold enc_start. now autorewrite with len. Qed.
Lemma enc_pes_length : forall s, wf_pes s -> length (enc_pes s) = (8 * Z.to_nat (6 + se_len s))%nat.
Proof.
  intros s (_ & H & _). unfold enc_pes, se_len.
  rewrite !app_length, enc_start_length, enc_head_length, bb_length by auto.
  pose proof (data_len_range (se_head s)). unfold blen. lia.
Qed.

(** ** Truncation *)
Lemma read_n_short : forall n r, (length (rbits r) < n)%nat -> exists e r', read_n n r = (Err e, r').
Proof. intros n r H. unfold read_n. rewrite (proj2 (Nat.leb_gt _ _)) by auto. apply short_is_err. Qed.
Lemma peek_n_short : forall n r, (length (rbits r) < n)%nat -> exists e r', peek_n n r = (Err e, r').
Proof. intros n r H. unfold peek_n. rewrite (proj2 (Nat.leb_gt _ _)) by auto. apply short_is_err. Qed.
Lemma read_n_enough : forall n r, (n <= length (rbits r))%nat ->
  read_n n r = (Ok (dec (firstn n (rbits r))), setb r (skipn n (rbits r))).
Proof. intros n r H. unfold read_n. now rewrite (proj2 (Nat.leb_le _ _)). Qed.

(** Fewer than six bytes. *)
Lemma pes_short : forall p r, (length (rbits r) < 48)%nat -> rlater r = [] ->
  exists e s', pes_next (p, r) = (Err e, s').
Proof.
  intros p r H Hl. unfold pes_next.
  destruct (Nat.le_gt_cases 24 (length (rbits r))) as [L|L].
  2:{ destruct (peek_n_short 24 r L) as (e & r' & E). erewrite bind_onr_err by exact E. eauto. }
  erewrite bind_onr_ok.
  2:{ unfold peek_n. rewrite (proj2 (Nat.leb_le _ _)) by auto. reflexivity. }
  destruct (_ =? StartCodePrefix); [|unfold bind at 1, fail; eauto].
  rewrite bind_ret. erewrite bind_onr_ok.
  2:{ apply ignore_ok. unfold skip_n. erewrite bind_ok by (apply read_n_enough; auto). reflexivity. }
  destruct (Nat.le_gt_cases 32 (length (rbits r))) as [L1|L1].
  2:{ destruct (read_n_short 8 (setb r (skipn 24 (rbits r)))) as (e & r' & E);
      [rewrite rbits_setb, skipn_length; lia|]. erewrite bind_onrz_err by exact E. eauto. }
  erewrite bind_onrz_ok by (apply read_n_enough; rewrite rbits_setb, skipn_length; lia).
  rewrite bind_upd. rewrite rbits_setb, setb_setb.
  destruct (read_n_short 16 (setb r (skipn 8 (skipn 24 (rbits r))))) as (e & r' & E);
    [rewrite rbits_setb, !skipn_length; lia|]. erewrite bind_onrz_err by exact E. eauto.
Qed.

Lemma pes_truncated : forall s p r k, wf_pes s -> rlater r = [] -> (k < Z.to_nat (6 + se_len s))%nat ->
  exists e s', pes_next (p, setb r (firstn (8 * k) (enc_pes s))) = (Err e, s').
Proof.
  intros s p r k H Hr Hk. pose proof (enc_pes_length s H) as HL.
  pose proof H as (H1 & H2 & H3 & H4).
  assert (HS : 0 < se_len s) by (unfold se_len, blen; pose proof (data_len_range (se_head s)); lia).
  destruct (Nat.le_gt_cases 6 k) as [L|L].
  2:{ apply pes_short; [|exact Hr]. rewrite rbits_setb, firstn_length. lia. }
  pose proof (pes_next_enc s p r [] H) as E. rewrite app_nil_r in E.
  rewrite <- (firstn_skipn (8 * k) (enc_pes s)) in E.
  unfold enc_pes in E, HL |- *. revert E HL.
  generalize (enc_head (se_head s) ++ bb (se_payload s)). intros body E HL.
  rewrite app_length, enc_start_length in HL.
  assert (F : firstn (8 * k) (enc_start (se_id s) (se_len s) ++ body) = enc_start (se_id s) (se_len s) ++ firstn (8 * k - 48) body).
  { rewrite firstn_app, enc_start_length. f_equal. apply firstn_all2. rewrite enc_start_length. lia. }
  rewrite F in *. 
  set (x := skipn (8 * k) _) in *.
  assert (Hx : length x = (8 * (Z.to_nat (6 + se_len s) - k))%nat).
  { unfold x. rewrite skipn_length, app_length, enc_start_length. lia. }
  rewrite <- app_assoc in E.
  pose proof (proj1 H1) as HI. change (2 ^ 8) with 256 in *. change (2 ^ 16) with 65536 in *.
  rewrite pes_start in * by lia.
  eapply localp_truncated with (x := x); [apply localp_rest; exact HS | exact Hr | | | | exact E].
  - unfold at8, lmod. rewrite firstn_length.
    replace (Nat.min (8 * k - 48) (length body)) with ((k - 6) * 8)%nat by lia. apply Nat.mod_mul. lia.
  - unfold lmod. rewrite Hx, Nat.mul_comm. apply Nat.mod_mul. lia.
  - intro N. rewrite N in Hx. cbn [length] in Hx. lia.
Qed.

(** ** Panics *)
Definition bitat (r : reader) (i : nat) : bool := nth i (rbits r) false.

Lemma safe_expect : forall n w e, safe (expect n w e).
Proof.
  intros n w e r. pose proof (safe_read_n n r). unfold expect.
  destruct (read_n n r) as [[v|e'| |] r']; cbn in *; auto. destruct (v =? w); exact I.
Qed.
Lemma safe_time_stamp : forall m, safe (read_time_stamp m).
Proof. intro m. unfold read_time_stamp. repeat first [apply safe_expect | progress safe_tac]. Qed.
Lemma safe_stuffing : forall n, safe (stuffing_loop n).
Proof. induction n; cbn [stuffing_loop]; safe_tac. exact IHn. Qed.

Lemma read_n_ok_inv : forall n r v r', read_n n r = (Ok v, r') ->
  (n <= length (rbits r))%nat /\ v = dec (firstn n (rbits r)) /\ r' = setb r (skipn n (rbits r)).
Proof.
  intros n r v r'. unfold read_n. destruct (Nat.leb_spec n (length (rbits r))).
  - intro E. inversion E. auto.
  - destruct (short_is_err Z n r) as (e & r1 & ->). discriminate.
Qed.
Lemma peek_n_ok_inv : forall n r v r', peek_n n r = (Ok v, r') ->
  (n <= length (rbits r))%nat /\ v = dec (firstn n (rbits r)) /\ r' = r.
Proof.
  intros n r v r'. unfold peek_n. destruct (Nat.leb_spec n (length (rbits r))).
  - intro E. injection E as <- <-. repeat split; auto.
  - destruct (short_is_err Z n r) as (e & r1 & ->). discriminate.
Qed.
Lemma read1_ok_inv : forall r b r', read1 r = (Ok b, r') ->
  b = bitat r 0 /\ r' = setb r (skipn 1 (rbits r)) /\ (1 <= length (rbits r))%nat.
Proof.
  intros r b r' H. unfold read1 in H. apply bind_ok_inv in H as (v & r1 & H1 & H2).
  apply read_n_ok_inv in H1 as (L & -> & ->). inversion H2; subst. unfold bitat.
  destruct (rbits r) as [|c t]; [cbn in L; lia|]. destruct c; auto.
Qed.
Lemma expect_ok_inv : forall n w e r u r', expect n w e r = (Ok u, r') ->
  (n <= length (rbits r))%nat /\ dec (firstn n (rbits r)) = w /\ r' = setb r (skipn n (rbits r)).
Proof.
  intros n w e r u r'. unfold expect. destruct (read_n n r) as [[v|e'| |] r1] eqn:E; try discriminate.
  apply read_n_ok_inv in E as (L & -> & ->). destruct (Z.eqb_spec (dec (firstn n (rbits r))) w); [|discriminate].
  intro H. inversion H. auto.
Qed.

Lemma nth_skipn' : forall A n i (l : list A) d, nth i (skipn n l) d = nth (n + i) l d.
Proof. intros A. induction n; intros i l d; [reflexivity|]. destruct l; [destruct i; reflexivity|]. apply IHn. Qed.
Lemma skipn_skipn' : forall A n m (l : list A), skipn n (skipn m l) = skipn (m + n) l.
Proof. intros A n m. revert n. induction m; intros n l; [reflexivity|]. destruct l; [now rewrite !skipn_nil|]. apply IHm. Qed.

Ltac inv_p H := apply bind_panic_inv in H; [ let v := fresh "v" in let r := fresh "r" in let E := fresh "E" in destruct H as (v & r & E & H) | ].

(** A panic of the header parser: one of the flags ESCR, ES rate, DSM trick mode, additional copy
    info, CRC or extension (bits 10 to 15 of the header) is set. *)
Lemma read_header_panic : forall r r', read_header r = (Panic, r') ->
  exists i, (10 <= i <= 15)%nat /\ bitat r i = true.
Proof.
  intros r r' H. unfold read_header in H.
  inv_p H; [|apply safe_expect]. inv_p H; [|apply safe_read_n].
  inv_p H; [|apply safe_read1]. inv_p H; [|apply safe_read1]. inv_p H; [|apply safe_read1].
  inv_p H; [|apply safe_read1]. inv_p H; [|apply safe_read_n].
  apply expect_ok_inv in E as (_ & _ & E). apply read_n_ok_inv in E0 as (_ & _ & E0).
  apply read1_ok_inv in E1 as (_ & E1 & _). apply read1_ok_inv in E2 as (_ & E2 & _).
  apply read1_ok_inv in E3 as (_ & E3 & _). apply read1_ok_inv in E4 as (_ & E4 & _).
  apply read_n_ok_inv in E5 as (_ & E5' & E5).
  assert (R6 : r6 = setb r (skipn 10 (rbits r))).
  { subst. rewrite !setb_setb, ?rbits_setb, !skipn_skipn'. reflexivity. }
  clear E E0 E1 E2 E3 E4 E5.
  inv_p H; [|apply safe_read1]. inv_p H; [|apply safe_read1]. inv_p H; [|apply safe_read1].
  inv_p H; [|apply safe_read1]. inv_p H; [|apply safe_read1]. inv_p H; [|apply safe_read1].
  apply read1_ok_inv in E as (F1 & E & _). apply read1_ok_inv in E0 as (F2 & E0 & _).
  apply read1_ok_inv in E1 as (F3 & E1 & _). apply read1_ok_inv in E2 as (F4 & E2 & _).
  apply read1_ok_inv in E3 as (F5 & E3 & _). apply read1_ok_inv in E4 as (F6 & E4 & _).
  assert (B1 : v6 = bitat r 10) by (subst; unfold bitat; rewrite ?rbits_setb, ?nth_skipn'; reflexivity).
  assert (B2 : v7 = bitat r 11) by (subst; unfold bitat; rewrite ?rbits_setb, ?nth_skipn'; reflexivity).
  assert (B3 : v8 = bitat r 12) by (subst; unfold bitat; rewrite ?rbits_setb, ?nth_skipn'; reflexivity).
  assert (B4 : v9 = bitat r 13) by (subst; unfold bitat; rewrite ?rbits_setb, ?nth_skipn'; reflexivity).
  assert (B5 : v10 = bitat r 14) by (subst; unfold bitat; rewrite ?rbits_setb, ?nth_skipn'; reflexivity).
  assert (B6 : v11 = bitat r 15) by (subst; unfold bitat; rewrite ?rbits_setb, ?nth_skipn'; reflexivity).
  clear E E0 E1 E2 E3 E4 F1 F2 F3 F4 F5 F6 E5'.
  inv_p H; [|apply safe_read_n].
  inv_p H. 2:{ apply safe_if; [|apply safe_ret]. apply safe_bind; [apply safe_time_stamp|]. intros []. apply safe_ret. }
  destruct v13 as [pts n1].
  inv_p H. 2:{ apply safe_if; [|apply safe_ret]. apply safe_bind; [apply safe_time_stamp|]. intros [].
               apply safe_bind; [apply safe_time_stamp|]. intros []. apply safe_ret. }
  destruct v13 as [[pts' dts] n2].
  destruct v6; [exists 10%nat; split; [lia|auto]|].
  destruct v7; [exists 11%nat; split; [lia|auto]|].
  destruct v8; [exists 12%nat; split; [lia|auto]|].
  destruct v9; [exists 13%nat; split; [lia|auto]|].
  destruct v10; [exists 14%nat; split; [lia|auto]|].
  destruct v11; [exists 15%nat; split; [lia|auto]|].
  exfalso. cbv beta iota in H. rewrite !bind_ret in H. cbv beta iota in H.
  inv_p H. 2:{ unfold read_stuffing; apply safe_bind; [apply safe_stuffing|]. intro. apply safe_ret. }
  discriminate H.
Qed.

Lemma pes_next_panic : forall p r s', pes_next (p, r) = (Panic, s') ->
  exists i, (58 <= i <= 63)%nat /\ bitat r i = true.
Proof.
  intros p r s' H. unfold pes_next in H.
  inv_p H; [|apply safe_onr; apply safe_peek_n]. destruct r0 as [p0 r0].
  apply onr_inv in E. destruct E as (_ & E). cbn [snd fst] in *.
  apply peek_n_ok_inv in E as (L & _ & ->).
  inv_p H; [|apply safe_if; [apply safe_ret | apply safe_fail]].
  destruct (v =? StartCodePrefix); [|discriminate]. inversion E; subst. clear E.
  inv_p H; [|apply safe_onr; apply safe_ignore; apply safe_skip_n]. destruct r0 as [p1 r1].
  apply onr_inv in E. destruct E as (_ & E). cbn [snd fst] in *.
  assert (E1 : r1 = setb r (skipn 24 (rbits r))).
  { unfold ignore_err, skip_n, bind in E. rewrite read_n_enough in E by auto. inversion E. reflexivity. }
  clear E.
  inv_p H; [|apply safe_onrz; apply safe_read_n]. destruct r0 as [p2 r2].
  apply onrz_inv in E. destruct E as (_ & E). cbn [snd fst] in *. apply read_n_ok_inv in E as (_ & _ & E2).
  inv_p H; [|apply safe_upd]. destruct r0 as [p3 r3]. inversion E; subst p3 r3; clear E. cbn [snd fst] in *.
  inv_p H; [|apply safe_onrz; apply safe_read_n]. destruct r0 as [p3 r3].
  apply onrz_inv in E. destruct E as (_ & E). cbn [snd fst] in *. apply read_n_ok_inv in E as (_ & _ & E3).
  inv_p H; [|apply safe_upd]. destruct r0 as [p4 r4]. inversion E; subst p4 r4; clear E. cbn [snd fst] in *.
  assert (R3 : r3 = setb r (skipn 48 (rbits r))).
  { rewrite E3, E2, E1, !setb_setb, !rbits_setb, !skipn_skipn'. reflexivity. }
  destruct (has_pes_header v1).
  - unfold bind in H. destruct (pes_header (pset_length v3 p3, r3)) as [[hl|e| |] s1] eqn:EH; try discriminate.
    + destruct (0 <? v3).
      * unfold pes_bounded in H. destruct (read_full _ _) as [[bs [e|]] r5]; discriminate.
      * unfold pes_unbounded, read_all in H. destruct (rfin (snd s1)); discriminate.
    + unfold pes_header in EH. cbn [snd fst] in EH.
      destruct (read_header r3) as [[[h n]|e| |] r5] eqn:ER; try discriminate.
      apply read_header_panic in ER as (i & Hi & HB). exists (48 + i)%nat. split; [lia|].
      rewrite <- HB, R3. unfold bitat. now rewrite rbits_setb, nth_skipn'.
  - destruct (v1 =? padding_stream); [|discriminate].
    inv_p H; [|apply safe_onr; apply safe_read_bytes]. discriminate.
Qed.

(** ** Next never runs for ever *)
Lemma mono_expect : forall n w e, mono (expect n w e).
Proof.
  intros n w e r x r' Hr H. unfold expect in H. destruct (read_n n r) as [y r1] eqn:E.
  pose proof (mono_read_n n r y r1 Hr E) as M.
  destruct y as [v|e'| |]; try (inversion H; subst; exact M).
  destruct (v =? w); inversion H; subst; exact M.
Qed.
Global Hint Resolve mono_expect : mono.
Lemma mono_time_stamp : forall m, mono (read_time_stamp m).
Proof. intro. unfold read_time_stamp. mono_tac. Qed.
Lemma mono_stuffing : forall n, mono (stuffing_loop n).
Proof. induction n; cbn [stuffing_loop]; mono_tac. Qed.
Global Hint Resolve mono_time_stamp mono_stuffing : mono.
Lemma mono_extension : mono read_extension.
Proof. unfold read_extension. mono_tac. Qed.
Global Hint Resolve mono_extension : mono.
Lemma mono_header : mono read_header.
Proof. unfold read_header, read_stuffing. mono_tac. Qed.
Lemma monop_header : monop pes_header.
Proof.
  intros [p r] x s' Hr H. unfold pes_header in H. cbn [snd fst] in *. pose proof (mono_header r) as Q.
  destruct (read_header r) as [[[h n]|e| |] r1]; inversion H; subst; cbn [snd]; eapply Q; eauto.
Qed.
Lemma monop_bounded : forall n, monop (pes_bounded n).
Proof.
  intros n [p r] x s' Hr H. unfold pes_bounded in H. cbn [fst snd] in *.
  destruct (read_full n r) as [[bs e] r1] eqn:E. pose proof (read_full_mono _ _ _ _ _ Hr E).
  destruct e; inversion H; subst; auto.
Qed.
Lemma monop_unbounded : monop pes_unbounded.
Proof.
  intros [p r] x s' Hr H. unfold pes_unbounded, read_all in H. cbn [fst snd] in *.
  destruct (advance_mono r Hr) as (A & B & C).
  destruct (rfin r); inversion H; subst; cbn [snd]; repeat split; auto; lia.
Qed.
Global Hint Resolve monop_header monop_bounded monop_unbounded : mono.

Lemma pes_next_strict : forall p r p' r', rlater r = [] -> pes_next (p, r) = (Ok tt, (p', r')) ->
  (left r' + 24 <= left r)%nat /\ rlater r' = [] /\ rfin r' = rfin r.
Proof.
  intros p r p' r' Hr H. unfold pes_next in H.
  apply bind_ok_inv in H as (v & [p0 r0] & E & H).
  apply onr_inv in E. destruct E as (_ & E). cbn [snd fst] in *.
  apply peek_n_ok_inv in E as (L & _ & ->).
  apply bind_ok_inv in H as (u & s1 & E & H). destruct (v =? StartCodePrefix); [|discriminate].
  inversion E; subst s1; clear E.
  apply bind_ok_inv in H as (u1 & [p1 r1] & E & H).
  apply onr_inv in E. destruct E as (_ & E). cbn [snd fst] in *.
  assert (E1 : r1 = setb r (skipn 24 (rbits r))).
  { unfold ignore_err, skip_n, bind in E. rewrite read_n_enough in E by auto. inversion E. reflexivity. }
  clear E.
  match type of H with ?m (p1, r1) = _ => assert (Q3 : monop m) by monop_tac end.
  destruct (Q3 (p1, r1) _ _ ltac:(subst; exact Hr) H) as (D1 & D2 & D3). cbn [snd] in *. subst r1.
  unfold left in *. cbn [rbits setb rfin rlater] in *. rewrite skipn_length in D3.
  repeat split; auto. lia.
Qed.

Lemma nofuel_bind : forall S A B (m : M S A) (k : A -> M S B) s,
  fst (m s) <> OutOfFuel -> (forall a s', fst (k a s') <> OutOfFuel) -> fst (bind m k s) <> OutOfFuel.
Proof.
  intros S A B m k s Hm Hk. unfold bind. destruct (m s) as [[a|e| |] s']; cbn in *; auto; discriminate.
Qed.
Definition nf {S A} (m : M S A) : Prop := forall s, fst (m s) <> OutOfFuel.
Lemma nf_safe : forall S A (m : M S A), safe m -> nf m.
Proof. intros S A m H s E. specialize (H s). rewrite E in H. exact H. Qed.
Lemma nf_bind : forall S A B (m : M S A) (k : A -> M S B), nf m -> (forall a, nf (k a)) -> nf (bind m k).
Proof. intros S A B m k Hm Hk s. apply nofuel_bind; [apply Hm | intros a s'; apply Hk]. Qed.
Lemma nf_if : forall S A (c : bool) (a b : M S A), nf a -> nf b -> nf (if c then a else b).
Proof. intros. destruct c; auto. Qed.
Lemma nf_panic : forall S A, nf (S := S) (A := A) panic.
Proof. intros S A s. discriminate. Qed.
Lemma nf_onr : forall T R A (m : M R A), nf m -> nf (onr (T := T) m).
Proof. intros T R A m H s. unfold onr. specialize (H (snd s)). destruct (m (snd s)). exact H. Qed.
Lemma nf_onrz : forall T R A z (m : M R A), nf m -> nf (onrz (T := T) z m).
Proof. intros T R A z m H s. unfold onrz. specialize (H (snd s)). destruct (m (snd s)) as [[a|e| |] r]; exact H. Qed.

Ltac nf_tac :=
  repeat first
    [ apply nf_panic | apply nf_safe; first [ apply safe_ret | apply safe_fail | apply safe_read_n | apply safe_peek_n | apply safe_read1
        | apply safe_peek1 | apply safe_skip_n | apply safe_read_bytes | apply safe_upd
        | apply safe_ignore; apply safe_skip_n ] | apply nf_safe; apply safe_expect
    | apply nf_safe; apply safe_time_stamp | apply nf_safe; apply safe_stuffing
    | apply nf_onr | apply nf_onrz | apply nf_if | apply nf_bind
    | match goal with
      | |- forall _, _ => intro
      | |- nf (match ?x with (_, _) => _ end) => destruct x
      end ].

Lemma nf_extension : nf read_extension.
Proof. unfold read_extension. nf_tac. Qed.
Lemma nf_header : nf read_header.
Proof. unfold read_header, read_stuffing. nf_tac; apply nf_extension. Qed.
Lemma pes_next_fuel : nf pes_next.
Proof.
  unfold pes_next. nf_tac.
  - intros [p r]. unfold pes_header. cbn [fst snd]. pose proof (nf_header r).
    destruct (read_header r) as [[[h n]|e| |] r1]; cbn in *; auto; discriminate.
  - intros [p r]. unfold pes_bounded. cbn [fst snd]. destruct (read_full _ r) as [[bs [e|]] r1]; discriminate.
  - intros [p r]. unfold pes_unbounded, read_all. cbn [fst snd]. destruct (rfin r); discriminate.
Qed.

(** Read of the payload reader ends, whatever the stream. *)
Lemma es_fill_ends : forall fuel p r want acc rem, rlater r = [] -> (left r < fuel)%nat ->
  fst (es_fill fuel p r want acc rem) <> OutOfFuel.
Proof.
  induction fuel; intros p r want acc rem Hr Hf; [lia|].
  destruct want; [discriminate|]. cbn [es_fill].
  destruct (pes_next (p, r)) as [[[]|e| |] [p' r']] eqn:E; try discriminate.
  - destruct (pes_next_strict p r p' r' Hr E) as (A & B & C). apply IHfuel; auto. lia.
  - pose proof (pes_next_fuel (p, r)) as N. rewrite E in N. exfalso. apply N. reflexivity.
Qed.
