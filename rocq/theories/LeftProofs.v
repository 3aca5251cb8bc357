(** LeftProofs: proofs about what a Next that ran out of input leaves (see SpecLeft). *)
From Verif Require Import Base BitReader Exec Local TsModel SpecTs TsProofs TsLocal TsRobust PropertiesTs SpecLeft.

Lemma firstn_exact : forall A (a b : list A) n, length a = n -> firstn n (a ++ b) = a.
Proof. intros A a b n H. rewrite firstn_app, <- H, Nat.sub_diag, firstn_all. now rewrite app_nil_r. Qed.

Lemma read_end : forall n r, (0 < n)%nat -> read_n n (setb r []) = (Err (rfin r), advance (setb r [])).
Proof. intros [|n] r H; [lia|]. reflexivity. Qed.
Lemma read1_end : forall r, read1 (setb r []) = (Err (rfin r), advance (setb r [])).
Proof. reflexivity. Qed.

Lemma cut0 : forall p r, packet_next (p, setb r []) = (Err (rfin r), (p, advance (setb r []))).
Proof. intros p r. reflexivity. Qed.
Lemma cut1 : forall p r, packet_next (p, setb r (enc 8 71)) = (Err (rfin r), (set_tei false p, advance (setb r []))).
Proof.
  intros p r. rewrite <- (app_nil_r (enc 8 71)). unfold packet_next. erewrite bind_onr_ok by (apply ts_is_aligned_sync; reflexivity). cbn [negb]. rewrite bind_ret.
  erewrite bind_onr_ok by apply skip_enc. erewrite bind_onrz_err by apply read1_end. reflexivity.
Qed.
Lemma cut2 : forall p r a b c x, length x = 5%nat ->
  packet_next (p, setb r (enc 8 71 ++ bit a ++ bit b ++ bit c ++ x)) = (Err (rshort r 13 5), (set_pid 0 (set_prio c (set_pusi b (set_tei a p))), setb r x)).
Proof.
  intros p r a b c x Hx. unfold packet_next. erewrite bind_onr_ok by (apply ts_is_aligned_sync; unfold aligned_len, bit; rewrite !app_length, Hx; reflexivity). cbn [negb]. rewrite bind_ret.
  xrun.
  erewrite bind_onrz_err. reflexivity.
  unfold read_n. rewrite rbits_setb, Hx. cbn [Nat.leb]. unfold short. rewrite rbits_setb. destruct x; [discriminate|]. rewrite Hx. reflexivity.
Qed.
Lemma cut3 : forall p r a b c v, 0 <= v < 2 ^ 13 ->
  packet_next (p, setb r (enc 8 71 ++ bit a ++ bit b ++ bit c ++ enc 13 v)) =
  (Err (rfin r), (set_tsc 0 (set_pid v (set_prio c (set_pusi b (set_tei a p)))), advance (setb r []))).
Proof.
  intros p r a b c v Hv. rewrite <- (app_nil_r (enc 13 v)). unfold packet_next.
  erewrite bind_onr_ok by (apply ts_is_aligned_sync; unfold aligned_len, bit; rewrite !app_length, enc_length; reflexivity). cbn [negb]. rewrite bind_ret.
  xrun. erewrite bind_onrz_err by (apply read_end; lia). reflexivity.
Qed.

Lemma enc_sp_split : forall s, enc_sp s = header_bits s ++ match sp_content s with
  | SPayload d => bb d | SField a => enc_saf a | SFieldPayload a d => enc_saf a ++ bb d end.
Proof. intro s. unfold enc_sp, header_bits. now rewrite <- !app_assoc. Qed.
Lemma header_length : forall s, length (header_bits s) = 32%nat.
Proof. intro s. unfold header_bits, bit. rewrite !app_length, !enc_length. reflexivity. Qed.

(** The bytes that a payload cut short leaves. *)
Lemma payload_left : forall size d j p r, bytes d -> size = blen d -> (j < length d)%nat -> blen d <= 184 ->
  read_payload size (p, setb r (firstn (8 * j) (bb d))) =
    (Err match rfin r with EEOF => EUnexpectedEOF | x => x end,
     (set_len (blen d) (set_buf (copy_into (pk_buf p) (firstn j d)) p), advance (setb r []))).
Proof.
  intros size d j p r Hd -> Hj HL. unfold read_payload, MaxPayloadSize. rewrite (proj2 (Z.ltb_ge 184 (blen d))) by lia. cbn [fst snd].
  assert (FB : firstn (8 * j) (bb d) = bb (firstn j d)).
  { rewrite <- (firstn_skipn j d) at 1. rewrite bb_app, firstn_app. rewrite firstn_all2 by (rewrite bb_length, firstn_length; lia).
    replace (8 * j - length (bb (firstn j d)))%nat with 0%nat by (rewrite bb_length, firstn_length; lia). cbn [firstn]. apply app_nil_r. }
  rewrite FB. assert (LB : length (bb (firstn j d)) = (8 * j)%nat) by (rewrite bb_length, firstn_length; lia).
  unfold read_full. unfold blen in *. rewrite (proj2 (Z.leb_gt _ 0)) by lia.
  assert (AV : avail (setb r (bb (firstn j d))) = Z.of_nat j) by (rewrite avail_setb, LB, Nat2Z.inj_mul, Z.mul_comm, Z.div_mul by lia; reflexivity).
  rewrite AV, (proj2 (Z.leb_gt _ _)) by lia. rewrite Nat2Z.id, rbits_setb.
  assert (GB : get_bytes j (bb (firstn j d)) = firstn j d).
  { replace j with (length (firstn j d)) at 1 by (rewrite firstn_length; lia). rewrite <- (app_nil_r (bb (firstn j d))). apply get_bytes_bb. rewrite <- (firstn_skipn j d) in Hd. apply Forall_app in Hd. apply Hd. }
  rewrite GB. assert (AD : advance (setb r (bb (firstn j d))) = advance (setb r [])) by (unfold advance; destruct r as [? ? [|[]]]; reflexivity).
  rewrite AD. cbn [rfin setb]. destruct (rfin r); try reflexivity. destruct (Z.of_nat j =? 0); reflexivity.
Qed.
Lemma payload_seen : forall d j p n, (j < length d)%nat -> n = length d ->
  firstn n (copy_into (pk_buf p) (firstn j d)) = firstn j d ++ firstn (n - j) (skipn j (pk_buf p)).
Proof.
  intros d j p n Hj ->. unfold copy_into. assert (L : length (firstn j d) = j) by (rewrite firstn_length; lia). rewrite L, firstn_app, L. rewrite firstn_all2 by lia. reflexivity.
Qed.

Lemma field_cut : forall a r j, wf_saf a -> plain_ext a -> rlater r = [] -> (j < Z.to_nat (saf_len a + 1))%nat ->
  exists e r', new_af (setb r (firstn (8 * j) (enc_saf a))) = (Err e, r').
Proof.
  intros a r j W X Hr Hj. pose proof (enc_saf_length a) as L. pose proof (saf_len_range _ W).
  assert (LF : length (firstn (8 * j) (enc_saf a)) = (8 * j)%nat) by (rewrite firstn_length; lia).
  assert (LS : length (skipn (8 * j) (enc_saf a)) = (8 * (Z.to_nat (saf_len a + 1) - j))%nat) by (rewrite skipn_length; lia).
  eapply local_truncated with (P := at8 0) (Q := any8) (x := skipn (8 * j) (enc_saf a)).
  - apply local_new_af.
  - exact Hr.
  - eapply aligned_mult; exact LF.
  - eapply aligned_mult; exact LS.
  - intro E. rewrite E in LS. cbn [length] in LS. lia.
  - rewrite firstn_skipn. rewrite <- (app_nil_r (enc_saf a)). apply new_af_enc; auto.
Qed.

Lemma cut_more : forall s p r k, wf_sp s -> rlater r = [] -> (4 <= k < 188)%nat ->
  exists e p' r', packet_next (p, setb r (firstn (8 * k) (enc_sp s))) = (Err e, (p', r')) /\ left_in s k p p' /\ left_error s k (rfin r) (rshort r) e.
Proof.
  intros s p r k W Hr Hk. pose proof (enc_sp_length _ W) as HL. rewrite enc_sp_split in HL |- *. destruct W as (H1 & H2 & H3 & H4).
  rewrite app_length, header_length in HL. rewrite firstn_app, header_length. rewrite firstn_all2 by (rewrite header_length; lia).
  assert (HF : forall A (o m n : A) a b, (b <= k)%nat -> (a <= b)%nat -> held k a b o m n = n).
  { intros A o m n a b B B2. unfold held. rewrite (proj2 (Nat.ltb_ge k a)), (proj2 (Nat.ltb_ge k b)) by lia. reflexivity. }
  assert (AL : forall c m, length c = (8 * m)%nat -> aligned_len (firstn (8 * k - 32) c)).
  { intros c m Hc. apply aligned_mult with (k := Nat.min (k - 4) m). rewrite firstn_length, Hc. lia. }
  destruct (sp_content s) as [d|a|a d] eqn:C.
  - destruct H4 as (Bd & Ld). rewrite next_header by (auto; apply (AL _ (length d)), bb_length). unfold next_tail, sp_afc. rewrite C. cbn [Z.eqb Pos.eqb orb FieldOnly FieldThenPayload PayloadOnly].
    rewrite bind_ret. replace (8 * k - 32)%nat with (8 * (k - 4))%nat by lia. unfold blen in Ld.
    rewrite (payload_left MaxPayloadSize d (k - 4)) by (auto; unfold MaxPayloadSize, blen; lia).
    eexists _, _, _. split; [reflexivity|]. split.
    + unfold left_in, sp_head, sp_field, has_payload, sp_payload, pk_payload, sp_afc. rewrite C. rewrite !HF by lia. cbn [andb]. rewrite (proj2 (Nat.leb_le _ k)) by lia.
      cbn [set_len set_buf after_header pk_tei pk_pusi pk_prio pk_pid pk_tsc pk_afc pk_cc pk_af pk_buf pk_len]. do 8 (split; [unfold sp_afc; rewrite ?C; reflexivity|]).
      replace (188 - length d)%nat with 4%nat by lia. replace (188 - k)%nat with (length d - (k - 4))%nat by lia. unfold blen. rewrite Nat2Z.id. apply (payload_seen d (k - 4) p); lia.
    + split; [lia | intros _; destruct (rfin r); reflexivity].
  - destruct H4 as (Wa & Xa & La). pose proof (enc_saf_length a) as LA. rewrite next_header by (auto; apply (AL _ 184%nat); lia). unfold next_tail, sp_afc. rewrite C. cbn [Z.eqb Pos.eqb orb FieldOnly FieldThenPayload PayloadOnly].
    replace (8 * k - 32)%nat with (8 * (k - 4))%nat by lia. destruct (field_cut a r (k - 4) Wa Xa Hr ltac:(lia)) as (e & r' & E).
    unfold bind. cbn [fst snd]. rewrite E. eexists _, _, _. split; [reflexivity|]. split.
    + unfold left_in, sp_head, sp_field, has_payload, sp_payload, pk_payload, sp_afc. rewrite C. rewrite !HF by lia. cbn [andb].
      cbn [set_af after_header pk_tei pk_pusi pk_prio pk_pid pk_tsc pk_afc pk_cc pk_af pk_buf pk_len]. do 7 (split; [unfold sp_afc; rewrite ?C; reflexivity|]). split; [|reflexivity].
      exists (go_af a). split; [apply go_af_is|]. unfold held. rewrite (proj2 (Nat.ltb_ge k 4)), (proj2 (Nat.ltb_lt k _)) by lia. reflexivity.
    + split; [lia|]. unfold sp_head, sp_payload. rewrite C. cbn [length]. lia.
  - destruct H4 as (Wa & Xa & Bd & Ld). pose proof (enc_saf_length a) as LA. pose proof (saf_len_range _ Wa). unfold blen in Ld.
    rewrite next_header by (auto; apply (AL _ (Z.to_nat (saf_len a + 1) + length d)%nat); rewrite app_length, bb_length; lia). unfold next_tail, sp_afc. rewrite C. cbn [Z.eqb Pos.eqb orb FieldOnly FieldThenPayload PayloadOnly].
    rewrite firstn_app. replace (8 * k - 32)%nat with (8 * (k - 4))%nat by lia. destruct (Nat.lt_ge_cases (k - 4) (Z.to_nat (saf_len a + 1))) as [Q|Q].
    + replace (8 * (k - 4) - length (enc_saf a))%nat with 0%nat by lia. cbn [firstn]. rewrite app_nil_r. destruct (field_cut a r (k - 4) Wa Xa Hr Q) as (e & r' & E).
      unfold bind. cbn [fst snd]. rewrite E. eexists _, _, _. split; [reflexivity|]. split.
      * unfold left_in, sp_head, sp_field, has_payload, sp_payload, pk_payload, sp_afc. rewrite C. rewrite !HF by lia. cbn [andb]. rewrite (proj2 (Nat.leb_gt _ k)) by lia.
        cbn [set_af after_header pk_tei pk_pusi pk_prio pk_pid pk_tsc pk_afc pk_cc pk_af pk_buf pk_len]. do 7 (split; [unfold sp_afc; rewrite ?C; reflexivity|]). split; [|reflexivity].
        exists (go_af a). split; [apply go_af_is|]. unfold held. rewrite (proj2 (Nat.ltb_ge k 4)), (proj2 (Nat.ltb_lt k _)) by lia. reflexivity.
      * split; [lia|]. unfold sp_head, sp_payload. rewrite C. lia.
    + rewrite (firstn_all2 (enc_saf a)) by lia. replace (8 * (k - 4) - length (enc_saf a))%nat with (8 * (k - 4 - Z.to_nat (saf_len a + 1)))%nat by lia.
      erewrite bind_ok. 2:{ cbn [snd]. rewrite new_af_enc by auto. reflexivity. }
      unfold MaxPayloadSize. rewrite (u32_small (saf_len a + 1)) by lia. rewrite u32_small by lia. cbn [fst].
      rewrite (payload_left (184 - (saf_len a + 1)) d (k - 4 - Z.to_nat (saf_len a + 1))) by (auto; unfold blen; lia).
      eexists _, _, _. split; [reflexivity|]. split.
      * unfold left_in, sp_head, sp_field, has_payload, sp_payload, pk_payload, sp_afc. rewrite C. rewrite !HF by lia. cbn [andb]. rewrite (proj2 (Nat.leb_le _ k)) by lia.
        cbn [set_af set_len set_buf after_header pk_tei pk_pusi pk_prio pk_pid pk_tsc pk_afc pk_cc pk_af pk_buf pk_len]. do 7 (split; [unfold sp_afc; rewrite ?C; reflexivity|]). split.
        { exists (go_af a). split; [apply go_af_is|]. unfold held. rewrite (proj2 (Nat.ltb_ge k 4)), (proj2 (Nat.ltb_ge k _)) by lia. reflexivity. }
        replace (k - (188 - length d))%nat with (k - 4 - Z.to_nat (saf_len a + 1))%nat by lia. replace (188 - k)%nat with (length d - (k - 4 - Z.to_nat (saf_len a + 1)))%nat by lia.
        unfold blen. rewrite Nat2Z.id. apply (payload_seen d _ p); lia.
      * split; [lia | intros _; destruct (rfin r); reflexivity].
Qed.

Lemma cut_any : forall s p r k, wf_sp s -> rlater r = [] -> (k < 188)%nat ->
  exists e p' r', packet_next (p, setb r (firstn (8 * k) (enc_sp s))) = (Err e, (p', r')) /\ left_in s k p p' /\ left_error s k (rfin r) (rshort r) e.
Proof.
  intros s p r k W Hr Hk. destruct (Nat.lt_ge_cases k 4) as [Q|Q]; [|apply cut_more; auto; lia].
  pose proof W as (H1 & H2 & H3 & H4).
  assert (HD : (4 <= sp_head s)%nat) by (unfold sp_head, sp_payload; destruct (sp_content s) as [d|a|a d]; unfold blen in H4; cbn [length]; try lia; destruct H4 as (Wa & _ & _ & Ld); pose proof (saf_len_range _ Wa); lia).
  assert (HP : forall p', (k < 4)%nat -> pk_payload p' = pk_payload p -> if has_payload s && (sp_head s <=? k)%nat
   then pk_payload p' = firstn (k - sp_head s) (sp_payload s) ++ firstn (188 - k) (skipn (k - sp_head s) (pk_buf p)) else pk_payload p' = pk_payload p).
  { intros p' _ E. rewrite (proj2 (Nat.leb_gt _ k)), andb_false_r by lia. exact E. }
  assert (HA : forall p', (k < 4)%nat -> pk_af p' = pk_af p -> match sp_field s with None => pk_af p' = pk_af p
   | Some a => exists f, field_is a f /\ pk_af p' = held k 4 (Z.to_nat (5 + saf_len a)) (pk_af p) None (Some f) end).
  { intros p' _ E. destruct (sp_field s) as [a|]; [|exact E]. exists (go_af a). split; [apply go_af_is|]. unfold held. rewrite (proj2 (Nat.ltb_lt k 4)) by lia. exact E. }
  assert (HE : forall e, (k < 4)%nat -> e = (if (k =? 2)%nat then rshort r 13 5 else rfin r) -> left_error s k (rfin r) (rshort r) e) by (intros e _ E; split; [auto | lia]).
  unfold left_in. destruct k as [|[|[|[|k] ] ] ]; [| | | |lia].
  - cbn [Nat.mul firstn]. rewrite cut0. eexists _, _, _. split; [reflexivity|]. split; [|apply HE; [lia|reflexivity] ]. do 7 (split; [reflexivity|]). split; [apply HA | apply HP]; auto.
  - change (8 * 1)%nat with 8%nat. unfold enc_sp. rewrite firstn_exact by reflexivity. rewrite cut1. eexists _, _, _. split; [reflexivity|]. split; [|apply HE; [lia|reflexivity] ].
    do 7 (split; [reflexivity|]). split; [apply HA | apply HP]; auto.
  - assert (E : firstn (8 * 2) (enc_sp s) = enc 8 71 ++ bit (sp_tei s) ++ bit (sp_pusi s) ++ bit (sp_prio s) ++ firstn 5 (enc 13 (sp_pid s))).
    { unfold enc_sp. rewrite <- (firstn_skipn 5 (enc 13 (sp_pid s))) at 1. rewrite <- app_assoc.
      rewrite !(app_assoc (enc 8 71)), !(app_assoc (enc 8 71 ++ _)), !(app_assoc ((enc 8 71 ++ _) ++ _)), !(app_assoc (((enc 8 71 ++ _) ++ _) ++ _)).
      apply firstn_exact. unfold bit. rewrite !app_length, firstn_length, !enc_length. reflexivity. }
    rewrite E, cut2 by (rewrite firstn_length, enc_length; reflexivity). eexists _, _, _. split; [reflexivity|]. split; [|apply HE; [lia|reflexivity] ].
    do 7 (split; [reflexivity|]). split; [apply HA | apply HP]; auto.
  - assert (E : firstn (8 * 3) (enc_sp s) = enc 8 71 ++ bit (sp_tei s) ++ bit (sp_pusi s) ++ bit (sp_prio s) ++ enc 13 (sp_pid s)).
    { unfold enc_sp. rewrite !(app_assoc (enc 8 71)), !(app_assoc (enc 8 71 ++ _)), !(app_assoc ((enc 8 71 ++ _) ++ _)), !(app_assoc (((enc 8 71 ++ _) ++ _) ++ _)).
      apply firstn_exact. unfold bit. rewrite !app_length, !enc_length. reflexivity. }
    rewrite E, cut3 by exact H1. eexists _, _, _. split; [reflexivity|]. split; [|apply HE; [lia|reflexivity] ].
    do 7 (split; [reflexivity|]). split; [apply HA | apply HP]; auto.
Qed.
