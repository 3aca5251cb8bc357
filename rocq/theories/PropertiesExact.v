(** PropertiesExact: C97 (exactly what ts.Packet.Next does with any bytes). *)
From Verif Require Import Base BitReader Exec Local TsLocal TsRobust After TsModel SpecTs TsProofs PropertiesTs SpecAcceptTs AcceptTs PropertiesAccept TsExact SpecExact.

(** ** C97 *)

(** The Go Packet after the call, [p] before it: fields that are not in the packet keep their value. *)
Definition packet_is (s : rpacket) (p p' : packet) : Prop :=
  pk_tei p' = rp_tei s /\ pk_pusi p' = rp_pusi s /\ pk_prio p' = rp_prio s /\ pk_pid p' = rp_pid s /\ pk_tsc p' = rp_tsc s /\ pk_afc p' = rp_afc s /\ pk_cc p' = rp_cc s /\
  match rp_content s with
  | RNothing => pk_af p' = pk_af p /\ pk_payload p' = pk_payload p
  | RPayload d => pk_af p' = pk_af p /\ pk_payload p' = d
  | RField f => (exists g, pk_af p' = Some g /\ rfield_is f g) /\ pk_payload p' = pk_payload p
  | RFieldPayload f d => (exists g, pk_af p' = Some g /\ rfield_is f g) /\ pk_payload p' = d
  end.

Lemma comes_tail : forall bits s rest, comes bits s rest -> exists al junk t, (length al < 8)%nat /\ aligned_len t /\ bytes junk /\ ~ In 71 junk /\ (length junk < 188)%nat /\
  bits = al ++ bb junk ++ enc_rheader s ++ t /\
  t = match rp_content s with RNothing => [] | RPayload d => bb d | RField f => enc_rfield f | RFieldPayload f d => enc_rfield f ++ bb d end ++ rest.
Proof.
  intros bits s rest (al & junk & La & Bj & Lj & N & Q). exists al, junk. eexists. split; [rewrite La; apply Nat.mod_upper_bound; lia|]. split; [|split; [exact Bj|]; split; [exact N|]; split; [exact Lj|]; split; [|reflexivity]].
  - unfold enc_rpacket in Q. rewrite <- app_assoc in Q. set (t := _ ++ rest) in *. unfold aligned_len. rewrite Q in La. rewrite !app_length, bb_length in La.
    assert (H : length (enc_rheader s) = 32%nat) by (unfold enc_rheader; rewrite !app_length, !enc_length; reflexivity). rewrite H in La.
    pose proof (Nat.mod_upper_bound (length al + (8 * length junk + (32 + length t))) 8 ltac:(lia)) as U. rewrite <- La in U.
    replace (length al + (8 * length junk + (32 + length t)))%nat with (length al + length t + (length junk + 4) * 8)%nat in La by lia. rewrite Nat.mod_add in La by lia.
    pose proof (Nat.div_mod (length al + length t) 8 ltac:(lia)). rewrite <- La in H0. pose proof (Nat.div_mod (length t) 8 ltac:(lia)). pose proof (Nat.mod_upper_bound (length t) 8 ltac:(lia)). lia.
  - rewrite Q. unfold enc_rpacket. rewrite <- app_assoc. reflexivity.
Qed.
Lemma comes_run : forall p r s rest, wf_rheader s -> comes (rbits r) s rest ->
  packet_next (p, r) = next_tail (rp_afc s) (with_head (rp_tei s) (rp_pusi s) (rp_prio s) (rp_pid s) (rp_tsc s) (rp_afc s) (rp_cc s) p,
    setb r (match rp_content s with RNothing => [] | RPayload d => bb d | RField f => enc_rfield f | RFieldPayload f d => enc_rfield f ++ bb d end ++ rest)).
Proof.
  intros p r s rest (R1 & R2 & R3) C. apply comes_tail in C. destruct C as (al & junk & t & La & At & Bj & N & Lj & Q & Qt). rewrite <- Qt. rewrite <- (setb_rbits r) at 1. rewrite Q. unfold enc_rheader. apply head_run; try assumption.
  unfold rp_afc. destruct (rp_content s); lia.
Qed.

(** Given such a packet, Next returns it and stops right behind it. *)
Theorem C97_reads : forall p r s rest, comes (rbits r) s rest -> wf_rpacket s ->
  exists p', packet_next (p, r) = (Ok tt, (p', setb r rest)) /\ packet_is s p p'.
Proof.
  intros p r s rest C (W & Wc). rewrite (comes_run p r s rest W C). clear C. unfold packet_is, next_tail, rp_afc, FieldOnly, FieldThenPayload, PayloadOnly, MaxPayloadSize. destruct (rp_content s) as [|d|f|f d]; cbn [Z.eqb Pos.eqb orb].
  - eexists. split; [reflexivity|]. cbn. auto 12.
  - destruct Wc as (Bd & Ld). eexists. split; [rewrite bind_ret, read_payload_bb by (auto; lia); reflexivity|]. cbn. do 8 (split; [reflexivity|]). unfold pk_payload, copy_into. cbn. rewrite firstn_app_exact; [reflexivity | unfold blen in Ld; lia].
  - destruct (rfield_enc f r rest Wc) as (g & E & G). eexists. split; [unfold bind; cbn [fst snd]; rewrite E; reflexivity|]. cbn. do 7 (split; [reflexivity|]). split; [exists g; split; [reflexivity | apply holds_is; exact G] | reflexivity].
  - destruct Wc as (Wf & Bd & Ld). destruct (rfield_enc f r (bb d ++ rest) Wf) as (g & E & G). rewrite <- app_assoc. destruct Wf as (Bl & _). pose proof (blen_nonneg d). eexists. split.
    { unfold bind. cbn [fst snd]. rewrite E. cbn [fst snd]. rewrite (u32_small (rf_length f + 1)), u32_small by lia. rewrite read_payload_bb by (auto; lia). reflexivity. }
    do 7 (split; [reflexivity|]). split; [exists g; split; [reflexivity | apply holds_is; exact G]|]. unfold pk_payload, copy_into. cbn [set_buf set_len set_af with_head pk_len pk_buf]. rewrite firstn_app_exact; [reflexivity|]. unfold blen in *. lia.
Qed.

(** The other way round: whatever Next returns without error was such a packet. *)
Theorem C97_only : forall p r u p' r', Z.of_nat (length (rbits r)) < 8 * (2 ^ 32 - 1024) -> rlater r = [] ->
  packet_next (p, r) = (Ok u, (p', r')) ->
  exists s, wf_rpacket s /\ comes (rbits r) s (rbits r') /\ r' = setb r (rbits r') /\ packet_is s p p'.
Proof.
  intros p r u p' r' HS Hr H. destruct (C96_accepted_partial p r u p' r' HS Hr H) as (al & junk & body & La & Bj & Lj & NI & Q & Er & R1 & R2 & R3 & M). clear H.
  assert (K : forall c, rp_afc (mkRP (pk_tei p') (pk_pusi p') (pk_prio p') (pk_pid p') (pk_tsc p') (pk_cc p') c) = pk_afc p' ->
    body = match c with RNothing => [] | RPayload d => bb d | RField f => enc_rfield f | RFieldPayload f d => enc_rfield f ++ bb d end ->
    comes (rbits r) (mkRP (pk_tei p') (pk_pusi p') (pk_prio p') (pk_pid p') (pk_tsc p') (pk_cc p') c) (rbits r')).
  { intros c Hc Hb. exists al, junk. do 4 (split; [assumption|]). rewrite Q. unfold enc_rpacket, enc_rheader. rewrite Hc. cbn [rp_tei rp_pusi rp_prio rp_pid rp_tsc rp_cc rp_content]. rewrite <- Hb, <- !app_assoc. unfold header_bits. rewrite <- !app_assoc. reflexivity. }
  destruct M as [(M & Qb & F & P)|[(M & Qb & B & L & F)|[(M & f & g & W & Qb & G & F & P)|(M & f & g & W & Qb & G & F & B & L)]]].
  - exists (mkRP (pk_tei p') (pk_pusi p') (pk_prio p') (pk_pid p') (pk_tsc p') (pk_cc p') RNothing). split; [split; [exact (conj R1 (conj R2 R3))|exact I]|]. split; [apply K; [symmetry; exact M | exact Qb]|]. split; [exact Er|]. unfold packet_is, rp_afc. cbn. auto 12.
  - exists (mkRP (pk_tei p') (pk_pusi p') (pk_prio p') (pk_pid p') (pk_tsc p') (pk_cc p') (RPayload (pk_payload p'))). split; [split; [exact (conj R1 (conj R2 R3))|split; assumption]|]. split; [apply K; [symmetry; exact M | exact Qb]|]. split; [exact Er|]. unfold packet_is, rp_afc. cbn. auto 12.
  - exists (mkRP (pk_tei p') (pk_pusi p') (pk_prio p') (pk_pid p') (pk_tsc p') (pk_cc p') (RField f)). split; [split; [exact (conj R1 (conj R2 R3))|exact W]|]. split; [apply K; [symmetry; exact M | exact Qb]|]. split; [exact Er|]. unfold packet_is, rp_afc. cbn. do 5 (split; [reflexivity|]). split; [exact M|]. split; [reflexivity|]. split; [exists g; auto | exact P].
  - exists (mkRP (pk_tei p') (pk_pusi p') (pk_prio p') (pk_pid p') (pk_tsc p') (pk_cc p') (RFieldPayload f (pk_payload p'))). split; [split; [exact (conj R1 (conj R2 R3))|split; [exact W|split; assumption] ]|]. split; [apply K; [symmetry; exact M | exact Qb]|]. split; [exact Er|]. unfold packet_is, rp_afc. cbn. do 5 (split; [reflexivity|]). split; [exact M|]. split; [reflexivity|]. split; [exists g; auto | reflexivity].
Qed.

(** It panics exactly on packets with a payload after an adaptation field of 184 bytes or more. *)
Lemma head_panic : forall p r s', rlater r = [] -> packet_next (p, r) = (Panic, s') ->
  exists al junk p0 r9, length al = lm r /\ bytes junk /\ (length junk < 188)%nat /\ ~ In 71 junk /\ sp_ranges p0 /\
    after r (al ++ bb junk ++ sp_bits p0) r9 /\ lm r9 = 0%nat /\ next_tail (pk_afc p0) (p0, r9) = (Panic, s').
Proof.
  intros p r s' Hr H. unfold packet_next in H. apply bind_panic_inv in H; [|safe_tac; apply safe_ts_is_aligned]. destruct H as (b & s1 & E1 & H).
  apply bind_panic_inv in H; [|apply safe_if; [apply safe_onr; apply safe_realign | apply safe_ret] ]. destruct H as (u1 & s2 & E2 & H).
  destruct (sync_after _ _ _ _ _ _ E1 E2) as (al & junk & r1 & t & -> & La & Bj & Lj & NI & A1 & Q). clear E1 E2 s1.
  assert (LL : exists k, length (rbits r1) = (8 * k)%nat).
  { pose proof (after_length _ _ _ A1) as X. rewrite app_length, bb_length, La in X. unfold lm in X. pose proof (Nat.div_mod (length (rbits r)) 8 ltac:(lia)). exists (length (rbits r) / 8 - length junk)%nat. lia. }
  assert (L1 : lm r1 = 0%nat) by (destruct LL as (k & Lk); unfold lm; rewrite Lk, Nat.mul_comm; apply Nat.mod_mul; lia). clear LL.
  apply bind_panic_inv in H; [|safe_tac]. destruct H as (u2 & s1 & E & H). apply onr_ok_inv in E. destruct E as (r2 & E & ->). apply skip_after in E. destruct E as (w & _ & E). pose proof (after_seen _ _ _ _ _ _ Q E) as A2. clear E Q.
  apply bind_panic_inv in H; [|safe_tac]. destruct H as (b1 & s1 & E & H). apply onrz_ok_inv in E. destruct E as (r3 & A3 & ->). apply read1_after in A3. apply bind_panic_inv in H; [|apply safe_upd]. destruct H as (x1 & s1 & E & H). apply upd_ok_inv in E. subst s1.
  apply bind_panic_inv in H; [|safe_tac]. destruct H as (b2 & s1 & E & H). apply onrz_ok_inv in E. destruct E as (r4 & A4 & ->). apply read1_after in A4. apply bind_panic_inv in H; [|apply safe_upd]. destruct H as (x2 & s1 & E & H). apply upd_ok_inv in E. subst s1.
  apply bind_panic_inv in H; [|safe_tac]. destruct H as (b3 & s1 & E & H). apply onrz_ok_inv in E. destruct E as (r5 & A5 & ->). apply read1_after in A5. apply bind_panic_inv in H; [|apply safe_upd]. destruct H as (x3 & s1 & E & H). apply upd_ok_inv in E. subst s1.
  apply bind_panic_inv in H; [|safe_tac]. destruct H as (pid & s1 & E & H). apply onrz_ok_inv in E. destruct E as (r6 & A6 & ->). apply read_after in A6. destruct A6 as (B6 & A6). apply bind_panic_inv in H; [|apply safe_upd]. destruct H as (x4 & s1 & E & H). apply upd_ok_inv in E. subst s1.
  apply bind_panic_inv in H; [|safe_tac]. destruct H as (tsc & s1 & E & H). apply onrz_ok_inv in E. destruct E as (r7 & A7 & ->). apply read_after in A7. destruct A7 as (B7 & A7). apply bind_panic_inv in H; [|apply safe_upd]. destruct H as (x5 & s1 & E & H). apply upd_ok_inv in E. subst s1.
  apply bind_panic_inv in H; [|safe_tac]. destruct H as (afc & s1 & E & H). apply onr_ok_inv in E. destruct E as (r8 & A8 & ->). apply read_after in A8. destruct A8 as (B8 & A8). apply bind_panic_inv in H; [|apply safe_upd]. destruct H as (x6 & s1 & E & H). apply upd_ok_inv in E. subst s1.
  apply bind_panic_inv in H; [|safe_tac]. destruct H as (cc & s1 & E & H). apply onrz_ok_inv in E. destruct E as (r9 & A9 & ->). apply read_after in A9. destruct A9 as (B9 & A9). apply bind_panic_inv in H; [|apply safe_upd]. destruct H as (x7 & s1 & E & H). apply upd_ok_inv in E. subst s1.
  set (p0 := set_cc cc _) in *.
  assert (HD : after r1 (sp_bits p0) r9) by (unfold sp_bits, p0; cbn [set_cc set_afc set_tsc set_pid set_prio set_pusi set_tei pk_tei pk_pusi pk_prio pk_pid pk_tsc pk_afc pk_cc]; change SyncByte with 71 in A2; chain).
  exists al, junk, p0, r9. do 4 (split; [assumption|]). split; [unfold sp_ranges, p0; cbn [set_cc set_afc set_tsc set_pid set_prio set_pusi set_tei pk_tei pk_pusi pk_prio pk_pid pk_tsc pk_afc pk_cc]; auto|].
  split; [rewrite app_assoc; exact (after_app _ _ _ _ _ A1 HD)|]. split; [apply (lm_whole _ _ _ 4 HD); [unfold sp_bits; rewrite !app_length, !enc_length; reflexivity | exact L1]|]. exact H.
Qed.
Theorem C97_panics : forall p r, Z.of_nat (length (rbits r)) < 8 * (2 ^ 32 - 1024) -> rlater r = [] ->
  (fst (packet_next (p, r)) = Panic <-> exists s rest, long_rpacket s /\ comes (rbits r) s rest).
Proof.
  intros p r HS Hr. split.
  - intro H. destruct (packet_next (p, r)) as [x s'] eqn:E. cbn [fst] in H. subst x. destruct (head_panic p r s' Hr E) as (al & junk & p0 & r9 & La & Bj & Lj & NI & (R1 & R2 & R3 & R4) & A & L9 & T).
    assert (HS9 : Z.of_nat (length (rbits r9)) < 8 * (2 ^ 32 - 1024)) by (pose proof (after_length _ _ _ A); lia). assert (R9 : rlater r9 = []) by (rewrite (after_later _ _ _ A); exact Hr).
    destruct s' as [p' r']. pose proof (next_tail_panic (pk_afc p0) p0 r9 p' r' eq_refl T) as (F & g0 & G0 & L0).
    assert (F3 : pk_afc p0 = 3).
    { clear -T F. unfold next_tail in T. unfold bind in T. destruct ((pk_afc p0 =? FieldOnly) || (pk_afc p0 =? FieldThenPayload)) eqn:E1.
      - cbn [fst snd] in T. destruct (new_af r9) as [[[a l]|e| |] r1]; [|discriminate| |discriminate].
        + destruct ((pk_afc p0 =? PayloadOnly) || (pk_afc p0 =? FieldThenPayload)); [|discriminate]. unfold read_payload in T. destruct (MaxPayloadSize <? _); [injection T as <- <-; exact F|]. cbn [fst snd] in T. destruct (read_full _ r1) as [[bs [e|] ] r2]; [destruct e|]; discriminate.
        + injection T as <- <-. exact F.
      - unfold ret in T. destruct ((pk_afc p0 =? PayloadOnly) || (pk_afc p0 =? FieldThenPayload)); [|discriminate]. unfold read_payload in T. destruct (MaxPayloadSize <? _); [injection T as <- <-; exact F|]. cbn [fst snd] in T. destruct (read_full _ r9) as [[bs [e|] ] r2]; [destruct e|]; discriminate. }
    unfold next_tail in T. rewrite F3 in T. unfold FieldOnly, FieldThenPayload, PayloadOnly in T. cbn [Z.eqb Pos.eqb orb] in T. unfold bind in T. cbn [fst snd] in T.
    destruct (new_af r9) as [[[a l]|e| |] r1] eqn:EA; [|discriminate| pose proof (safe_new_af r9) as S; rewrite EA in S; contradiction |discriminate].
    pose proof (new_af_length _ _ _ _ EA) as (El & Bl). apply af_after in EA; [|assumption..]. destruct EA as (f & Wf & Af & Gf & ->).
    assert (L : 184 <= rf_length f).
    { destruct (Z_le_gt_dec 184 (rf_length f)) as [|N]; [assumption|exfalso]. unfold read_payload in T. destruct (Z.ltb_spec MaxPayloadSize (u32 (MaxPayloadSize - u32 (rf_length f + 1)))) as [X|X].
      - unfold MaxPayloadSize in X. rewrite (u32_small (rf_length f + 1)), u32_small in X by lia. lia.
      - cbn [fst snd] in T. destruct (read_full _ r1) as [[bs [e|] ] r2]; [destruct e|]; discriminate. }
    exists (mkRP (pk_tei p0) (pk_pusi p0) (pk_prio p0) (pk_pid p0) (pk_tsc p0) (pk_cc p0) (RFieldPayload f [])), (rbits r1). split; [split; [repeat split; cbn; lia|cbn; auto]|].
    exists al, junk. do 4 (split; [assumption|]). pose proof (after_app _ _ _ _ _ A Af) as Q. rewrite (after_bits _ _ _ Q). unfold enc_rpacket, enc_rheader, rp_afc. cbn [rp_tei rp_pusi rp_prio rp_pid rp_tsc rp_cc rp_content bb flat_map]. unfold sp_bits. rewrite F3, app_nil_r, <- !app_assoc. reflexivity.
  - intros (s & rest & (W & Wc) & C). rewrite (comes_run p r s rest W C). clear C. unfold rp_afc. destruct (rp_content s) as [|d|f|f d]; try contradiction. destruct Wc as (Wf & -> & L). cbn [bb flat_map]. rewrite app_nil_r. destruct (rfield_enc f r rest Wf) as (g & E & _).
    unfold next_tail, FieldOnly, FieldThenPayload, PayloadOnly, MaxPayloadSize. cbn [Z.eqb Pos.eqb orb]. unfold bind. cbn [fst snd]. rewrite E. cbn [fst snd]. destruct Wf as (Bl & _). unfold read_payload, MaxPayloadSize. rewrite (u32_small (rf_length f + 1)) by lia.
    replace (u32 (184 - (rf_length f + 1))) with (184 - (rf_length f + 1) + 4294967296) by (unfold u32; apply (Z.mod_unique (184 - (rf_length f + 1)) 4294967296 (-1)); lia).
    rewrite (proj2 (Z.ltb_lt 184 (184 - (rf_length f + 1) + 4294967296))) by lia. reflexivity.
Qed.

(** In all other cases it returns an error. *)
Theorem C97_otherwise : forall p r, Z.of_nat (length (rbits r)) < 8 * (2 ^ 32 - 1024) -> rlater r = [] ->
  (forall s rest, comes (rbits r) s rest -> ~ wf_rpacket s /\ ~ long_rpacket s) -> exists e, fst (packet_next (p, r)) = Err e.
Proof.
  intros p r HS Hr H. destruct (packet_next (p, r)) as [[u|e| |] [p' r']] eqn:E.
  - exfalso. destruct (C97_only p r u p' r' HS Hr E) as (s & W & C & _). destruct (H s _ C). contradiction.
  - exists e. reflexivity.
  - exfalso. destruct (proj1 (C97_panics p r HS Hr)) as (s & rest & L & C); [rewrite E; reflexivity|]. destruct (H s _ C). contradiction.
  - exfalso. exact (packet_next_fuel _ _ E).
Qed.

(** A packet with a PCR that does not fit into its field, behind two bytes that are not 0x47 *)
Definition ex_field : rfield := mkRF 4 false true false true false false false false None None None None None [1; 2; 3].
Definition ex_taken : rpacket := mkRP false true false 33 0 5 (RFieldPayload ex_field (repeat 7 179)).
Definition ex_long : rpacket := mkRP false true false 33 0 5 (RFieldPayload (mkRF 184 false false false false false false false false None None None None None (repeat 255 183)) []).
Example C97_hyp : comes (bb [0; 9] ++ enc_rpacket ex_taken ++ bb [1]) ex_taken (bb [1]) /\ wf_rpacket ex_taken /\
  comes (bb [0; 9] ++ enc_rpacket ex_long ++ bb [1]) ex_long (bb [1]) /\ long_rpacket ex_long /\
  forall s rest, comes (bb [0; 9]) s rest -> ~ wf_rpacket s /\ ~ long_rpacket s.
Proof.
  assert (B : bytes [0; 9]) by bytes_tac. assert (N : ~ In 71 [0; 9]) by (intros [H|[H|[] ] ]; discriminate H).
  assert (A : forall s, (length (enc_rpacket s) mod 8 = 0)%nat -> comes (bb [0; 9] ++ enc_rpacket s ++ bb [1]) s (bb [1])).
  { intros s H. exists [], [0; 9]. split; [|split; [exact B|]; split; [cbn; lia|]; split; [exact N | reflexivity] ].
    rewrite !app_length, !bb_length. cbn [length]. replace (8 * 2 + (length (enc_rpacket s) + 8 * 1))%nat with (length (enc_rpacket s) + 3 * 8)%nat by lia. rewrite Nat.mod_add by lia. symmetry. exact H. }
  split; [apply A; lazy; reflexivity|]. split.
  { split; [unfold wf_rheader; cbn; lia|]. cbn [ex_taken rp_content]. split; [|split; [apply bytes_repeat; unfold byte; lia | reflexivity] ]. unfold wf_rfield, ex_field. cbn. repeat split; try lia; try discriminate. bytes_tac. }
  split; [apply A; lazy; reflexivity|]. split.
  { split; [unfold wf_rheader; cbn; lia|]. cbn [ex_long rp_content]. split; [|split; [reflexivity | cbn; lia] ]. unfold wf_rfield. cbn [rf_length rf_disc rf_random rf_esprio rf_f1 rf_f2 rf_f3 rf_f4 rf_f5 rf_pcr rf_opcr rf_splice rf_private rf_ext rf_stuffing].
    split; [lia|]. split; [intro X; discriminate X|]. do 5 (split; [reflexivity|]). do 5 (split; [exact I|]). split; [apply bytes_repeat; unfold byte; lia | reflexivity]. }
  intros s rest (al & junk & La & _ & _ & _ & Q). exfalso. apply (f_equal (@length bool)) in Q. unfold enc_rpacket, enc_rheader in Q. rewrite !app_length, !enc_length in Q. rewrite bb_length in Q. cbn [length] in Q. lia.
Qed.
Print Assumptions C97_reads.
Print Assumptions C97_only.
Print Assumptions C97_panics.
Print Assumptions C97_otherwise.
