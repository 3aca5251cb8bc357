(** TsLocal: truncated packets, resynchronisation, panics of Packet.Next. *)
From Verif Require Import Base BitReader Exec Local TsModel SpecTs TsProofs.

(** ** Locality of the parser *)

Ltac loc_step :=
  first
    [ apply local_ret | apply local_fail | apply local_read_n | apply local_read1 | apply local_skip_n
    | apply local_peek_n | apply local_peek1 | apply local_read_bytes ].

(** [lb]: go through a bind whose head is a primitive. *)
Ltac lb := eapply local_bind; [ loc_step | intro ].

Lemma shift8_fix : forall n a b, ((a + (8 - n mod 8)) mod 8 = b)%nat ->
  forall m, shift8 n (at8 a) m -> at8 b m.
Proof. intros n a b H m (c & Hc & ->). unfold at8 in *. now subst. Qed.

Lemma local_read_at : forall n a b, ((a + (8 - n mod 8)) mod 8 = b)%nat ->
  local (at8 a) (read_n n) (at8 b).
Proof. intros. eapply local_weaken; [apply local_read_n | intros m Hm; exact Hm | intros m Hm; eapply shift8_fix; eassumption]. Qed.
Lemma local_read1_at : forall a b, ((a + 7) mod 8 = b)%nat -> local (at8 a) read1 (at8 b).
Proof. intros. eapply local_weaken; [apply local_read1 | intros m Hm; exact Hm | intros m Hm; eapply (shift8_fix 1 a b); [exact H | exact Hm]]. Qed.
Lemma local_skip_at : forall n a b, ((a + (8 - n mod 8)) mod 8 = b)%nat ->
  local (at8 a) (skip_n n) (at8 b).
Proof. intros. eapply local_weaken; [apply local_skip_n | intros m Hm; exact Hm | intros m Hm; eapply shift8_fix; eassumption]. Qed.
Lemma local_ign_at : forall n a b, (n <= a < 8)%nat -> ((a + (8 - n mod 8)) mod 8 = b)%nat ->
  local (at8 a) (ignore_err tt (skip_n n)) (at8 b).
Proof. intros. eapply local_weaken; [now apply local_ign_skip | intros m Hm; exact Hm | intros m Hm; eapply shift8_fix; eassumption]. Qed.

(** A discarded skip at a byte boundary followed by a read: the read fails when the skip did. *)
Lemma local_ign_read : forall n m, (n <= 8)%nat -> (0 < m)%nat ->
  local (at8 0) (ignore_err tt (skip_n n) ;; read_n m)
    (at8 (((0 + (8 - n mod 8)) mod 8 + (8 - m mod 8)) mod 8)).
Proof.
  intros n m Hn Hm r l x Hr Hl Hx.
  destruct (Nat.le_gt_cases n (length l)) as [H|H].
  - assert (E : forall y, ignore_err tt (skip_n n) (setb r (l ++ y)) = (Ok tt, setb r (skipn n l ++ y))).
    { intro y. unfold ignore_err, skip_n, bind, read_n. rewrite rbits_setb, app_length.
      rewrite (proj2 (Nat.leb_le _ _)) by lia. rewrite skipn_app.
      replace (n - length l)%nat with 0%nat by lia. reflexivity. }
    pose proof (E []) as E0. rewrite !app_nil_r in E0.
    unfold bind at 1. rewrite E0. unfold bind. rewrite (E x).
    apply (local_read_at m ((0 + (8 - n mod 8)) mod 8)%nat); auto.
    unfold at8 in *. rewrite lmod_skipn by auto. now rewrite Hl.
  - unfold at8, lmod in Hl.
    destruct l as [|b0 l].
    + unfold bind, ignore_err, skip_n, bind, read_n. rewrite rbits_setb. cbn [length] in *.
      rewrite (proj2 (Nat.leb_gt n 0)) by lia.
      unfold short. rewrite rbits_setb. unfold advance. cbn [rlater setb]. rewrite Hr.
      cbn [rbits setb length]. rewrite (proj2 (Nat.leb_gt m 0)) by lia. exact I.
    + exfalso. cbn [length] in *. rewrite Nat.mod_small in Hl by lia. lia.
Qed.

Lemma local_new_tpd : local (at8 0) new_tpd (at8 0).
Proof.
  unfold new_tpd. eapply local_bind; [apply local_read_at; reflexivity|]. intro len.
  apply local_if; [|apply local_ret].
  intros r l x Hr Hl Hx.
  pose proof (local_read_bytes len (at8 0) r l x Hr Hl Hx) as L.
  destruct (read_bytes len (setb r l)) as [[d|e| |] r'].
  - destruct L as (l' & -> & HQ & ->). eauto.
  - destruct e; exact I.
  - destruct (read_bytes len (setb r (l ++ x))) as [[]]; simpl in *; congruence.
  - destruct (read_bytes len (setb r (l ++ x))) as [[]]; simpl in *; congruence.
Qed.

Lemma local_new_ext : local (at8 0) new_ext any8.
Proof.
  unfold new_ext.
  eapply local_bind; [apply local_read_at; reflexivity|]. intro len.
  eapply local_bind with (Q := at8 0).
  { apply local_if; [|apply local_ret].
    eapply local_bind; [apply local_read1_at with (b := 7%nat); reflexivity|]. intro.
    eapply local_bind; [apply local_read1_at with (b := 6%nat); reflexivity|]. intro.
    eapply local_bind; [apply local_read1_at with (b := 5%nat); reflexivity|]. intro.
    eapply local_bind; [apply local_ign_at with (b := 0%nat); [lia | reflexivity]|]. intro.
    apply local_ret. }
  intros [[[f1 f2] f3] rem1].
  eapply local_bind with (Q := at8 0).
  { apply local_if; [|apply local_ret].
    eapply local_bind; [apply local_read1_at with (b := 7%nat); reflexivity|]. intro.
    eapply local_bind; [apply local_read_at with (b := 0%nat); reflexivity|]. intro.
    apply local_ret. }
  intros [[v o] rem2].
  eapply local_bind with (Q := at8 0).
  { apply local_if; [|apply local_ret].
    apply local_ext with (m := bind (ignore_err tt (skip_n 2) ;; read_n 22) (fun x => ret (x, rem2 - 3))).
    - intro r. apply bind_assoc.
    - eapply local_bind.
      + eapply local_weaken; [apply local_ign_read; lia | intros n Hn; exact Hn | intros n Hn; exact Hn].
      + intro. apply local_ret. }
  intros [pw rem3].
  eapply local_bind with (Q := any8).
  { apply local_if; [|eapply local_weaken; [apply local_ret | intros n Hn; exact Hn | intros; exact I]].
    eapply local_bind; [apply local_read_at with (b := 4%nat); reflexivity|]. intro.
    eapply local_bind; [apply local_read_at with (b := 1%nat); reflexivity|]. intro.
    eapply local_bind; [apply local_ign_at with (b := 0%nat); [lia | reflexivity]|]. intro.
    eapply local_bind; [apply local_read_at with (b := 1%nat); reflexivity|]. intro.
    eapply local_bind; [apply local_ign_at with (b := 0%nat); [lia | reflexivity]|]. intro.
    eapply local_bind; [apply local_read_at with (b := 1%nat); reflexivity|]. intro.
    eapply local_weaken; [apply local_ret | intros n Hn; exact Hn | intros; exact I]. }
  intros [st dts]. apply local_ret.
Qed.

Lemma local_read_pcr : local (at8 0) read_pcr (at8 0).
Proof.
  unfold read_pcr.
  eapply local_bind; [apply local_read_at with (b := 7%nat); reflexivity|]. intro.
  eapply local_bind; [apply local_read_at with (b := 1%nat); reflexivity|]. intro.
  eapply local_bind; [apply local_read_at with (b := 0%nat); reflexivity|]. intro.
  apply local_ret.
Qed.

Lemma local_new_af : local (at8 0) new_af any8.
Proof.
  unfold new_af.
  eapply local_bind; [apply local_read_at; reflexivity|]. intro len.
  eapply local_bind with (Q := at8 0).
  { apply local_if; [|apply local_ret].
    eapply local_bind; [apply local_read1_at with (b := 7%nat); reflexivity|]. intro.
    eapply local_bind; [apply local_read1_at with (b := 6%nat); reflexivity|]. intro.
    eapply local_bind; [apply local_read1_at with (b := 5%nat); reflexivity|]. intro.
    eapply local_bind; [apply local_read1_at with (b := 4%nat); reflexivity|]. intro.
    eapply local_bind; [apply local_read1_at with (b := 3%nat); reflexivity|]. intro.
    eapply local_bind; [apply local_read1_at with (b := 2%nat); reflexivity|]. intro.
    eapply local_bind; [apply local_read1_at with (b := 1%nat); reflexivity|]. intro.
    eapply local_bind; [apply local_read1_at with (b := 0%nat); reflexivity|]. intro.
    apply local_ret. }
  intros [[[[[[[[d ra] ep] pf] of] sf] tf] ef] rem0].
  eapply local_bind with (Q := at8 0).
  { apply local_if; [|apply local_ret].
    eapply local_bind; [apply local_read_pcr | intro; apply local_ret]. }
  intros [pcr1 rem1].
  eapply local_bind with (Q := at8 0).
  { apply local_if; [|apply local_ret].
    eapply local_bind; [apply local_read_pcr | intro; apply local_ret]. }
  intros [opcr rem2].
  eapply local_bind with (Q := at8 0).
  { apply local_if; [|apply local_ret].
    eapply local_bind; [apply local_read_at; reflexivity | intro; apply local_ret]. }
  intros [sc rem3].
  eapply local_bind with (Q := at8 0).
  { apply local_if; [|apply local_ret].
    eapply local_bind; [apply local_new_tpd | intros [t l]; apply local_ret]. }
  intros [tpd rem4].
  eapply local_bind with (Q := any8).
  { apply local_if; [|eapply local_weaken; [apply local_ret | intros n Hn; exact Hn | intros; exact I]].
    eapply local_bind; [apply local_new_ext | intros [t l]; apply local_ret]. }
  intros [ext rem5].
  eapply local_bind with (Q := any8).
  { apply local_if; [|apply local_ret].
    intros r l x Hr Hl Hx.
    pose proof (local_read_bytes rem5 any8 r l x Hr Hl Hx) as L.
    destruct (read_bytes rem5 (setb r l)) as [[y|e| |] r'].
    - destruct L as (l' & -> & HQ & ->). eauto.
    - destruct e; exact I.
    - destruct (read_bytes rem5 (setb r (l ++ x))) as [[]]; simpl in *; congruence.
    - destruct (read_bytes rem5 (setb r (l ++ x))) as [[]]; simpl in *; congruence. }
  intro junk. apply local_ret.
Qed.

Lemma local_ts_is_aligned : local (at8 0) ts_is_aligned (at8 0).
Proof.
  intros r l x Hr Hl Hx. unfold ts_is_aligned. rewrite !is_aligned_setb.
  assert (E : ((length (l ++ x)) mod 8 = 0)%nat).
  { unfold at8, lmod in *. rewrite app_length, Nat.add_mod, Hl, Hx by lia. reflexivity. }
  unfold at8, lmod in Hl. rewrite E, Hl. cbn [Nat.eqb negb].
  assert (L : local (at8 0) (v <- peek_n 8 ;; ret (v =? SyncByte)) (at8 0)).
  { eapply local_bind; [apply local_peek_n | intro; apply local_ret]. }
  apply L; auto.
Qed.

Lemma local_realign_loop : forall k, local (at8 0) (realign_loop k) (at8 0).
Proof.
  induction k; cbn [realign_loop].
  - apply local_fail.
  - eapply local_bind; [apply local_peek_n|]. intro v.
    apply local_if; [apply local_ret|].
    eapply local_bind; [apply local_skip_at; reflexivity|]. intro. apply IHk.
Qed.

Lemma local_realign : local (at8 0) realign (at8 0).
Proof.
  intros r l x Hr Hl Hx. unfold realign. rewrite !is_aligned_setb.
  assert (E : ((length (l ++ x)) mod 8 = 0)%nat).
  { unfold at8, lmod in *. rewrite app_length, Nat.add_mod, Hl, Hx by lia. reflexivity. }
  pose proof Hl as Hl'. unfold at8, lmod in Hl'. rewrite E, Hl'. cbn [Nat.eqb negb].
  apply local_realign_loop; auto.
Qed.

Lemma localp_read_payload : forall n, localp any8 (read_payload n) any8.
Proof.
  intros n p r l x Hr Hl Hx. unfold pair_m, read_payload.
  destruct (MaxPayloadSize <? n); [reflexivity|]. cbn [fst snd].
  destruct (Z.le_gt_cases n (avail (setb r l))) as [H|H].
  - rewrite read_full_ext by auto.
    destruct (read_full_ok _ _ H) as (bs & l' & E & EL). rewrite E. cbn [fst snd].
    exists l'. repeat split.
  - destruct (read_full_err _ _ H) as (bs & e & r' & E). rewrite E. destruct e; exact I.
Qed.

Lemma localp_packet_next : localp (at8 0) packet_next any8.
Proof.
  unfold packet_next.
  eapply localp_bind; [apply localp_onr; apply local_ts_is_aligned|]. intro a.
  eapply localp_bind with (Q := at8 0).
  { apply localp_if; [apply localp_onr; apply local_realign | apply localp_ret]. }
  intro.
  eapply localp_bind; [apply localp_onr; apply local_skip_at with (b := 0%nat); reflexivity|]. intro.
  eapply localp_bind; [apply localp_onrz; apply local_read1_at with (b := 7%nat); reflexivity|]. intro.
  eapply localp_bind; [apply localp_upd|]. intro.
  eapply localp_bind; [apply localp_onrz; apply local_read1_at with (b := 6%nat); reflexivity|]. intro.
  eapply localp_bind; [apply localp_upd|]. intro.
  eapply localp_bind; [apply localp_onrz; apply local_read1_at with (b := 5%nat); reflexivity|]. intro.
  eapply localp_bind; [apply localp_upd|]. intro.
  eapply localp_bind; [apply localp_onrz; apply local_read_at with (b := 0%nat); reflexivity|]. intro.
  eapply localp_bind; [apply localp_upd|]. intro.
  eapply localp_bind; [apply localp_onrz; apply local_read_at with (b := 6%nat); reflexivity|]. intro.
  eapply localp_bind; [apply localp_upd|]. intro.
  eapply localp_bind; [apply localp_onr; apply local_read_at with (b := 4%nat); reflexivity|]. intro afc.
  eapply localp_bind; [apply localp_upd|]. intro.
  eapply localp_bind; [apply localp_onrz; apply local_read_at with (b := 0%nat); reflexivity|]. intro.
  eapply localp_bind; [apply localp_upd|]. intro.
  eapply localp_bind with (Q := any8).
  { apply localp_if.
    - intros p r l x Hr Hl Hx. unfold pair_m. cbn [fst snd].
      pose proof (local_new_af r l x Hr Hl Hx) as L.
      destruct (new_af (setb r l)) as [[[f n]|e| |] r'].
      + destruct L as (l' & -> & HQ & ->). eauto.
      + exact I.
      + destruct (new_af (setb r (l ++ x))) as [[[]| | |] ]; simpl in *; congruence.
      + destruct (new_af (setb r (l ++ x))) as [[[]| | |] ]; simpl in *; congruence.
    - eapply localp_weaken; [apply localp_ret | intros n Hn; exact Hn | intros; exact I]. }
  intro size. apply localp_if; [apply localp_read_payload | apply localp_ret].
Qed.

(** A packet cut after [k] whole bytes, k < 188, is an error. *)
Lemma packet_truncated : forall s p r k, wf_sp s -> rlater r = [] -> (k < 188)%nat ->
  exists e st, packet_next (p, setb r (firstn (8 * k) (enc_sp s))) = (Err e, st).
Proof.
  intros s p r k Hwf Hr Hk.
  pose proof (enc_sp_length _ Hwf) as HL.
  assert (HLs : length (skipn (8 * k) (enc_sp s)) = (8 * (188 - k))%nat)
    by (rewrite skipn_length; lia).
  assert (HLf : length (firstn (8 * k) (enc_sp s)) = (8 * k)%nat)
    by (rewrite firstn_length; lia).
  eapply localp_truncated with (P := at8 0) (Q := any8) (x := skipn (8 * k) (enc_sp s)).
  - apply localp_packet_next.
  - exact Hr.
  - eapply aligned_mult; exact HLf.
  - eapply aligned_mult; exact HLs.
  - intro E. rewrite E in HLs. cbn [length] in HLs. lia.
  - rewrite firstn_skipn. rewrite <- (app_nil_r (enc_sp s)). apply packet_next_enc; auto. reflexivity.
Qed.

(** Cut inside the payload of a source that ends with io.EOF: io.ErrUnexpectedEOF. *)
Lemma read_payload_cut : forall size p r, 0 < size <= 184 -> avail r < size -> rfin r = EEOF ->
  exists st, read_payload size (p, r) = (Err EUnexpectedEOF, st).
Proof.
  intros size p r Hs Ha Hf. unfold read_payload, MaxPayloadSize.
  rewrite (proj2 (Z.ltb_ge 184 size)) by lia. cbn [fst snd].
  unfold read_full.
  assert (0 <= avail r) by (unfold avail; apply Z.div_pos; lia).
  rewrite (proj2 (Z.leb_gt size 0)) by lia. rewrite (proj2 (Z.leb_gt size _)) by lia.
  rewrite Hf. destruct (avail r =? 0); eauto.
Qed.

Definition header_bits (s : spacket) : list bool :=
  enc 8 71 ++ bit (sp_tei s) ++ bit (sp_pusi s) ++ bit (sp_prio s) ++ enc 13 (sp_pid s) ++
  enc 2 (sp_tsc s) ++ enc 2 (sp_afc s) ++ enc 4 (sp_cc s).

(** Running Next over the 4 header bytes at an aligned sync byte. *)
Definition after_header (p : packet) (s : spacket) : packet :=
  mkPk (sp_tei s) (sp_pusi s) (sp_prio s) (sp_pid s) (sp_tsc s) (sp_afc s) (sp_cc s)
    (pk_af p) (pk_buf p) (pk_len p).

Definition next_tail (afc : Z) : M (packet * reader) unit :=
  size <-
    (if (afc =? FieldOnly) || (afc =? FieldThenPayload) then
       fun s => match new_af (snd s) with
                | (Ok (a, l), r') => (Ok (u32 (MaxPayloadSize - u32 (l + 1))), (set_af (Some a) (fst s), r'))
                | (Err e, r') => (Err e, (set_af None (fst s), r'))
                | (Panic, r') => (Panic, (fst s, r'))
                | (OutOfFuel, r') => (OutOfFuel, (fst s, r'))
                end
     else ret MaxPayloadSize) ;;
  if (afc =? PayloadOnly) || (afc =? FieldThenPayload) then read_payload size
  else ret tt.

Lemma next_header : forall s p r l,
  0 <= sp_pid s < 2 ^ 13 -> 0 <= sp_tsc s < 2 ^ 2 -> 0 <= sp_cc s < 2 ^ 4 -> aligned_len l ->
  packet_next (p, setb r (header_bits s ++ l)) = next_tail (sp_afc s) (after_header p s, setb r l).
Proof.
  intros s p r l H1 H2 H3 Hal. unfold packet_next.
  erewrite bind_onr_ok.
  2:{ unfold header_bits. rewrite <- app_assoc. apply ts_is_aligned_sync.
      rewrite <- !app_assoc. unfold bit. rewrite !app_length, !enc_length. cbn [length].
      unfold aligned_len in Hal.
      replace (1 + (1 + (1 + (13 + (2 + (2 + (4 + length l)))))))%nat with (length l + 3 * 8)%nat by lia.
      rewrite Nat.mod_add by lia. exact Hal. }
  cbn [negb]. rewrite <- !app_assoc. xrun.
  rewrite bind_onr_ok with (a := sp_afc s) (r' := setb r (enc 4 (sp_cc s) ++ l)).
  2:{ apply read_enc. unfold sp_afc; destruct (sp_content s); cbn; lia. }
  xrun. reflexivity.
Qed.

Lemma packet_payload_cut : forall s p r k, wf_sp s -> rfin r = EEOF -> has_payload s = true ->
  sp_payload s <> [] ->
  (188 - length (sp_payload s) <= k < 188)%nat ->
  exists st, packet_next (p, setb r (firstn (8 * k) (enc_sp s))) = (Err EUnexpectedEOF, st).
Proof.
  intros s p r k Hwf Hf Hp Hne Hk.
  pose proof (enc_sp_length _ Hwf) as HL.
  assert (E : enc_sp s = header_bits s ++ match sp_content s with
  | SPayload d => bb d | SField a => enc_saf a | SFieldPayload a d => enc_saf a ++ bb d end).
  { unfold enc_sp, header_bits. now rewrite <- !app_assoc. }
  destruct Hwf as (H1 & H2 & H3 & H4). rewrite E in *. clear E.
  assert (HH : length (header_bits s) = 32%nat).
  { unfold header_bits, bit. rewrite !app_length, !enc_length. reflexivity. }
  unfold has_payload, sp_payload, sp_afc in *.
  rewrite app_length, HH in HL.
  destruct (sp_content s) as [d|a|a d] eqn:C; [|discriminate|].
  - destruct H4 as [H4 H5]. unfold blen in H5.
    rewrite firstn_app, HH. rewrite firstn_all2 by (rewrite HH; lia).
    assert (AL : length (firstn (8 * k - 32) (bb d)) = (8 * (k - 4))%nat)
      by (rewrite firstn_length, bb_length; lia).
    rewrite next_header by (auto; eapply aligned_mult; exact AL).
    unfold next_tail, sp_afc. rewrite C. cbn [Z.eqb Pos.eqb orb FieldOnly FieldThenPayload PayloadOnly].
    xrun. apply read_payload_cut; auto; unfold MaxPayloadSize; try lia.
    rewrite avail_setb, AL. rewrite Nat2Z.inj_mul, Z.mul_comm, Z.div_mul by lia. lia.
  - destruct H4 as (H4 & H5 & H6 & H7). pose proof (enc_saf_length a) as LA.
    pose proof (saf_len_range _ H4). unfold blen in H7.
    rewrite app_length in HL.
    rewrite firstn_app, HH. rewrite firstn_all2 by (rewrite HH; lia).
    rewrite firstn_app. rewrite (firstn_all2 (enc_saf a)) by lia.
    set (j := (8 * k - 32 - length (enc_saf a))%nat).
    assert (Hj : j = (8 * (k - 4 - Z.to_nat (saf_len a + 1)))%nat) by lia.
    assert (AL : length (firstn j (bb d)) = (8 * (k - 4 - Z.to_nat (saf_len a + 1)))%nat)
      by (rewrite firstn_length, bb_length; lia).
    rewrite next_header; auto.
    2:{ apply aligned_app; eapply aligned_mult; [|exact AL].
        instantiate (1 := Z.to_nat (saf_len a + 1)). lia. }
    unfold next_tail, sp_afc. rewrite C. cbn [Z.eqb Pos.eqb orb FieldOnly FieldThenPayload PayloadOnly].
    erewrite bind_ok. 2:{ cbn [snd]. rewrite new_af_enc by auto. reflexivity. }
    unfold MaxPayloadSize. rewrite (u32_small (saf_len a + 1)) by lia.
    rewrite u32_small by lia.
    assert (length d <> 0)%nat by (destruct d; [congruence|discriminate]).
    apply read_payload_cut; auto; try lia.
    rewrite avail_setb, AL. rewrite Nat2Z.inj_mul, Z.mul_comm, Z.div_mul by lia. lia.
Qed.
