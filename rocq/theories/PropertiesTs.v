(** PropertiesTs: the properties C01 - C14 of package ts (properties.jsonl), as theorems. *)
From Verif Require Import Base BitReader Exec Local TsModel SpecTs SpecIO TsProofs TsLocal TsRobust
  TsReaders TsDefects.

(** ** How an API value holds an encoded thing *)

(** The header fields of the Go Packet [p] have the encoded values. *)
Definition header_is (s : spacket) (p : packet) : Prop :=
  pk_tei p = sp_tei s /\ pk_pusi p = sp_pusi s /\ pk_prio p = sp_prio s /\ pk_pid p = sp_pid s /\
  pk_tsc p = sp_tsc s /\ pk_afc p = sp_afc s /\ pk_cc p = sp_cc s.

(** The Go AdaptationExt holds the encoded extension. *)
Definition ext_is (x : sext) (e : aext) : Prop :=
  ae_length e = sext_len x /\
  ae_ltw_flag e = is_some (sx_ltw x) /\ ae_pwr_flag e = is_some (sx_pwr x) /\
  ae_splice_flag e = is_some (sx_seamless x) /\
  match sx_ltw x with Some (v, o) => ae_ltw_valid e = v /\ ae_ltw_offset e = o | None => True end /\
  match sx_pwr x with Some (_, v) => ae_pwr e = v | None => True end /\
  match sx_seamless x with Some (t, d) => ae_splice_type e = t /\ ae_dts_next e = d | None => True end.

(** The Go AdaptationField holds the encoded adaptation field. *)
Definition field_is (a : saf) (f : afield) : Prop :=
  af_length f = saf_len a /\
  match a with
  | AFEmpty =>
      af_disc f = false /\ af_random f = false /\ af_esprio f = false /\ af_pcr_flag f = false /\
      af_opcr_flag f = false /\ af_splice_flag f = false /\ af_tpd_flag f = false /\ af_ext_flag f = false /\
      af_tpd f = None /\ af_ext f = None /\ af_junk f = []
  | AFBody b =>
      af_disc f = sa_disc b /\ af_random f = sa_random b /\ af_esprio f = sa_esprio b /\
      af_pcr_flag f = is_some (sa_pcr b) /\ af_opcr_flag f = is_some (sa_opcr b) /\
      af_splice_flag f = is_some (sa_splice b) /\ af_tpd_flag f = is_some (sa_private b) /\
      af_ext_flag f = is_some (sa_ext b) /\
      match sa_pcr b with Some c => af_pcr f = pcr_base c * 300 + pcr_ext c | None => True end /\
      match sa_opcr b with Some c => af_opcr f = pcr_base c * 300 + pcr_ext c | None => True end /\
      match sa_splice b with Some c => af_splice f = c | None => True end /\
      match sa_private b with
      | Some d => exists t, af_tpd f = Some t /\ tpd_length t = blen d /\ tpd_data t = d
      | None => af_tpd f = None end /\
      match sa_ext b with
      | Some x => exists e, af_ext f = Some e /\ ext_is x e
      | None => af_ext f = None end /\
      af_junk f = sa_stuffing b
  end.

Lemma go_ext_is : forall x, ext_is x (go_ext x).
Proof.
  intro x. unfold ext_is, go_ext. cbn. repeat split.
  - destruct (sx_ltw x) as [[]|]; auto.
  - destruct (sx_pwr x) as [[]|]; auto.
  - destruct (sx_seamless x) as [[]|]; auto.
Qed.
Lemma go_af_is : forall a, field_is a (go_af a).
Proof.
  intros [|b]; unfold field_is; [cbn; repeat split; auto|].
  cbn [go_af af_length af_disc af_random af_esprio af_pcr_flag af_opcr_flag af_splice_flag af_tpd_flag
       af_ext_flag af_pcr af_opcr af_splice af_tpd af_ext af_junk].
  repeat split.
  - destruct (sa_pcr b); auto.
  - destruct (sa_opcr b); auto.
  - destruct (sa_splice b); auto.
  - destruct (sa_private b); auto. eexists; repeat split.
  - destruct (sa_ext b); auto. eexists; repeat split; apply go_ext_is.
Qed.
Lemma over_header : forall p s, header_is s (over_packet p s).
Proof. intros. unfold header_is, over_packet; cbn. repeat split. Qed.

(** ** Examples used below to show that hypotheses are met *)
Definition ex_src : reader := mkR [] EEOF [] (fun _ _ => EUnexpectedEOF).
Definition ex_p1 : spacket := mkSP false true false 256 0 3 (SPayload (repeat 7 184)).
Definition ex_body : sbody :=
  mkSBody true false true (Some (mkPcr 4294967297 63 299)) None (Some 5) (Some [1; 2; 3])
    (Some (mkSExt (Some (true, 77)) (Some (3, 1000)) None 31 [])) (repeat 255 20).
Definition ex_p2 : spacket :=
  mkSP false false true 256 1 4 (SFieldPayload (AFBody ex_body) (repeat 9 (Z.to_nat (183 - saf_len (AFBody ex_body))))).
Definition ex_p3 : spacket :=
  mkSP false false true 17 1 4 (SField (AFBody (mkSBody false false false None None None None None (repeat 255 182)))).
Definition ex_p4 : spacket := mkSP false true false 256 0 4 (SPayload (repeat 8 184)).

Ltac bytes_tac := repeat (constructor; [unfold byte; lia|]); constructor.
Lemma bytes_repeat : forall v n, byte v -> bytes (repeat v n).
Proof. intros. apply Forall_forall. intros x Hx. apply repeat_spec in Hx. now subst. Qed.

Example ex_p1_wf : wf_sp ex_p1.
Proof. unfold wf_sp, ex_p1; cbn [sp_pid sp_tsc sp_cc sp_content]. repeat split; try lia. apply bytes_repeat; unfold byte; lia. Qed.
Example ex_p2_wf : wf_sp ex_p2.
Proof.
  unfold wf_sp, ex_p2; cbn [sp_pid sp_tsc sp_cc sp_content].
  repeat split; try lia; try (cbn; lia); try (apply bytes_repeat; unfold byte; lia).
  all: cbn; bytes_tac.
Qed.
Example ex_p3_wf : wf_sp ex_p3.
Proof.
  unfold wf_sp, ex_p3; cbn [sp_pid sp_tsc sp_cc sp_content].
  repeat split; try lia; try (cbn; lia); try (apply bytes_repeat; unfold byte; lia).
Qed.
Example ex_p4_wf : wf_sp ex_p4.
Proof. unfold wf_sp, ex_p4; cbn [sp_pid sp_tsc sp_cc sp_content]. repeat split; try lia. apply bytes_repeat; unfold byte; lia. Qed.
Ltac wfs := repeat (apply Forall_cons; [first [apply ex_p1_wf | apply ex_p2_wf | apply ex_p3_wf | apply ex_p4_wf]|]); apply Forall_nil.
Example ex_wf : Forall wf_sp [ex_p1; ex_p2; ex_p3; ex_p4].
Proof. wfs. Qed.

(** ** C01 *)
(** Next on a packet that is all payload: whatever the packet held before ([p]) and whatever follows ([l]). *)
Theorem C01_payload_packet : forall s d p r l, wf_sp s -> sp_content s = SPayload d ->
  (length l mod 8 = 0)%nat ->
  exists p', packet_next (p, setb r (enc_sp s ++ l)) = (Ok tt, (p', setb r l)) /\
    header_is s p' /\ pk_payload p' = d.
Proof.
  intros s d p r l Hwf Hc Hl. exists (over_packet p s). split; [|split].
  - now apply packet_next_enc.
  - apply over_header.
  - rewrite over_payload; [unfold sp_payload | unfold has_payload]; now rewrite Hc.
Qed.
(** The same for NewPacket, where moreover there is no adaptation field. *)
Theorem C01_new_packet : forall s d r l, wf_sp s -> sp_content s = SPayload d ->
  (length l mod 8 = 0)%nat ->
  exists p', new_packet (setb r (enc_sp s ++ l)) = (Ok tt, (p', setb r l)) /\
    header_is s p' /\ pk_payload p' = d /\ pk_af p' = None.
Proof.
  intros s d r l Hwf Hc Hl. exists (over_packet zero_packet s). repeat split.
  - now apply packet_next_enc.
  - rewrite over_payload; [unfold sp_payload | unfold has_payload]; now rewrite Hc.
  - unfold over_packet, sp_field. cbn. now rewrite Hc.
Qed.
Example C01_hyp : wf_sp ex_p1 /\ exists d, sp_content ex_p1 = SPayload d.
Proof. split; [apply ex_p1_wf | eexists; reflexivity]. Qed.

(** ** C02 *)
(** [pre]: the rest of a byte when the stream is not aligned; [g]: the bytes before the sync byte. *)
Theorem C02_resync : forall pre g p r l, (length pre < 8)%nat -> bytes g -> Forall (fun b => b <> 71) g ->
  (length g < 188)%nat -> (length l mod 8 = 0)%nat ->
  packet_next (p, setb r (pre ++ bb g ++ enc 8 71 ++ l)) = packet_next (p, setb r (enc 8 71 ++ l)).
Proof. exact resync. Qed.
Theorem C02_no_sync : forall pre g p r l, (length pre < 8)%nat -> bytes g -> Forall (fun b => b <> 71) g ->
  length g = 188%nat -> (length l mod 8 = 0)%nat ->
  packet_next (p, setb r (pre ++ bb g ++ l)) = (Err ErrNoSyncByte, (p, setb r l)).
Proof. exact resync_none. Qed.
Theorem C02_end : forall pre g p r, (length pre < 8)%nat -> bytes g -> Forall (fun b => b <> 71) g ->
  (length g < 188)%nat ->
  exists r', packet_next (p, setb r (pre ++ bb g)) = (Err (rfin r), (p, r')).
Proof. intros. eexists. now apply resync_end. Qed.
Example C02_hyp : bytes [0; 72; 255] /\ Forall (fun b => b <> 71) [0; 72; 255].
Proof. split; [bytes_tac | repeat constructor; lia]. Qed.

(** ** C03 *)
(** The adaptation field alone. *)
Theorem C03_adaptation_field : forall a r l, wf_saf a -> plain_ext a ->
  exists f, new_af (setb r (enc_saf a ++ l)) = (Ok (f, saf_len a), setb r l) /\ field_is a f.
Proof. intros. exists (go_af a). split; [now apply new_af_enc | apply go_af_is]. Qed.
(** Its encoding is one length byte and adaptation_field_length bytes. *)
Theorem C03_consumed : forall a, Z.of_nat (length (enc_saf a)) = 8 * (saf_len a + 1).
Proof. exact enc_saf_length. Qed.
(** In a packet. *)
Theorem C03_packet : forall s a p r l, wf_sp s -> sp_field s = Some a -> (length l mod 8 = 0)%nat ->
  exists p' f, packet_next (p, setb r (enc_sp s ++ l)) = (Ok tt, (p', setb r l)) /\
    pk_af p' = Some f /\ field_is a f.
Proof.
  intros s a p r l Hwf Hf Hl. exists (over_packet p s), (go_af a). split; [now apply packet_next_enc|].
  split; [|apply go_af_is]. unfold over_packet; cbn. now rewrite Hf.
Qed.
Example C03_hyp : wf_sp ex_p2 /\ sp_field ex_p2 = Some (AFBody ex_body) /\ plain_ext (AFBody ex_body).
Proof. split; [apply ex_p2_wf|]. cbn. auto. Qed.

(** ** C04 *)
Theorem C04_field_payload : forall s a d p r l, wf_sp s -> sp_content s = SFieldPayload a d ->
  (length l mod 8 = 0)%nat ->
  exists p', packet_next (p, setb r (enc_sp s ++ l)) = (Ok tt, (p', setb r l)) /\
    header_is s p' /\ pk_payload p' = d /\ blen d = 183 - saf_len a.
Proof.
  intros s a d p r l Hwf Hc Hl. exists (over_packet p s). split; [|split; [|split]].
  - now apply packet_next_enc.
  - apply over_header.
  - rewrite over_payload; [unfold sp_payload | unfold has_payload]; now rewrite Hc.
  - destruct Hwf as (_ & _ & _ & H). rewrite Hc in H. lia.
Qed.
Theorem C04_field_only : forall s a p r l, wf_sp s -> sp_content s = SField a ->
  (length l mod 8 = 0)%nat ->
  exists p', packet_next (p, setb r (enc_sp s ++ l)) = (Ok tt, (p', setb r l)) /\ header_is s p'.
Proof.
  intros s a p r l Hwf Hc Hl. exists (over_packet p s). split; [|apply over_header].
  now apply packet_next_enc.
Qed.
Theorem C04_188_bytes : forall s, wf_sp s -> length (enc_sp s) = (8 * 188)%nat.
Proof. exact enc_sp_length. Qed.
Example C04_hyp : wf_sp ex_p2 /\ wf_sp ex_p3 /\ (exists a d, sp_content ex_p2 = SFieldPayload a d) /\
  exists a, sp_content ex_p3 = SField a.
Proof. split; [apply ex_p2_wf|]. split; [apply ex_p3_wf|]. split; repeat eexists. Qed.

(** ** C05 *)
Theorem C05_cut_is_error : forall s p r k, wf_sp s -> rlater r = [] -> (k < 188)%nat ->
  exists e st, packet_next (p, setb r (firstn (8 * k) (enc_sp s))) = (Err e, st).
Proof. exact packet_truncated. Qed.
Theorem C05_cut_in_payload : forall s p r k, wf_sp s -> rfin r = EEOF -> has_payload s = true ->
  sp_payload s <> [] -> (188 - length (sp_payload s) <= k < 188)%nat ->
  exists st, packet_next (p, setb r (firstn (8 * k) (enc_sp s))) = (Err EUnexpectedEOF, st).
Proof. exact packet_payload_cut. Qed.
Example C05_hyp : wf_sp ex_p2 /\ rlater ex_src = [] /\ rfin ex_src = EEOF /\ has_payload ex_p2 = true /\
  sp_payload ex_p2 <> [].
Proof. split; [apply ex_p2_wf|]. repeat split; discriminate. Qed.

(** ** C06: refuted *)
(** What is left unread of every extension: nothing in the plain case, otherwise the last marker bit of the
    seamless splice and every reserved byte. *)
Theorem C06_ext_consumed_partial : forall x r l, wf_sext x -> sext_len x < 256 ->
  exists e, new_ext (setb r (enc_sext x ++ l)) =
    (Ok (e, sext_len x),
     setb r ((match sx_seamless x with Some _ => [true] | None => [] end) ++ bb (sx_reserved x) ++ l)) /\
    ext_is x e.
Proof.
  intros x r l H H'. exists (go_ext x). split; [|apply go_ext_is].
  rewrite new_ext_any by auto. unfold ext_unread. now rewrite <- app_assoc.
Qed.
Definition ex_ext_bad : sext := mkSExt None None (Some (1, 4294967296)) 31 [].
Definition ex_ext_res : sext := mkSExt None None None 31 [170; 171].
(** A packet that is well formed except for [plain_ext]. *)
Definition wf_sp_any (p : spacket) : Prop :=
  0 <= sp_pid p < 2 ^ 13 /\ 0 <= sp_tsc p < 2 ^ 2 /\ 0 <= sp_cc p < 2 ^ 4 /\
  match sp_content p with
  | SPayload d => bytes d /\ blen d = 184
  | SField a => wf_saf a /\ saf_len a = 183
  | SFieldPayload a d => wf_saf a /\ bytes d /\ saf_len a + 1 + blen d = 184
  end.
Definition bad_packet (x : sext) : spacket :=
  let b := mkSBody false false false None None None None (Some x) [] in
  mkSP false false false 256 0 0 (SFieldPayload (AFBody b) (repeat 1 (Z.to_nat (183 - saf_len (AFBody b))))).
Example C06_hyp : wf_sext ex_ext_bad /\ wf_sext ex_ext_res /\
  wf_sp_any (bad_packet ex_ext_bad) /\ wf_sp_any (bad_packet ex_ext_res).
Proof.
  unfold wf_sp_any, bad_packet; cbn [sp_pid sp_tsc sp_cc sp_content].
  repeat split; try lia; try (cbn; lia); try (apply bytes_repeat; unfold byte; lia); bytes_tac.
Qed.
(** With a seamless splice the payload is not the encoded one, and one bit of the packet is left. *)
Theorem C06_seamless_refuted : exists s st, wf_sp_any s /\
  packet_next (zero_packet, setb ex_src (enc_sp s)) = (Ok tt, st) /\
  pk_payload (fst st) <> sp_payload s /\ length (rbits (snd st)) = 1%nat /\ is_aligned (snd st) = false.
Proof.
  exists (bad_packet ex_ext_bad). eexists. split; [apply C06_hyp|].
  split; [vm_compute; reflexivity|]. split; [|split]; vm_compute; congruence.
Qed.
(** With reserved bytes the payload starts with them. *)
Theorem C06_reserved_refuted : exists s st, wf_sp_any s /\
  packet_next (zero_packet, setb ex_src (enc_sp s)) = (Ok tt, st) /\
  pk_payload (fst st) <> sp_payload s /\ length (rbits (snd st)) = 16%nat.
Proof.
  exists (bad_packet ex_ext_res). eexists. split; [apply C06_hyp|].
  split; [vm_compute; reflexivity|]. split; vm_compute; congruence.
Qed.

(** ** C07: refuted *)
(** True on a fresh Packet: absent parts are absent. *)
Theorem C07_fresh_partial : forall s r l, wf_sp s -> (length l mod 8 = 0)%nat ->
  exists p', new_packet (setb r (enc_sp s ++ l)) = (Ok tt, (p', setb r l)) /\
    pk_payload p' = sp_payload s /\ (sp_field s = None -> pk_af p' = None).
Proof.
  intros s r l Hwf Hl. exists (over_packet zero_packet s). split; [now apply packet_next_enc|]. split.
  - destruct (has_payload s) eqn:E; [now apply over_payload|].
    unfold pk_payload, over_packet. cbn [pk_len pk_buf]. rewrite E.
    unfold has_payload, sp_payload in *. destruct (sp_content s); try discriminate. reflexivity.
  - intro E. unfold over_packet. cbn. now rewrite E.
Qed.
(** On a reused Packet, what the new packet does not carry is what was there before - for every packet. *)
Theorem C07_stale_payload_refuted : forall s a p r l, wf_sp s -> sp_content s = SField a ->
  (length l mod 8 = 0)%nat ->
  exists p', packet_next (p, setb r (enc_sp s ++ l)) = (Ok tt, (p', setb r l)) /\ pk_payload p' = pk_payload p.
Proof.
  intros s a p r l Hwf Hc Hl. exists (over_packet p s). split; [now apply packet_next_enc|].
  unfold pk_payload, over_packet, has_payload. cbn. now rewrite Hc.
Qed.
Theorem C07_stale_field_refuted : forall s d p r l, wf_sp s -> sp_content s = SPayload d ->
  (length l mod 8 = 0)%nat ->
  exists p', packet_next (p, setb r (enc_sp s ++ l)) = (Ok tt, (p', setb r l)) /\ pk_af p' = pk_af p.
Proof.
  intros s d p r l Hwf Hc Hl. exists (over_packet p s). split; [now apply packet_next_enc|].
  unfold over_packet, sp_field. cbn. now rewrite Hc.
Qed.
(** Two packets in a row: the second has no payload, the payload of the first is still there. *)
Theorem C07_refuted : exists s1 s2 p1 p2 r1 r2, wf_sp s1 /\ wf_sp s2 /\ sp_payload s2 = [] /\
  new_packet (setb ex_src (enc_sps [s1; s2])) = (Ok tt, (p1, r1)) /\
  packet_next (p1, r1) = (Ok tt, (p2, r2)) /\ pk_payload p2 = sp_payload s1 /\ pk_payload p2 <> [].
Proof.
  exists ex_p1, ex_p3. do 4 eexists. split; [apply ex_p1_wf|]. split; [apply ex_p3_wf|].
  split; [reflexivity|]. unfold new_packet.
  split; [apply next_cons; [apply ex_p1_wf | wfs]|].
  split; [apply next_cons; [apply ex_p3_wf | wfs]|].
  split; [reflexivity | discriminate].
Qed.

(** ** C08: refuted; the only cause *)
Theorem C08_refuted : exists bs, bytes bs /\
  fst (new_packet (mkR (bb bs) EEOF [] (fun _ _ => EUnexpectedEOF))) = Panic.
Proof.
  exists panic_bytes. split; [|exact packet_next_can_panic].
  unfold panic_bytes. apply Forall_app. split; [bytes_tac | apply bytes_repeat; unfold byte; lia].
Qed.
(** It panics only after having read an adaptation field that leaves no room for the payload byte count. *)
Theorem C08_only_cause_partial : forall p r p' r', packet_next (p, r) = (Panic, (p', r')) ->
  pk_afc p' = 3 /\ exists a, pk_af p' = Some a /\ 183 < af_length a.
Proof. exact packet_next_panic. Qed.
(** It always ends. *)
Theorem C08_terminates : forall s s', packet_next s <> (OutOfFuel, s').
Proof. exact packet_next_fuel. Qed.

(** ** C09 *)
Theorem C09_pointwise : forall (t u : tester) (p : packet),
  t_not t p = negb (t p) /\ t_and t u p = (t p && u p)%bool /\ t_or t u p = (t p || u p)%bool.
Proof. intros. repeat split. Qed.
Theorem C09_IsPID : forall n p, IsPID n p = true <-> pk_pid p = n.
Proof. intros. unfold IsPID. apply Z.eqb_eq. Qed.
Theorem C09_IsPayloadUnitStart : forall p, IsPayloadUnitStart p = true <-> pk_pusi p = true.
Proof. intros. unfold IsPayloadUnitStart. tauto. Qed.
(** Boolean algebra, for composed testers of any depth: expressions over atomic testers. *)
Inductive texp : Type := TAtom (t : tester) | TNot (a : texp) | TAnd (a b : texp) | TOr (a b : texp).
Fixpoint build (e : texp) : tester :=
  match e with TAtom t => t | TNot a => t_not (build a) | TAnd a b => t_and (build a) (build b)
  | TOr a b => t_or (build a) (build b) end.
Fixpoint meaning (e : texp) (p : packet) : Prop :=
  match e with TAtom t => t p = true | TNot a => ~ meaning a p | TAnd a b => meaning a p /\ meaning b p
  | TOr a b => meaning a p \/ meaning b p end.
Theorem C09_composed : forall e p, build e p = true <-> meaning e p.
Proof.
  induction e; intro p; cbn [build meaning].
  - tauto.
  - unfold t_not. rewrite <- IHe. destruct (build e p); cbn; intuition discriminate.
  - unfold t_and. rewrite andb_true_iff, IHe1, IHe2. tauto.
  - unfold t_or. rewrite orb_true_iff, IHe1, IHe2. tauto.
Qed.
Theorem C09_laws : forall (t u v : tester) p,
  t_not (t_not t) p = t p /\
  t_not (t_and t u) p = t_or (t_not t) (t_not u) p /\ t_not (t_or t u) p = t_and (t_not t) (t_not u) p /\
  t_and t (t_or u v) p = t_or (t_and t u) (t_and t v) p /\ t_or t (t_and u v) p = t_and (t_or t u) (t_or t v) p.
Proof.
  intros. unfold t_not, t_and, t_or. destruct (t p), (u p), (v p); repeat split.
Qed.

(** ** C10 *)
(** A tester in use here looks only at the packet that was read last, not at what [Next] left behind
    from earlier packets ([view]); those of the package do. *)
Theorem C10_testers : (forall n, tester_ok (IsPID n)) /\ tester_ok IsPayloadUnitStart /\
  (forall t, tester_ok t -> tester_ok (t_not t)) /\
  (forall t u, tester_ok t -> tester_ok u -> tester_ok (t_and t u) /\ tester_ok (t_or t u)).
Proof. repeat split; auto using ok_IsPID, ok_pusi, ok_not, ok_and, ok_or. Qed.
(** The reads give, whatever their sizes, what an ideal reader (SpecIO) over the concatenated payloads gives. *)
Theorem C10_payload_reader : forall w r ps sizes fuel, tester_ok w -> rlater r = [] ->
  Forall wf_sp ps ->
  Forall (fun s => w (go_packet s) = true -> has_payload s = true) ps ->
  (length ps < fuel)%nat ->
  pr_reads fuel sizes (new_preader (setb r (enc_sps ps)) w) =
  map Ok (ideal_reads (rfin r) sizes (concat (map sp_payload (filter (fun s => w (go_packet s)) ps)))).
Proof. intros. now apply pr_ideal. Qed.
(** In particular: the bytes delivered are a prefix of the content, all of it when enough is asked for. *)
Theorem C10_delivered : forall w r ps sizes fuel, tester_ok w -> rlater r = [] ->
  Forall wf_sp ps ->
  Forall (fun s => w (go_packet s) = true -> has_payload s = true) ps ->
  (length ps < fuel)%nat ->
  exists outs, pr_reads fuel sizes (new_preader (setb r (enc_sps ps)) w) = map Ok outs /\
    delivered outs = firstn (asked sizes) (concat (map sp_payload (filter (fun s => w (go_packet s)) ps))).
Proof. intros. eexists. split; [now apply pr_ideal|]. apply ideal_delivered. Qed.
(** A nil error means a full buffer; an error comes only once the content is exhausted. *)
Theorem C10_full_or_end : forall w r ps sizes fuel i n out, tester_ok w -> rlater r = [] ->
  Forall wf_sp ps ->
  Forall (fun s => w (go_packet s) = true -> has_payload s = true) ps ->
  (length ps < fuel)%nat ->
  nth_error sizes i = Some n ->
  nth_error (pr_reads fuel sizes (new_preader (setb r (enc_sps ps)) w)) i = Some (Ok out) ->
  (snd out = None -> length (fst out) = n) /\
  (snd out <> None -> snd out = Some (rfin r) /\ (length (fst out) < n)%nat /\
     (length (concat (map sp_payload (filter (fun s => w (go_packet s)) ps))) < asked (firstn (S i) sizes))%nat).
Proof.
  intros w r ps sizes fuel i n out Hw Hr Hwf Hc Hf Hn Ho.
  rewrite (pr_ideal w r ps sizes fuel Hw Hr Hwf Hc Hf) in Ho.
  rewrite nth_error_map in Ho.
  destruct (nth_error (ideal_reads (rfin r) sizes (payloads w ps)) i) eqn:E; cbn in Ho; inversion Ho; subst.
  exact (ideal_full _ _ _ _ _ _ Hn E).
Qed.
Example C10_hyp : tester_ok (IsPID 256) /\ rlater ex_src = [] /\ Forall wf_sp [ex_p1; ex_p2; ex_p3; ex_p4] /\
  Forall (fun s => IsPID 256 (go_packet s) = true -> has_payload s = true) [ex_p1; ex_p2; ex_p3; ex_p4] /\
  filter (fun s => IsPID 256 (go_packet s)) [ex_p1; ex_p2; ex_p3; ex_p4] = [ex_p1; ex_p2; ex_p4].
Proof.
  split; [apply ok_IsPID|]. split; [reflexivity|]. split; [apply ex_wf|]. split; [|reflexivity].
  repeat constructor; cbn; auto; discriminate.
Qed.

(** ** C11 *)
(** [s0] is the first packet that fails the TakeWhile tester. [cut_reads]: reads are served from the payloads before [s0];
    the one that needs more also gets what fits of the payload of [s0], with EOF; later ones get 0, EOF. *)
Theorem C11_take_while : forall w t r ps s0 post sizes fuel, tester_ok w -> tester_ok t ->
  Forall wf_sp (ps ++ s0 :: post) ->
  Forall (fun s => w (go_packet s) = true -> has_payload s = true) (ps ++ [s0]) ->
  Forall (fun s => t (go_packet s) = true) ps -> t (go_packet s0) = false -> (length ps < fuel)%nat ->
  pr_reads fuel sizes (pr_take_while t (new_preader (setb r (enc_sps (ps ++ s0 :: post))) w)) =
  map Ok (cut_reads (if w (go_packet s0) then sp_payload s0 else []) sizes
            (Some (concat (map sp_payload (filter (fun s => w (go_packet s)) ps))))).
Proof.
  intros w t r ps s0 post sizes fuel Hw Ht Hwf Hc Hps H0 Hf.
  rewrite (pr_take_cut w t r ps s0 post sizes fuel) by auto.
  rewrite payloads_cons. unfold accepted. change (payloads w []) with (@nil Z). now rewrite app_nil_r.
Qed.
(** Once closed it stays closed and the source is not touched. *)
Theorem C11_closed : forall fuel n s, pr_closed s = true -> pr_read fuel n s = (Ok ([], Some EEOF), s).
Proof. exact pr_read_closed. Qed.
Example C11_hyp : tester_ok (IsPID 256) /\ Forall wf_sp ([ex_p1; ex_p2] ++ ex_p3 :: [ex_p4]) /\
  Forall (fun s => IsPID 256 (go_packet s) = true) [ex_p1; ex_p2] /\ IsPID 256 (go_packet ex_p3) = false.
Proof. split; [apply ok_IsPID|]. split; [apply ex_wf|]. split; [repeat constructor | reflexivity]. Qed.

(** ** C12 *)
(** Delivery from the first match on. The first match's payload is delivered even when the filter rejects it. *)
Theorem C12_skip_until_partial : forall w t r ps s0 post sizes n fuel, tester_ok w -> tester_ok t -> rlater r = [] ->
  Forall wf_sp (ps ++ s0 :: post) ->
  Forall (fun s => w (go_packet s) = true -> has_payload s = true) post ->
  Forall (fun s => t (go_packet s) = false) ps -> t (go_packet s0) = true -> has_payload s0 = true ->
  (length ps + length post + 1 < fuel)%nat ->
  pr_reads fuel (n :: sizes) (pr_skip_until t (new_preader (setb r (enc_sps (ps ++ s0 :: post))) w)) =
  map Ok (ideal_reads (rfin r) (n :: sizes)
    (sp_payload s0 ++ concat (map sp_payload (filter (fun s => w (go_packet s)) post)))).
Proof. intros. now apply pr_skip_ideal. Qed.
(** When the filter accepts the first match the content is what the property asks for. *)
Theorem C12_skip_until : forall w t r ps s0 post sizes n fuel, tester_ok w -> tester_ok t -> rlater r = [] ->
  Forall wf_sp (ps ++ s0 :: post) ->
  Forall (fun s => w (go_packet s) = true -> has_payload s = true) (s0 :: post) ->
  Forall (fun s => t (go_packet s) = false) ps -> t (go_packet s0) = true -> w (go_packet s0) = true ->
  (length ps + length post + 1 < fuel)%nat ->
  pr_reads fuel (n :: sizes) (pr_skip_until t (new_preader (setb r (enc_sps (ps ++ s0 :: post))) w)) =
  map Ok (ideal_reads (rfin r) (n :: sizes)
    (concat (map sp_payload (filter (fun s => w (go_packet s)) (s0 :: post))))).
Proof.
  intros w t r ps s0 post sizes n fuel Hw Ht Hr Hwf Hc Hps H0 Hw0 Hf. inversion Hc; subst.
  rewrite (pr_skip_ideal w t r ps s0 post sizes n fuel) by auto.
  cbn [filter]. rewrite Hw0. reflexivity.
Qed.
Lemma pr_reads_one : forall fuel n s x, pr_reads fuel [n] s = [Ok x] -> exists s', pr_read fuel n s = (Ok x, s').
Proof. intros fuel n s x H. cbn [pr_reads] in H. destruct (pr_read fuel n s) as [o s']. exists s'. congruence. Qed.
(** The filter is not applied to the first match. *)
Theorem C12_filter_refuted : exists w t ps, tester_ok w /\ tester_ok t /\ Forall wf_sp ps /\
  filter (fun s => w (go_packet s)) ps = [] /\
  exists s', pr_read 5 4 (pr_skip_until t (new_preader (setb ex_src (enc_sps ps)) w)) = (Ok ([7; 7; 7; 7], None), s').
Proof.
  exists (IsPID 17), (IsPID 256), [ex_p1].
  split; [apply ok_IsPID|]. split; [apply ok_IsPID|].
  split; [wfs|]. split; [reflexivity|].
  apply pr_reads_one. change [ex_p1] with ([] ++ [ex_p1]).
  rewrite (pr_skip_ideal (IsPID 17) (IsPID 256) ex_src [] ex_p1 [] [] 4 5 (ok_IsPID _) (ok_IsPID _)).
  - reflexivity.
  - reflexivity.
  - wfs.
  - apply Forall_nil.
  - apply Forall_nil.
  - reflexivity.
  - reflexivity.
  - cbn; lia.
Qed.
(** Without a match the first Read does not return, however long one waits. *)
Theorem C12_terminates_refuted : forall w t r ps fuel n, tester_ok t -> rlater r = [] ->
  Forall wf_sp ps -> Forall (fun s => t (go_packet s) = false) ps -> t zero_packet = false ->
  fst (pr_read fuel n (pr_skip_until t (new_preader (setb r (enc_sps ps)) w))) = OutOfFuel.
Proof. exact pr_skip_hang. Qed.
Example C12_hyp : tester_ok (IsPID 300) /\ Forall wf_sp [ex_p1; ex_p2; ex_p3; ex_p4] /\
  Forall (fun s => IsPID 300 (go_packet s) = false) [ex_p1; ex_p2; ex_p3; ex_p4] /\
  IsPID 300 zero_packet = false /\
  Forall (fun s => IsPID 17 (go_packet s) = false) [ex_p1; ex_p2] /\ IsPID 17 (go_packet ex_p3) = true.
Proof. split; [apply ok_IsPID|]. split; [apply ex_wf|]. repeat constructor. Qed.

(** ** C13 *)
(** [complete_units w ps] (TsReaders): the accepted packets from one start indicator to the next. *)
Theorem C13_unit_reader : forall w r ps sizes fuel, tester_ok w -> rlater r = [] ->
  Forall wf_sp ps ->
  Forall (fun s => w (go_packet s) = true -> has_payload s = true) ps ->
  (length ps < fuel)%nat ->
  ur_reads fuel sizes (new_ureader (setb r (enc_sps ps)) w) =
  map Ok (unit_reads (rfin r) sizes None (complete_units w ps)).
Proof. intros. now apply ur_ideal. Qed.
(** The bytes between EOPs are the units, in order. *)
Theorem C13_between_eop : forall w r ps sizes fuel, tester_ok w -> rlater r = [] -> rfin r <> EOP ->
  Forall wf_sp ps ->
  Forall (fun s => w (go_packet s) = true -> has_payload s = true) ps ->
  (length ps < fuel)%nat ->
  exists outs k, ur_reads fuel sizes (new_ureader (setb r (enc_sps ps)) w) = map Ok outs /\
    split_eop [] outs = firstn k (complete_units w ps).
Proof.
  intros. eexists.
  destruct (unit_split (rfin r) sizes None (complete_units w ps) []) as [k Hk]; auto.
  exists k. split; [now apply ur_ideal | exact Hk].
Qed.
(** What the units are: a stream of dropped packets, then for each unit a start packet and followers. *)
Lemma units_from_app : forall w fs cur rest, Forall (fun s => starts w s = false) fs ->
  units_from w cur (fs ++ rest) = units_from w (cur ++ payloads w fs) rest.
Proof.
  intros w. induction fs as [|f fs IH]; intros cur rest H; cbn [app].
  - now rewrite app_nil_r.
  - inversion H; subst. cbn [units_from]. rewrite H2, IH by auto. rewrite payloads_cons.
    destruct (accepted w f); [|reflexivity]. now rewrite app_assoc.
Qed.
Definition flat_group (g : spacket * list spacket) : list spacket := fst g :: snd g.
Definition group_ok (w : tester) (g : spacket * list spacket) : Prop :=
  w (go_packet (fst g)) = true /\ sp_pusi (fst g) = true /\
  Forall (fun s => (w (go_packet s) && sp_pusi s)%bool = false) (snd g).
Definition group_payload (w : tester) (g : spacket * list spacket) : list Z :=
  concat (map sp_payload (filter (fun s => w (go_packet s)) (flat_group g))).
Lemma units_groups : forall w gs cur, Forall (group_ok w) gs ->
  units_from w cur (concat (map flat_group gs)) = cur :: map (group_payload w) gs.
Proof.
  intros w. induction gs as [|[s fs] gs IH]; intros cur H; [reflexivity|].
  apply Forall_cons_iff in H. destruct H as [(H1 & H2 & H3) H4]. cbn [fst snd] in *.
  cbn [map concat]. unfold flat_group at 1. cbn [fst snd].
  rewrite <- app_comm_cons. cbn [units_from]. unfold starts, accepted. rewrite H1, H2. cbn [andb].
  rewrite units_from_app by exact H3. rewrite IH by auto. f_equal. f_equal.
  unfold group_payload, flat_group. cbn [fst snd filter]. rewrite H1. reflexivity.
Qed.
Theorem C13_units_are : forall w pre gs, Forall (fun s => (w (go_packet s) && sp_pusi s)%bool = false) pre ->
  Forall (group_ok w) gs ->
  complete_units w (pre ++ concat (map flat_group gs)) = removelast (map (group_payload w) gs).
Proof.
  intros w pre gs Hp Hg. unfold complete_units. f_equal.
  induction pre as [|s pre IH].
  - cbn [app]. destruct gs as [|[s fs] gs]; [reflexivity|].
    apply Forall_cons_iff in Hg. destruct Hg as [(H1 & H2 & H3) H4]. cbn [fst snd] in *.
    cbn [map concat]. unfold flat_group at 1. cbn [fst snd].
    rewrite <- app_comm_cons. cbn [units]. unfold starts, accepted. rewrite H1, H2. cbn [andb].
    rewrite units_from_app by exact H3. rewrite units_groups by auto. f_equal.
    unfold group_payload, flat_group. cbn [fst snd filter]. rewrite H1. reflexivity.
  - inversion Hp as [|? ? Hs Hps]; subst. cbn [app units]. unfold starts, accepted. rewrite Hs. auto.
Qed.
Example C13_hyp : Forall wf_sp [ex_p1; ex_p2; ex_p3; ex_p4] /\
  Forall (group_ok (IsPID 256)) [(ex_p1, [ex_p2; ex_p3]); (ex_p4, [])] /\
  complete_units (IsPID 256) [ex_p1; ex_p2; ex_p3; ex_p4] = [sp_payload ex_p1 ++ sp_payload ex_p2].
Proof. split; [apply ex_wf|]. split; [repeat constructor | reflexivity]. Qed.

(** ** C14: refuted *)
(** Whatever the reads, the last unit is never delivered: there are at most (number of units - 1) EOPs. *)
Theorem C14_last_unit_refuted : forall w r pre gs g sizes fuel, tester_ok w -> rlater r = [] -> rfin r <> EOP ->
  Forall (fun s => (w (go_packet s) && sp_pusi s)%bool = false) pre ->
  Forall (group_ok w) (gs ++ [g]) ->
  Forall wf_sp (pre ++ concat (map flat_group (gs ++ [g]))) ->
  Forall (fun s => w (go_packet s) = true -> has_payload s = true) (pre ++ concat (map flat_group (gs ++ [g]))) ->
  (length (pre ++ concat (map flat_group (gs ++ [g]))) < fuel)%nat ->
  exists outs k, ur_reads fuel sizes (new_ureader (setb r (enc_sps (pre ++ concat (map flat_group (gs ++ [g]))))) w)
    = map Ok outs /\ split_eop [] outs = firstn k (map (group_payload w) gs).
Proof.
  intros w r pre gs g sizes fuel Hw Hr He Hp Hg Hwf Hc Hf.
  destruct (C13_between_eop w r _ sizes fuel Hw Hr He Hwf Hc Hf) as (outs & k & E1 & E2).
  exists outs, k. split; auto. rewrite E2. rewrite C13_units_are by auto.
  rewrite map_app. cbn [map]. now rewrite removelast_last.
Qed.
(** A stream of one unit: nothing but the end of input is ever delivered. *)
Theorem C14_refuted : forall sizes, 
  ur_reads 3 sizes (new_ureader (setb ex_src (enc_sps [ex_p1; ex_p2])) (IsPID 256)) =
  map (fun _ => Ok ([], Some EEOF)) sizes.
Proof.
  intro sizes. rewrite (ur_ideal (IsPID 256) ex_src [ex_p1; ex_p2] sizes 3).
  - change (complete_units (IsPID 256) [ex_p1; ex_p2]) with (@nil (list Z)).
    induction sizes as [|n t IH]; [reflexivity|]. cbn [unit_reads unit_read map]. f_equal. exact IH.
  - apply ok_IsPID.
  - reflexivity.
  - wfs.
  - repeat constructor.
  - cbn; lia.
Qed.

Print Assumptions C01_payload_packet.
Print Assumptions C05_cut_is_error.
Print Assumptions C10_payload_reader.
Print Assumptions C11_take_while.
Print Assumptions C13_unit_reader.
Print Assumptions C14_refuted.
