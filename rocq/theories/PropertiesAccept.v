(** PropertiesAccept: C94 (what pes.Packet.Next accepts), C95 (what NewPackHeader accepts), C96 (what ts.Packet.Next accepts). *)
From Verif Require Import Base BitReader Exec Local TsLocal TsRobust Mono After PesModel SpecPes SpecIO PesProofs PesLocal PropertiesPes
  PsModel SpecPs PsProofs PropertiesPs SpecAccept AcceptProofs TsModel SpecTs TsProofs PropertiesTs SpecAcceptTs AcceptTs.

Lemma after_left : forall r c r', after r c r' -> r' = setb r (rbits r').
Proof. intros r c r' ->. rewrite setb_setb. symmetry. apply setb_rbits. Qed.

(** ** C94: PES packets are accepted only from data that follows the syntax, but for one deviation *)

(** The header fields with PTS_DTS_flags '01' *)
Definition head_holds_01 (h : shead) (g : pheader) : Prop :=
  ph_scrambling g = sh_scrambling h /\ ph_priority g = sh_priority h /\ ph_alignment g = sh_alignment h /\
  ph_copyright g = sh_copyright h /\ ph_original g = sh_original h /\ ph_ptsdts g = 1 /\ ph_pts g = 0 /\ ph_dts g = 0 /\
  ph_escr g = false /\ ph_esrate g = false /\ ph_dsm g = false /\ ph_copyinfo g = false /\ ph_crc g = false /\
  ph_extflag g = present (sh_ext h) /\ ph_datalen g = data_len h /\
  match sh_ext h with Some x => exists e, ph_ext g = Some e /\ xt_holds x e | None => ph_ext g = None end.
Lemma go_head_01_holds : forall h, head_holds_01 h (go_head_01 h).
Proof.
  intro h. unfold head_holds_01, go_head_01. cbn. do 15 (split; [reflexivity|]).
  destruct (sh_ext h) as [x|]; [|reflexivity]. eexists. split; [reflexivity|]. apply go_xt_holds.
Qed.
(** The Packet [p'] is the packet [s]. *)
Definition pes_is (s : spes) (p' : ppacket) : Prop :=
  pp_id p' = se_id s /\ pp_length p' = se_len s /\ pp_payload p' = se_payload s /\
  exists g, pp_header p' = Some g /\ head_holds (se_head s) g /\ stamps_hold (fun t => t mod 2 ^ 32) (sh_stamps (se_head s)) g.
(** Whatever Next accepts begins with a packet of the syntax; the source is left behind it:
    - a packet with a header and a length; - one without a length, up to the end of the unit; - a padding packet;
    - a packet of the other ids that have no header, of which the six first bytes are read;
    - or one of the first two with the forbidden PTS_DTS_flags '01', taken as without time stamps. *)
Theorem C94_accepted_partial : forall p r u p' r', Z.of_nat (length (rbits r)) < 8 * (2 ^ 32 - 65536) ->
  pes_next (p, r) = (Ok u, (p', r')) ->
  (exists s, wf_pes s /\ rbits r = enc_pes s ++ rbits r' /\ r' = setb r (rbits r') /\ pes_is s p') \/
  (exists id h d t g, carries_header id /\ wf_head h /\ bytes d /\ (length t < 8)%nat /\ rbits r = enc_open id h d ++ t /\
     (rfin r = EEOF \/ rfin r = EOP) /\ r' = advance r /\ pp_id p' = id /\ pp_length p' = 0 /\ pp_payload p' = d /\
     pp_header p' = Some g /\ head_holds h g /\ stamps_hold (fun t => t mod 2 ^ 32) (sh_stamps h) g) \/
  (exists d, bytes d /\ rbits r = enc_padding d ++ rbits r' /\ r' = setb r (rbits r') /\ pp_id p' = 190 /\ pp_length p' = blen d /\
     pp_header p' = pp_header p /\ pp_payload p' = pp_payload p) \/
  (exists id len, In id headerless /\ id <> 190 /\ 0 <= len < 2 ^ 16 /\ rbits r = enc_start id len ++ rbits r' /\ r' = setb r (rbits r') /\
     pp_id p' = id /\ pp_length p' = len /\ pp_header p' = pp_header p /\ pp_payload p' = pp_payload p) \/
  (exists id len h g, carries_header id /\ 0 <= len < 2 ^ 16 /\ wf_head h /\ sh_stamps h = NoStamp /\ bytes (pp_payload p') /\
     pp_id p' = id /\ pp_length p' = len /\ pp_header p' = Some g /\ head_holds_01 h g /\
     (len = 3 + data_len h + blen (pp_payload p') /\ rbits r = enc_start id len ++ enc_head_01 h ++ bb (pp_payload p') ++ rbits r' /\ r' = setb r (rbits r') \/
      len = 0 /\ (rfin r = EEOF \/ rfin r = EOP) /\ r' = advance r /\
        exists t, (length t < 8)%nat /\ rbits r = enc_start id len ++ enc_head_01 h ++ bb (pp_payload p') ++ t)).
Proof.
  intros p r u p' r' HL H. apply pes_after in H; [|exact HL]. destruct H as (id & len & Bi & Bl & Hi & Hn & [(C & h & c & g & Wh & [(Ec & Eg)|(Es & Ec & Eg)] & Hg & Bp & [(Lp & Ql & A)|(Lz & F & Ra & t & Lt & Q)])|[(Hp & d & Bd & Ld & A & K1 & K2)|(Hh & Np & A & K1 & K2)]]).
  - left. exists (mkSpes id h (pp_payload p')). split; [|split; [|split]].
    + split; [exact C|]. split; [exact Wh|]. split; [exact Bp|]. unfold se_len. cbn [se_head se_payload]. lia.
    + rewrite (after_bits _ _ _ A), Ec, Ql. unfold enc_pes, se_len. cbn [se_id se_head se_payload]. rewrite <- !app_assoc. reflexivity.
    + exact (after_left _ _ _ A).
    + split; [exact Hi|]. split; [unfold se_len; cbn [se_head se_payload]; lia|]. split; [reflexivity|]. exists g. split; [exact Hg|]. subst g. split; [apply go_head_holds | apply go_stamps_hold].
  - right. left. exists id, h, (pp_payload p'), t, g. split; [exact C|]. split; [exact Wh|]. split; [exact Bp|]. split; [exact Lt|].
    split; [rewrite Q, Ec, Lz; unfold enc_open; rewrite <- !app_assoc; reflexivity|]. split; [exact F|]. split; [exact Ra|]. split; [exact Hi|]. split; [lia|]. split; [reflexivity|]. split; [exact Hg|]. subst g. split; [apply go_head_holds | apply go_stamps_hold].
  - do 4 right. exists id, len, h, g. subst g c. split; [exact C|]. split; [exact Bl|]. split; [exact Wh|]. split; [exact Es|]. split; [exact Bp|]. split; [exact Hi|]. split; [exact Hn|]. split; [exact Hg|]. split; [apply go_head_01_holds|].
    left. split; [exact Ql|]. split; [rewrite (after_bits _ _ _ A), <- !app_assoc; reflexivity|]. exact (after_left _ _ _ A).
  - do 4 right. exists id, len, h, g. subst g c. split; [exact C|]. split; [exact Bl|]. split; [exact Wh|]. split; [exact Es|]. split; [exact Bp|]. split; [exact Hi|]. split; [exact Hn|]. split; [exact Hg|]. split; [apply go_head_01_holds|].
    right. split; [exact Lz|]. split; [exact F|]. split; [exact Ra|]. exists t. auto.
  - right. right. left. exists d. split; [exact Bd|]. split; [exact (after_bits _ _ _ A)|]. split; [exact (after_left _ _ _ A)|]. split; [lia|]. split; [lia|]. auto.
  - right. right. right. left. exists id, len. split; [exact Hh|]. split; [exact Np|]. split; [exact Bl|]. split; [exact (after_bits _ _ _ A)|]. split; [exact (after_left _ _ _ A)|]. auto.
Qed.
(** The deviation: this packet has no meaning in the standard, and Next accepts it. *)
Definition ex_head_01 : shead := mkShead 0 false false false false NoStamp None 0.
Definition ex_01 : list bool := enc_start 224 5 ++ enc_head_01 ex_head_01 ++ bb [1; 2].
Theorem C94_refuted : (forall s l, wf_pes s -> ex_01 <> enc_pes s ++ l) /\ (forall id h d l, ex_01 <> enc_open id h d ++ l) /\
  exists p' g, pes_next (zero_pp, setb PropertiesPes.ex_reader ex_01) = (Ok tt, (p', setb PropertiesPes.ex_reader [])) /\
    pp_header p' = Some g /\ ph_ptsdts g = 1 /\ pp_payload p' = [1; 2].
Proof.
  assert (X : forall id len h l, firstn 2 (skipn 56 (enc_start id len ++ enc_head h ++ l)) = enc 2 (stamp_flags (sh_stamps h))).
  { intros. assert (L : length (enc_start id len ++ (enc 2 2 ++ enc 2 (sh_scrambling h) ++ bit (sh_priority h) ++ bit (sh_alignment h) ++ bit (sh_copyright h) ++ bit (sh_original h))) = 56%nat)
      by (unfold enc_start; rewrite !app_length, !enc_length; reflexivity).
    assert (E : exists m, enc_start id len ++ enc_head h ++ l = (enc_start id len ++ (enc 2 2 ++ enc 2 (sh_scrambling h) ++ bit (sh_priority h) ++ bit (sh_alignment h) ++ bit (sh_copyright h) ++ bit (sh_original h))) ++ enc 2 (stamp_flags (sh_stamps h)) ++ m)
      by (eexists; unfold enc_head; rewrite <- !app_assoc; reflexivity).
    destruct E as (m & ->).
    rewrite skipn_app_exact by exact L. apply firstn_app_exact. apply enc_length. }
  assert (Y : firstn 2 (skipn 56 ex_01) = enc 2 1) by (vm_compute; reflexivity).
  split; [|split].
  - intros s l _ E. rewrite E in Y. unfold enc_pes in Y. rewrite <- !app_assoc, X in Y. destruct (sh_stamps (se_head s)); discriminate Y.
  - intros id h d l E. rewrite E in Y. unfold enc_open in Y. rewrite <- !app_assoc, X in Y. destruct (sh_stamps h); discriminate Y.
  - eexists _, _. split; [vm_compute; reflexivity|]. split; [reflexivity|]. split; reflexivity.
Qed.
Example C94_hyp : exists p', pes_next (zero_pp, setb PropertiesPes.ex_reader (enc_pes ex_pes1)) = (Ok tt, (p', setb PropertiesPes.ex_reader [])) /\
  Z.of_nat (length (enc_pes ex_pes1)) < 8 * (2 ^ 32 - 65536).
Proof.
  eexists. split.
  - rewrite <- (app_nil_r (enc_pes ex_pes1)) at 1. apply pes_next_enc. apply PropertiesPes.ex_wf1.
  - rewrite (enc_pes_length ex_pes1 PropertiesPes.ex_wf1). vm_compute. reflexivity.
Qed.
Print Assumptions C94_accepted_partial.
Print Assumptions C94_refuted.

(** ** C95: pack headers are accepted only from data that follows the syntax, but for header_length *)

(** All fields of the system header but the two bounds (C29) and the length *)
Definition sys_fields (s : ssys) (g : sysheader) : Prop :=
  sy_rate g = sm_rate s /\ sy_fixed g = sm_fixed s /\ sy_csps g = sm_csps s /\ sy_alock g = sm_alock s /\ sy_vlock g = sm_vlock s /\
  sy_restrict g = sm_restrict s /\ Forall2 stream_holds (sm_streams s) (sy_streams g).
Lemma go_sys_fields : forall len s, sys_fields s (go_sys_len len s).
Proof. intros len s. unfold sys_fields, go_sys_len. cbn. do 6 (split; [reflexivity|]). induction (sm_streams s); cbn; constructor; auto. repeat split. Qed.
Lemma enc_packhead_start : forall p, enc_packhead p = enc_pack_start p ++ match sk_sys p with Some s => enc_sys s | None => [] end.
Proof. intro p. unfold enc_packhead, enc_pack_start. rewrite <- !app_assoc. reflexivity. Qed.
(** [len]: the header_length of the system header, which only the size limits. *)
Theorem C95_accepted_partial : forall r g r', rlater r = [] -> new_pack_header r = (Ok g, r') ->
  exists p, wf_packhead (mkSpack (sk_base p) (sk_ext p) (sk_rate p) (sk_reserved p) (sk_stuffing p) None) /\ bytes (sk_stuffing p) /\
    pk_base g = sk_base p mod 2 ^ 32 /\ pk_ext g = sk_ext p /\ pk_rate g = sk_rate p /\ r' = setb r (rbits r') /\
    match sk_sys p with
    | None => pk_system g = None /\ rbits r = enc_packhead p ++ rbits r' /\ exists v t, v <> 443 /\ 0 <= v < 2 ^ 32 /\ rbits r' = enc 32 v ++ t
    | Some s => exists t, pk_system g = Some t /\ sys_fields s t /\
        0 <= sm_rate s < 2 ^ 22 /\ 0 <= sm_audio s < 2 ^ 6 /\ 0 <= sm_video s < 2 ^ 5 /\ Forall wf_sstream (sm_streams s) /\
        0 <= sy_length t < 2 ^ 16 /\ rbits r = enc_pack_start p ++ enc_sys_len (sy_length t) s ++ rbits r' /\ exists q, rbits r' = false :: q
    end.
Proof.
  intros r g r' Hr H. apply pack_after in H; [|exact Hr]. destruct H as (p & (W1 & W2 & W3 & W4 & W5) & G1 & G2 & G3 & M). exists p.
  split; [unfold wf_packhead; cbn [sk_base sk_ext sk_rate sk_stuffing sk_sys]; auto|]. split; [exact W4|]. split; [exact G1|]. split; [exact G2|]. split; [exact G3|]. pose proof (enc_packhead_start p) as EP. destruct (sk_sys p) as [s|].
  - destruct M as (len & Bl & (V1 & V2 & V3 & V4) & A & Gs & Tl). split; [exact (after_left _ _ _ A)|]. exists (go_sys_len len s). split; [exact Gs|]. split; [apply go_sys_fields|]. cbn [go_sys_len sy_length].
    do 5 (split; [assumption|]). split; [rewrite (after_bits _ _ _ A), <- app_assoc; reflexivity | exact Tl].
  - destruct M as (A & Gs & X). split; [exact (after_left _ _ _ A)|]. split; [exact Gs|]. split; [|exact X]. rewrite EP, app_nil_r. exact (after_bits _ _ _ A).
Qed.
(** A header_length that agrees with the content makes it a pack header of the syntax. *)
Theorem C95_standard_partial : forall r g r', rlater r = [] -> new_pack_header r = (Ok g, r') ->
  match pk_system g with Some t => sy_length t = 6 + 3 * Z.of_nat (length (sy_streams t)) | None => True end ->
  exists p, wf_packhead p /\ rbits r = enc_packhead p ++ rbits r' /\ r' = setb r (rbits r') /\ pack_holds p g.
Proof.
  intros r g r' Hr H K. destruct (C95_accepted_partial r g r' Hr H) as (p & (W1 & W2 & W3 & W4 & _) & _ & G1 & G2 & G3 & R & M). exists p.
  unfold wf_packhead, pack_holds. cbn [sk_base sk_ext sk_rate sk_stuffing sk_sys] in *. pose proof (enc_packhead_start p) as EP. destruct (sk_sys p) as [s|].
  - destruct M as (t & Gs & F & V1 & V2 & V3 & V4 & Bl & Q & _). rewrite Gs in *. pose proof F as (F1 & F2 & F3 & F4 & F5 & F6 & F7).
    assert (L : length (sy_streams t) = length (sm_streams s)) by (symmetry; clear - F7; induction F7; cbn; congruence).
    assert (KL : sm_length s = sy_length t) by (rewrite K, L; reflexivity).
    split; [repeat apply conj; auto; try apply W1; try apply W2; try apply W3; try apply V1; try apply V2; try apply V3; lia|].
    split; [rewrite EP, Q, <- KL, <- app_assoc; reflexivity|]. split; [exact R|]. do 3 (split; [assumption|]). unfold sys_holds. rewrite <- L, K. auto 10.
  - destruct M as (Gs & Q & _). rewrite Gs. split; [auto|]. split; [exact Q|]. auto.
Qed.
(** The deviation: a header_length of 0 is accepted too. *)
Definition ex_sys_0 : list bool := enc_pack_start (fst ex_pack1) ++ enc_sys_len 0 ex_sys ++ enc 32 448.
Theorem C95_refuted : (forall p l, wf_packhead p -> sk_sys p <> None -> ex_sys_0 <> enc_packhead p ++ l) /\
  exists g t, new_pack_header (setb PropertiesPes.ex_reader ex_sys_0) = (Ok g, setb PropertiesPes.ex_reader (enc 32 448)) /\ pk_system g = Some t /\
    sy_length t = 0 /\ length (sy_streams t) = 2%nat.
Proof.
  split.
  - intros p l W N E. rewrite enc_packhead_start in E. unfold wf_packhead in W. destruct (sk_sys p) as [s|]; [|congruence]. destruct W as (_ & _ & _ & Lb & (_ & _ & _ & _ & Ls)).
    assert (S : length (sk_stuffing p) = 2%nat).
    { assert (X : exists m, enc_pack_start p = (enc 32 442 ++ enc 2 1 ++ enc 3 (sk_base p / 2 ^ 30) ++ bit true ++ enc 15 (sk_base p / 2 ^ 15) ++ bit true ++ enc 15 (sk_base p) ++ bit true ++ enc 9 (sk_ext p) ++ bit true ++ enc 22 (sk_rate p) ++ bit true ++ bit true ++ enc 5 (sk_reserved p)) ++ enc 3 (blen (sk_stuffing p)) ++ m)
        by (eexists; unfold enc_pack_start; rewrite <- !app_assoc; reflexivity).
      destruct X as (m & X). rewrite X, <- !app_assoc in E. apply (f_equal (fun l => dec (firstn 3 (skipn 109 l)))) in E. replace (dec (firstn 3 (skipn 109 ex_sys_0))) with 2 in E by (vm_compute; reflexivity).
      match type of E with _ = dec (firstn 3 (skipn 109 ?t)) => replace t with ((enc 32 442 ++ enc 2 1 ++ enc 3 (sk_base p / 2 ^ 30) ++ bit true ++ enc 15 (sk_base p / 2 ^ 15) ++ bit true ++ enc 15 (sk_base p) ++ bit true ++ enc 9 (sk_ext p) ++ bit true ++ enc 22 (sk_rate p) ++ bit true ++ bit true ++ enc 5 (sk_reserved p)) ++ enc 3 (blen (sk_stuffing p)) ++ m ++ enc_sys s ++ l) in E by (rewrite <- !app_assoc; reflexivity) end.
      rewrite skipn_app_exact in E by (rewrite !app_length, !enc_length; reflexivity). rewrite firstn_app_exact in E by apply enc_length. rewrite dec_enc in E by (unfold blen in *; lia). unfold blen in E. lia. }
    apply (f_equal (fun l => dec (firstn 16 (skipn (112 + 16 + 32) l)))) in E. replace (dec (firstn 16 (skipn (112 + 16 + 32) ex_sys_0))) with 0 in E by (vm_compute; reflexivity).
    assert (L : length (enc_pack_start p ++ enc 32 443) = (112 + 16 + 32)%nat) by (unfold enc_pack_start; rewrite !app_length, !enc_length, bb_length, S; reflexivity).
    unfold enc_sys in E. rewrite <- !app_assoc in E. rewrite (app_assoc (enc_pack_start p)) in E. rewrite skipn_app_exact in E by exact L.
    rewrite firstn_app_exact in E by apply enc_length. rewrite dec_enc in E by (unfold sm_length in *; lia). unfold sm_length in E. lia.
  - eexists _, _. split; [vm_compute; reflexivity|]. split; [reflexivity|]. split; reflexivity.
Qed.
Example C95_hyp : exists g, rlater (setb PropertiesPes.ex_reader (enc_packhead (fst ex_pack1) ++ enc 32 448)) = [] /\
  new_pack_header (setb PropertiesPes.ex_reader (enc_packhead (fst ex_pack1) ++ enc 32 448)) = (Ok g, setb PropertiesPes.ex_reader (enc 32 448)) /\
  match pk_system g with Some t => sy_length t = 6 + 3 * Z.of_nat (length (sy_streams t)) /\ length (sy_streams t) = 2%nat | None => False end.
Proof. eexists. split; [reflexivity|]. split; [vm_compute; reflexivity|]. split; reflexivity. Qed.
Print Assumptions C95_accepted_partial.
Print Assumptions C95_standard_partial.
Print Assumptions C95_refuted.

(** ** C96: transport packets are accepted only from data that follows the syntax, but for the deviations named here *)

(** The Go AdaptationExt and AdaptationField hold what was read. *)
Definition rext_is (x : rext) (g : aext) : Prop :=
  ae_length g = re_length x /\ ae_ltw_flag g = re_f1 x /\ ae_pwr_flag g = re_f2 x /\ ae_splice_flag g = re_f3 x /\
  match re_ltw x with Some (v, o) => ae_ltw_valid g = v /\ ae_ltw_offset g = o | None => ae_ltw_valid g = false /\ ae_ltw_offset g = 0 end /\
  match re_pwr x with Some (_, v) => ae_pwr g = v | None => ae_pwr g = 0 end /\
  match re_seamless x with Some (t, (a, _, b, _, c)) => ae_splice_type g = t /\ ae_dts_next g = a * 2 ^ 30 + b * 2 ^ 15 + c | None => ae_splice_type g = 0 /\ ae_dts_next g = 0 end.
Definition rfield_is (f : rfield) (g : afield) : Prop :=
  af_length g = rf_length f /\ af_disc g = rf_disc f /\ af_random g = rf_random f /\ af_esprio g = rf_esprio f /\
  af_pcr_flag g = rf_f1 f /\ af_opcr_flag g = rf_f2 f /\ af_splice_flag g = rf_f3 f /\ af_tpd_flag g = rf_f4 f /\ af_ext_flag g = rf_f5 f /\
  match rf_pcr f with Some c => af_pcr g = pcr_base c * 300 + pcr_ext c | None => af_pcr g = 0 end /\
  match rf_opcr f with Some c => af_opcr g = pcr_base c * 300 + pcr_ext c | None => af_opcr g = 0 end /\
  match rf_splice f with Some c => af_splice g = c | None => af_splice g = 0 end /\
  match rf_private f with Some d => exists t, af_tpd g = Some t /\ tpd_length t = blen d /\ tpd_data t = d | None => af_tpd g = None end /\
  match rf_ext f with Some x => exists e, af_ext g = Some e /\ rext_is x e | None => af_ext g = None end /\
  af_junk g = rf_stuffing f.
Lemma holds_is : forall f g, rfield_holds f g -> rfield_is f g.
Proof.
  intros f g (H1 & H2 & H3 & H4 & H5 & H6 & H7 & H8 & H9 & H10 & H11 & H12 & H13 & H14 & H15). unfold rfield_is. do 9 (split; [assumption|]).
  split; [destruct (rf_pcr f); exact H10|]. split; [destruct (rf_opcr f); exact H11|]. split; [destruct (rf_splice f); exact H12|].
  split. { unfold tpd_holds in H13. destruct (rf_private f), (af_tpd g); try contradiction; eauto. }
  split; [|exact H15]. unfold ext_holds in H14. destruct (rf_ext f) as [x|], (af_ext g) as [e|]; try contradiction; auto. exists e. split; [reflexivity|]. destruct H14 as (K1 & K2 & K3 & K4 & K5 & K6 & K7 & K8 & K9).
  unfold rext_is. do 4 (split; [assumption|]). split; [destruct (re_ltw x) as [[]|]; auto|]. split; [destruct (re_pwr x) as [[]|]; auto|]. destruct (re_seamless x) as [[? [[[[] ?] ?] ?]]|]; auto.
Qed.
(** The header in front of everything *)
Definition header_bits (p : packet) : list bool :=
  enc 8 71 ++ bit (pk_tei p) ++ bit (pk_pusi p) ++ bit (pk_prio p) ++ enc 13 (pk_pid p) ++ enc 2 (pk_tsc p) ++ enc 2 (pk_afc p) ++ enc 4 (pk_cc p).
(** [al]: the rest of a byte when the source is not aligned; [junk]: the bytes before the sync byte; [body]: what is read
    after the header, for each adaptation_field_control. *)
Theorem C96_accepted_partial : forall p r u p' r', Z.of_nat (length (rbits r)) < 8 * (2 ^ 32 - 1024) -> rlater r = [] ->
  packet_next (p, r) = (Ok u, (p', r')) ->
  exists al junk body, length al = (length (rbits r) mod 8)%nat /\ bytes junk /\ (length junk < 188)%nat /\ ~ In 71 junk /\
    rbits r = al ++ bb junk ++ header_bits p' ++ body ++ rbits r' /\ r' = setb r (rbits r') /\
    0 <= pk_pid p' < 2 ^ 13 /\ 0 <= pk_tsc p' < 2 ^ 2 /\ 0 <= pk_cc p' < 2 ^ 4 /\
    ((pk_afc p' = 0 /\ body = [] /\ pk_af p' = pk_af p /\ pk_payload p' = pk_payload p) \/
     (pk_afc p' = 1 /\ body = bb (pk_payload p') /\ bytes (pk_payload p') /\ blen (pk_payload p') = 184 /\ pk_af p' = pk_af p) \/
     (pk_afc p' = 2 /\ exists f g, wf_rfield f /\ body = enc_rfield f /\ pk_af p' = Some g /\ rfield_is f g /\ pk_payload p' = pk_payload p) \/
     (pk_afc p' = 3 /\ exists f g, wf_rfield f /\ body = enc_rfield f ++ bb (pk_payload p') /\ pk_af p' = Some g /\ rfield_is f g /\
        bytes (pk_payload p') /\ rf_length f + 1 + blen (pk_payload p') = 184)).
Proof.
  intros p r u p' r' HS Hr H. apply packet_after in H; [|assumption..]. destruct H as (al & junk & body & La & Bj & Lj & NI & (R1 & R2 & _ & R3) & A & M). exists al, junk, body.
  do 4 (split; [assumption|]). split; [rewrite (after_bits _ _ _ A), <- !app_assoc; unfold header_bits, sp_bits; rewrite <- !app_assoc; reflexivity|]. split; [exact (after_left _ _ _ A)|]. do 3 (split; [assumption|]).
  destruct M as [M|[M|[(E & f & g & W & Q & G & F & P)|(E & f & g & W & Q & G & F & P)]]]; [auto|auto|right; right; left|right; right; right]; split; auto; exists f, g; repeat (split; [assumption|]); (split; [apply holds_is; exact F|]); assumption.
Qed.

(** A regular field is an adaptation field of the syntax. *)
Definition ext_of (x : rext) : sext := mkSExt (re_ltw x) (re_pwr x) None (re_reserved x) [].
Definition saf_of (f : rfield) : saf :=
  if rf_length f =? 0 then AFEmpty
  else AFBody (mkSBody (rf_disc f) (rf_random f) (rf_esprio f) (rf_pcr f) (rf_opcr f) (rf_splice f) (rf_private f)
    (match rf_ext f with Some x => Some (ext_of x) | None => None end) (rf_stuffing f)).
Lemma none_of : forall A (o : option A), is_some o = false -> o = None.
Proof. intros A [a|]; [discriminate | reflexivity]. Qed.
Lemma ext_of_len : forall x, 1 <= re_length x -> re_left3 x = 0 -> sext_len (ext_of x) = re_length x.
Proof.
  intros x H1 H2. unfold re_left3, re_left2, re_left1 in H2. destruct (Z.leb_spec 1 (re_length x)); [|lia]. unfold sext_len, ext_of. cbn [sx_ltw sx_pwr sx_seamless sx_reserved olen blen length]. unfold blen. cbn [length]. lia.
Qed.
Lemma regular_saf : forall f, wf_rfield f -> regular f ->
  wf_saf (saf_of f) /\ plain_ext (saf_of f) /\ enc_saf (saf_of f) = enc_rfield f /\ saf_len (saf_of f) = rf_length f /\ forall g, rfield_is f g -> field_is (saf_of f) g.
Proof.
  intros f (W1 & W2 & W3 & W4 & W5 & W6 & W7 & W8 & W9 & W10 & W11 & W12 & W13 & W14) (R1 & R2 & R3 & R4 & R5 & R6). unfold saf_of. destruct (Z.eqb_spec (rf_length f) 0) as [Z0|NZ].
  - destruct (W2 Z0) as (D1 & D2 & D3 & D4 & D5 & D6 & D7 & D8). unfold rf_left5, rf_left4, rf_left3, rf_left2, rf_left1 in W14. rewrite Z0 in W14. cbn [Z.leb Z.compare] in W14.
    rewrite D4 in *. rewrite D5 in *. rewrite D6 in *. rewrite D7 in *. rewrite D8 in *. apply none_of in R1, R2, R3, R4, R5. rewrite R1, R2, R3, R4, R5 in W14. cbn [olen priv_len rext_len] in W14.
    assert (J : rf_stuffing f = []) by (destruct (rf_stuffing f); [reflexivity | unfold blen in W14; cbn [length] in W14; lia]).
    split; [exact I|]. split; [exact I|]. split; [unfold enc_saf, enc_rfield; rewrite R1, R2, R3, R4, R5, J, Z0; reflexivity|]. split; [symmetry; exact Z0|].
    intros g (H1 & H2 & H3 & H4 & H5 & H6 & H7 & H8 & H9 & H10 & H11 & H12 & H13 & H14 & H15). rewrite R4 in H13. rewrite R5 in H14. unfold field_is. cbn [saf_len]. rewrite J in H15. repeat (split; [congruence|]). congruence.
  - assert (L1 : rf_left1 f = rf_length f - 1) by (unfold rf_left1; destruct (Z.leb_spec 1 (rf_length f)); lia).
    assert (XL : extn_len (match rf_ext f with Some x => Some (ext_of x) | None => None end) = rext_len (rf_ext f)) by (destruct (rf_ext f) as [x|]; [|reflexivity]; cbn [extn_len rext_len]; rewrite ext_of_len; [reflexivity | apply R6 | apply R6]).
    assert (SL : saf_len (AFBody (mkSBody (rf_disc f) (rf_random f) (rf_esprio f) (rf_pcr f) (rf_opcr f) (rf_splice f) (rf_private f) (match rf_ext f with Some x => Some (ext_of x) | None => None end) (rf_stuffing f))) = rf_length f)
      by (cbn [saf_len sa_pcr sa_opcr sa_splice sa_private sa_ext sa_stuffing]; rewrite XL; unfold rf_left5, rf_left4, rf_left3, rf_left2 in W14; lia).
    split; [|split; [|split; [|split]]].
    + unfold wf_saf. cbn [sa_pcr sa_opcr sa_splice sa_private sa_ext sa_stuffing]. do 3 (split; [assumption|]). split; [destruct (rf_private f); [apply W11 | exact I]|]. split; [|split; [exact W13 | rewrite SL; lia]].
      destruct (rf_ext f) as [x|]; [|exact I]. destruct W12 as (V1 & _ & V3 & _ & _ & _ & V7 & V8 & _). unfold wf_sext, ext_of. cbn [sx_ltw sx_pwr sx_seamless sx_reserved5 sx_reserved]. split; [exact V7|]. split; [exact V8|]. split; [exact I|]. split; [exact V3 | constructor].
    + unfold plain_ext. cbn [sa_ext]. destruct (rf_ext f); [split; reflexivity | exact I].
    + unfold enc_saf. rewrite SL. unfold enc_rfield. cbn [sa_disc sa_random sa_esprio sa_pcr sa_opcr sa_splice sa_private sa_ext sa_stuffing]. rewrite R1, R2, R3, R4. replace (is_some (match rf_ext f with Some x => Some (ext_of x) | None => None end)) with (rf_f5 f) by (rewrite <- R5; destruct (rf_ext f); reflexivity).
      destruct (Z.leb_spec 1 (rf_length f)); [|lia]. rewrite <- !app_assoc. repeat apply (f_equal2 (@app bool)); auto.
      destruct (rf_ext f) as [x|]; [|reflexivity]. destruct R6 as (X1 & X2 & X3 & X4 & X5). unfold enc_sext. rewrite ext_of_len by assumption. unfold enc_rext, ext_of. cbn [sx_ltw sx_pwr sx_seamless sx_reserved5 sx_reserved].
      destruct W12 as (_ & _ & _ & _ & _ & V6 & _). rewrite X4 in V6. unfold fits in V6. cbn [andb] in V6. apply none_of in V6. rewrite V6, X2, X3, X4. destruct (Z.leb_spec 1 (re_length x)); [|lia]. cbn [is_some bb flat_map]. rewrite <- !app_assoc. reflexivity.
    + exact SL.
    + intros g (H1 & H2 & H3 & H4 & H5 & H6 & H7 & H8 & H9 & H10 & H11 & H12 & H13 & H14 & H15). unfold field_is. rewrite SL. cbn [sa_disc sa_random sa_esprio sa_pcr sa_opcr sa_splice sa_private sa_ext sa_stuffing].
      split; [exact H1|]. split; [exact H2|]. split; [exact H3|]. split; [exact H4|]. split; [congruence|]. split; [congruence|]. split; [congruence|]. split; [congruence|]. split; [destruct (rf_ext f); cbn [is_some] in *; congruence|].
      split; [destruct (rf_pcr f); [exact H10 | exact I]|]. split; [destruct (rf_opcr f); [exact H11 | exact I]|]. split; [destruct (rf_splice f); [exact H12 | exact I]|]. split; [exact H13|]. split; [|exact H15].
      destruct (rf_ext f) as [x|]; [|exact H14]. destruct H14 as (e & He & (K1 & K2 & K3 & K4 & K5 & K6 & K7)). exists e. split; [exact He|]. destruct R6 as (X1 & X2 & X3 & X4 & X5). unfold ext_is. rewrite ext_of_len by assumption. unfold ext_of. cbn [sx_ltw sx_pwr sx_seamless sx_reserved5 sx_reserved is_some].
      split; [exact K1|]. split; [congruence|]. split; [congruence|]. split; [congruence|]. split; [destruct (re_ltw x) as [[]|]; [exact K5 | exact I]|]. split; [destruct (re_pwr x) as [[]|]; [exact K6 | exact I]|]. exact I.
Qed.

(** Next accepts a packet of the syntax, or: adaptation_field_control 0; an adaptation field with a part that is announced
    and does not fit, a seamless splice, or reserved bytes in the extension; a field without payload that is not 183 bytes long. *)
Theorem C96_standard_partial : forall p r u p' r', Z.of_nat (length (rbits r)) < 8 * (2 ^ 32 - 1024) -> rlater r = [] ->
  packet_next (p, r) = (Ok u, (p', r')) ->
  (exists al junk s, length al = (length (rbits r) mod 8)%nat /\ bytes junk /\ (length junk < 188)%nat /\ ~ In 71 junk /\
     wf_sp s /\ rbits r = al ++ bb junk ++ enc_sp s ++ rbits r' /\ r' = setb r (rbits r') /\ header_is s p' /\
     match sp_content s with
     | SPayload d => pk_payload p' = d
     | SField a => exists g, pk_af p' = Some g /\ field_is a g
     | SFieldPayload a d => pk_payload p' = d /\ exists g, pk_af p' = Some g /\ field_is a g
     end) \/
  pk_afc p' = 0 \/
  exists f g, wf_rfield f /\ pk_af p' = Some g /\ rfield_is f g /\ (~ regular f \/ pk_afc p' = 2 /\ rf_length f <> 183).
Proof.
  intros p r u p' r' HS Hr H. destruct (C96_accepted_partial p r u p' r' HS Hr H) as (al & junk & body & La & Bj & Lj & NI & Q & R & R1 & R2 & R3 & M).
  assert (HH : forall c, sp_afc (mkSP (pk_tei p') (pk_pusi p') (pk_prio p') (pk_pid p') (pk_tsc p') (pk_cc p') c) = pk_afc p' -> header_is (mkSP (pk_tei p') (pk_pusi p') (pk_prio p') (pk_pid p') (pk_tsc p') (pk_cc p') c) p')
    by (intros c Hc; unfold header_is; rewrite Hc; cbn [sp_tei sp_pusi sp_prio sp_pid sp_tsc sp_cc]; auto 10).
  destruct M as [(M & _)|[(M & Qb & B & L & _)|[(M & f & g & W & Qb & G & F & _)|(M & f & g & W & Qb & G & F & B & L)]]].
  - right. left. exact M.
  - left. exists al, junk, (mkSP (pk_tei p') (pk_pusi p') (pk_prio p') (pk_pid p') (pk_tsc p') (pk_cc p') (SPayload (pk_payload p'))). do 4 (split; [assumption|]). split; [|split; [|split; [exact R|split]]].
    + unfold wf_sp. cbn [sp_pid sp_tsc sp_cc sp_content]. auto.
    + rewrite Q, Qb. unfold header_bits, enc_sp. unfold sp_afc. cbn [sp_tei sp_pusi sp_prio sp_pid sp_tsc sp_cc sp_content]. rewrite M, <- !app_assoc. reflexivity.
    + apply HH. rewrite M. reflexivity.
    + reflexivity.
  - assert (DR : regular f \/ ~ regular f).
    { unfold regular. assert (D : forall a b : bool, a = b \/ a <> b) by (intros [] []; auto; right; discriminate). destruct (D (is_some (rf_pcr f)) (rf_f1 f)); [|intuition]. destruct (D (is_some (rf_opcr f)) (rf_f2 f)); [|intuition]. destruct (D (is_some (rf_splice f)) (rf_f3 f)); [|intuition]. destruct (D (is_some (rf_private f)) (rf_f4 f)); [|intuition]. destruct (D (is_some (rf_ext f)) (rf_f5 f)); [|intuition].
      destruct (rf_ext f) as [x|]; [|auto 10]. destruct (Z_le_dec 1 (re_length x)); [|intuition]. destruct (D (is_some (re_ltw x)) (re_f1 x)); [|intuition]. destruct (D (is_some (re_pwr x)) (re_f2 x)); [|intuition]. destruct (D (re_f3 x) false); [|intuition]. destruct (Z.eq_dec (re_left3 x) 0); [|intuition]. auto 20. }
    destruct DR as [DR|DR]; [|right; right; exists f, g; auto]. destruct (Z.eq_dec (rf_length f) 183) as [L|L]; [|right; right; exists f, g; auto 10].
    destruct (regular_saf f W DR) as (S1 & S2 & S3 & S4 & S5). left. exists al, junk, (mkSP (pk_tei p') (pk_pusi p') (pk_prio p') (pk_pid p') (pk_tsc p') (pk_cc p') (SField (saf_of f))). do 4 (split; [assumption|]). split; [|split; [|split; [exact R|split]]].
    + unfold wf_sp. cbn [sp_pid sp_tsc sp_cc sp_content]. rewrite S4. auto 10.
    + rewrite Q, Qb. unfold header_bits, enc_sp. unfold sp_afc. cbn [sp_tei sp_pusi sp_prio sp_pid sp_tsc sp_cc sp_content]. rewrite M, S3, <- !app_assoc. reflexivity.
    + apply HH. rewrite M. reflexivity.
    + cbn [sp_content]. exists g. split; [exact G | apply S5; exact F].
  - assert (DR : regular f \/ ~ regular f).
    { unfold regular. assert (D : forall a b : bool, a = b \/ a <> b) by (intros [] []; auto; right; discriminate). destruct (D (is_some (rf_pcr f)) (rf_f1 f)); [|intuition]. destruct (D (is_some (rf_opcr f)) (rf_f2 f)); [|intuition]. destruct (D (is_some (rf_splice f)) (rf_f3 f)); [|intuition]. destruct (D (is_some (rf_private f)) (rf_f4 f)); [|intuition]. destruct (D (is_some (rf_ext f)) (rf_f5 f)); [|intuition].
      destruct (rf_ext f) as [x|]; [|auto 10]. destruct (Z_le_dec 1 (re_length x)); [|intuition]. destruct (D (is_some (re_ltw x)) (re_f1 x)); [|intuition]. destruct (D (is_some (re_pwr x)) (re_f2 x)); [|intuition]. destruct (D (re_f3 x) false); [|intuition]. destruct (Z.eq_dec (re_left3 x) 0); [|intuition]. auto 20. }
    destruct DR as [DR|DR]; [|right; right; exists f, g; auto].
    destruct (regular_saf f W DR) as (S1 & S2 & S3 & S4 & S5). left. exists al, junk, (mkSP (pk_tei p') (pk_pusi p') (pk_prio p') (pk_pid p') (pk_tsc p') (pk_cc p') (SFieldPayload (saf_of f) (pk_payload p'))). do 4 (split; [assumption|]). split; [|split; [|split; [exact R|split]]].
    + unfold wf_sp. cbn [sp_pid sp_tsc sp_cc sp_content]. rewrite S4. auto 10.
    + rewrite Q, Qb. unfold header_bits, enc_sp. unfold sp_afc. cbn [sp_tei sp_pusi sp_prio sp_pid sp_tsc sp_cc sp_content]. rewrite M, S3, <- !app_assoc. reflexivity.
    + apply HH. rewrite M. reflexivity.
    + cbn [sp_content]. split; [reflexivity|]. exists g. split; [exact G | apply S5; exact F].
Qed.
Lemma olen_pos : forall A (o : option A) n, 0 <= n -> 0 <= olen o n.
Proof. intros A [a|] n H; cbn [olen]; lia. Qed.
Lemma priv_pos : forall o, 0 <= priv_len o.
Proof. intros [d|]; cbn [priv_len]; unfold blen; lia. Qed.
Lemma extn_pos : forall o, 0 <= extn_len o.
Proof.
  intros [x|]; cbn [extn_len]; [|lia]. unfold sext_len, blen. pose proof (olen_pos _ (sx_ltw x) 2). pose proof (olen_pos _ (sx_pwr x) 3). pose proof (olen_pos _ (sx_seamless x) 5). lia.
Qed.
(** The deviation: a PCR is announced in a field of three bytes. *)
Definition ex_short_pcr : list bool := enc 8 71 ++ bit false ++ bit true ++ bit false ++ enc 13 256 ++ enc 2 0 ++ enc 2 3 ++ enc 4 0 ++ enc 8 3 ++ enc 8 16 ++ bb [255; 255] ++ bb (repeat 7 180).
Theorem C96_refuted : (forall s, wf_sp s -> ex_short_pcr <> enc_sp s) /\
  exists p' g, new_packet (setb ex_src ex_short_pcr) = (Ok tt, (p', setb ex_src [])) /\ pk_af p' = Some g /\ af_pcr_flag g = true /\ af_pcr g = 0.
Proof.
  split.
  - intros s W E. assert (X : forall c, enc_sp s = (enc 8 71 ++ bit (sp_tei s) ++ bit (sp_pusi s) ++ bit (sp_prio s) ++ enc 13 (sp_pid s) ++ enc 2 (sp_tsc s)) ++ enc 2 (sp_afc s) ++ c -> sp_afc s = 3).
    { intros c Q. rewrite Q in E. apply (f_equal (fun l => dec (firstn 2 (skipn 26 l)))) in E. replace (dec (firstn 2 (skipn 26 ex_short_pcr))) with 3 in E by (vm_compute; reflexivity).
      rewrite skipn_app_exact in E by (rewrite !app_length, !enc_length; reflexivity). rewrite firstn_app_exact in E by apply enc_length. rewrite dec_enc in E by (unfold sp_afc; destruct (sp_content s); cbn; lia). symmetry. exact E. }
    assert (A : sp_afc s = 3) by (eapply X; unfold enc_sp; rewrite <- !app_assoc; reflexivity). clear X. unfold wf_sp in W. unfold sp_afc in A. destruct (sp_content s) as [d|a|a d] eqn:C; try discriminate A. destruct W as (_ & _ & _ & Wa & _ & _ & L).
    assert (Y : exists h c, length h = 32%nat /\ enc_sp s = h ++ enc_saf a ++ c).
    { exists (enc 8 71 ++ bit (sp_tei s) ++ bit (sp_pusi s) ++ bit (sp_prio s) ++ enc 13 (sp_pid s) ++ enc 2 (sp_tsc s) ++ enc 2 (sp_afc s) ++ enc 4 (sp_cc s)), (bb d). split; [rewrite !app_length, !enc_length; reflexivity|]. unfold enc_sp. rewrite C, <- !app_assoc. reflexivity. }
    destruct Y as (h & c & Lh & Q). rewrite Q in E. apply (f_equal (skipn 32)) in E. rewrite skipn_app_exact in E by exact Lh.
    pose proof (f_equal (fun l => dec (firstn 8 l)) E) as E8. cbv beta in E8. replace (dec (firstn 8 (skipn 32 ex_short_pcr))) with 3 in E8 by (vm_compute; reflexivity). unfold enc_saf in E8. rewrite <- app_assoc in E8. rewrite firstn_app_exact in E8 by apply enc_length.
    assert (B : 0 <= saf_len a < 256). { destruct a as [|b]; [cbn; lia|]. destruct Wa as (_ & _ & _ & _ & _ & _ & Wl). split; [|exact Wl]. cbn [saf_len]. pose proof (olen_pos _ (sa_pcr b) 6). pose proof (olen_pos _ (sa_opcr b) 6). pose proof (olen_pos _ (sa_splice b) 1). pose proof (priv_pos (sa_private b)). pose proof (extn_pos (sa_ext b)). unfold blen. lia. }
    rewrite dec_enc in E8 by exact B. destruct a as [|b]; [discriminate E8|].
    pose proof (f_equal (fun l => firstn 1 (skipn 11 l)) E) as E1. cbv beta in E1. replace (firstn 1 (skipn 11 (skipn 32 ex_short_pcr))) with [true] in E1 by (vm_compute; reflexivity).
    assert (Z1 : exists m, enc_saf (AFBody b) ++ c = (enc 8 (saf_len (AFBody b)) ++ bit (sa_disc b) ++ bit (sa_random b) ++ bit (sa_esprio b)) ++ bit (is_some (sa_pcr b)) ++ m) by (eexists; unfold enc_saf; rewrite <- !app_assoc; reflexivity).
    destruct Z1 as (m & Z1). rewrite Z1 in E1. rewrite skipn_app_exact in E1 by (rewrite !app_length, !enc_length; reflexivity). rewrite firstn_app_exact in E1 by reflexivity. unfold bit in E1.
    destruct (sa_pcr b) eqn:P; [|discriminate E1]. cbn [saf_len] in E8. rewrite P in E8. cbn [olen] in E8. pose proof (olen_pos _ (sa_opcr b) 6). pose proof (olen_pos _ (sa_splice b) 1). pose proof (priv_pos (sa_private b)). pose proof (extn_pos (sa_ext b)). unfold blen in E8. lia.
  - eexists _, _. split; [vm_compute; reflexivity|]. split; [reflexivity|]. split; reflexivity.
Qed.
Example C96_hyp : exists p', packet_next (zero_packet, setb ex_src (enc_sp ex_p2)) = (Ok tt, (p', setb ex_src [])) /\ rlater (setb ex_src (enc_sp ex_p2)) = [] /\ pk_afc p' = 3.
Proof.
  eexists. split; [|split; [reflexivity|]].
  - rewrite <- (app_nil_r (enc_sp ex_p2)) at 1. apply packet_next_enc; [apply ex_p2_wf | reflexivity].
  - reflexivity.
Qed.
Print Assumptions C96_accepted_partial.
Print Assumptions C96_standard_partial.
Print Assumptions C96_refuted.
