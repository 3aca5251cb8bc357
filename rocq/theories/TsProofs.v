(** TsProofs: round trips for adaptation fields and packets. *)
From Verif Require Import Base BitReader Exec TsModel SpecTs.

(** ** What the Go structs must hold for a given encoded field (specification side). *)

Definition go_ext (x : sext) : aext :=
  mkExt (is_some (sx_ltw x)) (is_some (sx_pwr x)) (is_some (sx_seamless x))
    (match sx_ltw x with Some (v, _) => v | None => false end)
    (match sx_ltw x with Some (_, o) => o | None => 0 end)
    (match sx_pwr x with Some (_, v) => v | None => 0 end)
    (match sx_seamless x with Some (t, _) => t | None => 0 end)
    (match sx_seamless x with Some (_, d) => d | None => 0 end)
    (sext_len x).

Definition go_af (a : saf) : afield :=
  match a with
  | AFEmpty => mkAF false false false false false false false false 0 0 0 None None 0 []
  | AFBody b =>
      mkAF (sa_disc b) (sa_random b) (sa_esprio b)
        (is_some (sa_pcr b)) (is_some (sa_opcr b)) (is_some (sa_splice b))
        (is_some (sa_private b)) (is_some (sa_ext b))
        (match sa_pcr b with Some p => pcr_value p | None => 0 end)
        (match sa_opcr b with Some p => pcr_value p | None => 0 end)
        (match sa_splice b with Some v => v | None => 0 end)
        (match sa_private b with Some d => Some (mkTpd (blen d) d) | None => None end)
        (match sa_ext b with Some x => Some (go_ext x) | None => None end)
        (saf_len a) (sa_stuffing b)
  end.

(** ** Adaptation field *)

Lemma blen_nonneg : forall l, 0 <= blen l.
Proof. intros; unfold blen; lia. Qed.
Lemma olen_nonneg : forall A (o : option A) n, 0 <= n -> 0 <= olen o n.
Proof. intros A [a|] n; simpl; lia. Qed.
Lemma sext_len_pos : forall x, 1 <= sext_len x.
Proof.
  intros; unfold sext_len.
  pose proof (olen_nonneg _ (sx_ltw x) 2). pose proof (olen_nonneg _ (sx_pwr x) 3).
  pose proof (olen_nonneg _ (sx_seamless x) 5). pose proof (blen_nonneg (sx_reserved x)). lia.
Qed.

Lemma read_pcr_enc : forall p r l, wf_pcr p ->
  read_pcr (setb r (enc_pcr p ++ l)) = (Ok (pcr_value p), setb r l).
Proof.
  intros p r l (H1 & H2 & H3). unfold read_pcr, enc_pcr. rewrite <- !app_assoc.
  xrun. reflexivity.
Qed.

Lemma opt_pcr : forall B (k : Z * Z -> M reader B) o rem r l,
  match o with Some p => wf_pcr p | None => True end -> olen o 6 <= rem ->
  bind (if (6 <=? rem) && is_some o then x <- read_pcr ;; ret (x, rem - 6) else ret (0, rem)) k
    (setb r ((match o with Some p => enc_pcr p | None => [] end) ++ l)) =
  k (match o with Some p => pcr_value p | None => 0 end, rem - olen o 6) (setb r l).
Proof.
  intros B k [p|] rem r l H Hr; cbn [is_some olen] in *.
  - rewrite (proj2 (Z.leb_le 6 rem)) by lia. cbn [andb]. rewrite bind_assoc.
    erewrite bind_ok by (apply read_pcr_enc; auto). xrun. reflexivity.
  - rewrite andb_false_r. xrun. now rewrite Z.sub_0_r.
Qed.

Lemma opt_splice : forall B (k : Z * Z -> M reader B) o rem r l,
  match o with Some v => 0 <= v < 256 | None => True end -> olen o 1 <= rem ->
  bind (if (1 <=? rem) && is_some o then x <- read_n 8 ;; ret (x, rem - 1) else ret (0, rem)) k
    (setb r ((match o with Some v => enc 8 v | None => [] end) ++ l)) =
  k (match o with Some v => v | None => 0 end, rem - olen o 1) (setb r l).
Proof.
  intros B k [p|] rem r l H Hr; cbn [is_some olen] in *.
  - rewrite (proj2 (Z.leb_le 1 rem)) by lia. cbn [andb]. xrun. reflexivity.
  - rewrite andb_false_r. xrun. now rewrite Z.sub_0_r.
Qed.

Lemma new_tpd_enc : forall d r l, bytes d -> blen d < 256 ->
  new_tpd (setb r (enc 8 (blen d) ++ bb d ++ l)) = (Ok (mkTpd (blen d) d, blen d), setb r l).
Proof.
  intros d r l H Hl. pose proof (blen_nonneg d). unfold new_tpd.
  erewrite bind_ok by (apply read_enc; cbn; lia).
  destruct (Z.ltb_spec 0 (blen d)).
  - rewrite read_bytes_bb by auto. reflexivity.
  - destruct d; [reflexivity|]. unfold blen in *; cbn [length] in *; lia.
Qed.

Lemma opt_priv : forall B (k : option tpdata * Z -> M reader B) o rem r l,
  match o with Some d => bytes d | None => True end -> priv_len o <= rem -> rem < 256 ->
  bind (if (1 <=? rem) && is_some o then
       '(t, l) <- new_tpd ;; ret (Some t, u32 (rem - u32 (l + 1)))
     else ret (None, rem)) k
    (setb r ((match o with Some d => enc 8 (blen d) ++ bb d | None => [] end) ++ l)) =
  k (match o with Some d => Some (mkTpd (blen d) d) | None => None end, rem - priv_len o) (setb r l).
Proof.
  intros B k [d|] rem r l H Hr Hm; cbn [is_some priv_len] in *.
  - pose proof (blen_nonneg d).
    rewrite (proj2 (Z.leb_le 1 rem)) by lia. cbn [andb]. rewrite bind_assoc, <- app_assoc.
    erewrite bind_ok by (apply new_tpd_enc; auto; lia). cbv beta iota. rewrite bind_ret.
    rewrite (u32_small (blen d + 1)) by lia. rewrite u32_small by lia.
    do 2 f_equal; lia.
  - rewrite andb_false_r. xrun. now rewrite Z.sub_0_r.
Qed.

Lemma new_ext_enc : forall x r l, wf_sext x -> sext_len x < 256 ->
  sx_seamless x = None -> sx_reserved x = [] ->
  new_ext (setb r (enc_sext x ++ l)) = (Ok (go_ext x, sext_len x), setb r l).
Proof.
  intros x r l (H1 & H2 & H3 & H4 & H5) Hl Hs Hr.
  pose proof (sext_len_pos x) as Hp.
  unfold go_ext. unfold enc_sext. rewrite Hs, Hr in *.
  assert (Hlen : sext_len x = 1 + olen (sx_ltw x) 2 + olen (sx_pwr x) 3)
    by (unfold sext_len; rewrite Hs, Hr; cbn; lia).
  rewrite <- !app_assoc. unfold new_ext.
  generalize (sext_len x) Hlen Hp Hl. clear Hlen Hp Hl. intros n Hn Hp Hl.
  rewrite bind_ok with (a := n) (s' := setb r ((bit (is_some (sx_ltw x)) ++
     bit (is_some (sx_pwr x)) ++ bit (@is_some (Z*Z) None) ++ enc 5 (sx_reserved5 x) ++
     match sx_ltw x with Some (v, o) => bit v ++ enc 15 o | None => [] end ++
     match sx_pwr x with Some (r0, v) => enc 2 r0 ++ enc 22 v | None => [] end ++
     [] ++ bb [] ++ l))) by (apply read_enc; cbn; lia).
  rewrite (proj2 (Z.leb_le 1 n)) by lia.
  xrun.
  destruct (sx_ltw x) as [[v o]|]; destruct (sx_pwr x) as [[pr pv]|]; cbn [is_some olen] in *.
  - rewrite (proj2 (Z.leb_le 2 (n - 1))) by lia. cbn [andb]. rewrite <- !app_assoc. xrun.
    rewrite (proj2 (Z.leb_le 3 (n - 1 - 2))) by lia. cbn [andb]. xrun.
    rewrite andb_false_r. xrun. reflexivity.
  - rewrite (proj2 (Z.leb_le 2 (n - 1))) by lia. cbn [andb]. rewrite <- !app_assoc. xrun.
    rewrite andb_false_r. xrun. rewrite andb_false_r. xrun. reflexivity.
  - rewrite andb_false_r. xrun.
    rewrite (proj2 (Z.leb_le 3 (n - 1))) by lia. cbn [andb app]. rewrite <- !app_assoc. xrun.
    rewrite andb_false_r. xrun. reflexivity.
  - rewrite andb_false_r. xrun. rewrite andb_false_r. xrun. rewrite andb_false_r. xrun. reflexivity.
Qed.

Lemma opt_ext : forall B (k : option aext * Z -> M reader B) o rem r l,
  match o with Some x => wf_sext x /\ sx_seamless x = None /\ sx_reserved x = [] | None => True end ->
  extn_len o <= rem -> rem < 256 ->
  bind (if (2 <=? rem) && is_some o then
       '(x, l) <- new_ext ;; ret (Some x, u32 (rem - u32 (l + 1)))
     else ret (None, rem)) k
    (setb r ((match o with Some x => enc_sext x | None => [] end) ++ l)) =
  k (match o with Some x => Some (go_ext x) | None => None end, rem - extn_len o) (setb r l).
Proof.
  intros B k [x|] rem r l H Hr Hm; cbn [is_some extn_len] in *.
  - destruct H as (H & Hs & Hv). pose proof (sext_len_pos x).
    rewrite (proj2 (Z.leb_le 2 rem)) by lia. cbn [andb]. rewrite bind_assoc.
    erewrite bind_ok by (apply new_ext_enc; auto; lia). cbv beta iota. rewrite bind_ret.
    rewrite (u32_small (sext_len x + 1)) by lia. rewrite u32_small by lia.
    do 2 f_equal; lia.
  - rewrite andb_false_r. xrun. now rewrite Z.sub_0_r.
Qed.

Lemma priv_len_nonneg : forall o, 0 <= priv_len o.
Proof. intros [d|]; cbn [priv_len]; try pose proof (blen_nonneg d); lia. Qed.
Lemma extn_len_nonneg : forall o, 0 <= extn_len o.
Proof. intros [d|]; cbn [extn_len]; try pose proof (sext_len_pos d); lia. Qed.

Lemma saf_len_range : forall a, wf_saf a -> 0 <= saf_len a < 256.
Proof.
  intros [|b] H; [cbn; lia|]. destruct H as (_ & _ & _ & _ & _ & _ & H). split; auto.
  cbn [saf_len].
  pose proof (olen_nonneg _ (sa_pcr b) 6). pose proof (olen_nonneg _ (sa_opcr b) 6).
  pose proof (olen_nonneg _ (sa_splice b) 1). pose proof (priv_len_nonneg (sa_private b)).
  pose proof (extn_len_nonneg (sa_ext b)). pose proof (blen_nonneg (sa_stuffing b)). lia.
Qed.

Lemma new_af_enc : forall a r l, wf_saf a -> plain_ext a ->
  new_af (setb r (enc_saf a ++ l)) = (Ok (go_af a, saf_len a), setb r l).
Proof.
  intros a r l H Hx. pose proof (saf_len_range _ H) as Hlen.
  destruct a as [|b].
  - unfold new_af, enc_saf. rewrite <- app_assoc. cbn [saf_len]. xrun. reflexivity.
  - destruct H as (H1 & H2 & H3 & H4 & H5 & H6 & H7).
    pose proof (olen_nonneg _ (sa_pcr b) 6). pose proof (olen_nonneg _ (sa_opcr b) 6).
    pose proof (olen_nonneg _ (sa_splice b) 1). pose proof (priv_len_nonneg (sa_private b)).
    pose proof (extn_len_nonneg (sa_ext b)). pose proof (blen_nonneg (sa_stuffing b)).
    unfold new_af, enc_saf, go_af. rewrite <- !app_assoc.
    assert (HL : saf_len (AFBody b) = 1 + olen (sa_pcr b) 6 + olen (sa_opcr b) 6 + olen (sa_splice b) 1 +
                priv_len (sa_private b) + extn_len (sa_ext b) + blen (sa_stuffing b)) by reflexivity.
    revert Hlen HL. generalize (saf_len (AFBody b)). intros n Hlen HL.
    erewrite bind_ok by (apply read_enc; cbn; lia).
    rewrite (proj2 (Z.leb_le 1 n)) by lia.
    xrun.
    rewrite opt_pcr by (auto; lia). cbv beta iota.
    rewrite opt_pcr by (auto; lia). cbv beta iota.
    rewrite opt_splice by (auto; lia). cbv beta iota.
    rewrite opt_priv by (auto; lia). cbv beta iota.
    rewrite opt_ext.
    2:{ cbn [plain_ext] in Hx. destruct (sa_ext b); auto. }
    2,3:lia.
    cbv beta iota.
    replace (n - 1 - olen (sa_pcr b) 6 - olen (sa_opcr b) 6 - olen (sa_splice b) 1 -
      priv_len (sa_private b) - extn_len (sa_ext b)) with (blen (sa_stuffing b)) by lia.
    destruct (Z.ltb_spec 0 (blen (sa_stuffing b))).
    + erewrite bind_ok by (rewrite read_bytes_bb by auto; reflexivity). reflexivity.
    + destruct (sa_stuffing b); [reflexivity|]. unfold blen in *; cbn [length] in *; lia.
Qed.

(** ** Packets *)

(** The Packet that [new(Packet)] and [Next] give for an encoded packet. *)
Definition go_packet (s : spacket) : packet :=
  mkPk (sp_tei s) (sp_pusi s) (sp_prio s) (sp_pid s) (sp_tsc s) (sp_afc s) (sp_cc s)
    (match sp_field s with Some a => Some (go_af a) | None => None end)
    (copy_into (repeat 0 184) (sp_payload s)) (blen (sp_payload s)).

(** What [Next] leaves in an existing Packet [p] (the repo's behaviour: fields of absent parts stay). *)
Definition over_packet (p : packet) (s : spacket) : packet :=
  mkPk (sp_tei s) (sp_pusi s) (sp_prio s) (sp_pid s) (sp_tsc s) (sp_afc s) (sp_cc s)
    (match sp_field s with Some a => Some (go_af a) | None => pk_af p end)
    (if has_payload s then copy_into (pk_buf p) (sp_payload s) else pk_buf p)
    (if has_payload s then blen (sp_payload s) else pk_len p).

Lemma enc_sext_length : forall x, Z.of_nat (length (enc_sext x)) = 8 * (sext_len x + 1).
Proof.
  intros x. unfold enc_sext, sext_len, enc_dts_next, bit, blen, olen.
  rewrite !app_length, !enc_length, bb_length. cbn [length].
  destruct (sx_ltw x) as [[]|], (sx_pwr x) as [[]|], (sx_seamless x) as [[]|];
    rewrite ?app_length, ?enc_length; cbn [length]; lia.
Qed.

Lemma enc_saf_length : forall a, Z.of_nat (length (enc_saf a)) = 8 * (saf_len a + 1).
Proof.
  intros a. unfold enc_saf. destruct a as [|b].
  - reflexivity.
  - cbn [saf_len]. rewrite !app_length, !enc_length, bb_length.
    assert (P : forall o, Z.of_nat (length (match o with Some p => enc_pcr p | None => [] end)) = 8 * olen o 6).
    { intros [p|]; cbn [olen]; [unfold enc_pcr; rewrite !app_length, !enc_length; lia | reflexivity]. }
    pose proof (P (sa_pcr b)) as E1. pose proof (P (sa_opcr b)) as E2. clear P.
    assert (E3 : Z.of_nat (length (match sa_splice b with Some v => enc 8 v | None => [] end))
       = 8 * olen (sa_splice b) 1) by (destruct (sa_splice b); cbn [olen]; rewrite ?enc_length; reflexivity).
    assert (E4 : Z.of_nat (length (match sa_private b with Some d => enc 8 (blen d) ++ bb d | None => [] end))
       = 8 * priv_len (sa_private b)).
    { destruct (sa_private b); cbn [priv_len]; [|reflexivity].
      rewrite app_length, enc_length, bb_length. unfold blen. lia. }
    assert (E5 : Z.of_nat (length (match sa_ext b with Some x => enc_sext x | None => [] end))
       = 8 * extn_len (sa_ext b)).
    { destruct (sa_ext b); cbn [extn_len]; [|reflexivity]. rewrite enc_sext_length. lia. }
    unfold blen in *. cbn [bit length]. lia.
Qed.

Lemma enc_sp_length : forall s, wf_sp s -> length (enc_sp s) = (8 * 188)%nat.
Proof.
  intros s (_ & _ & _ & H). unfold enc_sp.
  destruct (sp_content s); rewrite !app_length, ?enc_length; cbn [bit length].
  - destruct H as [_ H]. rewrite bb_length. unfold blen in H. lia.
  - destruct H as (H & _ & HL). pose proof (enc_saf_length a). lia.
  - destruct H as (H & _ & _ & HL). pose proof (enc_saf_length a). rewrite bb_length.
    unfold blen in HL. lia.
Qed.

(** At a sync byte, aligned. *)
Lemma ts_is_aligned_sync : forall r l, (length l mod 8 = 0)%nat ->
  ts_is_aligned (setb r (enc 8 71 ++ l)) = (Ok true, setb r (enc 8 71 ++ l)).
Proof.
  intros r l H. unfold ts_is_aligned. rewrite is_aligned_setb.
  rewrite app_length, enc_length.
  replace ((8 + length l) mod 8)%nat with 0%nat.
  2:{ rewrite Nat.add_mod, H by lia. reflexivity. }
  cbn [Nat.eqb negb]. xrun. reflexivity.
Qed.

Definition aligned_len (l : list bool) : Prop := (length l mod 8 = 0)%nat.

Lemma aligned_app : forall a b, aligned_len a -> aligned_len b -> aligned_len (a ++ b).
Proof.
  unfold aligned_len; intros. rewrite app_length, Nat.add_mod, H, H0 by lia. reflexivity.
Qed.
Lemma aligned_mult : forall (l : list bool) k, length l = (8 * k)%nat -> aligned_len l.
Proof. unfold aligned_len; intros l k ->. rewrite Nat.mul_comm. apply Nat.mod_mul; lia. Qed.
Lemma aligned_bb : forall l, aligned_len (bb l).
Proof. intros. eapply aligned_mult. apply bb_length. Qed.

Lemma read_payload_bb : forall d size p r l, bytes d -> size = blen d -> blen d <= 184 ->
  read_payload size (p, setb r (bb d ++ l)) =
  (Ok tt, (set_buf (copy_into (pk_buf p) d) (set_len size p), setb r l)).
Proof.
  intros d size p r l H -> Hl. unfold read_payload, MaxPayloadSize.
  destruct (Z.ltb_spec 184 (blen d)); [lia|]. cbn [fst snd].
  now rewrite read_full_bb by auto.
Qed.

Lemma packet_next_enc : forall s p r l, wf_sp s -> aligned_len l ->
  packet_next (p, setb r (enc_sp s ++ l)) = (Ok tt, (over_packet p s, setb r l)).
Proof.
  intros s p r l Hwf Hal.
  pose proof (enc_sp_length _ Hwf) as HL.
  destruct Hwf as (H1 & H2 & H3 & H4).
  unfold packet_next.
  erewrite bind_onr_ok.
  2:{ unfold enc_sp. rewrite <- app_assoc. apply ts_is_aligned_sync.
      assert (E : ((length (enc 8 71) + length ((bit (sp_tei s) ++ bit (sp_pusi s) ++ bit (sp_prio s) ++ enc 13 (sp_pid s) ++
  enc 2 (sp_tsc s) ++ enc 2 (sp_afc s) ++ enc 4 (sp_cc s) ++
  match sp_content s with
  | SPayload d => bb d
  | SField a => enc_saf a
  | SFieldPayload a d => enc_saf a ++ bb d
  end) ++ l)) mod 8 = 0)%nat).
      { rewrite <- app_length, app_assoc. apply aligned_app; auto.
        apply aligned_mult with (k := 188%nat). exact HL. }
      rewrite enc_length in E. rewrite Nat.add_mod in E by lia.
      rewrite Nat.mod_same in E by lia. rewrite Nat.add_0_l, Nat.mod_mod in E by lia. exact E. }
  cbn [negb]. rewrite <- !app_assoc. xrun.
  rewrite bind_onr_ok with (a := sp_afc s) (r' := setb r (enc 4 (sp_cc s) ++ match sp_content s with
  | SPayload d => bb d
  | SField a => enc_saf a
  | SFieldPayload a d => enc_saf a ++ bb d
  end ++ l)).
  2:{ apply read_enc. unfold sp_afc; destruct (sp_content s); cbn; lia. }
  xrun.
  unfold over_packet, has_payload, sp_field, sp_payload, sp_afc, FieldOnly, FieldThenPayload, PayloadOnly in *.
  destruct (sp_content s) as [d|a|a d]; cbn [Z.eqb Pos.eqb orb].
  - destruct H4 as [H4 H5]. xrun. rewrite read_payload_bb by (auto; unfold MaxPayloadSize; lia).
    unfold MaxPayloadSize; rewrite <- H5; reflexivity.
  - destruct H4 as (H4 & H5 & H6).
    erewrite bind_ok. 2:{ cbn [snd]. rewrite new_af_enc by auto. reflexivity. }
    cbn [fst]. reflexivity.
  - destruct H4 as (H4 & H5 & H6 & H7). pose proof (saf_len_range _ H4). pose proof (blen_nonneg d).
    rewrite <- app_assoc.
    erewrite bind_ok. 2:{ cbn [snd]. rewrite new_af_enc by auto. reflexivity. }
    cbn [fst]. unfold MaxPayloadSize. rewrite (u32_small (saf_len a + 1)) by lia.
    rewrite u32_small by lia.
    rewrite read_payload_bb by (auto; lia).
    replace (184 - (saf_len a + 1)) with (blen d) by lia. reflexivity.
Qed.
