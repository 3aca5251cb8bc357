(** PesProofs: what pes.Packet.Next does on encoded packets. *)
From Verif Require Import Base BitReader Exec PesModel SpecPes.

(** ** What the Go structs must hold *)
Definition low32 (t : Z) : Z := t mod 2 ^ 32.
Definition go_xt (x : sxt) : pext :=
  mkPExt (present (xt_private x)) false false (present (xt_pstd x)) false
    (match xt_private x with Some d => d | None => [] end)
    (match xt_pstd x with Some (sc, sz) => Some (Z.b2z sc, sz) | None => None end).
Definition go_head (h : shead) (hdl : Z) : pheader :=
  mkPH (sh_scrambling h) (sh_priority h) (sh_alignment h) (sh_copyright h) (sh_original h)
    (stamp_flags (sh_stamps h)) false false false false false (present (sh_ext h)) hdl
    (match sh_stamps h with NoStamp => 0 | Pts p => low32 p | PtsDts p _ => low32 p end)
    (match sh_stamps h with PtsDts _ d => low32 d | _ => 0 end)
    (match sh_ext h with Some x => Some (go_xt x) | None => None end).
Definition go_pes (s : spes) : ppacket :=
  mkPP (se_id s) (se_len s) (Some (go_head (se_head s) (data_len (se_head s)))) (se_payload s).

(** ** Steps *)
Lemma expect_ok : forall n v e r l, 0 <= v < 2 ^ Z.of_nat n ->
  expect n v e (setb r (enc n v ++ l)) = (Ok tt, setb r l).
Proof. intros. unfold expect. rewrite read_enc by auto. now rewrite Z.eqb_refl. Qed.
Lemma expect_bit : forall e r l, expect 1 1 e (setb r (bit true ++ l)) = (Ok tt, setb r l).
Proof. intros. reflexivity. Qed.
Lemma expect_bad : forall n v w e r l, 0 <= v < 2 ^ Z.of_nat n -> v <> w ->
  expect n w e (setb r (enc n v ++ l)) = (Err e, setb r l).
Proof. intros. unfold expect. rewrite read_enc by auto. now rewrite (proj2 (Z.eqb_neq v w)). Qed.

Lemma lor_parts : forall t, 0 <= t < 2 ^ 33 ->
  Z.lor (Z.lor (Z.lor 0 (u32 (Z.shiftl ((t / 2 ^ 30) mod 2 ^ 3) 30)))
      (u32 (Z.shiftl ((t / 2 ^ 15) mod 2 ^ 15) 15))) (t mod 2 ^ 15) = low32 t.
Proof.
  intros t H. unfold low32, u32. change 4294967296 with (2 ^ 32). rewrite Z.lor_0_l.
  apply Z.bits_inj'. intros n Hn.
  rewrite !Z.lor_spec.
  destruct (Z.lt_ge_cases n 32) as [L|L].
  - rewrite !Z.mod_pow2_bits_low with (n := 32) by lia.
    destruct (Z.lt_ge_cases n 15) as [L1|L1].
    + rewrite !Z.shiftl_spec_low by lia. rewrite Z.mod_pow2_bits_low by lia. reflexivity.
    + rewrite (Z.mod_pow2_bits_high t 15) by lia. rewrite orb_false_r.
      rewrite (Z.shiftl_spec _ 15 n) by lia.
      destruct (Z.lt_ge_cases n 30) as [L2|L2].
      * rewrite Z.shiftl_spec_low by lia. cbn [orb].
        rewrite Z.mod_pow2_bits_low by lia. rewrite Z.div_pow2_bits by lia. f_equal. lia.
      * rewrite Z.mod_pow2_bits_high with (n := 15) by lia. rewrite orb_false_r.
        rewrite Z.shiftl_spec by lia. rewrite Z.mod_pow2_bits_low by lia.
        rewrite Z.div_pow2_bits by lia. f_equal. lia.
  - rewrite !Z.mod_pow2_bits_high with (n := 32) by lia.
    rewrite Z.mod_pow2_bits_high by lia. reflexivity.
Qed.

Lemma read_stamp_enc : forall m t r l, 0 <= m < 16 -> wf_stamp t ->
  read_time_stamp m (setb r (enc_stamp m t ++ l)) = (Ok (low32 t, 5), setb r l).
Proof.
  intros m t r l Hm Ht. unfold read_time_stamp, enc_stamp. rewrite <- !app_assoc.
  erewrite bind_ok by (apply expect_ok; cbn; lia).
  erewrite bind_ok by apply read_enc_mod.
  erewrite bind_ok by apply expect_bit.
  erewrite bind_ok by apply read_enc_mod.
  erewrite bind_ok by apply expect_bit.
  erewrite bind_ok by apply read_enc_mod.
  erewrite bind_ok by apply expect_bit.
  unfold ret. do 3 f_equal. apply lor_parts. exact Ht.
Qed.

Lemma read_xt_enc : forall x r l, wf_xt x ->
  read_extension (setb r (enc_xt x ++ l)) = (Ok (go_xt x, xt_len x), setb r l).
Proof.
  intros x r l (H1 & H2 & H3). unfold read_extension, enc_xt, go_xt, xt_len. rewrite <- !app_assoc.
  xrun.
  destruct (xt_private x) as [d|]; cbn [present].
  - destruct H1 as [Hb Hl].
    erewrite bind_ok; cycle 1.
    { erewrite bind_ok. 2:{ rewrite <- Hl. apply read_bytes_bb. exact Hb. } reflexivity. }
    xrun. destruct (xt_pstd x) as [[sc sz]|]; cbn [present].
    + rewrite <- !app_assoc. xrun. erewrite bind_ok by (apply expect_ok; cbn; lia).
      rewrite bind_assoc. erewrite bind_ok; cycle 1.
      { instantiate (2 := Z.b2z sc). destruct sc; reflexivity. }
      xrun. reflexivity.
    + xrun. reflexivity.
  - xrun. destruct (xt_pstd x) as [[sc sz]|]; cbn [present].
    + rewrite <- !app_assoc. xrun. erewrite bind_ok by (apply expect_ok; cbn; lia).
      rewrite bind_assoc. erewrite bind_ok; cycle 1.
      { instantiate (2 := Z.b2z sc). destruct sc; reflexivity. }
      xrun. reflexivity.
    + xrun. reflexivity.
Qed.

Lemma xt_len_range : forall x, 1 <= xt_len x <= 19.
Proof. intro x. unfold xt_len. destruct (present (xt_private x)), (present (xt_pstd x)); lia. Qed.
Lemma parts_len_range : forall h, 0 <= parts_len h <= 29.
Proof.
  intro h. unfold parts_len, stamps_len. destruct (sh_stamps h); destruct (sh_ext h) as [x|];
  try pose proof (xt_len_range x); lia.
Qed.

(** The header up to the stuffing. *)
Definition header_tail (h : shead) (hdl : Z) : M reader (pheader * Z) :=
  st <- read_stuffing (u32 (hdl - parts_len h)) ;;
  ret (go_head h hdl, u32 (3 + parts_len h + st)).

Lemma read_parts_enc : forall h hdl r l, wf_parts h -> 0 <= hdl < 256 ->
  read_header (setb r (enc_parts h hdl ++ l)) = header_tail h hdl (setb r l).
Proof.
  intros h hdl r l (H1 & H2 & H3) Hh. unfold read_header, enc_parts. rewrite <- !app_assoc.
  pose proof (parts_len_range h) as HP.
  erewrite bind_ok by (apply expect_ok; cbn; lia).
  xrun.
  erewrite bind_ok; cycle 1.
  { apply read_enc. destruct (sh_stamps h); cbn; lia. }
  xrun.
  unfold minimumHeaderSize, header_tail, go_head.
  destruct (sh_stamps h) as [|p|p d] eqn:ES; cbn [stamp_flags Z.eqb Pos.eqb enc_stamps app].
  - xrun. destruct (sh_ext h) as [x|] eqn:EX; cbn [present].
    + rewrite bind_assoc. erewrite bind_ok by (apply read_xt_enc; auto). xrun.
      pose proof (xt_len_range x).
      assert (EP : parts_len h = xt_len x) by (unfold parts_len; rewrite ES, EX; reflexivity).
      rewrite (u32_small (3 + xt_len x)) by lia.
      replace (3 + xt_len x - 3) with (parts_len h) by lia.
      rewrite (u32_small (parts_len h)) by lia. replace (3 + xt_len x) with (3 + parts_len h) by lia. reflexivity.
    + assert (EP : parts_len h = 0) by (unfold parts_len; rewrite ES, EX; reflexivity).
      xrun. rewrite EP. reflexivity.
  - xrun. erewrite bind_ok by (apply read_stamp_enc; [lia|exact H2]). xrun.
    destruct (sh_ext h) as [x|] eqn:EX; cbn [present].
    + xrun. erewrite bind_ok by (apply read_xt_enc; auto). xrun.
      pose proof (xt_len_range x).
      assert (EP : parts_len h = 5 + xt_len x) by (unfold parts_len; rewrite ES, EX; reflexivity).
      change (u32 (3 + 5)) with 8.
      rewrite (u32_small (8 + xt_len x)) by lia.
      replace (8 + xt_len x - 3) with (parts_len h) by lia.
      rewrite (u32_small (parts_len h)) by lia. replace (8 + xt_len x) with (3 + parts_len h) by lia. reflexivity.
    + assert (EP : parts_len h = 5) by (unfold parts_len; rewrite ES, EX; reflexivity).
      xrun. rewrite EP. reflexivity.
  - destruct H2 as [H2 H4]. rewrite <- !app_assoc.
    xrun. erewrite bind_ok by (apply read_stamp_enc; [lia|exact H2]).
    xrun. erewrite bind_ok by (apply read_stamp_enc; [lia|exact H4]). xrun.
    destruct (sh_ext h) as [x|] eqn:EX; cbn [present].
    + xrun. erewrite bind_ok by (apply read_xt_enc; auto). xrun.
      pose proof (xt_len_range x).
      assert (EP : parts_len h = 10 + xt_len x) by (unfold parts_len; rewrite ES, EX; reflexivity).
      change (u32 (u32 (3 + 5) + 5)) with 13.
      rewrite (u32_small (13 + xt_len x)) by lia.
      replace (13 + xt_len x - 3) with (parts_len h) by lia.
      rewrite (u32_small (parts_len h)) by lia. replace (13 + xt_len x) with (3 + parts_len h) by lia. reflexivity.
    + assert (EP : parts_len h = 10) by (unfold parts_len; rewrite ES, EX; reflexivity).
      xrun. rewrite EP. reflexivity.
Qed.

(** ** Stuffing *)
Lemma stuffing_ok : forall n r l,
  stuffing_loop n (setb r (bb (repeat 255 n) ++ l)) = (Ok tt, setb r l).
Proof.
  induction n; intros r l; [reflexivity|].
  cbn [stuffing_loop repeat]. rewrite bb_cons, <- app_assoc.
  erewrite bind_ok by (apply read_enc; cbn; lia). cbn [Z.eqb Pos.eqb]. apply IHn.
Qed.

Lemma stuffing_bad : forall k n b r l, (k < n)%nat -> byte b -> b <> 255 ->
  stuffing_loop n (setb r (bb (repeat 255 k ++ [b]) ++ l)) = (Err ErrInvalidStuffingByte, setb r l).
Proof.
  induction k; intros n b r l Hk Hb Hne; (destruct n; [lia|]); cbn [stuffing_loop repeat app].
  - rewrite bb_cons. change (bb []) with (@nil bool). rewrite app_nil_r.
    erewrite bind_ok by (apply read_enc; exact Hb). now rewrite (proj2 (Z.eqb_neq b 255)).
  - rewrite bb_cons, <- app_assoc. erewrite bind_ok by (apply read_enc; cbn; lia).
    cbn [Z.eqb Pos.eqb]. apply IHk; auto. lia.
Qed.

(** More stuffing bytes wanted than the source has: an error, whatever they are. *)
Lemma stuffing_short : forall n r, (length (rbits r) < 8 * n)%nat ->
  exists e r', stuffing_loop n r = (Err e, r').
Proof.
  induction n; intros r H; [lia|]. cbn [stuffing_loop].
  unfold bind, read_n. destruct (Nat.leb_spec 8 (length (rbits r))).
  - destruct (_ =? 255); [|eexists _, _; reflexivity]. apply IHn.
    rewrite rbits_setb, skipn_length. lia.
  - unfold short. destruct (rbits r); eauto.
Qed.

(** ** The header *)
Lemma header_tail_ok : forall h r l, wf_head h ->
  header_tail h (data_len h) (setb r (bb (repeat 255 (sh_stuffing h)) ++ l)) =
  (Ok (go_head h (data_len h), 3 + data_len h), setb r l).
Proof.
  intros h r l [_ H]. unfold header_tail, read_stuffing, data_len in *.
  pose proof (parts_len_range h).
  replace (parts_len h + Z.of_nat (sh_stuffing h) - parts_len h) with (Z.of_nat (sh_stuffing h)) by lia.
  rewrite (u32_small (Z.of_nat _)) by lia. rewrite Nat2Z.id.
  rewrite bind_assoc. erewrite bind_ok by apply stuffing_ok. xrun. unfold ret.
  rewrite u32_small by lia. do 3 f_equal. lia.
Qed.

Lemma read_header_enc : forall h r l, wf_head h ->
  read_header (setb r (enc_head h ++ l)) = (Ok (go_head h (data_len h), 3 + data_len h), setb r l).
Proof.
  intros h r l H. unfold enc_head. rewrite <- app_assoc.
  pose proof (parts_len_range h). pose proof (proj2 H).
  rewrite read_parts_enc; [|exact (proj1 H)|unfold data_len in *; lia].
  now apply header_tail_ok.
Qed.

(** ** Packets *)
Definition pes_rest (id len : Z) : M (ppacket * reader) unit :=
  if has_pes_header id then
    hl <- pes_header ;;
    if 0 <? len then pes_bounded (u32 (len - hl)) else pes_unbounded
  else if id =? padding_stream then onr (read_bytes len) ;; ret tt
  else ret tt.

Lemma pes_start : forall id len p r l, 0 <= id < 2 ^ 8 -> 0 <= len < 2 ^ 16 ->
  pes_next (p, setb r (enc_start id len ++ l)) =
  pes_rest id len (pset_length len (pset_id id p), setb r l).
Proof.
  intros id len p r l H1 H2. unfold pes_next, enc_start. rewrite <- !app_assoc.
  erewrite bind_onr_ok by (apply peek_enc; cbn; lia).
  cbn [Z.eqb Pos.eqb StartCodePrefix]. xrun. reflexivity.
Qed.

Lemma has_header_spec : forall id, 0 <= id < 2 ^ 8 ->
  has_pes_header id = true <-> carries_header id.
Proof.
  intros id H. unfold has_pes_header, carries_header, headerless,
    program_stream_map, padding_stream, private_stream_2, ecm_stream, emm_stream,
    program_stream_directory, dsmcc_stream, type_e. cbn [In].
  rewrite !andb_true_iff, !negb_true_iff, !Z.eqb_neq. intuition lia.
Qed.

Lemma pes_header_ok : forall h p r l, wf_head h ->
  pes_header (p, setb r (enc_head h ++ l)) =
  (Ok (3 + data_len h), (pset_header (Some (go_head h (data_len h))) p, setb r l)).
Proof. intros. unfold pes_header. cbn [fst snd]. now rewrite read_header_enc. Qed.

Lemma copy_exact : forall n d, blen d = n -> copy_into (repeat 0 (Z.to_nat n)) d = d.
Proof.
  intros n d H. unfold copy_into. unfold blen in H. subst n. rewrite Nat2Z.id.
  rewrite skipn_all2 by (rewrite repeat_length; lia). apply app_nil_r.
Qed.

Lemma data_len_range : forall h, 0 <= data_len h.
Proof. intro h. pose proof (parts_len_range h). unfold data_len. lia. Qed.

Lemma pes_next_enc : forall s p r l, wf_pes s ->
  pes_next (p, setb r (enc_pes s ++ l)) = (Ok tt, (go_pes s, setb r l)).
Proof.
  intros s p r l (H1 & H2 & H3 & H4). unfold enc_pes. rewrite <- !app_assoc.
  pose proof (data_len_range (se_head s)). unfold se_len in *. unfold blen in *.
  pose proof (proj1 H1) as HI. change (2 ^ 8) with 256 in *. change (2 ^ 16) with 65536 in *.
  rewrite pes_start by lia. unfold pes_rest.
  rewrite (proj2 (has_header_spec _ HI) H1).
  erewrite bind_ok by (apply pes_header_ok; exact H2).
  rewrite (proj2 (Z.ltb_lt 0 _)) by lia.
  match goal with |- context [u32 ?e] => replace e with (blen (se_payload s)) by (unfold blen; lia) end.
  rewrite u32_small by (unfold blen; lia).
  unfold pes_bounded. cbn [fst snd]. rewrite read_full_bb by auto.
  rewrite copy_exact by reflexivity. unfold go_pes, se_len. reflexivity.
Qed.

(** A packet of length 0. *)
Lemma read_all_bb : forall r d, bytes d ->
  read_all (setb r (bb d)) =
  ((d, match rfin r with EEOF => None | e => Some e end), advance (setb r [])).
Proof.
  intros r d H. unfold read_all. rewrite avail_setb, bb_length, rbits_setb.
  rewrite Nat2Z.inj_mul, Z.mul_comm, Z.div_mul by lia. rewrite Nat2Z.id.
  pose proof (get_bytes_bb d [] H) as E. rewrite app_nil_r in E. rewrite E.
  unfold advance. reflexivity.
Qed.

Lemma pes_next_open : forall id h d p r, carries_header id -> wf_head h -> bytes d ->
  pes_next (p, setb r (enc_open id h d)) =
  (match rfin r with EEOF | EOP => Ok tt | e => Err e end,
   (mkPP id 0 (Some (go_head h (data_len h))) d, advance (setb r []))).
Proof.
  intros id h d p r H1 H2 H3. unfold enc_open.
  pose proof (proj1 H1) as HI. change (2 ^ 8) with 256 in *.
  rewrite pes_start by lia. unfold pes_rest.
  rewrite (proj2 (has_header_spec _ HI) H1).
  erewrite bind_ok by (apply pes_header_ok; exact H2).
  cbn [Z.ltb Z.compare]. unfold pes_unbounded. cbn [fst snd]. rewrite read_all_bb by auto.
  destruct (rfin r); reflexivity.
Qed.

(** A packet without PES header. *)
Lemma pes_next_padding : forall d p r l, bytes d -> blen d < 2 ^ 16 ->
  pes_next (p, setb r (enc_padding d ++ l)) =
  (Ok tt, (pset_length (blen d) (pset_id 190 p), setb r l)).
Proof.
  intros d p r l H1 H2. unfold enc_padding. rewrite <- app_assoc.
  rewrite pes_start by (unfold blen in *; cbn; lia). unfold pes_rest.
  change (has_pes_header 190) with false. cbn [Z.eqb Pos.eqb padding_stream].
  erewrite bind_onr_ok by (apply read_bytes_bb; exact H1). reflexivity.
Qed.

Lemma pes_next_padding_cut : forall len l p r, 0 <= len < 2 ^ 16 -> Z.of_nat (length l) / 8 < len ->
  exists e s', pes_next (p, setb r (enc_start 190 len ++ l)) = (Err e, s').
Proof.
  intros len l p r H1 H2. rewrite pes_start by lia. unfold pes_rest.
  change (has_pes_header 190) with false. cbn [Z.eqb Pos.eqb padding_stream].
  unfold bind, onr, read_bytes. cbn [fst snd]. unfold read_full.
  assert (0 <= Z.of_nat (length l) / 8) by (apply Z.div_pos; lia).
  rewrite (proj2 (Z.leb_gt len 0)) by lia.
  rewrite avail_setb, (proj2 (Z.leb_gt len _)) by lia. eauto.
Qed.

Lemma pes_next_skipped : forall id len p r l, In id headerless -> id <> 190 -> 0 <= len < 2 ^ 16 ->
  pes_next (p, setb r (enc_start id len ++ l)) =
  (Ok tt, (pset_length len (pset_id id p), setb r l)).
Proof.
  intros id len p r l H1 H2 H3.
  assert (0 <= id < 2 ^ 8) by (cbn [In headerless] in H1; cbn; intuition lia).
  rewrite pes_start by lia. unfold pes_rest.
  assert (E : has_pes_header id = false).
  { apply not_true_iff_false. rewrite has_header_spec by auto. unfold carries_header. tauto. }
  rewrite E. change padding_stream with 190. now rewrite (proj2 (Z.eqb_neq id 190)).
Qed.

(** ** Malformed packets *)
Lemma pes_no_prefix : forall v p r l, 0 <= v < 2 ^ 24 -> v <> 1 ->
  pes_next (p, setb r (enc 24 v ++ l)) =
  (Err ErrStartCodePrefixNotFound, (p, setb r (enc 24 v ++ l))).
Proof.
  intros. unfold pes_next. erewrite bind_onr_ok by (apply peek_enc; auto).
  unfold StartCodePrefix. rewrite (proj2 (Z.eqb_neq v 1)) by auto. reflexivity.
Qed.

Lemma pes_header_err : forall id len p r l e r', carries_header id -> 0 <= len < 2 ^ 16 ->
  read_header (setb r l) = (Err e, r') ->
  pes_next (p, setb r (enc_start id len ++ l)) = (Err e, (mkPP id len None (pp_payload p), r')).
Proof.
  intros id len p r l e r' H1 H2 H3. rewrite pes_start by (auto; apply H1).
  unfold pes_rest. rewrite (proj2 (has_header_spec _ (proj1 H1)) H1).
  erewrite bind_err; [reflexivity|]. unfold pes_header. cbn [fst snd]. now rewrite H3.
Qed.

Lemma read_header_overrun : forall h hdl r l, wf_parts h -> 0 <= hdl < parts_len h ->
  Z.of_nat (length l) < 8 * (2 ^ 32 - 256) ->
  exists e r', read_header (setb r (enc_parts h hdl ++ l)) = (Err e, r').
Proof.
  intros h hdl r l H1 H2 H3. pose proof (parts_len_range h).
  rewrite read_parts_enc by (auto; lia). unfold header_tail, read_stuffing.
  change (2 ^ 32) with 4294967296 in *.
  destruct (stuffing_short (Z.to_nat (u32 (hdl - parts_len h))) (setb r l)) as (e & r' & E).
  - rewrite rbits_setb. unfold u32.
    replace (hdl - parts_len h) with ((hdl - parts_len h + 4294967296) + (-1) * 4294967296) by lia.
    rewrite Z.mod_add, Z.mod_small by lia. lia.
  - rewrite bind_assoc. erewrite bind_err by exact E. eauto.
Qed.
