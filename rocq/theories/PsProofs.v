(** PsProofs: what the functions of package ps do on encoded program streams. *)
From Verif Require Import Base BitReader Exec Local TsLocal Mono PesModel SpecPes PesProofs PesLocal PsModel SpecPs.

(** ** Start codes *)
Lemma ps_check_enc : forall c v r l, 0 <= v < 2 ^ 32 ->
  ps_check c (setb r (enc 32 v ++ l)) = (Ok (v =? c), setb r (enc 32 v ++ l)).
Proof. intros. unfold ps_check. erewrite bind_ok by (apply peek_enc; cbn; lia). reflexivity. Qed.
Lemma ps_assert_enc : forall c r l, 0 <= c < 2 ^ 32 ->
  ps_assert c (setb r (enc 32 c ++ l)) = (Ok tt, setb r l).
Proof.
  intros. unfold ps_assert. erewrite bind_ok by (apply ps_check_enc; lia). rewrite Z.eqb_refl. apply skip_enc.
Qed.
Lemma ps_assert_bad : forall c v r l, 0 <= v < 2 ^ 32 -> v <> c ->
  ps_assert c (setb r (enc 32 v ++ l)) = (Err ErrPsUnexpectedStartCode, setb r (enc 32 v ++ l)).
Proof.
  intros. unfold ps_assert. erewrite bind_ok by (apply ps_check_enc; lia).
  now rewrite (proj2 (Z.eqb_neq v c)).
Qed.

(** ** Markers *)
Lemma marker_ok : forall n v r l, 0 <= v < 2 ^ Z.of_nat n -> marker n v (setb r (enc n v ++ l)) = (Ok tt, setb r l).
Proof. intros. unfold marker. erewrite bind_ok by (apply read_enc; auto). now rewrite Z.eqb_refl. Qed.
Lemma marker_bad : forall n v w r l, 0 <= v < 2 ^ Z.of_nat n -> v <> w ->
  marker n w (setb r (enc n v ++ l)) = (Err ErrMarkerNotFound, setb r l).
Proof. intros. unfold marker. erewrite bind_ok by (apply read_enc; auto). now rewrite (proj2 (Z.eqb_neq v w)). Qed.
Lemma marker_bit : forall r l, marker 1 1 (setb r (bit true ++ l)) = (Ok tt, setb r l).
Proof. reflexivity. Qed.
Lemma marker_bit_bad : forall r l, marker 1 1 (setb r (bit false ++ l)) = (Err ErrMarkerNotFound, setb r l).
Proof. reflexivity. Qed.

Ltac mk :=
  lazymatch goal with
  | |- context [bind (marker 1 1) _ (setb _ (bit true ++ _))] => erewrite bind_ok by apply marker_bit
  | _ => erewrite bind_ok by (apply marker_ok; cbn; lia)
  end.

(** ** System header *)
Definition go_sstream (s : sstream) : shstream := mkSHS (st_id s) (st_scale s) (st_size s).
(** As decoded: AudioBound holds the video bound, VideoBound is 0. *)
Definition go_sys (s : ssys) : sysheader :=
  mkSH (sm_length s) (sm_rate s) (sm_video s) (sm_fixed s) (sm_csps s) (sm_alock s) (sm_vlock s) 0
    (sm_restrict s) (map go_sstream (sm_streams s)).

Lemma enc8_high : forall v, 128 <= v < 2 ^ 8 -> exists t, enc 8 v = true :: t.
Proof.
  intros v H. cbn [enc]. eexists. f_equal. change (Z.of_nat 7) with 7.
  apply Z.testbit_true; [lia|]. replace (v / 2 ^ 7) with 1; [reflexivity|].
  apply (Z.div_unique v (2 ^ 7) 1 (v - 128)); lia.
Qed.

Lemma streams_loop_enc : forall ss fuel acc r l, Forall wf_sstream ss -> (length ss < fuel)%nat ->
  streams_loop fuel acc (setb r (flat_map enc_sstream ss ++ false :: l)) =
  (Ok (acc ++ map go_sstream ss), setb r (false :: l)).
Proof.
  induction ss as [|s ss IH]; intros fuel acc r l H Hf.
  - destruct fuel; [cbn in Hf; lia|]. cbn [flat_map app streams_loop map]. rewrite app_nil_r. reflexivity.
  - destruct fuel; [cbn in Hf; lia|]. pose proof (Forall_inv H) as [Hi Hs].
    cbn [flat_map streams_loop]. rewrite <- app_assoc. unfold enc_sstream at 1. rewrite <- !app_assoc.
    rewrite bind_ok with (a := 1) (s' := setb r (enc 8 (st_id s) ++ enc 2 3 ++ bit (st_scale s) ++ enc 13 (st_size s) ++ flat_map enc_sstream ss ++ false :: l)).
    2:{ destruct (enc8_high (st_id s) Hi) as [t E]. rewrite E. reflexivity. }
    cbn [Z.eqb Pos.eqb negb].
    erewrite bind_ok by (apply read_enc; cbn; lia).
    mk. xrun.
    rewrite IH; [|now apply Forall_inv_tail in H | cbn in Hf; lia].
    rewrite <- app_assoc. reflexivity.
Qed.

Lemma enc_sstreams_length : forall ss, length (flat_map enc_sstream ss) = (24 * length ss)%nat.
Proof.
  induction ss as [|s ss IH]; [reflexivity|]. cbn [flat_map]. rewrite app_length, IH.
  unfold enc_sstream, bit. autorewrite with len. cbn [length]. lia.
Qed.

Lemma read_system_enc : forall s r l, wf_sys s ->
  read_system_header (setb r (enc_sys s ++ false :: l)) = (Ok (go_sys s), setb r (false :: l)).
Proof.
  intros s r l (H1 & H2 & H3 & H4 & H5). unfold read_system_header, enc_sys. rewrite <- !app_assoc.
  assert (HL : 0 <= sm_length s) by (unfold sm_length; lia).
  xrun. mk. xrun. mk. xrun. mk. xrun.
  erewrite bind_ok; cycle 1.
  { rewrite rbits_setb. apply streams_loop_enc; [exact H4|].
    rewrite app_length, enc_sstreams_length. lia. }
  reflexivity.
Qed.

(** ** Pack header *)
Definition go_pack (p : spack) : packheader :=
  mkPKH (low32 (sk_base p)) (sk_ext p) (sk_rate p)
    (match sk_sys p with Some s => Some (go_sys s) | None => None end).

Lemma stuffing_skip_bb : forall d r l, stuffing_skip (length d) (setb r (bb d ++ l)) = (Ok tt, setb r l).
Proof.
  induction d as [|b d IH]; intros r l; [reflexivity|]. cbn [length stuffing_skip]. rewrite bb_cons, <- app_assoc.
  erewrite bind_ok by (apply ignore_ok, skip_enc). apply IH.
Qed.

(** What follows: any 32 bits that begin with a 0 and are no (second) system header start code. *)
Lemma pack_header_enc : forall p v r l, wf_packhead p -> 0 <= v < 2 ^ 31 -> v <> 443 ->
  new_pack_header (setb r (enc_packhead p ++ enc 32 v ++ l)) = (Ok (go_pack p), setb r (enc 32 v ++ l)).
Proof.
  intros p v r l (H1 & H2 & H3 & H4 & H5) Hv Hn. unfold new_pack_header, enc_packhead. rewrite <- !app_assoc.
  assert (HB : 0 <= blen (sk_stuffing p)) by (unfold blen; lia).
  erewrite bind_ok by (apply ps_assert_enc; cbn; lia).
  mk. erewrite bind_ok by apply read_enc_mod. cbv zeta.
  mk. erewrite bind_ok by apply read_enc_mod.
  mk. erewrite bind_ok by apply read_enc_mod.
  mk. xrun. mk. xrun. mk. mk. xrun.
  unfold blen at 1. rewrite Nat2Z.id.
  erewrite bind_ok by apply stuffing_skip_bb.
  unfold go_pack.
  destruct (sk_sys p) as [s|].
  - unfold enc_sys at 1. rewrite <- !app_assoc.
    erewrite bind_ok by (apply ps_check_enc; cbn; lia). cbn [Z.eqb Pos.eqb SystemHeaderStartCode].
    rewrite bind_assoc.
    assert (EL : exists l', enc 32 v ++ l = false :: l').
    { cbn [enc app]. eexists. f_equal. change (Z.of_nat 31) with 31.
      apply Z.bits_above_log2; [lia|]. destruct (Z.eq_dec v 0) as [->|]; [cbn; lia|]. apply Z.log2_lt_pow2; lia. }
    destruct EL as [l' ->].
    erewrite bind_ok; cycle 1.
    { pose proof (read_system_enc s r l' H5) as E. unfold enc_sys in E. rewrite <- !app_assoc in E. exact E. }
    xrun. unfold ret. do 3 f_equal. apply lor_parts. exact H1.
  - cbn [app]. erewrite bind_ok by (apply ps_check_enc; lia).
    change SystemHeaderStartCode with 443. rewrite (proj2 (Z.eqb_neq v 443)) by auto.
    xrun. unfold ret. do 3 f_equal. apply lor_parts. exact H1.
Qed.

Lemma pack_markers : forall p r l, 0 <= rk_01 p < 2 ^ 2 -> ~ rpack_markers p ->
  exists r', new_pack_header (setb r (enc_rpack p ++ l)) = (Err ErrMarkerNotFound, r').
Proof.
  intros p r l H0 H. unfold rpack_markers in H. unfold new_pack_header, enc_rpack. rewrite <- !app_assoc.
  erewrite bind_ok by (apply ps_assert_enc; cbn; lia).
  destruct (Z.eq_dec (rk_01 p) 1) as [E|E].
  2:{ erewrite bind_err by (apply marker_bad; [exact H0 | exact E]). eauto. }
  rewrite E. mk. erewrite bind_ok by apply read_enc_mod. cbv zeta.
  destruct (rk_m1 p); [|erewrite bind_err by apply marker_bit_bad; eauto].
  mk. erewrite bind_ok by apply read_enc_mod.
  destruct (rk_m2 p); [|erewrite bind_err by apply marker_bit_bad; eauto].
  mk. erewrite bind_ok by apply read_enc_mod.
  destruct (rk_m3 p); [|erewrite bind_err by apply marker_bit_bad; eauto].
  mk. erewrite bind_ok by apply read_enc_mod.
  destruct (rk_m4 p); [|erewrite bind_err by apply marker_bit_bad; eauto].
  mk. erewrite bind_ok by apply read_enc_mod.
  destruct (rk_m5 p); [|erewrite bind_err by apply marker_bit_bad; eauto].
  mk.
  destruct (rk_m6 p); [|erewrite bind_err by apply marker_bit_bad; eauto].
  tauto.
Qed.

(** ** Packets of a program stream *)
Lemma start_code : forall id len l, 0 <= id < 2 ^ 8 ->
  exists l', enc_start id len ++ l = enc 32 (256 + id) ++ l'.
Proof.
  intros id len l H. eexists. unfold enc_start.
  rewrite (enc_app 24 8). rewrite <- !app_assoc. f_equal.
  - f_equal. change (2 ^ Z.of_nat 8) with 256. apply (Z.div_unique (256 + id) 256 1 id); lia.
  - f_equal. rewrite <- (enc_ext_mod 8 (256 + id)), <- (enc_ext_mod 8 id). f_equal.
    change (2 ^ Z.of_nat 8) with 256. rewrite Z.add_mod, Z.mod_same, Z.add_0_l, Z.mod_mod by lia. reflexivity.
Qed.

Definition item_id (i : psitem) : Z := match i with PsPes s => se_id s | PsPadding _ => 190 end.
Lemma item_id_range : forall i, wf_psitem i -> 188 <= item_id i < 2 ^ 8.
Proof. intros [s|d] H; cbn in *; [|lia]. destruct H as [[[H _] _] H']. lia. Qed.
Lemma item_code : forall i l, wf_psitem i -> exists l', enc_psitem i ++ l = enc 32 (256 + item_id i) ++ l'.
Proof.
  intros i l H. pose proof (item_id_range i H) as HI.
  destruct i as [s|d]; cbn [enc_psitem item_id] in *; unfold enc_pes, enc_padding; rewrite <- app_assoc; apply start_code; lia.
Qed.

Definition go_item (i : psitem) : ppacket :=
  match i with PsPes s => go_pes s | PsPadding d => mkPP 190 (blen d) None [] end.
Lemma new_pes_item : forall i r l, wf_psitem i ->
  new_pes (setb r (enc_psitem i ++ l)) = (Ok tt, (go_item i, setb r l)).
Proof.
  intros [s|d] r l H; unfold new_pes; cbn [enc_psitem go_item wf_psitem] in *.
  - rewrite pes_next_enc by apply H. reflexivity.
  - rewrite pes_next_padding by apply H. reflexivity.
Qed.
Lemma go_item_payload : forall i, pp_payload (go_item i) = psitem_payload i.
Proof. intros [s|d]; reflexivity. Qed.
Lemma go_item_id : forall i, pp_id (go_item i) = item_id i.
Proof. intros [s|d]; reflexivity. Qed.
