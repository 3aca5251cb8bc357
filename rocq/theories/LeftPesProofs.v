(** LeftPesProofs: what a pes Next that ran out of input leaves (see SpecLeft). *)
From Verif Require Import Base BitReader Exec Local TsLocal PesModel SpecPes PesProofs PesLocal PropertiesPes SpecLeft.

Lemma pes_cut_prefix : forall p r l, (length l < 24)%nat -> exists e r', pes_next (p, setb r l) = (Err e, (p, r')).
Proof.
  intros p r l H. unfold pes_next. destruct (peek_n_short 24 (setb r l) H) as (e & r' & E). erewrite bind_onr_err by exact E. eauto.
Qed.
Lemma pes_after_prefix : forall p r l, pes_next (p, setb r (enc 24 1 ++ l)) =
  (id <- onrz (pset_id 0) (read_n 8) ;; upd (pset_id id) ;; len <- onrz (pset_length 0) (read_n 16) ;; upd (pset_length len) ;; pes_rest id len) (p, setb r l).
Proof.
  intros p r l. unfold pes_next. erewrite bind_onr_ok by (apply peek_enc; cbn; lia). change (1 =? StartCodePrefix) with true. cbv iota. rewrite bind_ret.
  erewrite bind_onr_ok by (apply ignore_ok; apply skip_enc). reflexivity.
Qed.
Lemma pes_cut3 : forall p r, exists e r', pes_next (p, setb r (enc 24 1)) = (Err e, (pset_id 0 p, r')).
Proof.
  intros p r. rewrite <- (app_nil_r (enc 24 1)), pes_after_prefix. destruct (read_n_short 8 (setb r [])) as (e & r' & E); [cbn; lia|]. erewrite bind_onrz_err by exact E. eauto.
Qed.
Lemma pes_cut4 : forall p r id l, 0 <= id < 2 ^ 8 -> (length l < 16)%nat ->
  exists e r', pes_next (p, setb r (enc 24 1 ++ enc 8 id ++ l)) = (Err e, (pset_length 0 (pset_id id p), r')).
Proof.
  intros p r id l Hi Hl. rewrite pes_after_prefix. erewrite bind_onrz_ok by (apply read_enc; exact Hi). rewrite bind_upd. destruct (read_n_short 16 (setb r l) Hl) as (e & r' & E). erewrite bind_onrz_err by exact E. eauto.
Qed.

Lemma head_cut : forall h r j, wf_head h -> rlater r = [] -> (j < Z.to_nat (3 + data_len h))%nat ->
  exists e r', read_header (setb r (firstn (8 * j) (enc_head h))) = (Err e, r').
Proof.
  intros h r j W Hr Hj. pose proof (enc_head_length h W) as L.
  assert (LF : length (firstn (8 * j) (enc_head h)) = (8 * j)%nat) by (rewrite firstn_length; lia).
  assert (LS : length (skipn (8 * j) (enc_head h)) = (8 * (Z.to_nat (3 + data_len h) - j))%nat) by (rewrite skipn_length; lia).
  eapply local_truncated with (P := at8 0) (Q := at8 0) (x := skipn (8 * j) (enc_head h)).
  - apply local_header.
  - exact Hr.
  - unfold at8, lmod. rewrite LF, Nat.mul_comm. apply Nat.mod_mul. lia.
  - unfold lmod. rewrite LS, Nat.mul_comm. apply Nat.mod_mul. lia.
  - intro E. rewrite E in LS. cbn [length] in LS. lia.
  - rewrite firstn_skipn. rewrite <- (app_nil_r (enc_head h)). apply read_header_enc; auto.
Qed.

Lemma bb_firstn : forall d j, firstn (8 * j) (bb d) = bb (firstn j d).
Proof.
  induction d as [|b d IH]; intros [|j]; try reflexivity. rewrite bb_cons. replace (8 * S j)%nat with (length (enc 8 b) + 8 * j)%nat by (rewrite enc_length; lia).
  rewrite firstn_app_2. cbn [firstn]. rewrite bb_cons. f_equal. apply IH.
Qed.

Lemma bounded_left : forall n d j p r, bytes d -> n = blen d -> (j < length d)%nat ->
  exists e r', pes_bounded n (p, setb r (bb (firstn j d))) = (Err e, (pset_payload (firstn j d ++ repeat 0 (length d - j)) p, r')).
Proof.
  intros n d j p r Hd -> Hj. unfold pes_bounded. cbn [fst snd]. assert (LB : length (bb (firstn j d)) = (8 * j)%nat) by (rewrite bb_length, firstn_length; lia).
  unfold read_full. unfold blen in *. rewrite (proj2 (Z.leb_gt _ 0)) by lia.
  assert (AV : avail (setb r (bb (firstn j d))) = Z.of_nat j) by (rewrite avail_setb, LB, Nat2Z.inj_mul, Z.mul_comm, Z.div_mul by lia; reflexivity).
  rewrite AV, (proj2 (Z.leb_gt _ _)) by lia. rewrite !Nat2Z.id, rbits_setb.
  assert (GB : get_bytes j (bb (firstn j d)) = firstn j d).
  { replace j with (length (firstn j d)) at 1 by (rewrite firstn_length; lia). rewrite <- (app_nil_r (bb (firstn j d))). apply get_bytes_bb. rewrite <- (firstn_skipn j d) in Hd. apply Forall_app in Hd. apply Hd. }
  rewrite GB. unfold copy_into. rewrite firstn_length. replace (Nat.min j (length d)) with j by lia.
  assert (SR : skipn j (repeat 0 (length d)) = repeat 0 (length d - j)).
  { replace (length d) with (j + (length d - j))%nat at 1 by lia. rewrite repeat_app, skipn_app, repeat_length, Nat.sub_diag, skipn_all2 by (rewrite repeat_length; lia). reflexivity. }
  rewrite SR. eauto.
Qed.

Lemma pes_cut_any : forall s p r k, wf_pes s -> rlater r = [] -> (k < Z.to_nat (6 + se_len s))%nat ->
  exists e p' r', pes_next (p, setb r (firstn (8 * k) (enc_pes s))) = (Err e, (p', r')) /\ left_in_pes s k p p'.
Proof.
  intros s p r k W Hr Hk. pose proof (enc_pes_length s W) as HL. pose proof W as (H1 & H2 & H3 & H4). pose proof (proj1 H1) as HI.
  pose proof (data_len_range (se_head s)) as HR. unfold se_len, blen in *.
  assert (HH : forall p', (k < 6)%nat -> pp_header p' = pp_header p -> exists g, head_holds (se_head s) g /\ stamps_hold (fun t => t mod 2 ^ 32) (sh_stamps (se_head s)) g /\ pp_header p' = held k 6 (se_before s) (pp_header p) None (Some g)).
  { intros p' Q E. exists (go_head (se_head s) (data_len (se_head s))). split; [apply go_head_holds|]. split; [apply go_stamps_hold|]. unfold held. rewrite (proj2 (Nat.ltb_lt k 6)) by lia. exact E. }
  assert (HP : forall p', (k < se_before s)%nat -> pp_payload p' = pp_payload p -> pp_payload p' = (if (k <? se_before s)%nat then pp_payload p else firstn (k - se_before s) (se_payload s) ++ repeat 0 (se_before s + length (se_payload s) - k))).
  { intros p' Q E. rewrite (proj2 (Nat.ltb_lt k _)) by exact Q. exact E. }
  assert (HB : (9 <= se_before s)%nat) by (unfold se_before; lia).
  unfold left_in_pes. destruct (Nat.lt_ge_cases k 3) as [Q|Q].
  { destruct (pes_cut_prefix p r (firstn (8 * k) (enc_pes s)) ltac:(rewrite firstn_length; lia)) as (e & r' & E). exists e, p, r'. split; [exact E|].
    unfold held. rewrite (proj2 (Nat.ltb_lt k 3)), (proj2 (Nat.ltb_lt k 4)) by lia. split; [reflexivity|]. split; [reflexivity|]. split; [apply HH | apply HP]; auto; lia. }
  assert (E8 : firstn (8 * k) (enc_pes s) = enc 24 1 ++ firstn (8 * k - 24) (enc 8 (se_id s) ++ enc 16 (se_len s) ++ enc_head (se_head s) ++ bb (se_payload s))).
  { unfold enc_pes, enc_start. rewrite <- !app_assoc, firstn_app, enc_length. f_equal. apply firstn_all2. rewrite enc_length. lia. }
  rewrite E8. destruct (Nat.eq_dec k 3) as [->|N3].
  { cbn [Nat.mul Nat.sub Nat.add firstn]. rewrite app_nil_r. destruct (pes_cut3 p r) as (e & r' & E). exists e, (pset_id 0 p), r'. split; [exact E|].
    split; [reflexivity|]. split; [reflexivity|]. split; [apply HH | apply HP]; auto; lia. }
  rewrite firstn_app, enc_length, (firstn_all2 (enc 8 _)) by (rewrite enc_length; lia).
  destruct (Nat.lt_ge_cases k 6) as [Q6|Q6].
  { destruct (pes_cut4 p r (se_id s) (firstn (8 * k - 24 - 8) (enc 16 (se_len s) ++ enc_head (se_head s) ++ bb (se_payload s))) HI ltac:(rewrite firstn_length; lia)) as (e & r' & E). exists e, (pset_length 0 (pset_id (se_id s) p)), r'. split; [exact E|].
    unfold held at 1 2. rewrite (proj2 (Nat.ltb_ge k 3)), (proj2 (Nat.ltb_ge k 4)), (proj2 (Nat.ltb_lt k 6)) by lia. split; [reflexivity|]. split; [reflexivity|]. split; [apply HH | apply HP]; auto; lia. }
  rewrite firstn_app, enc_length, (firstn_all2 (enc 16 _)) by (rewrite enc_length; lia). replace (8 * k - 24 - 8 - 16)%nat with (8 * (k - 6))%nat by lia.
  rewrite pes_after_prefix. change (2 ^ 8) with 256 in HI. change (2 ^ 16) with 65536 in H4.
  erewrite bind_onrz_ok by (apply read_enc; cbn; lia). rewrite bind_upd. erewrite bind_onrz_ok by (apply read_enc; unfold se_len, blen; change (2 ^ Z.of_nat 16) with 65536; lia). rewrite bind_upd.
  unfold held at 1 2. rewrite (proj2 (Nat.ltb_ge k 3)), !(proj2 (Nat.ltb_ge k 4)), (proj2 (Nat.ltb_ge k 6)) by lia.
  unfold pes_rest. rewrite (proj2 (has_header_spec _ HI) H1). rewrite firstn_app. pose proof (enc_head_length _ H2) as LH.
  destruct (Nat.lt_ge_cases k (se_before s)) as [Qb|Qb]; unfold se_before in Qb.
  - replace (8 * (k - 6) - length (enc_head (se_head s)))%nat with 0%nat by lia. cbn [firstn]. rewrite app_nil_r.
    destruct (head_cut (se_head s) r (k - 6) H2 Hr ltac:(lia)) as (e & r' & E). unfold bind, pes_header. cbn [fst snd]. rewrite E. eexists _, _, _. split; [reflexivity|].
    split; [reflexivity|]. split; [reflexivity|]. split; [|apply HP; [unfold se_before; lia | reflexivity] ].
    exists (go_head (se_head s) (data_len (se_head s))). split; [apply go_head_holds|]. split; [apply go_stamps_hold|]. unfold held, se_before. rewrite (proj2 (Nat.ltb_ge k 6)), (proj2 (Nat.ltb_lt k _)) by lia. reflexivity.
  - rewrite (firstn_all2 (enc_head _)) by lia. replace (8 * (k - 6) - length (enc_head (se_head s)))%nat with (8 * (k - se_before s))%nat by (unfold se_before; lia).
    erewrite bind_ok. 2:{ unfold pes_header. cbn [fst snd]. rewrite read_header_enc by exact H2. reflexivity. }
    rewrite (proj2 (Z.ltb_lt 0 _)) by (unfold se_len, blen; lia). rewrite u32_small by (unfold se_len, blen; lia). rewrite bb_firstn.
    destruct (bounded_left (se_len s - (3 + data_len (se_head s))) (se_payload s) (k - se_before s) (pset_header (Some (go_head (se_head s) (data_len (se_head s)))) (pset_length (se_len s) (pset_id (se_id s) p))) r H3 ltac:(unfold se_len, blen; lia) ltac:(unfold se_before; lia)) as (e & r' & E).
    cbn [fst]. eexists _, _, _. split; [exact E|]. split; [reflexivity|]. split; [reflexivity|]. split.
    + exists (go_head (se_head s) (data_len (se_head s))). split; [apply go_head_holds|]. split; [apply go_stamps_hold|]. unfold held, se_before. rewrite (proj2 (Nat.ltb_ge k 6)), (proj2 (Nat.ltb_ge k _)) by lia. reflexivity.
    + rewrite (proj2 (Nat.ltb_ge k _)) by (unfold se_before; lia). cbn [pset_payload pp_payload]. f_equal. f_equal. unfold se_before in *. lia.
Qed.
