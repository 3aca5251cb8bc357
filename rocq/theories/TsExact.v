(** TsExact: every adaptation field in the form of SpecAcceptTs is read, and what Next does on each form of packet. *)
From Verif Require Import Base BitReader Exec Local TsLocal TsRobust After TsModel SpecTs TsProofs SpecAcceptTs AcceptTs.

(** * Extension *)
Lemma skip_bit : forall b r l, ignore_err tt (skip_n 1) (setb r (bit b ++ l)) = (Ok tt, setb r l).
Proof. intros b r l. apply ignore_ok. apply skip_app. reflexivity. Qed.
Lemma rext_enc : forall x r l, wf_rext x -> exists g,
  new_ext (setb r (enc_rext x ++ l)) = (Ok (g, re_length x), setb r l) /\ rext_holds x g.
Proof.
  intros [n f1 f2 f3 res ow op os] r l (Bn & F0 & Bres & I1 & I2 & I3 & W1 & W2 & W3).
  unfold re_left3, re_left2, re_left1 in *.
  cbn [re_length re_f1 re_f2 re_f3 re_reserved re_ltw re_pwr re_seamless] in *.
  eexists. split; [|unfold rext_holds; cbn [re_length re_f1 re_f2 re_f3 re_reserved re_ltw re_pwr re_seamless];
    instantiate (1 := mkExt f1 f2 f3 (match ow with Some (v, _) => v | None => false end) (match ow with Some (_, o) => o | None => 0 end)
      (match op with Some (_, v) => v | None => 0 end) (match os with Some (t, _) => t | None => 0 end)
      (match os with Some (_, (a, _, b, _, c)) => a * 2 ^ 30 + b * 2 ^ 15 + c | None => 0 end) n);
    cbn [ae_ltw_flag ae_pwr_flag ae_splice_flag ae_ltw_valid ae_ltw_offset ae_pwr ae_splice_type ae_dts_next ae_length]; auto 12].
  unfold enc_rext. cbn [re_length re_f1 re_f2 re_f3 re_reserved re_ltw re_pwr re_seamless]. rewrite <- !app_assoc. unfold new_ext.
  erewrite bind_ok by (apply read_enc; cbn; lia). cbv beta.
  set (l1 := if 1 <=? n then n - 1 else 0) in *.
  assert (S1 : forall t, (if 1 <=? n then a <- read1 ;; b <- read1 ;; c <- read1 ;; ignore_err tt (skip_n 5) ;; ret (a, b, c, n - 1) else ret (false, false, false, n))
    (setb r ((if 1 <=? n then bit f1 ++ bit f2 ++ bit f3 ++ enc 5 res else []) ++ t)) = (Ok (f1, f2, f3, l1), setb r t)).
  { intro t. unfold l1. destruct (Z.leb_spec 1 n).
    - rewrite <- !app_assoc. xrun. reflexivity.
    - assert (n = 0) as -> by lia. destruct F0 as (-> & -> & ->); reflexivity. }
  erewrite bind_ok by apply S1. cbv beta iota. clear S1.
  erewrite bind_ok.
  2:{ instantiate (1 := setb r (match op with Some (r0, v) => enc 2 r0 ++ enc 22 v | None => [] end ++ match os with Some (t, (a, m, b, n0, c)) => enc 4 t ++ enc 3 a ++ bit m ++ enc 15 b ++ bit n0 ++ enc 15 c | None => [] end ++ l)).
      instantiate (1 := (match ow with Some (v, _) => v | None => false end, match ow with Some (_, o) => o | None => 0 end, l1 - olen ow 2)).
      replace ((2 <=? l1) && f1) with (fits f1 2 l1) by (unfold fits; apply andb_comm). rewrite <- I1. destruct ow as [[v o]|]; cbn [is_some olen].
      - rewrite <- !app_assoc. xrun. reflexivity.
      - rewrite Z.sub_0_r. reflexivity. }
  cbv beta iota. set (l2 := l1 - olen ow 2) in *.
  erewrite bind_ok.
  2:{ instantiate (1 := setb r (match os with Some (t, (a, m, b, n0, c)) => enc 4 t ++ enc 3 a ++ bit m ++ enc 15 b ++ bit n0 ++ enc 15 c | None => [] end ++ l)).
      instantiate (1 := (match op with Some (_, v) => v | None => 0 end, l2 - olen op 3)).
      replace ((3 <=? l2) && f2) with (fits f2 3 l2) by (unfold fits; apply andb_comm). rewrite <- I2. destruct op as [[v o]|]; cbn [is_some olen].
      - rewrite <- !app_assoc. xrun. reflexivity.
      - rewrite Z.sub_0_r. reflexivity. }
  cbv beta iota. set (l3 := l2 - olen op 3) in *.
  erewrite bind_ok.
  2:{ instantiate (1 := setb r l). instantiate (1 := (match os with Some (t, _) => t | None => 0 end, match os with Some (_, (a, _, b, _, c)) => a * 2 ^ 30 + b * 2 ^ 15 + c | None => 0 end)).
      replace ((5 <=? l3) && f3) with (fits f3 5 l3) by (unfold fits; apply andb_comm). rewrite <- I3. destruct os as [[t [[[[a m] b] m2] c]]|]; cbn [is_some].
      - destruct W3 as (? & ? & ? & ?). rewrite <- !app_assoc. do 2 xstep. erewrite bind_ok by apply skip_bit. xstep. erewrite bind_ok by apply skip_bit. xrun. reflexivity.
      - reflexivity. }
  reflexivity.
Qed.

(** * Field *)
Lemma opcr_run : forall (flag : bool) left o r l, is_some o = fits flag 6 left -> match o with Some p => wf_pcr p | None => True end ->
  (if (6 <=? left) && flag then x <- read_pcr ;; ret (x, left - 6) else ret (0, left)) (setb r (match o with Some p => enc_pcr p | None => [] end ++ l)) =
  (Ok (match o with Some p => pcr_value p | None => 0 end, left - olen o 6), setb r l).
Proof.
  intros flag left o r l I W. replace ((6 <=? left) && flag) with (fits flag 6 left) by (unfold fits; apply andb_comm). rewrite <- I. destruct o as [p|]; cbn [is_some olen].
  - erewrite bind_ok by (apply read_pcr_enc; exact W). reflexivity.
  - rewrite Z.sub_0_r. reflexivity.
Qed.
Lemma splice_run : forall (flag : bool) left o r l, is_some o = fits flag 1 left -> match o with Some v => 0 <= v < 256 | None => True end ->
  (if (1 <=? left) && flag then x <- read_n 8 ;; ret (x, left - 1) else ret (0, left)) (setb r (match o with Some v => enc 8 v | None => [] end ++ l)) =
  (Ok (match o with Some v => v | None => 0 end, left - olen o 1), setb r l).
Proof.
  intros flag left o r l I W. replace ((1 <=? left) && flag) with (fits flag 1 left) by (unfold fits; apply andb_comm). rewrite <- I. destruct o as [p|]; cbn [is_some olen].
  - erewrite bind_ok by (apply read_enc; cbn; lia). reflexivity.
  - rewrite Z.sub_0_r. reflexivity.
Qed.
Lemma private_run : forall (flag : bool) left o r l, is_some o = fits flag 1 left -> match o with Some d => bytes d /\ blen d < 256 | None => True end -> 0 <= left - priv_len o < 256 ->
  exists t, tpd_holds o t /\
  (if (1 <=? left) && flag then '(t, l) <- new_tpd ;; ret (Some t, u32 (left - u32 (l + 1))) else ret (None, left))
    (setb r (match o with Some d => enc 8 (blen d) ++ bb d | None => [] end ++ l)) = (Ok (t, left - priv_len o), setb r l).
Proof.
  intros flag left o r l I W B. replace ((1 <=? left) && flag) with (fits flag 1 left) by (unfold fits; apply andb_comm). rewrite <- I. destruct o as [d|]; cbn [is_some priv_len] in *.
  - destruct W as (W & L). pose proof (blen_nonneg d). exists (Some (mkTpd (blen d) d)). split; [cbn; auto|]. rewrite <- app_assoc. erewrite bind_ok by (apply new_tpd_enc; assumption). cbv beta iota.
    rewrite (u32_small (blen d + 1)) by lia. rewrite u32_small by lia. unfold ret. do 3 f_equal. lia.
  - exists None. split; [exact Logic.I|]. rewrite Z.sub_0_r. reflexivity.
Qed.
Lemma extension_run : forall (flag : bool) left o r l, is_some o = fits flag 2 left -> match o with Some d => wf_rext d | None => True end -> 0 <= left - rext_len o < 256 ->
  exists t, ext_holds o t /\
  (if (2 <=? left) && flag then '(x, l) <- new_ext ;; ret (Some x, u32 (left - u32 (l + 1))) else ret (None, left))
    (setb r (match o with Some d => enc_rext d | None => [] end ++ l)) = (Ok (t, left - rext_len o), setb r l).
Proof.
  intros flag left o r l I W B. replace ((2 <=? left) && flag) with (fits flag 2 left) by (unfold fits; apply andb_comm). rewrite <- I. destruct o as [d|]; cbn [is_some rext_len] in *.
  - destruct (rext_enc d r l W) as (g & E & G). exists (Some g). split; [exact G|]. erewrite bind_ok by exact E. cbv beta iota. destruct W as (W & _).
    rewrite (u32_small (re_length d + 1)) by lia. rewrite u32_small by lia. unfold ret. do 3 f_equal. lia.
  - exists None. split; [exact Logic.I|]. rewrite Z.sub_0_r. reflexivity.
Qed.
Lemma fits_le : forall A (o : option A) flag need left, 0 <= need -> 0 <= left -> is_some o = fits flag need left -> 0 <= left - olen o need.
Proof. intros A [a|] flag need left H L I; cbn [is_some olen] in *; [|lia]. unfold fits in I. symmetry in I. apply andb_prop in I. destruct I as (_ & I). apply Z.leb_le in I. lia. Qed.

Lemma rfield_enc : forall f r l, wf_rfield f -> exists g,
  new_af (setb r (enc_rfield f ++ l)) = (Ok (g, rf_length f), setb r l) /\ rfield_holds f g.
Proof.
  intros [n d ra ep f1 f2 f3 f4 f5 o1 o2 o3 o4 o5 junk] r l (Bn & F0 & I1 & I2 & I3 & I4 & I5 & W1 & W2 & W3 & W4 & W5 & Bj & Lj).
  unfold rf_left5, rf_left4, rf_left3, rf_left2, rf_left1 in *.
  cbn [rf_length rf_disc rf_random rf_esprio rf_f1 rf_f2 rf_f3 rf_f4 rf_f5 rf_pcr rf_opcr rf_splice rf_private rf_ext rf_stuffing] in *.
  set (l1 := if 1 <=? n then n - 1 else 0) in *. set (l2 := l1 - olen o1 6) in *. set (l3 := l2 - olen o2 6) in *. set (l4 := l3 - olen o3 1) in *. set (l5 := l4 - priv_len o4) in *. set (l6 := l5 - rext_len o5) in *.
  assert (N1 : 0 <= l1 < 256) by (unfold l1; destruct (Z.leb_spec 1 n); lia).
  pose proof (olen_nonneg _ o1 6 ltac:(lia)). pose proof (olen_nonneg _ o2 6 ltac:(lia)). pose proof (olen_nonneg _ o3 1 ltac:(lia)). pose proof (priv_len_nonneg o4). pose proof (blen_nonneg junk).
  assert (0 <= rext_len o5) by (destruct o5 as [x|]; cbn [rext_len]; [destruct W5|]; lia).
  destruct (private_run f4 l4 o4 r (match o5 with Some x => enc_rext x | None => [] end ++ bb junk ++ l) I4 W4 ltac:(lia)) as (tp & T1 & T2).
  destruct (extension_run f5 l5 o5 r (bb junk ++ l) I5 W5 ltac:(lia)) as (te & X1 & X2).
  exists (mkAF d ra ep f1 f2 f3 f4 f5 (match o1 with Some p => pcr_value p | None => 0 end) (match o2 with Some p => pcr_value p | None => 0 end)
    (match o3 with Some v => v | None => 0 end) tp te n junk).
  split; [|unfold rfield_holds; cbn [rf_length rf_disc rf_random rf_esprio rf_f1 rf_f2 rf_f3 rf_f4 rf_f5 rf_pcr rf_opcr rf_splice rf_private rf_ext rf_stuffing af_length af_disc af_random af_esprio af_pcr_flag af_opcr_flag af_splice_flag af_tpd_flag af_ext_flag af_pcr af_opcr af_splice af_tpd af_ext af_junk]; do 12 (split; [reflexivity|]); auto].
  unfold enc_rfield. cbn [rf_length rf_disc rf_random rf_esprio rf_f1 rf_f2 rf_f3 rf_f4 rf_f5 rf_pcr rf_opcr rf_splice rf_private rf_ext rf_stuffing]. rewrite <- !app_assoc. unfold new_af.
  erewrite bind_ok by (apply read_enc; cbn; lia). cbv beta.
  assert (S1 : forall t, (if 1 <=? n then d <- read1 ;; ra <- read1 ;; ep <- read1 ;; pf <- read1 ;; of <- read1 ;; sf <- read1 ;; tf <- read1 ;; ef <- read1 ;; ret (d, ra, ep, pf, of, sf, tf, ef, n - 1)
     else ret (false, false, false, false, false, false, false, false, n))
    (setb r ((if 1 <=? n then bit d ++ bit ra ++ bit ep ++ bit f1 ++ bit f2 ++ bit f3 ++ bit f4 ++ bit f5 else []) ++ t)) = (Ok (d, ra, ep, f1, f2, f3, f4, f5, l1), setb r t)).
  { intro t. unfold l1. destruct (Z.leb_spec 1 n).
    - rewrite <- !app_assoc. xrun. reflexivity.
    - assert (n = 0) as -> by lia. destruct F0 as (-> & -> & -> & -> & -> & -> & -> & ->); reflexivity. }
  erewrite bind_ok by apply S1. cbv beta iota.
  erewrite bind_ok by (apply opcr_run; assumption). cbv beta iota. fold l2.
  erewrite bind_ok by (apply opcr_run; assumption). cbv beta iota. fold l3.
  erewrite bind_ok by (apply splice_run; assumption). cbv beta iota. fold l4.
  erewrite bind_ok by exact T2. cbv beta iota. fold l5.
  erewrite bind_ok by exact X2. cbv beta iota. fold l6. rewrite <- Lj.
  destruct (Z.ltb_spec 0 (blen junk)).
  - erewrite bind_ok by (rewrite read_bytes_bb by assumption; reflexivity). reflexivity.
  - destruct junk; [reflexivity|]. unfold blen in *; cbn [length] in *; lia.
Qed.

(** * Synchronisation *)
Lemma realign_run : forall junk k r t, bytes junk -> ~ In 71 junk -> (length junk < k)%nat ->
  realign_loop k (setb r (bb junk ++ enc 8 71 ++ t)) = (Ok tt, setb r (enc 8 71 ++ t)).
Proof.
  induction junk as [|x junk IH]; intros [|k] r t B N L; cbn [length] in L; try lia; cbn [realign_loop].
  - cbn [bb flat_map app]. erewrite bind_ok by (apply peek_enc; cbn; lia). reflexivity.
  - inversion B as [|? ? Bx Bj]; subst. change (bb (x :: junk)) with (enc 8 x ++ bb junk). rewrite <- app_assoc. erewrite bind_ok by (apply peek_enc; exact Bx). cbv beta.
    destruct (Z.eqb_spec x SyncByte) as [E|_]; [exfalso; apply N; left; exact E|]. erewrite bind_ok by apply skip_enc. apply IH; [exact Bj | intro X; apply N; right; exact X | lia].
Qed.
Lemma sync_run : forall T (p : T) al junk r t, (length al < 8)%nat -> aligned_len t -> bytes junk -> ~ In 71 junk -> (length junk < 188)%nat ->
  exists b, onr ts_is_aligned (p, setb r (al ++ bb junk ++ enc 8 71 ++ t)) = (Ok b, (p, setb r (al ++ bb junk ++ enc 8 71 ++ t))) /\
    (if negb b then onr realign else ret tt) (p, setb r (al ++ bb junk ++ enc 8 71 ++ t)) = (Ok tt, (p, setb r (enc 8 71 ++ t))).
Proof.
  intros T p al junk r t La At Bj N Lj.
  assert (AL : aligned_len (bb junk ++ enc 8 71 ++ t)) by (apply aligned_app; [apply aligned_bb | apply aligned_app; [apply (aligned_mult _ 1); apply enc_length | exact At]]).
  assert (LM : (length (al ++ bb junk ++ enc 8 71 ++ t) mod 8)%nat = length al).
  { rewrite app_length, Nat.add_mod by lia. unfold aligned_len in AL. rewrite AL, Nat.add_0_r, Nat.mod_mod by lia. apply Nat.mod_small. exact La. }
  unfold onr, ts_is_aligned, realign. cbn [fst snd]. rewrite !is_aligned_setb, LM. destruct al as [|b0 al].
  - cbn [length Nat.eqb negb app]. destruct junk as [|x junk].
    + exists true. cbn [bb flat_map app]. split; [|reflexivity]. erewrite bind_ok by (apply peek_enc; cbn; lia). reflexivity.
    + exists false. split.
      * inversion Bj as [|? ? Bx _]; subst. change (bb (x :: junk)) with (enc 8 x ++ bb junk). rewrite <- !app_assoc. erewrite bind_ok by (apply peek_enc; exact Bx). unfold ret. destruct (Z.eqb_spec x SyncByte) as [E|_]; [exfalso; apply N; left; exact E | reflexivity].
      * cbn [negb]. cbn [snd fst]. rewrite is_aligned_setb. unfold aligned_len in AL. rewrite AL. cbn [Nat.eqb negb]. rewrite realign_run by assumption. reflexivity.
  - exists false. cbn [length Nat.eqb negb]. split; [reflexivity|]. cbn [fst snd]. rewrite is_aligned_setb, LM. cbn [length Nat.eqb negb]. unfold align. rewrite rbits_setb, LM, setb_setb, skipn_app_exact by reflexivity.
    rewrite realign_run by assumption. reflexivity.
Qed.

(** * Packet *)
(** The fields of the header in a Packet *)
Definition with_head (tei pusi prio : bool) (pid tsc afc cc : Z) (p : packet) : packet :=
  mkPk tei pusi prio pid tsc afc cc (pk_af p) (pk_buf p) (pk_len p).
Lemma head_run : forall p al junk r tei pusi prio pid tsc afc cc t, (length al < 8)%nat -> aligned_len t -> bytes junk -> ~ In 71 junk -> (length junk < 188)%nat ->
  0 <= pid < 2 ^ 13 -> 0 <= tsc < 2 ^ 2 -> 0 <= afc < 2 ^ 2 -> 0 <= cc < 2 ^ 4 ->
  packet_next (p, setb r (al ++ bb junk ++ (enc 8 71 ++ bit tei ++ bit pusi ++ bit prio ++ enc 13 pid ++ enc 2 tsc ++ enc 2 afc ++ enc 4 cc) ++ t)) =
  next_tail afc (with_head tei pusi prio pid tsc afc cc p, setb r t).
Proof.
  intros p al junk r tei pusi prio pid tsc afc cc t La At Bj N Lj R1 R2 R3 R4. rewrite <- !app_assoc.
  set (t1 := bit tei ++ _). assert (A1 : aligned_len t1).
  { unfold t1, aligned_len. rewrite !app_length, !enc_length. cbn [bit length]. replace (1 + (1 + (1 + (13 + (2 + (2 + (4 + length t)))))))%nat with (3 * 8 + length t)%nat by lia.
    rewrite Nat.add_comm, Nat.mod_add by lia. exact At. }
  destruct (sync_run packet p al junk r t1 La A1 Bj N Lj) as (b & E1 & E2). unfold packet_next. erewrite bind_ok by exact E1. cbv beta. erewrite bind_ok by exact E2. cbv beta. unfold t1. xrun. reflexivity.
Qed.
