(** AcceptTs: what ts.Packet.Next accepts - the inverse of the round trips. *)
From Verif Require Import Base BitReader Exec TsRobust PesLocal After TsModel SpecTs SpecAcceptTs.

(** Bits left, to the byte *)
Definition lm (r : reader) : nat := (length (rbits r) mod 8)%nat.
Lemma lm_after : forall r c r' k, after r c r' -> (lm r = (length c + k) mod 8)%nat -> (lm r' = k mod 8)%nat.
Proof.
  intros r c r' k A H. unfold lm in *. rewrite (after_length _ _ _ A) in H. clear A. generalize dependent (length (rbits r')). intros x H. generalize dependent (length c). intros y H.
  pose proof (Nat.div_mod (y + x) 8 ltac:(lia)). pose proof (Nat.div_mod (y + k) 8 ltac:(lia)). pose proof (Nat.div_mod x 8 ltac:(lia)). pose proof (Nat.div_mod k 8 ltac:(lia)).
  pose proof (Nat.mod_upper_bound x 8 ltac:(lia)). pose proof (Nat.mod_upper_bound k 8 ltac:(lia)). lia.
Qed.
(** The error of a skip within a byte is no loss. *)
Lemma skip_in_byte : forall n r u r', ignore_err tt (skip_n n) r = (Ok u, r') -> (n <= lm r)%nat -> exists v, 0 <= v < 2 ^ Z.of_nat n /\ after r (enc n v) r'.
Proof.
  intros n r u r' H L. assert (L2 : (n <= length (rbits r))%nat) by (unfold lm in L; pose proof (Nat.mod_le (length (rbits r)) 8 ltac:(lia)); lia).
  assert (X : skip_n n r = (Ok tt, setb r (skipn n (rbits r)))) by (unfold skip_n, bind; rewrite read_n_enough by exact L2; reflexivity).
  unfold ignore_err in H. rewrite X in H. assert (r' = setb r (skipn n (rbits r))) as -> by congruence. exact (skip_after _ _ _ _ X).
Qed.
(** A failing skip at the end is followed by a failing read. *)
Lemma skip_then_read : forall n m r u r' v r'', rlater r = [] -> ignore_err tt (skip_n n) r = (Ok u, r') -> read_n m r' = (Ok v, r'') -> (0 < n)%nat -> lm r = 0%nat -> (n <= 8)%nat -> (0 < m)%nat -> exists w, 0 <= w < 2 ^ Z.of_nat n /\ after r (enc n w) r'.
Proof.
  intros n m r u r' v r'' Hr H R Hn HL H8 Hm. destruct (Nat.le_gt_cases n (length (rbits r))) as [L|L].
  - assert (X : skip_n n r = (Ok tt, setb r (skipn n (rbits r)))) by (unfold skip_n, bind; rewrite read_n_enough by exact L; reflexivity).
    unfold ignore_err in H. rewrite X in H. assert (r' = setb r (skipn n (rbits r))) as -> by congruence. exact (skip_after _ _ _ _ X).
  - exfalso. assert (E : rbits r = []). { destruct (rbits r) as [|b l] eqn:E; [reflexivity|]. exfalso. unfold lm in HL. rewrite E in HL. rewrite Nat.mod_small in HL by lia. cbn [length] in *. lia. }
    unfold ignore_err, skip_n, bind, read_n in H. rewrite E in H. cbn [length] in H. rewrite (proj2 (Nat.leb_gt _ _)) in H by lia. unfold short in H. rewrite E in H. unfold advance in H. rewrite Hr in H.
    assert (r' = setb r []) as -> by congruence. apply read_n_ok_inv in R. destruct R as (R & _). cbn [setb rbits length] in R. lia.
Qed.
Tactic Notation "take" hyp(H) ident(x) ident(r1) :=
  let E := fresh "E" in apply bind_ok_inv in H; destruct H as (x & r1 & E & H);
  lazymatch type of E with
  | read_n _ _ = _ => let B := fresh "B" in apply read_after in E; destruct E as (B & E)
  | read1 _ = _ => apply read1_after in E
  | _ => idtac
  end.
Ltac same H := unfold ret in H; first [split; [congruence|]; first [split; [congruence|]; first [split; congruence | congruence] | congruence] | congruence].

(** * Extension *)
Definition rext_holds (x : rext) (g : aext) : Prop :=
  ae_ltw_flag g = re_f1 x /\ ae_pwr_flag g = re_f2 x /\ ae_splice_flag g = re_f3 x /\
  ae_ltw_valid g = match re_ltw x with Some (v, _) => v | None => false end /\ ae_ltw_offset g = match re_ltw x with Some (_, o) => o | None => 0 end /\
  ae_pwr g = match re_pwr x with Some (_, v) => v | None => 0 end /\
  ae_splice_type g = match re_seamless x with Some (t, _) => t | None => 0 end /\
  ae_dts_next g = match re_seamless x with Some (_, (a, _, b, _, c)) => a * 2 ^ 30 + b * 2 ^ 15 + c | None => 0 end /\ ae_length g = re_length x.
Lemma ext_after : forall r g n r', rlater r = [] -> lm r = 0%nat -> new_ext r = (Ok (g, n), r') ->
  exists x, wf_rext x /\ after r (enc_rext x) r' /\ rext_holds x g /\ n = re_length x.
Proof.
  intros r g n r' Hr HL H. unfold new_ext in H. take H len r1. change (2 ^ Z.of_nat 8) with 256 in B. assert (L1 : lm r1 = 0%nat) by (apply (lm_after _ _ _ 0 E); rewrite enc_length, HL; reflexivity).
  assert (R1 : rlater r1 = []) by (rewrite (after_later _ _ _ E); exact Hr).
  take H q1 r2. destruct q1 as [[[f1 f2] f3] rem1]. take H q2 r3. destruct q2 as [[v o] rem2]. take H q3 r4. destruct q3 as [pw rem3]. take H q4 r5. destruct q4 as [st dts].
  assert (P1 : exists res, 0 <= res < 2 ^ 5 /\ after r1 (if 1 <=? len then bit f1 ++ bit f2 ++ bit f3 ++ enc 5 res else []) r2 /\ rem1 = (if 1 <=? len then len - 1 else 0) /\ lm r2 = 0%nat /\ (len = 0 -> f1 = false /\ f2 = false /\ f3 = false)).
  { destruct (Z.leb_spec 1 len) as [Ll|Ll].
    - take E0 a r6. take E0 b r7. take E0 c r8. take E0 u r9.
      assert (L8 : lm r8 = 5%nat) by (refine (lm_after _ _ _ 5 E6 _); refine (lm_after _ _ _ 6 E5 _); refine (lm_after _ _ _ 7 E4 _); rewrite L1; reflexivity).
      apply skip_in_byte in E7; [|lia]. destruct E7 as (res & Br & E7). assert (L9 : lm r9 = 0%nat) by (apply (lm_after _ _ _ 0 E7); rewrite enc_length, L8; reflexivity).
      assert (f1 = a /\ f2 = b /\ f3 = c /\ rem1 = len - 1 /\ r9 = r2) as (-> & -> & -> & -> & ->) by (unfold ret in E0; repeat apply conj; congruence).
      exists res. split; [exact Br|]. split; [chain|]. split; [reflexivity|]. split; [exact L9 | lia].
    - assert (f1 = false /\ f2 = false /\ f3 = false /\ rem1 = len /\ r1 = r2) as (-> & -> & -> & -> & ->) by (unfold ret in E0; repeat apply conj; congruence). exists 0. split; [cbn; lia|]. split; [apply after_nil|]. split; [lia|]. auto. }
  destruct P1 as (res & Br & A1 & -> & L2 & F0). set (l1 := if 1 <=? len then len - 1 else 0) in *.
  assert (R2 : rlater r2 = []) by (rewrite (after_later _ _ _ A1); exact R1).
  assert (P2 : exists ow, is_some ow = fits f1 2 l1 /\ match ow with Some (_, o) => 0 <= o < 2 ^ 15 | None => True end /\ v = match ow with Some (v, _) => v | None => false end /\ o = match ow with Some (_, o) => o | None => 0 end /\
     rem2 = l1 - olen ow 2 /\ after r2 (match ow with Some (v, o) => bit v ++ enc 15 o | None => [] end) r3 /\ lm r3 = 0%nat).
  { replace ((2 <=? l1) && f1) with (fits f1 2 l1) in E1 by (unfold fits; apply andb_comm). destruct (fits f1 2 l1).
    - take E1 a r6. take E1 b r7. assert (v = a /\ o = b /\ rem2 = l1 - 2 /\ r7 = r3) as (-> & -> & -> & ->) by (unfold ret in E1; repeat apply conj; congruence).
      exists (Some (a, b)). split; [reflexivity|]. split; [exact B0|]. do 3 (split; [reflexivity|]). split; [chain|]. apply (lm_after _ _ _ 0 E5). rewrite enc_length. refine (lm_after _ _ _ 15 E4 _). rewrite L2. reflexivity.
    - assert (v = false /\ o = 0 /\ rem2 = l1 /\ r2 = r3) as (-> & -> & -> & ->) by (unfold ret in E1; repeat apply conj; congruence). exists None. split; [reflexivity|]. split; [exact I|]. do 2 (split; [reflexivity|]). split; [cbn [olen]; lia|]. split; [apply after_nil | exact L2]. }
  destruct P2 as (ow & I2 & W2 & -> & -> & -> & A2 & L3). set (l2 := l1 - olen ow 2) in *. assert (R3 : rlater r3 = []) by (rewrite (after_later _ _ _ A2); exact R2).
  assert (P3 : exists op, is_some op = fits f2 3 l2 /\ match op with Some (r, v) => 0 <= r < 2 ^ 2 /\ 0 <= v < 2 ^ 22 | None => True end /\ pw = match op with Some (_, v) => v | None => 0 end /\
     rem3 = l2 - olen op 3 /\ after r3 (match op with Some (r, v) => enc 2 r ++ enc 22 v | None => [] end) r4 /\ lm r4 = 0%nat).
  { replace ((3 <=? l2) && f2) with (fits f2 3 l2) in E2 by (unfold fits; apply andb_comm). destruct (fits f2 3 l2).
    - take E2 u r6. apply bind_ok_inv in E2. destruct E2 as (x & r7 & E5 & E2). destruct (skip_then_read _ _ _ _ _ _ _ R3 E4 E5 ltac:(lia) L3 ltac:(lia) ltac:(lia)) as (w & Bw & Aw). apply read_after in E5. destruct E5 as (B4 & A4).
      assert (pw = x /\ rem3 = l2 - 3 /\ r7 = r4) as (-> & -> & ->) by (unfold ret in E2; repeat apply conj; congruence).
      exists (Some (w, x)). split; [reflexivity|]. split; [split; [exact Bw | exact B4]|]. do 2 (split; [reflexivity|]). split; [chain|]. apply (lm_after _ _ _ 0 A4). rewrite enc_length. refine (lm_after _ _ _ 22 Aw _). rewrite L3, enc_length. reflexivity.
    - assert (pw = 0 /\ rem3 = l2 /\ r3 = r4) as (-> & -> & ->) by (unfold ret in E2; repeat apply conj; congruence). exists None. split; [reflexivity|]. split; [exact I|]. split; [reflexivity|]. split; [cbn [olen]; lia|]. split; [apply after_nil | exact L3]. }
  destruct P3 as (op & I3 & W3 & -> & -> & A3 & L4). set (l3 := l2 - olen op 3) in *. clear E0 E1 E2.
  assert (P4 : exists os, is_some os = fits f3 5 l3 /\ match os with Some (t, (a, m, b, n, c)) => 0 <= t < 2 ^ 4 /\ 0 <= a < 2 ^ 3 /\ 0 <= b < 2 ^ 15 /\ 0 <= c < 2 ^ 15 | None => True end /\
     st = match os with Some (t, _) => t | None => 0 end /\ dts = match os with Some (_, (a, _, b, _, c)) => a * 2 ^ 30 + b * 2 ^ 15 + c | None => 0 end /\
     after r4 (match os with Some (t, (a, m, b, n, c)) => enc 4 t ++ enc 3 a ++ bit m ++ enc 15 b ++ bit n ++ enc 15 c | None => [] end) r5).
  { replace ((5 <=? l3) && f3) with (fits f3 5 l3) in E3 by (unfold fits; apply andb_comm). destruct (fits f3 5 l3).
    - take E3 t r6. take E3 a r7. take E3 u1 r8. assert (L7 : lm r7 = 1%nat) by (refine (lm_after _ _ _ 1 E1 _); rewrite enc_length; refine (lm_after _ _ _ 4 E0 _); rewrite L4, enc_length; reflexivity).
      apply skip_in_byte in E2; [|lia]. destruct E2 as (m1 & Bm1 & Am1). take E3 b r9. take E3 u2 r10. assert (L9 : lm r9 = 1%nat). { refine (lm_after _ _ _ 1 E2 _). rewrite enc_length. refine (lm_after _ _ _ 16 Am1 _). rewrite L7, enc_length. reflexivity. }
      apply skip_in_byte in E4; [|lia]. destruct E4 as (m2 & Bm2 & Am2). take E3 c r11. assert (st = t /\ dts = a * 2 ^ 30 + b * 2 ^ 15 + c /\ r11 = r5) as (-> & -> & ->) by (unfold ret in E3; repeat apply conj; congruence).
      change (2 ^ Z.of_nat 1) with 2 in *. assert (M1 : enc 1 m1 = bit (m1 =? 1)) by (assert (m1 = 0 \/ m1 = 1) as [-> | ->] by lia; reflexivity). assert (M2 : enc 1 m2 = bit (m2 =? 1)) by (assert (m2 = 0 \/ m2 = 1) as [-> | ->] by lia; reflexivity). rewrite M1 in Am1. rewrite M2 in Am2.
      exists (Some (t, (a, m1 =? 1, b, m2 =? 1, c))). split; [reflexivity|]. split; [auto|]. do 2 (split; [reflexivity|]). chain.
    - assert (st = 0 /\ dts = 0 /\ r4 = r5) as (-> & -> & ->) by (unfold ret in E3; repeat apply conj; congruence). exists None. split; [reflexivity|]. split; [exact I|]. do 2 (split; [reflexivity|]). apply after_nil. }
  destruct P4 as (os & I4 & W4 & -> & -> & A4).
  exists (mkRext len f1 f2 f3 res ow op os). assert (n = len /\ r5 = r') as (-> & ->) by (unfold ret in H; split; congruence).
  split; [unfold wf_rext, re_left3, re_left2, re_left1; cbn [re_length re_f1 re_f2 re_f3 re_reserved re_ltw re_pwr re_seamless]; auto 12|].
  split; [unfold enc_rext; cbn [re_length re_f1 re_f2 re_f3 re_reserved re_ltw re_pwr re_seamless]; chain|]. split; [|reflexivity].
  unfold ret in H. injection H as <-. unfold rext_holds. cbn [re_length re_f1 re_f2 re_f3 re_reserved re_ltw re_pwr re_seamless ae_ltw_flag ae_pwr_flag ae_splice_flag ae_ltw_valid ae_ltw_offset ae_pwr ae_splice_type ae_dts_next ae_length]. auto 12.
Qed.

(** * Field *)
Lemma lm_whole : forall r c r' k, after r c r' -> length c = (8 * k)%nat -> lm r = 0%nat -> lm r' = 0%nat.
Proof. intros r c r' k A L H. refine (lm_after _ _ _ 0 A _). rewrite H, L, Nat.add_0_r, Nat.mul_comm, Nat.mod_mul by lia. reflexivity. Qed.
Lemma opcr_after : forall (flag : bool) left r x rem r', lm r = 0%nat ->
  (if (6 <=? left) && flag then x <- read_pcr ;; ret (x, left - 6) else ret (0, left)) r = (Ok (x, rem), r') ->
  exists o, is_some o = fits flag 6 left /\ match o with Some p => wf_pcr p | None => True end /\ x = match o with Some p => pcr_value p | None => 0 end /\ rem = left - olen o 6 /\
    after r (match o with Some p => enc_pcr p | None => [] end) r' /\ lm r' = 0%nat.
Proof.
  intros flag left r x rem r' HL H. replace ((6 <=? left) && flag) with (fits flag 6 left) in H by (unfold fits; apply andb_comm). destruct (fits flag 6 left).
  - take H v r1. unfold read_pcr in E. take E a r2. take E b r3. take E c r4. assert (v = a * 300 + c /\ r4 = r1) as (-> & ->) by (unfold ret in E; split; congruence).
    assert (x = a * 300 + c /\ rem = left - 6 /\ r1 = r') as (-> & -> & ->) by (unfold ret in H; repeat apply conj; congruence).
    assert (A : after r (enc 33 a ++ enc 6 b ++ enc 9 c) r') by chain.
    exists (Some (mkPcr a b c)). split; [reflexivity|]. split; [unfold wf_pcr; cbn [pcr_base pcr_reserved pcr_ext]; auto|]. do 2 (split; [reflexivity|]). split; [exact A|].
    apply (lm_whole _ _ _ 6 A); [|exact HL]. rewrite !app_length, !enc_length. reflexivity.
  - assert (x = 0 /\ rem = left /\ r = r') as (-> & -> & ->) by (unfold ret in H; repeat apply conj; congruence). exists None. split; [reflexivity|]. split; [exact I|]. split; [reflexivity|]. split; [cbn [olen]; lia|]. split; [apply after_nil | exact HL].
Qed.
Lemma splice_after : forall (flag : bool) left r x rem r', lm r = 0%nat ->
  (if (1 <=? left) && flag then x <- read_n 8 ;; ret (x, left - 1) else ret (0, left)) r = (Ok (x, rem), r') ->
  exists o, is_some o = fits flag 1 left /\ match o with Some p => 0 <= p < 256 | None => True end /\ x = match o with Some p => p | None => 0 end /\ rem = left - olen o 1 /\
    after r (match o with Some p => enc 8 p | None => [] end) r' /\ lm r' = 0%nat.
Proof.
  intros flag left r x rem r' HL H. replace ((1 <=? left) && flag) with (fits flag 1 left) in H by (unfold fits; apply andb_comm). destruct (fits flag 1 left).
  - take H v r1. assert (x = v /\ rem = left - 1 /\ r1 = r') as (-> & -> & ->) by (unfold ret in H; repeat apply conj; congruence).
    exists (Some v). split; [reflexivity|]. split; [exact B|]. do 2 (split; [reflexivity|]). split; [exact E|].
    apply (lm_whole _ _ _ 1 E); [|exact HL]. apply enc_length.
  - assert (x = 0 /\ rem = left /\ r = r') as (-> & -> & ->) by (unfold ret in H; repeat apply conj; congruence). exists None. split; [reflexivity|]. split; [exact I|]. split; [reflexivity|]. split; [cbn [olen]; lia|]. split; [apply after_nil | exact HL].
Qed.
Lemma tpd_after : forall r t l r', new_tpd r = (Ok (t, l), r') -> exists d, bytes d /\ blen d < 256 /\ t = mkTpd (blen d) d /\ l = blen d /\ after r (enc 8 (blen d) ++ bb d) r'.
Proof.
  intros r t l r' H. unfold new_tpd in H. take H len r1. change (2 ^ Z.of_nat 8) with 256 in B. destruct (Z.ltb_spec 0 len).
  - destruct (read_bytes len r1) as [[d|e| |] r2] eqn:ER; [|destruct e; discriminate|discriminate|discriminate]. apply bytes_after in ER; [|lia]. destruct ER as (L & Bd & A). exists d.
    assert (t = mkTpd len d /\ l = len /\ r2 = r') as (-> & -> & ->) by (repeat apply conj; congruence). rewrite L. split; [exact Bd|]. split; [lia|]. do 2 (split; [reflexivity|]). chain.
  - assert (len = 0) as -> by lia. assert (t = mkTpd 0 [] /\ l = 0 /\ r1 = r') as (-> & -> & ->) by (unfold ret in H; repeat apply conj; congruence). exists []. split; [constructor|]. split; [cbn; lia|]. do 2 (split; [reflexivity|]). cbn [bb flat_map]. chain.
Qed.
Definition tpd_holds (o : option (list Z)) (t : option tpdata) : Prop :=
  match o, t with None, None => True | Some d, Some t => tpd_length t = blen d /\ tpd_data t = d | _, _ => False end.
Definition ext_holds (o : option rext) (t : option aext) : Prop :=
  match o, t with None, None => True | Some x, Some g => rext_holds x g | _, _ => False end.
Lemma private_after : forall (flag : bool) left r x rem r', lm r = 0%nat ->
  (if (1 <=? left) && flag then '(t, l) <- new_tpd ;; ret (Some t, u32 (left - u32 (l + 1))) else ret (None, left)) r = (Ok (x, rem), r') ->
  exists o, is_some o = fits flag 1 left /\ match o with Some d => bytes d /\ blen d < 256 | None => True end /\ tpd_holds o x /\ rem = match o with Some _ => u32 (left - priv_len o) | None => left end /\
    after r (match o with Some d => enc 8 (blen d) ++ bb d | None => [] end) r' /\ lm r' = 0%nat.
Proof.
  intros flag left r x rem r' HL H. replace ((1 <=? left) && flag) with (fits flag 1 left) in H by (unfold fits; apply andb_comm). destruct (fits flag 1 left).
  - take H q r1. destruct q as [t l]. apply tpd_after in E. destruct E as (d & Bd & Ld & -> & -> & A).
    assert (x = Some (mkTpd (blen d) d) /\ rem = u32 (left - u32 (blen d + 1)) /\ r1 = r') as (-> & -> & ->) by (unfold ret in H; repeat apply conj; congruence).
    exists (Some d). split; [reflexivity|]. split; [auto|]. split; [cbn; auto|]. split; [cbn [priv_len]; rewrite (u32_small (blen d + 1)) by (unfold blen in *; lia); f_equal; lia|]. split; [exact A|].
    apply (lm_whole _ _ _ (1 + length d) A); [|exact HL]. rewrite app_length, enc_length, bb_length. lia.
  - assert (x = None /\ rem = left /\ r = r') as (-> & -> & ->) by (unfold ret in H; repeat apply conj; congruence). exists None. split; [reflexivity|]. split; [exact I|]. split; [exact I|]. split; [reflexivity|]. split; [apply after_nil | exact HL].
Qed.
Lemma extension_after : forall (flag : bool) left r x rem r', rlater r = [] -> lm r = 0%nat ->
  (if (2 <=? left) && flag then '(x, l) <- new_ext ;; ret (Some x, u32 (left - u32 (l + 1))) else ret (None, left)) r = (Ok (x, rem), r') ->
  exists o, is_some o = fits flag 2 left /\ match o with Some d => wf_rext d | None => True end /\ ext_holds o x /\ rem = match o with Some _ => u32 (left - rext_len o) | None => left end /\
    after r (match o with Some d => enc_rext d | None => [] end) r'.
Proof.
  intros flag left r x rem r' Hr HL H. replace ((2 <=? left) && flag) with (fits flag 2 left) in H by (unfold fits; apply andb_comm). destruct (fits flag 2 left).
  - take H q r1. destruct q as [t l]. apply ext_after in E; [|exact Hr|exact HL]. destruct E as (d & W & A & G & ->).
    assert (x = Some t /\ rem = u32 (left - u32 (re_length d + 1)) /\ r1 = r') as (-> & -> & ->) by (unfold ret in H; repeat apply conj; congruence).
    exists (Some d). split; [reflexivity|]. split; [exact W|]. split; [exact G|]. split; [|exact A]. cbn [rext_len]. rewrite (u32_small (re_length d + 1)) by (destruct W; lia). f_equal. lia.
  - assert (x = None /\ rem = left /\ r = r') as (-> & -> & ->) by (unfold ret in H; repeat apply conj; congruence). exists None. split; [reflexivity|]. split; [exact I|]. split; [exact I|]. split; [reflexivity|]. apply after_nil.
Qed.
Definition rfield_holds (f : rfield) (g : afield) : Prop :=
  af_length g = rf_length f /\ af_disc g = rf_disc f /\ af_random g = rf_random f /\ af_esprio g = rf_esprio f /\
  af_pcr_flag g = rf_f1 f /\ af_opcr_flag g = rf_f2 f /\ af_splice_flag g = rf_f3 f /\ af_tpd_flag g = rf_f4 f /\ af_ext_flag g = rf_f5 f /\
  af_pcr g = match rf_pcr f with Some p => pcr_value p | None => 0 end /\ af_opcr g = match rf_opcr f with Some p => pcr_value p | None => 0 end /\
  af_splice g = match rf_splice f with Some v => v | None => 0 end /\ tpd_holds (rf_private f) (af_tpd g) /\ ext_holds (rf_ext f) (af_ext g) /\ af_junk g = rf_stuffing f.
Lemma af_after : forall r g n r', Z.of_nat (length (rbits r)) < 8 * (2 ^ 32 - 1024) -> rlater r = [] -> lm r = 0%nat -> new_af r = (Ok (g, n), r') ->
  exists f, wf_rfield f /\ after r (enc_rfield f) r' /\ rfield_holds f g /\ n = rf_length f.
Proof.
  intros r g n r' HS Hr HL H. unfold new_af in H. take H len r1. change (2 ^ Z.of_nat 8) with 256 in B. assert (L1 : lm r1 = 0%nat) by (apply (lm_whole _ _ _ 1 E); [apply enc_length | exact HL]).
  take H q r2. destruct q as [[[[[[[[d ra] ep] pf] off] sf] tf] ef] rem0].
  assert (P : after r1 (if 1 <=? len then bit d ++ bit ra ++ bit ep ++ bit pf ++ bit off ++ bit sf ++ bit tf ++ bit ef else []) r2 /\ rem0 = (if 1 <=? len then len - 1 else 0) /\ lm r2 = 0%nat /\
    (len = 0 -> d = false /\ ra = false /\ ep = false /\ pf = false /\ off = false /\ sf = false /\ tf = false /\ ef = false)).
  { clear H. destruct (Z.leb_spec 1 len).
    - take E0 x1 s1. take E0 x2 s2. take E0 x3 s3. take E0 x4 s4. take E0 x5 s5. take E0 x6 s6. take E0 x7 s7. take E0 x8 s8.
      assert (d = x1 /\ ra = x2 /\ ep = x3 /\ pf = x4 /\ off = x5 /\ sf = x6 /\ tf = x7 /\ ef = x8 /\ rem0 = len - 1 /\ s8 = r2) as (-> & -> & -> & -> & -> & -> & -> & -> & -> & ->) by (unfold ret in E0; repeat apply conj; congruence).
      assert (A : after r1 (bit x1 ++ bit x2 ++ bit x3 ++ bit x4 ++ bit x5 ++ bit x6 ++ bit x7 ++ bit x8) r2) by chain.
      split; [exact A|]. split; [reflexivity|]. split; [apply (lm_whole _ _ _ 1 A); [reflexivity | exact L1] | lia].
    - assert (d = false /\ ra = false /\ ep = false /\ pf = false /\ off = false /\ sf = false /\ tf = false /\ ef = false /\ rem0 = len /\ r1 = r2) as (-> & -> & -> & -> & -> & -> & -> & -> & -> & ->) by (unfold ret in E0; repeat apply conj; congruence).
      split; [apply after_nil|]. split; [lia|]. split; [exact L1|]. auto 12. }
  destruct P as (A1 & -> & L2 & F0). clear E0. set (l1 := if 1 <=? len then len - 1 else 0) in *. assert (Bl1 : 0 <= l1 < 256) by (subst l1; destruct (Z.leb_spec 1 len); lia).
  take H q r3. destruct q as [pcr rem1]. apply opcr_after in E0; [|exact L2]. destruct E0 as (o1 & I1 & W1 & -> & -> & A2 & L3). set (l2 := l1 - olen o1 6) in *.
  take H q r4. destruct q as [opcr rem2]. apply opcr_after in E0; [|exact L3]. destruct E0 as (o2 & I2 & W2 & -> & -> & A3 & L4). set (l3 := l2 - olen o2 6) in *.
  take H q r5. destruct q as [sc rem3]. apply splice_after in E0; [|exact L4]. destruct E0 as (o3 & I3 & W3 & -> & -> & A4 & L5). set (l4 := l3 - olen o3 1) in *.
  assert (Bl4 : 0 <= l4 < 256).
  { subst l4 l3 l2. unfold fits in I1, I2, I3.
    assert (0 <= l1 - olen o1 6 < 256) by (destruct o1; cbn [is_some olen] in *; [destruct pf; cbn [andb] in I1; [|discriminate]; symmetry in I1; apply Z.leb_le in I1 |]; lia).
    assert (0 <= l1 - olen o1 6 - olen o2 6 < 256) by (destruct o2; cbn [is_some olen] in *; [destruct off; cbn [andb] in I2; [|discriminate]; symmetry in I2; apply Z.leb_le in I2 |]; lia).
    destruct o3; cbn [is_some olen] in *; [destruct sf; cbn [andb] in I3; [|discriminate]; symmetry in I3; apply Z.leb_le in I3 |]; lia. }
  take H q r6. destruct q as [tpd rem4]. apply private_after in E0; [|exact L5]. destruct E0 as (o4 & I4 & W4 & G4 & -> & A5 & L6).
  assert (R6 : rlater r6 = []) by (rewrite (after_later _ _ _ A5), (after_later _ _ _ A4), (after_later _ _ _ A3), (after_later _ _ _ A2), (after_later _ _ _ A1), (after_later _ _ _ E); exact Hr).
  take H q r7. destruct q as [ext rem5]. apply extension_after in E0; [|exact R6|exact L6]. destruct E0 as (o5 & I5 & W5 & G5 & -> & A6).
  set (left5 := match o4 with Some _ => u32 (l4 - priv_len o4) | None => l4 end) in *. set (left6 := match o5 with Some _ => u32 (left5 - rext_len o5) | None => left5 end) in *.
  take H junk r8. assert (g = mkAF d ra ep pf off sf tf ef (match o1 with Some p => pcr_value p | None => 0 end) (match o2 with Some p => pcr_value p | None => 0 end) (match o3 with Some p => p | None => 0 end) tpd ext len junk /\ n = len /\ r8 = r') as (-> & -> & ->) by (unfold ret in H; repeat apply conj; congruence). clear H.
  assert (B5 : 0 <= left5 < 2 ^ 32) by (subst left5; destruct o4; [unfold u32; apply Z.mod_pos_bound|]; lia).
  assert (B6 : 0 <= left6 < 2 ^ 32) by (subst left6; destruct o5; [unfold u32; apply Z.mod_pos_bound|]; lia).
  assert (J : blen junk = left6 /\ bytes junk /\ after r7 (bb junk) r').
  { destruct (Z.ltb_spec 0 left6).
    - destruct (read_bytes left6 r7) as [[x|e| |] r9] eqn:ER; [|destruct e; discriminate|discriminate|discriminate]. assert (x = junk /\ r9 = r') as (-> & ->) by (split; congruence). apply bytes_after in ER; [exact ER | lia].
    - assert (junk = [] /\ r7 = r') as (-> & ->) by (unfold ret in E0; split; congruence). split; [unfold blen; cbn; lia|]. split; [constructor | apply after_nil]. }
  clear E0. destruct J as (Lj & Bj & A7).
  assert (S : left6 < 2 ^ 32 - 1024).
  { assert (length (rbits r7) <= length (rbits r))%nat by (rewrite (after_length _ _ _ E), (after_length _ _ _ A1), (after_length _ _ _ A2), (after_length _ _ _ A3), (after_length _ _ _ A4), (after_length _ _ _ A5), (after_length _ _ _ A6); lia).
    apply after_length in A7. rewrite bb_length in A7. unfold blen in Lj. lia. }
  change (2 ^ 32) with 4294967296 in *.
  assert (V : left5 = l4 - priv_len o4 /\ 0 <= l4 - priv_len o4 \/ 4294967296 - 256 <= left5).
  { subst left5. destruct o4 as [p|]; [|left; cbn [priv_len]; lia]. cbn [priv_len] in *. destruct (Z_lt_le_dec (l4 - (1 + blen p)) 0).
    - right. unfold u32. rewrite <- (Z.mod_unique (l4 - (1 + blen p)) 4294967296 (-1) (l4 - (1 + blen p) + 4294967296)) by (unfold blen in *; lia). lia.
    - left. split; [apply u32_small; unfold blen in *; lia | lia]. }
  assert (V2 : left6 = left5 - rext_len o5 \/ 4294967296 - 512 <= left6).
  { subst left6. destruct o5 as [x|]; [|left; cbn [rext_len]; lia]. cbn [rext_len] in *. destruct W5 as (W5 & _). destruct (Z_lt_le_dec (left5 - (1 + re_length x)) 0).
    - right. unfold u32. rewrite <- (Z.mod_unique (left5 - (1 + re_length x)) 4294967296 (-1) (left5 - (1 + re_length x) + 4294967296)) by lia. lia.
    - left. apply u32_small. lia. }
  assert (RL : 0 <= rext_len o5 <= 256) by (destruct o5 as [x|]; cbn [rext_len]; [destruct W5|]; lia).
  assert (Q5 : left5 = l4 - priv_len o4) by (destruct V as [(V & _)|V]; [exact V | destruct V2; lia]).
  assert (Q6 : left6 = left5 - rext_len o5) by (destruct V2; lia).
  exists (mkRF len d ra ep pf off sf tf ef o1 o2 o3 o4 o5 junk). rewrite Q5 in *.
  split; [unfold wf_rfield, rf_left5, rf_left4, rf_left3, rf_left2, rf_left1; cbn [rf_length rf_disc rf_random rf_esprio rf_f1 rf_f2 rf_f3 rf_f4 rf_f5 rf_pcr rf_opcr rf_splice rf_private rf_ext rf_stuffing]; fold l1 l2 l3 l4|].
  { split; [exact B|]. split; [exact F0|]. split; [exact I1|]. split; [exact I2|]. split; [exact I3|]. split; [exact I4|]. split; [exact I5|]. split; [exact W1|]. split; [exact W2|]. split; [exact W3|]. split; [exact W4|]. split; [exact W5|]. split; [exact Bj|]. lia. }
  split; [unfold enc_rfield; cbn [rf_length rf_disc rf_random rf_esprio rf_f1 rf_f2 rf_f3 rf_f4 rf_f5 rf_pcr rf_opcr rf_splice rf_private rf_ext rf_stuffing]; chain|]. split; [|reflexivity].
  unfold rfield_holds. cbn [rf_length rf_disc rf_random rf_esprio rf_f1 rf_f2 rf_f3 rf_f4 rf_f5 rf_pcr rf_opcr rf_splice rf_private rf_ext rf_stuffing af_length af_disc af_random af_esprio af_pcr_flag af_opcr_flag af_splice_flag af_tpd_flag af_ext_flag af_pcr af_opcr af_splice af_tpd af_ext af_junk].
  do 12 (split; [reflexivity|]). auto.
Qed.

(** * Packet *)
Lemma onrz_ok_inv : forall T A z (m : M reader A) (t : T) r a s, onrz z m (t, r) = (Ok a, s) -> exists r', m r = (Ok a, r') /\ s = (t, r').
Proof. intros T A z m t r a s H. unfold onrz in H. cbn [fst snd] in H. destruct (m r) as [[x|e| |] r1] eqn:E; inversion H; subst. eauto. Qed.
Lemma onr_ok_inv : forall T A (m : M reader A) (t : T) r a s, onr m (t, r) = (Ok a, s) -> exists r', m r = (Ok a, r') /\ s = (t, r').
Proof. intros T A m t r a s H. unfold onr in H. cbn [fst snd] in H. destruct (m r) as [[x|e| |] r1] eqn:E; inversion H; subst. eauto. Qed.
Lemma upd_ok_inv : forall T R (f : T -> T) (t : T) (r : R) u s, upd f (t, r) = (Ok u, s) -> s = (f t, r).
Proof. intros T R f t r u s H. unfold upd in H. cbn [fst snd] in H. congruence. Qed.
Lemma realign_after : forall k r u r', realign_loop k r = (Ok u, r') -> exists junk t, (length junk < k)%nat /\ bytes junk /\ ~ In 71 junk /\ after r (bb junk) r' /\ rbits r' = enc 8 71 ++ t.
Proof.
  induction k as [|k IH]; intros r u r' H; [discriminate|]. cbn [realign_loop] in H. apply bind_ok_inv in H. destruct H as (v & r1 & E & H). apply peek_after in E. destruct E as (-> & B & t & Q).
  destruct (Z.eqb_spec v SyncByte) as [->|N].
  - assert (r = r') as -> by (unfold ret in H; congruence). exists [], t. split; [cbn; lia|]. split; [constructor|]. split; [intros []|]. split; [apply after_nil | exact Q].
  - apply bind_ok_inv in H. destruct H as (u1 & r1 & E & H). apply skip_after in E. destruct E as (w & _ & E). pose proof (after_seen _ _ _ _ _ _ Q E) as A. apply IH in H. destruct H as (junk & t2 & L & Bj & NI & A2 & Q2).
    exists (v :: junk), t2. split; [cbn [length]; lia|]. split; [constructor; [exact B | exact Bj]|]. split; [intros [I|I]; [apply N; exact I | exact (NI I)]|]. split; [cbn [bb flat_map]; chain | exact Q2].
Qed.
Lemma lm_aligned : forall r, is_aligned r = true -> lm r = 0%nat.
Proof. intros r H. unfold is_aligned in H. apply Nat.eqb_eq in H. exact H. Qed.
Definition sp_bits (p : packet) : list bool :=
  enc 8 71 ++ bit (pk_tei p) ++ bit (pk_pusi p) ++ bit (pk_prio p) ++ enc 13 (pk_pid p) ++ enc 2 (pk_tsc p) ++ enc 2 (pk_afc p) ++ enc 4 (pk_cc p).
Definition sp_ranges (p : packet) : Prop := 0 <= pk_pid p < 2 ^ 13 /\ 0 <= pk_tsc p < 2 ^ 2 /\ 0 <= pk_afc p < 2 ^ 2 /\ 0 <= pk_cc p < 2 ^ 4.
Lemma sync_after : forall (p : packet) r b s1 u s2, onr ts_is_aligned (p, r) = (Ok b, s1) -> (if negb b then onr realign else ret tt) s1 = (Ok u, s2) ->
  exists al junk r1 t, s2 = (p, r1) /\ length al = lm r /\ bytes junk /\ (length junk < 188)%nat /\ ~ In 71 junk /\ after r (al ++ bb junk) r1 /\ rbits r1 = enc 8 71 ++ t.
Proof.
  intros p r b s1 u s2 H1 H2. apply onr_ok_inv in H1. destruct H1 as (r1 & H1 & ->). unfold ts_is_aligned in H1. destruct (is_aligned r) eqn:EA; cbn [negb] in H1.
  - apply bind_ok_inv in H1. destruct H1 as (v & r2 & E & H1). apply peek_after in E. destruct E as (-> & B & t & Q). assert (b = (v =? SyncByte) /\ r = r1) as (-> & <-) by (unfold ret in H1; split; congruence). pose proof (lm_aligned _ EA) as L0.
    destruct (Z.eqb_spec v SyncByte) as [->|N]; cbn [negb] in H2.
    + assert (s2 = (p, r)) as -> by (unfold ret in H2; congruence). exists [], [], r, t. rewrite L0. split; [reflexivity|]. split; [reflexivity|]. split; [constructor|]. split; [cbn; lia|]. split; [intros []|]. split; [apply after_nil | exact Q].
    + apply onr_ok_inv in H2. destruct H2 as (r1 & H2 & ->). unfold realign in H2. rewrite EA in H2. cbn [negb] in H2. apply realign_after in H2. destruct H2 as (junk & t2 & L & Bj & NI & A & Q2).
      exists [], junk, r1, t2. rewrite L0. auto 10.
  - assert (b = false /\ r = r1) as (-> & <-) by (split; congruence). cbn [negb] in H2. apply onr_ok_inv in H2. destruct H2 as (r1 & H2 & ->). unfold realign in H2. rewrite EA in H2. cbn [negb] in H2. apply realign_after in H2. destruct H2 as (junk & t2 & L & Bj & NI & A & Q2).
    exists (firstn (lm r) (rbits r)), junk, r1, t2. split; [reflexivity|]. split; [rewrite firstn_length, Nat.min_l; [reflexivity | unfold lm; apply Nat.mod_le; lia]|]. do 3 (split; [assumption|]). split; [|exact Q2].
    assert (A0 : after r (firstn (lm r) (rbits r)) (align r)) by (apply after_intro; [unfold align, lm; rewrite rbits_setb; symmetry; apply firstn_skipn | reflexivity]). chain.
Qed.
Lemma payload_after : forall size p r u p' r', 0 <= size -> read_payload size (p, r) = (Ok u, (p', r')) ->
  exists d, size <= 184 /\ bytes d /\ blen d = size /\ after r (bb d) r' /\ p' = set_buf (copy_into (pk_buf p) d) (set_len size p) /\ pk_payload p' = d.
Proof.
  intros size p r u p' r' Hs H. unfold read_payload in H. destruct (Z.ltb_spec MaxPayloadSize size) as [|L]; [discriminate|]. cbn [fst snd] in H. destruct (read_full size r) as [[bs e] r1] eqn:EF. destruct e as [e|]; [destruct e; discriminate|].
  assert (R : read_bytes size r = (Ok bs, r1)) by (unfold read_bytes; rewrite EF; reflexivity). apply bytes_after in R; [|exact Hs]. destruct R as (LB & BB & A).
  assert (p' = set_buf (copy_into (pk_buf p) bs) (set_len size p) /\ r1 = r') as (-> & ->) by (split; [|congruence]; injection H as _ <- _; reflexivity).
  exists bs. split; [exact L|]. split; [exact BB|]. split; [exact LB|]. split; [exact A|]. split; [reflexivity|]. unfold pk_payload. cbn [set_buf set_len pk_len pk_buf].
  replace (Z.to_nat size) with (length bs) by (unfold blen in LB; lia). unfold copy_into. now apply firstn_app_exact.
Qed.
Lemma field_after : forall p r size s', Z.of_nat (length (rbits r)) < 8 * (2 ^ 32 - 1024) -> rlater r = [] -> lm r = 0%nat ->
  (fun s : packet * reader => match new_af (snd s) with
                | (Ok (a, l), r') => (Ok (u32 (MaxPayloadSize - u32 (l + 1))), (set_af (Some a) (fst s), r'))
                | (Err e, r') => (Err e, (set_af None (fst s), r'))
                | (Panic, r') => (Panic, (fst s, r'))
                | (OutOfFuel, r') => (OutOfFuel, (fst s, r'))
                end) (p, r) = (Ok size, s') ->
  exists f g r', wf_rfield f /\ after r (enc_rfield f) r' /\ rfield_holds f g /\ s' = (set_af (Some g) p, r') /\ 0 <= size /\ (size <= 184 -> rf_length f + 1 + size = 184).
Proof.
  intros p r size s' HS Hr HL H. cbn [fst snd] in H. destruct (new_af r) as [[[a l]|e| |] r'] eqn:E; try discriminate. apply af_after in E; [|assumption..]. destruct E as (f & W & A & G & ->). exists f, a, r'.
  assert (size = u32 (MaxPayloadSize - u32 (rf_length f + 1)) /\ s' = (set_af (Some a) p, r')) as (-> & ->) by (split; congruence). split; [exact W|]. split; [exact A|]. split; [exact G|]. split; [reflexivity|].
  destruct W as (W & _). rewrite (u32_small (rf_length f + 1)) by lia. unfold MaxPayloadSize. split; [unfold u32; apply Z.mod_pos_bound; lia|]. intro L. destruct (Z_lt_le_dec (184 - (rf_length f + 1)) 0).
  - exfalso. unfold u32 in L. rewrite <- (Z.mod_unique (184 - (rf_length f + 1)) 4294967296 (-1) (184 - (rf_length f + 1) + 4294967296)) in L by lia. lia.
  - rewrite u32_small by lia. lia.
Qed.
Lemma join4 : forall r a b c r1 d r2, after r (a ++ b ++ c) r1 -> after r1 d r2 -> after r (a ++ b ++ c ++ d) r2.
Proof. intros r a b c r1 d r2 H K. pose proof (after_app _ _ _ _ _ H K) as X. rewrite <- !app_assoc in X. exact X. Qed.
Lemma packet_after : forall p r u p' r', Z.of_nat (length (rbits r)) < 8 * (2 ^ 32 - 1024) -> rlater r = [] -> packet_next (p, r) = (Ok u, (p', r')) ->
  exists al junk body, length al = lm r /\ bytes junk /\ (length junk < 188)%nat /\ ~ In 71 junk /\ sp_ranges p' /\
    after r (al ++ bb junk ++ sp_bits p' ++ body) r' /\
    ((pk_afc p' = 0 /\ body = [] /\ pk_af p' = pk_af p /\ pk_payload p' = pk_payload p) \/
     (pk_afc p' = 1 /\ body = bb (pk_payload p') /\ bytes (pk_payload p') /\ blen (pk_payload p') = 184 /\ pk_af p' = pk_af p) \/
     (pk_afc p' = 2 /\ exists f g, wf_rfield f /\ body = enc_rfield f /\ pk_af p' = Some g /\ rfield_holds f g /\ pk_payload p' = pk_payload p) \/
     (pk_afc p' = 3 /\ exists f g, wf_rfield f /\ body = enc_rfield f ++ bb (pk_payload p') /\ pk_af p' = Some g /\ rfield_holds f g /\ bytes (pk_payload p') /\ rf_length f + 1 + blen (pk_payload p') = 184)).
Proof.
  intros p r u p' r' HS Hr H. unfold packet_next in H. apply bind_ok_inv in H. destruct H as (b & s1 & E1 & H). apply bind_ok_inv in H. destruct H as (u1 & s2 & E2 & H).
  destruct (sync_after _ _ _ _ _ _ E1 E2) as (al & junk & r1 & t & -> & La & Bj & Lj & NI & A1 & Q). clear E1 E2 s1.
  assert (LL : exists k, length (rbits r1) = (8 * k)%nat).
  { pose proof (after_length _ _ _ A1) as X. rewrite app_length, bb_length, La in X. unfold lm in X. pose proof (Nat.div_mod (length (rbits r)) 8 ltac:(lia)). exists (length (rbits r) / 8 - length junk)%nat. lia. }
  assert (L1 : lm r1 = 0%nat) by (destruct LL as (k & Lk); unfold lm; rewrite Lk, Nat.mul_comm; apply Nat.mod_mul; lia). clear LL.
  apply bind_ok_inv in H. destruct H as (u2 & s1 & E & H). apply onr_ok_inv in E. destruct E as (r2 & E & ->). apply skip_after in E. destruct E as (w & _ & E). pose proof (after_seen _ _ _ _ _ _ Q E) as A2. clear E Q.
  apply bind_ok_inv in H. destruct H as (b1 & s1 & E & H). apply onrz_ok_inv in E. destruct E as (r3 & A3 & ->). apply read1_after in A3. apply bind_ok_inv in H. destruct H as (x1 & s1 & E & H). apply upd_ok_inv in E. subst s1.
  apply bind_ok_inv in H. destruct H as (b2 & s1 & E & H). apply onrz_ok_inv in E. destruct E as (r4 & A4 & ->). apply read1_after in A4. apply bind_ok_inv in H. destruct H as (x2 & s1 & E & H). apply upd_ok_inv in E. subst s1.
  apply bind_ok_inv in H. destruct H as (b3 & s1 & E & H). apply onrz_ok_inv in E. destruct E as (r5 & A5 & ->). apply read1_after in A5. apply bind_ok_inv in H. destruct H as (x3 & s1 & E & H). apply upd_ok_inv in E. subst s1.
  apply bind_ok_inv in H. destruct H as (pid & s1 & E & H). apply onrz_ok_inv in E. destruct E as (r6 & A6 & ->). apply read_after in A6. destruct A6 as (B6 & A6). apply bind_ok_inv in H. destruct H as (x4 & s1 & E & H). apply upd_ok_inv in E. subst s1.
  apply bind_ok_inv in H. destruct H as (tsc & s1 & E & H). apply onrz_ok_inv in E. destruct E as (r7 & A7 & ->). apply read_after in A7. destruct A7 as (B7 & A7). apply bind_ok_inv in H. destruct H as (x5 & s1 & E & H). apply upd_ok_inv in E. subst s1.
  apply bind_ok_inv in H. destruct H as (afc & s1 & E & H). apply onr_ok_inv in E. destruct E as (r8 & A8 & ->). apply read_after in A8. destruct A8 as (B8 & A8). apply bind_ok_inv in H. destruct H as (x6 & s1 & E & H). apply upd_ok_inv in E. subst s1.
  apply bind_ok_inv in H. destruct H as (cc & s1 & E & H). apply onrz_ok_inv in E. destruct E as (r9 & A9 & ->). apply read_after in A9. destruct A9 as (B9 & A9). apply bind_ok_inv in H. destruct H as (x7 & s1 & E & H). apply upd_ok_inv in E. subst s1.
  set (p0 := set_cc cc _) in *.
  assert (HD : after r1 (sp_bits p0) r9) by (unfold sp_bits, p0; cbn [set_cc set_afc set_tsc set_pid set_prio set_pusi set_tei pk_tei pk_pusi pk_prio pk_pid pk_tsc pk_afc pk_cc]; change SyncByte with 71 in A2; chain).
  assert (L9 : lm r9 = 0%nat) by (apply (lm_whole _ _ _ 4 HD); [unfold sp_bits; rewrite !app_length, !enc_length; reflexivity | exact L1]).
  assert (HS9 : Z.of_nat (length (rbits r9)) < 8 * (2 ^ 32 - 1024)) by (pose proof (after_length _ _ _ A1); pose proof (after_length _ _ _ HD); lia).
  assert (R9 : rlater r9 = []) by (rewrite (after_later _ _ _ HD), (after_later _ _ _ A1); exact Hr).
  assert (RG : sp_ranges p0) by (unfold sp_ranges, p0; cbn [set_cc set_afc set_tsc set_pid set_prio set_pusi set_tei pk_tei pk_pusi pk_prio pk_pid pk_tsc pk_afc pk_cc]; auto).
  assert (F1 : pk_af p0 = pk_af p) by reflexivity. assert (F2 : pk_payload p0 = pk_payload p) by reflexivity. assert (F3 : pk_afc p0 = afc) by reflexivity. clearbody p0.
  assert (A0 : after r (al ++ bb junk ++ sp_bits p0) r9) by (rewrite app_assoc; exact (after_app _ _ _ _ _ A1 HD)). clear A1 A2 A3 A4 A5 A6 A7 A8 A9 B6 B7 B9 HD x1 x2 x3 x4 x5 x6 x7.
  exists al, junk. change (2 ^ Z.of_nat 2) with 4 in B8. apply bind_ok_inv in H. destruct H as (size & s1 & E & H). unfold FieldOnly, FieldThenPayload, PayloadOnly in *.
  assert (afc = 0 \/ afc = 1 \/ afc = 2 \/ afc = 3) as [Ha|[Ha|[Ha|Ha]]] by lia; rewrite Ha in E, H, F3; cbn [Z.eqb Pos.eqb orb] in E, H.
  - assert (s1 = (p0, r9)) as -> by (unfold ret in E; congruence). assert (p0 = p' /\ r9 = r') as (<- & <-) by (unfold ret in H; split; congruence). exists []. do 4 (split; [assumption|]). split; [exact RG|]. split; [rewrite app_nil_r; exact A0|]. left. auto.
  - assert (s1 = (p0, r9) /\ size = 184) as (-> & ->) by (unfold ret in E; split; [congruence | unfold MaxPayloadSize in E; congruence]). apply payload_after in H; [|lia]. destruct H as (d & _ & Bd & Ld & Ad & -> & Qd). rewrite Qd. exists (bb d). do 4 (split; [assumption|]). split; [exact RG|].
    change (sp_bits (set_buf (copy_into (pk_buf p0) d) (set_len 184 p0))) with (sp_bits p0). split; [exact (join4 _ _ _ _ _ _ _ A0 Ad)|]. right. left. split; [exact F3|]. auto.
  - apply field_after in E; [|assumption..]. destruct E as (f & g & r10 & W & A & G & -> & _ & _). assert (set_af (Some g) p0 = p' /\ r10 = r') as (<- & <-) by (unfold ret in H; split; congruence). exists (enc_rfield f). do 4 (split; [assumption|]). split; [exact RG|].
    change (sp_bits (set_af (Some g) p0)) with (sp_bits p0). split; [exact (join4 _ _ _ _ _ _ _ A0 A)|]. right. right. left. split; [exact F3|]. exists f, g. auto.
  - apply field_after in E; [|assumption..]. destruct E as (f & g & r10 & W & A & G & -> & Hs & Hl). apply payload_after in H; [|exact Hs]. destruct H as (d & L & Bd & Ld & Ad & -> & Qd). rewrite Qd. exists (enc_rfield f ++ bb d). do 4 (split; [assumption|]). split; [exact RG|].
    change (sp_bits (set_buf _ (set_len size (set_af (Some g) p0)))) with (sp_bits p0). split; [exact (join4 _ _ _ _ _ _ _ A0 (after_app _ _ _ _ _ A Ad))|]. right. right. right. split; [exact F3|]. exists f, g. split; [exact W|]. split; [reflexivity|]. split; [reflexivity|]. split; [exact G|]. split; [exact Bd|]. rewrite Ld. apply Hl. exact L.
Qed.
