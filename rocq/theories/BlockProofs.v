(** BlockProofs: reading coefficient blocks. *)
From Verif Require Import Base BitReader Exec Local Mono TsRobust Huffman VlcTables BlockModel SpecVlc SpecBlock VlcProofs.

Lemma set_nth_app : forall A (a b : list A) x v, set_nth (length a) v (a ++ x :: b) = a ++ v :: b.
Proof. induction a; intros; cbn; [reflexivity|]. now rewrite IHa. Qed.

Lemma set_nth_length : forall A (l : list A) i v, length (set_nth i v l) = length l.
Proof. induction l; destruct i; intros; cbn; auto. Qed.

Lemma nth_set_nth : forall A (l : list A) i j v d, (i < length l)%nat ->
  nth j (set_nth i v l) d = if Nat.eqb i j then v else nth j l d.
Proof.
  induction l; intros i j v d H; [cbn in H; lia|].
  destruct i, j; cbn; auto. apply IHl. cbn in H. lia.
Qed.

Lemma bwrite_ok : forall a x b p r v, (length a < 64)%nat ->
  bwrite (Z.of_nat (length a)) v (mkBS (a ++ x :: b) p, r) = (Ok tt, (mkBS (a ++ v :: b) p, r)).
Proof.
  intros. unfold bwrite, blockSize.
  rewrite (proj2 (Z.leb_le _ _)), (proj2 (Z.ltb_lt _ _)) by lia.
  cbn [andb fst snd bs_block bs_pred]. rewrite Nat2Z.id, set_nth_app. reflexivity.
Qed.

Lemma bzeros_ok : forall k a b p r, (k <= length b)%nat -> (length a + length b = 64)%nat ->
  bzeros k (Z.of_nat (length a)) (mkBS (a ++ b) p, r) =
  (Ok tt, (mkBS (a ++ repeat 0 k ++ skipn k b) p, r)).
Proof.
  induction k; intros a b p r Hk Hl; [reflexivity|].
  destruct b as [|x b]; [cbn in Hk; lia|]. cbn [bzeros].
  cbn in Hk, Hl.
  rewrite (bind_ok _ _ _ _ _ _ _ _ (bwrite_ok a x b p r 0 ltac:(lia))).
  replace (a ++ 0 :: b) with ((a ++ [0]) ++ b) by (rewrite <- app_assoc; reflexivity).
  replace (Z.of_nat (length a) + 1) with (Z.of_nat (length (a ++ [0])))
    by (rewrite app_length; cbn; lia).
  rewrite IHk; [|lia|rewrite app_length; cbn; lia].
  rewrite <- app_assoc. reflexivity.
Qed.

(** Zeros that run past the end of the block. *)
Lemma bzeros_panic : forall k a b p r, (length b < k)%nat -> (length a + length b = 64)%nat ->
  fst (bzeros k (Z.of_nat (length a)) (mkBS (a ++ b) p, r)) = Panic.
Proof.
  induction k; intros a b p r Hk Hl; [lia|]. cbn [bzeros].
  destruct b as [|x b].
  - unfold bind, bwrite, blockSize. cbn in Hl.
    rewrite (proj2 (Z.ltb_ge _ _)) by lia. rewrite Bool.andb_false_r. reflexivity.
  - cbn in Hk, Hl.
    rewrite (bind_ok _ _ _ _ _ _ _ _ (bwrite_ok a x b p r 0 ltac:(lia))).
    replace (a ++ 0 :: b) with ((a ++ [0]) ++ b) by (rewrite <- app_assoc; reflexivity).
    replace (Z.of_nat (length a) + 1) with (Z.of_nat (length (a ++ [0])))
      by (rewrite app_length; cbn; lia).
    apply IHk; [lia|rewrite app_length; cbn; lia].
Qed.

Lemma expand_length_cons : forall run level rls, 0 <= run ->
  Z.of_nat (length (expand ((run, level) :: rls))) = run + 1 + Z.of_nat (length (expand rls)).
Proof.
  intros. unfold expand. cbn [flat_map fst snd]. rewrite !app_length, repeat_length. cbn. lia.
Qed.

Lemma dct_code_run : forall one first c run level, dct_code one first c (RunLevel run level) -> 0 <= run < 64.
Proof.
  intros one first c run level H. inversion H as [|d ? ? Hv|]; subst; [apply vlc_level_bound in Hv|]; lia.
Qed.

Lemma dct_code_i32 : forall one first c run level, dct_code one first c (RunLevel run level) -> -2048 <= level < 2048.
Proof.
  intros one first c run level H. inversion H as [|d ? ? Hv|]; subst; [apply vlc_level_bound in Hv|]; lia.
Qed.


Lemma coeffs_sym : forall fuel one run level c r l a b p,
  (length a + length b = 64)%nat ->
  dct_code one (Z.of_nat (length a) =? 0) c (RunLevel run level) ->
  Z.of_nat (length a) + run < 64 ->
  block_coeffs (S fuel) (dct_of one) (Z.of_nat (length a)) (mkBS (a ++ b) p, setb r (c ++ l)) =
  block_coeffs fuel (dct_of one) (Z.of_nat (length a) + run + 1)
    (mkBS ((a ++ repeat 0 (Z.to_nat run) ++ [level]) ++ skipn (S (Z.to_nat run)) b) p, setb r l).
Proof.
  intros fuel one run level c r l a b p Hl Hc Hr.
  pose proof (dct_code_run _ _ _ _ _ Hc) as Hrun.
  cbn [block_coeffs].
  rewrite (bind_onr_ok _ _ _ _ _ _ _ _ _ _ (dct_symbol_ok one (Z.of_nat (length a)) c _ r l Hc)).
  cbn [symbol_result].
  rewrite (bind_ok _ _ _ _ _ _ _ _ (bzeros_ok (Z.to_nat run) a b p (setb r l) ltac:(lia) Hl)).
  destruct (skipn (Z.to_nat run) b) as [|x y] eqn:Es.
  { assert (length (skipn (Z.to_nat run) b) = 0%nat) by (rewrite Es; reflexivity).
    rewrite skipn_length in H. lia. }
  rewrite app_assoc.
  replace (Z.of_nat (length a) + run) with (Z.of_nat (length (a ++ repeat 0 (Z.to_nat run))))
    by (rewrite app_length, repeat_length; lia).
  rewrite (bind_ok _ _ _ _ _ _ _ _ (bwrite_ok (a ++ repeat 0 (Z.to_nat run)) x y p (setb r l) level
    ltac:(rewrite app_length, repeat_length; lia))).
  f_equal. f_equal. f_equal. rewrite <- !app_assoc. do 2 f_equal. cbn [app]. f_equal.
  assert (E : skipn 1 (skipn (Z.to_nat run) b) = y) by (rewrite Es; reflexivity).
  rewrite <- E. clear. generalize (Z.to_nat run). intros k. revert b.
  induction k; intros b; [reflexivity|]. destruct b; [reflexivity|]. apply IHk.
Qed.

(** A symbol that runs past coefficient 63. *)
Lemma coeffs_sym_panic : forall fuel one run level c r l a b p,
  (length a + length b = 64)%nat ->
  dct_code one (Z.of_nat (length a) =? 0) c (RunLevel run level) ->
  64 <= Z.of_nat (length a) + run ->
  fst (block_coeffs (S fuel) (dct_of one) (Z.of_nat (length a)) (mkBS (a ++ b) p, setb r (c ++ l))) = Panic.
Proof.
  intros fuel one run level c r l a b p Hl Hc Hr.
  pose proof (dct_code_run _ _ _ _ _ Hc) as Hrun.
  cbn [block_coeffs].
  rewrite (bind_onr_ok _ _ _ _ _ _ _ _ _ _ (dct_symbol_ok one (Z.of_nat (length a)) c _ r l Hc)).
  cbn [symbol_result].
  destruct (Z.eq_dec (Z.of_nat (length a) + run) 64) as [E|E].
  - rewrite (bind_ok _ _ _ _ _ _ _ _ (bzeros_ok (Z.to_nat run) a b p (setb r l) ltac:(lia) Hl)).
    rewrite E. reflexivity.
  - pose proof (bzeros_panic (Z.to_nat run) a b p (setb r l) ltac:(lia) Hl) as Hp.
    unfold bind at 1. destruct (bzeros _ _ _) as [x s']. cbn [fst] in Hp. subst x. reflexivity.
Qed.

Lemma coeffs_eob : forall fuel one r l a b p,
  (length a + length b = 64)%nat -> (length a <> 0)%nat ->
  block_coeffs (S fuel) (dct_of one) (Z.of_nat (length a))
    (mkBS (a ++ b) p, setb r ((if one then b15_eob else b14_eob) ++ l)) =
  (Ok tt, (mkBS (a ++ repeat 0 (length b)) p, setb r l)).
Proof.
  intros fuel one r l a b p Hl Ha. cbn [block_coeffs].
  assert (Hc : dct_code one (Z.of_nat (length a) =? 0) (if one then b15_eob else b14_eob) EndOfBlock).
  { constructor. apply Z.eqb_neq. lia. }
  rewrite (bind_onr_ok _ _ _ _ _ _ _ _ _ _ (dct_symbol_ok one (Z.of_nat (length a)) _ _ r l Hc)).
  cbn [symbol_result]. unfold blockSize.
  replace (Z.to_nat (Z.of_nat 64 - Z.of_nat (length a))) with (length b) by lia.
  rewrite bzeros_ok by lia. rewrite skipn_all. now rewrite app_nil_r.
Qed.

(** All the symbols of a block: the levels at their places. *)
Lemma coeffs_syms : forall one n rls body, syms one n rls body ->
  forall fuel r l a b p, n = Z.of_nat (length a) -> (length a + length b = 64)%nat ->
  n + Z.of_nat (length (expand rls)) <= 64 ->
  block_coeffs (length rls + fuel) (dct_of one) n (mkBS (a ++ b) p, setb r (body ++ l)) =
  block_coeffs fuel (dct_of one) (n + Z.of_nat (length (expand rls)))
    (mkBS ((a ++ expand rls) ++ skipn (length (expand rls)) b) p, setb r l).
Proof.
  induction 1 as [n|n run level rls c bits Hc Hs IH]; intros fuel r l a b p Hn Hl Ht.
  - cbn. rewrite Z.add_0_r, app_nil_r. reflexivity.
  - pose proof (dct_code_run _ _ _ _ _ Hc) as Hrun.
    rewrite expand_length_cons in * by lia.
    cbn [length Nat.add]. rewrite <- app_assoc. subst n.
    rewrite (coeffs_sym _ one run level c r (bits ++ l) a b p Hl Hc) by lia.
    rewrite (IH fuel r l (a ++ repeat 0 (Z.to_nat run) ++ [level]) (skipn (S (Z.to_nat run)) b) p).
    + f_equal; [lia|]. f_equal. f_equal.
      unfold expand at 3 4. cbn [flat_map fst snd]. fold (expand rls).
      rewrite <- !app_assoc. do 4 f_equal. rewrite app_length, repeat_length. cbn [app length].
      generalize (length (expand rls)). intros k.
      replace (Z.to_nat run + S k)%nat with (S (Z.to_nat run) + k)%nat by lia.
      generalize (S (Z.to_nat run)). intros m. clear. revert b.
      induction m; intros b; [reflexivity|]. destruct b; [now rewrite skipn_nil|]. apply IHm.
    + rewrite !app_length, repeat_length. cbn. lia.
    + rewrite !app_length, repeat_length, skipn_length. cbn. lia.
    + lia.
Qed.

Lemma expand_rls_length : forall one n rls body, syms one n rls body -> (length rls <= length (expand rls))%nat.
Proof.
  induction 1; [cbn; lia|]. pose proof (dct_code_run _ _ _ _ _ H).
  apply Nat2Z.inj_le. rewrite expand_length_cons by lia. cbn [length]. lia.
Qed.

(** C41: the rest of a block. *)
Theorem coeffs_block : forall one n rls bits r l a b p,
  coded_from one n rls bits -> n = Z.of_nat (length a) -> (length a + length b = 64)%nat ->
  n + Z.of_nat (length (expand rls)) <= 64 ->
  block_coeffs 66 (dct_of one) n (mkBS (a ++ b) p, setb r (bits ++ l)) =
  (Ok tt, (mkBS (a ++ expand rls ++ repeat 0 (64 - length a - length (expand rls))) p, setb r l)).
Proof.
  intros one n rls bits r l a b p (Hne & body & Hs & ->) Hn Hl Ht.
  pose proof (expand_rls_length _ _ _ _ Hs) as Hlen.
  rewrite <- app_assoc.
  replace 66%nat with (length rls + S (65 - length rls))%nat by lia.
  rewrite (coeffs_syms one n rls body Hs _ r _ a b p Hn Hl Ht).
  replace (n + Z.of_nat (length (expand rls))) with (Z.of_nat (length (a ++ expand rls)))
    by (rewrite app_length; lia).
  rewrite coeffs_eob.
  - rewrite skipn_length, <- app_assoc. replace (64 - length a - length (expand rls))%nat with (length b - length (expand rls))%nat by lia. reflexivity.
  - rewrite app_length, skipn_length. lia.
  - rewrite app_length. intros E. assert (n = 0) by lia. apply Hne in H.
    assert (length rls = 0)%nat by lia. destruct rls; [congruence|discriminate].
Qed.

(** When reading the rest of a block panics: exactly on a run past coefficient 63. *)
Lemma coeffs_overrun : forall one n rls body, syms one n rls body ->
  forall fuel r l a b p, n = Z.of_nat (length a) -> (length a + length b = 64)%nat ->
  64 < n + Z.of_nat (length (expand rls)) -> (length b < fuel)%nat ->
  fst (block_coeffs fuel (dct_of one) n (mkBS (a ++ b) p, setb r (body ++ l))) = Panic.
Proof.
  induction 1 as [n|n run level rls c bits Hc Hs IH]; intros fuel r l a b p Hn Hl Ht Hf.
  - cbn in Ht. lia.
  - pose proof (dct_code_run _ _ _ _ _ Hc) as Hrun. destruct fuel as [|fuel]; [lia|].
    rewrite expand_length_cons in Ht by lia. subst n. rewrite <- app_assoc.
    destruct (Z_lt_le_dec (Z.of_nat (length a) + run) 64) as [Hlt|Hge].
    + rewrite (coeffs_sym _ one run level c r (bits ++ l) a b p Hl Hc Hlt).
      apply IH.
      * rewrite !app_length, repeat_length. cbn. lia.
      * rewrite !app_length, repeat_length, skipn_length. cbn. lia.
      * lia.
      * rewrite skipn_length. lia.
    + apply coeffs_sym_panic with (run := run) (level := level); auto.
Qed.

Lemma coeffs_panic_inv : forall fuel one a b p r s', (length a + length b = 64)%nat ->
  block_coeffs fuel (dct_of one) (Z.of_nat (length a)) (mkBS (a ++ b) p, r) = (Panic, s') ->
  exists rls body l, syms one (Z.of_nat (length a)) rls body /\ rbits r = body ++ l /\
    64 < Z.of_nat (length a) + Z.of_nat (length (expand rls)).
Proof.
  induction fuel; intros one a b p r s' Hl H; [discriminate|].
  destruct (dct_of one (Z.of_nat (length a)) r) as [x r1] eqn:Ed.
  destruct x as [v|e| |].
  - pose proof (dct_symbol_inv _ _ _ _ _ Ed) as (c & s & Hc & Hr & -> & Hr1).
    destruct s as [run level|].
    + pose proof (dct_code_run _ _ _ _ _ Hc) as Hrun.
      destruct (Z_lt_le_dec (Z.of_nat (length a) + run) 64) as [Hlt|Hge].
      * assert (Er : r = setb r (c ++ rbits r1)) by (rewrite <- Hr, setb_rbits; reflexivity).
        rewrite Er in H. rewrite (coeffs_sym fuel one run level c r (rbits r1) a b p Hl Hc Hlt) in H.
        rewrite <- Hr1 in H.
        replace (Z.of_nat (length a) + run + 1) with (Z.of_nat (length (a ++ repeat 0 (Z.to_nat run) ++ [level]))) in H
          by (rewrite !app_length, repeat_length; cbn; lia).
        apply IHfuel in H; [|rewrite !app_length, repeat_length, skipn_length; cbn; lia].
        destruct H as (rls & body & l & Hs & Hb & Ht).
        assert (En : Z.of_nat (length (a ++ repeat 0 (Z.to_nat run) ++ [level])) = Z.of_nat (length a) + run + 1)
          by (rewrite !app_length, repeat_length; cbn; lia).
        rewrite En in Hs, Ht.
        exists ((run, level) :: rls), (c ++ body), l. split; [now constructor|].
        split; [rewrite <- app_assoc, Hr, Hb; reflexivity|]. rewrite expand_length_cons by lia. lia.
      * exists [(run, level)], (c ++ []), (rbits r1). split; [constructor; [exact Hc|constructor]|].
        split; [rewrite app_nil_r; exact Hr|]. rewrite expand_length_cons by lia. cbn. lia.
    + inversion Hc; subst.
      assert (Er : r = setb r ((if one then b15_eob else b14_eob) ++ rbits r1)) by (rewrite <- Hr, setb_rbits; reflexivity).
      rewrite Er in H. rewrite coeffs_eob in H; [discriminate|exact Hl|].
      intros E. rewrite E in H0. discriminate.
  - exfalso. cbn [block_coeffs] in H. rewrite (bind_onr_err _ _ _ _ _ _ _ _ _ _ Ed) in H. discriminate.
  - exfalso. assert (Hs : safe (dct_of one (Z.of_nat (length a)))) by (rewrite dct_of_unfold; apply safe_dct_decode).
    specialize (Hs r). rewrite Ed in Hs. exact Hs.
  - exfalso. assert (Hs : safe (dct_of one (Z.of_nat (length a)))) by (rewrite dct_of_unfold; apply safe_dct_decode).
    specialize (Hs r). rewrite Ed in Hs. exact Hs.
Qed.

(** The loop never runs out of fuel. *)
Lemma coeffs_fuel : forall fuel one a b p r, (length a + length b = 64)%nat -> (length b < fuel)%nat ->
  fst (block_coeffs fuel (dct_of one) (Z.of_nat (length a)) (mkBS (a ++ b) p, r)) <> OutOfFuel.
Proof.
  induction fuel; intros one a b p r Hl Hf; [lia|].
  destruct (dct_of one (Z.of_nat (length a)) r) as [x r1] eqn:Ed.
  assert (Hsafe : safe (dct_of one (Z.of_nat (length a)))) by (rewrite dct_of_unfold; apply safe_dct_decode).
  destruct x as [v|e| |].
  - pose proof (dct_symbol_inv _ _ _ _ _ Ed) as (c & s & Hc & Hr & -> & Hr1).
    assert (Er : r = setb r (c ++ rbits r1)) by (rewrite <- Hr, setb_rbits; reflexivity).
    destruct s as [run level|].
    + pose proof (dct_code_run _ _ _ _ _ Hc) as Hrun. rewrite Er.
      destruct (Z_lt_le_dec (Z.of_nat (length a) + run) 64) as [Hlt|Hge].
      * rewrite (coeffs_sym fuel one run level c r (rbits r1) a b p Hl Hc Hlt).
        replace (Z.of_nat (length a) + run + 1) with (Z.of_nat (length (a ++ repeat 0 (Z.to_nat run) ++ [level])))
          by (rewrite !app_length, repeat_length; cbn; lia).
        apply IHfuel; [rewrite !app_length, repeat_length, skipn_length; cbn; lia|].
        rewrite skipn_length. lia.
      * rewrite (coeffs_sym_panic fuel one run level c r (rbits r1) a b p Hl Hc Hge). discriminate.
    + inversion Hc; subst. rewrite Er. rewrite coeffs_eob; [discriminate|exact Hl|].
      intros E. rewrite E in H. discriminate.
  - cbn [block_coeffs]. rewrite (bind_onr_err _ _ _ _ _ _ _ _ _ _ Ed). discriminate.
  - specialize (Hsafe r). rewrite Ed in Hsafe. contradiction.
  - specialize (Hsafe r). rewrite Ed in Hsafe. contradiction.
Qed.

(** * The DC coefficient *)

Lemma read_0 : forall r, read_n 0 r = (Ok 0, r).
Proof. intros. unfold read_n. cbn. now rewrite setb_rbits. Qed.

Lemma dc_size_bound : forall (luma : bool) s n,
  (if luma then dc_size_luma_code else dc_size_chroma_code) s n -> 0 <= n <= 11.
Proof.
  intros luma s n H.
  assert (H0 : 0 <= n /\ has (if luma then b12 else b13) (Z.to_nat n) s) by (destruct luma; exact H).
  destruct H0 as [Hn (v & k & He & _)].
  assert (Z.to_nat n < length (if luma then b12 else b13))%nat by (apply nth_error_Some; congruence).
  destruct luma; cbn in H0; lia.
Qed.

Lemma dct_diff_neg : forall n d, 1 <= n <= 11 -> 2 ^ (n - 1) <= Z.abs d < 2 ^ n ->
  dct_diff n (if 0 <? d then d else d + 2 ^ n - 1) = d.
Proof.
  intros n d Hn Hd. unfold dct_diff. rewrite (proj2 (Z.eqb_neq _ _)) by lia.
  rewrite Z.shiftl_mul_pow2 by lia. rewrite Z.mul_1_l.
  assert (Hp : 2 ^ n = 2 * 2 ^ (n - 1)).
  { replace n with (Z.succ (n - 1)) at 1 by lia. now rewrite Z.pow_succ_r by lia. }
  assert (H1 : 1 <= 2 ^ (n - 1) <= 1024).
  { split; [apply (Z.pow_le_mono_r 2 0); lia|]. change 1024 with (2 ^ 10). apply Z.pow_le_mono_r; lia. }
  cbv zeta. rewrite (u32_small (2 ^ (n - 1))) by lia. rewrite (u32_small (2 * 2 ^ (n - 1))) by lia.
  destruct (Z.ltb_spec 0 d).
  - rewrite (proj2 (Z.geb_le _ _)) by lia. apply i32_small. lia.
  - destruct (Z.geb_spec (d + 2 ^ n - 1) (2 ^ (n - 1))); [lia|].
    rewrite (u32_small (d + 2 ^ n - 1 + 1)) by lia. rewrite (i32_small (d + 2 ^ n - 1 + 1)) by lia.
    rewrite (i32_small (2 * 2 ^ (n - 1))) by lia. rewrite i32_small by lia. lia.
Qed.

Lemma dc_read : forall cc bits d r l st,
  dc_code (Nat.eqb cc 0) bits d -> 
  block_dc cc (st, setb r (bits ++ l)) =
  (let dc := i32 (nth cc (bs_pred st) 0 + d) in
   (Ok tt, (mkBS (set_nth 0 dc (bs_block st)) (set_nth cc dc (bs_pred st)), setb r l))).
Proof.
  intros cc bits d r l st (n & s & Hs & H). unfold block_dc.
  pose proof (dc_size_bound _ _ _ Hs) as Hn.
  assert (Hd : forall l, (if Nat.eqb cc 0 then dc_size_luma else dc_size_chroma) (setb r (s ++ l)) = (Ok n, setb r l)).
  { intros l'. destruct (Nat.eqb cc 0); [apply dc_luma_exact | apply dc_chroma_exact]; exact Hs. }
  destruct (n =? 0) eqn:En.
  - apply Z.eqb_eq in En. subst n. destruct H as [-> ->].
    rewrite (bind_onr_ok _ _ _ _ _ _ _ _ _ _ (Hd l)).
    change (Z.to_nat 0) with 0%nat. rewrite (bind_onr_ok _ _ _ _ _ _ _ _ _ _ (read_0 _)).
    cbn [fst snd]. reflexivity.
  - apply Z.eqb_neq in En. destruct H as [Hr ->]. rewrite <- app_assoc.
    rewrite (bind_onr_ok _ _ _ _ _ _ _ _ _ _ (Hd _)).
    rewrite (bind_onr_ok _ _ _ _ _ _ _ _ _ _ (read_enc (Z.to_nat n) (if 0 <? d then d else d + 2 ^ n - 1) r l
      ltac:(rewrite Z2Nat.id by lia; assert (0 < 2 ^ (n - 1)) by (apply Z.pow_pos_nonneg; lia); destruct (Z.ltb_spec 0 d); lia))).
    cbn [fst snd]. rewrite dct_diff_neg by lia. reflexivity.
Qed.

(** Every difference of magnitude below 2^11 has a code. *)
Lemma dc_code_exists : forall luma d, -2048 < d < 2048 -> exists bits, dc_code luma bits d.
Proof.
  intros luma d Hd.
  assert (Hsz : forall n, 0 <= n <= 11 -> exists s, (if luma then dc_size_luma_code else dc_size_chroma_code) s n).
  { intros n Hn. assert (Hl : (Z.to_nat n < length (if luma then b12 else b13))%nat) by (destruct luma; cbn; lia).
    destruct (nth_error (if luma then b12 else b13) (Z.to_nat n)) as [[v k]|] eqn:E.
    - exists (enc (Z.to_nat k) v). destruct luma; (split; [lia|]; exists v, k; auto).
    - apply nth_error_None in E. lia. }
  destruct (Z.eq_dec d 0) as [->|Hnz].
  - destruct (Hsz 0 ltac:(lia)) as [s Hs]. exists s, 0, s. split; [exact Hs|]. split; reflexivity.
  - pose proof (Z.log2_spec (Z.abs d) ltac:(lia)) as Hlog. pose proof (Z.log2_nonneg (Z.abs d)).
    assert (Z.log2 (Z.abs d) < 11) by (apply Z.log2_lt_pow2; [lia|]; change (2 ^ 11) with 2048; lia).
    destruct (Hsz (Z.log2 (Z.abs d) + 1) ltac:(lia)) as [s Hs].
    eexists. exists (Z.log2 (Z.abs d) + 1), s. split; [exact Hs|].
    rewrite (proj2 (Z.eqb_neq _ _)) by lia. split; [|reflexivity].
    replace (Z.log2 (Z.abs d) + 1 - 1) with (Z.log2 (Z.abs d)) by lia.
    replace (Z.log2 (Z.abs d) + 1) with (Z.succ (Z.log2 (Z.abs d))) by lia. exact Hlog.
Qed.

(** Every level has a code: at least the escape. *)
Lemma dct_code_exists : forall one first run level, 0 <= run < 64 -> -2048 <= level < 2048 ->
  exists c, dct_code one first c (RunLevel run level).
Proof. intros. eexists. now apply code_escape. Qed.

(** The difference a successful DC read returned was coded. *)
Lemma dc_size_inv : forall luma r n r', (if luma : bool then dc_size_luma else dc_size_chroma) r = (Ok n, r') ->
  exists s, (if luma then dc_size_luma_code else dc_size_chroma_code) s n /\ rbits r = s ++ rbits r' /\ r' = setb r (rbits r').
Proof.
  intros luma r n r' H.
  destruct luma; apply hdecode_ok_inv in H; destruct H as (c & Hc & Hb & Hr); exists c; (split; [|auto]);
    unfold dc_size_luma_code, dc_size_chroma_code; replace (Z.to_nat n) with (Z.to_nat (n - 0)) by lia;
    (eapply numbered_rel; [lia|]); revert Hc;
    apply (codes_incl_dec _ Z.eqb); try apply Zeqb_ok; vm_compute; reflexivity.
Qed.

Lemma dct_diff_code : forall n v, 1 <= n <= 11 -> 0 <= v < 2 ^ n ->
  let d := dct_diff n v in 2 ^ (n - 1) <= Z.abs d < 2 ^ n /\ v = (if 0 <? d then d else d + 2 ^ n - 1).
Proof.
  intros n v Hn Hv. cbv zeta. unfold dct_diff. rewrite (proj2 (Z.eqb_neq _ _)) by lia.
  rewrite Z.shiftl_mul_pow2 by lia. rewrite Z.mul_1_l.
  assert (Hp : 2 ^ n = 2 * 2 ^ (n - 1)).
  { replace n with (Z.succ (n - 1)) at 1 by lia. now rewrite Z.pow_succ_r by lia. }
  assert (H1 : 1 <= 2 ^ (n - 1) <= 1024).
  { split; [apply (Z.pow_le_mono_r 2 0); lia|]. change 1024 with (2 ^ 10). apply Z.pow_le_mono_r; lia. }
  rewrite !u32_small by lia. destruct (Z.geb_spec v (2 ^ (n - 1))).
  - rewrite i32_small by lia. destruct (Z.ltb_spec 0 v); lia.
  - rewrite !i32_small by (rewrite ?i32_small; lia).
    destruct (Z.ltb_spec 0 (v + 1 - 2 * 2 ^ (n - 1))); lia.
Qed.

Lemma dc_inv : forall cc st r s', block_dc cc (st, r) = (Ok tt, s') ->
  exists bits d, dc_code (Nat.eqb cc 0) bits d /\ rbits r = bits ++ rbits (snd s') /\ snd s' = setb r (rbits (snd s')).
Proof.
  intros cc st r s' H. unfold block_dc in H. apply bind_ok_inv in H. destruct H as (n & s1 & H1 & H).
  unfold onr in H1. cbn [fst snd] in H1.
  destruct ((if Nat.eqb cc 0 then dc_size_luma else dc_size_chroma) r) as [x r1] eqn:E1.
  assert (x = Ok n /\ s1 = (st, r1)) as [-> ->] by (split; congruence). clear H1.
  destruct (dc_size_inv _ _ _ _ E1) as (s & Hs & Hr & Hr1).
  pose proof (dc_size_bound _ _ _ Hs) as Hn.
  apply bind_ok_inv in H. destruct H as (v & s2 & H2 & H).
  unfold onr in H2. cbn [fst snd] in H2.
  destruct (read_n (Z.to_nat n) r1) as [y r2] eqn:E2.
  assert (y = Ok v /\ s2 = (st, r2)) as [-> ->] by (split; congruence). clear H2.
  destruct (read_n_inv _ _ _ _ E2) as (c & Hc & Hv & Hr2 & Hr3).
  assert (Es : snd s' = r2) by (apply (f_equal (fun x => snd (snd x))) in H; cbn in H; congruence).
  rewrite Es.
  destruct (Z.eq_dec n 0) as [->|Hnz].
  - exists s, 0. split; [exists 0, s; split; [exact Hs|]; cbn; auto|].
    destruct c; [|discriminate]. cbn in Hr2. split; [now rewrite Hr, Hr2|]. rewrite Hr3, Hr1. reflexivity.
  - exists (s ++ c), (dct_diff n v). split.
    + exists n, s. split; [exact Hs|]. rewrite (proj2 (Z.eqb_neq _ _)) by lia.
      assert (Hvr : 0 <= v < 2 ^ n).
      { subst v. pose proof (dec_range c) as Hd. rewrite Hc, Z2Nat.id in Hd by lia. exact Hd. }
      destruct (dct_diff_code n v ltac:(lia) Hvr) as [H1 H2]. split; [exact H1|]. rewrite <- H2.
      f_equal. subst v. rewrite <- Hc. symmetry. apply enc_dec.
    + rewrite <- app_assoc, <- Hr2. split; [exact Hr|]. rewrite Hr3, Hr1. reflexivity.
Qed.

Lemma block_dc_safe : forall cc s, fst (block_dc cc s) <> Panic /\ fst (block_dc cc s) <> OutOfFuel.
Proof.
  intros cc [st r]. unfold block_dc, bind, onr. cbn [fst snd].
  assert (Hs : safe (if Nat.eqb cc 0 then dc_size_luma else dc_size_chroma)) by (destruct (Nat.eqb cc 0); apply hdecode_safe).
  specialize (Hs r). destruct ((if Nat.eqb cc 0 then dc_size_luma else dc_size_chroma) r) as [[n|e| |] r1];
    cbn in *; try contradiction; try (split; discriminate).
  unfold read_n. destruct (Nat.leb _ _); cbn; try (split; discriminate).
  unfold short. destruct (rbits r1); cbn; split; discriminate.
Qed.
