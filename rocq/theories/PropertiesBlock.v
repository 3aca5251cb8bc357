(** PropertiesBlock: C39-C46 - variable length codes, coefficient blocks, inverse quantisation,
    inverse DCT, clamping. *)
From Verif Require Import Base BitReader Exec Local TsRobust Huffman VlcTables BlockModel SpecVid SpecVlc SpecBlock
  VlcProofs BlockProofs DequantProofs IdctProofs.

(** * C39: every decoder decodes exactly its Annex B code. *)

Theorem C39_macroblock_address_increment : decodes_exactly mba_decode mba_code.
Proof. exact mba_exact. Qed.
Theorem C39_macroblock_type_I : decodes_exactly mbtype_decode_I (fun c m => mbt_code b2 c (mbt_fields m)).
Proof. exact mbtype_I_exact. Qed.
Theorem C39_macroblock_type_P : decodes_exactly mbtype_decode_P (fun c m => mbt_code b3 c (mbt_fields m)).
Proof. exact mbtype_P_exact. Qed.
Theorem C39_macroblock_type_B : decodes_exactly mbtype_decode_B (fun c m => mbt_code b4 c (mbt_fields m)).
Proof. exact mbtype_B_exact. Qed.
Theorem C39_coded_block_pattern : decodes_exactly cbp_decode cbp_code.
Proof. exact cbp_exact. Qed.
Theorem C39_motion_code : decodes_exactly motion_code_decode motion_code_code.
Proof. exact motion_code_exact. Qed.
Theorem C39_dc_size_luminance : decodes_exactly dc_size_luma dc_size_luma_code.
Proof. exact dc_luma_exact. Qed.
Theorem C39_dc_size_chrominance : decodes_exactly dc_size_chroma dc_size_chroma_code.
Proof. exact dc_chroma_exact. Qed.

(** The result of a DCT decoder for a symbol: (run, level, end of block). *)
Theorem C39_dct_table_zero : forall n, decodes_exactly (dct_table_zero n)
  (fun c v => exists s, dct_code false (n =? 0) c s /\
     v = match s with RunLevel run level => (run, level, false) | EndOfBlock => (0, 0, true) end).
Proof. exact (dct_exact false). Qed.
Theorem C39_dct_table_one : forall n, decodes_exactly (dct_table_one n)
  (fun c v => exists s, dct_code true (n =? 0) c s /\
     v = match s with RunLevel run level => (run, level, false) | EndOfBlock => (0, 0, true) end).
Proof. exact (dct_exact true). Qed.

(** The codes are not void: the tables have the sizes of the standard's, and here are words of them. *)
Example C39_hyp_sizes :
  length b1 = 33%nat /\ length b9 = 64%nat /\ length b10 = 17%nat /\ length b12 = 12%nat /\ length b13 = 12%nat /\
  length b2 = 2%nat /\ length b3 = 7%nat /\ length b4 = 11%nat /\
  length (concat b14) = 111%nat /\ length (concat b15) = 111%nat.
Proof. repeat split; reflexivity. Qed.
Example C39_hyp_mba : mba_code [false; false; true; false] 5.
Proof. split; [lia|]. exists 2, 4. split; reflexivity. Qed.
Example C39_hyp_motion : motion_code_code [false; false; true; true] (-2).
Proof. right. split; [lia|]. exists [false; false; true]. split; [exists 1, 3; split; reflexivity|reflexivity]. Qed.
Example C39_hyp_dct : dct_code false false (enc 5 5 ++ [true]) (RunLevel 0 (-3)).
Proof.
  apply (code_vlc false false (enc 5 5) 0 (-3)). split; [lia|]. split; [lia|].
  exists (nth 0 b14 []). split; [reflexivity|]. exists 5, 5. split; reflexivity.
Qed.

(** * C40, C41: coefficient blocks *)

(** The predictors as a function of the colour component. *)
Definition upd_pred (p : nat -> Z) (cc : nat) (v : Z) : nat -> Z := fun i => if Nat.eqb i cc then v else p i.
Definition pred_list (p : nat -> Z) : list Z := [p 0%nat; p 1%nat; p 2%nat].

(** A sequence of intra blocks, each of a colour component, with its DC value and the run/level
    pairs of the rest; each is coded by the difference of its DC value to the value of the block
    of the same component before it (or the initial prediction). *)
Inductive coded_blocks (one : bool) : (nat -> Z) -> list (nat * Z * list (Z * Z)) -> list bool -> Prop :=
| cb_nil : forall p, coded_blocks one p [] []
| cb_cons : forall p cc dc rls blocks dcbits acbits bits,
    (cc < 3)%nat -> -2147483648 <= dc < 2147483648 ->
    dc_code (Nat.eqb cc 0) dcbits (dc - p cc) ->
    coded_from one 1 rls acbits -> (length (expand rls) <= 63)%nat ->
    coded_blocks one (upd_pred p cc dc) blocks bits ->
    coded_blocks one p ((cc, dc, rls) :: blocks) (dcbits ++ acbits ++ bits).

(** Blocks read one after the other, the way macroblock() does, from the same variable. *)
Fixpoint read_blocks (intra_vlc_format : Z) (ccs : list nat) : M (bstate * reader) (list block) :=
  match ccs with
  | [] => ret []
  | cc :: ccs =>
      block_read intra_vlc_format cc true ;;
      b <- (fun s => (Ok (bs_block (fst s)), s)) ;;
      bs <- read_blocks intra_vlc_format ccs ;;
      ret (b :: bs)
  end.

(** The block a DC value and run/level pairs stand for, in scan order. *)
Definition block_of (dc : Z) (rls : list (Z * Z)) : block :=
  dc :: expand rls ++ repeat 0 (63 - length (expand rls)).

Lemma intra_block_read : forall ivf cc bits acbits dc rls p b0 r l,
  (cc < 3)%nat -> -2147483648 <= dc < 2147483648 -> length b0 = 64%nat ->
  dc_code (Nat.eqb cc 0) bits (dc - p cc) ->
  coded_from (ivf =? 1) 1 rls acbits -> (length (expand rls) <= 63)%nat ->
  block_read ivf cc true (mkBS b0 (pred_list p), setb r (bits ++ acbits ++ l)) =
  (Ok tt, (mkBS (block_of dc rls) (pred_list (upd_pred p cc dc)), setb r l)).
Proof.
  intros ivf cc bits acbits dc rls p b0 r l Hcc Hdc Hb0 Hd Hc Hlen.
  unfold block_read. cbn [andb].
  rewrite (bind_ok _ _ _ _ _ _ _ _ (dc_read cc bits (dc - p cc) r (acbits ++ l) _ Hd)).
  cbn [bs_block bs_pred].
  assert (En : nth cc (pred_list p) 0 = p cc).
  { assert (cc = 0 \/ cc = 1 \/ cc = 2)%nat as [->|[->| ->]] by lia; reflexivity. }
  rewrite En. replace (p cc + (dc - p cc)) with dc by lia. rewrite i32_small by lia.
  assert (Ep : set_nth cc dc (pred_list p) = pred_list (upd_pred p cc dc)).
  { assert (cc = 0 \/ cc = 1 \/ cc = 2)%nat as [->|[->| ->]] by lia; reflexivity. }
  rewrite Ep. destruct b0 as [|x b0]; [discriminate|]. cbn [set_nth].
  change (if ivf =? 1 then dct_table_one else dct_table_zero) with (dct_of (ivf =? 1)).
  change (dc :: b0) with ([dc] ++ b0).
  rewrite (coeffs_block (ivf =? 1) 1 rls acbits r l [dc] b0 _ Hc); [|reflexivity|cbn in *; lia|lia].
  unfold block_of. cbn [app length]. reflexivity.
Qed.

(** C40: for every sequence of blocks the DC values come back (and with them the whole blocks). *)
Theorem C40_dc_values : forall ivf p blocks bits,
  coded_blocks (ivf =? 1) p blocks bits ->
  forall b0 r l, length b0 = 64%nat ->
  exists st, read_blocks ivf (map (fun x => fst (fst x)) blocks) (mkBS b0 (pred_list p), setb r (bits ++ l)) =
    (Ok (map (fun x => block_of (snd (fst x)) (snd x)) blocks), (st, setb r l)).
Proof.
  intros ivf p blocks bits H.
  induction H as [p|p cc dc rls blocks dcbits acbits bits Hcc Hdc Hd Hc Hlen Hbs IH]; intros b0 r l Hb0.
  - eexists. reflexivity.
  - cbn [map fst snd read_blocks]. rewrite <- !app_assoc.
    rewrite (bind_ok _ _ _ _ _ _ _ _ (intra_block_read ivf cc dcbits acbits dc rls p b0 r (bits ++ l) Hcc Hdc Hb0 Hd Hc Hlen)).
    unfold bind at 1. cbn [fst bs_block].
    destruct (IH (block_of dc rls) r l) as [st E].
    { unfold block_of. cbn [length]. rewrite app_length, repeat_length. lia. }
    rewrite (bind_ok _ _ _ _ _ _ _ _ E). eexists. reflexivity.
Qed.

(** Every difference the standard allows has a code, so no sequence with differences of magnitude
    below 2^11 is left out. *)
Theorem C40_every_difference_codable : forall luma d, -2048 < d < 2048 -> exists bits, dc_code luma bits d.
Proof. exact dc_code_exists. Qed.

(** A reset gives all three predictors the value 2^(7+intra_dc_precision). *)
Theorem C40_reset : forall precision, 0 <= precision <= 3 ->
  dc_reset precision = pred_list (fun _ => dc_reset_value precision).
Proof.
  intros p H. assert (p = 0 \/ p = 1 \/ p = 2 \/ p = 3) as [->|[->|[->| ->]]] by lia; reflexivity.
Qed.

Example C40_hyp : exists bits,
  coded_blocks true (fun _ => 128) [(0%nat, 100, [(0, 5); (3, -2)]); (1%nat, 130, []); (0%nat, 99, [(62, 1)])] bits.
Proof.
  destruct (dc_code_exists true (100 - 128) ltac:(lia)) as [d1 D1].
  destruct (dc_code_exists false (130 - 128) ltac:(lia)) as [d2 D2].
  destruct (dc_code_exists true (99 - 100) ltac:(lia)) as [d3 D3].
  destruct (dct_code_exists true false 0 5 ltac:(lia) ltac:(lia)) as [c1 C1].
  destruct (dct_code_exists true false 3 (-2) ltac:(lia) ltac:(lia)) as [c2 C2].
  destruct (dct_code_exists true false 62 1 ltac:(lia) ltac:(lia)) as [c3 C3].
  eexists. eapply cb_cons; [lia|lia|exact D1| |apply Nat.leb_le; vm_compute; reflexivity|].
  - split; [intros; lia|]. eexists. split; [|reflexivity].
    eapply syms_cons; [exact C1|]. eapply syms_cons; [exact C2|]. apply syms_nil.
  - eapply cb_cons; [lia|lia|exact D2| |apply Nat.leb_le; vm_compute; reflexivity|].
    + split; [intros; lia|]. eexists. split; [apply syms_nil|reflexivity].
    + eapply cb_cons; [lia|lia|exact D3| |apply Nat.leb_le; vm_compute; reflexivity|].
      * split; [intros; lia|]. eexists. split; [|reflexivity]. eapply syms_cons; [exact C3|]. apply syms_nil.
      * apply cb_nil.
Qed.

(** C41, non-intra blocks: the pairs from coefficient 0 on. *)
Theorem C41_non_intra : forall ivf cc rls bits b0 p r l,
  coded_from false 0 rls bits -> (length (expand rls) <= 64)%nat -> length b0 = 64%nat ->
  block_read ivf cc false (mkBS b0 p, setb r (bits ++ l)) =
  (Ok tt, (mkBS (expand rls ++ repeat 0 (64 - length (expand rls))) p, setb r l)).
Proof.
  intros ivf cc rls bits b0 p r l Hc Hlen Hb0. unfold block_read. cbn [andb].
  change dct_table_zero with (dct_of false).
  pose proof (coeffs_block false 0 rls bits r l [] b0 p Hc eq_refl Hb0 ltac:(lia)) as E.
  cbn [app] in E. rewrite E. reflexivity.
Qed.

(** C41, intra blocks: the pairs from coefficient 1 on, with the table intra_vlc_format selects. *)
Theorem C41_intra : forall ivf cc dcbits acbits dc rls p b0 r l,
  (cc < 3)%nat -> -2147483648 <= dc < 2147483648 -> length b0 = 64%nat ->
  dc_code (Nat.eqb cc 0) dcbits (dc - p cc) ->
  coded_from (ivf =? 1) 1 rls acbits -> (length (expand rls) <= 63)%nat ->
  block_read ivf cc true (mkBS b0 (pred_list p), setb r (dcbits ++ acbits ++ l)) =
  (Ok tt, (mkBS (dc :: expand rls ++ repeat 0 (63 - length (expand rls))) (pred_list (upd_pred p cc dc)), setb r l)).
Proof. exact intra_block_read. Qed.

(** The pairs put each level after its run of zeros: coefficient number k of the block. *)
Theorem C41_places : forall rls1 run level rls2, 0 <= run ->
  nth (length (expand rls1) + Z.to_nat run) (expand (rls1 ++ (run, level) :: rls2)) 0 = level /\
  forall k, (k < Z.to_nat run)%nat -> nth (length (expand rls1) + k) (expand (rls1 ++ (run, level) :: rls2)) 0 = 0.
Proof.
  intros rls1 run level rls2 Hr. unfold expand. rewrite flat_map_app. cbn [flat_map fst snd].
  split.
  - rewrite app_nth2 by lia.
    match goal with |- nth ?i _ _ = _ => replace i with (Z.to_nat run) by lia end.
    rewrite <- app_assoc, app_nth2 by (rewrite repeat_length; lia). rewrite repeat_length, Nat.sub_diag. reflexivity.
  - intros k Hk. rewrite app_nth2 by lia.
    match goal with |- nth ?i _ _ = _ => replace i with k by lia end.
    rewrite <- app_assoc, app_nth1 by (rewrite repeat_length; lia). apply nth_repeat.
Qed.

(** Every run and level can be coded, so every block can. *)
Theorem C41_every_pair_codable : forall one first run level, 0 <= run < 64 -> -2048 <= level < 2048 ->
  exists c, dct_code one first c (RunLevel run level).
Proof. exact dct_code_exists. Qed.

Example C41_hyp : exists bits, coded_from false 0 [(0, 1); (5, -300); (0, 2)] bits /\
  length (expand [(0, 1); (5, -300); (0, 2)]) = 8%nat.
Proof.
  destruct (dct_code_exists false true 0 1 ltac:(lia) ltac:(lia)) as [c1 C1].
  destruct (dct_code_exists false false 5 (-300) ltac:(lia) ltac:(lia)) as [c2 C2].
  destruct (dct_code_exists false false 0 2 ltac:(lia) ltac:(lia)) as [c3 C3].
  eexists. split; [|reflexivity]. split; [discriminate|]. eexists. split; [|reflexivity].
  eapply syms_cons; [exact C1|]. eapply syms_cons; [exact C2|]. eapply syms_cons; [exact C3|]. apply syms_nil.
Qed.

(** * C42: block decoding can panic. *)

(** The stream: run 63 level 1, twice, for a non-intra block.  The second run goes past
    coefficient 63. *)
Definition overrun_bits : list bool :=
  (dct_escape_prefix ++ enc 6 63 ++ enc 12 1) ++ (dct_escape_prefix ++ enc 6 0 ++ enc 12 1).

Theorem C42_refuted : forall ivf cc p r l,
  fst (block_read ivf cc false (mkBS block_zero p, setb r (overrun_bits ++ l))) = Panic.
Proof.
  intros. unfold block_read. cbn [andb]. change dct_table_zero with (dct_of false).
  apply (coeffs_overrun false 0 [(63, 1); (0, 1)] overrun_bits) with (a := []) (b := block_zero).
  - unfold overrun_bits. apply syms_cons.
    + apply (code_escape false true 63 1); lia.
    + rewrite <- (app_nil_r (dct_escape_prefix ++ enc 6 0 ++ enc 12 1)). apply syms_cons.
      * apply (code_escape false false 0 1); lia.
      * apply syms_nil.
  - reflexivity.
  - reflexivity.
  - vm_compute. reflexivity.
  - vm_compute. repeat constructor.
Qed.

(** Exactly when: block.read of a non-intra block panics if and only if the stream starts with
    run/level codes for more than 64 coefficients; in all other cases it returns the block or an
    error. *)
Theorem C42_non_intra_partial : forall ivf cc b0 p r, length b0 = 64%nat ->
  (fst (block_read ivf cc false (mkBS b0 p, r)) = Panic <->
   exists rls body l, syms false 0 rls body /\ rbits r = body ++ l /\ (64 < length (expand rls))%nat) /\
  fst (block_read ivf cc false (mkBS b0 p, r)) <> OutOfFuel.
Proof.
  intros ivf cc b0 p r Hb. unfold block_read. cbn [andb]. change dct_table_zero with (dct_of false).
  split; [split|].
  - intros H. destruct (block_coeffs 66 (dct_of false) 0 (mkBS b0 p, r)) as [x s'] eqn:E. cbn in H. subst x.
    destruct (coeffs_panic_inv 66 false [] b0 p r s' Hb E) as (rls & body & l & H1 & H2 & H3).
    exists rls, body, l. split; [exact H1|]. split; [exact H2|]. cbn [length] in H3. lia.
  - intros (rls & body & l & Hs & Hr & Hlen).
    replace r with (setb r (body ++ l)) by (rewrite <- Hr; apply setb_rbits).
    apply (coeffs_overrun false 0 rls body Hs 66 r l [] b0 p); auto; lia.
  - apply (coeffs_fuel 66 false [] b0 p r Hb). rewrite Hb. lia.
Qed.

(** The same for intra blocks: a DC difference, then run/level codes for more than 63 coefficients. *)
Theorem C42_intra_partial : forall ivf cc b0 p r, length b0 = 64%nat ->
  (fst (block_read ivf cc true (mkBS b0 p, r)) = Panic <->
   exists dcbits d rls body l, dc_code (Nat.eqb cc 0) dcbits d /\ syms (ivf =? 1) 1 rls body /\
     rbits r = dcbits ++ body ++ l /\ (63 < length (expand rls))%nat) /\
  fst (block_read ivf cc true (mkBS b0 p, r)) <> OutOfFuel.
Proof.
  intros ivf cc b0 p r Hb. unfold block_read. cbn [andb].
  change (if ivf =? 1 then dct_table_one else dct_table_zero) with (dct_of (ivf =? 1)).
  destruct b0 as [|x0 b0]; [discriminate|]. cbn in Hb.
  assert (Hdc : forall s', block_dc cc (mkBS (x0 :: b0) p, r) = (Ok tt, s') ->
     exists dc p', fst s' = mkBS ([dc] ++ b0) p').
  { intros s' H. unfold block_dc in H. apply bind_ok_inv in H. destruct H as (n & s1 & H1 & H).
    apply bind_ok_inv in H. destruct H as (v & s2 & H2 & H).
    unfold onr in H1, H2.
    assert (E1 : fst s1 = mkBS (x0 :: b0) p).
    { destruct ((if Nat.eqb cc 0 then dc_size_luma else dc_size_chroma) _) in H1. cbn in H1.
      apply (f_equal (fun x => fst (snd x))) in H1. cbn in H1. congruence. }
    assert (E2 : fst s2 = fst s1).
    { destruct (read_n _ _) in H2. apply (f_equal (fun x => fst (snd x))) in H2. cbn in H2. congruence. }
    apply (f_equal (fun x => fst (snd x))) in H. cbn in H. rewrite <- H, E2, E1. cbn. eauto. }
  pose proof (block_dc_safe cc (mkBS (x0 :: b0) p, r)) as [Hs1 Hs2].
  split; [split|].
  - intros H. destruct (block_dc cc (mkBS (x0 :: b0) p, r)) as [[[]|e| |] s1] eqn:E1;
      [|unfold bind in H; rewrite E1 in H; discriminate|now elim Hs1|now elim Hs2].
    rewrite (bind_ok _ _ _ _ _ _ _ _ E1) in H.
    destruct (Hdc _ eq_refl) as (dc & p' & Es).
    destruct (dc_inv _ _ _ _ E1) as (bits & d & Hd & Hr & _).
    destruct s1 as [st1 r1]. cbn in Es, Hr. subst st1.
    destruct (block_coeffs 66 (dct_of (ivf =? 1)) 1 (mkBS ([dc] ++ b0) p', r1)) as [x s'] eqn:E.
    change (dc :: b0) with ([dc] ++ b0) in H. rewrite E in H. cbn [fst] in H. subst x.
    destruct (coeffs_panic_inv 66 (ivf =? 1) [dc] b0 p' r1 s' ltac:(cbn; lia) E) as (rls & body & l & H1 & H2 & H3).
    exists bits, d, rls, body, l. split; [exact Hd|]. split; [exact H1|]. split; [congruence|]. cbn [length] in H3. lia.
  - intros (bits & d & rls & body & l & Hd & Hs & Hr & Hlen).
    replace r with (setb r (bits ++ body ++ l)) by (rewrite <- Hr; apply setb_rbits).
    rewrite (bind_ok _ _ _ _ _ _ _ _ (dc_read cc bits d r (body ++ l) _ Hd)).
    cbn [bs_block bs_pred set_nth].
    match goal with |- context [mkBS (?v :: b0) ?q] => 
      apply (coeffs_overrun (ivf =? 1) 1 rls body Hs 66 r l [v] b0 q); [reflexivity|cbn; lia|cbn [length]; lia|lia] end.
  - destruct (block_dc cc (mkBS (x0 :: b0) p, r)) as [[[]|e| |] s1] eqn:E1;
      [|unfold bind; rewrite E1; discriminate|now elim Hs1|now elim Hs2].
    rewrite (bind_ok _ _ _ _ _ _ _ _ E1).
    destruct (Hdc _ eq_refl) as (dc & p' & Es). destruct s1 as [st1 r1]. cbn in Es. subst st1.
    apply (coeffs_fuel 66 (ivf =? 1) [dc] b0 p' r1); cbn; lia.
Qed.

(** * C43: inverse quantisation *)

Lemma nth_saturate : forall k l, nth k (map saturate l) 0 = saturate (nth k l 0).
Proof. intros. exact (map_nth saturate l 0 k). Qed.

(** The coefficients block.read delivers fit: AC and non-intra levels are in -2048..2047; a DC
    value is bounded by the precision in a valid stream, and here by 2^28.  [before] is the block
    before mismatch control, as 7.4.1-7.4.3 define it, position by position. *)
Theorem C43_inverse_quantisation : forall W alt qst prec code intra Q n,
  length W = 64%nat -> Forall (fun w => 0 <= w < 256) W -> length Q = 64%nat ->
  0 <= prec <= 3 -> 0 <= qst <= 1 -> 0 <= code < 32 ->
  (forall k, (k < 64)%nat -> if intra && Nat.eqb k 0 then -268435456 <= nth k Q 0 < 268435456
                             else -2048 <= nth k Q 0 <= 2048) ->
  (n < 64)%nat ->
  let position k := nth k (scan_order (negb (alt =? 0))) 0%nat in
  let before k := iso_saturate (iso_dequant intra prec (iso_quantiser_scale qst code) (position k)
                                  (nth (position k) W 0) (nth k Q 0)) in
  let total := sum (map before (seq 0 64)) in
  let F := decode_block W alt qst prec code intra Q in
  nth (position n) F 0 =
    (if Nat.eqb (position n) 63 && Z.even total
     then if Z.odd (before n) then before n - 1 else before n + 1
     else before n).
Proof.
  intros W alt qst prec code intra Q n HW HWr HQ Hp Ht Hc HQr Hn position before total F.
  set (G := map saturate (dequant intra prec (quantiser_scale qst code) W (inverse_scan alt Q))).
  assert (HG : length G = 64%nat).
  { unfold G. rewrite map_length, dequant_length; auto. apply inverse_scan_length. }
  assert (Hpos0 : position 0%nat = 0%nat) by (unfold position; destruct (negb (alt =? 0)); reflexivity).
  assert (Hat : forall k, (k < 64)%nat -> nth (position k) G 0 = before k).
  { intros k Hk. assert (Hr : (position k < 64)%nat) by (exact (order_range (negb (alt =? 0)) k Hk)).
    unfold G. rewrite nth_saturate.
    rewrite dequant_at by (auto; apply inverse_scan_length).
    unfold position at 3. change (negb (alt =? 0)) with (is_alt alt). rewrite inverse_scan_at by exact Hk.
    rewrite qs_table by assumption. rewrite saturate_iso. unfold before. f_equal.
    apply dequant1_iso; auto.
    - now apply iso_qs_range.
    - rewrite Forall_forall in HWr. apply HWr, nth_In. lia.
    - intros H0 Hi. assert (k = 0)%nat.
      { apply (order_inj (negb (alt =? 0)) k 0); auto; [lia|]. unfold position in H0, Hpos0. congruence. }
      subst k. specialize (HQr 0%nat Hk). rewrite Hi in HQr. exact HQr.
    - intros Hor. specialize (HQr k Hk). destruct (intra && Nat.eqb k 0) eqn:E; [|lia].
      apply andb_prop in E. destruct E as [E1 E2]. apply Nat.eqb_eq in E2. subst k.
      destruct Hor; [congruence|congruence]. }
  assert (Hsum : sum G = total).
  { unfold total. rewrite (sum_reorder (negb (alt =? 0)) G HG).
    f_equal. apply map_ext_in. intros k Hk. apply in_seq in Hk. symmetry. symmetry. apply Hat. lia. }
  assert (Hsat : forall k, (k < 64)%nat -> -2048 <= nth k G 0 <= 2047).
  { intros k Hk. unfold G. rewrite nth_saturate, saturate_iso. unfold iso_saturate. lia. }
  unfold F, decode_block. fold G. rewrite mismatch_eq by (auto; specialize (Hsat 63%nat); lia).
  rewrite Hsum, <- Z.negb_odd. destruct (Z.odd total); cbn [negb].
  - rewrite andb_false_r. now apply Hat.
  - rewrite andb_true_r, nth_set_nth by lia. rewrite (Nat.eqb_sym 63).
    destruct (Nat.eqb_spec (position n) 63) as [E|E]; [|now apply Hat].
    rewrite <- (Hat n Hn), E. reflexivity.
Qed.

(** Whatever the input, the coefficients handed to the IDCT are 64 values in -2048..2047 and their
    sum is odd. *)
Theorem C43_range_and_parity : forall W alt qst prec code intra Q, length W = 64%nat ->
  let F := decode_block W alt qst prec code intra Q in
  length F = 64%nat /\ Forall (fun x => -2048 <= x <= 2047) F /\ Z.odd (sum F) = true.
Proof.
  intros W alt qst prec code intra Q HW F.
  set (G := map saturate (dequant intra prec (quantiser_scale qst code) W (inverse_scan alt Q))).
  assert (HG : length G = 64%nat).
  { unfold G. rewrite map_length, dequant_length; auto. apply inverse_scan_length. }
  assert (Hsat : forall k, -2048 <= nth k G 0 <= 2047).
  { intros k. unfold G. rewrite nth_saturate, saturate_iso. unfold iso_saturate. lia. }
  assert (HF : F = if Z.odd (sum G) then G
               else set_nth 63 (if Z.odd (nth 63 G 0) then nth 63 G 0 - 1 else nth 63 G 0 + 1) G).
  { apply mismatch_eq; [exact HG|]. specialize (Hsat 63%nat). lia. }
  assert (HL : length F = 64%nat).
  { rewrite HF. destruct (Z.odd (sum G)); [exact HG|]. now rewrite set_nth_length. }
  split; [exact HL|]. split.
  - apply Forall_forall. intros x Hx. apply (In_nth _ _ 0) in Hx. destruct Hx as (k & Hk & <-).
    rewrite HF. destruct (Z.odd (sum G)); [apply Hsat|].
    rewrite nth_set_nth by lia. destruct (Nat.eqb 63 k); [|apply Hsat].
    specialize (Hsat 63%nat). destruct (Z.odd (nth 63 G 0)) eqn:Eo; [|].
    + assert (nth 63 G 0 <> -2048) by (intros E; rewrite E in Eo; discriminate). lia.
    + assert (nth 63 G 0 <> 2047) by (intros E; rewrite E in Eo; discriminate). lia.
  - apply (mismatch_odd G HG). specialize (Hsat 63%nat). lia.
Qed.

(** An intra block with DC 13 (predicted) and three AC levels, quantiser scale code 4, flat weights:
    the zig-zag places 3 and -2 right of and under the DC; the sum 104+24-16 is even, so the last
    coefficient becomes 1. *)
Example C43_hyp :
  decode_block (repeat 16 64) 0 0 0 4 true ([13; 3; -2] ++ repeat 0 61) =
  [104; 24; 0; 0; 0; 0; 0; 0] ++ [-16] ++ repeat 0 54 ++ [1].
Proof. vm_compute. reflexivity. Qed.

(** * C44: scans *)

(** The two orders, as sequences of positions, are permutations of the 64 positions; the first is
    the zig-zag walk of SpecVid. *)
Theorem C44_scan_permutation : forall alternate,
  (forall n, (n < 64)%nat -> (nth n (scan_order alternate) 0 < 64)%nat) /\
  (forall a b, (a < 64)%nat -> (b < 64)%nat ->
     nth a (scan_order alternate) 0%nat = nth b (scan_order alternate) 0%nat -> a = b) /\
  (forall p, (p < 64)%nat -> exists n, (n < 64)%nat /\ nth n (scan_order alternate) 0%nat = p).
Proof. intros. split; [apply order_range|]. split; [apply order_inj|apply order_surj]. Qed.

Theorem C44_zigzag : scan_order false = zigzag.
Proof. reflexivity. Qed.

(** The decoder puts coefficient n of the bit stream at the position the scan has for it. *)
Theorem C44_inverse_scan : forall alternate_scan QFS n, (n < 64)%nat ->
  nth (nth n (scan_order (negb (alternate_scan =? 0))) 0%nat) (inverse_scan alternate_scan QFS) 0 = nth n QFS 0.
Proof. exact inverse_scan_at. Qed.

(** * C45: inverse DCT *)

Theorem C45_dc_only : forall dc, -2048 <= dc <= 2048 -> idct (dc :: repeat 0 63) = repeat ((dc + 4) / 8) 64.
Proof. exact idct_dc_only. Qed.

(** Blocks of a bounded amount of energy: the 32 bit computation is the one on unbounded integers. *)
Theorem C45_no_overflow : forall b, length b = 64%nat -> -2048 <= nth 0 b 0 <= 2048 ->
  sum (map Z.abs (tl b)) <= 2100 -> idct b = zidct b.
Proof. exact idct_nowrap. Qed.

Example C45_hyp : let b := [-2048; 700; -500; 300; 0; 0; 0; -100] ++ [-400; 50; 50] ++ repeat 0 53 in
  length b = 64%nat /\ -2048 <= nth 0 b 0 <= 2048 /\ sum (map Z.abs (tl b)) <= 2100.
Proof. vm_compute. intuition congruence. Qed.

(** The bound cannot be the range of the coefficients alone: a block inside the range inverse
    quantisation delivers (all in -2048..2047, odd sum) on which the 32 bit computation wraps. *)
Definition overflowing_block : block := [0; 2047; 0; 2047; 0; -2048; 0; -2047] ++ repeat 0 56.
Theorem C45_overflow_outside_the_bound :
  Forall (fun x => -2048 <= x <= 2047) overflowing_block /\ idct overflowing_block <> zidct overflowing_block.
Proof.
  split; [repeat constructor; lia|]. intros H. apply (f_equal (fun l => nth 1 l 0)) in H. vm_compute in H. discriminate.
Qed.

(** * C46: clamping *)

Theorem C46_clamp : forall b, map (fun x => Z.max 0 (Z.min 255 x)) b = block_clamp b.
Proof. intros. unfold block_clamp. apply map_ext. intros. symmetry. apply clamp1_spec. Qed.

(** Nearest: no sample value is nearer. *)
Theorem C46_nearest : forall x y, 0 <= y <= 255 -> 
  let c := Z.max 0 (Z.min 255 x) in 0 <= c <= 255 /\ Z.abs (x - c) <= Z.abs (x - y).
Proof. intros. cbv zeta. lia. Qed.

Print Assumptions C39_macroblock_address_increment.
Print Assumptions C39_dct_table_one.
Print Assumptions C40_dc_values.
Print Assumptions C41_intra.
Print Assumptions C42_intra_partial.
Print Assumptions C43_inverse_quantisation.
Print Assumptions C43_range_and_parity.
Print Assumptions C44_inverse_scan.
Print Assumptions C45_dc_only.
Print Assumptions C45_no_overflow.
Print Assumptions C46_clamp.
