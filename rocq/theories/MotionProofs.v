(** MotionProofs: motion vectors. *)
From Verif Require Import Base BitReader Exec Local Mono TsRobust PesLocal Huffman VlcTables SpecVlc VidModel BlockModel VlcProofs BlockProofs MbModel SpecMotion.

Lemma mv_f_pos : forall fc, 1 <= fc -> 1 <= mv_f fc.
Proof. intros. unfold mv_f. pose proof (Z.pow_pos_nonneg 2 (fc - 1)). lia. Qed.

Lemma motion_code_bound : forall c m, motion_code_code c m -> -16 <= m <= 16.
Proof.
  intros c m [[-> _]|(Hm & d & (v & n & H & _) & _)]; [lia|].
  assert (L : (Z.to_nat (Z.abs m) < 17)%nat).
  { change 17%nat with (length b10). apply nth_error_Some. congruence. }
  lia.
Qed.

Lemma motion_code_inv : forall r m r', motion_code_decode r = (Ok m, r') ->
  exists c, motion_code_code c m /\ rbits r = c ++ rbits r' /\ r' = setb r (rbits r').
Proof.
  intros r m r' H. apply hdecode_ok_inv in H. destruct H as (c & Hc & Hb & Hr). exists c. split; [|auto].
  apply signed_spec. revert Hc. apply (codes_incl_dec _ Z.eqb); try apply Zeqb_ok; vm_compute; reflexivity.
Qed.

Definition delta_of (fc m res : Z) : Z :=
  if m =? 0 then 0 else if m <? 0 then - ((- m - 1) * mv_f fc + res + 1) else (m - 1) * mv_f fc + res + 1.

Lemma mv_update_vector : forall fc halved m res pmv p v k, 1 <= fc -> (fc = 1 -> res = 0) ->
  p = (if halved : bool then pmv / 2 else pmv) ->
  - 32 * mv_f fc <= p < 32 * mv_f fc -> mv_range fc v -> Z.abs (delta_of fc m res) <= 16 * mv_f fc ->
  p + delta_of fc m res = v + 32 * mv_f fc * k ->
  mv_update fc halved m res pmv = ((if halved then 2 * v else v), v).
Proof.
  intros fc halved m res pmv p v k Hfc Hres Hp Hpr Hv Hd E. unfold mv_update.
  rewrite (proj2 (Z.eqb_neq fc 0)) by lia. cbv zeta. replace (Z.shiftl 1 (fc - 1)) with (mv_f fc) by (unfold mv_f; rewrite Z.shiftl_mul_pow2 by lia; lia).
  pose proof (mv_f_pos fc Hfc) as Hf. unfold mv_range in Hv.
  assert (ED : (if (mv_f fc =? 1) || (m =? 0) then m
     else if m <? 0 then - ((Z.abs m - 1) * mv_f fc + res + 1) else (Z.abs m - 1) * mv_f fc + res + 1) = delta_of fc m res).
  { unfold delta_of. destruct (Z.eqb_spec m 0) as [->|Hm]; [now rewrite orb_true_r|]. rewrite orb_false_r.
    destruct (Z.eqb_spec (mv_f fc) 1) as [Ef|Ef].
    - assert (fc = 1). { destruct (Z.eq_dec fc 1); [auto|]. exfalso. assert (2 ^ 1 <= 2 ^ (fc - 1)) by (apply Z.pow_le_mono_r; lia). unfold mv_f in Ef. lia. }
      rewrite Ef. rewrite (Hres H). destruct (m <? 0); lia.
    - destruct (Z.ltb_spec m 0); [rewrite Z.abs_neq by lia | rewrite Z.abs_eq by lia]; reflexivity. }
  rewrite ED. clear ED. set (d := delta_of fc m res) in *. set (f := mv_f fc) in *.
  assert (EP : (if halved then Z.shiftr pmv 1 else pmv) = p).
  { rewrite Hp. destruct halved; [|reflexivity]. rewrite Z.shiftr_div_pow2 by lia. reflexivity. }
  rewrite EP. clear EP Hp.
  assert (V : (let vector := p + d in let vector := if vector <? -16 * f then vector + 32 * f else vector in
              if vector >? 16 * f - 1 then vector - 32 * f else vector) = v).
  { cbv zeta. rewrite E. clearbody d f. clear - Hpr Hv Hd E Hf.
    assert (K : -1 <= k <= 1) by nia.
    assert (C : k = -1 \/ k = 0 \/ k = 1) by lia. destruct C as [-> | [-> | ->] ].
    - destruct (Z.ltb_spec (v + 32 * f * -1) (-16 * f)); [|lia].
      rewrite Z.gtb_ltb. destruct (Z.ltb_spec (16 * f - 1) (v + 32 * f * -1 + 32 * f)); lia.
    - destruct (Z.ltb_spec (v + 32 * f * 0) (-16 * f)); [lia|].
      rewrite Z.gtb_ltb. destruct (Z.ltb_spec (16 * f - 1) (v + 32 * f * 0)); lia.
    - destruct (Z.ltb_spec (v + 32 * f * 1) (-16 * f)); [lia|].
      rewrite Z.gtb_ltb. destruct (Z.ltb_spec (16 * f - 1) (v + 32 * f * 1)); lia. }
  cbv zeta in V. rewrite V. rewrite Z.shiftl_mul_pow2 by lia. change (2 ^ 1) with 2. destruct halved; f_equal; lia.
Qed.

Lemma delta_of_bound : forall fc m res, 1 <= fc -> -16 <= m <= 16 -> 0 <= res < mv_f fc ->
  Z.abs (delta_of fc m res) <= 16 * mv_f fc.
Proof.
  intros fc m res Hfc Hm Hr. pose proof (mv_f_pos fc Hfc). unfold delta_of.
  destruct (Z.eqb_spec m 0); [lia|]. destruct (Z.ltb_spec m 0); nia.
Qed.

(** Whatever is read, the vector lands in the range. *)
Lemma mv_update_range : forall fc halved m res pmv, 1 <= fc -> -16 <= m <= 16 -> 0 <= res < mv_f fc ->
  - 32 * mv_f fc <= (if halved : bool then pmv / 2 else pmv) < 32 * mv_f fc ->
  exists v, mv_range fc v /\ mv_update fc halved m res pmv = ((if halved then 2 * v else v), v).
Proof.
  intros fc halved m res pmv Hfc Hm Hr Hp. pose proof (mv_f_pos fc Hfc) as Hf.
  set (p := if halved then pmv / 2 else pmv) in *.
  set (x := p + delta_of fc m res).
  exists ((x + 16 * mv_f fc) mod (32 * mv_f fc) - 16 * mv_f fc). split.
  - unfold mv_range. pose proof (Z.mod_pos_bound (x + 16 * mv_f fc) (32 * mv_f fc)). lia.
  - apply (mv_update_vector fc halved m res pmv p _ ((x + 16 * mv_f fc) / (32 * mv_f fc))); auto.
    + intro. subst fc. change (mv_f 1) with 1 in Hr. lia.
    + unfold mv_range. pose proof (Z.mod_pos_bound (x + 16 * mv_f fc) (32 * mv_f fc)). lia.
    + now apply delta_of_bound.
    + fold x. pose proof (Z.div_mod (x + 16 * mv_f fc) (32 * mv_f fc)). lia.
Qed.

Definition is_halved (e : piccodext) (field : bool) (t : nat) : bool := field && Nat.eqb t 1 && (pc_struct e =? FramePicture).

(** One component of a coded vector *)
Lemma mv_part_run : forall e field r s t m rd l p v c,
  1 <= f_code e s t ->
  p = (if is_halved e field t then nth (mvi r s t) (mv_pred (ms_mvd m)) 0 / 2 else nth (mvi r s t) (mv_pred (ms_mvd m)) 0) ->
  - 32 * mv_f (f_code e s t) <= p < 32 * mv_f (f_code e s t) ->
  mv_range (f_code e s t) v -> vector_code (f_code e s t) p v c ->
  motion_vector_part e field false r s t (m, setb rd (c ++ l)) =
  (Ok tt, (ms_set_mvd (mv_store r s t ((if is_halved e field t then 2 * v else v), v) (ms_mvd m)) m, setb rd l)).
Proof.
  intros e field r s t m rd l p v c Hfc Hp Hpr Hv (delta & k & Hd & E). unfold motion_vector_part.
  fold (is_halved e field t). set (fc := f_code e s t) in *. set (h := is_halved e field t) in *.
  set (pmv := nth (mvi r s t) (mv_pred (ms_mvd m)) 0) in *.
  pose proof (mv_f_pos fc Hfc) as Hf.
  assert (X : exists mc res tl, motion_code_code mc tl /\ (fc = 1 -> res = 0) /\ delta = delta_of fc tl res /\ 0 <= res < mv_f fc /\
     c = mc ++ (if negb (fc =? 1) && negb (tl =? 0) then enc (Z.to_nat (fc - 1)) res else [])).
  { destruct Hd as [mc H | mc tl res H H0 H1 | mc tl res H H0 H1].
    - exists mc, 0, 0. split; [exact H|]. split; [auto|]. split; [reflexivity|]. split; [lia|]. cbn [Z.eqb negb]. now rewrite andb_false_r, app_nil_r.
    - exists mc, res, tl. split; [exact H|]. split; [intro Ef; rewrite Ef in H1; change (mv_f 1) with 1 in H1; lia|].
      split; [unfold delta_of; rewrite (proj2 (Z.eqb_neq tl 0)), (proj2 (Z.ltb_ge tl 0)) by lia; reflexivity|]. split; [lia|].
      rewrite (proj2 (Z.eqb_neq tl 0)) by lia. destruct (Z.eqb_spec fc 1) as [Ef|]; cbn [negb andb]; [rewrite Ef; reflexivity | reflexivity].
    - exists mc, res, (- tl). split; [exact H|]. split; [intro Ef; rewrite Ef in H1; change (mv_f 1) with 1 in H1; lia|].
      split; [unfold delta_of; rewrite (proj2 (Z.eqb_neq (- tl) 0)), (proj2 (Z.ltb_lt (- tl) 0)) by lia; rewrite Z.opp_involutive; reflexivity|]. split; [lia|].
      rewrite (proj2 (Z.eqb_neq (- tl) 0)) by lia. destruct (Z.eqb_spec fc 1) as [Ef|]; cbn [negb andb]; [rewrite Ef; reflexivity | reflexivity]. }
  destruct X as (mc & res & tl & Hm & Hres & Ed & Hrr & ->). rewrite <- app_assoc.
  erewrite bind_onr_ok by (apply (proj1 motion_code_exact); exact Hm).
  assert (U : exists res', mv_update fc h tl res' pmv = ((if h then 2 * v else v), v) /\
     (if negb (fc =? 1) && negb (tl =? 0) then if fc =? 0 then panic else onr (read_n (Z.to_nat (fc - 1))) else ret 0)
       (m, setb rd ((if negb (fc =? 1) && negb (tl =? 0) then enc (Z.to_nat (fc - 1)) res else []) ++ l)) = (Ok res', (m, setb rd l))).
  { destruct (negb (fc =? 1) && negb (tl =? 0)) eqn:B.
    - exists res. split.
      + apply (mv_update_vector fc h tl res pmv p v k); auto; [|now rewrite <- Ed]. apply delta_of_bound; auto. eapply motion_code_bound; eauto.
      + rewrite (proj2 (Z.eqb_neq fc 0)) by lia. unfold onr. cbn [fst snd]. rewrite read_enc; [reflexivity|].
        unfold mv_f in Hrr. rewrite Z2Nat.id by lia. exact Hrr.
    - exists 0. split; [|reflexivity].
      assert (ED : delta_of fc tl 0 = delta). { rewrite Ed. apply andb_false_iff in B. destruct B as [B|B]; apply negb_false_iff in B; apply Z.eqb_eq in B.
        - rewrite (Hres B). reflexivity. - subst tl. reflexivity. }
      apply (mv_update_vector fc h tl 0 pmv p v k); auto; [|now rewrite ED]. rewrite ED, Ed. apply delta_of_bound; auto. eapply motion_code_bound; eauto. }
  destruct U as (res' & U1 & U2). rewrite (bind_ok _ _ _ _ _ _ _ _ U2). unfold upd. cbn [fst snd]. fold pmv. rewrite U1. reflexivity.
Qed.

(** Any component read *)
Lemma mv_part_any : forall e field dmv r s t m rd st',
  1 <= f_code e s t ->
  - 32 * mv_f (f_code e s t) <= (if is_halved e field t then nth (mvi r s t) (mv_pred (ms_mvd m)) 0 / 2 else nth (mvi r s t) (mv_pred (ms_mvd m)) 0)
    < 32 * mv_f (f_code e s t) ->
  motion_vector_part e field dmv r s t (m, rd) = (Ok tt, st') ->
  exists v, mv_range (f_code e s t) v /\
    fst st' = ms_set_mvd (mv_store r s t ((if is_halved e field t then 2 * v else v), v) (ms_mvd m)) m.
Proof.
  intros e field dmv r s t m rd st' Hfc Hp H. unfold motion_vector_part in H. fold (is_halved e field t) in H.
  apply bind_ok_inv in H. destruct H as (mc & s1 & H1 & H). unfold onr in H1. cbn [fst snd] in H1.
  destruct (motion_code_decode rd) as [x r1] eqn:E1. assert (x = Ok mc /\ s1 = (m, r1)) as [-> ->] by (split; congruence). clear H1.
  destruct (motion_code_inv _ _ _ E1) as (c & Hc & _). apply motion_code_bound in Hc.
  apply bind_ok_inv in H. destruct H as (res & s2 & H2 & H).
  assert (R : 0 <= res < mv_f (f_code e s t) /\ fst s2 = m).
  { pose proof (mv_f_pos _ Hfc). destruct (negb (f_code e s t =? 1) && negb (mc =? 0)).
    - rewrite (proj2 (Z.eqb_neq (f_code e s t) 0)) in H2 by lia. unfold onr in H2. cbn [fst snd] in H2.
      destruct (read_n (Z.to_nat (f_code e s t - 1)) r1) as [y r2] eqn:E2. assert (y = Ok res /\ s2 = (m, r2)) as [-> ->] by (split; congruence).
      destruct (read_n_inv _ _ _ _ E2) as (w & Hw & Hv & _). split; [|reflexivity]. subst res. pose proof (dec_range w) as D. rewrite Hw, Z2Nat.id in D by lia. exact D.
    - assert (res = 0 /\ s2 = (m, r1)) as [-> ->] by (unfold ret in H2; split; congruence). split; [lia|reflexivity]. }
  destruct R as [R1 R2]. destruct dmv; [discriminate|]. destruct s2 as [m2 r2]. cbn [fst] in R2. subst m2.
  destruct (mv_update_range (f_code e s t) (is_halved e field t) mc res (nth (mvi r s t) (mv_pred (ms_mvd m)) 0)) as (v & Hv & E); auto.
  exists v. split; [exact Hv|]. unfold upd in H. cbn [fst snd] in H. rewrite E in H. now inversion H.
Qed.

(** Every vector has a code. *)
Lemma motion_code_exists : forall m, -16 <= m <= 16 -> exists c, motion_code_code c m.
Proof.
  intros m Hm. assert (H : exists d, has b10 (Z.to_nat (Z.abs m)) d).
  { destruct (nth_error b10 (Z.to_nat (Z.abs m))) as [[v n]|] eqn:E; [exists (enc (Z.to_nat n) v), v, n; auto|].
    apply nth_error_None in E. change (length b10) with 17%nat in E. lia. }
  destruct H as (d & Hd). destruct (Z.eq_dec m 0) as [->|N]; [exists d; left; auto | exists (d ++ [m <? 0]); right; eauto].
Qed.
Lemma vector_code_exists : forall fc p v, 1 <= fc -> exists c, vector_code fc p v c.
Proof.
  intros fc p v Hfc. pose proof (mv_f_pos fc Hfc) as Hf. set (f := mv_f fc) in *.
  set (d := (v - p + 16 * f) mod (32 * f) - 16 * f).
  assert (Hd : -16 * f <= d < 16 * f) by (unfold d; pose proof (Z.mod_pos_bound (v - p + 16 * f) (32 * f)); lia).
  assert (E : p + d = v + 32 * f * - ((v - p + 16 * f) / (32 * f))) by (unfold d; pose proof (Z.div_mod (v - p + 16 * f) (32 * f)); lia).
  assert (C : exists c, delta_code fc d c).
  { clearbody d. clear E. destruct (Z.eq_dec d 0) as [->|N].
    - destruct (motion_code_exists 0) as (c & Hc); [lia|]. exists c. now constructor.
    - assert (B : 0 <= (Z.abs d - 1) / f < 16). { split; [apply Z.div_pos; lia | apply Z.div_lt_upper_bound; lia]. }
      pose proof (Z.mod_pos_bound (Z.abs d - 1) f). pose proof (Z.div_mod (Z.abs d - 1) f).
      destruct (Z.lt_ge_cases d 0) as [L|L].
      + destruct (motion_code_exists (- ((Z.abs d - 1) / f + 1))) as (c & Hc); [lia|].
        replace d with (- (((Z.abs d - 1) / f + 1 - 1) * mv_f fc + (Z.abs d - 1) mod f + 1)) by (fold f; lia).
        eexists. apply delta_down; [exact Hc | lia | fold f; lia].
      + destruct (motion_code_exists ((Z.abs d - 1) / f + 1)) as (c & Hc); [lia|].
        replace d with (((Z.abs d - 1) / f + 1 - 1) * mv_f fc + (Z.abs d - 1) mod f + 1) by (fold f; lia).
        eexists. apply delta_up; [exact Hc | lia | fold f; lia]. }
  destruct C as (c & Hc). exists c, d, (- ((v - p + 16 * f) / (32 * f))). split; [exact Hc | exact E].
Qed.
