(** GapProofs: Next on sequences whose picture numbers have gaps. *)
From Coq Require Import Lia.
From Verif Require Import Base BitReader Exec Local Mono TsRobust VidModel SpecVid VidProofs VidStream VidExt PropertiesVidHeaders MbModel SpecMotion SpecNext NextProofs SpecGap.

(** * Calls of Next *)
Lemma loop_more : forall n m s o s', next_loop n s = (o, s') -> o <> OutOfFuel -> (n <= m)%nat -> next_loop m s = (o, s').
Proof.
  induction n as [|n IH]; intros m s o s' H NO L; [cbn in H; injection H as <- <-; congruence|]. destruct m as [|m]; [lia|].
  cbn [next_loop] in *. unfold bind at 1 in H. unfold bind at 1. destruct (step s) as [r s1]. destruct r as [f|e| |]; auto.
  unfold own, bind at 1 in H. unfold own, bind at 1. unfold bind at 1 in H. unfold bind at 1. destruct (deref (v_ph (fst s1)) s1) as [r s2]. destruct r as [h|e| |]; auto.
  destruct (ph_tr h =? v_fc (fst s1)); [exact H|]. apply IH; auto. lia.
Qed.
Definition quiet (v : vidseq) : Prop := fs_tryget (v_fc v) (v_fs v) = None.
Lemma next_quiet : forall v r, quiet v -> next (v, r) = next_loop (S (length (rbits r))) (v, r).
Proof. intros v r Q. unfold next, own, bind. cbn [fst]. now rewrite Q. Qed.
(** What a call returns at [s1] it returns at [s]. *)
Definition leads (s s1 : vidseq * reader) : Prop := forall o s', o <> OutOfFuel -> next s1 = (o, s') -> next s = (o, s').
Lemma leads_refl : forall s, leads s s.
Proof. intros s o s' _ H. exact H. Qed.
Lemma leads_trans : forall a b c, leads a b -> leads b c -> leads a c.
Proof. intros a b c H1 H2 o s' N H. apply H1; auto. Qed.
Lemma leads_step : forall v b v1 b1 rd, quiet v -> quiet v1 -> step (v, setb rd b) = step (v1, setb rd b1) -> (length b1 <= length b)%nat ->
  leads (v, setb rd b) (v1, setb rd b1).
Proof.
  intros v b v1 b1 rd Q Q1 E L o s' NO H. rewrite next_quiet in * by auto. cbn [setb rbits] in *.
  apply (loop_more _ (S (length b))) in H; [|exact NO | lia]. rewrite <- H. cbn [next_loop]. unfold bind at 1. unfold bind at 2. now rewrite E.
Qed.
Lemma loop_unfold : forall n s f v1 r1 h, step s = (Ok f, (v1, r1)) -> v_ph v1 = Some h ->
  next_loop (S n) s = if ph_tr h =? v_fc v1 then (Ok f, (set_fc (u32 (v_fc v1 + 1)) v1, r1)) else next_loop n (v1, r1).
Proof.
  intros n s f v1 r1 h E Eh. cbn [next_loop]. rewrite (bind_ok _ _ _ _ _ _ _ _ E). unfold own at 1, bind at 1. cbn [fst]. rewrite Eh. unfold deref. rewrite bind_ret.
  destruct (ph_tr h =? v_fc v1); [rewrite bind_upd|]; reflexivity.
Qed.
Lemma leads_skip : forall v b v1 b1 rd f h, quiet v -> quiet v1 -> step (v, setb rd b) = (Ok f, (v1, setb rd b1)) -> v_ph v1 = Some h -> ph_tr h <> v_fc v1 ->
  (length b1 < length b)%nat -> leads (v, setb rd b) (v1, setb rd b1).
Proof.
  intros v b v1 b1 rd f h Q Q1 E Eh NE L o s' NO H. rewrite next_quiet in * by auto. cbn [setb rbits] in *.
  rewrite (loop_unfold _ _ _ _ _ _ E Eh). apply Z.eqb_neq in NE. rewrite NE. apply (loop_more _ _ _ _ _ H NO). lia.
Qed.
Lemma next_now : forall v b v1 r1 rd f h, quiet v -> step (v, setb rd b) = (Ok f, (v1, r1)) -> v_ph v1 = Some h -> ph_tr h = v_fc v1 ->
  next (v, setb rd b) = (Ok f, (set_fc (u32 (v_fc v1 + 1)) v1, r1)).
Proof. intros v b v1 r1 rd f h Q E Eh EE. rewrite next_quiet by auto. rewrite (loop_unfold _ _ _ _ _ _ E Eh). now rewrite EE, Z.eqb_refl. Qed.
Lemma leads_nexts : forall s s1 n xs s2, leads s s1 -> nexts n s1 = (Ok xs, s2) -> exists s3, nexts n s = (Ok xs, s3) /\ leads s3 s2.
Proof.
  intros s s1 [|n] xs s2 L H.
  - cbn in H. injection H as <- <-. exists s. split; [reflexivity | exact L].
  - exists s2. split; [|apply leads_refl]. cbn [nexts] in *. apply bind_ok_inv in H. destruct H as (x & s0 & E & H).
    rewrite (bind_ok _ _ _ _ _ _ _ _ (L (Ok x) s0 ltac:(discriminate) E)). exact H.
Qed.

(** * The state of the decoder within a group *)
Record steady (c : context) (o l : known) (held : option spicture) (cs : list spicture) (v : vidseq) : Prop := {
  sd_force : in_force c v;
  sd_o : serves (rf_frame (fs_0 (v_fs v))) o;
  sd_l : serves (rf_frame (fs_1 (v_fs v))) l;
  sd_none : (l = Missing -> o = Missing) /\ (o = Missing -> fs_past (v_fs v) = None);
  sd_old : forall p, In p cs -> old (fs_0 (v_fs v)) (tref p);
  sd_held : match held with
            | Some r => exists f, fs_1 (v_fs v) = mkRef (Some f) (tref r) false /\ looks f (pi_frame r) /\ l = Is (pi_frame r)
            | None => starts_ref cs /\ forall p, In p cs -> old (fs_1 (v_fs v)) (tref p) end;
  sd_order : rising (reorder held cs);
  sd_dec : pictures_all picture_decodes c o l cs;
  sd_wf : Forall wf_picture cs }.

Definition held_after (held : option spicture) (p : spicture) : option spicture := if is_ref p then Some p else held.
Lemma steady_sh : forall c o l held cs v, steady c o l held cs v -> v_sh v <> None.
Proof. intros c o l held cs v B. destruct (sd_force _ _ _ _ _ _ B) as ((h0 & -> & _) & _). discriminate. Qed.
Lemma steady_fc : forall c o l held cs v n, steady c o l held cs v -> steady c o l held cs (set_fc n v).
Proof. intros c o l held cs v n [B1 B2 B3 B4 B5 B6 B7 B8 B9]. constructor; assumption. Qed.

Lemma arrives : forall c o l held p cs v rd rest, steady c o l held (p :: cs) v -> at_unit rest ->
  exists f v1, step (v, setb rd (rest_of (p :: cs) rest)) = (Ok f, (v1, setb rd (rest_of cs rest))) /\ looks f (pi_frame p) /\
    steady (ctx_items c (pi_items p)) (older o l p) (latest l p) (held_after held p) cs v1 /\ v_fc v1 = v_fc v /\
    (exists h, v_ph v1 = Some h /\ ph_tr h = tref p) /\
    (if is_ref p then fs_0 (v_fs v1) = fs_1 (v_fs v) /\ fs_1 (v_fs v1) = mkRef (Some f) (tref p) false
     else fs_0 (v_fs v1) = fs_0 (v_fs v) /\ fs_1 (v_fs v1) = fs_1 (v_fs v)).
Proof.
  intros c o l held p cs v rd rest B A. pose proof (steady_sh _ _ _ _ _ _ B) as SH. destruct B as [F Eo El (N1 & N2) O0 HH C D W].
  cbn [pictures_all] in D. destruct D as (Dp & D).
  assert (RF : references p o l (set_fs (fs_set (tref p) (v_fs v)) v)).
  { unfold references. cbn [set_fs v_fs].
    assert (OLD : old (fs_1 (v_fs v)) (tref p) -> is_ref p = true -> p_type (pi_hdr p) = 2 -> serves (fs_past (fs_set (tref p) (v_fs v))) l).
    { intros O1 R T. exact (proj1 (ref_references p o l v (tref p) Eo El (conj N1 N2) (O0 p (or_introl eq_refl)) O1 (Z.le_refl _) R) T). }
    split; intro T.
    - assert (R : is_ref p = true) by (unfold is_ref; rewrite T; reflexivity). apply OLD; auto. destruct held as [r|].
      + destruct HH as (fr & E1 & _). rewrite E1. right. right. cbn [rf_tr]. cbn [reorder] in C. rewrite R in C. cbn [app rising] in C. apply (proj1 C). apply reorder_in. auto.
      + apply (proj2 HH). now left.
    - assert (NR : is_ref p = false) by (unfold is_ref; rewrite T; reflexivity). destruct held as [r|].
      + destruct HH as (fr & E1 & Lr & Elr).
        assert (L : tref p < tref r) by (cbn [reorder] in C; rewrite NR in C; apply (proj1 C); apply reorder_in; auto).
        destruct (held_past (tref p) fr (tref r) o (v_fs v) Eo N2 (O0 p (or_introl eq_refl)) E1) as (HP & HF); [lia|]. split; [exact HP|]. rewrite HF, Elr. exists fr. auto.
      + destruct HH as (SR & _). cbn [starts_ref] in SR. congruence. }
  destruct (picture_part_run c o l p v rd (rest_of cs rest) (Forall_inv W) F Dp RF) as (f & v1 & R & LF & F1 & Fs & Fc & Ph).
  { apply pictures_unit; auto. exact (Forall_inv_tail W). }
  exists f, v1. split.
  { unfold rest_of. cbn [flat_map]. rewrite <- app_assoc. rewrite step_picture by exact SH. exact R. }
  split; [exact LF|]. destruct (fs_set_refs (tref p) (v_fs v)) as (S0 & S1). unfold store in Fs. unfold held_after, older, latest in *.
  destruct (is_ref p) eqn:RP.
  - assert (X0 : fs_0 (v_fs v1) = fs_1 (v_fs v)) by (rewrite Fs; cbn [fs_add fs_0]; exact S1).
    assert (X1 : fs_1 (v_fs v1) = mkRef (Some f) (tref p) false) by (rewrite Fs; reflexivity).
    split; [|split; [exact Fc|]; split; [exact Ph|]; split; assumption].
    cbn [reorder] in C. rewrite RP in C.
    constructor; rewrite ?X0, ?X1; auto.
    + cbn [serves rf_frame]. eauto.
    + split; [discriminate|]. intro ML. rewrite Fs. cbn [fs_add fs_past]. pose proof (N1 ML) as EO. rewrite EO in *. rewrite ML in *. unfold fs_set, fs_set1. cbn [serves] in *. rewrite El, Eo. now apply N2.
    + intros q I. destruct held as [r|].
      * destruct HH as (fr & E1 & _). rewrite E1. right. right. cbn [rf_tr]. cbn [app rising] in C. apply (proj1 C). apply reorder_in. auto.
      * apply (proj2 HH). now right.
    + exists f. auto.
    + destruct held; cbn [app] in C; [exact (proj2 C) | exact C].
    + exact (Forall_inv_tail W).
  - assert (X0 : fs_0 (v_fs v1) = fs_0 (v_fs v)) by (rewrite Fs; exact S0).
    assert (X1 : fs_1 (v_fs v1) = fs_1 (v_fs v)) by (rewrite Fs; exact S1).
    split; [|split; [exact Fc|]; split; [exact Ph|]; split; assumption].
    destruct held as [r|]; [|destruct HH as (SR & _); cbn [starts_ref] in SR; congruence].
    cbn [reorder] in C. rewrite RP in C. destruct C as (C1 & C).
    constructor; rewrite ?X0, ?X1; auto.
    + split; [exact N1|]. intro MO. rewrite Fs.
      destruct HH as (fr & E1 & _). destruct (held_past (tref p) fr (tref r) o (v_fs v) Eo N2 (O0 p (or_introl eq_refl)) E1) as (HP & _); [|rewrite MO in HP; exact HP].
      pose proof (C1 r (proj2 (reorder_in cs (Some r) r) (or_introl eq_refl))). lia.
    + intros q I. apply O0. now right.
    + exact (Forall_inv_tail W).
Qed.

Lemma rest_shorter : forall p cs rest, (length (rest_of cs rest) < length (rest_of (p :: cs) rest))%nat.
Proof.
  intros p cs rest. unfold rest_of. cbn [flat_map]. rewrite <- app_assoc. generalize (flat_map enc_picture cs ++ rest). intro b. rewrite app_length.
  assert (H : (0 < length (enc_picture p))%nat); [|lia].
  destruct (picture_starts p []) as (t & Ht). rewrite app_nil_r in Ht. destruct (enc_picture p); [unfold code, prefix in Ht; discriminate Ht|]. cbn [length]. lia.
Qed.

(** * No frame of the group will be shown any more *)
Lemma stuck : forall cs c o l held v rd rest, steady c o l held cs v -> quiet v -> (forall p, In p cs -> v_fc v < tref p) -> at_unit rest ->
  exists v', leads (v, setb rd (rest_of cs rest)) (v', setb rd rest) /\ quiet v' /\ let '(c', o', l') := after_pictures c o l cs in steady c' o' l' None [] v'.
Proof.
  induction cs as [|p cs IH]; intros c o l held v rd rest B Q L A.
  - exists v. split; [apply leads_refl|]. split; [exact Q|]. destruct B as [F Eo El NN O0 HH C D W]. cbn [after_pictures]. constructor; auto.
    split; [exact I|]. intros p [].
  - destruct (arrives _ _ _ _ _ _ _ rd rest B A) as (f & v1 & E & _ & B1 & Fc & (h & Eh & Et) & X).
    assert (Lp : v_fc v < tref p) by (apply L; now left).
    assert (Q1 : quiet v1).
    { unfold quiet, fs_tryget in *. rewrite Fc. destruct (is_ref p).
      - destruct X as (-> & ->). destruct (ref_get (v_fc v) (fs_0 (v_fs v))); [discriminate Q|]. rewrite Q.
        unfold ref_get. cbn [rf_frame rf_prev rf_tr negb andb]. replace (tref p =? v_fc v) with false by (symmetry; apply Z.eqb_neq; lia). reflexivity.
      - destruct X as (-> & ->). exact Q. }
    destruct (IH _ _ _ _ _ rd rest B1 Q1) as (v' & L1 & Q' & B'); [intros q I; rewrite Fc; apply L; now right | exact A|].
    exists v'. split; [|split; [exact Q' | exact B'] ]. eapply leads_trans; [|exact L1].
    eapply leads_skip; [exact Q | exact Q1 | exact E | exact Eh | rewrite Et, Fc; lia|].
    apply rest_shorter.
Qed.

(** * The frames of the group are shown one after the other *)
Definition due_from (fc : Z) (held : option spicture) (cs : list spicture) : Prop := forall p, In p (reorder held cs) -> fc <= tref p.
Lemma live_quiet : forall c o l held cs v, steady c o l held cs v -> old (fs_0 (v_fs v)) (v_fc v) ->
  match held with Some r => tref r <> v_fc v | None => old (fs_1 (v_fs v)) (v_fc v) end -> quiet v.
Proof.
  intros c o l held cs v B O H. unfold quiet, fs_tryget. rewrite old_get by exact O. destruct held as [r|]; [|now apply old_get].
  destruct (sd_held _ _ _ _ _ _ B) as (f & -> & _). unfold ref_get. cbn [rf_frame rf_prev rf_tr negb andb]. apply Z.eqb_neq in H. now rewrite H.
Qed.
Lemma upto_none : forall n p l, tref p <> n -> upto n (p :: l) = [].
Proof. intros n p l H. cbn [upto]. apply Z.eqb_neq in H. now rewrite H. Qed.

(** The reference that is held is due. *)
Lemma held_due : forall c o l r cs v rest, steady c o l (Some r) cs v -> old (fs_0 (v_fs v)) (v_fc v) -> tref r = v_fc v -> due_from (v_fc v) (Some r) cs -> 0 <= v_fc v < 1024 ->
  exists f v', next (v, rest) = (Ok f, (v', rest)) /\ looks f (pi_frame r) /\ v_fc v' = v_fc v + 1 /\ reorder (Some r) cs = r :: reorder None cs /\
    steady c o l None cs v' /\ old (fs_0 (v_fs v')) (v_fc v') /\ old (fs_1 (v_fs v')) (v_fc v').
Proof.
  intros c o l r cs v rest B O E D Z. destruct B as [F Eo El NN O0 (f & HE & HL & HLl) C Dc W].
  assert (SR : starts_ref cs).
  { destruct cs as [|q qs]; [exact I|]. cbn [starts_ref]. destruct (is_ref q) eqn:RQ; [reflexivity|]. exfalso. cbn [reorder] in C. rewrite RQ in C.
    pose proof (proj1 C r (proj2 (reorder_in qs (Some r) r) (or_introl eq_refl))).
    assert (v_fc v <= tref q) by (apply D; cbn [reorder]; rewrite RQ; now left). lia. }
  pose proof (reorder_ref r cs SR) as ER. rewrite ER in C. destruct C as (C1 & C).
  exists f, (set_fc (u32 (v_fc v + 1)) v). split.
  { unfold next. unfold own at 1, bind at 1. cbn [fst]. unfold fs_tryget. rewrite old_get by exact O. rewrite HE. unfold ref_get. cbn [rf_frame rf_prev rf_tr negb andb].
    rewrite E, Z.eqb_refl, bind_upd. reflexivity. }
  split; [exact HL|]. rewrite u32_small by lia. split; [reflexivity|]. split; [exact ER|]. cbn [set_fc v_fs v_fc]. split; [|split].
  - apply steady_fc. constructor; auto. split; [exact SR|]. intros p I. rewrite HE. right. right. cbn [rf_tr]. apply C1. apply reorder_in. auto.
  - eapply old_le; [exact O | lia].
  - rewrite HE. right. right. cbn [rf_tr]. lia.
Qed.
(** The B picture that comes next is due. *)
Lemma b_due : forall c o l r q qs v rd rest, steady c o l (Some r) (q :: qs) v -> is_ref q = false -> old (fs_0 (v_fs v)) (v_fc v) -> tref q = v_fc v -> 0 <= v_fc v < 1024 -> at_unit rest ->
  exists f v', next (v, setb rd (rest_of (q :: qs) rest)) = (Ok f, (v', setb rd (rest_of qs rest))) /\ looks f (pi_frame q) /\ v_fc v' = v_fc v + 1 /\
    steady (ctx_items c (pi_items q)) o l (Some r) qs v' /\ old (fs_0 (v_fs v')) (v_fc v').
Proof.
  intros c o l r q qs v rd rest B RQ O E Z A.
  pose proof (sd_order _ _ _ _ _ _ B) as C. cbn [reorder] in C. rewrite RQ in C. destruct C as (C1 & C).
  pose proof (C1 r (proj2 (reorder_in qs (Some r) r) (or_introl eq_refl))) as LR.
  assert (Q : quiet v) by (eapply live_quiet; [exact B | exact O | cbn; lia]).
  destruct (arrives _ _ _ _ _ _ _ rd rest B A) as (f & v1 & ES & LF & B1 & Fc & (h & Eh & Et) & X). rewrite RQ in X. unfold held_after, older, latest in B1. rewrite RQ in B1.
  exists f, (set_fc (u32 (v_fc v1 + 1)) v1). split; [eapply next_now; [exact Q | exact ES | exact Eh | congruence]|]. split; [exact LF|].
  rewrite u32_small by lia. cbn [set_fc v_fs v_fc]. split; [now rewrite Fc|]. split; [now apply steady_fc|]. rewrite (proj1 X), Fc. eapply old_le; [exact O | lia].
Qed.

Lemma play : forall n c o l held cs v rd rest, length (reorder held cs) = n -> steady c o l held cs v -> old (fs_0 (v_fs v)) (v_fc v) ->
  (held = None -> old (fs_1 (v_fs v)) (v_fc v)) -> due_from (v_fc v) held cs -> (forall p, In p (reorder held cs) -> tref p < 1024) -> 0 <= v_fc v -> at_unit rest ->
  exists imgs s1 v', nexts (length (upto (v_fc v) (reorder held cs))) (v, setb rd (rest_of cs rest)) = (Ok imgs, s1) /\
    Forall2 looks imgs (map pi_frame (upto (v_fc v) (reorder held cs))) /\ leads s1 (v', setb rd rest) /\ quiet v' /\
    let '(c', o', l') := after_pictures c o l cs in steady c' o' l' None [] v'.
Proof.
  induction n as [|n IH]; intros c o l held cs v rd rest LN B O0 O1 D BD Z A.
  - destruct (reorder held cs) eqn:E; [|discriminate LN].
    assert (held = None /\ cs = []) as (-> & ->).
    { destruct cs as [|p cs]; cbn [reorder] in E; destruct held; cbn in E; auto; try discriminate E; destruct (is_ref p) eqn:Q; try discriminate E.
      pose proof (proj2 (reorder_in cs (Some p) p) (or_introl eq_refl)) as I. rewrite E in I. destruct I. }
    exists []. eexists. exists v. split; [reflexivity|]. split; [constructor|]. split; [apply leads_refl|]. split; [|exact B].
    eapply live_quiet; [exact B | exact O0 | now apply O1].
  - destruct (reorder held cs) as [|d ds] eqn:E; [discriminate LN|]. cbn in LN. injection LN as LN.
    pose proof (sd_order _ _ _ _ _ _ B) as C. rewrite E in C. destruct C as (C1 & C).
    assert (Ld : v_fc v <= tref d) by (apply D; rewrite E; now left).
    assert (Bd : tref d < 1024) by (apply BD; now left).
    destruct (Z.eq_dec (tref d) (v_fc v)) as [Ed | Nd].
    + (* d is due *)
      assert (DS : forall p, In p ds -> v_fc v + 1 <= tref p) by (intros p I; specialize (C1 p I); lia).
      assert (G : exists f v1 c1 o1 l1 held1 cs1, next (v, setb rd (rest_of cs rest)) = (Ok f, (v1, setb rd (rest_of cs1 rest))) /\ looks f (pi_frame d) /\ v_fc v1 = v_fc v + 1 /\
        steady c1 o1 l1 held1 cs1 v1 /\ old (fs_0 (v_fs v1)) (v_fc v1) /\ (held1 = None -> old (fs_1 (v_fs v1)) (v_fc v1)) /\ reorder held1 cs1 = ds /\ after_pictures c1 o1 l1 cs1 = after_pictures c o l cs).
      { destruct held as [r|].
        - destruct (Z.eq_dec (tref r) (v_fc v)) as [Er | Nr].
          + destruct (held_due _ _ _ _ _ _ (setb rd (rest_of cs rest)) B O0 Er D ltac:(lia)) as (f & v1 & N1 & N2 & N3 & N4 & N5 & N6 & N7).
            rewrite N4 in E. injection E as <- <-. exists f, v1, c, o, l, None, cs. repeat (split; [solve [auto]|]). reflexivity.
          + destruct cs as [|q qs]; [cbn in E; congruence|]. cbn [reorder] in E. destruct (is_ref q) eqn:RQ; cbn [app] in E; injection E as E1 E2; [congruence|]. subst q.
            destruct (b_due _ _ _ _ _ _ _ rd rest B RQ O0 Ed ltac:(lia) A) as (f & v1 & N1 & N2 & N3 & N4 & N5).
            exists f, v1, (ctx_items c (pi_items d)), o, l, (Some r), qs. split; [exact N1|]. split; [exact N2|]. split; [exact N3|]. split; [exact N4|]. split; [exact N5|]. split; [discriminate|]. split; [exact E2|].
            cbn [after_pictures]. unfold older, latest. now rewrite RQ.
        - destruct cs as [|p cs]; [discriminate E|]. pose proof (sd_held _ _ _ _ _ _ B) as (SR & _). cbn [starts_ref] in SR.
          assert (Q : quiet v) by (eapply live_quiet; [exact B | exact O0 | now apply O1]).
          destruct (arrives _ _ _ _ _ _ _ rd rest B A) as (f & v1 & ES & LF & B1 & Fc & (h & Eh & Et) & X). rewrite SR in X. destruct X as (X0 & X1).
          assert (EA : after_pictures c o l (p :: cs) = after_pictures (ctx_items c (pi_items p)) l (Is (pi_frame p)) cs) by (cbn [after_pictures]; unfold older, latest; now rewrite SR). rewrite EA.
          unfold held_after, older, latest in B1. rewrite SR in B1. cbn [reorder] in E. rewrite SR in E. cbn [app] in E.
          assert (D1 : due_from (v_fc v1) (Some p) cs) by (rewrite Fc; intros x I; apply D; cbn [reorder]; rewrite SR; exact I).
          destruct (Z.eq_dec (tref p) (v_fc v)) as [Ep | Np].
          + (* the reference itself *)
            assert (O01 : old (fs_0 (v_fs v1)) (v_fc v1)) by (rewrite X0, Fc; now apply O1).
            destruct (held_due _ _ _ _ _ _ (setb rd (rest_of cs rest)) B1 O01 ltac:(congruence) D1 ltac:(lia)) as (f' & v2 & N1 & N2 & N3 & N4 & N5 & N6 & N7).
            rewrite N4 in E. injection E as <- <-.
            assert (v2 = set_fc (u32 (v_fc v1 + 1)) v1) as ->.
            { unfold next in N1. unfold own at 1, bind at 1 in N1. cbn [fst] in N1. unfold fs_tryget in N1. rewrite old_get in N1 by exact O01. rewrite X1 in N1. unfold ref_get in N1. cbn [rf_frame rf_prev rf_tr negb andb] in N1.
              rewrite Fc, Ep, Z.eqb_refl, bind_upd in N1. cbn [fst snd ret] in N1. unfold ret in N1. injection N1 as _ N1. now rewrite <- N1, Fc. }
            exists f, (set_fc (u32 (v_fc v1 + 1)) v1), (ctx_items c (pi_items p)), l, (Is (pi_frame p)), None, cs.
            split; [eapply next_now; [exact Q | exact ES | exact Eh | congruence]|]. split; [exact LF|]. split; [now rewrite N3, Fc|]. repeat (split; [solve [auto]|]). reflexivity.
          + (* the B picture after it *)
            assert (RL : tref p > v_fc v) by (pose proof (D1 p (proj2 (reorder_in cs (Some p) p) (or_introl eq_refl))); lia).
            destruct cs as [|q qs]; [cbn in E; congruence|]. cbn [reorder] in E. destruct (is_ref q) eqn:RQ; cbn [app] in E; injection E as E1 E2; [congruence|]. subst q.
            assert (O01 : old (fs_0 (v_fs v1)) (v_fc v1)) by (rewrite X0, Fc; now apply O1).
            assert (Q1 : quiet v1) by (eapply live_quiet; [exact B1 | exact O01 | cbn; lia]).
            destruct (b_due _ _ _ _ _ _ _ rd rest B1 RQ O01 ltac:(congruence) ltac:(lia) A) as (f' & v2 & N1 & N2 & N3 & N4 & N5).
            exists f', v2, (ctx_items (ctx_items c (pi_items p)) (pi_items d)), l, (Is (pi_frame p)), (Some p), qs.
            split. { eapply leads_skip; [exact Q | exact Q1 | exact ES | exact Eh | lia | | discriminate | exact N1].
              apply rest_shorter. }
            split; [exact N2|]. split; [lia|]. split; [exact N4|]. split; [exact N5|]. split; [discriminate|]. split; [exact E2|].
            cbn [after_pictures]. unfold older, latest. now rewrite RQ. }
      destruct G as (f & v1 & c1 & o1 & l1 & held1 & cs1 & N & LF & F1 & B1 & P0 & P1 & R1 & A1).
      destruct (IH c1 o1 l1 held1 cs1 v1 rd rest) as (imgs & s1 & v' & M1 & M2 & M3 & M4 & M5); auto.
      * now rewrite R1.
      * unfold due_from. rewrite R1, F1. exact DS.
      * rewrite R1. intros p I. apply BD. now right.
      * lia.
      * rewrite R1, F1 in M1, M2. exists (f :: imgs), s1, v'. cbn [upto]. rewrite Ed, Z.eqb_refl. cbn [length nexts map].
        rewrite (bind_ok _ _ _ _ _ _ _ _ N). rewrite (bind_ok _ _ _ _ _ _ _ _ M1). split; [reflexivity|]. split; [constructor; auto|]. split; [exact M3|]. split; [exact M4|]. now rewrite <- A1.
    + (* a gap *)
      rewrite upto_none by exact Nd. assert (AD : forall p, In p (reorder held cs) -> v_fc v < tref p) by (rewrite E; intros p [<- | I]; [lia | specialize (C1 p I); lia]).
      assert (Q : quiet v).
      { eapply live_quiet; [exact B | exact O0|]. destruct held as [r|]; [|now apply O1]. pose proof (AD r (proj2 (reorder_in cs (Some r) r) (or_introl eq_refl))). lia. }
      destruct (stuck _ _ _ _ _ _ rd rest B Q) as (v' & L1 & Q' & B'); [intros p I; apply AD; apply reorder_in; auto | exact A|].
      exists []. eexists. exists v'. split; [reflexivity|]. split; [constructor|]. split; [exact L1|]. split; [exact Q' | exact B'].
Qed.

(** * Groups *)
Definition fr (g : sgroup) : list canvas := map pi_frame (upto 0 (display (gr_pics g))).
Lemma group_play : forall g c o l v v0 rd bits rest p ps,
  gr_pics g = p :: ps -> quiet v ->
  step (v, setb rd bits) = picture_part (group_effect g v0, setb rd (enc_picture p ++ rest_of ps rest)) -> (length (enc_picture p ++ rest_of ps rest) <= length bits)%nat ->
  in_force c v0 -> v_fs v0 = v_fs v ->
  serves (rf_frame (fs_0 (v_fs v))) o -> serves (rf_frame (fs_1 (v_fs v))) l -> (l = Missing -> o = Missing) /\ (o = Missing -> fs_past (v_fs v) = None) ->
  wf_group g -> gap_group g -> pictures_all picture_decodes c o l (gr_pics g) -> at_unit rest ->
  exists imgs s1 v', nexts (length (fr g)) (v, setb rd bits) = (Ok imgs, s1) /\ Forall2 looks imgs (fr g) /\ leads s1 (v', setb rd rest) /\ quiet v' /\
    let '(c', o', l') := after_pictures c o l (gr_pics g) in steady c' o' l' None [] v'.
Proof.
  intros g c o l v v0 rd bits rest p ps EP T ES LB F Efs Eo El NN (_ & _ & _ & _ & W) (VN & p0 & ps0 & EP0 & TP) D A.
  rewrite EP in EP0. injection EP0 as <- <-.
  assert (RP : is_ref p = true) by (unfold is_ref; rewrite TP; reflexivity).
  assert (TB : forall q, In q (gr_pics g) -> 0 <= tref q < 1024).
  { intros q I. rewrite Forall_forall in W. destruct (W q I) as (Wq & _). destruct Wq as (Wq & _). unfold tref. change (2 ^ 10) with 1024 in Wq. lia. }
  assert (B : steady c o l None (gr_pics g) (group_effect g v0)).
  { constructor; auto; unfold group_effect, start_gop; cbn [set_fc set_fs set_gop v_fc v_fs fs_gop fs_0 fs_1 fs_past ref_prev rf_frame]; rewrite ?Efs; auto.
    - intros q _. apply old_prev.
    - split; [rewrite EP; exact RP | intros q _; apply old_prev]. }
  assert (P0 : old (fs_0 (v_fs (group_effect g v0))) (v_fc (group_effect g v0))) by apply old_prev.
  assert (P1 : old (fs_1 (v_fs (group_effect g v0))) (v_fc (group_effect g v0))) by apply old_prev.
  assert (Q : quiet (group_effect g v0)) by (eapply live_quiet; [exact B | exact P0 | exact P1]).
  assert (FC : v_fc (group_effect g v0) = 0) by reflexivity.
  destruct (play _ _ _ _ _ _ _ rd rest eq_refl B P0 (fun _ => P1)) as (imgs & s1 & v' & M1 & M2 & M3 & M4 & M5); auto.
  - rewrite FC. intros q I. apply reorder_in in I. destruct I as [I | I]; [discriminate I | now apply TB].
  - intros q I. apply reorder_in in I. destruct I as [I | I]; [discriminate I | now apply TB].
  - rewrite FC. lia.
  - rewrite FC in M1, M2. fold (display (gr_pics g)) in M1, M2.
    assert (L0 : leads (v, setb rd bits) (group_effect g v0, setb rd (rest_of (gr_pics g) rest))).
    { rewrite EP. unfold rest_of. cbn [flat_map]. rewrite <- app_assoc. fold (rest_of ps rest). apply leads_step; auto.
      rewrite ES. symmetry. apply step_picture. apply (steady_sh _ _ _ _ _ _ B). }
    destruct (leads_nexts _ _ _ _ _ L0 M1) as (s3 & N & L3).
    exists imgs, s3, v'. unfold fr. rewrite map_length. split; [exact N|]. split; [exact M2|]. split; [eapply leads_trans; eauto|]. split; assumption.
Qed.

Lemma nexts_leads : forall a b s xs s1 s2 ys s3, nexts a s = (Ok xs, s1) -> leads s1 s2 -> nexts b s2 = (Ok ys, s3) -> exists s4, nexts (a + b) s = (Ok (xs ++ ys), s4) /\ leads s4 s3.
Proof.
  intros a b s xs s1 s2 ys s3 H L H2. destruct (leads_nexts _ _ _ _ _ L H2) as (s4 & N & L4). exists s4. split; [eapply nexts_app; eauto | exact L4].
Qed.
Lemma group_bits_len : forall g l, (length l <= length (group_bits g l))%nat.
Proof. intros. unfold group_bits. rewrite !app_length. lia. Qed.

Lemma groups_play : forall gs c o l v rd rest, steady c o l None [] v -> quiet v -> Forall wf_group gs -> Forall gap_group gs -> groups_all picture_decodes (Some c) o l gs -> at_unit rest ->
  exists imgs s1 v' c' o' l', nexts (length (flat_map fr gs)) (v, setb rd (flat_map enc_group gs ++ rest)) = (Ok imgs, s1) /\ Forall2 looks imgs (flat_map fr gs) /\
    leads s1 (v', setb rd rest) /\ quiet v' /\ steady c' o' l' None [] v'.
Proof.
  induction gs as [|g gs IH]; intros c o l v rd rest B Q W V D A.
  - exists []. eexists. exists v, c, o, l. split; [reflexivity|]. split; [constructor|]. split; [apply leads_refl|]. split; assumption.
  - pose proof (Forall_inv W) as Wg. pose proof (Forall_inv_tail W) as Wt. pose proof (Forall_inv V) as Vg. pose proof (Forall_inv_tail V) as Vt.
    pose proof Vg as (_ & p & ps & EP & _). pose proof Wg as (_ & _ & _ & _ & WP).
    assert (A1 : at_unit (flat_map enc_group gs ++ rest)) by (now apply groups_unit).
    assert (A2 : at_code (enc_picture p ++ rest_of ps (flat_map enc_group gs ++ rest))).
    { unfold rest_of. rewrite app_assoc. change (enc_picture p ++ flat_map enc_picture ps) with (flat_map enc_picture (p :: ps)). rewrite <- EP. apply pictures_at; [exact WP | now apply unit_at_code]. }
    pose proof (steady_sh _ _ _ _ _ _ B) as SH.
    assert (EB : flat_map enc_group (g :: gs) ++ rest = match gr_start g with Some s => enc_start s | None => [] end ++ group_bits g (enc_picture p ++ rest_of ps (flat_map enc_group gs ++ rest))).
    { cbn [flat_map]. unfold enc_group at 1, group_bits, rest_of. rewrite EP. cbn [flat_map]. now rewrite <- !app_assoc. }
    cbn [groups_all] in D.
    assert (G : exists c0 v0, match gr_start g with Some s => Some (ctx_start s) | None => Some c end = Some c0 /\ in_force c0 v0 /\ v_fs v0 = v_fs v /\
       step (v, setb rd (flat_map enc_group (g :: gs) ++ rest)) = picture_part (group_effect g v0, setb rd (enc_picture p ++ rest_of ps (flat_map enc_group gs ++ rest)))).
    { rewrite EB. destruct (gr_start g) as [s|] eqn:S.
      - destruct (step_start_group s g p _ v rd Wg S A2 SH) as (v0 & E & F & Fs). exists (ctx_start s), v0. auto.
      - exists c, v. split; [reflexivity|]. split; [apply (sd_force _ _ _ _ _ _ B)|]. split; [reflexivity|]. cbn [app]. now apply step_group. }
    destruct G as (c0 & v0 & Ec & F & Fs & ES). rewrite Ec in *. destruct D as (Dp & D).
    destruct (group_play g c0 o l v v0 rd (flat_map enc_group (g :: gs) ++ rest) (flat_map enc_group gs ++ rest) p ps EP Q ES) as (imgs & s1 & v1 & N & L1 & Ld & Q1 & B1); auto.
    + rewrite EB. generalize (enc_picture p ++ rest_of ps (flat_map enc_group gs ++ rest)). intro x. rewrite app_length. pose proof (group_bits_len g x). lia.
    + exact (sd_o _ _ _ _ _ _ B).
    + exact (sd_l _ _ _ _ _ _ B).
    + exact (sd_none _ _ _ _ _ _ B).
    + destruct (after_pictures c0 o l (gr_pics g)) as ((c1 & o1) & l1).
      destruct (IH _ _ _ _ rd rest B1 Q1 Wt Vt D A) as (imgs2 & s2 & v2 & c2 & o2 & l2 & N2 & L2 & Ld2 & Q2 & B2).
      destruct (nexts_leads _ _ _ _ _ _ _ _ N Ld N2) as (s4 & N4 & Ld4).
      exists (imgs ++ imgs2), s4, v2, c2, o2, l2. change (flat_map fr (g :: gs)) with (fr g ++ flat_map fr gs). rewrite app_length. split; [exact N4|].
      split; [now apply Forall2_app|]. split; [eapply leads_trans; eauto|]. split; assumption.
Qed.

Lemma end_quiet : forall c o l v rd t, steady c o l None [] v -> quiet v -> next (v, setb rd (code sequence_end_code ++ t)) = (Err EOS, (v, setb rd t)).
Proof.
  intros c o l v rd t B Q. rewrite next_quiet by exact Q. cbn [next_loop].
  destruct (sd_force _ _ _ _ _ _ B) as ((h0 & Eh & _) & _).
  assert (ES : step (v, setb rd (code sequence_end_code ++ t)) = (Err EOS, (v, setb rd t))).
  { unfold step. unfold own at 1, bind at 1. cbn [fst]. rewrite Eh.
    erewrite bind_onr_ok by (apply peek_code; unfold sequence_end_code; lia).
    change ((256 + sequence_end_code =? PictureStartCode) || (256 + sequence_end_code =? GroupStartCode)) with false. cbv iota.
    erewrite bind_onr_ok by (apply peek_code; unfold sequence_end_code; lia). change (256 + sequence_end_code =? SequenceEndStartCode) with true. cbv iota.
    erewrite bind_onr_ok by (apply skip_app; reflexivity). reflexivity. }
  unfold bind. now rewrite ES.
Qed.
Lemma shown_fr : forall gs, shown_upto gs = flat_map fr gs.
Proof. induction gs as [|g gs IH]; [reflexivity|]. unfold shown_upto in *. cbn [flat_map]. rewrite map_app, IH. reflexivity. Qed.

Lemma gaps_play : forall k g gs rd, gap_sequence picture_decodes (g :: gs) ->
  exists imgs s, nexts (length (shown_upto (g :: gs))) (new_vidseq, setb rd (enc_sequence k (g :: gs))) = (Ok imgs, s) /\
    Forall2 looks imgs (shown_upto (g :: gs)) /\ exists v', next s = (Err EOS, (v', setb rd [])).
Proof.
  intros k g gs rd (W & V & D).
  pose proof (Forall_inv W) as Wg. pose proof (Forall_inv_tail W) as Wt. pose proof (Forall_inv V) as Vg. pose proof (Forall_inv_tail V) as Vt.
  pose proof Vg as (_ & p & ps & EP & _). pose proof Wg as (_ & _ & _ & _ & WP). set (rest := code sequence_end_code).
  assert (A : at_unit rest) by exact end_unit.
  assert (A1 : at_unit (flat_map enc_group gs ++ rest)) by (apply groups_unit; auto).
  assert (A2 : at_code (enc_picture p ++ rest_of ps (flat_map enc_group gs ++ rest))).
  { unfold rest_of. rewrite app_assoc. change (enc_picture p ++ flat_map enc_picture ps) with (flat_map enc_picture (p :: ps)). rewrite <- EP. apply pictures_at; [exact WP | now apply unit_at_code]. }
  cbn [groups_all] in D. destruct (gr_start g) as [s|] eqn:S; [|contradiction]. destruct D as (Dp & D).
  assert (EB : enc_sequence k (g :: gs) =
    bb (repeat 0 k) ++ enc_start s ++ group_bits g (enc_picture p ++ rest_of ps (flat_map enc_group gs ++ rest))).
  { unfold enc_sequence. fold rest. cbn [flat_map]. unfold enc_group at 1, group_bits, rest_of. rewrite EP, S. cbn [flat_map]. now rewrite <- !app_assoc. }
  destruct (step_first_group k s g p (rest_of ps (flat_map enc_group gs ++ rest)) new_vidseq rd eq_refl Wg S A2) as (v0 & ES & F & Fs).
  destruct (group_play g (ctx_start s) Unknown Unknown new_vidseq v0 rd (enc_sequence k (g :: gs)) (flat_map enc_group gs ++ rest) p ps EP eq_refl) as (imgs & s1 & v1 & N & L1 & Ld & Q1 & B1); auto.
  - rewrite EB. exact ES.
  - rewrite EB. generalize (enc_picture p ++ rest_of ps (flat_map enc_group gs ++ rest)). intro x. rewrite !app_length. pose proof (group_bits_len g x). lia.
  - exact I.
  - exact I.
  - destruct (after_pictures (ctx_start s) Unknown Unknown (gr_pics g)) as ((c1 & o1) & l1).
    destruct (groups_play gs _ _ _ _ rd rest B1 Q1 Wt Vt D A) as (imgs2 & s2 & v2 & c2 & o2 & l2 & N2 & L2 & Ld2 & Q2 & B2).
    destruct (nexts_leads _ _ _ _ _ _ _ _ N Ld N2) as (s4 & N4 & Ld4).
    rewrite shown_fr. change (flat_map fr (g :: gs)) with (fr g ++ flat_map fr gs). rewrite app_length.
    exists (imgs ++ imgs2), s4. split; [exact N4|]. split; [now apply Forall2_app|]. exists v2. apply Ld4; [discriminate|]. apply Ld2; [discriminate|].
    unfold rest. rewrite <- (app_nil_r (code sequence_end_code)). eapply end_quiet; eassumption.
Qed.
