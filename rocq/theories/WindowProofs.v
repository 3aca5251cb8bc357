(** WindowProofs: the payload reader with SkipUntil and TakeWhile over any bytes is the machine of SpecWindow. *)
From Verif Require Import Base BitReader Exec Local TsModel TsReaders TsRobust Mono SpecUnitTape UnitTapeProofs SpecWindow.

Lemma serve_eq : forall n have es, serve n have es =
  if (n <=? length have)%nat then Some ((firstn n have, None), Open (skipn n have) es) else
    match es with
    | [] => None
    | Gives b :: t => serve n (have ++ b) t
    | Fails e :: t => Some ((have, Some e), Open [] t)
    | Closes b :: _ => Some ((firstn n (have ++ b), Some EEOF), Closed)
    end.
Proof. intros n have [|x es]; reflexivity. Qed.

(** While a Read fills: [have] is what it has delivered and what is left *)
Definition filling (n : nat) (have : list Z) (s : preader) (want : nat) (acc rem : list Z) : Prop :=
  acc ++ pr_rem s ++ rem = have /\ length acc = Nat.min n (length have) /\ want = (n - length acc)%nat.
Lemma filling_full : forall n have s acc rem, filling n have s 0 acc rem -> (n <= length have)%nat /\ acc = firstn n have /\ pr_rem s ++ rem = skipn n have.
Proof.
  intros n have s acc rem (E & L & W). assert (N : (n <= length have)%nat) by lia. assert (La : length acc = n) by lia. split; [exact N|]. subst have.
  rewrite firstn_app, skipn_app, La, Nat.sub_diag, firstn_all2, skipn_all2 by lia. cbn [firstn skipn app]. now rewrite app_nil_r.
Qed.
Lemma filling_more : forall n have s want acc rem, filling n have s (S want) acc rem -> (length have < n)%nat /\ acc = have /\ pr_rem s = [] /\ rem = [].
Proof.
  intros n have s want acc rem (E & L & W). assert (N : (length have < n)%nat) by lia. split; [exact N|]. assert (L2 : length acc = length have) by lia.
  rewrite <- E in L2. rewrite !app_length in L2. destruct (pr_rem s); [|cbn in L2; lia]. destruct rem; [|cbn in L2; lia]. cbn [app] in E. rewrite app_nil_r in E. auto.
Qed.
Lemma filling_packet : forall n have s want acc rem p, filling n have s (S want) acc rem ->
  let c := firstn (S want) (pk_payload p) in
  filling n (have ++ pk_payload p) s (S want - length c) (acc ++ c) (skipn (length c) (pk_payload p)).
Proof.
  intros n have s want acc rem p H c. pose proof H as (_ & L & W). destruct (filling_more _ _ _ _ _ _ H) as (N & -> & R & ->). unfold filling. rewrite R. cbn [app].
  subst c. rewrite !app_length, !firstn_length. split; [|split; lia]. rewrite <- app_assoc. f_equal. destruct (le_lt_dec (S want) (length (pk_payload p))) as [Q|Q].
  - rewrite Nat.min_l by lia. apply firstn_skipn.
  - rewrite Nat.min_r by lia. rewrite firstn_all2, skipn_all2 by lia. apply app_nil_r.
Qed.
Lemma closing_bytes : forall n have s want acc rem p, filling n have s (S want) acc rem ->
  acc ++ firstn (S want) (pk_payload p) = firstn n (have ++ pk_payload p).
Proof.
  intros n have s want acc rem p H. pose proof H as (_ & L & W). destruct (filling_more _ _ _ _ _ _ H) as (N & -> & R & ->).
  rewrite firstn_app, (firstn_all2 have) by lia. do 2 f_equal. lia.
Qed.

(** What a Read does with the packet that a call leaves *)
Definition after (w t : tester) (s : preader) (ph : phase) (p2 : packet) (r2 : reader) (l2 : list (packet * option err)) (s2 : preader) : Prop :=
  match ph with
  | Open rem2 es => s2 = pr_set s p2 r2 rem2 false /\ es = events w t l2
  | Closed => exists rem2, s2 = pr_set s p2 r2 rem2 true
  end.

Lemma fill_full : forall k p r l s', log packet_next k (p, r) l s' -> forall fuel s n have acc rem out ph, filling n have s 0 acc rem ->
  serve n have (events (pr_where s) (pr_take s) l) = Some (out, ph) ->
  exists k2 p2 r2 l2 s2, log packet_next k2 (p2, r2) l2 s' /\ (k2 <= k)%nat /\ pr_fill fuel s p r 0 acc rem = (Ok out, s2) /\ after (pr_where s) (pr_take s) s ph p2 r2 l2 s2.
Proof.
  intros k p r l s' L fuel s n have acc rem out ph F S. destruct (filling_full _ _ _ _ _ F) as (N & -> & R). rewrite serve_eq in S. apply Nat.leb_le in N. rewrite N in S.
  assert (out = (firstn n have, None) /\ ph = Open (skipn n have) (events (pr_where s) (pr_take s) l)) as (-> & ->) by (split; congruence).
  exists k, p, r, l. eexists. split; [exact L|]. split; [lia|]. split; [destruct fuel; reflexivity|]. cbn [after]. rewrite R. auto.
Qed.
Lemma fill_log : forall k p r l s', log packet_next k (p, r) l s' -> forall fuel s n have want acc rem out ph, (k <= fuel)%nat ->
  filling n have s want acc rem -> serve n have (events (pr_where s) (pr_take s) l) = Some (out, ph) ->
  exists k2 p2 r2 l2 s2, log packet_next k2 (p2, r2) l2 s' /\ (k2 <= k)%nat /\ pr_fill fuel s p r want acc rem = (Ok out, s2) /\
    after (pr_where s) (pr_take s) s ph p2 r2 l2 s2.
Proof.
  intros k p r l s' H. remember (p, r) as st eqn:Es. revert p r Es.
  induction H as [st|k st q src l s' E H IH|k st e q src l s' E H IH]; intros p r -> fuel s n have want acc rem out ph Hf F S; destruct want as [|want];
    try (eapply fill_full; [|exact F|exact S]; eauto using log_none, log_ok, log_error; fail).
  - destruct (filling_more _ _ _ _ _ _ F) as (N & _). apply Nat.leb_gt in N. rewrite serve_eq, N in S. discriminate.
  - destruct (filling_more _ _ _ _ _ _ F) as (N & Ea & R & Er). apply Nat.leb_gt in N. rewrite serve_eq, N in S. cbn [events map event_of] in S. fold (events (pr_where s) (pr_take s) l) in S.
    destruct fuel as [|f]; [lia|]. cbn [pr_fill]. rewrite E. unfold adds in S. destruct (pr_where s q) eqn:W.
    + pose proof (filling_packet _ _ _ _ _ _ q F) as F2. destruct (pr_take s q) eqn:T.
      * destruct (IH q src eq_refl f s n _ _ _ _ out ph ltac:(lia) F2 S) as (k2 & p2 & r2 & l2 & s2 & L2 & Lk & P & A). exists k2, p2, r2, l2, s2. auto.
      * assert (out = (firstn n (have ++ pk_payload q), Some EEOF) /\ ph = Closed) as (-> & ->) by (split; congruence).
        exists k, q, src, l. eexists. split; [exact H|]. split; [lia|]. split; [rewrite <- (closing_bytes _ _ _ _ _ _ q F); reflexivity|]. cbn [after]. eexists. reflexivity.
    + destruct (pr_take s q) eqn:T; rewrite app_nil_r in S.
      * destruct (IH q src eq_refl f s n have _ _ _ out ph ltac:(lia) F S) as (k2 & p2 & r2 & l2 & s2 & L2 & Lk & P & A). exists k2, p2, r2, l2, s2. auto.
      * rewrite firstn_all2 in S by (apply Nat.leb_gt in N; lia). assert (out = (have, Some EEOF) /\ ph = Closed) as (-> & ->) by (split; congruence).
        exists k, q, src, l. eexists. split; [exact H|]. split; [lia|]. split; [rewrite <- Ea; reflexivity|]. cbn [after]. eexists. reflexivity.
  - destruct (filling_more _ _ _ _ _ _ F) as (N & Ea & R & Er). apply Nat.leb_gt in N. rewrite serve_eq, N in S. cbn [events map event_of] in S. fold (events (pr_where s) (pr_take s) l) in S.
    destruct fuel as [|f]; [lia|]. cbn [pr_fill]. rewrite E. assert (out = (have, Some e) /\ ph = Open [] (events (pr_where s) (pr_take s) l)) as (-> & ->) by (split; congruence).
    exists k, q, src, l. eexists. split; [exact H|]. split; [lia|]. split; [rewrite <- Ea; reflexivity|]. cbn [after]. rewrite R. auto.
Qed.
Lemma realign_log : forall k p r l s', log packet_next k (p, r) l s' -> forall fuel u d l2, (k <= fuel)%nat -> skipped u l = Some (d, l2) ->
  exists k2 p2 r2, log packet_next k2 (p2, r2) l2 s' /\ (k2 < k)%nat /\ pr_realign fuel u p r = (Ok d, (p2, r2)).
Proof.
  intros k p r l s' H. remember (p, r) as st eqn:Es. revert p r Es.
  induction H as [st|k st q src l s' E H IH|k st e q src l s' E H IH]; intros p r -> fuel u d l2 Hf S; cbn [skipped] in S; [discriminate| |];
    (destruct fuel as [|f]; [lia|]); cbn [pr_realign]; rewrite E; destruct (u q) eqn:U;
    try (assert (d = pk_payload q /\ l2 = l) as (-> & ->) by (split; congruence); exists k, q, src; auto; fail);
    destruct (IH q src eq_refl f u d l2 ltac:(lia) S) as (k2 & p2 & r2 & L & Lk & R); exists k2, p2, r2; auto.
Qed.

(** Backwards *)
Lemma fill_calls : forall fuel s p r n have want acc rem out s2, filling n have s want acc rem -> pr_fill fuel s p r want acc rem = (Ok out, s2) ->
  exists k l p2 r2, log packet_next k (p, r) l (p2, r2) /\
    forall l2, exists ph, serve n have (events (pr_where s) (pr_take s) (l ++ l2)) = Some (out, ph) /\ after (pr_where s) (pr_take s) s ph p2 r2 l2 s2.
Proof.
  induction fuel as [|f IH]; intros s p r n have want acc rem out s2 F H; (destruct want as [|want];
    [exists 0%nat, [], p, r; split; [apply log_none|]; intro l2; cbn [app]; destruct (filling_full _ _ _ _ _ F) as (N & Ea & R); apply Nat.leb_le in N;
     exists (Open (skipn n have) (events (pr_where s) (pr_take s) l2)); rewrite serve_eq, N; cbn [pr_fill] in H;
     assert (out = (acc, None) /\ s2 = pr_set s p r (pr_rem s ++ rem) false) as (-> & ->) by (split; congruence); split; [now rewrite Ea|]; cbn [after]; rewrite R; auto|]); cbn [pr_fill] in H; [discriminate|].
  destruct (filling_more _ _ _ _ _ _ F) as (N & Ea & R & Er). apply Nat.leb_gt in N.
  destruct (packet_next (p, r)) as [x [q src] ] eqn:E. destruct x as [ [] |e| |]; try discriminate.
  - destruct (pr_where s q) eqn:W; destruct (pr_take s q) eqn:T.
    + pose proof (filling_packet _ _ _ _ _ _ q F) as F2. destruct (IH _ _ _ _ _ _ _ _ _ _ F2 H) as (k & l & p2 & r2 & L & K).
      exists (S k), ((q, None) :: l), p2, r2. split; [eapply log_ok; eauto|]. intro l2. destruct (K l2) as (ph & S1 & A). exists ph. split; [|exact A].
      rewrite serve_eq, N. cbn [app events map event_of]. unfold adds. rewrite T, W. exact S1.
    + exists 1%nat, [(q, None)], q, src. split; [eapply log_ok; [exact E | apply log_none]|]. intro l2. exists Closed. rewrite serve_eq, N. cbn [app events map event_of]. unfold adds. rewrite T, W.
      rewrite <- (closing_bytes _ _ _ _ _ _ q F).
      match type of H with (Ok ?o, ?st) = _ => assert (out = o /\ s2 = st) as (-> & ->) by (split; congruence) end. split; [reflexivity|]. cbn [after]. eexists. reflexivity.
    + destruct (IH _ _ _ _ _ _ _ _ _ _ F H) as (k & l & p2 & r2 & L & K).
      exists (S k), ((q, None) :: l), p2, r2. split; [eapply log_ok; eauto|]. intro l2. destruct (K l2) as (ph & S1 & A). exists ph. split; [|exact A].
      rewrite serve_eq, N. cbn [app events map event_of]. unfold adds. rewrite T, W, app_nil_r. exact S1.
    + exists 1%nat, [(q, None)], q, src. split; [eapply log_ok; [exact E | apply log_none]|]. intro l2. exists Closed. rewrite serve_eq, N. cbn [app events map event_of]. unfold adds. rewrite T, W, app_nil_r.
      rewrite firstn_all2 by (apply Nat.leb_gt in N; lia).
      match type of H with (Ok ?o, ?st) = _ => assert (out = o /\ s2 = st) as (-> & ->) by (split; congruence) end. split; [now rewrite Ea|]. cbn [after]. eexists. reflexivity.
  - exists 1%nat, [(q, Some e)], q, src. split; [eapply log_error; [exact E | apply log_none]|]. intro l2. exists (Open [] (events (pr_where s) (pr_take s) l2)). rewrite serve_eq, N. cbn [app events map event_of].
    match type of H with (Ok ?o, ?st) = _ => assert (out = o /\ s2 = st) as (-> & ->) by (split; congruence) end. split; [now rewrite Ea|]. cbn [after]. rewrite R. auto.
Qed.
Lemma realign_calls : forall fuel u p r d p2 r2, pr_realign fuel u p r = (Ok d, (p2, r2)) ->
  exists k l, log packet_next k (p, r) l (p2, r2) /\ forall l2, skipped u (l ++ l2) = Some (d, l2).
Proof.
  induction fuel as [|f IH]; intros u p r d p2 r2 H; cbn [pr_realign] in H; [discriminate|].
  destruct (packet_next (p, r)) as [x [q src] ] eqn:E.
  assert (K : forall o, (forall k l s', log packet_next k (q, src) l s' -> log packet_next (S k) (p, r) ((q, o) :: l) s') ->
    (if u q then (Ok (pk_payload q), (q, src)) else pr_realign f u q src) = (Ok d, (p2, r2)) ->
    exists k l, log packet_next k (p, r) l (p2, r2) /\ forall l2, skipped u (l ++ l2) = Some (d, l2)).
  { intros o LO G. destruct (u q) eqn:U.
    - assert (d = pk_payload q /\ p2 = q /\ r2 = src) as (-> & -> & ->) by (repeat split; congruence).
      exists 1%nat, [(q, o)]. split; [apply LO, log_none|]. intro l2. cbn [app skipped]. now rewrite U.
    - destruct (IH _ _ _ _ _ _ G) as (k & l & L & SK). exists (S k), ((q, o) :: l). split; [now apply LO|]. intro l2. cbn [app skipped]. now rewrite U. }
  destruct x as [ [] |e| |]; try discriminate.
  - apply (K None); [intros; eapply log_ok; eauto | exact H].
  - apply (K (Some e)); [intros; eapply log_error; eauto | exact H].
Qed.

(** Whole reads *)
(** The reader after its first Read *)
Definition begun (s : preader) (ph : phase) (w t : tester) (k : nat) (l : list (packet * option err)) (s' : packet * reader) : Prop :=
  match ph with
  | Closed => pr_closed s = true
  | Open have es => pr_closed s = false /\ pr_rem s = have /\ pr_where s = w /\ pr_take s = t /\ es = events w t l /\
      exists p, pr_cur s = Some p /\ log packet_next k (p, pr_br s) l s'
  end.
Definition go (fuel want : nat) (s : preader) (p : packet) : res ioresult * preader :=
  let c := firstn want (pr_rem s) in
  let s' := pr_set s p (pr_br s) (skipn (length c) (pr_rem s)) false in
  pr_fill fuel s' p (pr_br s) (want - length c) c [].
Lemma start_filling : forall n s p r, filling n (pr_rem s) (pr_set s p r (skipn (length (firstn n (pr_rem s))) (pr_rem s)) false)
  (n - length (firstn n (pr_rem s))) (firstn n (pr_rem s)) [].
Proof.
  intros n s p r. unfold filling. cbn [pr_set pr_rem]. rewrite app_nil_r, firstn_length. split; [|split; lia].
  destruct (le_lt_dec n (length (pr_rem s))) as [Q|Q].
  - rewrite Nat.min_l by lia. apply firstn_skipn.
  - rewrite Nat.min_r by lia. rewrite firstn_all2, skipn_all2 by lia. apply app_nil_r.
Qed.
Lemma go_log : forall fuel n s p k l s' out ph, log packet_next k (p, pr_br s) l s' -> (k <= fuel)%nat ->
  serve n (pr_rem s) (events (pr_where s) (pr_take s) l) = Some (out, ph) ->
  exists k2 l2 s2, (k2 <= k)%nat /\ go fuel n s p = (Ok out, s2) /\ begun s2 ph (pr_where s) (pr_take s) k2 l2 s'.
Proof.
  intros fuel n s p k l s' out ph L Hf S. unfold go.
  destruct (fill_log _ _ _ _ _ L fuel _ n _ _ _ _ out ph Hf (start_filling n s p (pr_br s)) S) as (k2 & p2 & r2 & l2 & s2 & L2 & Lk & G & A).
  exists k2, l2, s2. split; [exact Lk|]. split; [exact G|]. destruct ph as [rem2 es|]; cbn [after begun] in *.
  - destruct A as (-> & ->). cbn. repeat split. exists p2. auto.
  - destruct A as (rem2 & ->). reflexivity.
Qed.
Lemma go_calls : forall fuel n s p out s2, go fuel n s p = (Ok out, s2) ->
  exists k l p2 r2, log packet_next k (p, pr_br s) l (p2, r2) /\
    forall k2 l2 s', log packet_next k2 (p2, r2) l2 s' -> exists ph, serve n (pr_rem s) (events (pr_where s) (pr_take s) (l ++ l2)) = Some (out, ph) /\
      begun s2 ph (pr_where s) (pr_take s) k2 l2 s'.
Proof.
  intros fuel n s p out s2 H. unfold go in H. destruct (fill_calls _ _ _ _ _ _ _ _ _ _ _ (start_filling n s p (pr_br s)) H) as (k & l & p2 & r2 & L & K).
  exists k, l, p2, r2. split; [exact L|]. intros k2 l2 s' L2. destruct (K l2) as (ph & S & A). exists ph. split; [exact S|].
  destruct ph as [rem2 es|]; cbn [after begun] in *.
  - destruct A as (-> & ->). cbn. repeat split. exists p2. auto.
  - destruct A as (rem2 & ->). reflexivity.
Qed.
Lemma begun_reads : forall sizes fuel s ph w t k l s' outs, begun s ph w t k l s' -> (k <= fuel)%nat -> phase_reads sizes ph = Some outs ->
  pr_reads fuel sizes s = map Ok outs.
Proof.
  induction sizes as [|n sizes IH]; intros fuel s ph w t k l s' outs B Hf R; cbn [phase_reads pr_reads] in *; [assert (outs = []) as -> by congruence; reflexivity|].
  destruct ph as [have es|]; cbn [begun] in B.
  - destruct B as (C & Hr & Ew & Et & Ee & p & Ec & L). subst es have w t. destruct (serve n (pr_rem s) (events (pr_where s) (pr_take s) l)) as [ [out ph2] |] eqn:S; [|discriminate].
    destruct (go_log _ _ _ _ _ _ _ _ _ L Hf S) as (k2 & l2 & s2 & Lk & G & B2).
    assert (E : pr_read fuel n s = (Ok out, s2)) by (unfold pr_read; rewrite C, Ec; exact G). rewrite E.
    destruct (phase_reads sizes ph2) as [outs2|] eqn:R2; [|discriminate]. cbn [option_map] in R. assert (outs = out :: outs2) as -> by congruence. cbn [map]. f_equal.
    apply (IH _ _ _ _ _ _ _ _ _ B2); [lia | exact R2].
  - assert (E : pr_read fuel n s = (Ok ([], Some EEOF), s)) by (unfold pr_read; rewrite B; reflexivity). rewrite E.
    destruct (phase_reads sizes Closed) as [outs2|] eqn:R2; [|discriminate]. cbn [option_map] in R. assert (outs = ([], Some EEOF) :: outs2) as -> by congruence. cbn [map]. f_equal.
    eapply (IH _ s Closed w t k l s'); [exact B | exact Hf | exact R2].
Qed.
Lemma closed_reads : forall sizes fuel s outs, pr_closed s = true -> pr_reads fuel sizes s = map Ok outs -> phase_reads sizes Closed = Some outs.
Proof.
  induction sizes as [|n sizes IH]; intros fuel s outs C H; cbn [pr_reads phase_reads] in *; [destruct outs; [reflexivity | discriminate]|].
  assert (E : pr_read fuel n s = (Ok ([], Some EEOF), s)) by (unfold pr_read; rewrite C; reflexivity). rewrite E in H. destruct outs as [|o outs]; [discriminate|]. cbn [map] in H.
  assert (o = ([], Some EEOF) /\ pr_reads fuel sizes s = map Ok outs) as (-> & H3) by (split; congruence). rewrite (IH _ _ _ C H3). reflexivity.
Qed.
(** The log that the later reads need comes after that of the first. *)
Lemma go_reads_calls : forall sizes, (forall fuel s outs p, pr_closed s = false -> pr_cur s = Some p -> pr_reads fuel sizes s = map Ok outs ->
    exists k l s', log packet_next k (p, pr_br s) l s' /\ phase_reads sizes (Open (pr_rem s) (events (pr_where s) (pr_take s) l)) = Some outs) ->
  forall fuel n s p out s2 outs, go fuel n s p = (Ok out, s2) -> pr_reads fuel sizes s2 = map Ok outs ->
    exists k l s', log packet_next k (p, pr_br s) l s' /\ phase_reads (n :: sizes) (Open (pr_rem s) (events (pr_where s) (pr_take s) l)) = Some (out :: outs).
Proof.
  intros sizes IH fuel n s p out s2 outs E H. destruct (go_calls _ _ _ _ _ _ E) as (k & l & p2 & r2 & L & K). cbn [phase_reads].
  destruct (K 0%nat [] (p2, r2) (log_none _ _)) as (ph & SV & B). rewrite app_nil_r in SV. destruct ph as [have es|]; cbn [begun] in B.
  - destruct B as (C2 & Hr & Ew & Et & _ & q & Ec2 & L0).
    assert (q = p2 /\ pr_br s2 = r2) as (-> & Eb) by (inversion L0; subst; auto). subst have.
    destruct (IH _ _ _ _ C2 Ec2 H) as (k2 & l2 & s' & L2 & R). rewrite Eb in L2.
    exists (k + k2)%nat, (l ++ l2), s'. split; [eapply log_app; [exact L | exact L2]|].
    destruct (K k2 l2 s' L2) as (ph2 & S2 & B2). rewrite S2. destruct ph2 as [h2 e2|]; cbn [begun] in B2; [|congruence].
    destruct B2 as (_ & <- & _ & _ & -> & _). rewrite Ew, Et in R. rewrite R. reflexivity.
  - exists k, l, (p2, r2). split; [exact L|]. rewrite SV, (closed_reads _ _ _ _ B H). reflexivity.
Qed.
Lemma begun_calls : forall sizes fuel s outs p, pr_closed s = false -> pr_cur s = Some p -> pr_reads fuel sizes s = map Ok outs ->
  exists k l s', log packet_next k (p, pr_br s) l s' /\ phase_reads sizes (Open (pr_rem s) (events (pr_where s) (pr_take s) l)) = Some outs.
Proof.
  induction sizes as [|n sizes IH]; intros fuel s outs p C Ec H.
  - cbn [pr_reads] in H. destruct outs; [|discriminate]. exists 0%nat, [], (p, pr_br s). split; [apply log_none | reflexivity].
  - cbn [pr_reads] in H. destruct (pr_read fuel n s) as [x s2] eqn:E. destruct outs as [|out outs]; [discriminate|]. cbn [map] in H.
    assert (x = Ok out /\ pr_reads fuel sizes s2 = map Ok outs) as (-> & H2) by (split; congruence). unfold pr_read in E. rewrite C, Ec in E.
    eapply go_reads_calls; [exact IH | exact E | exact H2].
Qed.

(** ** A new reader *)
Lemma window_log : forall skip w t r sizes k l s' outs fuel, log packet_next k (zero_packet, r) l s' -> (k <= fuel)%nat ->
  window_reads skip w t sizes l = Some outs -> pr_reads fuel sizes (window_reader skip w t r) = map Ok outs.
Proof.
  intros skip w t r [|n sizes] k l s' outs fuel L Hf W; [cbn in *; assert (outs = []) as -> by congruence; reflexivity|]. unfold window_reads in W.
  assert (G : forall s p k l d, pr_rem s = d -> pr_where s = w -> pr_take s = t -> log packet_next k (p, pr_br s) l s' -> (k <= fuel)%nat ->
    phase_reads (n :: sizes) (Open d (events w t l)) = Some outs -> forall s0, pr_read fuel n s0 = go fuel n s p -> pr_reads fuel (n :: sizes) s0 = map Ok outs).
  { clear. intros s p k l d Hd Hw Ht L Hf W s0 E. cbn [phase_reads] in W. destruct (serve n d (events w t l)) as [ [out ph] |] eqn:SV; [|discriminate]. subst d w t.
    destruct (go_log fuel n s p k l s' out ph L Hf SV) as (k2 & l2 & s2 & Lk & G & B). cbn [pr_reads]. rewrite E, G.
    destruct (phase_reads sizes ph) as [outs2|] eqn:R; [|discriminate]. cbn [option_map] in W. assert (outs = out :: outs2) as -> by congruence. cbn [map]. f_equal.
    apply (begun_reads _ _ _ _ _ _ _ _ _ _ B); [lia | exact R]. }
  destruct skip as [u|].
  - destruct (skipped u l) as [ [d l2] |] eqn:SK; [|discriminate]. destruct (realign_log _ _ _ _ _ L fuel u d l2 Hf SK) as (k2 & p2 & r2 & L2 & Lk & R).
    apply (G (pr_set (window_reader (Some u) w t r) p2 r2 d false) p2 k2 l2 d); auto; [lia|].
    unfold pr_read, window_reader. cbn [pr_closed pr_skip_until pr_take_while new_preader pr_cur pr_skip pr_br]. rewrite R. reflexivity.
  - apply (G (window_reader None w t r) zero_packet k l []); auto.
Qed.
Lemma window_calls : forall skip w t r sizes outs fuel, pr_reads fuel sizes (window_reader skip w t r) = map Ok outs ->
  exists k l s', log packet_next k (zero_packet, r) l s' /\ window_reads skip w t sizes l = Some outs.
Proof.
  intros skip w t r [|n sizes] outs fuel H.
  - cbn [pr_reads] in H. destruct outs; [|discriminate]. exists 0%nat, [], (zero_packet, r). split; [apply log_none | reflexivity].
  - cbn [pr_reads] in H. destruct (pr_read fuel n (window_reader skip w t r)) as [x s2] eqn:E. destruct outs as [|out outs]; [discriminate|]. cbn [map] in H.
    assert (x = Ok out /\ pr_reads fuel sizes s2 = map Ok outs) as (-> & H2) by (split; congruence). unfold window_reads.
    destruct skip as [u|]; unfold pr_read, window_reader in E; cbn [pr_closed pr_skip_until pr_take_while new_preader pr_cur pr_skip pr_br pr_rem] in E.
    + destruct (pr_realign fuel u zero_packet r) as [y [p2 r2] ] eqn:R. destruct y as [d|e| |]; try discriminate.
      * destruct (realign_calls _ _ _ _ _ _ _ R) as (k1 & l1 & L1 & SK).
        assert (G : go fuel n (pr_set (window_reader (Some u) w t r) p2 r2 d false) p2 = (Ok out, s2)) by exact E.
        destruct (go_reads_calls sizes (begun_calls sizes) _ _ _ _ _ _ _ G H2) as (k & l & s' & L & W).
        exists (k1 + k)%nat, (l1 ++ l), s'. split; [eapply log_app; [exact L1 | exact L]|]. rewrite SK. exact W.
      * exfalso. clear - R. revert R. generalize zero_packet r. induction fuel as [|f IH]; intros q r0 R; cbn [pr_realign] in R; [discriminate|].
        destruct (packet_next (q, r0)) as [x [q1 r1] ]. destruct x; try discriminate; (destruct (u q1); [discriminate | exact (IH _ _ R)]).
    + assert (G : go fuel n (window_reader None w t r) zero_packet = (Ok out, s2)) by exact E.
      destruct (go_reads_calls sizes (begun_calls sizes) _ _ _ _ _ _ _ G H2) as (k & l & s' & L & W). exists k, l, s'. split; [exact L | exact W].
Qed.

(** ** Reads return *)
Lemma fill_total : forall fuel s p r want acc rem, rlater r = [] -> (length (rbits r) < fuel)%nat ->
  (exists out s2, pr_fill fuel s p r want acc rem = (Ok out, s2) /\ rlater (pr_br s2) = [] /\ (length (rbits (pr_br s2)) <= length (rbits r))%nat) \/
  (exists k l s', log packet_next k (p, r) l s' /\ fst (packet_next s') = Panic).
Proof.
  induction fuel as [|f IH]; intros s p r want acc rem Hr Hl; [lia|]. destruct want as [|want]; [left; eexists _, _; split; [reflexivity|]; cbn; auto|]. cbn [pr_fill].
  destruct (packet_next (p, r)) as [x [q src] ] eqn:E. destruct x as [ [] |e| |].
  - destruct (packet_next_strict _ _ _ _ Hr E) as (A & B & _). unfold left in A.
    match goal with |- context [let '(_, _) := ?z in _] => destruct z as [ [want2 acc2] rem2] end.
    destruct (pr_take s q).
    + destruct (IH s q src want2 acc2 rem2 B ltac:(lia)) as [(out & s2 & F & R2 & L2)|(k & l & s' & L & P)].
      * left. exists out, s2. split; [exact F|]. split; [exact R2 | lia].
      * right. exists (S k), ((q, None) :: l), s'. split; [eapply log_ok; eauto | exact P].
    + left. eexists _, _. split; [reflexivity|]. cbn [pr_set pr_br]. split; [exact B | lia].
  - destruct (monop_packet_next (p, r) _ _ Hr E) as (A & _ & B). cbn [snd] in *. left. eexists _, _. split; [reflexivity|]. cbn [pr_set pr_br]. split; [first [exact A | exact B] | first [exact B | exact A | unfold Mono.left in *; lia] ].
  - right. exists 0%nat, [], (p, r). split; [apply log_none|]. now rewrite E.
  - exfalso. exact (packet_next_fuel _ _ E).
Qed.
Lemma go_total : forall sizes, (forall fuel s p, pr_closed s = false -> pr_cur s = Some p -> rlater (pr_br s) = [] -> (length (rbits (pr_br s)) < fuel)%nat ->
    (exists outs, pr_reads fuel sizes s = map Ok outs) \/ (exists k l s', log packet_next k (p, pr_br s) l s' /\ fst (packet_next s') = Panic)) ->
  forall fuel n s p s0, pr_read fuel n s0 = go fuel n s p -> rlater (pr_br s) = [] -> (length (rbits (pr_br s)) < fuel)%nat ->
    (exists outs, pr_reads fuel (n :: sizes) s0 = map Ok outs) \/ (exists k l s', log packet_next k (p, pr_br s) l s' /\ fst (packet_next s') = Panic).
Proof.
  intros sizes IH fuel n s p s0 E Hr Hl. cbn [pr_reads]. rewrite E.
  destruct (fill_total fuel (pr_set s p (pr_br s) (skipn (length (firstn n (pr_rem s))) (pr_rem s)) false) p (pr_br s) (n - length (firstn n (pr_rem s))) (firstn n (pr_rem s)) [] Hr Hl)
    as [(out & s2 & F & R2 & L2)|X]; [|right; exact X].
  assert (G : go fuel n s p = (Ok out, s2)) by exact F. rewrite G. destruct (go_calls _ _ _ _ _ _ G) as (k & l & p2 & r2 & L & K).
  destruct (K 0%nat [] (p2, r2) (log_none _ _)) as (ph & _ & B). destruct ph as [have es|]; cbn [begun] in B.
  - destruct B as (C2 & _ & _ & _ & _ & q & Ec2 & L0). assert (q = p2 /\ pr_br s2 = r2) as (-> & Eb) by (inversion L0; subst; auto).
    destruct (IH fuel s2 p2 C2 Ec2 R2 ltac:(lia)) as [(outs & H)|(k2 & l2 & s' & L3 & P)].
    + left. exists (out :: outs). cbn [map]. now rewrite H.
    + right. rewrite Eb in L3. exists (k + k2)%nat, (l ++ l2), s'. split; [eapply log_app; eauto | exact P].
  - left. assert (CL : forall zs, exists outs, pr_reads fuel zs s2 = map Ok outs).
    { induction zs as [|z zs (outs & IZ)]; [exists []; reflexivity|]. exists (([], Some EEOF) :: outs). cbn [pr_reads map].
      assert (E2 : pr_read fuel z s2 = (Ok ([], Some EEOF), s2)) by (unfold pr_read; rewrite B; reflexivity). rewrite E2, IZ. reflexivity. }
    destruct (CL sizes) as (outs & H). exists (out :: outs). cbn [map]. now rewrite H.
Qed.
Lemma begun_total : forall sizes fuel s p, pr_closed s = false -> pr_cur s = Some p -> rlater (pr_br s) = [] -> (length (rbits (pr_br s)) < fuel)%nat ->
  (exists outs, pr_reads fuel sizes s = map Ok outs) \/ (exists k l s', log packet_next k (p, pr_br s) l s' /\ fst (packet_next s') = Panic).
Proof.
  induction sizes as [|n sizes IH]; intros fuel s p C Ec Hr Hl; [left; exists []; reflexivity|].
  apply (go_total sizes IH fuel n s p s); auto. unfold pr_read. rewrite C, Ec. reflexivity.
Qed.
Lemma log_shrinks : forall k p r l p2 r2, log packet_next k (p, r) l (p2, r2) -> rlater r = [] -> rlater r2 = [] /\ (length (rbits r2) <= length (rbits r))%nat.
Proof.
  intros k p r l p2 r2 H. remember (p, r) as s eqn:Es. remember (p2, r2) as s' eqn:Es'. revert p r p2 r2 Es Es'.
  induction H as [s|k s q src l s' E H IH|k s e q src l s' E H IH]; intros p r p2 r2 -> Es' Hr.
  - assert (r2 = r) as -> by congruence. auto.
  - destruct (packet_next_strict _ _ _ _ Hr E) as (A & B & _). unfold left in A. destruct (IH _ _ _ _ eq_refl Es' B). split; [assumption|lia].
  - destruct (monop_packet_next (p, r) _ _ Hr E) as (A & _ & B). cbn [snd] in *. unfold Mono.left in *. destruct (IH _ _ _ _ eq_refl Es' A). split; [assumption|lia].
Qed.
Lemma window_total : forall skip w t r sizes k l s fuel, rlater r = [] -> log packet_next k (zero_packet, r) l s ->
  match skip with None => True | Some u => skipped u l <> None end -> (k + length (rbits r) < fuel)%nat ->
  (exists outs, pr_reads fuel sizes (window_reader skip w t r) = map Ok outs) \/
  (exists k l s, log packet_next k (zero_packet, r) l s /\ fst (packet_next s) = Panic).
Proof.
  intros skip w t r [|n sizes] k l s fuel Hr L SK Hf; [left; exists []; reflexivity|]. destruct skip as [u|].
  - destruct (skipped u l) as [ [d l2] |] eqn:E; [|congruence]. destruct (realign_log _ _ _ _ _ L fuel u d l2 ltac:(lia) E) as (k2 & p2 & r2 & L2 & Lk & R).
    destruct (realign_calls _ _ _ _ _ _ _ R) as (k1 & l1 & L1 & _). destruct (log_shrinks _ _ _ _ _ _ L1 Hr) as (R2 & Ln).
    destruct (go_total sizes (begun_total sizes) fuel n (pr_set (window_reader (Some u) w t r) p2 r2 d false) p2 (window_reader (Some u) w t r)) as [H|(k3 & l3 & s' & L3 & P)].
    + unfold pr_read, window_reader. cbn [pr_closed pr_skip_until pr_take_while new_preader pr_cur pr_skip pr_br]. rewrite R. reflexivity.
    + exact R2.
    + cbn [pr_set pr_br]. lia.
    + left. exact H.
    + right. exists (k1 + k3)%nat, (l1 ++ l3), s'. split; [eapply log_app; [exact L1 | exact L3] | exact P].
  - apply (go_total sizes (begun_total sizes) fuel n (window_reader None w t r) zero_packet); [reflexivity | exact Hr | cbn; lia].
Qed.

(** ** SkipUntil after the first Read *)
Lemma fill_skip : forall u fuel s p r want acc rem,
  fst (pr_fill fuel (pr_skip_until u s) p r want acc rem) = fst (pr_fill fuel s p r want acc rem) /\
  snd (pr_fill fuel (pr_skip_until u s) p r want acc rem) = pr_skip_until u (snd (pr_fill fuel s p r want acc rem)).
Proof.
  intro u. induction fuel as [|f IH]; intros s p r want acc rem; (destruct want as [|want]; [split; reflexivity|]); cbn [pr_fill]; [split; reflexivity|].
  destruct (packet_next (p, r)) as [x [q src] ]. destruct x; try (split; reflexivity).
  cbn [pr_skip_until pr_where pr_take]. fold (pr_skip_until u s).
  match goal with |- context [let '(_, _) := ?z in _] => destruct z as [ [want2 acc2] rem2] end. destruct (pr_take s q); [apply IH | split; reflexivity].
Qed.
Lemma fill_cur : forall fuel s p r want acc rem, pr_cur (snd (pr_fill fuel s p r want acc rem)) <> None.
Proof.
  induction fuel as [|f IH]; intros s p r want acc rem; (destruct want as [|want]; [discriminate|]); cbn [pr_fill]; [discriminate|].
  destruct (packet_next (p, r)) as [x [q src] ]. destruct x; try discriminate.
  match goal with |- context [let '(_, _) := ?z in _] => destruct z as [ [want2 acc2] rem2] end. destruct (pr_take s q); [apply IH | discriminate].
Qed.
Lemma read_skip : forall u fuel n s, pr_closed s = true \/ pr_cur s <> None ->
  fst (pr_read fuel n (pr_skip_until u s)) = fst (pr_read fuel n s) /\ snd (pr_read fuel n (pr_skip_until u s)) = pr_skip_until u (snd (pr_read fuel n s)) /\
  (pr_closed (snd (pr_read fuel n s)) = true \/ pr_cur (snd (pr_read fuel n s)) <> None).
Proof.
  intros u fuel n s H. unfold pr_read. cbn [pr_skip_until pr_closed pr_cur pr_rem pr_br]. destruct (pr_closed s) eqn:C; [cbn; auto|].
  destruct H as [H|H]; [discriminate|]. destruct (pr_cur s) as [p|] eqn:E; [|congruence]. cbv zeta.
  split; [|split; [|right; apply fill_cur] ]; apply (fill_skip u fuel (pr_set s p (pr_br s) (skipn (length (firstn n (pr_rem s))) (pr_rem s)) false)).
Qed.
Lemma reads_skip : forall u fuel sizes s, pr_closed s = true \/ pr_cur s <> None -> pr_reads fuel sizes (pr_skip_until u s) = pr_reads fuel sizes s.
Proof.
  intros u fuel. induction sizes as [|n sizes IH]; intros s H; [reflexivity|]. cbn [pr_reads]. destruct (read_skip u fuel n s H) as (A & B & C).
  destruct (pr_read fuel n (pr_skip_until u s)) as [x1 s1]. destruct (pr_read fuel n s) as [x2 s2]. cbn [fst snd] in *. subst. f_equal. now apply IH.
Qed.
Lemma read_begins : forall fuel n s, pr_closed (snd (pr_read fuel n s)) = true \/ pr_cur (snd (pr_read fuel n s)) <> None.
Proof.
  intros fuel n s. unfold pr_read. destruct (pr_closed s) eqn:C; [left; exact C|]. right. cbv zeta. destruct (pr_cur s); [apply fill_cur|].
  destruct (pr_skip s); [|apply fill_cur]. destruct (pr_realign fuel t zero_packet (pr_br s)) as [x [q r] ]. destruct x; try discriminate. apply fill_cur.
Qed.
