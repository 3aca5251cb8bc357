(** PackTapeProofs: the pack reader over any bytes is the tape of SpecPackTape. *)
From Verif Require Import Base BitReader Exec Local TsLocal Mono PesModel PesLocal PsModel PsReaders PsConc PsLocal SpecPackTape.

(** ** The tape *)
Lemma pack_bytes_ge : forall bs n got t, (n <= length bs)%nat ->
  pack_read n got (map Data bs ++ t) = Some ((got ++ firstn n bs, None), map Data (skipn n bs) ++ t).
Proof.
  induction bs as [|b bs IH]; intros n got t H; destruct n as [|n]; cbn [length] in H; try lia; cbn [pack_read map app firstn skipn].
  - rewrite app_nil_r. reflexivity.
  - rewrite app_nil_r. reflexivity.
  - rewrite IH by lia. rewrite <- app_assoc. reflexivity.
Qed.
Lemma pack_bytes_lt : forall bs n got t, (length bs <= n)%nat ->
  pack_read n got (map Data bs ++ t) = pack_read (n - length bs) (got ++ bs) t.
Proof.
  induction bs as [|b bs IH]; intros n got t H; cbn [length map app] in *.
  - rewrite Nat.sub_0_r, app_nil_r. reflexivity.
  - destruct n as [|n]; [lia|]. cbn [pack_read Nat.sub]. rewrite IH by lia. rewrite <- app_assoc. reflexivity.
Qed.
Lemma pack_read_more : forall n t got out t' u, pack_read n got t = Some (out, t') -> pack_read n got (t ++ u) = Some (out, t' ++ u).
Proof.
  induction n as [|n IH]; intros t got out t' u H; cbn [pack_read] in *.
  - assert (out = (got, None) /\ t' = t) as (-> & ->) by (split; congruence). reflexivity.
  - destruct t as [|[b|e|] t]; [discriminate| | |]; cbn [app].
    + apply IH. exact H.
    + assert (out = ([], e) /\ t' = t) as (-> & ->) by (split; congruence). reflexivity.
    + assert (out = (got, Some EEOF) /\ t' = t) as (-> & ->) by (split; congruence). reflexivity.
Qed.
Lemma parts_app : forall k r t r1, parts k r t r1 -> forall k2 t2 r2, parts k2 r1 t2 r2 -> parts (k + k2) r (t ++ t2) r2.
Proof.
  induction 1 as [r|k r ms r1 tape r' P H IH]; intros k2 t2 r2 H2; cbn [Nat.add app]; [exact H2|].
  rewrite <- app_assoc. eapply parts_more; eauto.
Qed.

(** ** One turn of the loop *)
Definition fills (fuel : nat) (r' : reader) (d : list Z) (want : nat) (acc : list Z) : res (list Z * option err) * packreader :=
  if (want <=? length d)%nat then (Ok (acc ++ firstn want d, None), mkPR r' (skipn want d))
  else pr_step fuel r' (want - length d) (acc ++ d).
Definition turn (fuel : nat) (r' : reader) (ms : list mark) (want : nat) (acc : list Z) : res (list Z * option err) * packreader :=
  match ms with
  | [Lose e] => (Ok ([], e), mkPR r' [])
  | [TheEnd] => (Ok (acc, Some EEOF), mkPR r' [])
  | _ => fills fuel r' (data_of ms) want acc
  end.
Lemma data_of_map : forall d, data_of (map Data d) = d.
Proof. induction d as [|b d IH]; cbn [map data_of]; [reflexivity | rewrite IH; reflexivity]. Qed.
Lemma turn_data : forall fuel r' d want acc, turn fuel r' (map Data d) want acc = fills fuel r' d want acc.
Proof. intros. pose proof (data_of_map d) as E. unfold turn. destruct d as [|b [|c d]]; cbn [map] in *; rewrite ?E; reflexivity. Qed.

Definition finish (f : nat) (x : res (option (list Z * option err) * (nat * list Z)) * packreader) : res (list Z * option err) * packreader :=
  match x with
  | (Ok (Some out, _), s) => (Ok out, s)
  | (Ok (None, (want', acc')), s) => pr_step f (pr_br s) want' acc'
  | (Err e, s) => (Err e, s)
  | (Panic, s) => (Panic, s)
  | (OutOfFuel, s) => (OutOfFuel, s)
  end.
Lemma packet_turn : forall f r ms r' want acc, packet r ms r' -> (0 < want)%nat -> finish f (pr_packet r want acc) = turn f r' ms want acc.
Proof.
  intros f r ms r' want acc P Hw. destruct P as [r p r' E|r e p r' E]; unfold pr_packet; rewrite E.
  - rewrite turn_data. unfold fills. rewrite firstn_length.
    destruct (Nat.leb_spec want (length (pp_payload p))) as [L|L].
    + rewrite Nat.min_l, Nat.sub_diag by exact L. reflexivity.
    + rewrite Nat.min_r by lia. destruct (want - length (pp_payload p))%nat as [|k] eqn:Ek; [lia|].
      cbn [finish pr_br]. rewrite firstn_all2 by lia. reflexivity.
  - reflexivity.
Qed.
Lemma part_turn : forall f r ms r' want acc, part r ms r' -> (0 < want)%nat -> pr_step (S f) r want acc = turn f r' ms want acc.
Proof.
  intros f r ms r' want acc P Hw. destruct P as [r e r' E|r r' E E2|r e r' E E2|r h r1 ms r' E E2 P|r v ms r' E N1 N2 P]; cbn [pr_step]; rewrite E.
  - reflexivity.
  - change (441 =? ProgramEndCode) with true. cbn iota. rewrite E2. reflexivity.
  - change (442 =? ProgramEndCode) with false. change (442 =? PackStartCode) with true. cbn iota. rewrite E2. reflexivity.
  - change (442 =? ProgramEndCode) with false. change (442 =? PackStartCode) with true. cbn iota. rewrite E2.
    apply packet_turn; assumption.
  - unfold ProgramEndCode, PackStartCode. rewrite (proj2 (Z.eqb_neq v 441)), (proj2 (Z.eqb_neq v 442)) by assumption.
    apply (packet_turn f r ms r' want acc); assumption.
Qed.

(** A turn is a part, unless the packet panics. *)
Definition breaks (r : reader) : Prop := exists r1 s, new_pes r1 = (Panic, s) /\
  ((exists v, peek_n 32 r = (Ok v, r) /\ v <> 441 /\ v <> 442 /\ r1 = r) \/
   (exists h, peek_n 32 r = (Ok 442, r) /\ new_pack_header r = (Ok h, r1))).
Lemma packet_or : forall r, (exists ms r', packet r ms r') \/ (exists s, new_pes r = (Panic, s)).
Proof.
  intro r. destruct (new_pes r) as [[[]|e| |] [p r']] eqn:E.
  - left. eexists _, _. eapply packet_ok; exact E.
  - left. eexists _, _. eapply packet_error; exact E.
  - right. eauto.
  - exfalso. unfold new_pes in E. apply (pes_next_fuel (zero_pp, r)). rewrite E. reflexivity.
Qed.
Lemma part_or : forall r, (exists ms r', part r ms r') \/ breaks r.
Proof.
  intro r. pose proof (safe_peek_n 32 r) as SP. destruct (peek_n 32 r) as [[v|e| |] r1] eqn:E; cbn in SP; try tauto.
  - destruct (peek_n_ok_inv _ _ _ _ E) as (_ & _ & ->).
    destruct (Z.eq_dec v 441) as [->|N1]; [left; eexists _, _; eapply part_end; [exact E | reflexivity]|].
    destruct (Z.eq_dec v 442) as [->|N2].
    + pose proof (pack_header_total r) as T. destruct (new_pack_header r) as [[h|e| |] r2] eqn:E2; cbn [fst] in T; try contradiction.
      * destruct (packet_or r2) as [(ms & r' & P)|(s & P)]; [left; eexists _, _; eapply part_pack; eauto|].
        right. exists r2, s. split; [exact P | right; eauto].
      * left. eexists _, _. eapply part_header; eauto.
    + destruct (packet_or r) as [(ms & r' & P)|(s & P)]; [left; eexists _, _; eapply part_packet; eauto|].
      right. exists r, s. split; [exact P | left; eauto].
  - left. eexists _, _. eapply part_short. exact E.
Qed.
Lemma breaks_step : forall f r want acc, breaks r -> fst (pr_step (S f) r want acc) = Panic.
Proof.
  intros f r want acc (r1 & [p r2] & N & H). cbn [pr_step]. destruct H as [(v & E & N1 & N2 & ->)|(h & E & E2)]; rewrite E.
  - unfold ProgramEndCode, PackStartCode. rewrite (proj2 (Z.eqb_neq v 441)), (proj2 (Z.eqb_neq v 442)) by assumption.
    unfold pr_packet. rewrite N. reflexivity.
  - change (442 =? ProgramEndCode) with false. change (442 =? PackStartCode) with true. cbn iota. rewrite E2.
    unfold pr_packet. rewrite N. reflexivity.
Qed.

(** ** A whole Read: along the tape *)
Lemma step_tape : forall k r tape r', parts k r tape r' -> forall fuel want acc out t2, (k <= fuel)%nat -> (0 < want)%nat ->
  pack_read want acc tape = Some (out, t2) ->
  exists k2 r2 rem t3, pr_step fuel r want acc = (Ok out, mkPR r2 rem) /\ t2 = map Data rem ++ t3 /\ parts k2 r2 t3 r' /\ (k2 <= k)%nat.
Proof.
  induction 1 as [r|k r ms r1 tape r' P H IH]; intros fuel want acc out t2 Hf Hw HT.
  - destruct want; [lia|discriminate].
  - destruct fuel as [|f]; [lia|]. rewrite (part_turn f _ _ _ want acc P Hw).
    assert (S : (exists d, ms = map Data d) \/ (exists e, ms = [Lose e]) \/ ms = [TheEnd]).
    { clear - P. assert (Q : forall r ms r', packet r ms r' -> (exists d, ms = map Data d) \/ (exists e, ms = [Lose e]) \/ ms = [TheEnd])
        by (intros ? ? ? []; eauto). destruct P; eauto. }
    destruct S as [(d & ->)|[(e & ->)| ->]].
    + rewrite turn_data. unfold fills. destruct (Nat.leb_spec want (length d)) as [L|L].
      * rewrite pack_bytes_ge in HT by exact L. exists k, r1, (skipn want d), tape.
        assert (out = (acc ++ firstn want d, None) /\ t2 = map Data (skipn want d) ++ tape) as (-> & ->) by (split; congruence).
        repeat split; auto.
      * rewrite pack_bytes_lt in HT by lia.
        destruct (IH f (want - length d)%nat (acc ++ d) out t2 ltac:(lia) ltac:(lia) HT) as (k2 & r2 & rem & t3 & G & Q & C & Lk).
        exists k2, r2, rem, t3. repeat split; auto.
    + destruct want as [|want]; [lia|]. cbn [app pack_read] in HT. assert (out = ([], e) /\ t2 = tape) as (-> & ->) by (split; congruence).
      exists k, r1, [], tape. repeat split; auto.
    + destruct want as [|want]; [lia|]. cbn [app pack_read] in HT. assert (out = (acc, Some EEOF) /\ t2 = tape) as (-> & ->) by (split; congruence).
      exists k, r1, [], tape. repeat split; auto.
Qed.
Lemma read_tape : forall k r rem tape r' fuel want out t2, parts k r tape r' -> (k <= fuel)%nat ->
  pack_read want [] (map Data rem ++ tape) = Some (out, t2) ->
  exists k2 r2 rem2 t3, pr_read fuel want (mkPR r rem) = (Ok out, mkPR r2 rem2) /\ t2 = map Data rem2 ++ t3 /\ parts k2 r2 t3 r' /\ (k2 <= k)%nat.
Proof.
  intros k r rem tape r' fuel want out t2 H Hf HT. unfold pr_read. cbn [pr_br pr_rem].
  destruct (Nat.le_gt_cases want (length rem)) as [L|L].
  - rewrite firstn_length_le, Nat.sub_diag by exact L. rewrite pack_bytes_ge in HT by exact L. cbn [app] in HT.
    assert (out = (firstn want rem, None) /\ t2 = map Data (skipn want rem) ++ tape) as (-> & ->) by (split; congruence).
    exists k, r, (skipn want rem), tape. repeat split; auto.
  - rewrite firstn_all2 by lia. rewrite pack_bytes_lt in HT by lia. cbn [app] in HT.
    destruct (step_tape _ _ _ _ H fuel (want - length rem)%nat rem out t2 Hf ltac:(lia) HT) as (k2 & r2 & rem2 & t3 & G & Q & C & Lk).
    destruct (want - length rem)%nat as [|j] eqn:Ej; [lia|]. exists k2, r2, rem2, t3. repeat split; auto.
Qed.
Lemma reads_tape : forall r' fuel sizes k r rem tape outs, parts k r tape r' -> (k <= fuel)%nat ->
  pack_reads sizes (map Data rem ++ tape) = Some outs -> pr_reads fuel sizes (mkPR r rem) = map Ok outs.
Proof.
  intros r' fuel. induction sizes as [|n t IH]; intros k r rem tape outs H Hf HT; cbn [pack_reads pr_reads] in *.
  - assert (outs = []) as -> by congruence. reflexivity.
  - destruct (pack_read n [] (map Data rem ++ tape)) as [[out t2]|] eqn:E1; [|discriminate].
    destruct (pack_reads t t2) as [outs'|] eqn:E2; [|discriminate]. assert (outs = out :: outs') as -> by congruence.
    destruct (read_tape _ _ _ _ _ _ _ _ _ H Hf E1) as (k2 & r2 & rem2 & t3 & G & -> & C & Lk).
    rewrite G. cbn [map]. f_equal. eapply IH; [exact C|lia|exact E2].
Qed.

(** ** The other way round *)
Lemma step_calls : forall fuel r want acc out s, (0 < want)%nat -> pr_step fuel r want acc = (Ok out, s) ->
  exists k tape, parts k r tape (pr_br s) /\ pack_read want acc tape = Some (out, map Data (pr_rem s)).
Proof.
  induction fuel as [|f IH]; intros r want acc out s Hw H; [discriminate|].
  destruct (part_or r) as [(ms & r1 & P)|B].
  2:{ pose proof (breaks_step f r want acc B) as X. rewrite H in X. discriminate. }
  rewrite (part_turn f _ _ _ want acc P Hw) in H.
  assert (S : (exists d, ms = map Data d) \/ (exists e, ms = [Lose e]) \/ ms = [TheEnd]).
  { clear - P. assert (Q : forall r ms r', packet r ms r' -> (exists d, ms = map Data d) \/ (exists e, ms = [Lose e]) \/ ms = [TheEnd])
      by (intros ? ? ? []; eauto). destruct P; eauto. }
  destruct S as [(d & ->)|[(e & ->)| ->]].
  - rewrite turn_data in H. unfold fills in H. destruct (Nat.leb_spec want (length d)) as [L|L].
    + assert (out = (acc ++ firstn want d, None) /\ s = mkPR r1 (skipn want d)) as (-> & ->) by (split; congruence).
      exists 1%nat, (map Data d ++ []). split; [eapply parts_more; [exact P | constructor]|].
      rewrite pack_bytes_ge by exact L. rewrite app_nil_r. reflexivity.
    + apply IH in H; [|lia]. destruct H as (k & tape & C & T). exists (S k), (map Data d ++ tape).
      split; [eapply parts_more; eassumption|]. rewrite pack_bytes_lt by lia. exact T.
  - assert (out = ([], e) /\ s = mkPR r1 []) as (-> & ->) by (cbn [turn] in H; split; congruence).
    exists 1%nat, [Lose e]. split; [apply (parts_more 0 r [Lose e] r1 [] r1 P (parts_none r1))|]. destruct want; [lia|reflexivity].
  - assert (out = (acc, Some EEOF) /\ s = mkPR r1 []) as (-> & ->) by (cbn [turn] in H; split; congruence).
    exists 1%nat, [TheEnd]. split; [apply (parts_more 0 r [TheEnd] r1 [] r1 P (parts_none r1))|]. destruct want; [lia|reflexivity].
Qed.
Lemma read_calls : forall fuel r rem want out s, pr_read fuel want (mkPR r rem) = (Ok out, s) ->
  exists k tape, parts k r tape (pr_br s) /\ pack_read want [] (map Data rem ++ tape) = Some (out, map Data (pr_rem s)).
Proof.
  intros fuel r rem want out s H. unfold pr_read in H. cbn [pr_br pr_rem] in H.
  destruct (Nat.le_gt_cases want (length rem)) as [L|L].
  - rewrite firstn_length_le, Nat.sub_diag in H by exact L.
    assert (out = (firstn want rem, None) /\ s = mkPR r (skipn want rem)) as (-> & ->) by (split; congruence).
    exists 0%nat, []. split; [constructor|]. rewrite pack_bytes_ge, app_nil_r by exact L. reflexivity.
  - rewrite firstn_all2 in H by lia. destruct (want - length rem)%nat as [|j] eqn:Ej; [lia|].
    apply step_calls in H; [|lia]. destruct H as (k & tape & C & T). exists k, tape. split; [exact C|].
    rewrite pack_bytes_lt by lia. rewrite Ej. exact T.
Qed.
Lemma pack_reads_more : forall sizes t outs u, pack_reads sizes t = Some outs -> pack_reads sizes (t ++ u) = Some outs.
Proof.
  induction sizes as [|n s IH]; intros t outs u H; cbn [pack_reads] in *; [exact H|].
  destruct (pack_read n [] t) as [[out t2]|] eqn:E; [|discriminate]. rewrite (pack_read_more _ _ _ _ _ u E).
  destruct (pack_reads s t2) as [o|] eqn:E2; [|discriminate]. rewrite (IH _ _ u E2). exact H.
Qed.
Lemma reads_calls : forall fuel sizes r rem outs, pr_reads fuel sizes (mkPR r rem) = map Ok outs ->
  exists k tape r', parts k r tape r' /\ pack_reads sizes (map Data rem ++ tape) = Some outs.
Proof.
  intros fuel. induction sizes as [|n t IH]; intros r rem outs H; cbn [pr_reads] in H.
  - destruct outs; [|discriminate]. exists 0%nat, [], r. split; [constructor | reflexivity].
  - destruct (pr_read fuel n (mkPR r rem)) as [x [r2 rem2]] eqn:E. destruct outs as [|out outs]; [discriminate|].
    cbn [map] in H. assert (x = Ok out) as -> by congruence. assert (H' : pr_reads fuel t (mkPR r2 rem2) = map Ok outs) by congruence. clear H.
    apply read_calls in E. cbn [pr_br pr_rem] in E. destruct E as (k & tape & C & T). apply IH in H'. destruct H' as (k2 & tape2 & r' & C2 & T2).
    exists (k + k2)%nat, (tape ++ tape2), r'. split; [eapply parts_app; eassumption|].
    cbn [pack_reads]. rewrite app_assoc, (pack_read_more _ _ _ _ _ tape2 T), T2. reflexivity.
Qed.

(** ** Every Read returns, unless a packet panics *)
Lemma step_panics : forall fuel r want acc s, (0 < want)%nat -> pr_step fuel r want acc = (Panic, s) -> exists k tape r1, parts k r tape r1 /\ breaks r1.
Proof.
  induction fuel as [|f IH]; intros r want acc s Hw H; [discriminate|].
  destruct (part_or r) as [(ms & r1 & P)|B]; [|exists 0%nat, [], r; split; [constructor | exact B]].
  rewrite (part_turn f _ _ _ want acc P Hw) in H.
  assert (S : (exists d, ms = map Data d) \/ (exists e, ms = [Lose e]) \/ ms = [TheEnd]).
  { clear - P. assert (Q : forall r ms r', packet r ms r' -> (exists d, ms = map Data d) \/ (exists e, ms = [Lose e]) \/ ms = [TheEnd])
      by (intros ? ? ? []; eauto). destruct P; eauto. }
  destruct S as [(d & ->)|[(e & ->)| ->]]; try discriminate.
  rewrite turn_data in H. unfold fills in H. destruct (Nat.leb_spec want (length d)) as [L|L]; [discriminate|].
  apply IH in H; [|lia]. destruct H as (k & tape & r2 & C & B). exists (S k), (map Data d ++ tape), r2.
  split; [eapply parts_more; eassumption | exact B].
Qed.
Lemma part_mono : forall r ms r', part r ms r' -> rlater r = [] -> rlater r' = [] /\ (left r' <= left r)%nat.
Proof.
  assert (Q : forall r ms r', packet r ms r' -> rlater r = [] -> rlater r' = [] /\ (left r' <= left r)%nat).
  { intros r ms r' P Hr. destruct P as [r p r' E|r e p r' E]; unfold new_pes in E; destruct (monop_pes_next (zero_pp, r) _ _ Hr E) as (A & _ & B); auto. }
  intros r ms r' P Hr. destruct P as [r e r' E|r r' E E2|r e r' E E2|r h r1 ms r' E E2 P|r v ms r' E N1 N2 P].
  - destruct (mono_peek_n _ _ _ _ Hr E) as (A & _ & B). auto.
  - destruct (skip_n 32 r) as [x r2] eqn:E3. cbn [snd] in E2. subst r2. destruct (mono_skip_n _ _ _ _ Hr E3) as (A & _ & B). auto.
  - destruct (mono_pack_header _ _ _ Hr E2) as (A & _ & B). auto.
  - destruct (mono_pack_header _ _ _ Hr E2) as (A & _ & B). destruct (Q _ _ _ P A) as (C & D). split; [exact C | lia].
  - exact (Q _ _ _ P Hr).
Qed.
Lemma parts_mono : forall k r t r', parts k r t r' -> rlater r = [] -> rlater r' = [] /\ (left r' <= left r)%nat.
Proof.
  induction 1 as [r|k r ms r1 tape r' P H IH]; intro Hr; [auto|].
  destruct (part_mono _ _ _ P Hr) as (A & B). destruct (IH A) as (C & D). split; [exact C | lia].
Qed.
Lemma no_err : forall fuel r want acc e s, (0 < want)%nat -> pr_step fuel r want acc <> (Err e, s).
Proof.
  induction fuel as [|f IH]; intros r want acc e s Hw H; [discriminate|].
  destruct (part_or r) as [(ms & r1 & P)|B].
  2:{ pose proof (breaks_step f r want acc B) as X. rewrite H in X. discriminate. }
  rewrite (part_turn f _ _ _ want acc P Hw) in H.
  assert (F : fills f r1 (data_of ms) want acc = (Err e, s) -> False).
  { unfold fills. destruct (Nat.leb_spec want (length (data_of ms))) as [L|L]; [discriminate|]. apply IH. lia. }
  unfold turn in H. destruct ms as [|[b|l|] [|]]; try discriminate; exact (F H).
Qed.
Lemma reads_total : forall fuel sizes r rem, rlater r = [] -> (left r < fuel)%nat ->
  (exists outs, pr_reads fuel sizes (mkPR r rem) = map Ok outs) \/ (exists k tape r1, parts k r tape r1 /\ breaks r1).
Proof.
  intros fuel. induction sizes as [|n t IH]; intros r rem Hr Hl; [left; exists []; reflexivity|].
  cbn [pr_reads]. destruct (pr_read fuel n (mkPR r rem)) as [x [r2 rem2]] eqn:E.
  destruct x as [out|e| |].
  - destruct (read_calls _ _ _ _ _ _ E) as (k & tape & C & _). cbn [pr_br] in C. destruct (parts_mono _ _ _ _ C Hr) as (A & B).
    destruct (IH r2 rem2 A ltac:(lia)) as [(outs & ->)|(k2 & tape2 & r3 & C2 & N)].
    + left. exists (out :: outs). reflexivity.
    + right. exists (k + k2)%nat, (tape ++ tape2), r3. split; [eapply parts_app; eassumption | exact N].
  - exfalso. unfold pr_read in E. cbn [pr_br pr_rem] in E. destruct (n - _)%nat eqn:En; [discriminate|]. eapply no_err; [|exact E]. lia.
  - right. unfold pr_read in E. cbn [pr_br pr_rem] in E. destruct (n - _)%nat eqn:En; [discriminate|]. eapply step_panics; [|exact E]. lia.
  - exfalso. unfold pr_read in E. cbn [pr_br pr_rem] in E. destruct (n - _)%nat eqn:En; [discriminate|].
    apply (pr_step_ends fuel r (S n0) (firstn n rem) Hr Hl). rewrite E. reflexivity.
Qed.

(** The parts, computed *)
Definition run_packet (r : reader) : option (list mark * reader) :=
  match new_pes r with
  | (Ok _, (p, r')) => Some (map Data (pp_payload p), r')
  | (Err _, (p, r')) => Some ([Lose None], r')
  | _ => None
  end.
Definition run_part (r : reader) : option (list mark * reader) :=
  match peek_n 32 r with
  | (Err _, r') => Some ([Lose None], r')
  | (Ok v, _) =>
      if v =? 441 then Some ([TheEnd], snd (skip_n 32 r))
      else if v =? 442 then
        match new_pack_header r with
        | (Ok _, r1) => run_packet r1
        | (Err e, r1) => Some ([Lose (Some e)], r1)
        | _ => None
        end
      else run_packet r
  | _ => None
  end.
Fixpoint run_parts (k : nat) (r : reader) : option (list mark * reader) :=
  match k with
  | O => Some ([], r)
  | S k => match run_part r with
           | Some (ms, r1) => match run_parts k r1 with Some (t, r') => Some (ms ++ t, r') | None => None end
           | None => None
           end
  end.
Lemma run_packet_ok : forall r ms r', run_packet r = Some (ms, r') -> packet r ms r'.
Proof.
  intros r ms r' H. unfold run_packet in H. destruct (new_pes r) as [[[]|e| |] [p r1]] eqn:E; try discriminate.
  - assert (ms = map Data (pp_payload p) /\ r' = r1) as (-> & ->) by (split; congruence). apply packet_ok. exact E.
  - assert (ms = [Lose None] /\ r' = r1) as (-> & ->) by (split; congruence). eapply packet_error. exact E.
Qed.
Lemma run_part_ok : forall r ms r', run_part r = Some (ms, r') -> part r ms r'.
Proof.
  intros r ms r' H. unfold run_part in H. destruct (peek_n 32 r) as [[v|e| |] r1] eqn:E; try discriminate.
  - destruct (peek_n_ok_inv _ _ _ _ E) as (_ & _ & ->). destruct (Z.eqb_spec v 441) as [->|N1].
    { assert (ms = [TheEnd] /\ r' = snd (skip_n 32 r)) as (-> & ->) by (split; congruence). eapply part_end; [exact E | reflexivity]. }
    destruct (Z.eqb_spec v 442) as [->|N2].
    + destruct (new_pack_header r) as [[h|e| |] r1] eqn:E2; try discriminate.
      * eapply part_pack; [exact E | exact E2 | apply run_packet_ok; exact H].
      * assert (ms = [Lose (Some e)] /\ r' = r1) as (-> & ->) by (split; congruence). eapply part_header; eauto.
    + eapply part_packet; [exact E | assumption | assumption | apply run_packet_ok; exact H].
  - assert (ms = [Lose None] /\ r' = r1) as (-> & ->) by (split; congruence). eapply part_short; exact E.
Qed.
Lemma run_parts_ok : forall k r t r', run_parts k r = Some (t, r') -> parts k r t r'.
Proof.
  induction k as [|k IH]; intros r t r' H; cbn [run_parts] in H.
  - assert (t = [] /\ r' = r) as (-> & ->) by (split; congruence). constructor.
  - destruct (run_part r) as [[ms r1]|] eqn:E; [|discriminate]. destruct (run_parts k r1) as [[t1 r2]|] eqn:E2; [|discriminate].
    assert (t = ms ++ t1 /\ r' = r2) as (-> & ->) by (split; congruence). eapply parts_more; [apply run_part_ok; exact E | apply IH; exact E2].
Qed.

(** ** What the tape says of the bytes *)
Lemma bytewise : forall tape, pack_reads (repeat 1%nat (length tape)) tape = Some (map alone tape).
Proof. induction tape as [|[b|e|] t IH]; cbn [length repeat pack_reads pack_read app map alone]; [reflexivity| | |]; rewrite IH; reflexivity. Qed.
Lemma within_refl : forall A (l : list A), within l l.
Proof. induction l; constructor; auto. Qed.
Lemma within_app : forall A (a b c d : list A), within a b -> within c d -> within (a ++ c) (b ++ d).
Proof. induction 1; intro H2; cbn [app]; [exact H2 | apply within_both | apply within_skip]; auto. Qed.
Lemma within_drop : forall A (b c d : list A), within c d -> within c (b ++ d).
Proof. induction b; intros c d H; cbn [app]; [exact H | apply within_skip; auto]. Qed.
Lemma within_all : forall A (m : list A), within [] m.
Proof. induction m; constructor; auto. Qed.
Lemma read_within : forall n tape got out t2, pack_read n got tape = Some (out, t2) ->
  exists pre, data_of tape = pre ++ data_of t2 /\ (fst out = got ++ pre \/ fst out = []).
Proof.
  induction n as [|n IH]; intros tape got out t2 H; cbn [pack_read] in H.
  - assert (out = (got, None) /\ t2 = tape) as (-> & ->) by (split; congruence). exists []. rewrite app_nil_r. auto.
  - destruct tape as [|[b|e|] t]; [discriminate| | |]; cbn [data_of].
    + destruct (IH _ _ _ _ H) as (pre & E & D). exists (b :: pre). rewrite E. split; [reflexivity|]. rewrite <- app_assoc in D. exact D.
    + assert (out = ([], e) /\ t2 = t) as (-> & ->) by (split; congruence). exists []. auto.
    + assert (out = (got, Some EEOF) /\ t2 = t) as (-> & ->) by (split; congruence). exists []. rewrite app_nil_r. auto.
Qed.
Lemma reads_within : forall sizes tape outs, pack_reads sizes tape = Some outs -> within (flat_map fst outs) (data_of tape).
Proof.
  induction sizes as [|n t IH]; intros tape outs H; cbn [pack_reads] in H.
  - assert (outs = []) as -> by congruence. apply within_all.
  - destruct (pack_read n [] tape) as [[out t2]|] eqn:E1; [|discriminate]. destruct (pack_reads t t2) as [outs'|] eqn:E2; [|discriminate].
    assert (outs = out :: outs') as -> by congruence. destruct (read_within _ _ _ _ _ E1) as (pre & E & D). rewrite E. cbn [flat_map].
    destruct D as [->| ->]; [cbn [app]; apply within_app; [apply within_refl | eauto] | apply within_drop; eauto].
Qed.

(** ** Bytes that are no start code *)
Lemma stuck_part : forall r v t, rbits r = enc 24 v ++ t -> 0 <= v < 2 ^ 24 -> v <> 1 -> (8 <= length t)%nat -> part r [Lose None] r.
Proof.
  intros r v t E Hv Nv Ht.
  assert (P24 : peek_n 24 r = (Ok v, r)).
  { pose proof (peek_enc 24 v r t ltac:(exact Hv)) as P. rewrite <- E, setb_rbits in P. exact P. }
  assert (N : new_pes r = (Err ErrStartCodePrefixNotFound, (zero_pp, r))).
  { unfold new_pes, pes_next, bind, onr. cbn [fst snd]. rewrite P24. unfold StartCodePrefix. rewrite (proj2 (Z.eqb_neq v 1)) by exact Nv. reflexivity. }
  assert (K : packet r [Lose None] r) by (eapply packet_error; exact N).
  assert (H8 : length (firstn 8 t) = 8%nat) by (rewrite firstn_length; lia).
  set (u := dec (enc 24 v ++ firstn 8 t)).
  assert (P32 : peek_n 32 r = (Ok u, r)).
  { pose proof (peek_n_app 32 r (enc 24 v ++ firstn 8 t) (skipn 8 t) ltac:(rewrite app_length, enc_length, H8; reflexivity)) as P.
    rewrite <- app_assoc, firstn_skipn, <- E, setb_rbits in P. exact P. }
  assert (Eu : enc 24 (u / 256) ++ enc 8 u = enc 24 v ++ firstn 8 t).
  { change 256 with (2 ^ Z.of_nat 8). rewrite <- (enc_app 24 8 u). unfold u.
    replace (24 + 8)%nat with (length (enc 24 v ++ firstn 8 t)) by (rewrite app_length, enc_length, H8; reflexivity). apply enc_dec. }
  assert (Ev : v = (u / 256) mod 2 ^ Z.of_nat 24).
  { rewrite <- dec_enc_mod. apply (f_equal (firstn 24)) in Eu. rewrite !firstn_app_exact in Eu by apply enc_length. rewrite Eu. symmetry. apply dec_enc. exact Hv. }
  eapply part_packet; [exact P32 | | | exact K]; intro Q; rewrite Q in Ev; apply Nv; rewrite Ev; reflexivity.
Qed.
