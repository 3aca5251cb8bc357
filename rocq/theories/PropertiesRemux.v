(** PropertiesRemux: C126 - streams multiplexed anew; C127 - packets sent twice. *)
From Coq Require Import Lia.
From Verif Require Import Base BitReader TsModel SpecTs SpecIO SpecRemux TsProofs TsReaders PropertiesTs.

Lemma wp_has : forall a ps, with_payload a ps -> Forall (fun s => IsPID a (go_packet s) = true -> has_payload s = true) ps.
Proof. intros a ps (_ & F). eapply Forall_impl; [|exact F]. intros s H E. apply H. unfold IsPID in E. cbn [go_packet pk_pid] in E. lia. Qed.
Lemma is_pid : forall a s, accepted (IsPID a) s = (sp_pid s =? a).
Proof. reflexivity. Qed.
Lemma remux_payloads : forall a b ps qs, remuxed a b ps qs -> payloads (IsPID a) ps = payloads (IsPID b) qs.
Proof.
  intros a b ps qs R. induction R as [|p ps qs N R IH|q ps qs N R IH|p q ps qs E1 E2 E3 E4 R IH]; [reflexivity|..]; rewrite ?payloads_cons, ?is_pid.
  - replace (sp_pid p =? a) with false by lia. exact IH.
  - replace (sp_pid q =? b) with false by lia. exact IH.
  - rewrite E1, E2, !Z.eqb_refl, E4. now rewrite IH.
Qed.

(** Whatever the sizes of the reads, NewPayloadReader for the PID delivers the same bytes with the same errors. *)
Theorem C126_payload : forall a b ps qs r sizes fuel fuel', remuxed a b ps qs -> with_payload a ps -> with_payload b qs -> rlater r = [] ->
  (length ps < fuel)%nat -> (length qs < fuel')%nat ->
  pr_reads fuel' sizes (new_preader (setb r (enc_sps qs)) (IsPID b)) = pr_reads fuel sizes (new_preader (setb r (enc_sps ps)) (IsPID a)).
Proof.
  intros a b ps qs r sizes fuel fuel' R WA WB L FA FB.
  rewrite (C10_payload_reader (IsPID b) r qs sizes fuel'), (C10_payload_reader (IsPID a) r ps sizes fuel); auto using ok_IsPID, wp_has; [|apply WA|apply WB].
  do 2 f_equal. symmetry. exact (remux_payloads a b ps qs R).
Qed.

Lemma remux_units_from : forall a b ps qs, remuxed a b ps qs -> forall cur, units_from (IsPID a) cur ps = units_from (IsPID b) cur qs.
Proof.
  intros a b ps qs R. induction R as [|p ps qs N R IH|q ps qs N R IH|p q ps qs E1 E2 E3 E4 R IH]; intro cur; [reflexivity|..]; cbn [units_from]; unfold starts; rewrite ?is_pid.
  - replace (sp_pid p =? a) with false by lia. apply IH.
  - replace (sp_pid q =? b) with false by lia. apply IH.
  - rewrite E1, E2, !Z.eqb_refl, E3, E4, !IH. reflexivity.
Qed.
Lemma remux_units : forall a b ps qs, remuxed a b ps qs -> units (IsPID a) ps = units (IsPID b) qs.
Proof.
  intros a b ps qs R. induction R as [|p ps qs N R IH|q ps qs N R IH|p q ps qs E1 E2 E3 E4 R IH]; [reflexivity|..]; cbn [units]; unfold starts; rewrite ?is_pid.
  - replace (sp_pid p =? a) with false by lia. apply IH.
  - replace (sp_pid q =? b) with false by lia. apply IH.
  - rewrite E1, E2, !Z.eqb_refl, E3, E4, IH. destruct (true && sp_pusi p)%bool; [now apply remux_units_from | reflexivity].
Qed.
(** So does NewPayloadUnitReader. *)
Theorem C126_units : forall a b ps qs r sizes fuel fuel', remuxed a b ps qs -> with_payload a ps -> with_payload b qs -> rlater r = [] ->
  (length ps < fuel)%nat -> (length qs < fuel')%nat ->
  ur_reads fuel' sizes (new_ureader (setb r (enc_sps qs)) (IsPID b)) = ur_reads fuel sizes (new_ureader (setb r (enc_sps ps)) (IsPID a)).
Proof.
  intros a b ps qs r sizes fuel fuel' R WA WB L FA FB.
  rewrite (C13_unit_reader (IsPID b) r qs sizes fuel'), (C13_unit_reader (IsPID a) r ps sizes fuel); auto using ok_IsPID, wp_has; [|apply WA|apply WB].
  unfold complete_units. now rewrite (remux_units a b ps qs R).
Qed.

(** ** C127 *)
(** A packet sent twice in a row - the standard (ISO 13818-1 2.4.3.3) allows it and demands that its payload counts once -
    is delivered twice. *)
Theorem C127_delivered_partial : forall a pre p post r sizes fuel, with_payload a (pre ++ p :: p :: post) -> sp_pid p = a -> rlater r = [] ->
  (length (pre ++ p :: p :: post) < fuel)%nat ->
  let content ps := concat (map sp_payload (filter (fun s => sp_pid s =? a) ps)) in
  pr_reads fuel sizes (new_preader (setb r (enc_sps (pre ++ p :: p :: post))) (IsPID a)) =
  map Ok (ideal_reads (rfin r) sizes (content pre ++ sp_payload p ++ sp_payload p ++ content post)).
Proof.
  intros a pre p post r sizes fuel W E L F content. rewrite (C10_payload_reader (IsPID a) r _ sizes fuel); auto using ok_IsPID, wp_has; [|apply W].
  do 2 f_equal. unfold content. change (filter (fun s => IsPID a (go_packet s))) with (filter (fun s : spacket => sp_pid s =? a)).
  rewrite filter_app, map_app, concat_app. cbn [filter]. rewrite E, Z.eqb_refl. reflexivity.
Qed.
(** The reads differ from those of the stream in which it is sent once, whatever the stream, if it has any payload. *)
Theorem C127_once_refuted : forall a pre p post r fuel, with_payload a (pre ++ p :: p :: post) -> sp_pid p = a -> sp_payload p <> [] -> rlater r = [] ->
  (length (pre ++ p :: p :: post) < fuel)%nat ->
  exists sizes,
    pr_reads fuel sizes (new_preader (setb r (enc_sps (pre ++ p :: p :: post))) (IsPID a)) <>
    pr_reads fuel sizes (new_preader (setb r (enc_sps (pre ++ p :: post))) (IsPID a)).
Proof.
  intros a pre p post r fuel W E NE L F.
  assert (W1 : with_payload a (pre ++ p :: post)).
  { destruct W as [W1 W2]. apply Forall_app in W1. apply Forall_app in W2. destruct W1 as [A1 A2], W2 as [B1 B2]. split; apply Forall_app; split; auto; [now inversion A2 | now inversion B2]. }
  assert (F1 : (length (pre ++ p :: post) < fuel)%nat) by (rewrite !app_length in *; cbn [length] in *; lia).
  set (big := concat (map sp_payload (filter (fun s => IsPID a (go_packet s)) (pre ++ p :: p :: post)))).
  exists [length big].
  destruct (C10_delivered (IsPID a) r (pre ++ p :: p :: post) [length big] fuel) as (o1 & R1 & D1); auto using ok_IsPID, wp_has; [apply W|].
  destruct (C10_delivered (IsPID a) r (pre ++ p :: post) [length big] fuel) as (o2 & R2 & D2); auto using ok_IsPID, wp_has; [apply W1|].
  rewrite R1, R2. intro X. assert (o1 = o2).
  { clear - X. revert o2 X. induction o1 as [|x o1 IH]; intros [|y o2] X; try discriminate X; [reflexivity|]. injection X as -> X. f_equal. now apply IH. }
  subst o2. rewrite D1 in D2. apply (f_equal (@length Z)) in D2. rewrite !firstn_length in D2. fold big in D2. cbn [asked fold_right] in D2.
  assert (LB : length big = (length (concat (map sp_payload (filter (fun s => IsPID a (go_packet s)) (pre ++ p :: post)))) + length (sp_payload p))%nat).
  { unfold big. rewrite !filter_app, !map_app, !concat_app. cbn [filter]. change (IsPID a (go_packet p)) with (sp_pid p =? a). rewrite E, Z.eqb_refl. cbn [map concat]. rewrite !app_length. lia. }
  assert (sp_payload p <> [] -> (0 < length (sp_payload p))%nat) by (destruct (sp_payload p); [congruence | cbn; lia]).
  specialize (H NE). unfold asked in D2. cbn in D2. lia.
Qed.

(** ** Examples: the stream of C10, with another PID, other counters, another adaptation field and a packet of PID 17 fewer; and its first packet twice. *)
Definition rm_p1 : spacket := mkSP false true true 300 2 9 (SPayload (repeat 7 184)).
Definition rm_p2 : spacket := mkSP true false false 300 0 1 (SFieldPayload (AFBody (mkSBody false false false None None None None None (repeat 255 (Z.to_nat (saf_len (AFBody ex_body) - 1))))) (sp_payload ex_p2)).
Definition rm_p4 : spacket := mkSP false true false 300 0 7 (SPayload (repeat 8 184)).
Example C126_hyp : remuxed 256 300 [ex_p1; ex_p2; ex_p3; ex_p4] [rm_p1; rm_p2; ex_p1; rm_p4] /\
  with_payload 256 [ex_p1; ex_p2; ex_p3; ex_p4] /\ with_payload 300 [rm_p1; rm_p2; ex_p1; rm_p4].
Proof.
  pose proof ex_wf as W. split; [|split].
  - apply remuxed_packet; try reflexivity. apply remuxed_packet; try reflexivity. apply remuxed_out; [discriminate|]. apply remuxed_in; [discriminate|].
    apply remuxed_packet; try reflexivity. constructor.
  - split; [exact W|]. repeat constructor; cbn; auto; discriminate.
  - split; [|repeat constructor; cbn; auto; discriminate].
    apply Forall_cons_iff in W. destruct W as [W1 W]. apply Forall_cons_iff in W. destruct W as [W2 _].
    apply Forall_cons; [|apply Forall_cons; [|apply Forall_cons; [exact W1|apply Forall_cons; [|apply Forall_nil] ] ] ].
    + split; [cbn; lia|]. split; [cbn; lia|]. split; [cbn; lia|]. split; [apply bytes_repeat; unfold byte; lia | reflexivity].
    + split; [cbn; lia|]. split; [cbn; lia|]. split; [cbn; lia|]. cbn [rm_p2 sp_content]. split; [|split; [|split] ].
      * repeat (split; [exact Logic.I|]). split; [apply bytes_repeat; unfold byte; lia | reflexivity].
      * exact Logic.I.
      * apply bytes_repeat; unfold byte; lia.
      * reflexivity.
    + split; [cbn; lia|]. split; [cbn; lia|]. split; [cbn; lia|]. split; [apply bytes_repeat; unfold byte; lia | reflexivity].
Qed.
Example C127_hyp : with_payload 256 ([] ++ ex_p1 :: ex_p1 :: [ex_p4]) /\ sp_pid ex_p1 = 256 /\ sp_payload ex_p1 <> [].
Proof.
  pose proof ex_wf as W. apply Forall_cons_iff in W. destruct W as [W1 W]. apply Forall_cons_iff in W. destruct W as [_ W]. apply Forall_cons_iff in W. destruct W as [_ W].
  split; [split; [cbn [app]; repeat (apply Forall_cons; [assumption|]); exact W | repeat constructor] | split; [reflexivity | discriminate] ].
Qed.

Print Assumptions C126_payload.
Print Assumptions C126_units.
Print Assumptions C127_delivered_partial.
Print Assumptions C127_once_refuted.
