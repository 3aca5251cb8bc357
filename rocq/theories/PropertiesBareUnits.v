(** PropertiesBareUnits: C128 for the unit reader - packets of the stream that have no payload. *)
From Coq Require Import Lia.
From Verif Require Import Base BitReader TsModel SpecTs SpecIO SpecFaults SpecUnitTape SpecBare SpecBareUnits TsProofs TsReaders PropertiesTs PropertiesUnitTape PropertiesBare.

Lemma log_ends : forall p r n, rlater r = [] -> log packet_next n (p, setb r []) (repeat (p, Some (rfin r)) n) (p, setb r []).
Proof. intros p r n L. induction n as [|n IH]; [constructor|]. cbn [repeat]. eapply log_error; [now apply next_nil | exact IH]. Qed.
Lemma gather_ends : forall w p e n q got, gather w q got (repeat (p, Some e) n) = repeat (Broken e) n.
Proof. intros w p e n. induction n as [|n IH]; intros q got; [reflexivity|]. cbn [repeat gather]. now rewrite IH. Qed.
Lemma log_held : forall ps p r n, Forall wf_sp ps -> rlater r = [] ->
  exists l s, log packet_next (length ps + n) (p, setb r (enc_sps ps)) l s /\
    forall a, (forall got, gather (IsPID a) p got l = map Whole (cut (Some (got ++ adds (IsPID a) p)) (taken a (pk_payload p) ps)) ++ repeat (Broken (rfin r)) n) /\
    search (IsPID a) l = map Whole (cut None (taken a (pk_payload p) ps)) ++ repeat (Broken (rfin r)) n.
Proof.
  intros ps. induction ps as [|s ps IH]; intros p r n W L.
  - exists (repeat (p, Some (rfin r)) n), (p, setb r []). split; [now apply log_ends|]. intro a. cbn [taken cut map app]. split; [intro got; apply gather_ends|].
    destruct n as [|n]; [reflexivity|]. cbn [repeat search]. now rewrite gather_ends.
  - apply Forall_cons_iff in W. destruct W as [W1 W2]. destruct (IH (over_packet p s) r n W2 L) as (l & e & C & G).
    exists ((over_packet p s, None) :: l), e. split; [cbn [length Nat.add]; eapply log_ok; [now apply next_cons | exact C]|].
    intro a. destruct (G a) as [G1 G2]. cbn [gather search taken]. cbv zeta. rewrite <- over_held.
    assert (B : begins (IsPID a) (over_packet p s) = ((sp_pid s =? a) && sp_pusi s)%bool) by reflexivity.
    assert (A : adds (IsPID a) (over_packet p s) = if sp_pid s =? a then pk_payload (over_packet p s) else []) by reflexivity.
    split.
    + intro got. rewrite B. destruct (sp_pid s =? a); [destruct (sp_pusi s)|]; cbn [andb app cut]; rewrite G1, A; cbn [option_map]; rewrite ?app_nil_r; reflexivity.
    + rewrite B. destruct (sp_pid s =? a); [destruct (sp_pusi s)|]; cbn [andb app cut]; rewrite ?G1, ?G2, ?A; cbn [option_map]; rewrite ?app_nil_r; reflexivity.
Qed.
Lemma pieces_units : forall e sizes cur us n, (length sizes <= n)%nat -> piece_reads sizes cur (map Whole us ++ repeat (Broken e) n) = Some (unit_reads e sizes cur us).
Proof.
  intros e sizes. induction sizes as [|k sizes IH]; intros cur us n L; [reflexivity|]. cbn [length] in L. cbn [piece_reads unit_reads].
  destruct cur as [b|]; [|destruct us as [|u us]].
  - cbn [piece_read unit_read]. destruct (k <=? length b)%nat; rewrite IH by lia; reflexivity.
  - destruct n as [|n]; [lia|]. cbn [map app repeat piece_read unit_read]. rewrite <- (app_nil_l (repeat (Broken e) n)). change (@nil piece) with (map Whole []). rewrite IH by lia. reflexivity.
  - cbn [map app piece_read unit_read]. destruct (k <=? length u)%nat; rewrite IH by lia; reflexivity.
Qed.

(** Exactly what NewPayloadUnitReader delivers of any well-formed packets, with payload or without: a packet without payload repeats
    the payload of the packet before it, be it of the same PID or not. *)
Theorem C128_units_partial : forall a ps r sizes fuel, Forall wf_sp ps -> rlater r = [] -> (length ps + length sizes <= fuel)%nat ->
  ur_reads fuel sizes (new_ureader (setb r (enc_sps ps)) (IsPID a)) = map Ok (unit_reads (rfin r) sizes None (cut None (taken a [] ps))).
Proof.
  intros a ps r sizes fuel W L F. destruct (log_held ps zero_packet r (length sizes) W L) as (l & s & C & G). destruct (G a) as [_ G2].
  change (pk_payload zero_packet) with (@nil Z) in G2. eapply C108_delivers; [exact C | rewrite G2; now apply pieces_units | exact F].
Qed.

Lemma no_payload : forall s, has_payload s = false -> sp_payload s = [].
Proof. intros s H. unfold has_payload in H. unfold sp_payload. destruct (sp_content s); [discriminate H | reflexivity | discriminate H]. Qed.
Lemma taken_before : forall a pre ps, Forall (fun s => has_payload s = false) pre -> taken a [] (pre ++ ps) = meant a pre ++ taken a [] ps.
Proof.
  intros a pre ps F. induction F as [|s pre H F IH]; [reflexivity|]. unfold meant in *. cbn [app taken filter]. rewrite H. cbv zeta. rewrite IH.
  destruct (sp_pid s =? a); [cbn [map app]; now rewrite (no_payload s H) | reflexivity].
Qed.
Lemma taken_all : forall a ps d, Forall (fun s => sp_pid s = a -> has_payload s = true) ps -> taken a d ps = meant a ps.
Proof.
  intros a ps. induction ps as [|s ps IH]; intros d F; [reflexivity|]. apply Forall_cons_iff in F. destruct F as [F1 F2]. unfold meant in *. cbn [taken filter]. cbv zeta.
  destruct (sp_pid s =? a) eqn:E; [rewrite F1 by lia; cbn [map app]; now rewrite IH | cbn [app]; now apply IH].
Qed.
(** Packets without payload before the first that has one add nothing. *)
Theorem C128_units_leading : forall a pre ps r sizes fuel, Forall wf_sp (pre ++ ps) -> rlater r = [] -> (length (pre ++ ps) + length sizes <= fuel)%nat ->
  Forall (fun s => has_payload s = false) pre -> Forall (fun s => sp_pid s = a -> has_payload s = true) ps ->
  ur_reads fuel sizes (new_ureader (setb r (enc_sps (pre ++ ps))) (IsPID a)) = map Ok (unit_reads (rfin r) sizes None (cut None (meant a (pre ++ ps)))).
Proof.
  intros a pre ps r sizes fuel W L F B C. rewrite C128_units_partial by auto. rewrite taken_before, taken_all by auto.
  unfold meant. now rewrite filter_app, map_app.
Qed.

(** After that it is false: a unit of one packet [q] with payload, followed by a packet [x] of another stream and a packet [p] of the same
    stream that has none, ends with the payload of [x]. *)
Theorem C128_units_refuted : forall a q x p q' r n fuel, Forall wf_sp [q; x; p; q'] ->
  sp_pid q = a -> sp_pusi q = true -> has_payload q = true -> sp_pid x <> a -> has_payload x = true ->
  sp_pid p = a -> sp_pusi p = false -> has_payload p = false -> sp_pid q' = a -> sp_pusi q' = true ->
  rlater r = [] -> (length (sp_payload q ++ sp_payload x) < n)%nat -> (5 <= fuel)%nat ->
  ur_reads fuel [n] (new_ureader (setb r (enc_sps [q; x; p; q'])) (IsPID a)) = [Ok (sp_payload q ++ sp_payload x, Some EOP)] /\
  cut None (meant a [q; x; p; q']) = [sp_payload q].
Proof.
  intros a q x p q' r n fuel W Eq Sq Hq Ex Hx Ep Sp Hp Eq' Sq' L N F. split.
  - rewrite C128_units_partial by (auto; cbn [length]; lia). cbn [taken]. rewrite Eq, Ep, Eq', Hq, Hx, Hp, Sq, Sp, Sq', !Z.eqb_refl. replace (sp_pid x =? a) with false by lia. cbv zeta.
    cbn [app cut option_map unit_reads unit_read]. replace (Nat.leb n _) with false by (symmetry; apply Nat.leb_gt; exact N). reflexivity.
  - unfold meant. cbn [filter]. rewrite Eq, Ep, Eq', !Z.eqb_refl. replace (sp_pid x =? a) with false by lia. cbn [map cut app option_map]. rewrite Sq, Sp, Sq', (no_payload p Hp).
    cbn [option_map cut app]. now rewrite app_nil_r.
Qed.

(** ** An example: PID 17 has a unit of one packet, then PID 256 a packet, then PID 17 a packet with only an adaptation field. *)
Definition bu_q (d : Z) : spacket := mkSP false true false 17 0 3 (SPayload (repeat d 184)).
Example C128_units_hyp : Forall wf_sp [bu_q 5; ex_p1; ex_p3; bu_q 6] /\ sp_pid (bu_q 5) = 17 /\ sp_pusi (bu_q 5) = true /\ has_payload (bu_q 5) = true /\
  sp_pid ex_p1 <> 17 /\ has_payload ex_p1 = true /\ sp_pid ex_p3 = 17 /\ sp_pusi ex_p3 = false /\ has_payload ex_p3 = false /\
  (length (sp_payload (bu_q 5) ++ sp_payload ex_p1) < 400)%nat /\ sp_payload ex_p1 <> [].
Proof.
  pose proof ex_wf as W. apply Forall_cons_iff in W. destruct W as [W1 W]. apply Forall_cons_iff in W. destruct W as [_ W]. apply Forall_cons_iff in W. destruct W as [W3 _].
  assert (Q : forall d, byte d -> wf_sp (bu_q d)).
  { intros d B. unfold wf_sp, bu_q; cbn [sp_pid sp_tsc sp_cc sp_content]. pose proof (bytes_repeat d 184 B). rewrite ?repeat_length. repeat split; auto; lia. }
  split; [repeat (apply Forall_cons; [first [assumption | apply Q; unfold byte; lia]|]); constructor|].
  repeat (split; [first [reflexivity | discriminate]|]). split; [rewrite app_length; apply Nat.ltb_lt; reflexivity | discriminate].
Qed.

Print Assumptions C128_units_partial.
Print Assumptions C128_units_leading.
Print Assumptions C128_units_refuted.
