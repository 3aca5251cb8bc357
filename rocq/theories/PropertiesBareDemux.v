(** PropertiesBareDemux: C128 for the demuxer - packets without payload. *)
From Coq Require Import Lia.
From Verif Require Import Base BitReader TsModel SpecTs SpecIO SpecBare SpecBareUnits TsProofs TsReaders PropertiesTs Conc ConcProofs PropertiesTsConc PropertiesBare PropertiesBareUnits PropertiesAgree PropertiesRemuxDemux.

Lemma parsed_taken : forall ss p r, rlater r = [] -> Forall wf_sp ss ->
  exists l, parsed (p, setb r (enc_sps ss)) l (Err (rfin r)) /\ forall a, map seen (filter (IsPID a) l) = taken a (pk_payload p) ss.
Proof.
  intros ss. induction ss as [|s ss IH]; intros p r L W.
  - exists []. split; [|reflexivity]. eapply parsed_end; [now apply next_nil | discriminate].
  - apply Forall_cons_iff in W. destruct W as [W1 W2]. destruct (IH (over_packet p s) r L W2) as (l & P & F). exists (over_packet p s :: l).
    split; [eapply (parsed_cons _ (over_packet p s, _)); [now apply next_cons | exact P]|]. intro a. cbn [filter taken].
    change (IsPID a (over_packet p s)) with (sp_pid s =? a). rewrite <- over_held, <- F. destruct (sp_pid s =? a); reflexivity.
Qed.
Lemma taken_app : forall a pre last rest, exists last', taken a last (pre ++ rest) = taken a last pre ++ taken a last' rest.
Proof.
  intros a pre. induction pre as [|s pre IH]; intros last rest; [exists last; reflexivity|]. cbn [app taken].
  destruct (IH (if has_payload s then sp_payload s else last) rest) as (l & E). exists l. rewrite E. now rewrite app_assoc.
Qed.
Lemma taken_length : forall a ps last, length (taken a last ps) = length (meant a ps).
Proof.
  intros a ps. unfold meant. induction ps as [|s ps IH]; intro last; [reflexivity|]. cbn [taken filter]. rewrite app_length, IH. destruct (sp_pid s =? a); reflexivity.
Qed.

(** What is received from the channel of PID [a] of a demuxer, whatever its other channels and under every schedule, once the channel
    is closed: of every packet of the PID whether it starts a unit, with its payload - or, if it has none, with the payload of the last packet before it that had one, of
    whatever PID ([taken], SpecBareUnits.v). *)
Theorem C128_demux_partial : forall ts i a ss r s, Forall wf_sp ss -> rlater r = [] -> nth_error ts i = Some (IsPID a) ->
  star (dstep ts always_true always_true) (d_init (setb r (enc_sps ss))) s -> (i < d_closed s)%nat ->
  map seen (received i (d_log s)) = taken a [] ss.
Proof.
  intros ts i a ss r s W L N H D. destruct (parsed_taken ss zero_packet r L W) as (ps & P & F).
  rewrite (C15_closed_complete _ _ _ _ _ _ _ _ _ P H N D), window_all. exact (F a).
Qed.
(** So if a packet [p] of the PID without payload follows any packet [q] with payload, it is never what it should be: [p] comes with the payload of [q]. *)
Theorem C128_demux_refuted : forall ts i a pre q p post r s, Forall wf_sp (pre ++ q :: p :: post) -> has_payload q = true -> sp_payload q <> [] ->
  has_payload p = false -> sp_pid p = a -> rlater r = [] -> nth_error ts i = Some (IsPID a) ->
  star (dstep ts always_true always_true) (d_init (setb r (enc_sps (pre ++ q :: p :: post)))) s -> (i < d_closed s)%nat ->
  map seen (received i (d_log s)) <> meant a (pre ++ q :: p :: post) /\
  nth_error (map seen (received i (d_log s))) (length (meant a (pre ++ [q]))) = Some (sp_pusi p, sp_payload q).
Proof.
  intros ts i a pre q p post r s W Hq Nq Hp E L N H D. rewrite (C128_demux_partial ts i a _ r s W L N H D).
  assert (T : nth_error (taken a [] (pre ++ q :: p :: post)) (length (meant a (pre ++ [q]))) = Some (sp_pusi p, sp_payload q)).
  { destruct (taken_app a pre [] (q :: p :: post)) as (l & ->). cbn [taken]. rewrite Hq, Hp, E, Z.eqb_refl. cbv zeta.
    unfold meant. rewrite filter_app, map_app, app_length. fold (meant a pre). rewrite <- (taken_length a pre []).
    rewrite nth_error_app2 by lia. replace (_ + _ - _)%nat with (length (map (fun s => (sp_pusi s, sp_payload s)) (filter (fun s => sp_pid s =? a) [q]))) by lia.
    cbn [filter]. destruct (sp_pid q =? a); reflexivity. }
  split; [|exact T]. intro C. rewrite C in T. unfold meant in T. replace (pre ++ q :: p :: post) with ((pre ++ [q]) ++ p :: post) in T by now rewrite <- app_assoc.
  rewrite filter_app, map_app, nth_error_app2, Nat.sub_diag in T by lia. cbn [filter] in T. rewrite E, Z.eqb_refl in T. cbn [map nth_error] in T.
  rewrite (no_payload p Hp) in T. apply Nq. congruence.
Qed.

Example C128_demux_hyp : Forall wf_sp ([] ++ ex_p1 :: ex_p3 :: [ex_p4]) /\ has_payload ex_p1 = true /\ sp_payload ex_p1 <> [] /\ has_payload ex_p3 = false /\ sp_pid ex_p3 = 17 /\
  exists s, star (dstep [IsPID 256; IsPID 17] always_true always_true) (d_init (setb ex_src (enc_sps ([] ++ ex_p1 :: ex_p3 :: [ex_p4])))) s /\ (1 < d_closed s)%nat /\
    map seen (received 1 (d_log s)) = [(sp_pusi ex_p3, sp_payload ex_p1)] /\ meant 17 ([] ++ ex_p1 :: ex_p3 :: [ex_p4]) = [(sp_pusi ex_p3, [])].
Proof.
  destruct C128_hyp as (W & H1 & H2 & H3 & H4 & _). repeat (split; [assumption|]).
  destruct (C15_can_end [IsPID 256; IsPID 17] always_true always_true (setb ex_src (enc_sps ([] ++ ex_p1 :: ex_p3 :: [ex_p4]))) _ eq_refl (star_refl _ _)) as (s & H & E). exists s. split; [exact H|].
  destruct (C15_encoded _ ex_src eq_refl W) as (ps & P & _). destruct (C15_done _ _ _ _ _ _ _ P H) as (_ & D & F). destruct (F (proj2 D E)) as (C & _).
  assert (C1 : (1 < d_closed s)%nat) by (rewrite C; cbn; lia). split; [exact C1|]. split; [|reflexivity].
  rewrite (C128_demux_partial [IsPID 256; IsPID 17] 1 17 _ ex_src s W eq_refl eq_refl H C1). reflexivity.
Qed.

Print Assumptions C128_demux_partial.
Print Assumptions C128_demux_refuted.
