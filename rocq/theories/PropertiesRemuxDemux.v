(** PropertiesRemuxDemux: C126 for the demuxer - streams multiplexed anew. *)
From Coq Require Import Lia.
From Verif Require Import Base BitReader TsModel SpecTs SpecIO SpecRemux TsProofs TsReaders PropertiesTs Conc ConcProofs PropertiesTsConc PropertiesRemux PropertiesAgree.

(** What a receiver of a packet sees of it: whether it starts a payload unit, and its payload *)
Definition seen (p : packet) : bool * list Z := (pk_pusi p, pk_payload p).

Lemma view_seen : forall p s, view p = view (go_packet s) -> has_payload s = true -> seen p = (sp_pusi s, sp_payload s).
Proof.
  intros p s V H. unfold view in V. assert (E2 : pk_pusi p = pk_pusi (go_packet s)) by congruence. assert (E6 : pk_afc p = pk_afc (go_packet s)) by congruence.
  assert (E9 : (if has_pl_bits (pk_afc p) then pk_payload p else []) = (if has_pl_bits (pk_afc (go_packet s)) then pk_payload (go_packet s) else [])) by congruence.
  rewrite E6 in E9. unfold seen. clear V.
  assert (A : has_pl_bits (pk_afc (go_packet s)) = true) by (unfold has_payload in H; destruct s as [x1 x2 x3 x4 x5 x6 [d|f|f d] ]; cbn in *; [reflexivity | discriminate H | reflexivity]).
  rewrite A in E9. rewrite E2, E9. now rewrite go_payload.
Qed.
Lemma filter_seen : forall a ps ss, map view ps = map (fun s => view (go_packet s)) ss -> Forall (fun s => sp_pid s = a -> has_payload s = true) ss ->
  map seen (filter (IsPID a) ps) = map (fun s => (sp_pusi s, sp_payload s)) (filter (fun s => sp_pid s =? a) ss).
Proof.
  intros a ps. induction ps as [|p ps IH]; intros [|s ss] E F; try discriminate E; [reflexivity|]. cbn [map] in E.
  assert (E1 : view p = view (go_packet s)) by congruence. assert (E2 : map view ps = map (fun s => view (go_packet s)) ss) by congruence.
  apply Forall_cons_iff in F. destruct F as [F1 F2]. cbn [filter]. rewrite (ok_IsPID a _ _ E1). change (IsPID a (go_packet s)) with (sp_pid s =? a).
  destruct (sp_pid s =? a) eqn:P; [|now apply IH]. cbn [map]. rewrite (IH ss E2 F2). f_equal. apply view_seen; [exact E1 | apply F1; lia].
Qed.
Lemma remux_seen : forall a b ps qs, remuxed a b ps qs ->
  map (fun s => (sp_pusi s, sp_payload s)) (filter (fun s => sp_pid s =? a) ps) = map (fun s => (sp_pusi s, sp_payload s)) (filter (fun s => sp_pid s =? b) qs).
Proof.
  intros a b ps qs R. induction R as [|p ps qs N R IH|q ps qs N R IH|p q ps qs E1 E2 E3 E4 R IH]; [reflexivity|..]; cbn [filter].
  - replace (sp_pid p =? a) with false by lia. exact IH.
  - replace (sp_pid q =? b) with false by lia. exact IH.
  - rewrite E1, E2, !Z.eqb_refl. cbn [map]. now rewrite E3, E4, IH.
Qed.
Lemma demuxed : forall ts i a ss r s, with_payload a ss -> rlater r = [] -> nth_error ts i = Some (IsPID a) ->
  star (dstep ts always_true always_true) (d_init (setb r (enc_sps ss))) s -> (i < d_closed s)%nat ->
  map seen (received i (d_log s)) = map (fun s => (sp_pusi s, sp_payload s)) (filter (fun s => sp_pid s =? a) ss).
Proof.
  intros ts i a ss r s (W & F) L N H D. destruct (C15_encoded ss r L W) as (ps & P & V).
  rewrite (C15_closed_complete _ _ _ _ _ _ _ _ _ P H N D), window_all. now apply filter_seen.
Qed.

(** Two demuxers, each with any other channels beside that of the PID, each under any schedule.  Once both channels are closed, the
    packets received from them start units alike and have the same payloads, in the same order. *)
Theorem C126_demux : forall a b ps qs ts us i j r r' s t, remuxed a b ps qs -> with_payload a ps -> with_payload b qs -> rlater r = [] -> rlater r' = [] ->
  nth_error ts i = Some (IsPID a) -> nth_error us j = Some (IsPID b) ->
  star (dstep ts always_true always_true) (d_init (setb r (enc_sps ps))) s -> (i < d_closed s)%nat ->
  star (dstep us always_true always_true) (d_init (setb r' (enc_sps qs))) t -> (j < d_closed t)%nat ->
  map seen (received j (d_log t)) = map seen (received i (d_log s)).
Proof.
  intros a b ps qs ts us i j r r' s t R WA WB L L' N N' H D H' D'.
  rewrite (demuxed us j b qs r' t), (demuxed ts i a ps r s) by auto. symmetry. now apply remux_seen.
Qed.
(** A packet sent twice is received twice from the channel of its PID (C127 for the demuxer). *)
Theorem C127_demux_refuted : forall a pre p post ts i r s, with_payload a (pre ++ p :: p :: post) -> sp_pid p = a -> rlater r = [] -> nth_error ts i = Some (IsPID a) ->
  star (dstep ts always_true always_true) (d_init (setb r (enc_sps (pre ++ p :: p :: post)))) s -> (i < d_closed s)%nat ->
  exists before after, map seen (received i (d_log s)) = before ++ (sp_pusi p, sp_payload p) :: (sp_pusi p, sp_payload p) :: after /\
    length before = length (filter (fun s => sp_pid s =? a) pre) /\ length after = length (filter (fun s => sp_pid s =? a) post).
Proof.
  intros a pre p post ts i r s W E L N H D. rewrite (demuxed ts i a _ r s W L N H D), filter_app, map_app. cbn [filter]. rewrite E, Z.eqb_refl. cbn [map].
  eexists. eexists. split; [reflexivity|]. now rewrite !map_length.
Qed.

Example C126_demux_hyp : remuxed 256 300 [ex_p1; ex_p2; ex_p3; ex_p4] [rm_p1; rm_p2; ex_p1; rm_p4] /\
  (exists s, star (dstep [IsPID 256; always_true] always_true always_true) (d_init (setb ex_src (enc_sps [ex_p1; ex_p2; ex_p3; ex_p4]))) s /\ (0 < d_closed s)%nat /\
     map seen (received 0 (d_log s)) = map (fun s => (sp_pusi s, sp_payload s)) [ex_p1; ex_p2; ex_p4]) /\
  exists t, star (dstep [IsPID 256; IsPID 300] always_true always_true) (d_init (setb ex_src (enc_sps [rm_p1; rm_p2; ex_p1; rm_p4]))) t /\ (1 < d_closed t)%nat.
Proof.
  destruct C126_hyp as (R & WA & WB). split; [exact R|].
  assert (G : forall ts ss, Forall wf_sp ss -> exists s, star (dstep ts always_true always_true) (d_init (setb ex_src (enc_sps ss))) s /\ d_closed s = length ts).
  { intros ts ss W. destruct (C15_can_end ts always_true always_true (setb ex_src (enc_sps ss)) _ eq_refl (star_refl _ _)) as (s & H & E). exists s. split; [exact H|].
    destruct (C15_encoded ss ex_src eq_refl W) as (ps & P & _). destruct (C15_done _ _ _ _ _ _ _ P H) as (_ & D & F). apply F. now apply D. }
  split.
  - destruct (G [IsPID 256; always_true] _ (proj1 WA)) as (s & H & C). exists s. assert (C0 : (0 < d_closed s)%nat) by (rewrite C; cbn; lia). split; [exact H|]. split; [exact C0|].
    rewrite (demuxed [IsPID 256; always_true] 0 256 _ ex_src s WA eq_refl eq_refl H C0). reflexivity.
  - destruct (G [IsPID 256; IsPID 300] _ (proj1 WB)) as (t & H & C). exists t. split; [exact H|]. rewrite C. cbn. lia.
Qed.

Print Assumptions C126_demux.
Print Assumptions C127_demux_refuted.
