(** PropertiesDecoder: C113 - exactly what ps.Decoder delivers over any bytes, under every schedule.
    [star gstep (g_init r) s]: [s] is reached over the source [r] by some schedule of the decoder's goroutines and its consumers.
    [g_procs s]: the packs begun; of each [q_head]: its header, [q_log]: the packets received from Packets(), [q_closed]: Packets() is closed.
    [g_log s]: the packs received from Packs(), [g_closed s]: Packs() is closed, [g_dones s]: what was received from done, [g_err s]: Err(). *)
From Coq Require Import Lia.
From Verif Require Import Base BitReader Exec Mono PesModel PsModel Conc PsConc PropertiesPes SpecDecoder DecoderProofs.

(** Over a source that is read to its end: at every moment the packs begun are the first ones of the source, the packets received from each its
    first ones, and all of them once Packets() is closed; once Packs() is closed all packs were received, in order, with all packets; done is
    true if and only if the end code ended the packs. *)
Theorem C113_delivers : forall r packs e s, program r packs e -> star gstep (g_init r) s ->
  g_crash s = false /\
  (forall j q, nth_error (g_procs s) j = Some q ->
     exists ps more, nth_error packs j = Some (q_head q, ps) /\ ps = q_log q ++ more /\ (q_closed q = true -> more = [])) /\
  (g_closed s = true -> g_err s = e /\ g_log s = seq 0 (length packs) /\ length (g_procs s) = length packs /\
     Forall (fun q => q_closed q = true) (g_procs s)) /\
  (g_dones s <> [] -> g_closed s = true /\ g_dones s = [match e with None => true | Some _ => false end]).
Proof. exact received_fine. Qed.
(** Every run can be completed. *)
Theorem C113_completes : forall r packs e s, rlater r = [] -> program r packs e -> star gstep (g_init r) s ->
  exists s', star gstep s s' /\ g_closed s' = true /\ g_dones s' = [match e with None => true | Some _ => false end] /\ g_doneclosed s' = true.
Proof.
  intros r packs e s Hr P H. destruct (can_end r s Hr H) as (s' & S1 & S2 & _); [intros t Ht; apply (received_fine r packs e t P Ht)|].
  exists s'. split; [exact S1|]. assert (S3 := star_trans _ _ _ _ _ H S1). pose proof (gInv_reach r s' S3) as G. pose proof (i_done s' G) as D. pose proof (i_doneclosed s' G) as D'.
  destruct (received_fine r packs e s' P S3) as (_ & _ & _ & F). rewrite S2 in D, D'. destruct D as (D1 & D2). destruct F as (F1 & F2); [rewrite D2; discriminate | auto].
Qed.

(** Over a source with a packet at which NewPacket panics: the packs before it, and the packets before it in its pack, are received as they
    are in the source; the run cannot end but by that panic. *)
Theorem C113_panics : forall r packs h ps s, program_dies r packs h ps -> star gstep (g_init r) s ->
  (forall j q, nth_error (g_procs s) j = Some q -> (j <= length packs)%nat ->
     exists ps' more, nth_error (packs ++ [(h, ps)]) j = Some (q_head q, ps') /\ ps' = q_log q ++ more) /\
  ((0 < g_wait s)%nat -> (0 < g_waitdone s)%nat -> Forall (fun q => 0 < q_wait q)%nat (g_procs s) -> g_crash s = true \/ exists s', gown s s').
Proof.
  intros r packs h ps s P H. destruct (received_panic r packs h ps s P H) as (A & B). split; [exact A|]. intros W1 W2 W3.
  destruct (g_crash s) eqn:C; [now left | right]. destruct (no_deadlock s (gInv_reach r s H)) as [(F1 & F2) | F]; [split; auto | | exact F]. now destruct (B eq_refl F1).
Qed.

(** Every source is one or the other. *)
Theorem C113_total : forall r, rlater r = [] ->
  exists packs, (exists e, program r packs e) \/ exists h ps, program_dies r packs h ps.
Proof. intros r Hr. destruct (prog_total (S (Mono.left r)) r Hr ltac:(lia)) as (packs & [e|[h ps] ] & P); exists packs; [left | right]; eauto. Qed.

(** * Examples *)
Definition dx_head : list Z := [0; 0; 1; 186; 68; 0; 4; 0; 4; 1; 1; 137; 195; 248].
Definition dx_pad : list Z := [0; 0; 1; 190; 0; 2; 255; 255].
(** Two packs, one with two packets, the other with none, and something that is no end code *)
Definition dx_fine : list bool := bb (dx_head ++ dx_pad ++ dx_pad ++ dx_head ++ [1; 2; 3; 4; 5]).
(** A packet, and then one with the flag of an ESCR *)
Definition dx_escr : list bool := bb (dx_head ++ dx_head ++ dx_pad ++ [0; 0; 1; 224; 0; 3; 128; 32; 0; 7; 7; 7; 7; 7; 7]).
Example C113_hyp : exists h p q, program (setb ex_reader dx_fine) [(h, [p; q]); (h, [])] (Some ErrProgramEndCodeNotFound).
Proof.
  do 3 eexists. eapply a_pack; [lazy; reflexivity | eapply body_more; [split; [lazy; reflexivity | eexists; split; [lazy; reflexivity | split; discriminate] ] | lazy; reflexivity |] |].
  - eapply body_more; [split; [lazy; reflexivity | eexists; split; [lazy; reflexivity | split; discriminate] ] | lazy; reflexivity |].
    apply body_end. eapply stops_code; [lazy; reflexivity | lazy; reflexivity | now right].
  - apply then_pack; [lazy; reflexivity|]. eapply a_pack; [lazy; reflexivity | apply body_end; eapply stops_prefix; [lazy; reflexivity | discriminate] |].
    eapply then_other; [lazy; reflexivity | discriminate | discriminate].
Qed.
Example C113_dies_hyp : exists h p, program_dies (setb ex_reader dx_escr) [(h, [])] h [p].
Proof.
  do 2 eexists. eapply in_later; [lazy; reflexivity | apply body_end; eapply stops_code; [lazy; reflexivity | lazy; reflexivity | now right] | lazy; reflexivity |].
  eapply in_this; [lazy; reflexivity|]. eapply dies_later; [split; [lazy; reflexivity | eexists; split; [lazy; reflexivity | split; discriminate] ] | lazy; reflexivity |].
  eapply dies_here; [split; [lazy; reflexivity | eexists; split; [lazy; reflexivity | split; discriminate] ] | lazy; reflexivity].
Qed.

Print Assumptions C113_delivers.
Print Assumptions C113_completes.
Print Assumptions C113_panics.
Print Assumptions C113_total.
