(** PropertiesTsConc: C15 - C18, the goroutines of packages ts and pes under every schedule. *)
From Verif Require Import Base BitReader Exec Local TsModel SpecTs TsProofs TsLocal TsRobust TsReaders TsDefects
  Mono Conc ConcProofs PropertiesTs.

(** ** C15 *)
(** [parsed (zero_packet, r) ps x]: successive calls of Next on the source give the packets [ps], then end with [x].
    Every source has such a [ps]. *)
Theorem C15_source : forall r, rlater r = [] -> exists ps x, parsed (zero_packet, r) ps x.
Proof. intros. now apply parsed_total. Qed.

(** At every moment of every schedule, the packets received from the channel of the i-th Where are a prefix of
    those of the window that satisfy its tester; a receive that finds the channel closed comes after all of them. *)
Theorem C15_prefix : forall ts skip take r ps x s i t, parsed (zero_packet, r) ps x ->
  star (dstep ts skip take) (d_init r) s -> nth_error ts i = Some t ->
  exists more, received i (d_log s) ++ more = filter t (window skip take ps).
Proof.
  intros ts skip take r ps x s i t HP Hs Hi.
  pose proof (d_inv_star _ _ _ _ _ _ _ HP Hs) as I.
  rewrite <- (received_all ts i t _ Hi).
  unfold d_inv in I. destruct (d_pc s).
  - destruct I as (rest & _ & E & _). rewrite E, received_app. eauto.
  - destruct I as (rest & _ & E & _). rewrite E, received_app. eauto.
  - destruct I as (E & _). rewrite E. exists []. now rewrite app_nil_r.
  - destruct I as (E & _). rewrite E. exists []. now rewrite app_nil_r.
  - destruct I as (E & _). rewrite E. exists []. now rewrite app_nil_r.
Qed.
(** Whenever a channel is closed, its receivers have had everything. *)
Theorem C15_closed_complete : forall ts skip take r ps x s i t, parsed (zero_packet, r) ps x ->
  star (dstep ts skip take) (d_init r) s -> nth_error ts i = Some t -> (i < d_closed s)%nat ->
  received i (d_log s) = filter t (window skip take ps).
Proof.
  intros ts skip take r ps x s i t HP Hs Hi Hc.
  pose proof (d_inv_star _ _ _ _ _ _ _ HP Hs) as I.
  rewrite <- (received_all ts i t _ Hi).
  unfold d_inv in I. destruct (d_pc s).
  - destruct I as (rest & _ & _ & _ & _ & _ & C & _). lia.
  - destruct I as (rest & _ & _ & _ & _ & _ & _ & C & _). lia.
  - destruct I as (E & _). now rewrite E.
  - destruct I as (E & _). now rewrite E.
  - destruct I as (E & _). now rewrite E.
Qed.
(** [true] is received from done at most once, and then everything was delivered, every channel is closed and
    Err is the error that ended the stream, nil if TakeWhile ended it. *)
Theorem C15_done : forall ts skip take r ps x s, parsed (zero_packet, r) ps x ->
  star (dstep ts skip take) (d_init r) s ->
  (d_dones s <= 1)%nat /\
  (d_dones s = 1%nat <-> d_pc s = PEnd) /\
  (d_dones s = 1%nat ->
     d_closed s = length ts /\
     (forall i t, nth_error ts i = Some t -> received i (d_log s) = filter t (window skip take ps)) /\
     d_err s = (if stopped skip take ps then None else match x with Err e => Some e | _ => None end)).
Proof.
  intros ts skip take r ps x s HP Hs.
  pose proof (d_inv_star _ _ _ _ _ _ _ HP Hs) as I. unfold d_inv in I. destruct (d_pc s).
  - destruct I as (rest & _ & _ & _ & _ & _ & _ & D). rewrite D. repeat split; try lia; discriminate.
  - destruct I as (rest & _ & _ & _ & _ & _ & _ & _ & D). rewrite D. repeat split; try lia; discriminate.
  - destruct I as (_ & _ & _ & _ & _ & D). rewrite D. repeat split; try lia; discriminate.
  - destruct I as (_ & _ & _ & _ & D). rewrite D. repeat split; try lia; discriminate.
  - destruct I as (E & He & Hp & Hc & D). rewrite D. split; [lia|]. split; [tauto|]. intros _.
    split; auto. split; auto. intros i t Hi. rewrite <- E. now apply received_all.
Qed.
(** Nothing else can stop it: it can step unless it waits for a receiver of a channel or of done ... *)
Theorem C15_progress : forall ts skip take s,
  (exists s', down ts skip take s s') \/
  (exists i t, d_pc s = PSend i /\ nth_error ts i = Some t /\ d_wait s i = 0%nat) \/
  (d_pc s = PDone /\ d_waitdone s = 0%nat) \/ d_pc s = PEnd.
Proof. exact d_progress. Qed.
(** ... and it takes a bounded number of steps in all, whatever the receivers do. *)
Theorem C15_bounded : forall ts skip take ps x r k s, parsed (zero_packet, r) ps x ->
  drun ts skip take k (d_init r) s -> (k <= length ps * (length ts + 2) + length ts + 3)%nat.
Proof. intros ts skip take ps x r k s HP H. destruct (d_run_bound _ _ _ _ _ _ _ _ HP H) as (m & _ & L). lia. Qed.
(** On a stream of encoded packets, [ps] are these packets: same header, adaptation field and payload. *)
Theorem C15_encoded : forall ss r, rlater r = [] -> Forall wf_sp ss ->
  exists ps, parsed (zero_packet, setb r (enc_sps ss)) ps (Err (rfin r)) /\
    map view ps = map (fun s => view (go_packet s)) ss.
Proof. intros. now apply parsed_enc. Qed.
(** Every run can be completed. *)
Theorem C15_can_end : forall ts skip take r s, rlater r = [] -> star (dstep ts skip take) (d_init r) s ->
  exists s', star (dstep ts skip take) s s' /\ d_pc s' = PEnd.
Proof.
  intros ts skip take r s Hr H. destruct (parsed_total r zero_packet Hr) as (ps & x & HP).
  destruct (d_star_run _ _ _ _ _ H) as (k & HR).
  destruct (d_run_bound _ _ _ _ _ _ _ _ HP HR) as (m & HL & _).
  eapply d_can_end; eauto.
Qed.
(** A complete run: two channels, one packet for both and one for the second. *)
Example C15_run : exists ps s, parsed (zero_packet, setb ex_src (enc_sps [ex_p1; ex_p3])) ps (Err EEOF) /\
  star (dstep [IsPID 256; always_true] always_true always_true) (d_init (setb ex_src (enc_sps [ex_p1; ex_p3]))) s /\
  d_pc s = PEnd /\ length (received 0 (d_log s)) = 1%nat /\ length (received 1 (d_log s)) = 2%nat.
Proof.
  set (q1 := over_packet zero_packet ex_p1). set (q3 := over_packet q1 ex_p3).
  assert (E1 : packet_next (zero_packet, setb ex_src (enc_sps [ex_p1; ex_p3])) = (Ok tt, (q1, setb ex_src (enc_sps [ex_p3]))))
    by (apply next_cons; [apply ex_p1_wf | wfs]).
  assert (E2 : packet_next (q1, setb ex_src (enc_sps [ex_p3])) = (Ok tt, (q3, setb ex_src (enc_sps []))))
    by (apply next_cons; [apply ex_p3_wf | wfs]).
  assert (E3 : packet_next (q3, setb ex_src (enc_sps [])) = (Err EEOF, (q3, setb ex_src []))) by (now apply next_nil).
  assert (HP : parsed (zero_packet, setb ex_src (enc_sps [ex_p1; ex_p3])) [q1; q3] (Err EEOF)).
  { eapply (parsed_cons _ (q1, _)); [exact E1|]. eapply (parsed_cons _ (q3, _)); [exact E2|].
    eapply parsed_end; [exact E3 | discriminate]. }
  destruct (C15_can_end [IsPID 256; always_true] always_true always_true
              (setb ex_src (enc_sps [ex_p1; ex_p3])) _ eq_refl (star_refl _ _)) as (s & Hs & Hpc).
  exists [q1; q3], s. split; auto. split; auto. split; auto.
  destruct (C15_done _ _ _ _ _ _ _ HP Hs) as (_ & HD & HF).
  destruct (HF (proj2 HD Hpc)) as (_ & HR & _).
  rewrite (HR 0%nat _ eq_refl), (HR 1%nat _ eq_refl). split; reflexivity.
Qed.

(** ** C16: refuted *)
(** Every packet handed over is the same Packet, which the demuxer goes on filling. In some schedule a receiver holds a
    packet whose content is no longer what it received. *)
Theorem C16_refuted : exists ts r s c i, star (dstep ts always_true always_true) (d_init r) s /\
  In (i, c) (d_log s) /\ pk_payload c = sp_payload ex_p1 /\ pk_payload (d_pkt s) = sp_payload ex_p4.
Proof.
  set (q1 := over_packet zero_packet ex_p1). set (q4 := over_packet q1 ex_p4).
  assert (E1 : packet_next (zero_packet, setb ex_src (enc_sps [ex_p1; ex_p4])) = (Ok tt, (q1, setb ex_src (enc_sps [ex_p4]))))
    by (apply next_cons; [apply ex_p1_wf | wfs]).
  assert (E2 : packet_next (q1, setb ex_src (enc_sps [ex_p4])) = (Ok tt, (q4, setb ex_src (enc_sps []))))
    by (apply next_cons; [apply ex_p4_wf | wfs]).
  set (s0 := d_init (setb ex_src (enc_sps [ex_p1; ex_p4]))).
  set (s1 := d_arrive s0 0).
  assert (N1 : d_next always_true always_true s1 = d_at s1 (PSend 0) q1 (setb ex_src (enc_sps [ex_p4])) false None false).
  { unfold d_next. change (d_pkt s1, d_br s1) with (zero_packet, setb ex_src (enc_sps [ex_p1; ex_p4])). rewrite E1. reflexivity. }
  set (s2 := d_at s1 (PSend 0) q1 (setb ex_src (enc_sps [ex_p4])) false None false) in *.
  set (s3 := d_recv s2 (PSend 1) 0). set (s4 := d_goto s3 PNext).
  assert (N2 : d_next always_true always_true s4 = d_at s4 (PSend 0) q4 (setb ex_src (enc_sps [])) false None false).
  { unfold d_next. change (d_pkt s4, d_br s4) with (q1, setb ex_src (enc_sps [ex_p4])). rewrite E2. reflexivity. }
  exists [always_true], (setb ex_src (enc_sps [ex_p1; ex_p4])).
  exists (d_at s4 (PSend 0) q4 (setb ex_src (enc_sps [])) false None false), q1, 0%nat.
  split; [|split; [|split]].
  - rewrite <- N2. eapply star_step; [|left; apply st_next; reflexivity].
    eapply star_step; [|left; apply (st_loop _ _ _ s3 1); reflexivity].
    eapply star_step; [|left; apply (st_send _ _ _ s2 0 always_true); try reflexivity; cbn; lia].
    rewrite <- N1. eapply star_step; [|left; apply st_next; reflexivity].
    eapply star_step; [|right; apply (st_arrive s0 0)]. apply star_refl.
  - cbn. left. reflexivity.
  - apply over_payload. reflexivity.
  - apply over_payload. reflexivity.
Qed.
(** Until the goroutine's next step the content is as received: the receiver of the last packet may use it
    while the demuxer waits for the following receiver. *)
Theorem C16_until_next_partial : forall ts skip take s s', dstep ts skip take s s' -> d_pc s <> PNext ->
  d_pkt s' = d_pkt s.
Proof.
  intros ts skip take s s' [H|H] N; destruct H; try congruence; reflexivity.
Qed.

(** ** C17 *)
(** [payload]: the field Payload of ts.Packet or pes.Packet; the two adapters are the same code. *)
Theorem C17_order : forall A (payload : A -> list Z) input s,
  star (astep (payload_only payload)) (a_init tt input) s ->
  exists more, a_log s ++ more = map payload input.
Proof.
  intros A payload input s H. destruct (a_inv_star _ _ _ _ _ _ _ H) as (E & _).
  rewrite outputs_payload_only in E. rewrite E. eauto.
Qed.
(** The output is closed only after everything was received; a receive that finds it closed comes after that. *)
Theorem C17_closed : forall A (payload : A -> list Z) input s,
  star (astep (payload_only payload)) (a_init tt input) s ->
  (a_closed s = true \/ (0 < a_eofs s)%nat) -> a_log s = map payload input.
Proof.
  intros A payload input s H C. destruct (a_inv_star _ _ _ _ _ _ _ H) as (E & T & CL & EO).
  rewrite outputs_payload_only in E.
  assert (P : a_pc s = AEnd).
  { apply CL. destruct C as [C|C]; auto. destruct (a_closed s) eqn:Q; auto. rewrite EO in C by auto. lia. }
  rewrite E, (T (or_intror P)), P. cbn. now rewrite app_nil_r.
Qed.
Theorem C17_progress : forall A (payload : A -> list Z) s,
  (exists s', astep (payload_only payload) s s' /\ a_pc s <> AEnd) \/
  (exists b, a_pc s = ASend b /\ a_wait s = 0%nat) \/ a_pc s = AEnd.
Proof. intros. apply a_progress. Qed.
Example C17_run : exists s, star (astep (payload_only pk_payload)) (a_init tt [go_packet ex_p1]) s /\
  a_closed s = true /\ a_log s = [sp_payload ex_p1].
Proof.
  eexists. split.
  - eapply star_step; [eapply star_step; [eapply star_step; [eapply star_step; [eapply star_step; [apply star_refl|]|]|]|]|].
    + apply as_arrive.
    + eapply as_recv; reflexivity.
    + eapply as_send; [reflexivity | cbn; lia].
    + apply as_inclosed; reflexivity.
    + apply as_close; reflexivity.
  - split; [reflexivity|]. change ([pk_payload (go_packet ex_p1)] = [sp_payload ex_p1]). now rewrite go_payload.
Qed.

(** ** C18: refuted *)
(** Under every schedule, for every packet sequence, nothing is ever delivered. *)
Theorem C18_refuted : forall input s, star (astep payload_unit) (a_init ([], false) input) s -> a_log s = [].
Proof.
  intros input s H. destruct (a_inv_star _ _ _ _ _ _ _ H) as (E & _).
  rewrite outputs_payload_unit in E. symmetry in E. apply app_eq_nil in E. tauto.
Qed.
(** It is closed properly all the same: it never blocks on a send. *)
Theorem C18_never_blocks_partial : forall input s, star (astep payload_unit) (a_init ([], false) input) s ->
  forall b, a_pc s <> ASend b.
Proof.
  intros input s H b P. destruct (a_inv_star _ _ _ _ _ _ _ H) as (E & _).
  rewrite outputs_payload_unit, P in E. symmetry in E. apply app_eq_nil in E. destruct E as [_ E]. discriminate.
Qed.

Print Assumptions C15_done.
Print Assumptions C15_bounded.
Print Assumptions C16_refuted.
Print Assumptions C17_closed.
Print Assumptions C18_refuted.
