(** PropertiesWindow: C110, ts.NewPayloadReader with SkipUntil and TakeWhile over any bytes. *)
From Verif Require Import Base BitReader Exec Local TsModel TsReaders TsRobust Mono SpecUnitTape UnitTapeProofs SpecWindow WindowProofs.

(** ** C110 *)
(** [log packet_next k (zero_packet, r) l s]: k calls of Next on the source [r], beginning with a new Packet, leave the
    packets and errors [l].  Whatever the source - damaged, cut, failing and going on -, the reads give what [window_reads]
    makes of them. *)
Theorem C110_delivers : forall skip (w t : tester) r k l s sizes outs fuel,
  log packet_next k (zero_packet, r) l s -> window_reads skip w t sizes l = Some outs -> (k <= fuel)%nat ->
  pr_reads fuel sizes (window_reader skip w t r) = map Ok outs.
Proof. intros skip w t r k l s sizes outs fuel L W Lk. eapply window_log; eauto. Qed.

(** The other way round: reads that return come from such calls. *)
Theorem C110_only : forall skip (w t : tester) r sizes outs fuel, pr_reads fuel sizes (window_reader skip w t r) = map Ok outs ->
  exists k l s, log packet_next k (zero_packet, r) l s /\ window_reads skip w t sizes l = Some outs.
Proof. intros skip w t r sizes outs fuel H. eapply window_calls; eauto. Qed.

(** Over a source that ends for good every Read returns, unless a call of Next panics (see C97); with SkipUntil(u), if some
    call leaves a packet that [u] accepts. *)
Theorem C110_returns : forall skip (w t : tester) r sizes k l s fuel, rlater r = [] -> log packet_next k (zero_packet, r) l s ->
  match skip with None => True | Some u => exists p o, In (p, o) l /\ u p = true end -> (k + length (rbits r) < fuel)%nat ->
  (exists outs, pr_reads fuel sizes (window_reader skip w t r) = map Ok outs) \/
  (exists k l s, log packet_next k (zero_packet, r) l s /\ fst (packet_next s) = Panic).
Proof.
  intros skip w t r sizes k l s fuel Hr L M Hf. apply (window_total skip w t r sizes k l s fuel Hr L); auto. destruct skip as [u|]; [|exact I].
  destruct M as (p & o & HI & U). clear L. induction l as [|[q x] l IH]; [destruct HI|]. cbn [skipped]. destruct (u q) eqn:Q; [discriminate|].
  destruct HI as [E|HI]; [|now apply IH]. assert (q = p) as -> by congruence. congruence.
Qed.
(** And otherwise the first Read never returns, whatever the source. *)
Theorem C110_stuck : forall u (w t : tester) r, (forall k l s, log packet_next k (zero_packet, r) l s -> forall p o, In (p, o) l -> u p = false) ->
  forall fuel n out, fst (pr_read fuel n (window_reader (Some u) w t r)) <> Ok out.
Proof.
  intros u w t r H fuel n out E. destruct (C110_only (Some u) w t r [n] [out] fuel) as (k & l & s & L & W).
  - cbn [pr_reads map]. destruct (pr_read fuel n (window_reader (Some u) w t r)) as [x s2]. cbn [fst] in E. now rewrite E.
  - specialize (H k l s L). unfold window_reads in W. assert (N : skipped u l = None); [|rewrite N in W; discriminate].
    clear L W. induction l as [|[q x] l IH]; [reflexivity|]. cbn [skipped]. rewrite (H q x) by (now left). apply IH. intros p o HI. apply (H p o). now right.
Qed.

(** After the first Read, whatever it returned, SkipUntil has no effect. *)
Theorem C110_too_late : forall s n fuel u fuel2 sizes, 
  let s1 := snd (pr_read fuel n s) in pr_reads fuel2 sizes (pr_skip_until u s1) = pr_reads fuel2 sizes s1.
Proof. intros. apply reads_skip, read_begins. Qed.

(** Packets of PID 33, of PID 34 with the start of a unit, of PID 33, damage, PID 33, PID 35, PID 33: the reader skips
    to the start of a unit and delivers the payload of PID 34 although it was asked for PID 33; it goes on after the error;
    it ends at PID 35. *)
Definition wx_pkt (b1 pid d : Z) : list Z := 71 :: b1 :: pid :: 16 :: repeat d 184.
Definition wx_source : reader :=
  mkR (bb (wx_pkt 0 33 1 ++ wx_pkt 64 34 2 ++ wx_pkt 0 33 3 ++ repeat 0 188 ++ wx_pkt 0 33 4 ++ wx_pkt 0 35 5 ++ wx_pkt 0 33 6)) EEOF [] (fun _ _ => EUnexpectedEOF).
Definition wx_reads : list (list Z * option err) :=
  [(repeat 2 100, None); (repeat 2 84 ++ repeat 3 16, None); (repeat 3 168, Some ErrNoSyncByte); (repeat 4 184, Some EEOF); ([], Some EEOF)].
Definition wx_sizes : list nat := [100; 100; 200; 200; 200]%nat.
Example C110_hyp : exists l s, log packet_next 6 (zero_packet, wx_source) l s /\
  window_reads (Some IsPayloadUnitStart) (IsPID 33) (t_not (IsPID 35)) wx_sizes l = Some wx_reads /\
  (exists p o, In (p, o) l /\ IsPayloadUnitStart p = true) /\ rlater wx_source = [] /\
  pr_reads 6 wx_sizes (window_reader (Some IsPayloadUnitStart) (IsPID 33) (t_not (IsPID 35)) wx_source) = map Ok wx_reads.
Proof.
  destruct (fst (run_log 6 (zero_packet, wx_source))) as [l0|] eqn:E; [|vm_compute in E; discriminate].
  pose proof (run_log_ok 6 (zero_packet, wx_source) l0 E) as L. exists l0. eexists. split; [exact L|].
  assert (W : window_reads (Some IsPayloadUnitStart) (IsPID 33) (t_not (IsPID 35)) wx_sizes l0 = Some wx_reads).
  { assert (S1 : option_map (window_reads (Some IsPayloadUnitStart) (IsPID 33) (t_not (IsPID 35)) wx_sizes) (fst (run_log 6 (zero_packet, wx_source))) = Some (Some wx_reads)) by (vm_compute; reflexivity).
    rewrite E in S1. cbn [option_map] in S1. congruence. }
  split; [exact W|]. split.
  { assert (S2 : option_map (existsb (fun x => IsPayloadUnitStart (fst x))) (fst (run_log 6 (zero_packet, wx_source))) = Some true) by (vm_compute; reflexivity).
    rewrite E in S2. cbn [option_map] in S2. assert (X : existsb (fun x => IsPayloadUnitStart (fst x)) l0 = true) by congruence. apply existsb_exists in X as ([p o] & I1 & I2). exists p, o. auto. }
  split; [reflexivity|]. eapply C110_delivers; [exact L | exact W | lia].
Qed.
(** An empty source and SkipUntil(IsPID(99)): no call leaves such a packet. *)
Example C110_hyp_stuck : forall k l s, log packet_next k (zero_packet, mkR [] EEOF [] (fun _ _ => EUnexpectedEOF)) l s -> forall p o, In (p, o) l -> IsPID 99 p = false.
Proof.
  assert (G : forall p0 p s, packet_next (p0, mkR [] EEOF [] (fun _ _ => EUnexpectedEOF)) = (p, s) -> p = Err EEOF /\ s = (p0, mkR [] EEOF [] (fun _ _ => EUnexpectedEOF))).
  { intros p0 p s H. assert (X : packet_next (p0, mkR [] EEOF [] (fun _ _ => EUnexpectedEOF)) = (Err EEOF, (p0, mkR [] EEOF [] (fun _ _ => EUnexpectedEOF)))) by reflexivity. rewrite X in H. split; congruence. }
  intros k l s H. remember (zero_packet, mkR [] EEOF [] (fun _ _ => EUnexpectedEOF)) as st eqn:Es.
  induction H as [st|k st q src l s' E H IH|k st e q src l s' E H IH]; intros p o HI; [destruct HI| |]; subst st.
  - destruct (G _ _ _ E) as (X & _). discriminate.
  - destruct (G _ _ _ E) as (_ & Y). destruct HI as [Q|HI].
    + assert (p = zero_packet) as -> by congruence. reflexivity.
    + eapply IH; [exact Y | exact HI].
Qed.

Print Assumptions C110_delivers.
Print Assumptions C110_only.
Print Assumptions C110_returns.
Print Assumptions C110_stuck.
Print Assumptions C110_too_late.
