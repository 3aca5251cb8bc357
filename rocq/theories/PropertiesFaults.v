(** PropertiesFaults: C100, the payload readers of ts and pes over any bytes. *)
From Verif Require Import Base BitReader Exec Local TsModel TsReaders TsRobust Mono PesModel PesLocal PesReaders PsConc SpecFaults FaultProofs.

(** ** C100 *)
(** [calls packet_next (shown w) k (zero_packet, r) tape s]: k calls of Next on the source [r], beginning with a new
    Packet, give the bytes and errors [tape]: the payload of each packet that [w] accepts, and the errors, in order.
    Whatever the source - damaged, cut, failing and going on -, the reads give exactly that tape. *)
Theorem C100_ts_delivers : forall (w : tester) r k tape s sizes outs fuel,
  calls packet_next (fun p => if w p then pk_payload p else []) k (zero_packet, r) tape s ->
  tape_reads sizes tape = Some outs -> (k <= fuel)%nat ->
  pr_reads fuel sizes (new_preader r w) = map Ok outs.
Proof.
  intros w r k tape s sizes outs fuel C T L. rewrite (pr_reads_are w) by (unfold pr_plain, new_preader; cbn; auto).
  eapply greads_tape; [exact C | exact L | exact T].
Qed.

(** The other way round: reads that return come from such calls. *)
Theorem C100_ts_only : forall (w : tester) r sizes outs fuel, pr_reads fuel sizes (new_preader r w) = map Ok outs ->
  exists k tape s, calls packet_next (fun p => if w p then pk_payload p else []) k (zero_packet, r) tape s /\ tape_reads sizes tape = Some outs.
Proof.
  intros w r sizes outs fuel H. rewrite (pr_reads_are w) in H by (unfold pr_plain, new_preader; cbn; auto).
  apply greads_calls in H. exact H.
Qed.

(** Over a source that ends for good every Read returns, unless a call of Next panics (see C97). *)
Theorem C100_ts_returns : forall (w : tester) r sizes fuel, rlater r = [] -> (length (rbits r) < fuel)%nat ->
  (exists outs, pr_reads fuel sizes (new_preader r w) = map Ok outs) \/
  (exists k tape s1 s2, calls packet_next (fun p => if w p then pk_payload p else []) k (zero_packet, r) tape s1 /\ packet_next s1 = (Panic, s2)).
Proof.
  intros w r sizes fuel Hr Hl. rewrite (pr_reads_are w) by (unfold pr_plain, new_preader; cbn; auto).
  apply greads_total; auto.
  - intros p r0 p' r' R E. destruct (packet_next_strict _ _ _ _ R E) as (A & B & _). auto.
  - intros p r0 e p' r' R E. destruct (monop_packet_next (p, r0) _ _ R E) as (A & _ & B). auto.
  - intros p r0 F. destruct (packet_next (p, r0)) as [x s'] eqn:E. cbn [fst] in F. subst x. exact (packet_next_fuel _ _ E).
Qed.

Theorem C100_pes_delivers : forall r k tape s sizes outs fuel,
  calls pes_next pp_payload k (zero_pp, r) tape s -> tape_reads sizes tape = Some outs -> (k <= fuel)%nat ->
  es_reads fuel sizes (new_esreader r) = map Ok outs.
Proof. intros r k tape s sizes outs fuel C T L. rewrite es_reads_are. eapply greads_tape; [exact C | exact L | exact T]. Qed.

Theorem C100_pes_only : forall r sizes outs fuel, es_reads fuel sizes (new_esreader r) = map Ok outs ->
  exists k tape s, calls pes_next pp_payload k (zero_pp, r) tape s /\ tape_reads sizes tape = Some outs.
Proof. intros r sizes outs fuel H. rewrite es_reads_are in H. apply greads_calls in H. exact H. Qed.

Theorem C100_pes_returns : forall r sizes fuel, rlater r = [] -> (length (rbits r) < fuel)%nat ->
  (exists outs, es_reads fuel sizes (new_esreader r) = map Ok outs) \/
  (exists k tape s1 s2, calls pes_next pp_payload k (zero_pp, r) tape s1 /\ pes_next s1 = (Panic, s2)).
Proof.
  intros r sizes fuel Hr Hl. rewrite es_reads_are. apply greads_total; auto.
  - intros p r0 p' r' R E. destruct (pes_next_strict _ _ _ _ R E) as (A & B & _). split; [lia|exact B].
  - intros p r0 e p' r' R E. destruct (monop_pes_next (p, r0) _ _ R E) as (A & _ & B). auto.
  - intros p r0. apply pes_next_fuel.
Qed.

(** A packet of PID 33, one of PID 34, and the first eight bytes of a packet of PID 33.  The reads of 100 bytes get the
    first payload; then comes the error of the packet that is cut, then the end of the source. *)
Definition ex_source : reader :=
  mkR (bb (71 :: 0 :: 33 :: 16 :: repeat 7 184 ++ 71 :: 0 :: 34 :: 16 :: repeat 9 184 ++ [71; 0; 33; 16; 1; 2; 3; 4])) EEOF [] (fun _ _ => EUnexpectedEOF).
Definition ex_where : tester := fun p => pk_pid p =? 33.
Definition ex_tape : list symbol := map Byte (repeat 7 184) ++ [Fault EUnexpectedEOF; Fault EEOF].
Example C100_hyp :
  (exists s, calls packet_next (fun p => if ex_where p then pk_payload p else []) 4 (zero_packet, ex_source) ex_tape s) /\
  tape_reads [100; 100; 5]%nat ex_tape = Some [(repeat 7 100, None); (repeat 7 84, Some EUnexpectedEOF); ([], Some EEOF)] /\
  rlater ex_source = [] /\
  pr_reads 4 [100; 100; 5]%nat (new_preader ex_source ex_where) =
    [Ok (repeat 7 100, None); Ok (repeat 7 84, Some EUnexpectedEOF); Ok ([], Some EEOF)].
Proof.
  assert (C : exists s, calls packet_next (fun p => if ex_where p then pk_payload p else []) 4 (zero_packet, ex_source) ex_tape s)
    by (eexists; apply run_calls_ok; lazy; reflexivity).
  assert (T : tape_reads [100; 100; 5]%nat ex_tape = Some [(repeat 7 100, None); (repeat 7 84, Some EUnexpectedEOF); ([], Some EEOF)]) by (lazy; reflexivity).
  split; [exact C|]. split; [exact T|]. split; [reflexivity|]. destruct C as (s & C).
  exact (C100_ts_delivers ex_where ex_source 4 ex_tape s _ _ 4 C T (le_n 4)).
Qed.

(** The same for PES: a packet, then bytes that are no start code: the error comes again and again. *)
Definition ex_pes_source : reader :=
  mkR (bb [0; 0; 1; 224; 0; 6; 128; 0; 0; 5; 6; 7; 9; 9; 9; 9; 0; 0; 1; 224]) EEOF [] (fun _ _ => EUnexpectedEOF).
Example C100_hyp_pes :
  (exists s, calls pes_next pp_payload 3 (zero_pp, ex_pes_source) [Byte 5; Byte 6; Byte 7; Fault ErrStartCodePrefixNotFound; Fault ErrStartCodePrefixNotFound] s) /\
  es_reads 3 [2; 2; 2]%nat (new_esreader ex_pes_source) =
    [Ok ([5; 6], None); Ok ([7], Some ErrStartCodePrefixNotFound); Ok ([], Some ErrStartCodePrefixNotFound)].
Proof.
  assert (C : exists s, calls pes_next pp_payload 3 (zero_pp, ex_pes_source) [Byte 5; Byte 6; Byte 7; Fault ErrStartCodePrefixNotFound; Fault ErrStartCodePrefixNotFound] s)
    by (eexists; apply run_calls_ok; lazy; reflexivity).
  split; [exact C|]. destruct C as (s & C).
  exact (C100_pes_delivers ex_pes_source 3 _ s [2; 2; 2]%nat [([5; 6], None); ([7], Some ErrStartCodePrefixNotFound); ([], Some ErrStartCodePrefixNotFound)] 3 C eq_refl (le_n 3)).
Qed.
