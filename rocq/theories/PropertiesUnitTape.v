(** PropertiesUnitTape: C108, ts.NewPayloadUnitReader over any bytes. *)
From Verif Require Import Base BitReader Exec Local TsModel TsReaders TsRobust Mono SpecUnitTape UnitTapeProofs.

(** ** C108 *)
(** [log packet_next k (zero_packet, r) l s]: k calls of Next on the source [r], beginning with a new Packet, leave the
    packets and errors [l].  Whatever the source - damaged, cut, failing and going on -, the reads give the units and
    errors that [search w l] makes of them. *)
Theorem C108_delivers : forall (w : tester) r k l s sizes outs fuel,
  log packet_next k (zero_packet, r) l s -> piece_reads sizes None (search w l) = Some outs -> (k <= fuel)%nat ->
  ur_reads fuel sizes (new_ureader r w) = map Ok outs.
Proof.
  intros w r k l s sizes outs fuel L T Lk. eapply (reads_log s fuel sizes (new_ureader r w) k l); [split; cbn; congruence | exact L | exact Lk | exact T].
Qed.

(** The other way round: reads that return come from such calls. *)
Theorem C108_only : forall (w : tester) r sizes outs fuel, ur_reads fuel sizes (new_ureader r w) = map Ok outs ->
  exists k l s, log packet_next k (zero_packet, r) l s /\ piece_reads sizes None (search w l) = Some outs.
Proof. intros w r sizes outs fuel H. apply (reads_calls fuel sizes (new_ureader r w) outs); [split; cbn; congruence | exact H]. Qed.

(** Over a source that ends for good every Read returns, unless a call of Next panics (see C97). *)
Theorem C108_returns : forall (w : tester) r sizes fuel, rlater r = [] -> (length (rbits r) < fuel)%nat ->
  (exists outs, ur_reads fuel sizes (new_ureader r w) = map Ok outs) \/
  (exists k l s, log packet_next k (zero_packet, r) l s /\ fst (packet_next s) = Panic).
Proof. intros w r sizes fuel Hr Hl. apply (reads_total fuel sizes (new_ureader r w)); [split; cbn; congruence | exact Hr | exact Hl]. Qed.

(** A unit that arrives without an error, from the packet that starts it to the packet that starts the next one, is
    delivered, whatever came before, and what follows it is not affected.  Read with a buffer that is larger than
    each unit it is one Read's result. *)
Theorem C108_undamaged : forall (w : tester) r k before p mids q after s n fuel,
  let l := before ++ (p, None) :: map (fun m => (m, None)) mids ++ (q, None) :: after in
  log packet_next k (zero_packet, r) l s -> (k <= fuel)%nat ->
  w p = true -> pk_pusi p = true -> Forall (fun m => (w m && pk_pusi m)%bool = false) mids -> w q = true -> pk_pusi q = true ->
  (forall b, In (Whole b) (search w l) -> (length b < n)%nat) ->
  exists outs1 outs2, ur_reads fuel (repeat n (length (search w l))) (new_ureader r w) =
    map Ok (outs1 ++ (concat (map pk_payload (filter w (p :: mids))), Some EOP) :: outs2) /\
    outs2 = map at_once (gather w q [] after).
Proof.
  intros w r k before p mids q after s n fuel l L Lk Wp Sp F Wq Sq Hn.
  destruct (undamaged w before p mids q after) as (ps & E); [unfold begins; rewrite Wp, Sp; reflexivity | exact F | unfold begins; rewrite Wq, Sq; reflexivity|].
  exists (map at_once ps), (map at_once (gather w q [] after)). split; [|reflexivity].
  rewrite (C108_delivers w r k l s _ _ fuel L (big_reads n _ Hn) Lk). fold l in E. rewrite E, map_app. cbn [map at_once].
  assert (A : forall ms, flat_map (adds w) ms = concat (map pk_payload (filter w ms))).
  { induction ms as [|m ms IH]; [reflexivity|]. cbn [flat_map filter]. rewrite IH. unfold adds. destruct (w m); reflexivity. }
  rewrite A. reflexivity.
Qed.

(** Units 1-2, damage, 3-4, and the start of a third: the first Read returns the error; the second the first unit
    with its last payload twice (C101); the third the second unit, which is right. *)
Definition ux_pkt (b1 : Z) (d : Z) : list Z := 71 :: b1 :: 33 :: 16 :: repeat d 184.
Definition ux_source : reader :=
  mkR (bb (ux_pkt 64 1 ++ ux_pkt 0 2 ++ repeat 0 200 ++ ux_pkt 64 3 ++ ux_pkt 0 4 ++ ux_pkt 64 5)) EEOF [] (fun _ _ => EUnexpectedEOF).
Example C108_hyp : exists p1 p2 px p3 p4 p5 s,
  let l := [(p1, None); (p2, None); (px, Some ErrNoSyncByte)] ++ (p3, None) :: map (fun m => (m, None)) [p4] ++ (p5, None) :: [] in
  log packet_next 6 (zero_packet, ux_source) l s /\
  search (IsPID 33) l = [Broken ErrNoSyncByte; Whole (repeat 1 184 ++ repeat 2 184 ++ repeat 2 184); Whole (repeat 3 184 ++ repeat 4 184)] /\
  (IsPID 33 p3 && pk_pusi p3 = true /\ IsPID 33 p4 && pk_pusi p4 = false /\ IsPID 33 p5 && pk_pusi p5 = true)%bool /\
  (forall b, In (Whole b) (search (IsPID 33) l) -> (length b < 600)%nat) /\
  ur_reads 6 [600; 600; 600]%nat (new_ureader ux_source (IsPID 33)) =
    [Ok ([], Some ErrNoSyncByte); Ok (repeat 1 184 ++ repeat 2 184 ++ repeat 2 184, Some EOP); Ok (repeat 3 184 ++ repeat 4 184, Some EOP)] /\
  rlater ux_source = [].
Proof.
  destruct (fst (run_log 6 (zero_packet, ux_source))) as [l0|] eqn:E; [|vm_compute in E; discriminate].
  pose proof (run_log_ok 6 (zero_packet, ux_source) l0 E) as L.
  assert (S : search (IsPID 33) l0 = [Broken ErrNoSyncByte; Whole (repeat 1 184 ++ repeat 2 184 ++ repeat 2 184); Whole (repeat 3 184 ++ repeat 4 184)]).
  { assert (S1 : option_map (search (IsPID 33)) (fst (run_log 6 (zero_packet, ux_source))) = Some [Broken ErrNoSyncByte; Whole (repeat 1 184 ++ repeat 2 184 ++ repeat 2 184); Whole (repeat 3 184 ++ repeat 4 184)]) by (vm_compute; reflexivity).
    rewrite E in S1. cbn [option_map] in S1. congruence. }
  assert (Q : option_map (map (fun x => ((IsPID 33 (fst x) && pk_pusi (fst x))%bool, snd x))) (fst (run_log 6 (zero_packet, ux_source))) =
    Some [(true, None); (false, None); (false, Some ErrNoSyncByte); (true, None); (false, None); (true, None)]) by (vm_compute; reflexivity).
  rewrite E in Q. cbn [option_map] in Q. clear E.
  destruct l0 as [|[p1 o1] [|[p2 o2] [|[px ox] [|[p3 o3] [|[p4 o4] [|[p5 o5] [|]]]]]]]; try discriminate Q. cbn [map fst snd] in Q.
  assert (o1 = None /\ o2 = None /\ ox = Some ErrNoSyncByte /\ o3 = None /\ o4 = None /\ o5 = None) as (-> & -> & -> & -> & -> & ->) by (repeat split; congruence).
  exists p1, p2, px, p3, p4, p5. eexists. cbv zeta. cbn [map app].
  split; [exact L|]. split; [exact S|]. split; [repeat split; congruence|].
  assert (B : forall b, In (Whole b) (search (IsPID 33) [(p1, None); (p2, None); (px, Some ErrNoSyncByte); (p3, None); (p4, None); (p5, None)]) -> (length b < 600)%nat).
  { rewrite S. intros b [X|[X|[X|[]]]]; [discriminate| |]; (assert (b = repeat 1 184 ++ repeat 2 184 ++ repeat 2 184 \/ b = repeat 3 184 ++ repeat 4 184) as [-> | ->] by (first [left; congruence | right; congruence])); apply Nat.ltb_lt; reflexivity. }
  split; [exact B|]. split; [|reflexivity].
  apply (C108_delivers (IsPID 33) ux_source 6 _ _ [600; 600; 600]%nat
    [([], Some ErrNoSyncByte); (repeat 1 184 ++ repeat 2 184 ++ repeat 2 184, Some EOP); (repeat 3 184 ++ repeat 4 184, Some EOP)] 6 L); [|lia].
  change [600; 600; 600]%nat with (repeat 600%nat 3). pose proof (big_reads 600 _ B) as R. rewrite S in R. rewrite S. exact R.
Qed.

Print Assumptions C108_delivers.
Print Assumptions C108_only.
Print Assumptions C108_returns.
Print Assumptions C108_undamaged.
