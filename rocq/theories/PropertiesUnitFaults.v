(** PropertiesUnitFaults: C101, the payload unit reader over damaged sources. *)
From Verif Require Import Base BitReader Exec Local TsModel SpecIO TsReaders TsRobust Mono Conc ConcProofs UnitFaults.

(** ** C101 *)
(** A unit as Next returns its packets: the one that starts it and those up to the next start *)
Definition unit_ok (w : tester) (g : packet * list packet) : Prop :=
  w (fst g) = true /\ pk_pusi (fst g) = true /\ Forall (fun p => (w p && pk_pusi p)%bool = false) (snd g).
Definition unit_packets (g : packet * list packet) : list packet := fst g :: snd g.
(** Its payload: each accepted packet once *)
Definition unit_payload (w : tester) (g : packet * list packet) : list Z :=
  concat (map pk_payload (filter w (unit_packets g))).

Lemma closed_app : forall w fs cur rest, Forall (fun p => (w p && pk_pusi p)%bool = false) fs ->
  closed_units w cur (fs ++ rest) = closed_units w (cur ++ concat (map pk_payload (filter w fs))) rest.
Proof.
  intros w fs cur rest H. revert cur. induction H as [|p l Hp Hl IH]; intro cur; cbn [app closed_units filter map concat].
  - rewrite app_nil_r. reflexivity.
  - unfold begins. rewrite Hp, IH. unfold adds. destruct (w p); cbn [map concat]; [rewrite <- app_assoc|rewrite app_nil_r]; reflexivity.
Qed.

Lemma closed_groups : forall w gs cur, Forall (unit_ok w) gs ->
  closed_units w cur (concat (map unit_packets gs)) = removelast (cur :: map (unit_payload w) gs).
Proof.
  intros w. induction gs as [|[s fs] gs IH]; intros cur H; [reflexivity|].
  apply Forall_cons_iff in H. destruct H as [(H1 & H2 & H3) H4]. cbn [fst snd] in *.
  cbn [map concat]. unfold unit_packets at 1. cbn [fst snd]. rewrite <- app_comm_cons. cbn [closed_units]. unfold begins. rewrite H1, H2. cbn [andb].
  rewrite closed_app by exact H3. rewrite IH by exact H4.
  change (removelast (cur :: unit_payload w (s, fs) :: map (unit_payload w) gs)) with (cur :: removelast (unit_payload w (s, fs) :: map (unit_payload w) gs)).
  f_equal. f_equal. unfold unit_payload at 2, unit_packets. cbn [fst snd filter]. rewrite H1. reflexivity.
Qed.

(** Whatever the source: the packets that Next returns before its first error [e] are some before the first start,
    [pre], the units [gs] and a last one.  Up to the first Read that returns [e], the reads give the units [gs], each
    ended by EOP, and then [e].  (Nothing of the last unit is returned before.) *)
Theorem C101_until_error_partial : forall w r pre gs g e sizes fuel i, e <> EOP ->
  Forall (fun p => (w p && pk_pusi p)%bool = false) pre -> Forall (unit_ok w) (gs ++ [g]) ->
  parsed (zero_packet, r) (pre ++ concat (map unit_packets (gs ++ [g]))) (Err e) ->
  (length (pre ++ concat (map unit_packets (gs ++ [g]))) < fuel)%nat ->
  Forall (fun out => snd out <> Some e) (firstn i (unit_reads e sizes None (map (unit_payload w) gs))) ->
  firstn (S i) (ur_reads fuel sizes (new_ureader r w)) = map Ok (firstn (S i) (unit_reads e sizes None (map (unit_payload w) gs))).
Proof.
  intros w r pre gs g e sizes fuel i He Hp Hg HP Hf Hi.
  apply (reads_until w e fuel He); [|exact Hi]. split; [reflexivity|]. cbn [new_ureader ur_ready ur_buf ur_cur ur_br].
  split; [reflexivity|]. split; [reflexivity|]. right. exists (pre ++ concat (map unit_packets (gs ++ [g]))). do 2 (split; [auto; exact HP|]). split; [|exact Hf].
  clear HP Hf. induction Hp as [|p l Hp Hl IH].
  - cbn [app]. destruct gs as [|[s fs] gs].
    + destruct g as [s fs]. inversion Hg as [|? ? (H1 & H2 & H3) _]; subst. cbn [fst snd] in *. cbn [app map concat]. unfold unit_packets. cbn [fst snd app all_units]. unfold begins. rewrite H1, H2. cbn [andb].
      rewrite app_nil_r. rewrite <- (app_nil_r fs). rewrite closed_app by exact H3. reflexivity.
    + cbn [app] in *. apply Forall_cons_iff in Hg. destruct Hg as [(H1 & H2 & H3) H4]. cbn [fst snd] in *.
      cbn [map concat]. unfold unit_packets at 1. cbn [fst snd app all_units]. unfold begins. rewrite H1, H2. cbn [andb].
      rewrite closed_app by exact H3. rewrite closed_groups by exact H4.
      rewrite map_app. cbn [map]. rewrite app_comm_cons, removelast_last. f_equal. unfold unit_payload, unit_packets. cbn [fst snd filter]. rewrite H1. reflexivity.
  - cbn [app all_units]. unfold begins. rewrite Hp. exact IH.
Qed.

(** After the error the property is false: 200 bytes without a sync byte behind a unit of two packets, then the next
    unit.  Next fails once and goes on with the next unit.  The second Read returns the first unit with the payload of its last packet twice. *)
Definition ex_pkt (b1 : Z) (d : Z) : list Z := 71 :: b1 :: 33 :: 16 :: repeat d 184.
Definition ex_broken : reader :=
  mkR (bb (ex_pkt 64 1 ++ ex_pkt 0 2 ++ repeat 0 200 ++ ex_pkt 64 3)) EEOF [] (fun _ _ => EUnexpectedEOF).
Theorem C101_duplicates_refuted :
  ur_reads 5 [600; 600]%nat (new_ureader ex_broken (IsPID 33)) =
    [Ok ([], Some ErrNoSyncByte); Ok (repeat 1 184 ++ repeat 2 184 ++ repeat 2 184, Some EOP)].
Proof. vm_compute. reflexivity. Qed.

(** The same with the damage before the first unit: what is returned is the end of a unit whose start was never seen. *)
Definition ex_headless : reader :=
  mkR (bb (repeat 0 200 ++ ex_pkt 0 2 ++ ex_pkt 64 3)) EEOF [] (fun _ _ => EUnexpectedEOF).
Theorem C101_headless_refuted :
  ur_reads 5 [600; 600]%nat (new_ureader ex_headless (IsPID 33)) =
    [Ok ([], Some ErrNoSyncByte); Ok (repeat 2 184, Some EOP)].
Proof. vm_compute. reflexivity. Qed.

(** A source for C101_until_error_partial: a packet that belongs to no unit, a unit of two packets, a unit of one, 200 bytes of damage. *)
Definition ex_units : reader :=
  mkR (bb (ex_pkt 0 9 ++ ex_pkt 64 1 ++ ex_pkt 0 2 ++ ex_pkt 64 3 ++ repeat 0 200)) EEOF [] (fun _ _ => EUnexpectedEOF).
Example C101_hyp : exists p0 p1 p2 p3,
  parsed (zero_packet, ex_units) ([p0] ++ concat (map unit_packets ([(p1, [p2])] ++ [(p3, [])]))) (Err ErrNoSyncByte) /\
  Forall (fun p => (IsPID 33 p && pk_pusi p)%bool = false) [p0] /\ Forall (unit_ok (IsPID 33)) ([(p1, [p2])] ++ [(p3, [])]) /\
  unit_payload (IsPID 33) (p1, [p2]) = repeat 1 184 ++ repeat 2 184 /\
  Forall (fun out => snd out <> Some ErrNoSyncByte) (firstn 2 (unit_reads ErrNoSyncByte [200; 200; 1]%nat None [repeat 1 184 ++ repeat 2 184])) /\
  firstn 3 (ur_reads 9 [200; 200; 1]%nat (new_ureader ex_units (IsPID 33))) =
    [Ok (repeat 1 184 ++ repeat 2 16, None); Ok (repeat 2 168, Some EOP); Ok ([], Some ErrNoSyncByte)].
Proof.
  pose proof (run_parsed_ok 9 (zero_packet, ex_units) ErrNoSyncByte ltac:(vm_compute; reflexivity)) as P.
  destruct (fst (run_parsed 9 (zero_packet, ex_units))) as [|p0 [|p1 [|p2 [|p3 [|]]]]] eqn:E; vm_compute in E; try discriminate.
  exists p0, p1, p2, p3. split; [exact P|].
  assert (F : Forall (fun out => snd out <> Some ErrNoSyncByte) (firstn 2 (unit_reads ErrNoSyncByte [200; 200; 1]%nat None [repeat 1 184 ++ repeat 2 184]))) by (vm_compute; repeat constructor; discriminate).
  assert (Hp : Forall (fun p => (IsPID 33 p && pk_pusi p)%bool = false) [p0]) by (injection E as <- <- <- <-; repeat constructor).
  assert (Hg : Forall (unit_ok (IsPID 33)) ([(p1, [p2])] ++ [(p3, [])])) by (injection E as <- <- <- <-; repeat constructor).
  assert (U : unit_payload (IsPID 33) (p1, [p2]) = repeat 1 184 ++ repeat 2 184) by (injection E as <- <- <- <-; vm_compute; reflexivity).
  split; [exact Hp|]. split; [exact Hg|]. split; [exact U|]. split; [exact F|]. clear E.
  rewrite (C101_until_error_partial (IsPID 33) ex_units [p0] [(p1, [p2])] (p3, []) ErrNoSyncByte [200; 200; 1]%nat 9 2 ltac:(discriminate) Hp Hg P ltac:(cbn; lia)); cbn [map]; rewrite U; [vm_compute; reflexivity | exact F].
Qed.
