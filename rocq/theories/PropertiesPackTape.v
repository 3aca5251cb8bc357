(** PropertiesPackTape: C107, ps.NewPackReader over any bytes. *)
From Verif Require Import Base BitReader Exec Local TsLocal Mono PesModel PesLocal PsModel PsReaders PsLocal SpecPackTape PackTapeProofs.

(** ** C107 *)
(** [parts k r tape r']: the first [k] parts of the source [r] are [tape]: the payload of each packet, and in their
    places the broken packets and headers, the end of the source and the program end codes.  Whatever the source -
    damaged, cut, failing and going on -, the reads give exactly that tape. *)
Theorem C107_delivers : forall r k tape r' sizes outs fuel,
  parts k r tape r' -> pack_reads sizes tape = Some outs -> (k <= fuel)%nat ->
  pr_reads fuel sizes (new_packreader r) = map Ok outs.
Proof. intros r k tape r' sizes outs fuel C T L. eapply (reads_tape r' fuel sizes k r [] tape); eassumption. Qed.

(** The other way round: reads that return come from such parts. *)
Theorem C107_only : forall r sizes outs fuel, pr_reads fuel sizes (new_packreader r) = map Ok outs ->
  exists k tape r', parts k r tape r' /\ pack_reads sizes tape = Some outs.
Proof. intros r sizes outs fuel H. exact (reads_calls fuel sizes r [] outs H). Qed.

(** Over a source that ends for good every Read returns, unless pes.NewPacket panics on a packet (see C98). *)
Theorem C107_returns : forall r sizes fuel, rlater r = [] -> (length (rbits r) < fuel)%nat ->
  (exists outs, pr_reads fuel sizes (new_packreader r) = map Ok outs) \/
  (exists k tape r1 r2 s, parts k r tape r1 /\ (r2 = r1 \/ exists h, new_pack_header r1 = (Ok h, r2)) /\ new_pes r2 = (Panic, s)).
Proof.
  intros r sizes fuel Hr Hl. destruct (reads_total fuel sizes r [] Hr Hl) as [H|(k & tape & r1 & C & r2 & s & N & D)]; [left; exact H|].
  right. exists k, tape, r1, r2, s. split; [exact C|]. split; [|exact N]. destruct D as [(v & _ & _ & _ & ->)|(h & _ & E)]; eauto.
Qed.

(** What is delivered is payload, in order and nothing twice; reads of one byte miss none of it. *)
Theorem C107_in_order : forall r sizes outs fuel, pr_reads fuel sizes (new_packreader r) = map Ok outs ->
  exists k tape r', parts k r tape r' /\ within (flat_map fst outs) (data_of tape).
Proof.
  intros r sizes outs fuel H. destruct (C107_only _ _ _ _ H) as (k & tape & r' & C & T). exists k, tape, r'.
  split; [exact C | exact (reads_within _ _ _ T)].
Qed.
Theorem C107_bytewise : forall r k tape r' fuel, parts k r tape r' -> (k <= fuel)%nat ->
  pr_reads fuel (repeat 1%nat (length tape)) (new_packreader r) = map (fun m => Ok (alone m)) tape.
Proof. intros r k tape r' fuel C L. rewrite (C107_delivers r k tape r' _ _ fuel C (bytewise tape) L), map_map. reflexivity. Qed.

(** There is no way on from bytes that are no start code: every Read that comes there, and every one after it, returns 0, nil. *)
Theorem C107_stuck : forall r k tape r1 v t sizes fuel,
  parts k r tape r1 -> rbits r1 = enc 24 v ++ t -> 0 <= v < 2 ^ 24 -> v <> 1 -> (8 <= length t)%nat -> (k + length sizes <= fuel)%nat ->
  (forall j, parts (k + j) r (tape ++ repeat (Lose None) j) r1) /\
  (forall out, pack_reads sizes (tape ++ repeat (Lose None) (length sizes)) = Some out -> pr_reads fuel sizes (new_packreader r) = map Ok out) /\
  (tape = [] -> pr_reads fuel sizes (new_packreader r) = map (fun _ => Ok ([], None)) sizes).
Proof.
  intros r k tape r1 v t sizes fuel C E Hv Nv Ht Hf.
  assert (S : part r1 [Lose None] r1) by (apply (stuck_part r1 v t); assumption).
  assert (J : forall j, parts j r1 (repeat (Lose None) j) r1).
  { induction j as [|j IH]; cbn [repeat]; [constructor|]. apply (parts_more j r1 [Lose None] r1 _ r1 S IH). }
  assert (A : forall j, parts (k + j) r (tape ++ repeat (Lose None) j) r1) by (intro j; eapply parts_app; [exact C | apply J]).
  split; [exact A|]. assert (B : forall out, pack_reads sizes (tape ++ repeat (Lose None) (length sizes)) = Some out -> pr_reads fuel sizes (new_packreader r) = map Ok out).
  { intros out H. exact (C107_delivers r _ _ r1 sizes out fuel (A (length sizes)) H Hf). }
  split; [exact B|]. intros ->. cbn [app] in B. specialize (B (map (fun _ => ([], None)) sizes)). rewrite map_map in B. apply B. clear.
  assert (G : forall m, (length sizes <= m)%nat -> pack_reads sizes (repeat (Lose None) m) = Some (map (fun _ => ([], None)) sizes)); [|apply G; lia].
  induction sizes as [|n s IH]; intros m Hm; cbn [length] in Hm; [reflexivity|]. destruct m as [|m]; [lia|]. cbn [pack_reads map].
  destruct n as [|n]; cbn [pack_read repeat].
  - change (Lose None :: repeat (Lose None) m) with (repeat (Lose None) (S m)). rewrite (IH (S m)) by lia. reflexivity.
  - rewrite IH by lia. reflexivity.
Qed.

(** A packet, four bytes that are none, another packet, the end code of the program, and another program's packet.  A
    Read of four bytes that comes to the four bytes loses the byte it has copied, and so does each Read that begins
    there: nothing after them is ever delivered.  With an end code instead, the reads go on in the next program. *)
Definition pes3 (a b c : Z) : list Z := [0; 0; 1; 224; 0; 6; 128; 0; 0; a; b; c].
Definition ex_broken : reader := mkR (bb (pes3 5 6 7 ++ [9; 9; 9; 9] ++ pes3 1 2 3)) EEOF [] (fun _ _ => EUnexpectedEOF).
Definition ex_two : reader := mkR (bb (pes3 5 6 7 ++ [0; 0; 1; 185] ++ pes3 1 2 3)) EEOF [] (fun _ _ => EUnexpectedEOF).
Example C107_hyp :
  (exists r', parts 4 ex_broken [Data 5; Data 6; Data 7; Lose None; Lose None; Lose None] r') /\
  pr_reads 4 [2; 4; 1]%nat (new_packreader ex_broken) = [Ok ([5; 6], None); Ok ([], None); Ok ([], None)] /\
  (exists r', parts 4 ex_two [Data 5; Data 6; Data 7; TheEnd; Data 1; Data 2; Data 3; Lose None] r') /\
  pr_reads 4 [2; 4; 2; 4]%nat (new_packreader ex_two) = [Ok ([5; 6], None); Ok ([7], Some EEOF); Ok ([1; 2], None); Ok ([], None)] /\
  rlater ex_broken = [].
Proof.
  assert (C : exists r', parts 4 ex_broken [Data 5; Data 6; Data 7; Lose None; Lose None; Lose None] r')
    by (eexists; apply run_parts_ok; lazy; reflexivity).
  assert (D : exists r', parts 4 ex_two [Data 5; Data 6; Data 7; TheEnd; Data 1; Data 2; Data 3; Lose None] r')
    by (eexists; apply run_parts_ok; lazy; reflexivity).
  split; [exact C|]. split; [destruct C as (r' & C); exact (C107_delivers ex_broken 4 _ r' [2; 4; 1]%nat [([5; 6], None); ([], None); ([], None)] 4 C eq_refl (le_n 4))|].
  split; [exact D|]. split; [destruct D as (r' & D); exact (C107_delivers ex_two 4 _ r' [2; 4; 2; 4]%nat [([5; 6], None); ([7], Some EEOF); ([1; 2], None); ([], None)] 4 D eq_refl (le_n 4))|].
  reflexivity.
Qed.

Example C107_hyp_stuck : exists r1, parts 1 ex_broken [Data 5; Data 6; Data 7] r1 /\ rbits r1 = enc 24 592137 ++ bb (9 :: pes3 1 2 3) /\
  (8 <= length (bb (9%Z :: pes3 1 2 3)))%nat.
Proof.
  eexists. split; [apply run_parts_ok; lazy; reflexivity|]. split; [lazy; reflexivity | apply Nat.leb_le; reflexivity].
Qed.

Print Assumptions C107_delivers.
Print Assumptions C107_only.
Print Assumptions C107_returns.
Print Assumptions C107_in_order.
Print Assumptions C107_bytewise.
Print Assumptions C107_stuck.
