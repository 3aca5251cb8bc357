(** PropertiesLeft: the property C111 as theorems. *)
From Verif Require Import Base BitReader Exec TsModel TsReaders SpecTs SpecLeft LeftProofs TsProofs PropertiesTs SpecUnitTape SpecWindow PropertiesWindow.
From Verif Require PesModel SpecPes PropertiesPes LeftPesProofs.

(** ** C111 *)
(** ts: the first [k] bytes of any packet of the standard, k < 188, then the end; any packet before. *)
Theorem C111_ts : forall s k p r, wf_sp s -> (k < 188)%nat -> rlater r = [] ->
  exists e p' r', packet_next (p, setb r (firstn (8 * k) (enc_sp s))) = (Err e, (p', r')) /\
    left_in s k p p' /\ left_error s k (rfin r) (rshort r) e.
Proof. intros s k p r W Hk Hr. now apply cut_any. Qed.

(** pes: the first [k] bytes of any packet with a header and a length, not all of it, then the end. *)
Theorem C111_pes : forall s k p r, SpecPes.wf_pes s -> (k < Z.to_nat (6 + SpecPes.se_len s))%nat -> rlater r = [] ->
  exists e p' r', PesModel.pes_next (p, setb r (firstn (8 * k) (SpecPes.enc_pes s))) = (Err e, (p', r')) /\ left_in_pes s k p p'.
Proof. intros s k p r W Hk Hr. now apply LeftPesProofs.pes_cut_any. Qed.

(** A packet that was cut passes for one of the program association table, PID 0, exactly if two bytes of it came - or if
    its PID is 0 and has come, or the packet before had PID 0 and nothing of the new PID has come. *)
Theorem C111_pid_zero : forall s k p r, wf_sp s -> (k < 188)%nat -> rlater r = [] ->
  exists e p' r', packet_next (p, setb r (firstn (8 * k) (enc_sp s))) = (Err e, (p', r')) /\
    (IsPID 0 p' = true <-> (k < 2)%nat /\ pk_pid p = 0 \/ k = 2%nat \/ (3 <= k)%nat /\ sp_pid s = 0).
Proof.
  intros s k p r W Hk Hr. destruct (cut_any s p r k W Hr Hk) as (e & p' & r' & E & L & _). exists e, p', r'. split; [exact E|].
  destruct L as (_ & _ & _ & L & _). unfold IsPID. rewrite Z.eqb_eq, L. unfold held.
  destruct (Nat.ltb_spec k 2); [split; intro; [left; auto | intuition lia] |]. destruct (Nat.ltb_spec k 3); intuition lia.
Qed.

(** So SkipUntil(IsPID(0)) stops at such a packet, and Read delivers the payload of the packet before it, of another PID,
    whatever the tests of the reader. *)
Theorem C111_skip : forall s1 s2 d w t fin short n fuel, wf_sp s1 -> wf_sp s2 -> sp_content s1 = SPayload d -> sp_pid s1 <> 0 ->
  (n <= length d)%nat -> (2 <= fuel)%nat ->
  pr_reads fuel [n] (window_reader (Some (IsPID 0)) w t (mkR (enc_sp s1 ++ firstn 16 (enc_sp s2)) fin [] short)) = [Ok (firstn n d, None)].
Proof.
  intros s1 s2 d w t fin short n fuel W1 W2 C N Hn Hf.
  set (r := mkR [] fin [] short). change (mkR (enc_sp s1 ++ firstn 16 (enc_sp s2)) fin [] short) with (setb r (enc_sp s1 ++ firstn 16 (enc_sp s2))).
  destruct (C01_payload_packet s1 d zero_packet r (firstn 16 (enc_sp s2)) W1 C) as (p1 & E1 & H1 & P1).
  { rewrite firstn_length, (enc_sp_length _ W2). reflexivity. }
  destruct (cut_any s2 p1 r 2 W2 eq_refl ltac:(lia)) as (e & p2 & r2 & E2 & L2 & _). change (8 * 2)%nat with 16%nat in E2.
  destruct L2 as (_ & _ & _ & L4 & _ & _ & _ & _ & L9).
  assert (PL : pk_payload p2 = d).
  { destruct (has_payload s2 && (sp_head s2 <=? 2)%nat) eqn:Q; [|congruence]. exfalso. apply andb_true_iff in Q as (Q1 & Q2). apply Nat.leb_le in Q2. unfold sp_head, sp_payload in Q2.
    destruct W2 as (_ & _ & _ & H4). unfold blen in H4. destruct (sp_content s2) as [d2|a|a d2]; [lia | cbn [length] in Q2; lia |]. destruct H4 as (Wa & _ & _ & H4). pose proof (saf_len_range _ Wa). lia. }
  apply (C110_delivers (Some (IsPID 0)) w t _ 2 [(p1, None); (p2, Some e)] (p2, r2) [n] [(firstn n d, None)] fuel); [| |exact Hf].
  - econstructor; [exact E1|]. econstructor; [exact E2|]. constructor.
  - unfold window_reads, skipped, IsPID. destruct H1 as (_ & _ & _ & HP & _). rewrite HP, (proj2 (Z.eqb_neq (sp_pid s1) 0) N), L4. cbn [held Nat.ltb Nat.leb Z.eqb].
    rewrite PL. cbn [events map phase_reads serve]. rewrite (proj2 (Nat.leb_le n _) Hn). reflexivity.
Qed.

(** Packets that meet the hypotheses: one with a field and a payload cut at every kind of place. *)
Example C111_hyp : wf_sp ex_p1 /\ wf_sp ex_p2 /\ sp_content ex_p1 = SPayload (repeat 7 184) /\ sp_pid ex_p1 <> 0 /\ sp_head ex_p2 = 44%nat /\
  (forall r, rlater r = [] -> exists p' r', packet_next (zero_packet, setb r (firstn (8 * 60) (enc_sp ex_p2))) = (Err (match rfin r with EEOF => EUnexpectedEOF | x => x end), (p', r')) /\
     pk_payload p' = repeat 9 16 ++ repeat 0 128) /\
  (forall r, rlater r = [] -> exists e p' r', packet_next (zero_packet, setb r (firstn (8 * 40) (enc_sp ex_p2))) = (Err e, (p', r')) /\ pk_pid p' = 256 /\ pk_af p' = None /\ pk_payload p' = []).
Proof.
  split; [apply ex_p1_wf|]. split; [apply ex_p2_wf|]. split; [reflexivity|]. split; [discriminate|]. split; [vm_compute; reflexivity|]. split.
  - intros r Hr. destruct (C111_ts ex_p2 60 zero_packet r ex_p2_wf ltac:(lia) Hr) as (e & p' & r' & E & L & LE). exists p', r'. destruct LE as (_ & LE). split; [rewrite E, (LE ltac:(vm_compute; lia)); destruct (rfin r); reflexivity|].
    destruct L as (_ & _ & _ & _ & _ & _ & _ & _ & L). exact L.
  - intros r Hr. destruct (C111_ts ex_p2 40 zero_packet r ex_p2_wf ltac:(lia) Hr) as (e & p' & r' & E & L & LE). exists e, p', r'. split; [exact E|].
    destruct L as (_ & _ & _ & L & _ & _ & _ & (f & _ & L1) & L2). split; [exact L|]. split; [exact L1 | exact L2].
Qed.
Example C111_hyp_pes : SpecPes.wf_pes PropertiesPes.ex_pes2 /\ se_before PropertiesPes.ex_pes2 = 14%nat /\ Z.to_nat (6 + SpecPes.se_len PropertiesPes.ex_pes2) = 16%nat /\
  forall r, rlater r = [] -> exists e p' r', PesModel.pes_next (PesModel.zero_pp, setb r (firstn (8 * 15) (SpecPes.enc_pes PropertiesPes.ex_pes2))) = (Err e, (p', r')) /\ PesModel.pp_payload p' = [6; 0].
Proof.
  split; [apply PropertiesPes.ex_wf2|]. split; [vm_compute; reflexivity|]. split; [vm_compute; reflexivity|]. intros r Hr.
  destruct (C111_pes PropertiesPes.ex_pes2 15 PesModel.zero_pp r PropertiesPes.ex_wf2 ltac:(vm_compute; lia) Hr) as (e & p' & r' & E & _ & _ & _ & L). exists e, p', r'. split; [exact E | exact L].
Qed.

Print Assumptions C111_ts.
Print Assumptions C111_pes.
Print Assumptions C111_pid_zero.
Print Assumptions C111_skip.
