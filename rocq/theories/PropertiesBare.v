(** PropertiesBare: C128 - packets of the stream that have no payload, such as those that only carry a clock reference. *)
From Coq Require Import Lia.
From Verif Require Import Base BitReader TsModel SpecTs SpecIO SpecFaults SpecBare TsProofs TsReaders PropertiesTs PropertiesFaults.

Lemma over_held : forall p s, pk_payload (over_packet p s) = if has_payload s then sp_payload s else pk_payload p.
Proof. intros p s. destruct (has_payload s) eqn:E; [now apply over_payload|]. unfold pk_payload, over_packet. cbn [pk_len pk_buf]. now rewrite E. Qed.
Lemma ends_calls : forall (w : tester) p r n, rlater r = [] ->
  calls packet_next (fun p => if w p then pk_payload p else []) n (p, setb r []) (repeat (Fault (rfin r)) n) (p, setb r []).
Proof. intros w p r n L. induction n as [|n IH]; [constructor|]. cbn [repeat]. eapply calls_error; [now apply next_nil | exact IH]. Qed.
Lemma held_calls : forall a ps p r n, Forall wf_sp ps -> rlater r = [] ->
  exists s, calls packet_next (fun p => if IsPID a p then pk_payload p else []) (length ps + n) (p, setb r (enc_sps ps)) (map Byte (carried a (pk_payload p) ps) ++ repeat (Fault (rfin r)) n) s.
Proof.
  intros a ps. induction ps as [|s ps IH]; intros p r n W L.
  - eexists. cbn [carried map app length Nat.add]. apply ends_calls. exact L.
  - apply Forall_cons_iff in W. destruct W as [W1 W2]. destruct (IH (over_packet p s) r n W2 L) as (e & C). exists e. cbn [length Nat.add carried]. cbv zeta.
    rewrite over_held in C. rewrite map_app, <- app_assoc.
    pose proof (calls_ok packet_next (fun p => if IsPID a p then pk_payload p else []) _ _ _ _ _ _ (next_cons s ps p r W1 W2) C) as R.
    cbv beta in R. rewrite over_held in R. exact R.
Qed.
Lemma tape_ideal1 : forall e n c k, exists out c', tape_read n (map Byte c ++ repeat (Fault e) (S k)) = Some (out, map Byte c' ++ repeat (Fault e) (S k)) /\ ideal_read e n c = (out, c') \/
  tape_read n (map Byte c ++ repeat (Fault e) (S k)) = Some (out, map Byte c' ++ repeat (Fault e) k) /\ ideal_read e n c = (out, c').
Proof.
  intros e n. induction n as [|n IH]; intros c k.
  - exists ([], None), c. left. split; reflexivity.
  - destruct c as [|b c].
    + exists ([], Some e), []. right. split; reflexivity.
    + cbn [map app tape_read]. destruct (IH c k) as ([bs o] & c' & [(E & I)|(E & I)]); rewrite E; exists (b :: bs, o), c'; [left|right]; (split; [reflexivity|]);
        unfold ideal_read in *; cbn [length]; change (S n <=? S (length c))%nat with (n <=? length c)%nat; destruct (n <=? length c)%nat; injection I as <- <- <-; reflexivity.
Qed.
Lemma tape_ideal : forall e sizes c k, (length sizes <= k)%nat -> tape_reads sizes (map Byte c ++ repeat (Fault e) k) = Some (ideal_reads e sizes c).
Proof.
  intros e sizes. induction sizes as [|n sizes IH]; intros c k L; [reflexivity|]. cbn [length] in L. destruct k as [|k]; [lia|].
  cbn [tape_reads ideal_reads]. destruct (tape_ideal1 e n c k) as (out & c' & [(E & I)|(E & I)]); rewrite E, I; rewrite IH by lia; reflexivity.
Qed.

(** Exactly what NewPayloadReader delivers of any well-formed packets, with payload or without: a packet without payload repeats
    the payload of the packet before it, be it of the same PID or not. *)
Theorem C128_held_partial : forall a ps r sizes fuel, Forall wf_sp ps -> rlater r = [] -> (length ps + length sizes <= fuel)%nat ->
  pr_reads fuel sizes (new_preader (setb r (enc_sps ps)) (IsPID a)) = map Ok (ideal_reads (rfin r) sizes (carried a [] ps)).
Proof.
  intros a ps r sizes fuel W L F. destruct (held_calls a ps zero_packet r (length sizes) W L) as (s & C). change (pk_payload zero_packet) with (@nil Z) in C.
  eapply C100_ts_delivers; [exact C | | exact F]. apply tape_ideal. lia.
Qed.

Lemma carried_before : forall a pre last, Forall (fun s => has_payload s = false) pre -> carried a [] (pre ++ last) = carried a [] last.
Proof.
  intros a pre last F. induction F as [|s pre H F IH]; [reflexivity|]. cbn [app carried]. rewrite H. cbv zeta. rewrite IH. destruct (sp_pid s =? a); reflexivity.
Qed.
Lemma carried_all : forall a ps d, Forall (fun s => sp_pid s = a -> has_payload s = true) ps -> carried a d ps = content a ps.
Proof.
  intros a ps. induction ps as [|s ps IH]; intros d F; [reflexivity|]. apply Forall_cons_iff in F. destruct F as [F1 F2]. unfold content in *. cbn [carried filter]. cbv zeta.
  destruct (sp_pid s =? a) eqn:E; [rewrite F1 by lia; cbn [map concat]; now rewrite IH | cbn [app]; now apply IH].
Qed.
(** Packets without payload before the first that has one add nothing. *)
Theorem C128_leading : forall a pre ps r sizes fuel, Forall wf_sp (pre ++ ps) -> rlater r = [] -> (length (pre ++ ps) + length sizes <= fuel)%nat ->
  Forall (fun s => has_payload s = false) pre -> Forall (fun s => sp_pid s = a -> has_payload s = true) ps ->
  pr_reads fuel sizes (new_preader (setb r (enc_sps (pre ++ ps))) (IsPID a)) = map Ok (ideal_reads (rfin r) sizes (content a (pre ++ ps))).
Proof.
  intros a pre ps r sizes fuel W L F B C. rewrite C128_held_partial by auto. rewrite carried_before, carried_all by auto. do 2 f_equal.
  unfold content. rewrite filter_app, map_app, concat_app. replace (concat (map sp_payload (filter (fun s => sp_pid s =? a) pre))) with (@nil Z); [reflexivity|].
  symmetry. clear - B. induction B as [|s pre H B IH]; [reflexivity|]. cbn [filter]. destruct (sp_pid s =? a); [|exact IH]. cbn [map concat]. rewrite IH, app_nil_r.
  unfold has_payload in H. unfold sp_payload. destruct (sp_content s); [discriminate H | reflexivity | discriminate H].
Qed.

Lemma carried_app : forall a ps qs d, exists d', carried a d (ps ++ qs) = carried a d ps ++ carried a d' qs /\ (ps = [] -> d' = d) /\ (forall s ps', ps = ps' ++ [s] -> has_payload s = true -> d' = sp_payload s).
Proof.
  intros a ps qs. induction ps as [|s ps IH]; intro d.
  - exists d. split; [reflexivity|]. split; [auto|]. intros s ps' E. destruct ps'; discriminate E.
  - cbn [app carried]. cbv zeta. destruct (IH (if has_payload s then sp_payload s else d)) as (d' & E & N & H). exists d'. rewrite E, app_assoc. split; [reflexivity|]. split; [discriminate|].
    intros s' ps' E' P. destruct ps' as [|x ps'].
    + cbn [app] in E'. injection E' as -> ->. rewrite (N eq_refl). now rewrite P.
    + cbn [app] in E'. injection E' as -> E'. now apply (H s' ps').
Qed.
(** In every other place it is false: after a packet [q] with payload, of whatever PID, a packet [p] of the PID without payload delivers
    the payload of [q]. *)
Theorem C128_nothing_refuted : forall a pre q p post r, Forall wf_sp (pre ++ q :: p :: post) -> has_payload q = true -> sp_payload q <> [] ->
  has_payload p = false -> sp_pid p = a -> rlater r = [] ->
  exists sizes, forall fuel, (length (pre ++ q :: p :: post) + length sizes <= fuel)%nat ->
    pr_reads fuel sizes (new_preader (setb r (enc_sps (pre ++ q :: p :: post))) (IsPID a)) <>
    pr_reads fuel sizes (new_preader (setb r (enc_sps (pre ++ q :: post))) (IsPID a)).
Proof.
  intros a pre q p post r W Hq Nq Hp E L.
  assert (W1 : Forall wf_sp (pre ++ q :: post)) by (apply Forall_app in W; destruct W as [W1 W2]; apply Forall_app; split; [exact W1|]; inversion W2 as [|? ? A B]; inversion B; constructor; auto).
  set (one := carried a [] (pre ++ q :: post)). set (two := carried a [] (pre ++ q :: p :: post)).
  assert (LN : length two = (length one + length (sp_payload q))%nat).
  { unfold one, two. change (q :: p :: post) with ([q] ++ p :: post). change (q :: post) with ([q] ++ post). rewrite !(app_assoc pre).
    destruct (carried_app a (pre ++ [q]) (p :: post) []) as (d1 & E1 & _ & H1). destruct (carried_app a (pre ++ [q]) post []) as (d2 & E2 & _ & H2).
    rewrite E1, E2, (H1 q pre eq_refl Hq), (H2 q pre eq_refl Hq). cbn [carried]. rewrite Hp, E, Z.eqb_refl. cbv zeta. rewrite !app_length. lia. }
  assert (NZ : (0 < length (sp_payload q))%nat) by (destruct (sp_payload q); [congruence | cbn; lia]).
  exists [length two]. intros fuel F.
  assert (F1 : (length (pre ++ q :: post) + length [length two] <= fuel)%nat) by (rewrite !app_length in *; cbn [length] in *; lia).
  rewrite !C128_held_partial by auto. fold one two. cbn [ideal_reads]. unfold ideal_read. rewrite Nat.leb_refl. replace (length two <=? length one)%nat with false by (symmetry; apply Nat.leb_gt; lia).
  cbn [map]. discriminate.
Qed.
(** So bytes of another stream of the multiplex come among those of the one asked for. *)
Theorem C128_other_pid_refuted : forall a q p r sizes fuel, wf_sp q -> wf_sp p -> sp_pid q <> a -> has_payload q = true -> sp_pid p = a -> has_payload p = false ->
  rlater r = [] -> (2 + length sizes <= fuel)%nat ->
  pr_reads fuel sizes (new_preader (setb r (enc_sps [q; p])) (IsPID a)) = map Ok (ideal_reads (rfin r) sizes (sp_payload q)) /\ content a [q; p] = [].
Proof.
  intros a q p r sizes fuel Wq Wp Nq Hq Ep Hp L F. split.
  - rewrite C128_held_partial by (auto; constructor; auto). cbn [carried]. rewrite Hq, Hp, Ep, Z.eqb_refl. replace (sp_pid q =? a) with false by lia. cbv zeta. cbn [app]. now rewrite app_nil_r.
  - unfold content. cbn [filter]. replace (sp_pid q =? a) with false by lia. rewrite Ep, Z.eqb_refl. cbn [map concat]. rewrite app_nil_r.
    unfold has_payload in Hp. unfold sp_payload. destruct (sp_content p); [discriminate Hp | reflexivity | discriminate Hp].
Qed.

(** ** An example: a packet of PID 256 with payload, then one of PID 17 that has only an adaptation field; the reader of PID 17 gets the
    payload of PID 256. *)
Example C128_hyp : Forall wf_sp ([] ++ ex_p1 :: ex_p3 :: [ex_p4]) /\ has_payload ex_p1 = true /\ sp_payload ex_p1 <> [] /\ has_payload ex_p3 = false /\
  sp_pid ex_p3 = 17 /\ sp_pid ex_p1 <> 17 /\ wf_sp ex_p1 /\ wf_sp ex_p3.
Proof.
  pose proof ex_wf as W. apply Forall_cons_iff in W. destruct W as [W1 W]. apply Forall_cons_iff in W. destruct W as [_ W]. apply Forall_cons_iff in W. destruct W as [W3 W].
  split; [cbn [app]; repeat (apply Forall_cons; [assumption|]); exact W|]. split; [reflexivity|]. split; [discriminate|]. split; [reflexivity|]. split; [reflexivity|]. split; [discriminate|]. split; assumption.
Qed.

Print Assumptions C128_held_partial.
Print Assumptions C128_leading.
Print Assumptions C128_nothing_refuted.
Print Assumptions C128_other_pid_refuted.
