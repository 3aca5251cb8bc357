(** TsReaders: the payload reader and the payload unit reader over streams of packets. *)
From Verif Require Import Base BitReader Exec Local TsModel SpecTs SpecIO TsProofs TsLocal TsRobust.

(** ** Testers see a packet, not its history *)

Definition has_af_bits (afc : Z) : bool := (afc =? 2) || (afc =? 3).
Definition has_pl_bits (afc : Z) : bool := (afc =? 1) || (afc =? 3).

(** What is visible of the packet last read: its header, and the parts that it carries. *)
Definition view (p : packet) :=
  (pk_tei p, pk_pusi p, pk_prio p, pk_pid p, pk_tsc p, pk_afc p, pk_cc p,
   if has_af_bits (pk_afc p) then pk_af p else None,
   if has_pl_bits (pk_afc p) then pk_payload p else []).

(** A tester that looks only at the packet last read. *)
Definition tester_ok (t : tester) : Prop := forall p q, view p = view q -> t p = t q.

Lemma copy_firstn : forall buf d, firstn (length d) (copy_into buf d) = d.
Proof. intros. unfold copy_into. now apply firstn_app_exact. Qed.

Lemma over_payload : forall p s, has_payload s = true -> pk_payload (over_packet p s) = sp_payload s.
Proof.
  intros p s H. unfold pk_payload, over_packet. cbn [pk_len pk_buf]. rewrite H.
  unfold blen. rewrite Nat2Z.id. apply copy_firstn.
Qed.
Lemma go_payload : forall s, pk_payload (go_packet s) = sp_payload s.
Proof.
  intros s. unfold pk_payload, go_packet. cbn [pk_len pk_buf].
  unfold blen. rewrite Nat2Z.id. apply copy_firstn.
Qed.

Lemma over_view : forall p s, view (over_packet p s) = view (go_packet s).
Proof.
  intros p s. unfold view. 
  assert (E : pk_afc (over_packet p s) = pk_afc (go_packet s)) by reflexivity. rewrite E.
  assert (E1 : (if has_af_bits (pk_afc (go_packet s)) then pk_af (over_packet p s) else None) =
    (if has_af_bits (pk_afc (go_packet s)) then pk_af (go_packet s) else None)).
  { unfold go_packet, over_packet, sp_afc, sp_field. cbn. destruct (sp_content s); reflexivity. }
  assert (E2 : (if has_pl_bits (pk_afc (go_packet s)) then pk_payload (over_packet p s) else []) =
    (if has_pl_bits (pk_afc (go_packet s)) then pk_payload (go_packet s) else [])).
  { rewrite go_payload. cbn [pk_afc go_packet].
    destruct (has_payload s) eqn:H.
    - now rewrite over_payload by auto.
    - unfold has_payload, sp_afc in *. destruct (sp_content s); try discriminate. reflexivity. }
  rewrite E1, E2. reflexivity.
Qed.

Lemma tester_over : forall t p s, tester_ok t -> t (over_packet p s) = t (go_packet s).
Proof. intros. apply H. apply over_view. Qed.

Lemma over_idem : forall p s, over_packet p s = over_packet (over_packet p s) s.
Proof.
  intros p s. unfold over_packet. cbn. f_equal; try (destruct (sp_field s); reflexivity).
  - destruct (has_payload s); [|reflexivity]. unfold copy_into.
    now rewrite skipn_app_exact.
  - destruct (has_payload s); reflexivity.
Qed.

(** The packet testers of the package are such testers. *)
Lemma ok_IsPID : forall n, tester_ok (IsPID n).
Proof. intros n p q H. unfold IsPID. unfold view in H. congruence. Qed.
Lemma ok_pusi : tester_ok IsPayloadUnitStart.
Proof. intros p q H. unfold IsPayloadUnitStart. unfold view in H. congruence. Qed.
Lemma ok_true : tester_ok always_true.
Proof. intros p q H. reflexivity. Qed.
Lemma ok_not : forall t, tester_ok t -> tester_ok (t_not t).
Proof. intros t H p q E. unfold t_not. now rewrite (H _ _ E). Qed.
Lemma ok_and : forall t u, tester_ok t -> tester_ok u -> tester_ok (t_and t u).
Proof. intros t u H H' p q E. unfold t_and. now rewrite (H _ _ E), (H' _ _ E). Qed.
Lemma ok_or : forall t u, tester_ok t -> tester_ok u -> tester_ok (t_or t u).
Proof. intros t u H H' p q E. unfold t_or. now rewrite (H _ _ E), (H' _ _ E). Qed.

(** ** Streams *)
Definition aligned_enc : forall ps, Forall wf_sp ps -> aligned_len (enc_sps ps).
Proof.
  induction ps as [|s ps IH]; intro H; [reflexivity|]. inversion H; subst.
  unfold enc_sps. cbn [flat_map]. apply aligned_app; [|apply IH; auto].
  eapply aligned_mult. apply enc_sp_length. auto.
Qed.

Lemma next_cons : forall s ps p r, wf_sp s -> Forall wf_sp ps ->
  packet_next (p, setb r (enc_sps (s :: ps))) = (Ok tt, (over_packet p s, setb r (enc_sps ps))).
Proof. intros. apply packet_next_enc; auto. now apply aligned_enc. Qed.

Lemma advance_end : forall r l, rlater r = [] -> advance (setb r l) = setb r [].
Proof. intros r l H. unfold advance. cbn [rlater setb]. rewrite H. reflexivity. Qed.

Lemma next_nil : forall p r, rlater r = [] ->
  packet_next (p, setb r []) = (Err (rfin r), (p, setb r [])).
Proof.
  intros p r H. pose proof (resync_end [] [] p (setb r [])) as E. cbn [app bb flat_map] in E.
  rewrite setb_setb in E. rewrite E; cbn; try lia; try constructor. now rewrite advance_end.
Qed.

(** Packets accepted by [w]; their payloads one after the other. *)
Definition accepted (w : tester) (s : spacket) : bool := w (go_packet s).
Definition payloads (w : tester) (ps : list spacket) : list Z :=
  concat (map sp_payload (filter (accepted w) ps)).
(** Accepted packets carry a payload. *)
Definition carry (w : tester) (ps : list spacket) : Prop :=
  Forall (fun s => accepted w s = true -> has_payload s = true) ps.

(** ** Sequences of reads on the payload reader *)
Fixpoint pr_reads (fuel : nat) (sizes : list nat) (s : preader) : list (res ioresult) :=
  match sizes with
  | [] => []
  | n :: t => let '(out, s') := pr_read fuel n s in out :: pr_reads fuel t s'
  end.

(** [pr_holds w t r s c]: an open payload reader over source [r] that has still [c] to deliver. *)
Definition pr_holds (w t : tester) (r : reader) (k : nat) (s : preader) (c : list Z) : Prop :=
  exists ps, pr_closed s = false /\ pr_where s = w /\ pr_take s = t /\
    (pr_cur s = None -> pr_skip s = None) /\
    pr_br s = setb r (enc_sps ps) /\ Forall wf_sp ps /\ carry w ps /\
    Forall (fun s => accepted t s = true) ps /\ c = pr_rem s ++ payloads w ps /\ (length ps < k)%nat.

Lemma payloads_cons : forall w s ps,
  payloads w (s :: ps) = (if accepted w s then sp_payload s else []) ++ payloads w ps.
Proof. intros. unfold payloads. cbn [filter]. destruct (accepted w s); reflexivity. Qed.

Lemma pr_fill_spec : forall w t r, tester_ok w -> tester_ok t -> rlater r = [] ->
  forall ps fuel s p want acc,
  pr_rem s = [] -> pr_where s = w -> pr_take s = t ->
  Forall wf_sp ps -> carry w ps -> Forall (fun s => accepted t s = true) ps ->
  (0 < want)%nat -> (length ps < fuel)%nat ->
  exists s', pr_fill fuel s p (setb r (enc_sps ps)) want acc [] =
    (Ok (acc ++ firstn want (payloads w ps),
         if Nat.leb want (length (payloads w ps)) then None else Some (rfin r)), s') /\
    pr_holds w t r (S (length ps)) s' (skipn want (payloads w ps)).
Proof.
  intros w t r Hw Ht Hr. induction ps as [|s0 ps IH]; intros fuel s p want acc Hrem Ew Et Hwf Hc Hta Hwant Hf.
  - destruct want as [|want]; [lia|]. destruct fuel as [|fuel]; [cbn in Hf; lia|].
    cbn [pr_fill]. change (enc_sps []) with (@nil bool). rewrite next_nil by auto.
    cbn [payloads map concat filter length Nat.leb firstn skipn]. rewrite app_nil_r.
    eexists. split; [reflexivity|].
    exists []. unfold pr_set. cbn. rewrite Hrem. repeat split; auto; try discriminate; try constructor.
  - inversion Hwf; inversion Hc; inversion Hta; subst.
    destruct want as [|want]; [lia|]. destruct fuel as [|fuel]; [cbn in Hf; lia|].
    cbn [pr_fill]. rewrite next_cons by auto.
    rewrite tester_over by auto. rewrite (tester_over (pr_take s)) by auto.
    unfold accepted in *. rewrite H9.
    rewrite payloads_cons. unfold accepted.
    destruct (pr_where s (go_packet s0)) eqn:EW.
    + rewrite over_payload by auto.
      set (d := sp_payload s0). set (n := S want).
      destruct (Nat.le_gt_cases n (length d)) as [L|L].
      * rewrite firstn_length_le by auto. rewrite Nat.sub_diag.
        assert (PF : pr_fill fuel s (over_packet p s0) (setb r (enc_sps ps)) 0 (acc ++ firstn n d) (skipn n d)
           = (Ok (acc ++ firstn n d, None), pr_set s (over_packet p s0) (setb r (enc_sps ps)) (pr_rem s ++ skipn n d) false))
          by (destruct fuel; reflexivity).
        rewrite PF.
        rewrite app_length. rewrite (proj2 (Nat.leb_le _ _)) by lia.
        eexists. split.
        { rewrite firstn_app. replace (n - length d)%nat with 0%nat by lia. rewrite firstn_O, app_nil_r. reflexivity. }
        exists ps. unfold pr_set; cbn [pr_closed pr_where pr_take pr_cur pr_br pr_rem]. rewrite Hrem. cbn [app].
        repeat split; auto; try discriminate.
        rewrite skipn_app. replace (n - length d)%nat with 0%nat by lia. reflexivity.
      * rewrite firstn_all2 by lia. rewrite skipn_all.
        destruct (IH fuel s (over_packet p s0) (n - length d)%nat (acc ++ d)) as (s' & E & HH); auto.
        { lia. } { cbn in Hf; lia. }
        exists s'. rewrite E. split.
        -- f_equal. f_equal.
           rewrite firstn_app, (firstn_all2 (n := n) d), app_assoc by lia.
           f_equal. rewrite app_length.
           destruct (Nat.leb_spec (n - length d) (length (payloads (pr_where s) ps)));
           destruct (Nat.leb_spec n (length d + length (payloads (pr_where s) ps))); auto; lia.
        -- destruct HH as (ps' & HH). exists ps'.
           rewrite skipn_app, (skipn_all2 d) by lia. cbn [app].
           destruct HH as (?&?&?&?&?&?&?&?&?&?). repeat split; auto; cbn; lia.
    + cbn [app]. destruct (IH fuel s (over_packet p s0) (S want) acc) as (s' & E & HH); auto.
      { cbn in Hf; lia. }
      exists s'. rewrite E. split; [reflexivity|].
      destruct HH as (ps' & HH). exists ps'. destruct HH as (?&?&?&?&?&?&?&?&?&?). repeat split; auto; cbn; lia.
Qed.

Lemma pr_fill_zero : forall fuel s p r acc rem,
  pr_fill fuel s p r 0 acc rem = (Ok (acc, None), pr_set s p r (pr_rem s ++ rem) false).
Proof. intros. destruct fuel; reflexivity. Qed.

(** The common part of Read after the first packet exists. *)
Definition pr_go (fuel want : nat) (s : preader) (p : packet) : res ioresult * preader :=
  let c := firstn want (pr_rem s) in
  let s' := pr_set s p (pr_br s) (skipn (length c) (pr_rem s)) false in
  pr_fill fuel s' p (pr_br s) (want - length c) c [].

Lemma pr_go_spec : forall w t r, tester_ok w -> tester_ok t -> rlater r = [] ->
  forall k fuel s p want c, pr_holds w t r k s c -> (k <= fuel)%nat ->
  exists s', pr_go fuel want s p = (Ok (fst (ideal_read (rfin r) want c)), s') /\
    pr_holds w t r k s' (snd (ideal_read (rfin r) want c)).
Proof.
  intros w t r Hw Ht Hr k fuel s p want c H Hk.
  destruct H as (ps & H1 & H2 & H3 & H4 & H5 & H6 & H7 & H8 & -> & H9).
  unfold pr_go, ideal_read. rewrite app_length.
  destruct (Nat.le_gt_cases want (length (pr_rem s))) as [L|L].
  - rewrite firstn_length_le by auto. rewrite Nat.sub_diag, pr_fill_zero.
    rewrite (proj2 (Nat.leb_le _ _)) by lia.
    rewrite firstn_app, skipn_app. replace (want - length (pr_rem s))%nat with 0%nat by lia.
    rewrite firstn_O, skipn_O, ?app_nil_r. eexists. split; [reflexivity|].
    exists ps. unfold pr_set; cbn [pr_closed pr_where pr_take pr_cur pr_br pr_rem fst snd].
    rewrite ?app_nil_r. repeat split; auto; discriminate.
  - rewrite (firstn_all2 (pr_rem s)) by lia. rewrite skipn_all.
    destruct (pr_fill_spec w t r Hw Ht Hr ps fuel (pr_set s p (pr_br s) [] false) p (want - length (pr_rem s)) (pr_rem s))
      as (s' & E & HH); auto; try lia.
    rewrite H5 in *. rewrite E. 
    destruct (Nat.leb_spec want (length (pr_rem s) + length (payloads w ps))).
    + rewrite (proj2 (Nat.leb_le _ _)) by lia. cbn [fst snd].
      exists s'. split.
      * f_equal. f_equal. f_equal. rewrite firstn_app. rewrite (firstn_all2 (pr_rem s)) by lia. reflexivity.
      * rewrite skipn_app, (skipn_all2 (pr_rem s)) by lia. cbn [app].
        destruct HH as (ps' & HH). exists ps'. destruct HH as (?&?&?&?&?&?&?&?&?&?). repeat split; auto; lia.
    + rewrite (proj2 (Nat.leb_gt _ _)) by lia. cbn [fst snd].
      exists s'. split.
      * f_equal. f_equal. f_equal. rewrite firstn_all2 by lia. reflexivity.
      * rewrite skipn_all2 in HH by lia.
        destruct HH as (ps' & HH). exists ps'. destruct HH as (?&?&?&?&?&?&?&?&?&?). repeat split; auto; lia.
Qed.

Lemma pr_read_spec : forall w t r, tester_ok w -> tester_ok t -> rlater r = [] ->
  forall k fuel s want c, pr_holds w t r k s c -> (k <= fuel)%nat ->
  exists s', pr_read fuel want s = (Ok (fst (ideal_read (rfin r) want c)), s') /\
    pr_holds w t r k s' (snd (ideal_read (rfin r) want c)).
Proof.
  intros w t r Hw Ht Hr k fuel s want c H Hk.
  pose proof H as (ps & H1 & H2 & H3 & H4 & _).
  unfold pr_read. rewrite H1.
  destruct (pr_cur s) as [p|] eqn:EC.
  - exact (pr_go_spec w t r Hw Ht Hr k fuel s p want c H Hk).
  - rewrite H4 by auto. exact (pr_go_spec w t r Hw Ht Hr k fuel s zero_packet want c H Hk).
Qed.

Lemma pr_reads_spec : forall w t r, tester_ok w -> tester_ok t -> rlater r = [] ->
  forall k fuel sizes s c, pr_holds w t r k s c -> (k <= fuel)%nat ->
  pr_reads fuel sizes s = map Ok (ideal_reads (rfin r) sizes c).
Proof.
  intros w t r Hw Ht Hr k fuel. induction sizes as [|n sizes IH]; intros s c H Hk; [reflexivity|].
  cbn [pr_reads ideal_reads].
  destruct (pr_read_spec w t r Hw Ht Hr k fuel s n c H Hk) as (s' & E & H').
  rewrite E. destruct (ideal_read (rfin r) n c) as [out c'] eqn:EI. cbn [fst snd map] in *.
  f_equal. now apply IH.
Qed.

(** The payload reader delivers exactly the payloads of the accepted packets. *)
Lemma pr_ideal : forall w r ps sizes fuel, tester_ok w -> rlater r = [] ->
  Forall wf_sp ps -> carry w ps -> (length ps < fuel)%nat ->
  pr_reads fuel sizes (new_preader (setb r (enc_sps ps)) w) =
  map Ok (ideal_reads (rfin r) sizes (payloads w ps)).
Proof.
  intros w r ps sizes fuel Hw Hr Hwf Hc Hf.
  apply pr_reads_spec with (w := w) (t := always_true) (k := S (length ps)); auto using ok_true.
  exists ps. unfold new_preader. cbn. repeat split; auto.
  apply Forall_forall. intros; reflexivity.
Qed.

(** ** TakeWhile *)

(** An open reader that has [c] to deliver before the packet [s0] that fails the tester. *)
Definition pr_holds_cut (w t : tester) (r : reader) (s0 : spacket) (post : list spacket) (k : nat)
  (s : preader) (c : list Z) : Prop :=
  exists ps, pr_closed s = false /\ pr_where s = w /\ pr_take s = t /\
    (pr_cur s = None -> pr_skip s = None) /\
    pr_br s = setb r (enc_sps (ps ++ s0 :: post)) /\ Forall wf_sp ps /\ carry w ps /\
    Forall (fun s => accepted t s = true) ps /\ c = pr_rem s ++ payloads w ps /\ (length ps < k)%nat.

Lemma pr_fill_cut : forall w t r s0 post, tester_ok w -> tester_ok t ->
  Forall wf_sp (s0 :: post) -> (accepted w s0 = true -> has_payload s0 = true) -> accepted t s0 = false ->
  forall ps fuel s p want acc,
  pr_rem s = [] -> pr_where s = w -> pr_take s = t ->
  Forall wf_sp ps -> carry w ps -> Forall (fun s => accepted t s = true) ps ->
  (0 < want)%nat -> (length ps < fuel)%nat ->
  exists s', pr_fill fuel s p (setb r (enc_sps (ps ++ s0 :: post))) want acc [] =
    (Ok (acc ++ firstn want (payloads w ps ++ payloads w [s0]),
         if Nat.leb want (length (payloads w ps)) then None else Some EEOF), s') /\
    if Nat.leb want (length (payloads w ps))
    then pr_holds_cut w t r s0 post (S (length ps)) s' (skipn want (payloads w ps))
    else pr_closed s' = true.
Proof.
  intros w t r s0 post Hw Ht Hwf0 Hc0 Ht0.
  inversion Hwf0 as [|? ? Hwf0a Hwf0b]; subst.
  induction ps as [|s1 ps IH]; intros fuel s p want acc Hrem Ew Et Hwf Hc Hta Hwant Hf.
  - destruct want as [|want]; [lia|]. destruct fuel as [|fuel]; [cbn in Hf; lia|].
    cbn [app]. cbn [pr_fill]. rewrite next_cons by auto.
    rewrite tester_over by (subst; auto). rewrite (tester_over (pr_take s)) by (subst; auto).
    unfold accepted in *. rewrite Et, Ht0, Ew.
    rewrite payloads_cons. unfold accepted. change (payloads w []) with (@nil Z). cbn [app length Nat.leb].
    destruct (w (go_packet s0)) eqn:EW.
    + rewrite over_payload by auto. rewrite app_nil_r. eexists. split; [reflexivity|reflexivity].
    + cbn [app firstn]. rewrite app_nil_r. eexists. split; [reflexivity|reflexivity].
  - inversion Hwf; inversion Hc; inversion Hta; subst.
    destruct want as [|want]; [lia|]. destruct fuel as [|fuel]; [cbn in Hf; lia|].
    cbn [app]. cbn [pr_fill]. rewrite next_cons by (auto; apply Forall_app; auto).
    rewrite tester_over by auto. rewrite (tester_over (pr_take s)) by auto.
    unfold accepted in *. rewrite H9.
    rewrite payloads_cons. unfold accepted.
    destruct (pr_where s (go_packet s1)) eqn:EW.
    + rewrite over_payload by auto.
      set (d := sp_payload s1). set (n := S want).
      destruct (Nat.le_gt_cases n (length d)) as [L|L].
      * rewrite firstn_length_le by auto. rewrite Nat.sub_diag, pr_fill_zero.
        rewrite app_length. rewrite (proj2 (Nat.leb_le _ _)) by lia.
        eexists. split.
        { rewrite <- app_assoc, firstn_app. replace (n - length d)%nat with 0%nat by lia. rewrite firstn_O, app_nil_r. reflexivity. }
        exists ps. unfold pr_set; cbn [pr_closed pr_where pr_take pr_cur pr_br pr_rem]. rewrite Hrem. cbn [app].
        repeat split; auto; try discriminate.
        rewrite skipn_app. replace (n - length d)%nat with 0%nat by lia. reflexivity.
      * rewrite firstn_all2 by lia. rewrite skipn_all.
        destruct (IH fuel s (over_packet p s1) (n - length d)%nat (acc ++ d)) as (s' & E & HH); auto.
        { lia. } { cbn in Hf; lia. }
        exists s'. rewrite E. rewrite app_length.
        assert (EQ : Nat.leb (n - length d) (length (payloads (pr_where s) ps)) =
                     Nat.leb n (length d + length (payloads (pr_where s) ps))).
        { destruct (Nat.leb_spec (n - length d) (length (payloads (pr_where s) ps)));
          destruct (Nat.leb_spec n (length d + length (payloads (pr_where s) ps))); auto; lia. }
        rewrite EQ in *. split.
        -- f_equal. f_equal. f_equal.
           rewrite <- (app_assoc d), (firstn_app n d), (firstn_all2 (n := n) d), app_assoc by lia. reflexivity.
        -- destruct (Nat.leb n (length d + length (payloads (pr_where s) ps))); auto.
           destruct HH as (ps' & HH). exists ps'.
           rewrite skipn_app, (skipn_all2 d) by lia. cbn [app].
           destruct HH as (?&?&?&?&?&?&?&?&?&?). repeat split; auto; cbn; lia.
    + cbn [app]. destruct (IH fuel s (over_packet p s1) (S want) acc) as (s' & E & HH); auto.
      { cbn in Hf; lia. }
      exists s'. rewrite E. split; [reflexivity|].
      destruct (Nat.leb (S want) (length (payloads (pr_where s) ps))); auto.
      destruct HH as (ps' & HH). exists ps'. destruct HH as (?&?&?&?&?&?&?&?&?&?). repeat split; auto; cbn; lia.
Qed.

Lemma pr_go_cut : forall w t r s0 post, tester_ok w -> tester_ok t ->
  Forall wf_sp (s0 :: post) -> (accepted w s0 = true -> has_payload s0 = true) -> accepted t s0 = false ->
  forall k fuel s p want c, pr_holds_cut w t r s0 post k s c -> (k <= fuel)%nat ->
  exists s', pr_go fuel want s p = (Ok (fst (cut_read (payloads w [s0]) want (Some c))), s') /\
    match snd (cut_read (payloads w [s0]) want (Some c)) with
    | Some c' => pr_holds_cut w t r s0 post k s' c'
    | None => pr_closed s' = true
    end.
Proof.
  intros w t r s0 post Hw Ht Hwf0 Hc0 Ht0 k fuel s p want c H Hk.
  destruct H as (ps & H1 & H2 & H3 & H4 & H5 & H6 & H7 & H8 & -> & H9).
  unfold pr_go, cut_read. rewrite app_length.
  destruct (Nat.le_gt_cases want (length (pr_rem s))) as [L|L].
  - rewrite firstn_length_le by auto. rewrite Nat.sub_diag, pr_fill_zero.
    rewrite (proj2 (Nat.leb_le _ _)) by lia.
    rewrite firstn_app, skipn_app. replace (want - length (pr_rem s))%nat with 0%nat by lia.
    rewrite firstn_O, skipn_O, ?app_nil_r. eexists. split; [reflexivity|].
    exists ps. unfold pr_set; cbn [pr_closed pr_where pr_take pr_cur pr_br pr_rem fst snd].
    rewrite ?app_nil_r. repeat split; auto; discriminate.
  - rewrite (firstn_all2 (pr_rem s)) by lia. rewrite skipn_all.
    destruct (pr_fill_cut w t r s0 post Hw Ht Hwf0 Hc0 Ht0 ps fuel (pr_set s p (pr_br s) [] false) p (want - length (pr_rem s)) (pr_rem s))
      as (s' & E & HH); auto; try lia.
    rewrite H5 in *. rewrite E.
    assert (EQ : Nat.leb (want - length (pr_rem s)) (length (payloads w ps)) =
                 Nat.leb want (length (pr_rem s) + length (payloads w ps))).
    { destruct (Nat.leb_spec (want - length (pr_rem s)) (length (payloads w ps)));
      destruct (Nat.leb_spec want (length (pr_rem s) + length (payloads w ps))); auto; lia. }
    rewrite EQ in *.
    destruct (Nat.leb_spec want (length (pr_rem s) + length (payloads w ps))); cbn [fst snd].
    + exists s'. split.
      * f_equal. f_equal. f_equal. rewrite (firstn_app want (pr_rem s)). rewrite (firstn_all2 (pr_rem s)) by lia.
        f_equal. rewrite firstn_app. replace (want - length (pr_rem s) - length (payloads w ps))%nat with 0%nat by lia.
        now rewrite firstn_O, app_nil_r.
      * rewrite skipn_app, (skipn_all2 (pr_rem s)) by lia. cbn [app].
        destruct HH as (ps' & HH). exists ps'. destruct HH as (?&?&?&?&?&?&?&?&?&?). repeat split; auto; lia.
    + exists s'. split; auto.
      f_equal. f_equal. f_equal. rewrite <- app_assoc, (firstn_app want (pr_rem s)).
      rewrite (firstn_all2 (pr_rem s)) by lia. reflexivity.
Qed.

Lemma pr_read_closed : forall fuel n s, pr_closed s = true -> pr_read fuel n s = (Ok ([], Some EEOF), s).
Proof. intros. unfold pr_read. now rewrite H. Qed.

Lemma pr_reads_closed : forall fuel sizes s last, pr_closed s = true ->
  pr_reads fuel sizes s = map Ok (cut_reads last sizes None).
Proof.
  intros fuel sizes. induction sizes as [|n t IH]; intros s last H; [reflexivity|].
  cbn [pr_reads cut_reads cut_read map]. rewrite pr_read_closed by auto. f_equal. now apply IH.
Qed.

Lemma pr_reads_cut : forall w t r s0 post, tester_ok w -> tester_ok t ->
  Forall wf_sp (s0 :: post) -> (accepted w s0 = true -> has_payload s0 = true) -> accepted t s0 = false ->
  forall k fuel sizes s c, pr_holds_cut w t r s0 post k s c -> (k <= fuel)%nat ->
  pr_reads fuel sizes s = map Ok (cut_reads (payloads w [s0]) sizes (Some c)).
Proof.
  intros w t r s0 post Hw Ht Hwf0 Hc0 Ht0 k fuel.
  induction sizes as [|n sizes IH]; intros s c H Hk; [reflexivity|].
  assert (R : exists s', pr_read fuel n s = (Ok (fst (cut_read (payloads w [s0]) n (Some c))), s') /\
    match snd (cut_read (payloads w [s0]) n (Some c)) with
    | Some c' => pr_holds_cut w t r s0 post k s' c'
    | None => pr_closed s' = true
    end).
  { pose proof H as (ps & H1 & H2 & H3 & H4 & _).
    unfold pr_read. rewrite H1. destruct (pr_cur s) as [p|] eqn:EC.
    - exact (pr_go_cut w t r s0 post Hw Ht Hwf0 Hc0 Ht0 k fuel s p n c H Hk).
    - rewrite H4 by auto.
      exact (pr_go_cut w t r s0 post Hw Ht Hwf0 Hc0 Ht0 k fuel s zero_packet n c H Hk). }
  destruct R as (s' & E & H').
  cbn [pr_reads cut_reads]. rewrite E.
  destruct (cut_read (payloads w [s0]) n (Some c)) as [out [c'|]]; cbn [fst snd map] in *; f_equal.
  - now apply IH.
  - now apply pr_reads_closed.
Qed.

Lemma pr_take_cut : forall w t r ps s0 post sizes fuel, tester_ok w -> tester_ok t ->
  Forall wf_sp (ps ++ s0 :: post) -> carry w (ps ++ [s0]) ->
  Forall (fun s => accepted t s = true) ps -> accepted t s0 = false -> (length ps < fuel)%nat ->
  pr_reads fuel sizes (pr_take_while t (new_preader (setb r (enc_sps (ps ++ s0 :: post))) w)) =
  map Ok (cut_reads (payloads w [s0]) sizes (Some (payloads w ps))).
Proof.
  intros w t r ps s0 post sizes fuel Hw Ht Hwf Hc Hps H0 Hf.
  apply Forall_app in Hwf. destruct Hwf as [Hwf1 Hwf2].
  apply Forall_app in Hc. destruct Hc as [Hc1 Hc2]. inversion Hc2; subst.
  eapply pr_reads_cut with (t := t) (r := r) (post := post) (k := S (length ps)); auto.
  exists ps. unfold new_preader, pr_take_while. cbn. repeat split; auto.
Qed.

(** ** SkipUntil *)
Lemma pr_realign_skip : forall t r, tester_ok t ->
  forall ps s0 post fuel p, Forall wf_sp (ps ++ s0 :: post) ->
  Forall (fun s => accepted t s = false) ps -> accepted t s0 = true -> has_payload s0 = true ->
  (length ps < fuel)%nat ->
  exists p', pr_realign fuel t p (setb r (enc_sps (ps ++ s0 :: post))) =
    (Ok (sp_payload s0), (p', setb r (enc_sps post))).
Proof.
  intros t r Ht. induction ps as [|s1 ps IH]; intros s0 post fuel p Hwf Hps H0 Hp Hf.
  - inversion Hwf; subst. destruct fuel as [|fuel]; [cbn in Hf; lia|]. cbn [app pr_realign].
    rewrite next_cons by auto. rewrite tester_over by auto. unfold accepted in H0. rewrite H0.
    rewrite over_payload by auto. eauto.
  - inversion Hwf; inversion Hps as [|? ? Hb1 Hb2]; subst. destruct fuel as [|fuel]; [cbn in Hf; lia|]. cbn [app pr_realign].
    rewrite next_cons by auto. rewrite tester_over by auto. unfold accepted in *. rewrite Hb1.
    apply IH; auto. cbn in Hf; lia.
Qed.

Lemma pr_skip_ideal : forall w t r ps s0 post sizes n fuel, tester_ok w -> tester_ok t -> rlater r = [] ->
  Forall wf_sp (ps ++ s0 :: post) -> carry w post ->
  Forall (fun s => accepted t s = false) ps -> accepted t s0 = true -> has_payload s0 = true ->
  (length ps + length post + 1 < fuel)%nat ->
  pr_reads fuel (n :: sizes) (pr_skip_until t (new_preader (setb r (enc_sps (ps ++ s0 :: post))) w)) =
  map Ok (ideal_reads (rfin r) (n :: sizes) (sp_payload s0 ++ payloads w post)).
Proof.
  intros w t r ps s0 post sizes n fuel Hw Ht Hr Hwf Hc Hps H0 Hp Hf.
  destruct (pr_realign_skip t r Ht ps s0 post fuel zero_packet Hwf Hps H0 Hp) as (p' & E); [lia|].
  assert (Hwf2 : Forall wf_sp post).
  { apply Forall_app in Hwf. destruct Hwf as [_ Hwf]. now inversion Hwf. }
  set (s1 := pr_set (pr_skip_until t (new_preader (setb r (enc_sps (ps ++ s0 :: post))) w)) p'
               (setb r (enc_sps post)) (sp_payload s0) false).
  assert (R : pr_read fuel n (pr_skip_until t (new_preader (setb r (enc_sps (ps ++ s0 :: post))) w))
              = pr_go fuel n s1 p').
  { unfold pr_read, pr_skip_until, new_preader. cbn [pr_closed pr_cur pr_skip pr_br pr_rem app].
    rewrite E. reflexivity. }
  assert (HH : pr_holds w always_true r fuel s1 (sp_payload s0 ++ payloads w post)).
  { exists post. unfold s1. cbn. repeat split; auto; try discriminate.
    apply Forall_forall; reflexivity. lia. }
  cbn [pr_reads ideal_reads]. rewrite R.
  destruct (pr_go_spec w always_true r Hw ok_true Hr fuel fuel s1 p' n _ HH (Nat.le_refl _)) as (s' & E' & H').
  rewrite E'. destruct (ideal_read (rfin r) n (sp_payload s0 ++ payloads w post)) as [out c'].
  cbn [fst snd map] in *. f_equal.
  apply pr_reads_spec with (w := w) (t := always_true) (k := fuel); auto using ok_true.
Qed.

(** Without a matching packet the first Read never returns. *)
Lemma pr_realign_hang : forall t r, tester_ok t -> rlater r = [] ->
  forall fuel ps p, Forall wf_sp ps -> Forall (fun s => accepted t s = false) ps ->
  t p = false -> fst (pr_realign fuel t p (setb r (enc_sps ps))) = OutOfFuel.
Proof.
  intros t r Ht Hr. induction fuel as [|fuel IH]; intros ps p Hwf Hps Hp; [reflexivity|].
  cbn [pr_realign]. destruct ps as [|s ps].
  - change (enc_sps []) with (@nil bool). rewrite next_nil by auto. rewrite Hp.
    apply (IH []); auto.
  - inversion Hwf; inversion Hps as [|? ? Hb1 Hb2]; subst. rewrite next_cons by auto.
    rewrite tester_over by auto. unfold accepted in *. rewrite Hb1.
    apply IH; auto. now rewrite tester_over.
Qed.

Lemma pr_skip_hang : forall w t r ps fuel n, tester_ok t -> rlater r = [] ->
  Forall wf_sp ps -> Forall (fun s => accepted t s = false) ps -> t zero_packet = false ->
  fst (pr_read fuel n (pr_skip_until t (new_preader (setb r (enc_sps ps)) w))) = OutOfFuel.
Proof.
  intros. unfold pr_read, pr_skip_until, new_preader. cbn [pr_closed pr_cur pr_skip pr_br].
  pose proof (pr_realign_hang t r H H0 fuel ps zero_packet H1 H2 H3) as E.
  destruct (pr_realign fuel t zero_packet (setb r (enc_sps ps))) as [[] [? ?]]; simpl in E; try discriminate.
  reflexivity.
Qed.

(** ** The payload unit reader *)
Fixpoint ur_reads (fuel : nat) (sizes : list nat) (s : ureader) : list (res ioresult) :=
  match sizes with
  | [] => []
  | n :: t => let '(out, s') := ur_read fuel n s in out :: ur_reads fuel t s'
  end.

(** Specification: a unit starts at an accepted packet with the start indicator. *)
Definition starts (w : tester) (s : spacket) : bool := accepted w s && sp_pusi s.

(** Units of a stream once the first start [cur] has been seen; the last one is not complete. *)
Fixpoint units_from (w : tester) (cur : list Z) (ps : list spacket) : list (list Z) :=
  match ps with
  | [] => [cur]
  | s :: t => if starts w s then cur :: units_from w (sp_payload s) t
              else units_from w (if accepted w s then cur ++ sp_payload s else cur) t
  end.
Fixpoint units (w : tester) (ps : list spacket) : list (list Z) :=
  match ps with
  | [] => []
  | s :: t => if starts w s then units_from w (sp_payload s) t else units w t
  end.
(** The units that are complete: all but the last. *)
Definition complete_units (w : tester) (ps : list spacket) : list (list Z) := removelast (units w ps).

Lemma start_over : forall w s p, tester_ok w ->
  t_and w IsPayloadUnitStart (over_packet p s) = starts w s.
Proof. intros. unfold t_and, starts, accepted. now rewrite tester_over. Qed.

(** Collecting from the current packet to the next start or the end. *)
Fixpoint take_unit (w : tester) (cur : list Z) (ps : list spacket) : list Z * option (spacket * list spacket) :=
  match ps with
  | [] => (cur, None)
  | s :: t => if starts w s then (cur, Some (s, t))
              else take_unit w (if accepted w s then cur ++ sp_payload s else cur) t
  end.

Lemma units_take : forall w ps cur, units_from w cur ps =
  match take_unit w cur ps with
  | (u, Some (s, t)) => u :: units_from w (sp_payload s) t
  | (u, None) => [u]
  end.
Proof.
  intros w. induction ps as [|s t IH]; intro cur; [reflexivity|].
  cbn [units_from take_unit]. destruct (starts w s); auto.
Qed.

Lemma take_unit_length : forall w ps cur u s t, take_unit w cur ps = (u, Some (s, t)) ->
  (length t < length ps)%nat /\ (Forall wf_sp ps -> Forall wf_sp (s :: t)) /\
  (carry w ps -> carry w (s :: t)) /\ starts w s = true.
Proof.
  intros w. induction ps as [|s1 ps IH]; intros cur u s t H; [discriminate|].
  cbn [take_unit] in H. destruct (starts w s1) eqn:E.
  - inversion H; subst. cbn. repeat split; auto.
  - destruct (IH _ _ _ _ H) as (A & B & C & D). cbn [length]. repeat split; auto; try lia.
    + intro F; inversion F; auto.
    + intro F; inversion F; auto.
Qed.

(** [buf] already holds the current packet's payload when it is accepted. *)
Lemma ur_collect_spec : forall w r, tester_ok w -> rlater r = [] ->
  forall ps fuel s p buf, ur_where s = w -> Forall wf_sp ps -> carry w ps -> (length ps < fuel)%nat ->
  let b := if w p then buf ++ pk_payload p else buf in
  match take_unit w b ps with
  | (u, Some (s1, t)) => exists p', p' = over_packet p' s1 /\
      ur_collect fuel s p (setb r (enc_sps ps)) buf =
      (Ok None, ur_set s p' (setb r (enc_sps t)) u false)
  | (u, None) => exists p' b', ur_collect fuel s p (setb r (enc_sps ps)) buf =
      (Ok (Some (rfin r)), ur_set s p' (setb r []) b' false)
  end.
Proof.
  intros w r Hw Hr. induction ps as [|s1 ps IH]; intros fuel s p buf Hs Hwf Hc Hf; cbn zeta.
  - cbn [take_unit]. destruct fuel as [|fuel]; [cbn in Hf; lia|]. cbn [ur_collect].
    change (enc_sps []) with (@nil bool). rewrite next_nil by auto. eauto.
  - inversion Hwf; inversion Hc; subst. destruct fuel as [|fuel]; [cbn in Hf; lia|].
    cbn [take_unit ur_collect]. rewrite next_cons by auto.
    unfold ur_start. rewrite start_over by auto.
    destruct (starts (ur_where s) s1) eqn:ES.
    + exists (over_packet p s1). split; [|reflexivity].
      apply over_idem.
    + assert (E : (if ur_where s (over_packet p s1)
                   then (if ur_where s p then buf ++ pk_payload p else buf) ++ pk_payload (over_packet p s1)
                   else (if ur_where s p then buf ++ pk_payload p else buf)) =
                  (if accepted (ur_where s) s1
                   then (if ur_where s p then buf ++ pk_payload p else buf) ++ sp_payload s1
                   else (if ur_where s p then buf ++ pk_payload p else buf))).
      { rewrite tester_over by auto. unfold accepted in *.
        destruct (ur_where s (go_packet s1)) eqn:EA; [|reflexivity].
        now rewrite over_payload by auto. }
      specialize (IH fuel s (over_packet p s1) (if ur_where s p then buf ++ pk_payload p else buf) eq_refl H2 H6 ltac:(cbn in Hf; lia)).
      cbn zeta in IH. rewrite E in IH. exact IH.
Qed.

(** States of the unit reader. *)
Inductive ur_holds (w : tester) (r : reader) (k : nat) : ureader -> option (list Z) -> list (list Z) -> Prop :=
| ur_inside : forall s p s0 ps b, ur_cur s = Some p -> p = over_packet p s0 -> starts w s0 = true ->
    ur_where s = w -> ur_br s = setb r (enc_sps ps) -> wf_sp s0 -> Forall wf_sp ps -> carry w (s0 :: ps) ->
    (length ps < k)%nat -> ur_ready s = true -> ur_buf s = b ->
    ur_holds w r k s (Some b) (removelast (units_from w (sp_payload s0) ps))
| ur_between : forall s p s0 ps, ur_cur s = Some p -> p = over_packet p s0 -> starts w s0 = true ->
    ur_where s = w -> ur_br s = setb r (enc_sps ps) -> wf_sp s0 -> Forall wf_sp ps -> carry w (s0 :: ps) ->
    (length ps < k)%nat -> ur_ready s = false -> ur_buf s = [] ->
    ur_holds w r k s None (removelast (units_from w (sp_payload s0) ps))
| ur_begin : forall s ps, ur_cur s = None -> ur_where s = w -> ur_br s = setb r (enc_sps ps) ->
    Forall wf_sp ps -> carry w ps -> (length ps < k)%nat -> ur_ready s = false -> ur_buf s = [] ->
    ur_holds w r k s None (removelast (units w ps))
| ur_end : forall s p, ur_cur s = Some p -> ur_where s = w -> ur_br s = setb r [] -> ur_ready s = false ->
    (0 < k)%nat -> ur_holds w r k s None [].

Lemma removelast_units : forall w cur ps u s t, take_unit w cur ps = (u, Some (s, t)) ->
  removelast (units_from w cur ps) = u :: removelast (units_from w (sp_payload s) t).
Proof.
  intros w cur ps u s t H. rewrite units_take, H.
  assert (N : units_from w (sp_payload s) t <> []).
  { rewrite units_take. destruct (take_unit w (sp_payload s) t) as [u' [[s' t']|]]; discriminate. }
  cbn [removelast]. destruct (units_from w (sp_payload s) t); congruence.
Qed.
Lemma removelast_units_none : forall w cur ps u, take_unit w cur ps = (u, None) ->
  removelast (units_from w cur ps) = [].
Proof. intros w cur ps u H. rewrite units_take, H. reflexivity. Qed.

Lemma over_inv : forall p s0, p = over_packet p s0 -> has_payload s0 = true -> pk_payload p = sp_payload s0.
Proof. intros p s0 E H. rewrite E. now apply over_payload. Qed.
Lemma over_tester : forall w p s0, tester_ok w -> p = over_packet p s0 -> w p = accepted w s0.
Proof. intros w p s0 Hw E. rewrite E. now apply tester_over. Qed.

(** One fill from a current packet that is the start [s0]. *)
Lemma ur_fill_start : forall w r k fuel s p s0 ps, tester_ok w -> rlater r = [] ->
  p = over_packet p s0 -> starts w s0 = true ->
  ur_where s = w -> wf_sp s0 -> Forall wf_sp ps -> carry w (s0 :: ps) ->
  (length ps < k)%nat -> (k <= fuel)%nat -> 
  match removelast (units_from w (sp_payload s0) ps) with
  | [] => exists s', ur_collect fuel s p (setb r (enc_sps ps)) [] = (Ok (Some (rfin r)), s') /\
            ur_holds w r k s' None []
  | u :: us => exists s', ur_collect fuel s p (setb r (enc_sps ps)) [] = (Ok None, s') /\ ur_buf s' = u /\
            forall rdy b, rdy = true ->
              ur_holds w r k (mkUR (ur_cur s') b (ur_br s') (ur_where s') rdy) (Some b) us
  end.
Proof.
  intros w r k fuel s p s0 ps Hw Hr Hp Hst Hws Hwf0 Hwf Hc Hk Hf.
  inversion Hc as [|? ? Hc0 Hc1]; subst x l.
  assert (A0 : accepted w s0 = true) by (unfold starts in Hst; apply andb_true_iff in Hst; tauto).
  pose proof (ur_collect_spec w r Hw Hr ps fuel s p [] Hws Hwf Hc1 ltac:(lia)) as L. cbn zeta in L.
  rewrite (over_tester w p s0 Hw Hp), A0 in L. cbn [app] in L.
  rewrite (over_inv p s0 Hp (Hc0 A0)) in L.
  destruct (take_unit w (sp_payload s0) ps) as [u [[s1 t]|]] eqn:ET.
  - rewrite (removelast_units _ _ _ _ _ _ ET). destruct L as (p' & Ep & E).
    destruct (take_unit_length _ _ _ _ _ _ ET) as (LT & B1 & B2 & B3).
    specialize (B1 Hwf). specialize (B2 Hc1). inversion B1; subst.
    eexists. split; [exact E|]. split; [reflexivity|]. intros rdy b ->.
    eapply ur_inside with (p := p'); eauto; try reflexivity. lia.
  - rewrite (removelast_units_none _ _ _ _ ET). destruct L as (p' & b' & E).
    eexists. split; [exact E|]. apply ur_end with (p := p'); try reflexivity; auto. lia.
Qed.

Lemma ur_seek_spec : forall w r, tester_ok w -> rlater r = [] ->
  forall ps fuel s p, ur_where s = w -> Forall wf_sp ps -> t_and w IsPayloadUnitStart p = false ->
  (length ps < fuel)%nat ->
  (exists s0 t p', ur_seek fuel s p (setb r (enc_sps ps)) = (Ok tt, (p', setb r (enc_sps t))) /\
     p' = over_packet p' s0 /\ starts w s0 = true /\ Forall wf_sp (s0 :: t) /\
     (carry w ps -> carry w (s0 :: t)) /\ (length t < length ps)%nat /\ units w ps = units_from w (sp_payload s0) t) \/
  (exists p', ur_seek fuel s p (setb r (enc_sps ps)) = (Err (rfin r), (p', setb r [])) /\ units w ps = []).
Proof.
  intros w r Hw Hr. induction ps as [|s1 ps IH]; intros fuel s p Hs Hwf Hp Hf.
  - right. destruct fuel as [|fuel]; [cbn in Hf; lia|]. cbn [ur_seek]. unfold ur_start. rewrite Hs, Hp.
    change (enc_sps []) with (@nil bool). rewrite next_nil by auto. eauto.
  - inversion Hwf; subst. destruct fuel as [|fuel]; [cbn in Hf; lia|].
    cbn [ur_seek]. unfold ur_start at 1 2. rewrite Hp. rewrite next_cons by auto.
    cbn [units]. destruct (starts (ur_where s) s1) eqn:ES.
    + left. exists s1, ps, (over_packet p s1).
      assert (E : ur_seek fuel s (over_packet p s1) (setb r (enc_sps ps)) = (Ok tt, (over_packet p s1, setb r (enc_sps ps)))).
      { unfold ur_seek, ur_start. destruct fuel; rewrite start_over, ES by auto; reflexivity. }
      rewrite E. repeat split; auto.
      apply over_idem.
    + destruct (IH fuel s (over_packet p s1) eq_refl H2) as [L|L]; auto.
      { now rewrite start_over. } { cbn in Hf; lia. }
      left. destruct L as (s0 & t & p' & E1 & E2 & E3 & E4 & E5 & E6 & E7).
      exists s0, t, p'. repeat split; auto. 
      * intro C; inversion C; subst; auto.
      * cbn [length]; lia.
Qed.

Definition ur_set' (s : ureader) (b : list Z) (rdy : bool) : ureader :=
  mkUR (ur_cur s) b (ur_br s) (ur_where s) rdy.

Lemma ur_drain_spec : forall w r k s n b us,
  ur_buf s = b ->
  (forall rdy b', rdy = true -> ur_holds w r k (mkUR (ur_cur s) b' (ur_br s) (ur_where s) rdy) (Some b') us) ->
  exists s', ur_drain n s = (Ok (fst (unit_read (rfin r) n (Some b) us)), s') /\
    ur_holds w r k s' (fst (snd (unit_read (rfin r) n (Some b) us))) (snd (snd (unit_read (rfin r) n (Some b) us))).
Proof.
  intros w r k s n b us Hb H. unfold ur_drain, unit_read. rewrite Hb.
  destruct (Nat.leb_spec n (length b)) as [L|L].
  - rewrite firstn_length_le by auto. rewrite Nat.ltb_irrefl. eexists. split; [reflexivity|].
    cbn [fst snd]. apply H; auto.
  - rewrite firstn_all2 by lia. rewrite (proj2 (Nat.ltb_lt _ _)) by lia. rewrite skipn_all.
    eexists. split; [reflexivity|]. cbn [fst snd].
    specialize (H true [] eq_refl). inversion H; subst. cbn in *. 
    eapply ur_between; eauto.
Qed.

Lemma ur_read_spec : forall w r k fuel s n cur us, tester_ok w -> rlater r = [] -> (k <= fuel)%nat ->
  ur_holds w r k s cur us ->
  exists s', ur_read fuel n s = (Ok (fst (unit_read (rfin r) n cur us)), s') /\
    ur_holds w r k s' (fst (snd (unit_read (rfin r) n cur us))) (snd (snd (unit_read (rfin r) n cur us))).
Proof.
  intros w r k fuel s n cur us Hw Hr Hf H. unfold ur_read.
  destruct H as [s p s0 ps b H1 H2 H3 H4 H5 H6 H7 H8 H9 H10 H11
                |s p s0 ps H1 H2 H3 H4 H5 H6 H7 H8 H9 H10 H11
                |s ps H1 H2 H3 H4 H5 H6 H7 H8
                |s p H1 H2 H3 H4 H5].
  - rewrite H10. apply ur_drain_spec; auto. intros rdy b' ->.
    apply ur_inside with (p := p) (s0 := s0) (ps := ps); auto.
  - rewrite H10. unfold ur_fill. rewrite H1, H5, H11.
    pose proof (ur_fill_start w r k fuel s p s0 ps Hw Hr H2 H3 H4 H6 H7 H8 H9 Hf) as L.
    destruct (removelast (units_from w (sp_payload s0) ps)) as [|u us].
    + destruct L as (s' & E & HH). rewrite E. exists s'. split; auto.
    + destruct L as (s' & E & Eb & HH). rewrite E.
      exact (ur_drain_spec w r k s' n u us Eb HH).
  - rewrite H7. unfold ur_fill. rewrite H1, H3, H8.
    destruct (ur_seek_spec w r Hw Hr ps fuel s zero_packet H2 H4) as [L|L].
    { unfold t_and, IsPayloadUnitStart, zero_packet. cbn. apply andb_false_r. } { lia. }
    + destruct L as (s0 & t & p' & E1 & E2 & E3 & E4 & E5 & E6 & E7). rewrite E1, E7.
      assert (Hq1 := Forall_inv E4). assert (Hq2 := Forall_inv_tail E4).
      pose proof (ur_fill_start w r k fuel s p' s0 t Hw Hr E2 E3 H2 Hq1 Hq2 (E5 H5) ltac:(lia) Hf) as L.
      destruct (removelast (units_from w (sp_payload s0) t)) as [|u us].
      * destruct L as (s' & E & HH). rewrite E. exists s'. split; auto.
      * destruct L as (s' & E & Eb & HH). rewrite E.
        exact (ur_drain_spec w r k s' n u us Eb HH).
    + destruct L as (p' & E & EU). rewrite E, EU. eexists. split; [reflexivity|].
      cbn [removelast unit_read fst snd]. eapply ur_end with (p := p'); auto; reflexivity || lia.
  - rewrite H4. unfold ur_fill. rewrite H1, H3.
    destruct fuel as [|fuel]; [lia|]. cbn [ur_collect]. rewrite next_nil by auto.
    eexists. split; [reflexivity|]. cbn [unit_read fst snd]. eapply ur_end with (p := p); auto.
Qed.

Lemma ur_reads_spec : forall w r k fuel, tester_ok w -> rlater r = [] -> (k <= fuel)%nat ->
  forall sizes s cur us, ur_holds w r k s cur us ->
  ur_reads fuel sizes s = map Ok (unit_reads (rfin r) sizes cur us).
Proof.
  intros w r k fuel Hw Hr Hf. induction sizes as [|n sizes IH]; intros s cur us H; [reflexivity|].
  cbn [ur_reads unit_reads].
  destruct (ur_read_spec w r k fuel s n cur us Hw Hr Hf H) as (s' & E & H').
  rewrite E. destruct (unit_read (rfin r) n cur us) as [out [cur' us']]. cbn [fst snd map] in *.
  f_equal. now apply IH.
Qed.

(** The unit reader delivers exactly the complete units, each ended by EOP, then the source's error. *)
Lemma ur_ideal : forall w r ps sizes fuel, tester_ok w -> rlater r = [] ->
  Forall wf_sp ps -> carry w ps -> (length ps < fuel)%nat ->
  ur_reads fuel sizes (new_ureader (setb r (enc_sps ps)) w) =
  map Ok (unit_reads (rfin r) sizes None (complete_units w ps)).
Proof.
  intros w r ps sizes fuel Hw Hr Hwf Hc Hf.
  apply ur_reads_spec with (w := w) (k := S (length ps)); auto.
  apply ur_begin; auto; reflexivity.
Qed.
