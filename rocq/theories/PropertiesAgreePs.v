(** PropertiesAgreePs: C131 - the two ways to the payload of a program stream, Decoder and NewPackReader, agree. *)
From Coq Require Import Lia.
From Verif Require Import Base BitReader PesModel SpecPes SpecIO PesProofs PropertiesPes PsModel SpecPs PsProofs PsReaders Conc PsConc PropertiesPs.

(** The payloads of all packets received from a Decoder, pack by pack (they are received in this order: C32) *)
Definition decoder_bytes (s : gstate) : list Z := concat (map (fun q => concat (map pp_payload (q_log q))) (g_procs s)).

Lemma items_bytes : forall l ps, Forall2 item_holds l ps -> concat (map pp_payload ps) = flat_map psitem_payload l.
Proof.
  intros l ps F. induction F as [|i p l ps H F IH]; [reflexivity|]. cbn [map concat flat_map]. rewrite IH. f_equal.
  destruct i as [e|d]; cbn [item_holds psitem_payload] in *; [apply H | now destruct H as (_ & _ & H & _)].
Qed.
Lemma all_bytes : forall packs qs, Forall2 pack_all_received packs qs -> concat (map (fun q => concat (map pp_payload (q_log q))) qs) = packs_content packs.
Proof.
  intros packs qs F. induction F as [|P q packs qs (_ & H) F IH]; [reflexivity|]. cbn [map concat]. rewrite IH. unfold packs_content. cbn [flat_map]. f_equal. now apply items_bytes.
Qed.

(** Once the Decoder is done, under whatever schedule, the payloads received from it are the bytes that NewPackReader delivers over the same
    program stream, whatever the sizes of the reads, if every pack has a packet. *)
Theorem C131_agree_partial : forall packs after r r' s sizes fuel, Forall wf_pack packs -> packs <> [] -> Forall (fun p => snd p <> []) packs ->
  star gstep (g_init (setb r (enc_packs packs ++ enc_end ++ after))) s -> g_dones s <> [] -> (packets_in packs < fuel)%nat ->
  g_dones s = [true] /\
  until_err' (pr_reads fuel sizes (new_packreader (setb r' (enc_packs packs ++ enc_end ++ after)))) = map Ok (until_err (ideal_reads EEOF sizes (decoder_bytes s))).
Proof.
  intros packs after r r' s sizes fuel W N E H D F. destruct (C32_delivery packs after r s W N H) as (_ & _ & _ & G). destruct (G D) as (G1 & _ & _ & G2).
  split; [exact G1|]. rewrite C30_reads by auto. unfold decoder_bytes. now rewrite (all_bytes _ _ G2).
Qed.
(** If the last pack has none they never agree: the Decoder delivers everything; the reader's Read, asked for more than there is, returns nothing and
    no error. *)
Theorem C131_empty_refuted : forall packs h r r' s n fuel, rlater r' = [] -> Forall wf_pack packs -> Forall (fun p => snd p <> []) packs -> wf_packhead h ->
  star gstep (g_init (setb r (enc_packs (packs ++ [(h, [])]) ++ enc_end))) s -> g_dones s <> [] ->
  (packets_in packs < fuel)%nat -> (length (packs_content packs) < n)%nat ->
  decoder_bytes s = packs_content packs /\
  fst (pr_read fuel n (new_packreader (setb r' (enc_packs (packs ++ [(h, [])]) ++ enc_end)))) = Ok ([], None).
Proof.
  intros packs h r r' s n fuel L W E Wh H D F Ln. split.
  - assert (W1 : Forall wf_pack (packs ++ [(h, [])])) by (apply Forall_app; split; [exact W|]; constructor; [split; [exact Wh | constructor] | constructor]).
    assert (N : packs ++ [(h, [])] <> []) by (destruct packs; discriminate). rewrite <- (app_nil_r enc_end) in H.
    destruct (C32_delivery _ [] r s W1 N H) as (_ & _ & _ & G). destruct (G D) as (_ & _ & _ & G2).
    unfold decoder_bytes. rewrite (all_bytes _ _ G2). unfold packs_content. rewrite flat_map_app. cbn [flat_map]. unfold pack_content at 2. cbn. now rewrite app_nil_r.
  - assert (B : enc_packs (packs ++ [(h, [])]) ++ enc_end = enc_packs packs ++ enc_packhead h ++ enc_end).
    { unfold enc_packs. rewrite flat_map_app. cbn [flat_map]. unfold enc_pack at 2. cbn [fst snd flat_map]. now rewrite !app_nil_r, app_assoc. }
    rewrite B. now apply C64_empty_pack_refuted.
Qed.

Example C131_hyp : exists s, star gstep (g_init (setb ex_reader (enc_packs [ex_pack1; ex_pack2] ++ enc_end ++ []))) s /\ g_dones s <> [] /\ decoder_bytes s = [1; 2; 3; 4; 5; 6; 7] /\
  exists s', star gstep (g_init (setb ex_reader (enc_packs ([ex_pack1; ex_pack2] ++ [(fst ex_empty, [])]) ++ enc_end ++ []))) s' /\ g_dones s' <> [] /\ wf_packhead (fst ex_empty).
Proof.
  destruct C30_hyp as (W & _ & _ & C).
  destruct (C32_can_end [ex_pack1; ex_pack2] [] ex_reader _ eq_refl W ltac:(discriminate) (star_refl _ _)) as (s & H & D & _). exists s. split; [exact H|].
  assert (D' : g_dones s <> []) by (rewrite D; discriminate). split; [exact D'|]. split.
  - destruct (C32_delivery _ _ _ _ W ltac:(discriminate) H) as (_ & _ & _ & G). destruct (G D') as (_ & _ & _ & G2). unfold decoder_bytes. now rewrite (all_bytes _ _ G2).
  - assert (W1 : Forall wf_pack ([ex_pack1; ex_pack2] ++ [(fst ex_empty, [])])) by (apply Forall_app; split; [exact W|]; constructor; [apply ex_empty_wf | constructor]).
    destruct (C32_can_end _ [] ex_reader _ eq_refl W1 ltac:(discriminate) (star_refl _ _)) as (s' & H' & E & _). exists s'. split; [exact H'|]. split; [rewrite E; discriminate | apply ex_empty_wf].
Qed.

Print Assumptions C131_agree_partial.
Print Assumptions C131_empty_refuted.
