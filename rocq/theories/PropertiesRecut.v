(** PropertiesRecut: C129 - how a stream is cut into packets does not matter. *)
From Coq Require Import Lia.
From Verif Require Import Base BitReader TsModel SpecTs SpecIO TsProofs TsReaders PropertiesTs PesModel SpecPes PesProofs PesReaders PropertiesPes
  PsModel SpecPs PsReaders PropertiesPs SpecPipe SpecRemux PropertiesRemux.

(** The bytes that transport packets carry for PID [a], and those that PES packets carry (for packs: [packs_content], SpecPs) *)
Definition ts_bytes (a : Z) (ps : list spacket) : list Z := concat (map sp_payload (filter (fun s => sp_pid s =? a) ps)).
Definition pes_bytes (es : list spes) : list Z := concat (map se_payload es).

(** The same bytes in other transport packets, of other sizes, of another PID, with other adaptation fields, among other
    packets: ts.NewPayloadReader gives the same. *)
Theorem C129_ts : forall a b ps qs r sizes fuel fuel', with_payload a ps -> with_payload b qs -> ts_bytes a ps = ts_bytes b qs -> rlater r = [] ->
  (length ps < fuel)%nat -> (length qs < fuel')%nat ->
  TsReaders.pr_reads fuel' sizes (new_preader (setb r (enc_sps qs)) (IsPID b)) = TsReaders.pr_reads fuel sizes (new_preader (setb r (enc_sps ps)) (IsPID a)).
Proof.
  intros a b ps qs r sizes fuel fuel' WA WB E L FA FB.
  rewrite (C10_payload_reader (IsPID b) r qs sizes fuel'), (C10_payload_reader (IsPID a) r ps sizes fuel); auto using ok_IsPID, wp_has; [|apply WA|apply WB].
  do 2 f_equal. symmetry. exact E.
Qed.
(** The same bytes in other PES packets, of other sizes, with other headers: pes.NewPayloadReader gives the same. *)
Theorem C129_pes : forall es es' r sizes fuel fuel', Forall wf_pes es -> Forall wf_pes es' -> pes_bytes es = pes_bytes es' -> rlater r = [] ->
  (length es < fuel)%nat -> (length es' < fuel')%nat ->
  es_reads fuel' sizes (new_esreader (setb r (enc_pess es'))) = es_reads fuel sizes (new_esreader (setb r (enc_pess es))).
Proof. intros es es' r sizes fuel fuel' W W' E L F F'. rewrite !C26_payload_reader by auto. do 2 f_equal. symmetry. exact E. Qed.
(** Both at once: PES packets in transport packets.  [r1] and [r2] are what pes.NewPayloadReader reads. *)
Theorem C129_both : forall a b ps qs es es' r fuel fuel' fuele fuele', with_payload a ps -> with_payload b qs -> Forall wf_pes es -> Forall wf_pes es' ->
  bb (ts_bytes a ps) = enc_pess es -> bb (ts_bytes b qs) = enc_pess es' -> pes_bytes es = pes_bytes es' -> rlater r = [] ->
  (length ps < fuel)%nat -> (length qs < fuel')%nat -> (length es < fuele)%nat -> (length es' < fuele')%nat ->
  exists r1 r2,
    over (fun sizes => TsReaders.pr_reads fuel sizes (new_preader (setb r (enc_sps ps)) (IsPID a))) r1 /\
    over (fun sizes => TsReaders.pr_reads fuel' sizes (new_preader (setb r (enc_sps qs)) (IsPID b))) r2 /\
    forall sizes, es_reads fuele sizes (new_esreader r1) = es_reads fuele' sizes (new_esreader r2).
Proof.
  intros a b ps qs es es' r fuel fuel' fuele fuele' WA WB WE WE' BA BB E L FA FB FE FE'.
  exists (mkR (bb (ts_bytes a ps)) (rfin r) [] (rshort r)), (mkR (bb (ts_bytes b qs)) (rfin r) [] (rshort r)). split; [|split].
  - apply over_bytes. intros sizes _. apply (C10_payload_reader (IsPID a)); auto using ok_IsPID, wp_has; apply WA.
  - apply over_bytes. intros sizes _. apply (C10_payload_reader (IsPID b)); auto using ok_IsPID, wp_has; apply WB.
  - intro sizes. rewrite BA, BB. symmetry. exact (C129_pes es es' (mkR [] (rfin r) [] (rshort r)) sizes fuele fuele' WE WE' E eq_refl FE FE').
Qed.
(** The same bytes in other packs: ps.NewPackReader gives the same up to the end. *)
Theorem C129_packs : forall packs packs' after after' r r' sizes fuel fuel', Forall wf_pack packs -> Forall wf_pack packs' ->
  Forall (fun p => snd p <> []) packs -> Forall (fun p => snd p <> []) packs' -> packs_content packs = packs_content packs' ->
  (packets_in packs < fuel)%nat -> (packets_in packs' < fuel')%nat ->
  until_err' (PsReaders.pr_reads fuel' sizes (new_packreader (setb r' (enc_packs packs' ++ enc_end ++ after')))) =
  until_err' (PsReaders.pr_reads fuel sizes (new_packreader (setb r (enc_packs packs ++ enc_end ++ after)))).
Proof. intros. rewrite !C30_reads by auto. do 3 f_equal. auto. Qed.
(** And so do the bytes of PES packets when they are sent in a program stream. *)
Theorem C129_packs_pes : forall packs es after r r' sizes fuel fuel', Forall wf_pack packs -> Forall (fun p => snd p <> []) packs -> Forall wf_pes es ->
  packs_content packs = pes_bytes es -> rlater r' = [] -> rfin r' = EEOF -> (packets_in packs < fuel)%nat -> (length es < fuel')%nat ->
  until_err' (PsReaders.pr_reads fuel sizes (new_packreader (setb r (enc_packs packs ++ enc_end ++ after)))) =
  until_err' (es_reads fuel' sizes (new_esreader (setb r' (enc_pess es)))).
Proof.
  intros packs es after r r' sizes fuel fuel' W N WE E L F FA FE. rewrite C30_reads, C26_payload_reader by auto. rewrite F, E. unfold pes_bytes.
  generalize (ideal_reads EEOF sizes (concat (map se_payload es))). intro l. induction l as [|[b [e|]] l IH]; [reflexivity | reflexivity|].
  cbn [map until_err until_err' snd]. now rewrite IH.
Qed.

(** ** An example: one PES packet of 175 bytes in one transport packet of PID 40, or two PES packets that share two packets of PID 41. *)
Definition rc_head : shead := mkShead 0 false false false false NoStamp None 0.
Definition rc_data : list Z := repeat 5 90 ++ repeat 6 85.
Definition rc_pes (d : list Z) : spes := mkSpes 224 rc_head d.
Definition rc_bytes (d : list Z) : list Z := [0; 0; 1; 224; 0; 3 + blen d; 128; 0; 0] ++ d.
Definition rc_one : list spacket := [mkSP false true false 40 0 0 (SPayload (rc_bytes rc_data))].
Definition rc_two_bytes : list Z := rc_bytes (repeat 5 90) ++ rc_bytes (repeat 6 85).
Definition rc_cut (cc : Z) (pusi : bool) (d : list Z) : spacket :=
  mkSP false pusi false 41 0 cc (SFieldPayload (AFBody (mkSBody false false false None None None None None (repeat 255 (182 - length d)))) d).
Definition rc_two : list spacket := [rc_cut 0 true (firstn 150 rc_two_bytes); ex_p1; rc_cut 1 false (skipn 150 rc_two_bytes)].
Lemma rc_check : forall l, forallb (fun b => (0 <=? b) && (b <? 256)) l = true -> bytes l.
Proof. intros l H. apply Forall_forall. intros x Hx. rewrite forallb_forall in H. specialize (H x Hx). apply andb_true_iff in H. unfold byte. lia. Qed.
Lemma rc_cut_wf : forall cc pusi d, 0 <= cc < 16 -> bytes d -> (0 < length d <= 182)%nat -> wf_sp (rc_cut cc pusi d).
Proof.
  intros cc pusi d C B L. split; [cbn; lia|]. split; [cbn; lia|]. split; [exact C|]. cbn [rc_cut sp_content]. split; [|split; [exact Logic.I|split; [exact B|] ] ].
  - cbn [wf_saf sa_pcr sa_opcr sa_splice sa_private sa_ext sa_stuffing]. repeat (split; [exact Logic.I|]). split; [apply bytes_repeat; unfold byte; lia|].
    unfold saf_len. cbn [sa_pcr sa_opcr sa_splice sa_private sa_ext sa_stuffing olen priv_len extn_len]. unfold blen. rewrite repeat_length. lia.
  - unfold saf_len. cbn [sa_pcr sa_opcr sa_splice sa_private sa_ext sa_stuffing olen priv_len extn_len]. unfold blen. rewrite repeat_length. lia.
Qed.
Example C129_hyp : with_payload 40 rc_one /\ with_payload 41 rc_two /\ Forall wf_pes [rc_pes rc_data] /\ Forall wf_pes [rc_pes (repeat 5 90); rc_pes (repeat 6 85)] /\
  bb (ts_bytes 40 rc_one) = enc_pess [rc_pes rc_data] /\ bb (ts_bytes 41 rc_two) = enc_pess [rc_pes (repeat 5 90); rc_pes (repeat 6 85)] /\
  pes_bytes [rc_pes rc_data] = pes_bytes [rc_pes (repeat 5 90); rc_pes (repeat 6 85)].
Proof.
  assert (V : carries_header 224) by (split; [lia|]; cbn; intuition lia).
  assert (H : wf_head rc_head) by (split; [|vm_compute; reflexivity]; split; [cbn; lia|]; split; exact Logic.I).
  assert (P : forall d, bytes d -> (length d < 200)%nat -> wf_pes (rc_pes d)).
  { intros d B L. split; [exact V|]. split; [exact H|]. split; [exact B|]. unfold se_len, rc_pes. cbn [se_head se_payload]. change (data_len rc_head) with 0. unfold blen. lia. }
  split; [|split; [|split; [|split; [|split; [|split] ] ] ] ].
  - split; [|repeat constructor]. apply Forall_cons; [|constructor]. split; [cbn; lia|]. split; [cbn; lia|]. split; [cbn; lia|]. cbn [sp_content]. split; [apply rc_check; vm_compute; reflexivity | vm_compute; reflexivity].
  - split; [|unfold rc_two, rc_cut; repeat (apply Forall_cons; [cbn; reflexivity|]); constructor].
    repeat apply Forall_cons; [ | apply ex_p1_wf | | constructor]; (apply rc_cut_wf; [lia | apply rc_check; vm_compute; reflexivity | vm_compute; lia]).
  - apply Forall_cons; [|constructor]. apply P; [apply rc_check; vm_compute; reflexivity | vm_compute; lia].
  - repeat apply Forall_cons; [ | | constructor]; (apply P; [apply rc_check; vm_compute; reflexivity | vm_compute; lia]).
  - vm_compute. reflexivity.
  - vm_compute. reflexivity.
  - reflexivity.
Qed.
Example C129_packs_hyp : Forall wf_pack [ex_pack1; ex_pack2] /\ Forall (fun p : pack => snd p <> []) [ex_pack1; ex_pack2] /\ Forall wf_pes [ex_pes1; ex_pes2] /\
  packs_content [ex_pack1; ex_pack2] = pes_bytes [ex_pes1; ex_pes2] /\
  (let other : pack := (fst ex_pack2, [PsPes ex_pes1; PsPes ex_pes2]) in Forall wf_pack [other] /\ snd other <> [] /\ packs_content [other] = packs_content [ex_pack1; ex_pack2]).
Proof.
  destruct C30_hyp as (W & N & _ & C). split; [exact W|]. split; [exact N|]. split; [repeat (apply Forall_cons; [first [apply ex_wf1 | apply ex_wf2]|]); constructor|]. split; [reflexivity|].
  cbv zeta. split; [|split; [discriminate | reflexivity] ]. apply Forall_cons; [|constructor]. destruct ex_pack2_wf as (A & _). split; [exact A|].
  apply Forall_cons; [split; [apply ex_wf1 | cbn; lia]|]. apply Forall_cons; [split; [apply ex_wf2 | cbn; lia]|]. constructor.
Qed.

Print Assumptions C129_ts.
Print Assumptions C129_pes.
Print Assumptions C129_both.
Print Assumptions C129_packs.
Print Assumptions C129_packs_pes.
