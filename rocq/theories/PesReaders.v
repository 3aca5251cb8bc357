(** PesReaders: the PES payload reader over streams of packets and padding packets. *)
From Verif Require Import Base BitReader Exec Local TsLocal Mono PesModel SpecPes SpecIO PesProofs PesLocal.

(** A stream of packets and padding packets. *)
Inductive pitem : Type := Pkt (s : spes) | Pad (d : list Z).
Definition enc_item (i : pitem) : list bool := match i with Pkt s => enc_pes s | Pad d => enc_padding d end.
Definition enc_items (l : list pitem) : list bool := flat_map enc_item l.
Definition wf_item (i : pitem) : Prop :=
  match i with Pkt s => wf_pes s | Pad d => bytes d /\ blen d < 2 ^ 16 end.

(** What the code delivers: for a padding packet the payload of the packet before it once more. *)
Fixpoint stale_content (prev : list Z) (l : list pitem) : list Z :=
  match l with
  | [] => []
  | Pkt s :: t => se_payload s ++ stale_content (se_payload s) t
  | Pad _ :: t => prev ++ stale_content prev t
  end.
(** What should be delivered. *)
Definition true_content (l : list pitem) : list Z :=
  flat_map (fun i => match i with Pkt s => se_payload s | Pad _ => [] end) l.

Definition item_payload (prev : list Z) (i : pitem) : list Z := match i with Pkt s => se_payload s | Pad _ => prev end.

Lemma stale_cons : forall prev i t,
  stale_content prev (i :: t) = item_payload prev i ++ stale_content (item_payload prev i) t.
Proof. intros prev [s|d] t; reflexivity. Qed.

Lemma next_item : forall i p r l, wf_item i ->
  exists p', pes_next (p, setb r (enc_item i ++ l)) = (Ok tt, (p', setb r l)) /\
             pp_payload p' = item_payload (pp_payload p) i.
Proof.
  intros [s|d] p r l H; cbn [enc_item wf_item item_payload] in *.
  - rewrite pes_next_enc by auto. eexists. split; reflexivity.
  - rewrite pes_next_padding by tauto. eexists. split; reflexivity.
Qed.

Lemma pes_next_end : forall p r, rlater r = [] -> pes_next (p, setb r []) = (Err (rfin r), (p, setb r [])).
Proof.
  intros p r H. unfold pes_next. erewrite bind_onr_err; [reflexivity|].
  unfold peek_n. cbn [rbits setb length Nat.leb]. unfold short. cbn [rbits setb rfin].
  unfold advance. cbn [rlater setb]. rewrite H. reflexivity.
Qed.

Fixpoint es_reads (fuel : nat) (sizes : list nat) (s : esreader) : list (res (list Z * option err)) :=
  match sizes with
  | [] => []
  | n :: t => let '(out, s') := es_read fuel n s in out :: es_reads fuel t s'
  end.

Definition es_holds (r : reader) (k : nat) (s : esreader) (c : list Z) : Prop :=
  exists items, es_br s = setb r (enc_items items) /\ Forall wf_item items /\
    c = es_rem s ++ stale_content (pp_payload (es_cur s)) items /\ (length items < k)%nat.

Lemma es_fill_spec : forall r, rlater r = [] -> forall items fuel p want acc rem,
  Forall wf_item items -> (0 < want)%nat -> (length items < fuel)%nat ->
  let C := stale_content (pp_payload p) items in
  exists s', es_fill fuel p (setb r (enc_items items)) want acc rem =
    (Ok (acc ++ firstn want C, if Nat.leb want (length C) then None else Some (rfin r)), s') /\
    es_holds r (S (length items)) s' (skipn want C).
Proof.
  intros r Hr. induction items as [|i items IH]; intros fuel p want acc rem Hwf Hw Hf C.
  - subst C. destruct want as [|want]; [lia|]. destruct fuel as [|fuel]; [cbn in Hf; lia|].
    cbn [es_fill enc_items flat_map stale_content]. rewrite pes_next_end by auto.
    cbn [length Nat.leb firstn skipn]. rewrite app_nil_r. eexists. split; [reflexivity|].
    exists []. cbn. repeat split; auto.
  - pose proof (Forall_inv Hwf) as Hi. pose proof (Forall_inv_tail Hwf) as Hit.
    subst C. rewrite stale_cons. destruct want as [|want]; [lia|]. destruct fuel as [|fuel]; [cbn in Hf; lia|].
    cbn [es_fill]. unfold enc_items. cbn [flat_map]. fold (enc_items items).
    destruct (next_item i p r (enc_items items) Hi) as (p' & -> & HP). rewrite HP.
    set (d := item_payload (pp_payload p) i) in *. set (n := S want).
    destruct (Nat.le_gt_cases n (length d)) as [L|L].
    + rewrite firstn_length_le by auto. rewrite Nat.sub_diag.
      assert (PF : forall r0 a b, es_fill fuel p' r0 0 a b = (Ok (a, None), mkES r0 p' b)) by (intros; destruct fuel; reflexivity).
      rewrite PF. rewrite app_length, (proj2 (Nat.leb_le _ _)) by lia.
      eexists. split.
      { rewrite firstn_app. replace (n - length d)%nat with 0%nat by lia. rewrite firstn_O, app_nil_r. reflexivity. }
      exists items. cbn [es_br es_cur es_rem]. rewrite HP. repeat split; auto.
      rewrite skipn_app. replace (n - length d)%nat with 0%nat by lia. reflexivity.
    + rewrite firstn_all2 by lia. rewrite skipn_all.
      destruct (IH fuel p' (n - length d)%nat (acc ++ d) [] Hit) as (s' & E & HH); [lia | cbn in Hf; lia |].
      rewrite HP in E, HH. exists s'. rewrite E. split.
      * f_equal. f_equal. rewrite firstn_app, (firstn_all2 (n := n) d), app_assoc by lia.
        f_equal. rewrite app_length.
        destruct (Nat.leb_spec (n - length d) (length (stale_content d items)));
        destruct (Nat.leb_spec n (length d + length (stale_content d items))); auto; lia.
      * destruct HH as (it & A & B & Cc & D). exists it. rewrite skipn_app, (skipn_all2 d) by lia. cbn [app].
        repeat split; auto; cbn [length]; lia.
Qed.

Lemma es_read_spec : forall r, rlater r = [] -> forall k fuel s want c, es_holds r k s c -> (k <= fuel)%nat ->
  exists s', es_read fuel want s = (Ok (fst (ideal_read (rfin r) want c)), s') /\
    es_holds r k s' (snd (ideal_read (rfin r) want c)).
Proof.
  intros r Hr k fuel s want c (items & H1 & H2 & -> & H4) Hk.
  unfold es_read, ideal_read. rewrite app_length, H1.
  destruct (Nat.le_gt_cases want (length (es_rem s))) as [L|L].
  - rewrite firstn_length_le by auto. rewrite Nat.sub_diag, (proj2 (Nat.leb_le _ _)) by lia.
    replace (es_fill fuel (es_cur s) (setb r (enc_items items)) 0 (firstn want (es_rem s)) (skipn want (es_rem s)))
      with (@Ok (list Z * option err) (firstn want (es_rem s), None), mkES (setb r (enc_items items)) (es_cur s) (skipn want (es_rem s))) by (destruct fuel; reflexivity).
    eexists. split.
    + cbn [fst]. rewrite firstn_app. replace (want - length (es_rem s))%nat with 0%nat by lia.
      rewrite firstn_O, app_nil_r. reflexivity.
    + exists items. cbn [es_br es_cur es_rem snd]. repeat split; auto.
      rewrite skipn_app. replace (want - length (es_rem s))%nat with 0%nat by lia. reflexivity.
  - rewrite (firstn_all2 (es_rem s)) by lia. rewrite skipn_all.
    destruct (es_fill_spec r Hr items fuel (es_cur s) (want - length (es_rem s)) (es_rem s) [] H2) as (s' & E & HH); [lia | lia |].
    rewrite E. exists s'.
    set (C := stale_content (pp_payload (es_cur s)) items) in *.
    destruct (Nat.leb_spec want (length (es_rem s) + length C)).
    + rewrite (proj2 (Nat.leb_le _ _)) by lia. cbn [fst snd]. split.
      * f_equal. f_equal. f_equal. rewrite firstn_app. rewrite (firstn_all2 (es_rem s)) by lia. reflexivity.
      * rewrite skipn_app, (skipn_all2 (es_rem s)) by lia. cbn [app].
        destruct HH as (it & A & B & Cc & D). exists it. repeat split; auto. lia.
    + rewrite (proj2 (Nat.leb_gt _ _)) by lia. cbn [fst snd]. split.
      * f_equal. f_equal. f_equal. rewrite firstn_all2 by lia. reflexivity.
      * rewrite skipn_all2 in HH by lia. destruct HH as (it & A & B & Cc & D). exists it. repeat split; auto. lia.
Qed.

Lemma es_reads_spec : forall r, rlater r = [] -> forall k fuel sizes s c, es_holds r k s c -> (k <= fuel)%nat ->
  es_reads fuel sizes s = map Ok (ideal_reads (rfin r) sizes c).
Proof.
  intros r Hr k fuel. induction sizes as [|n sizes IH]; intros s c H Hk; [reflexivity|].
  cbn [es_reads ideal_reads].
  destruct (es_read_spec r Hr k fuel s n c H Hk) as (s' & E & H').
  rewrite E. destruct (ideal_read (rfin r) n c) as [out c'] eqn:EI. cbn [fst snd map] in *.
  f_equal. now apply IH.
Qed.

Lemma es_ideal : forall r items sizes fuel, rlater r = [] -> Forall wf_item items -> (length items < fuel)%nat ->
  es_reads fuel sizes (new_esreader (setb r (enc_items items))) =
  map Ok (ideal_reads (rfin r) sizes (stale_content [] items)).
Proof.
  intros r items sizes fuel Hr H Hf. eapply es_reads_spec; [exact Hr | | exact Hf].
  exists items. cbn. repeat split; auto.
Qed.

Lemma stale_packets : forall ps prev, stale_content prev (map Pkt ps) = concat (map se_payload ps).
Proof. induction ps as [|s ps IH]; intros prev; [reflexivity|]. cbn [map stale_content concat]. now rewrite IH. Qed.
Lemma enc_packets : forall ps, enc_items (map Pkt ps) = enc_pess ps.
Proof. induction ps as [|s ps IH]; [reflexivity|]. unfold enc_items, enc_pess in *. cbn [map flat_map enc_item]. now rewrite IH. Qed.
