(** PsReaders: the pack reader over program streams. *)
From Verif Require Import Base BitReader Exec Local TsLocal Mono PesModel SpecPes SpecIO PesProofs PesLocal PsModel SpecPs PsProofs.

Definition items_content (l : list psitem) : list Z := flat_map psitem_payload l.
Definition enc_psitems (l : list psitem) : list bool := flat_map enc_psitem l.
(** Number of packets. *)
Definition count (items : list psitem) (packs : list pack) : nat :=
  (length items + fold_right (fun p n => length (snd p) + n) 0 packs)%nat.
Definition has_packets (p : pack) : Prop := snd p <> [].

Section End.
  Variables (r RE : reader) (T : list bool) (OUT : list Z -> list Z * option err).
  Hypothesis HT : forall fuel want acc, pr_step (S fuel) (setb r T) want acc = (Ok (OUT acc), mkPR RE []).

  Definition pos (items : list psitem) (packs : list pack) : list bool := enc_psitems items ++ enc_packs packs ++ T.

  Definition pr_holds (k : nat) (s : packreader) (c : list Z) : Prop :=
    exists items packs, pr_br s = setb r (pos items packs) /\ Forall wf_psitem items /\
      Forall wf_pack packs /\ Forall has_packets packs /\
      c = pr_rem s ++ items_content items ++ packs_content packs /\ (count items packs < k)%nat.

  (** One packet of the position [i :: items]. *)
  Lemma step_item : forall fuel i items packs want acc, wf_psitem i -> (0 < want)%nat ->
    pr_step (S fuel) (setb r (pos (i :: items) packs)) want acc =
    match pr_packet (setb r (pos (i :: items) packs)) want acc with
    | (Ok (Some out, _), s) => (Ok out, s)
    | (Ok (None, (want', acc')), s) => pr_step fuel (pr_br s) want' acc'
    | (Err e, s) => (Err e, s)
    | (Panic, s) => (Panic, s)
    | (OutOfFuel, s) => (OutOfFuel, s)
    end.
  Proof.
    intros fuel i items packs want acc Hi Hw. cbn [pr_step]. unfold pos, enc_psitems. cbn [flat_map].
    rewrite <- app_assoc. pose proof (item_id_range i Hi).
    destruct (item_code i (flat_map enc_psitem items ++ enc_packs packs ++ T) Hi) as [l' E]. rewrite E.
    rewrite peek_enc by (change (2 ^ Z.of_nat 32) with 4294967296; lia). unfold ProgramEndCode, PackStartCode.
    rewrite (proj2 (Z.eqb_neq _ 441)), (proj2 (Z.eqb_neq _ 442)) by lia. reflexivity.
  Qed.
  Lemma step_pack : forall fuel h i items packs want acc, wf_packhead h -> wf_psitem i -> (0 < want)%nat ->
    pr_step (S fuel) (setb r (pos [] ((h, i :: items) :: packs))) want acc =
    match pr_packet (setb r (pos (i :: items) packs)) want acc with
    | (Ok (Some out, _), s) => (Ok out, s)
    | (Ok (None, (want', acc')), s) => pr_step fuel (pr_br s) want' acc'
    | (Err e, s) => (Err e, s)
    | (Panic, s) => (Panic, s)
    | (OutOfFuel, s) => (OutOfFuel, s)
    end.
  Proof.
    intros fuel h i items packs want acc Hh Hi Hw. cbn [pr_step]. unfold pos, enc_psitems, enc_packs.
    cbn [flat_map app].
    change (enc_pack (h, i :: items)) with (enc_packhead h ++ enc_psitem i ++ flat_map enc_psitem items). rewrite <- !app_assoc.
    pose proof (item_id_range i Hi).
    set (R := flat_map enc_psitem items ++ flat_map enc_pack packs ++ T).
    destruct (item_code i R Hi) as [l' E]. rewrite E.
    assert (EH : exists x, enc_packhead h ++ enc 32 (256 + item_id i) ++ l' = enc 32 442 ++ x).
    { unfold enc_packhead. rewrite <- !app_assoc. eexists. reflexivity. }
    destruct EH as [x EH].
    replace (peek_n 32 (setb r (enc_packhead h ++ enc 32 (256 + item_id i) ++ l')))
      with (@Ok Z 442, setb r (enc_packhead h ++ enc 32 (256 + item_id i) ++ l')).
    2:{ rewrite EH. symmetry. apply peek_enc. cbn. lia. }
    cbn [Z.eqb Pos.eqb ProgramEndCode PackStartCode].
    rewrite pack_header_enc by (auto; lia). reflexivity.
  Qed.

  Lemma pr_packet_spec : forall i items packs want acc, wf_psitem i ->
    pr_packet (setb r (pos (i :: items) packs)) want acc =
    let d := psitem_payload i in
    if Nat.leb want (length d)
    then (Ok (Some (acc ++ firstn want d, None), (O, [])), mkPR (setb r (pos items packs)) (skipn want d))
    else (Ok (None, ((want - length d)%nat, acc ++ d)), mkPR (setb r (pos items packs)) []).
  Proof.
    intros i items packs want acc Hi. unfold pr_packet, pos, enc_psitems. cbn [flat_map]. rewrite <- app_assoc.
    rewrite new_pes_item by auto. rewrite go_item_payload. cbv zeta.
    destruct (Nat.leb_spec want (length (psitem_payload i))).
    - rewrite firstn_length_le by auto. rewrite Nat.sub_diag. reflexivity.
    - rewrite firstn_all2 by lia. destruct (want - length (psitem_payload i))%nat eqn:E; [lia|]. reflexivity.
  Qed.

  Lemma pr_step_spec : forall k items packs fuel want acc,
    count items packs = k -> Forall wf_psitem items -> Forall wf_pack packs -> Forall has_packets packs ->
    (0 < want)%nat -> (k < fuel)%nat ->
    let C := items_content items ++ packs_content packs in
    if Nat.leb want (length C)
    then exists s', pr_step fuel (setb r (pos items packs)) want acc = (Ok (acc ++ firstn want C, None), s') /\
           pr_holds (S k) s' (skipn want C)
    else pr_step fuel (setb r (pos items packs)) want acc = (Ok (OUT (acc ++ C)), mkPR RE []).
  Proof.
    induction k as [|k IH]; intros items packs fuel want acc HK H1 H2 H3 Hw Hf C.
    - (* nothing left *)
      assert (items = []) by (destruct items; [auto | unfold count in HK; cbn in HK; lia]). subst items.
      assert (packs = []).
      { destruct packs as [|[h it] packs]; [auto|]. pose proof (Forall_inv H3) as N. unfold has_packets in N.
        cbn [snd] in N. destruct it; [tauto | unfold count in HK; cbn in HK; lia]. }
      subst packs. subst C. cbn [items_content packs_content flat_map app length].
      rewrite (proj2 (Nat.leb_gt want 0)) by lia. destruct fuel; [lia|].
      unfold pos, enc_psitems, enc_packs. cbn [flat_map app]. rewrite HT. now rewrite app_nil_r.
    - (* one packet *)
      assert (ST : exists i items' packs', wf_psitem i /\ Forall wf_psitem items' /\ Forall wf_pack packs' /\
                Forall has_packets packs' /\ count items' packs' = k /\
                C = psitem_payload i ++ items_content items' ++ packs_content packs' /\
                forall fuel want acc, (0 < want)%nat -> pr_step (S fuel) (setb r (pos items packs)) want acc =
                  match pr_packet (setb r (pos (i :: items') packs')) want acc with
                  | (Ok (Some out, _), s) => (Ok out, s)
                  | (Ok (None, (want', acc')), s) => pr_step fuel (pr_br s) want' acc'
                  | (Err e, s) => (Err e, s)
                  | (Panic, s) => (Panic, s)
                  | (OutOfFuel, s) => (OutOfFuel, s)
                  end).
      { destruct items as [|i items].
        - destruct packs as [|[h [|i it]] packs].
          + unfold count in HK. cbn in HK. lia.
          + pose proof (Forall_inv H3) as N. unfold has_packets in N. cbn in N. tauto.
          + destruct (Forall_inv H2) as [Hh Hit]. cbn [fst snd] in *.
            exists i, it, packs. split; [now apply Forall_inv in Hit|]. split; [now apply Forall_inv_tail in Hit|].
            split; [now apply Forall_inv_tail in H2|]. split; [now apply Forall_inv_tail in H3|].
            split; [unfold count in *; cbn [length fold_right snd] in HK; lia|].
            split. { subst C. cbn [items_content packs_content flat_map app]. unfold pack_content at 1. cbn [snd flat_map].
                     now rewrite <- app_assoc. }
            intros. apply step_pack; auto. now apply Forall_inv in Hit.
        - exists i, items, packs. split; [now apply Forall_inv in H1|]. split; [now apply Forall_inv_tail in H1|].
          split; [auto|]. split; [auto|]. split; [unfold count in *; cbn [length] in HK; lia|].
          split. { subst C. cbn [items_content flat_map]. now rewrite <- app_assoc. }
          intros. apply step_item; auto. now apply Forall_inv in H1. }
      destruct ST as (i & items' & packs' & A1 & A2 & A3 & A4 & A5 & A6 & A7).
      destruct fuel as [|fuel]; [lia|]. rewrite A6, A7 by auto. rewrite pr_packet_spec by auto. cbv zeta.
      set (d := psitem_payload i) in *. set (C' := items_content items' ++ packs_content packs') in *.
      rewrite app_length.
      destruct (Nat.leb_spec want (length d)) as [L|L].
      + rewrite (proj2 (Nat.leb_le _ _)) by lia. eexists. split.
        { rewrite firstn_app. replace (want - length d)%nat with 0%nat by lia. rewrite firstn_O, app_nil_r. reflexivity. }
        exists items', packs'. cbn [pr_br pr_rem]. repeat split; auto.
        * rewrite skipn_app. replace (want - length d)%nat with 0%nat by lia. reflexivity.
        * lia.
      + cbn [pr_br]. specialize (IH items' packs' fuel (want - length d)%nat (acc ++ d) A5 A2 A3 A4 ltac:(lia) ltac:(lia)).
        cbv zeta in IH. fold C' in IH.
        destruct (Nat.leb_spec (want - length d) (length C')) as [L'|L'].
        * rewrite (proj2 (Nat.leb_le _ _)) by lia. destruct IH as (s' & E & HH). exists s'. rewrite E. split.
          { rewrite firstn_app, (firstn_all2 (n := want) d), app_assoc by lia. reflexivity. }
          { rewrite skipn_app, (skipn_all2 d) by lia. cbn [app].
            destruct HH as (a & b & B1 & B2 & B3 & B4 & B5 & B6). exists a, b. repeat split; auto. }
        * rewrite (proj2 (Nat.leb_gt _ _)) by lia. rewrite IH. now rewrite app_assoc.
  Qed.

  Lemma pr_read_spec : forall k fuel s want c, pr_holds k s c -> (k <= fuel)%nat ->
    if Nat.leb want (length c)
    then exists s', pr_read fuel want s = (Ok (firstn want c, None), s') /\ pr_holds k s' (skipn want c)
    else pr_read fuel want s = (Ok (OUT c), mkPR RE []).
  Proof.
    intros k fuel s want c (items & packs & H1 & H2 & H3 & H4 & -> & H6) Hf. unfold pr_read. rewrite H1.
    set (C := items_content items ++ packs_content packs). rewrite app_length.
    destruct (Nat.leb_spec want (length (pr_rem s))) as [L|L].
    - rewrite firstn_length_le by auto. rewrite Nat.sub_diag, (proj2 (Nat.leb_le _ _)) by lia.
      eexists. split.
      + rewrite firstn_app. replace (want - length (pr_rem s))%nat with 0%nat by lia. rewrite firstn_O, app_nil_r. reflexivity.
      + exists items, packs. cbn [pr_br pr_rem]. repeat split; auto.
        rewrite skipn_app. replace (want - length (pr_rem s))%nat with 0%nat by lia. reflexivity.
    - rewrite (firstn_all2 (pr_rem s)) by lia.
      destruct (want - length (pr_rem s))%nat as [|w] eqn:EW; [lia|].
      pose proof (pr_step_spec (count items packs) items packs fuel (S w) (pr_rem s) eq_refl H2 H3 H4 ltac:(lia) ltac:(lia)) as P.
      cbv zeta in P. fold C in P.
      destruct (Nat.leb_spec (S w) (length C)) as [L'|L'].
      + rewrite (proj2 (Nat.leb_le _ _)) by lia. destruct P as (s' & E & HH). exists s'. rewrite E. split.
        * rewrite firstn_app, (firstn_all2 (pr_rem s)) by lia. now rewrite EW.
        * rewrite skipn_app, (skipn_all2 (pr_rem s)) by lia. rewrite EW. cbn [app].
          destruct HH as (a & b & B1 & B2 & B3 & B4 & B5 & B6). exists a, b. repeat split; auto. lia.
      + rewrite (proj2 (Nat.leb_gt _ _)) by lia. exact P.
  Qed.
End End.

(** ** Sequences of reads *)
Fixpoint pr_reads (fuel : nat) (sizes : list nat) (s : packreader) : list (res (list Z * option err)) :=
  match sizes with
  | [] => []
  | n :: t => let '(out, s') := pr_read fuel n s in out :: pr_reads fuel t s'
  end.

(** A reader that delivers [c], answers the first read that asks for more with [out rest] and all later
    ones with 0, nil. *)
Fixpoint falls_silent (out : list Z -> list Z * option err) (sizes : list nat) (c : list Z) : list (list Z * option err) :=
  match sizes with
  | [] => []
  | n :: t => if Nat.leb n (length c) then (firstn n c, None) :: falls_silent out t (skipn n c)
              else out c :: map (fun _ => ([], None)) t
  end.

Lemma silent_reads : forall r fuel sizes, rlater r = [] ->
  pr_reads (S fuel) sizes (mkPR (setb r []) []) = map (fun _ => Ok ([], None)) sizes.
Proof.
  intros r fuel sizes Hr. induction sizes as [|n t IH]; [reflexivity|]. cbn [pr_reads map].
  assert (E : pr_read (S fuel) n (mkPR (setb r []) []) = (Ok ([], None), mkPR (setb r []) [])).
  { unfold pr_read. cbn [pr_rem pr_br]. rewrite firstn_nil. cbn [length]. rewrite Nat.sub_0_r. destruct n; [reflexivity|].
    cbn [pr_step]. unfold peek_n. cbn [rbits setb length Nat.leb]. unfold short. cbn [rbits setb].
    unfold advance. cbn [rlater setb]. rewrite Hr. reflexivity. }
  rewrite E. f_equal. exact IH.
Qed.

Lemma pr_reads_silent : forall r T OUT, rlater r = [] ->
  (forall fuel want acc, pr_step (S fuel) (setb r T) want acc = (Ok (OUT acc), mkPR (setb r []) [])) ->
  forall k fuel sizes s c, pr_holds r T k s c -> (k <= S fuel)%nat ->
  pr_reads (S fuel) sizes s = map Ok (falls_silent OUT sizes c).
Proof.
  intros r T OUT Hr HT k fuel. induction sizes as [|n t IH]; intros s c H Hk; [reflexivity|].
  cbn [pr_reads falls_silent]. pose proof (pr_read_spec r (setb r []) T OUT HT k (S fuel) s n c H Hk) as P.
  destruct (Nat.leb n (length c)).
  - destruct P as (s' & -> & H'). cbn [map]. f_equal. now apply IH.
  - rewrite P. cbn [map]. f_equal. rewrite silent_reads by auto. now rewrite map_map.
Qed.

(** Up to the first error. *)
Fixpoint until_err (outs : list (list Z * option err)) : list (list Z * option err) :=
  match outs with
  | [] => []
  | o :: t => o :: match snd o with None => until_err t | Some _ => [] end
  end.
Fixpoint until_err' (outs : list (res (list Z * option err))) : list (res (list Z * option err)) :=
  match outs with
  | [] => []
  | o :: t => o :: match o with Ok (_, None) => until_err' t | _ => [] end
  end.

Lemma pr_reads_until : forall r RE T e,
  (forall fuel want acc, pr_step (S fuel) (setb r T) want acc = (Ok (acc, Some e), mkPR RE [])) ->
  forall k fuel sizes s c, pr_holds r T k s c -> (k <= fuel)%nat ->
  until_err' (pr_reads fuel sizes s) = map Ok (until_err (ideal_reads e sizes c)).
Proof.
  intros r RE T e HT k fuel. induction sizes as [|n t IH]; intros s c H Hk; [reflexivity|].
  cbn [pr_reads ideal_reads]. pose proof (pr_read_spec r RE T (fun a => (a, Some e)) HT k fuel s n c H Hk) as P.
  unfold ideal_read. destruct (Nat.leb n (length c)).
  - destruct P as (s' & -> & H'). cbn [until_err until_err' map snd]. f_equal. now apply IH.
  - rewrite P. reflexivity.
Qed.

Lemma step_end : forall r after fuel want acc,
  pr_step (S fuel) (setb r (enc_end ++ after)) want acc = (Ok (acc, Some EEOF), mkPR (setb r after) []).
Proof.
  intros. cbn [pr_step]. unfold enc_end. rewrite peek_enc by (cbn; lia). cbn [Z.eqb Pos.eqb ProgramEndCode].
  rewrite skip_enc. reflexivity.
Qed.
Lemma step_nothing : forall r fuel want acc, rlater r = [] ->
  pr_step (S fuel) (setb r []) want acc = (Ok ([], None), mkPR (setb r []) []).
Proof.
  intros r fuel want acc Hr. cbn [pr_step]. unfold peek_n. cbn [rbits setb length Nat.leb]. unfold short. cbn [rbits setb].
  unfold advance. cbn [rlater setb]. rewrite Hr. reflexivity.
Qed.

Definition packets_in (packs : list pack) : nat := count [] packs.
Lemma pr_holds_init : forall r T packs, Forall wf_pack packs -> Forall has_packets packs ->
  pr_holds r T (S (packets_in packs)) (new_packreader (setb r (enc_packs packs ++ T))) (packs_content packs).
Proof. intros. exists [], packs. cbn. repeat split; auto. Qed.
