(** UnitFaults: the payload unit reader up to the first error of Next. *)
From Verif Require Import Base BitReader Exec Local TsModel SpecIO TsReaders TsRobust Mono Conc ConcProofs.

Definition begins (w : tester) (p : packet) : bool := w p && pk_pusi p.
Definition adds (w : tester) (p : packet) : list Z := if w p then pk_payload p else [].

(** The units closed by a later start, [cur] being the one that is open *)
Fixpoint closed_units (w : tester) (cur : list Z) (ps : list packet) : list (list Z) :=
  match ps with
  | [] => []
  | q :: t => if begins w q then cur :: closed_units w (pk_payload q) t else closed_units w (cur ++ adds w q) t
  end.
Fixpoint all_units (w : tester) (ps : list packet) : list (list Z) :=
  match ps with
  | [] => []
  | q :: t => if begins w q then closed_units w (pk_payload q) t else all_units w t
  end.

Lemma begins_adds : forall w p, begins w p = true -> adds w p = pk_payload p.
Proof. intros w p H. unfold begins in H. apply andb_prop in H. unfold adds. rewrite (proj1 H). reflexivity. Qed.

Lemma collect_parsed : forall e ps s p r buf fuel, parsed (p, r) ps (Err e) -> (length ps < fuel)%nat ->
  match closed_units (ur_where s) (buf ++ adds (ur_where s) p) ps with
  | [] => exists s', ur_collect fuel s p r buf = (Ok (Some e), s')
  | u :: us => exists q r' ps', ur_collect fuel s p r buf = (Ok None, ur_set s q r' u false) /\ begins (ur_where s) q = true /\
      parsed (q, r') ps' (Err e) /\ us = closed_units (ur_where s) (adds (ur_where s) q) ps' /\ (length ps' < length ps)%nat
  end.
Proof.
  intros e. induction ps as [|q ps IH]; intros s p r buf fuel H Hf; (destruct fuel as [|fuel]; [lia|]); cbn [closed_units ur_collect].
  - inversion H as [st x st' E N|]; subst. rewrite E. destruct st' as [p' r']. eauto.
  - inversion H as [|st [q' r'] ps0 x E HP]; subst. cbn [fst] in *. rewrite E.
    replace (if ur_where s p then buf ++ pk_payload p else buf) with (buf ++ adds (ur_where s) p)
      by (unfold adds; destruct (ur_where s p); [reflexivity | apply app_nil_r]).
    change (ur_start s q) with (begins (ur_where s) q). destruct (begins (ur_where s) q) eqn:B.
    + exists q, r', ps. rewrite (begins_adds _ q) by exact B. repeat split; auto; cbn; lia.
    + specialize (IH s q r' (buf ++ adds (ur_where s) p) fuel HP ltac:(cbn in Hf; lia)).
      destruct (closed_units (ur_where s) ((buf ++ adds (ur_where s) p) ++ adds (ur_where s) q) ps) as [|u us]; [exact IH|].
      destruct IH as (q2 & r2 & ps' & A1 & A2 & A3 & A4 & A5). exists q2, r2, ps'. repeat split; auto; cbn; lia.
Qed.

Lemma seek_parsed : forall e ps s p r fuel, parsed (p, r) ps (Err e) -> begins (ur_where s) p = false -> (length ps < fuel)%nat ->
  (Forall (fun q => begins (ur_where s) q = false) ps /\ exists s', ur_seek fuel s p r = (Err e, s')) \/
  (exists pre q post r', ps = pre ++ q :: post /\ Forall (fun q => begins (ur_where s) q = false) pre /\ begins (ur_where s) q = true /\
     ur_seek fuel s p r = (Ok tt, (q, r')) /\ parsed (q, r') post (Err e)).
Proof.
  intros e. induction ps as [|q ps IH]; intros s p r fuel H B Hf; (destruct fuel as [|fuel]; [lia|]); cbn [ur_seek];
    change (ur_start s p) with (begins (ur_where s) p); rewrite B.
  - inversion H as [st x st' E N|]; subst. rewrite E. left. split; [constructor | eauto].
  - inversion H as [|st [q' r'] ps0 x E HP]; subst. cbn [fst] in *. rewrite E. destruct (begins (ur_where s) q) eqn:B2.
    + right. exists [], q, ps, r'. assert (ur_seek fuel s q r' = (Ok tt, (q, r'))) by (destruct fuel; cbn [ur_seek]; change (ur_start s q) with (begins (ur_where s) q); rewrite B2; reflexivity). repeat split; auto.
    + destruct (IH s q r' fuel HP B2 ltac:(cbn in Hf; lia)) as [(F & s' & X)|(pre & q2 & post & r2 & -> & F & Bq & X & Pq)].
      * left. split; [constructor; assumption | eauto].
      * right. exists (q :: pre), q2, post, r2. repeat split; auto.
Qed.

(** [unit_holds w e cur us s]: [cur] is left of the unit that is read, the units [us] follow, then comes [e]. *)
Definition unit_holds (w : tester) (e : err) (fuel : nat) (cur : option (list Z)) (us : list (list Z)) (s : ureader) : Prop :=
  ur_where s = w /\
  match cur with
  | Some b => ur_ready s = true /\ ur_buf s = b /\
      exists p ps, ur_cur s = Some p /\ parsed (p, ur_br s) ps (Err e) /\ us = closed_units w (adds w p) ps /\ (length ps < fuel)%nat
  | None => ur_ready s = false /\ ur_buf s = [] /\
      ((exists p ps, ur_cur s = Some p /\ parsed (p, ur_br s) ps (Err e) /\ us = closed_units w (adds w p) ps /\ (length ps < fuel)%nat) \/
       (exists ps, ur_cur s = None /\ parsed (zero_packet, ur_br s) ps (Err e) /\ us = all_units w ps /\ (length ps < fuel)%nat))
  end.

Lemma all_units_app : forall w pre q post, Forall (fun q => begins w q = false) pre -> begins w q = true ->
  all_units w (pre ++ q :: post) = closed_units w (adds w q) post.
Proof.
  intros w pre q post H B. induction H as [|x l Hx Hl IH]; cbn [app all_units]; [rewrite B, begins_adds by exact B; reflexivity|].
  rewrite Hx. exact IH.
Qed.
Lemma all_units_none : forall w ps, Forall (fun q => begins w q = false) ps -> all_units w ps = [].
Proof. intros w ps H. induction H as [|x l Hx Hl IH]; cbn [all_units]; [reflexivity|]. rewrite Hx. exact IH. Qed.

Lemma drain_holds : forall w e fuel n b us s, ur_where s = w -> ur_buf s = b ->
  (exists p ps, ur_cur s = Some p /\ parsed (p, ur_br s) ps (Err e) /\ us = closed_units w (adds w p) ps /\ (length ps < fuel)%nat) ->
  exists s', ur_drain n s = (Ok (fst (unit_read e n (Some b) us)), s') /\
    unit_holds w e fuel (fst (snd (unit_read e n (Some b) us))) (snd (snd (unit_read e n (Some b) us))) s'.
Proof.
  intros w e fuel n b us s <- <- H. unfold ur_drain, unit_read.
  destruct (Nat.leb_spec n (length (ur_buf s))) as [L|L].
  - rewrite firstn_length_le by exact L. rewrite (proj2 (Nat.ltb_ge n n)) by lia. eexists. split; [reflexivity|].
    cbn [fst snd]. split; [reflexivity|]. cbn [ur_ready ur_buf ur_cur ur_br]. auto.
  - rewrite firstn_all2, skipn_all by lia. rewrite (proj2 (Nat.ltb_lt _ n)) by lia. eexists. split; [reflexivity|].
    cbn [fst snd]. split; [reflexivity|]. cbn [ur_ready ur_buf ur_cur ur_br]. auto.
Qed.

Lemma read_holds : forall w e fuel n cur us s, unit_holds w e fuel cur us s ->
  exists s', ur_read fuel n s = (Ok (fst (unit_read e n cur us)), s') /\
    ((cur = None /\ us = [] /\ fst (unit_read e n cur us) = ([], Some e)) \/
     unit_holds w e fuel (fst (snd (unit_read e n cur us))) (snd (snd (unit_read e n cur us))) s').
Proof.
  intros w e fuel n [b|] us s (Hw & H).
  - destruct H as (H1 & H2 & H3). unfold ur_read. rewrite H1. destruct (drain_holds w e fuel n b us s Hw H2 H3) as (s' & E & K). exists s'. split; [exact E | right; exact K].
  - destruct H as (H1 & H2 & H3). unfold ur_read. rewrite H1. unfold ur_fill.
    assert (COL : forall p r ps, parsed (p, r) ps (Err e) -> us = closed_units w (adds w p) ps -> (length ps < fuel)%nat ->
      exists s', (match ur_collect fuel s p r (ur_buf s) with
        | (Ok None, s') => ur_drain n s' | (Ok (Some e), s') => (Ok ([], Some e), s')
        | (Err e, s') => (Ok ([], Some e), s') | (Panic, s') => (Panic, s') | (OutOfFuel, s') => (OutOfFuel, s') end) = (Ok (fst (unit_read e n None us)), s') /\
      ((@None (list Z) = None /\ us = [] /\ fst (unit_read e n None us) = ([], Some e)) \/
       unit_holds w e fuel (fst (snd (unit_read e n None us))) (snd (snd (unit_read e n None us))) s')).
    { intros p r ps HP HU HL. pose proof (collect_parsed e ps s p r (ur_buf s) fuel HP HL) as K. rewrite Hw, H2 in K. cbn [app] in K. rewrite <- HU in K. rewrite H2.
      destruct us as [|u us].
      - destruct K as (s' & ->). exists s'. split; [reflexivity|]. left. auto.
      - destruct K as (q & r' & ps' & -> & B & Pq & Eu & Ll).
        destruct (drain_holds w e fuel n u us (ur_set s q r' u false)) as (s' & E & HH); [exact Hw | reflexivity | |].
        { exists q, ps'. cbn [ur_set ur_cur ur_br]. repeat split; auto. lia. }
        exists s'. split; [exact E | right; exact HH]. }
    destruct H3 as [(p & ps & Ec & HP & HU & HL)|(ps & Ec & HP & HU & HL)]; rewrite Ec.
    + apply (COL p (ur_br s) ps); auto.
    + destruct (seek_parsed e ps s zero_packet (ur_br s) fuel HP) as [(F & st & X)|(pre & q & post & r' & -> & F & B & X & Pq)]; [unfold begins; cbn [zero_packet pk_pusi]; apply andb_false_r | exact HL | |].
      * rewrite X. destruct st as [p1 r1]. rewrite Hw in F. rewrite (all_units_none w ps F) in HU. subst us. eexists. split; [reflexivity|]. left. auto.
      * rewrite X. rewrite Hw in *. apply (COL q r' post Pq); [rewrite HU; apply all_units_app; assumption|].
        rewrite app_length in HL. cbn [length] in HL. lia.
Qed.

Lemma reads_until : forall w e fuel, e <> EOP -> forall sizes cur us s i, unit_holds w e fuel cur us s ->
  Forall (fun o => snd o <> Some e) (firstn i (unit_reads e sizes cur us)) ->
  firstn (S i) (ur_reads fuel sizes s) = map Ok (firstn (S i) (unit_reads e sizes cur us)).
Proof.
  intros w e fuel He. induction sizes as [|n t IH]; intros cur us s i H F; [destruct i; reflexivity|].
  cbn [unit_reads ur_reads] in *. destruct (read_holds w e fuel n cur us s H) as (s' & E & K). rewrite E.
  destruct (unit_read e n cur us) as [out [cur' us']]. cbn [fst snd] in *. cbn [firstn map]. f_equal.
  destruct i as [|i]; [reflexivity|]. cbn [firstn] in F. inversion F as [|? ? F1 F2]; subst.
  destruct K as [(_ & _ & ->)|K]; [exfalso; apply F1; reflexivity|]. apply IH; [exact K | exact F2].
Qed.

(** The calls of Next, computed *)
Fixpoint run_parsed (fuel : nat) (s : packet * reader) : list packet * res unit :=
  match fuel with
  | O => ([], OutOfFuel)
  | S f => match packet_next s with
           | (Ok _, s') => let '(ps, x) := run_parsed f s' in (fst s' :: ps, x)
           | (x, _) => ([], x)
           end
  end.
Lemma run_parsed_ok : forall fuel s e, snd (run_parsed fuel s) = Err e -> parsed s (fst (run_parsed fuel s)) (Err e).
Proof.
  induction fuel as [|fuel IH]; intros s e H; cbn [run_parsed] in *; [discriminate|].
  destruct (packet_next s) as [[[]|e1| |] s'] eqn:E; try discriminate.
  - specialize (IH s' e). destruct (run_parsed fuel s') as [ps x]. cbn [fst snd] in *. eapply parsed_cons; [exact E | apply IH; exact H].
  - cbn [fst snd] in *. assert (e1 = e) as -> by congruence. eapply parsed_end; [exact E | discriminate].
Qed.
