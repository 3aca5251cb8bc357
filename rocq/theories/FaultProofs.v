(** FaultProofs: the payload readers of ts and pes over sources with errors. *)
From Verif Require Import Base BitReader Exec Local TsModel TsReaders TsRobust Mono PesModel PesLocal PesReaders SpecFaults.

(** Tapes *)
Lemma tape_bytes_ge : forall bs n t, (n <= length bs)%nat ->
  tape_read n (map Byte bs ++ t) = Some ((firstn n bs, None), map Byte (skipn n bs) ++ t).
Proof.
  induction bs as [|b bs IH]; intros n t H.
  - destruct n; [reflexivity | cbn in H; lia].
  - destruct n as [|n]; [reflexivity|]. cbn [map app tape_read firstn skipn]. rewrite IH by (cbn in H; lia). reflexivity.
Qed.

Lemma tape_bytes_lt : forall bs n t, (length bs <= n)%nat ->
  tape_read n (map Byte bs ++ t) =
  match tape_read (n - length bs) t with None => None | Some ((c, e), t') => Some ((bs ++ c, e), t') end.
Proof.
  induction bs as [|b bs IH]; intros n t H.
  - cbn [map app length]. rewrite Nat.sub_0_r. destruct (tape_read n t) as [[[c e] t']|]; reflexivity.
  - destruct n as [|n]; [cbn in H; lia|]. cbn [map app tape_read length Nat.sub]. rewrite IH by (cbn in H; lia).
    destruct (tape_read (n - length bs) t) as [[[c e] t']|]; reflexivity.
Qed.

(** Both readers fill from the packets in the same way. *)
Fixpoint gfill {P} (next : P * reader -> res unit * (P * reader)) (shows : P -> list Z) (fuel : nat) (p : P) (r : reader) (want : nat)
  (acc rem : list Z) : res (list Z * option err) * ((P * reader) * list Z) :=
  match want with
  | O => (Ok (acc, None), ((p, r), rem))
  | S _ =>
    match fuel with
    | O => (OutOfFuel, ((p, r), []))
    | S f =>
      match next (p, r) with
      | (Ok _, (p', r')) =>
          let c := firstn want (shows p') in
          gfill next shows f p' r' (want - length c) (acc ++ c) (skipn (length c) (shows p'))
      | (Err e, (p', r')) => (Ok (acc, Some e), ((p', r'), []))
      | (Panic, (p', r')) => (Panic, ((p', r'), []))
      | (OutOfFuel, (p', r')) => (OutOfFuel, ((p', r'), []))
      end
    end
  end.

Lemma gfill_zero : forall P next shows fuel (p : P) r acc rem, gfill next shows fuel p r 0 acc rem = (Ok (acc, None), ((p, r), rem)).
Proof. intros. destruct fuel; reflexivity. Qed.

Definition gread {P} (next : P * reader -> res unit * (P * reader)) shows fuel (want : nat) (s : (P * reader) * list Z)
  : res (list Z * option err) * ((P * reader) * list Z) :=
  let c := firstn want (snd s) in
  gfill next shows fuel (fst (fst s)) (snd (fst s)) (want - length c) c (skipn (length c) (snd s)).

Fixpoint greads {P} (next : P * reader -> res unit * (P * reader)) shows fuel (sizes : list nat) (s : (P * reader) * list Z)
  : list (res (list Z * option err)) :=
  match sizes with
  | [] => []
  | n :: t => let '(out, s') := gread next shows fuel n s in out :: greads next shows fuel t s'
  end.

Lemma gfill_tape : forall P (next : P * reader -> res unit * (P * reader)) shows k p r tape s',
  calls next shows k (p, r) tape s' -> forall fuel want acc out t2, (k <= fuel)%nat -> (0 < want)%nat ->
  tape_read want tape = Some (out, t2) -> forall rem,
  exists k2 p2 r2 rem2 t3, gfill next shows fuel p r want acc rem = (Ok (acc ++ fst out, snd out), ((p2, r2), rem2)) /\
    t2 = map Byte rem2 ++ t3 /\ calls next shows k2 (p2, r2) t3 s' /\ (k2 <= k)%nat.
Proof.
  intros P next shows k p r tape s' H. remember (p, r) as s eqn:Es. revert p r Es.
  induction H as [s|k s p1 r1 tape s' E H IH|k s e s1 tape s' E H IH]; intros p r -> fuel want acc out t2 Hf Hw HT rem;
    destruct want as [|want]; try lia.
  - discriminate.
  - destruct fuel as [|fuel]; [lia|]. cbn [gfill]. rewrite E. set (n := S want) in *. set (d := shows p1) in *.
    destruct (Nat.le_gt_cases n (length d)) as [L|L].
    + rewrite firstn_length_le, Nat.sub_diag, gfill_zero by exact L. rewrite tape_bytes_ge in HT by exact L.
      assert (out = (firstn n d, None) /\ t2 = map Byte (skipn n d) ++ tape) as (-> & ->) by (split; congruence).
      exists k, p1, r1, (skipn n d), tape. repeat split; auto.
    + rewrite firstn_all2, skipn_all by lia. rewrite tape_bytes_lt in HT by lia.
      destruct (tape_read (n - length d) tape) as [[[c e] t']|] eqn:ET; [|discriminate].
      assert (out = (d ++ c, e) /\ t2 = t') as (-> & ->) by (split; congruence).
      destruct (IH p1 r1 eq_refl fuel (n - length d)%nat (acc ++ d) (c, e) t') with (rem := @nil Z) as (k2 & p2 & r2 & rem2 & t3 & G & Q & C & Lk); [lia|lia|exact ET|].
      exists k2, p2, r2, rem2, t3. rewrite G. cbn [fst snd]. rewrite <- app_assoc. repeat split; auto.
  - destruct fuel as [|fuel]; [lia|]. cbn [gfill]. rewrite E. destruct s1 as [p1 r1].
    cbn [tape_read] in HT. assert (out = ([], Some e) /\ t2 = tape) as (-> & ->) by (split; congruence).
    exists k, p1, r1, [], tape. cbn [fst snd map app]. rewrite app_nil_r. repeat split; auto.
Qed.

Lemma gread_tape : forall P (next : P * reader -> res unit * (P * reader)) shows k p r rem tape s' fuel want out t2,
  calls next shows k (p, r) tape s' -> (k <= fuel)%nat -> tape_read want (map Byte rem ++ tape) = Some (out, t2) ->
  exists k2 p2 r2 rem2 t3, gread next shows fuel want ((p, r), rem) = (Ok out, ((p2, r2), rem2)) /\
    t2 = map Byte rem2 ++ t3 /\ calls next shows k2 (p2, r2) t3 s' /\ (k2 <= k)%nat.
Proof.
  intros P next shows k p r rem tape s' fuel want out t2 H Hf HT. unfold gread. cbn [fst snd].
  destruct (Nat.le_gt_cases want (length rem)) as [L|L].
  - rewrite firstn_length_le, Nat.sub_diag, gfill_zero by exact L. rewrite tape_bytes_ge in HT by exact L.
    assert (out = (firstn want rem, None) /\ t2 = map Byte (skipn want rem) ++ tape) as (-> & ->) by (split; congruence).
    exists k, p, r, (skipn want rem), tape. repeat split; auto.
  - rewrite firstn_all2, skipn_all by lia. rewrite tape_bytes_lt in HT by lia.
    destruct (tape_read (want - length rem) tape) as [[[c e] t']|] eqn:ET; [|discriminate].
    assert (out = (rem ++ c, e) /\ t2 = t') as (-> & ->) by (split; congruence).
    destruct (gfill_tape _ _ _ _ _ _ _ _ H fuel (want - length rem)%nat rem (c, e) t') with (rem := @nil Z) as (k2 & p2 & r2 & rem2 & t3 & G & Q & C & Lk); [lia|lia|exact ET|].
    exists k2, p2, r2, rem2, t3. rewrite G. cbn [fst snd]. repeat split; auto.
Qed.

Lemma greads_tape : forall P (next : P * reader -> res unit * (P * reader)) shows s' fuel sizes k p r rem tape outs,
  calls next shows k (p, r) tape s' -> (k <= fuel)%nat -> tape_reads sizes (map Byte rem ++ tape) = Some outs ->
  greads next shows fuel sizes ((p, r), rem) = map Ok outs.
Proof.
  intros P next shows s' fuel. induction sizes as [|n t IH]; intros k p r rem tape outs H Hf HT; cbn [tape_reads greads] in *.
  - assert (outs = []) as -> by congruence. reflexivity.
  - destruct (tape_read n (map Byte rem ++ tape)) as [[out t2]|] eqn:E1; [|discriminate].
    destruct (tape_reads t t2) as [outs'|] eqn:E2; [|discriminate].
    assert (outs = out :: outs') as -> by congruence.
    destruct (gread_tape _ _ _ _ _ _ _ _ _ _ _ _ _ H Hf E1) as (k2 & p2 & r2 & rem2 & t3 & G & -> & C & Lk).
    rewrite G. cbn [map]. f_equal. eapply IH; [exact C|lia|exact E2].
Qed.

(** The other way round: reads that return without running out of fuel come from calls of Next. *)
Lemma calls_app : forall P R (next : P * R -> res unit * (P * R)) shows k s t s1, calls next shows k s t s1 ->
  forall k2 t2 s2, calls next shows k2 s1 t2 s2 -> calls next shows (k + k2) s (t ++ t2) s2.
Proof.
  intros P R next shows k s t s1 H. induction H as [s|k s p src tape s' E H IH|k s e s1 tape s' E H IH]; intros k2 t2 s2 H2; cbn [Nat.add app].
  - exact H2.
  - rewrite <- app_assoc. eapply calls_ok; eauto.
  - eapply calls_error; eauto.
Qed.

Lemma tape_read_more : forall n t out t' u, tape_read n t = Some (out, t') -> tape_read n (t ++ u) = Some (out, t' ++ u).
Proof.
  induction n as [|n IH]; intros t out t' u H; cbn [tape_read] in *.
  - assert (out = ([], None) /\ t' = t) as (-> & ->) by (split; congruence). reflexivity.
  - destruct t as [|[b|e] t]; [discriminate| |].
    + cbn [app]. destruct (tape_read n t) as [[[bs e] t1]|] eqn:E; [|discriminate].
      assert (out = (b :: bs, e) /\ t' = t1) as (-> & ->) by (split; congruence). rewrite (IH _ _ _ u E). reflexivity.
    + cbn [app]. assert (out = ([], Some e) /\ t' = t) as (-> & ->) by (split; congruence). reflexivity.
Qed.

Lemma gfill_calls : forall P (next : P * reader -> res unit * (P * reader)) shows fuel p r want acc rem out p2 r2 rem2, (0 < want)%nat ->
  gfill next shows fuel p r want acc rem = (Ok out, ((p2, r2), rem2)) ->
  exists k tape c, calls next shows k (p, r) tape (p2, r2) /\ fst out = acc ++ c /\ tape_read want tape = Some ((c, snd out), map Byte rem2).
Proof.
  intros P next shows. induction fuel as [|fuel IH]; intros p r want acc rem out p2 r2 rem2 Hw H; (destruct want as [|want]; [lia|]); cbn [gfill] in H; [discriminate|].
  destruct (next (p, r)) as [[[]|e| |] [p1 r1]] eqn:E; try discriminate.
  - set (n := S want) in *. set (d := shows p1) in *. destruct (Nat.le_gt_cases n (length d)) as [L|L].
    + rewrite firstn_length_le, Nat.sub_diag, gfill_zero in H by exact L.
      assert (out = (acc ++ firstn n d, None) /\ p1 = p2 /\ r1 = r2 /\ rem2 = skipn n d) as (-> & -> & -> & ->) by (repeat split; congruence).
      exists 1%nat, (map Byte d ++ []), (firstn n d). split; [eapply calls_ok; [exact E | constructor]|]. split; [reflexivity|].
      rewrite tape_bytes_ge by exact L. rewrite app_nil_r. reflexivity.
    + rewrite firstn_all2, skipn_all in H by lia. apply IH in H; [|lia]. destruct H as (k & tape & c & C & Eo & T).
      exists (S k), (map Byte d ++ tape), (d ++ c). split; [eapply calls_ok; eassumption|]. split; [rewrite Eo, <- app_assoc; reflexivity|].
      rewrite tape_bytes_lt by lia. rewrite T. reflexivity.
  - assert (out = (acc, Some e) /\ p1 = p2 /\ r1 = r2 /\ rem2 = []) as (-> & -> & -> & ->) by (repeat split; congruence).
    exists 1%nat, [Fault e], []. split; [eapply calls_error; [exact E | constructor]|]. split; [cbn; rewrite app_nil_r; reflexivity | reflexivity].
Qed.

Lemma gread_calls : forall P (next : P * reader -> res unit * (P * reader)) shows fuel p r rem want out p2 r2 rem2,
  gread next shows fuel want ((p, r), rem) = (Ok out, ((p2, r2), rem2)) ->
  exists k tape, calls next shows k (p, r) tape (p2, r2) /\ tape_read want (map Byte rem ++ tape) = Some (out, map Byte rem2).
Proof.
  intros P next shows fuel p r rem want out p2 r2 rem2 H. unfold gread in H. cbn [fst snd] in H.
  destruct (Nat.le_gt_cases want (length rem)) as [L|L].
  - rewrite firstn_length_le, Nat.sub_diag, gfill_zero in H by exact L.
    assert (out = (firstn want rem, None) /\ p = p2 /\ r = r2 /\ rem2 = skipn want rem) as (-> & -> & -> & ->) by (repeat split; congruence).
    exists 0%nat, []. split; [constructor|]. rewrite tape_bytes_ge, app_nil_r by exact L. reflexivity.
  - rewrite firstn_all2, skipn_all in H by lia. apply gfill_calls in H; [|lia]. destruct H as (k & tape & c & C & Eo & T).
    exists k, tape. split; [exact C|]. rewrite tape_bytes_lt by lia. rewrite T, <- Eo. destruct out; reflexivity.
Qed.

Lemma tape_reads_more : forall sizes t outs u, tape_reads sizes t = Some outs -> tape_reads sizes (t ++ u) = Some outs.
Proof.
  induction sizes as [|n s IH]; intros t outs u H; cbn [tape_reads] in *; [exact H|].
  destruct (tape_read n t) as [[out t2]|] eqn:E; [|discriminate]. rewrite (tape_read_more _ _ _ _ u E).
  destruct (tape_reads s t2) as [o|] eqn:E2; [|discriminate]. rewrite (IH _ _ u E2). exact H.
Qed.

Lemma greads_calls : forall P (next : P * reader -> res unit * (P * reader)) shows fuel sizes p r rem outs,
  greads next shows fuel sizes ((p, r), rem) = map Ok outs ->
  exists k tape s', calls next shows k (p, r) tape s' /\ tape_reads sizes (map Byte rem ++ tape) = Some outs.
Proof.
  intros P next shows fuel. induction sizes as [|n t IH]; intros p r rem outs H; cbn [greads] in H.
  - destruct outs; [|discriminate]. exists 0%nat, [], (p, r). split; [constructor | reflexivity].
  - destruct (gread next shows fuel n (p, r, rem)) as [x [[p2 r2] rem2]] eqn:E. destruct outs as [|out outs]; [discriminate|].
    cbn [map] in H. assert (x = Ok out) as -> by congruence. assert (H' : greads next shows fuel t (p2, r2, rem2) = map Ok outs) by congruence. clear H.
    apply gread_calls in E. destruct E as (k & tape & C & T). apply IH in H'. destruct H' as (k2 & tape2 & s' & C2 & T2).
    exists (k + k2)%nat, (tape ++ tape2), s'. split; [eapply calls_app; eassumption|].
    cbn [tape_reads]. rewrite app_assoc, (tape_read_more _ _ _ _ tape2 T), T2. reflexivity.
Qed.

(** Progress: without sources that come back after their end, the reads return or a call of Next panics. *)
Lemma gfill_total : forall P (next : P * reader -> res unit * (P * reader)) shows,
  (forall p r p' r', rlater r = [] -> next (p, r) = (Ok tt, (p', r')) -> (left r' < left r)%nat /\ rlater r' = []) ->
  (forall p r, fst (next (p, r)) <> OutOfFuel) ->
  forall fuel p r want acc rem, rlater r = [] -> (left r < fuel)%nat ->
  (exists out s, gfill next shows fuel p r want acc rem = (Ok out, s)) \/
  (exists k tape s1 s2, calls next shows k (p, r) tape s1 /\ next s1 = (Panic, s2) /\ fst (gfill next shows fuel p r want acc rem) = Panic).
Proof.
  intros P next shows HS HF. induction fuel as [|fuel IH]; intros p r want acc rem Hr Hl; [lia|].
  destruct want as [|want]; [left; rewrite gfill_zero; eauto|]. cbn [gfill].
  destruct (next (p, r)) as [[[]|e| |] [p1 r1]] eqn:E.
  - destruct (HS _ _ _ _ Hr E) as (L & R).
    destruct (IH p1 r1 (S want - length (firstn (S want) (shows p1)))%nat (acc ++ firstn (S want) (shows p1)) (skipn (length (firstn (S want) (shows p1))) (shows p1)) R ltac:(lia)) as [X|X]; [left; exact X|].
    right. destruct X as (k & tape & s1 & s2 & C & N & F). exists (S k), (map Byte (shows p1) ++ tape), s1, s2. split; [eapply calls_ok; eassumption | split; assumption].
  - left. eauto.
  - right. exists 0%nat, [], (p, r), (p1, r1). split; [constructor | split; [exact E | reflexivity]].
  - exfalso. apply (HF p r). rewrite E. reflexivity.
Qed.

(** The two readers are this one. *)
Lemma es_is_gread : forall fuel want s, es_read fuel want s =
  let '(x, ((p, r), rem)) := gread pes_next pp_payload fuel want ((es_cur s, es_br s), es_rem s) in (x, mkES r p rem).
Proof.
  intros fuel want [r p rem]. unfold es_read, gread. cbn [es_rem es_cur es_br fst snd].
  generalize (want - length (firstn want rem))%nat as n. generalize (firstn want rem) as acc. intro acc. generalize (skipn (length acc) rem) as rm. 
  clear. intros rm n. revert p r n acc rm. induction fuel as [|fuel IH]; intros p r n acc rm; destruct n as [|n]; cbn [es_fill gfill]; try reflexivity.
  destruct (pes_next (p, r)) as [[u|e| |] [p1 r1]]; try reflexivity. apply IH.
Qed.

Lemma es_reads_are : forall fuel sizes s, es_reads fuel sizes s = greads pes_next pp_payload fuel sizes ((es_cur s, es_br s), es_rem s).
Proof.
  intros fuel. induction sizes as [|n t IH]; intro s; cbn [es_reads greads]; [reflexivity|]. rewrite es_is_gread.
  destruct (gread pes_next pp_payload fuel n (es_cur s, es_br s, es_rem s)) as [x [[p r] rem]]. f_equal. rewrite IH. reflexivity.
Qed.

(** What a packet adds to the payload reader of ts *)
Definition shown (w : tester) (p : packet) : list Z := if w p then pk_payload p else [].

Definition pr_plain (w : tester) (s : preader) : Prop :=
  pr_closed s = false /\ pr_where s = w /\ pr_skip s = None /\ pr_take s = always_true.
Definition pr_packet (s : preader) : packet := match pr_cur s with Some p => p | None => zero_packet end.

Lemma pr_fill_gfill : forall w fuel s p r want acc rem, pr_where s = w -> pr_take s = always_true -> pr_skip s = None -> (want = O \/ rem = []) -> (want = O \/ pr_rem s = []) ->
  exists s', pr_fill fuel s p r want acc rem = (fst (gfill packet_next (shown w) fuel p r want acc (pr_rem s ++ rem)), s') /\
    pr_plain w s' /\ pr_packet s' = fst (fst (snd (gfill packet_next (shown w) fuel p r want acc (pr_rem s ++ rem)))) /\
    pr_br s' = snd (fst (snd (gfill packet_next (shown w) fuel p r want acc (pr_rem s ++ rem)))) /\
    pr_rem s' = snd (snd (gfill packet_next (shown w) fuel p r want acc (pr_rem s ++ rem))).
Proof.
  intros w. induction fuel as [|fuel IH]; intros s p r want acc rem Hw Ht Hs Hr Hr2.
  - destruct want as [|want]; cbn [pr_fill gfill fst snd]; eexists; (split; [reflexivity|]); unfold pr_plain, pr_packet, pr_set; cbn; auto.
    destruct Hr2 as [|Hr2]; [discriminate|]. rewrite Hr2. auto 8.
  - destruct want as [|want]; cbn [pr_fill gfill].
    + eexists; (split; [reflexivity|]); unfold pr_plain, pr_packet, pr_set; cbn; auto 8.
    + destruct Hr2 as [|Hr2]; [discriminate|]. destruct Hr as [|Hr]; [discriminate|]. subst rem.
      destruct (packet_next (p, r)) as [[u|e| |] [p1 r1]]; cbn [fst snd];
        try (eexists; (split; [reflexivity|]); unfold pr_plain, pr_packet, pr_set; cbn; rewrite ?Hr2; auto 8; fail).
      rewrite Ht. unfold always_true at 1. rewrite Hw.
      destruct (w p1) eqn:E.
      * set (d := pk_payload p1). set (n := S want).
        replace (shown w p1) with d by (unfold shown; rewrite E; reflexivity).
        destruct (IH s p1 r1 (n - length (firstn n d))%nat (acc ++ firstn n d) (skipn (length (firstn n d)) d)) as (s' & X); auto.
        { rewrite firstn_length. destruct (Nat.le_gt_cases n (length d)); [left; lia|]. right. apply skipn_all2. lia. }
        exists s'. rewrite Hr2 in X. cbn [app] in X. exact X.
      * replace (shown w p1) with (@nil Z) by (unfold shown; rewrite E; reflexivity).
        cbn [firstn length skipn]. rewrite Nat.sub_0_r, app_nil_r.
        destruct (IH s p1 r1 (S want) acc []) as (s' & X); auto. exists s'. rewrite Hr2 in X. cbn [app] in X. exact X.
Qed.

Lemma pr_is_gread : forall w fuel want s, pr_plain w s ->
  exists s', pr_read fuel want s = (fst (gread packet_next (shown w) fuel want ((pr_packet s, pr_br s), pr_rem s)), s') /\ pr_plain w s' /\
    ((pr_packet s', pr_br s'), pr_rem s') = snd (gread packet_next (shown w) fuel want ((pr_packet s, pr_br s), pr_rem s)).
Proof.
  intros w fuel want s (H1 & H2 & H3 & H4).
  assert (G : forall p, pr_packet s = p -> exists s',
    pr_go fuel want s p = (fst (gread packet_next (shown w) fuel want ((pr_packet s, pr_br s), pr_rem s)), s') /\ pr_plain w s' /\
    ((pr_packet s', pr_br s'), pr_rem s') = snd (gread packet_next (shown w) fuel want ((pr_packet s, pr_br s), pr_rem s))).
  { intros p <-. unfold pr_go, gread. cbn [fst snd]. set (c := firstn want (pr_rem s)).
    destruct (pr_fill_gfill w fuel (pr_set s (pr_packet s) (pr_br s) (skipn (length c) (pr_rem s)) false) (pr_packet s) (pr_br s) (want - length c) c []) as (s' & E & Pl & A & B & C); auto.
    { subst c. rewrite firstn_length. destruct (Nat.le_gt_cases want (length (pr_rem s))); [left; lia|]. right. unfold pr_set. cbn [pr_rem]. apply skipn_all2. lia. }
    unfold pr_set in E, A, B, C; cbn [pr_rem] in E, A, B, C. rewrite app_nil_r in E, A, B, C.
    exists s'. split; [exact E|]. split; [exact Pl|]. rewrite A, B, C. destruct (snd _) as [[? ?] ?]; reflexivity. }
  destruct (G (pr_packet s) eq_refl) as (s' & E & X). exists s'. split; [|exact X]. rewrite <- E.
  unfold pr_read, pr_packet. rewrite H1, H3. destruct (pr_cur s); reflexivity.
Qed.

Lemma pr_reads_are : forall w fuel sizes s, pr_plain w s ->
  pr_reads fuel sizes s = greads packet_next (shown w) fuel sizes ((pr_packet s, pr_br s), pr_rem s).
Proof.
  intros w fuel. induction sizes as [|n t IH]; intros s H; cbn [pr_reads greads]; [reflexivity|].
  destruct (pr_is_gread w fuel n s H) as (s' & E & Pl & Q). rewrite E.
  destruct (gread packet_next (shown w) fuel n (pr_packet s, pr_br s, pr_rem s)) as [x st]. cbn [fst snd] in *. f_equal. rewrite IH by exact Pl. rewrite Q. reflexivity.
Qed.

(** A sequence of reads stops being answered only where Next panics. *)
Lemma greads_total : forall P (next : P * reader -> res unit * (P * reader)) shows,
  (forall p r p' r', rlater r = [] -> next (p, r) = (Ok tt, (p', r')) -> (left r' < left r)%nat /\ rlater r' = []) ->
  (forall p r e p' r', rlater r = [] -> next (p, r) = (Err e, (p', r')) -> (left r' <= left r)%nat /\ rlater r' = []) ->
  (forall p r, fst (next (p, r)) <> OutOfFuel) ->
  forall fuel sizes p r rem, rlater r = [] -> (left r < fuel)%nat ->
  (exists outs, greads next shows fuel sizes ((p, r), rem) = map Ok outs) \/
  (exists k tape s1 s2, calls next shows k (p, r) tape s1 /\ next s1 = (Panic, s2)).
Proof.
  intros P next shows HS HE HF fuel.
  assert (INV : forall k p r tape p' r', calls next shows k (p, r) tape (p', r') -> rlater r = [] -> (left r' <= left r)%nat /\ rlater r' = []).
  { intros k p r tape p' r' C. remember (p, r) as s eqn:Es. remember (p', r') as s' eqn:Es'. revert p r p' r' Es Es'.
    induction C as [s|k s p1 r1 tape s' E H IH|k s e [p1 r1] tape s' E H IH]; intros p r p' r' -> Es' Hr.
    - assert (r = r') as -> by congruence. auto.
    - destruct (HS _ _ _ _ Hr E) as (A & B). destruct (IH _ _ _ _ eq_refl Es' B). split; [lia|assumption].
    - destruct (HE _ _ _ _ _ Hr E) as (A & B). destruct (IH _ _ _ _ eq_refl Es' B). split; [lia|assumption]. }
  induction sizes as [|n t IH]; intros p r rem Hr Hl; cbn [greads]; [left; exists []; reflexivity|].
  destruct (gread next shows fuel n (p, r, rem)) as [x [[p2 r2] rem2]] eqn:E.
  pose proof E as E0. unfold gread in E0. cbn [fst snd] in E0.
  destruct (gfill_total P next shows HS HF fuel p r (n - length (firstn n rem)) (firstn n rem) (skipn (length (firstn n rem)) rem) Hr Hl) as [(out & s & X)|(k & tape & s1 & s2 & C & N & _)].
  - rewrite X in E0. assert (x = Ok out) as -> by congruence.
    apply gread_calls in E. destruct E as (k & tape & C & T). destruct (INV _ _ _ _ _ _ C Hr) as (L2 & R2).
    destruct (IH p2 r2 rem2 R2 ltac:(lia)) as [(outs & O)|(k2 & tape2 & s1 & s2 & C2 & N)].
    + left. exists (out :: outs). cbn [map]. rewrite O. reflexivity.
    + right. exists (k + k2)%nat, (tape ++ tape2), s1, s2. split; [eapply calls_app; eassumption | exact N].
  - right. exists k, tape, s1, s2. auto.
Qed.

(** The calls, computed *)
Fixpoint run_calls {P R} (next : P * R -> res unit * (P * R)) (shows : P -> list Z) (k : nat) (s : P * R) : option (list symbol) * (P * R) :=
  match k with
  | O => (Some [], s)
  | S k =>
      match next s with
      | (Ok _, s1) => let '(t, s') := run_calls next shows k s1 in (option_map (app (map Byte (shows (fst s1)))) t, s')
      | (Err e, s1) => let '(t, s') := run_calls next shows k s1 in (option_map (cons (Fault e)) t, s')
      | (_, s1) => (None, s1)
      end
  end.

Lemma run_calls_ok : forall P R (next : P * R -> res unit * (P * R)) shows k s tape,
  fst (run_calls next shows k s) = Some tape -> calls next shows k s tape (snd (run_calls next shows k s)).
Proof.
  intros P R next shows. induction k as [|k IH]; intros s tape H; cbn [run_calls] in *.
  - assert (tape = []) as -> by (cbn in H; congruence). constructor.
  - destruct (next s) as [[[]|e| |] s1] eqn:E; try discriminate;
      pose proof (IH s1) as I1; destruct (run_calls next shows k s1) as [[t|] s']; cbn [fst snd option_map] in *; try discriminate.
    + assert (tape = map Byte (shows (fst s1)) ++ t) as -> by congruence. destruct s1 as [p1 r1]. eapply calls_ok; [exact E | apply I1; reflexivity].
    + assert (tape = Fault e :: t) as -> by congruence. eapply calls_error; [exact E | apply I1; reflexivity].
Qed.
