(** DecoderProofs: the goroutines of ps.Decoder against the reading of SpecDecoder. *)
From Coq Require Import Lia.
From Verif Require Import Base BitReader Exec Local TsLocal TsRobust Mono PesModel PesLocal PsModel PsProofs Conc PsConc SpecDecoder.

(** * One look of a pack's goroutine *)
Lemma look_stops : forall r r', stops r r' -> look r = (Ok None, r').
Proof.
  intros r r' H. unfold look. destruct H as [r e r' E | r v E N | r e r' E1 E2 | r v E1 E2 C | r v e p r' E1 E2 N1 N2 E3].
  - now rewrite E.
  - rewrite E. apply Z.eqb_neq in N. now rewrite N.
  - rewrite E1. cbn [negb Z.eqb Pos.eqb]. now rewrite E2.
  - rewrite E1. cbn [negb Z.eqb Pos.eqb]. rewrite E2. destruct C as [-> | ->]; reflexivity.
  - rewrite E1. cbn [negb Z.eqb Pos.eqb]. rewrite E2. change PackStartCode with 442. change ProgramEndCode with 441. rewrite (proj2 (Z.eqb_neq _ _) N1), (proj2 (Z.eqb_neq _ _) N2). cbn [orb]. now rewrite E3.
Qed.
Lemma look_at : forall r, at_packet r -> look r = match new_pes r with (Ok _, (p, r3)) => (Ok (Some p), r3) | (Err _, (_, r3)) => (Ok None, r3) | (Panic, (_, r3)) => (Panic, r3) | (OutOfFuel, (_, r3)) => (OutOfFuel, r3) end.
Proof.
  intros r (E1 & v & E2 & N1 & N2). unfold look. rewrite E1. cbn [negb Z.eqb Pos.eqb]. rewrite E2. change PackStartCode with 442. change ProgramEndCode with 441.
  now rewrite (proj2 (Z.eqb_neq _ _) N1), (proj2 (Z.eqb_neq _ _) N2).
Qed.
(** What a look can be *)
Lemma look_cases : forall r, (exists r', stops r r') \/ at_packet r /\ ((exists p r', new_pes r = (Ok tt, (p, r')) /\ look r = (Ok (Some p), r')) \/ exists p r', new_pes r = (Panic, (p, r'))).
Proof.
  intro r. pose proof (look_fuel r) as F. pose proof (safe_peek_n 24 r) as S1. destruct (peek_n 24 r) as [[v|e| |] r1] eqn:E1; [| |destruct S1|destruct S1]; [|left; exists r1; eapply stops_short; exact E1].
  pose proof (peek_n_ok_inv _ _ _ _ E1) as (_ & _ & ->). destruct (Z.eq_dec v 1) as [->|N]; [|left; exists r; eapply stops_prefix; eassumption].
  pose proof (safe_peek_n 32 r) as S2. destruct (peek_n 32 r) as [[v|e| |] r2] eqn:E2; [| |destruct S2|destruct S2]; [|left; exists r2; eapply stops_short2; eassumption].
  pose proof (peek_n_ok_inv _ _ _ _ E2) as (_ & _ & ->). destruct (Z.eq_dec v 441) as [->|N1]; [left; exists r; eapply stops_code; eauto|]. destruct (Z.eq_dec v 442) as [->|N2]; [left; exists r; eapply stops_code; eauto|].
  assert (A : at_packet r) by (split; eauto). pose proof (look_at r A) as L. destruct (new_pes r) as [[[]|e| |] [p r3] ] eqn:E3; [right; split; eauto | left; exists r3; eapply stops_packet; eassumption | right; split; eauto | rewrite L in F; now destruct F].
Qed.

(** * The plan *)
Definition plan : Type := (option err + packheader * list ppacket)%type.
Definition prog (r : reader) (packs : list (packheader * list ppacket)) (X : plan) : Prop :=
  match X with inl e => program r packs e | inr (h, ps) => program_dies r packs h ps end.
Definition thenx (r : reader) (packs : list (packheader * list ppacket)) (X : plan) : Prop :=
  match X with inl e => then_packs r packs e | inr (h, ps) => peek_n 32 r = (Ok 442, r) /\ program_dies r packs h ps end.
Lemma prog_inv : forall r packs X, prog r packs X ->
  (exists e r', new_pack_header r = (Err e, r') /\ packs = [] /\ X = inl (Some e)) \/
  (exists h r1, new_pack_header r = (Ok h, r1) /\
    ((exists ps r2 packs', packs = (h, ps) :: packs' /\ body r1 ps r2 /\ thenx r2 packs' X) \/ (exists ps, packs = [] /\ X = inr (h, ps) /\ body_dies r1 ps))).
Proof.
  intros r packs [e|[h ps] ] H; cbn [prog] in H; inversion H; subst; [left; eauto 10 | right; eauto 12 | right; eauto 12 |].
  right. do 2 eexists. split; [eassumption|]. left. do 3 eexists. split; [reflexivity|]. split; [eassumption|]. cbn. auto.
Qed.
Lemma thenx_inv : forall r packs X, thenx r packs X ->
  (exists e r', peek_n 32 r = (Err e, r') /\ packs = [] /\ X = inl (Some e)) \/ (peek_n 32 r = (Ok 442, r) /\ prog r packs X) \/
  (peek_n 32 r = (Ok 441, r) /\ packs = [] /\ X = inl None) \/
  (exists v, peek_n 32 r = (Ok v, r) /\ v <> 441 /\ v <> 442 /\ packs = [] /\ X = inl (Some ErrProgramEndCodeNotFound)).
Proof.
  intros r packs [e|[h ps] ] H; cbn [thenx] in H; [|destruct H; right; left; auto]. inversion H; subst; eauto 12.
Qed.
Lemma body_inv : forall r ps r', body r ps r' -> (ps = [] /\ look r = (Ok None, r')) \/ exists p r1 ps', ps = p :: ps' /\ look r = (Ok (Some p), r1) /\ body r1 ps' r'.
Proof.
  intros r ps r' H. inversion H; subst; [left; split; [reflexivity | now apply look_stops] | right]. do 3 eexists. split; [reflexivity|]. split; [rewrite look_at by assumption; now rewrite H1 | assumption].
Qed.
Lemma body_dies_inv : forall r ps, body_dies r ps -> (ps = [] /\ exists r', look r = (Panic, r')) \/ exists p r1 ps', ps = p :: ps' /\ look r = (Ok (Some p), r1) /\ body_dies r1 ps'.
Proof.
  intros r ps H. inversion H; subst; [left; split; [reflexivity|]; eexists; rewrite look_at by assumption; now rewrite H1 | right]. do 3 eexists. split; [reflexivity|]. split; [rewrite look_at by assumption; now rewrite H1 | assumption].
Qed.

(** * The invariant *)
Definition whole (P : packheader * list ppacket) (q : pproc) : Prop :=
  q_head q = fst P /\ q_log q = snd P /\ q_closed q = true /\ q_panic q = false /\ ~ active q.
Definition curr (r : reader) (q : pproc) (tail : list (packheader * list ppacket)) (X : plan) : Prop :=
  (exists ps packs', tail = (q_head q, ps) :: packs' /\
    match q_pc q with
    | PLook => q_closed q = false /\ exists rest r2, ps = q_log q ++ rest /\ body r rest r2 /\ thenx r2 packs' X
    | PSendPkt p => q_closed q = false /\ exists rest r2, ps = q_log q ++ p :: rest /\ body r rest r2 /\ thenx r2 packs' X
    | PClosePkts => q_closed q = false /\ ps = q_log q /\ thenx r packs' X
    | PComplete => q_closed q = true /\ ps = q_log q /\ thenx r packs' X
    | _ => False
    end) \/
  (exists ps, tail = [] /\ X = inr (q_head q, ps) /\ q_closed q = false /\
    match q_pc q with
    | PLook => exists rest, ps = q_log q ++ rest /\ body_dies r rest
    | PSendPkt p => exists rest, ps = q_log q ++ p :: rest /\ body_dies r rest
    | _ => False
    end).
Definition sound (packs : list (packheader * list ppacket)) (X : plan) (s : gstate) : Prop :=
  match g_pc s with
  | DHead => exists done tail, packs = done ++ tail /\ Forall2 whole done (g_procs s) /\ prog (g_br s) tail X
  | DSend i | DWait i => exists done tail old q, packs = done ++ tail /\ g_procs s = old ++ [q] /\ length old = i /\ Forall2 whole done old /\
      q_panic q = false /\ curr (g_br s) q tail X
  | DPeek => exists done tail, packs = done ++ tail /\ Forall2 whole done (g_procs s) /\ thenx (g_br s) tail X
  | DPeekEnd => Forall2 whole packs (g_procs s) /\ exists v, peek_n 32 (g_br s) = (Ok v, g_br s) /\ v <> 442 /\
      X = inl (if v =? 441 then None else Some ErrProgramEndCodeNotFound)
  | _ => Forall2 whole packs (g_procs s) /\ X = inl (g_err s)
  end.
Definition quiet (s : gstate) : Prop := g_crash s = false /\ match g_pc s with DHead | DSend _ | DWait _ | DPeek | DPeekEnd => g_err s = None | _ => True end.
(** A goroutine has panicked *)
Definition broken (packs : list (packheader * list ppacket)) (X : plan) (s : gstate) : Prop :=
  exists old q more, g_procs s = old ++ q :: more /\ Forall2 whole packs old /\ X = inr (q_head q, q_log q) /\ q_panic q = true /\
    match q_pc q with PClosePkts | PComplete | PCloseC => True | PEnded => g_crash s = true | _ => False end.

Lemma whole_len : forall done procs, Forall2 whole done procs -> length done = length procs.
Proof. intros done procs F. induction F; cbn; congruence. Qed.
(** A goroutine that has ended its work *)
Lemma whole_set : forall done procs j q q', Forall2 whole done procs -> nth_error procs j = Some q -> (forall P, whole P q -> whole P q') -> Forall2 whole done (set_nth procs j q').
Proof.
  intros done procs j q q' F. revert j. induction F as [|P p done procs W F IH]; intros [|j] H Hq; cbn in *; try discriminate; constructor; auto. injection H as ->. auto.
Qed.
Lemma whole_at : forall done procs j q, Forall2 whole done procs -> nth_error procs j = Some q -> exists P, nth_error done j = Some P /\ whole P q.
Proof. intros done procs j q F. revert j. induction F; intros [|j] H1; cbn in *; try discriminate; [injection H1 as <-; eauto | auto]. Qed.
Lemma set_app : forall A (l m : list A) x y, set_nth (l ++ x :: m) (length l) y = l ++ y :: m.
Proof. induction l; intros; cbn; [reflexivity | now rewrite IHl]. Qed.
Lemma set_left : forall A (l m : list A) j x, (j < length l)%nat -> set_nth (l ++ m) j x = set_nth l j x ++ m.
Proof. induction l; intros m [|j] x H; cbn in *; try lia; [reflexivity|]. now rewrite IHl by lia. Qed.
Lemma set_right : forall A (l m : list A) j x, (length l <= j)%nat -> set_nth (l ++ m) j x = l ++ set_nth m (j - length l) x.
Proof. induction l; intros m j x H; [now rewrite Nat.sub_0_r|]. destruct j as [|j]; cbn in *; [lia|]. now rewrite IHl by lia. Qed.
Lemma nth_split3 : forall A (l : list A) q m j (x : A), nth_error (l ++ q :: m) j = Some x ->
  (j < length l /\ nth_error l j = Some x)%nat \/ (j = length l /\ x = q) \/ exists k, (j = length l + S k)%nat /\ nth_error m k = Some x.
Proof.
  intros A l q m j x H. destruct (Nat.lt_ge_cases j (length l)) as [L|L]; [left; rewrite nth_error_app1 in H by exact L; auto|]. rewrite nth_error_app2 in H by exact L.
  destruct (j - length l)%nat as [|k] eqn:E; cbn in H; [injection H as <-; right; left; split; [lia | reflexivity] | right; right; exists k; split; [lia | exact H] ].
Qed.
Lemma set3 : forall A (l : list A) q m k x, set_nth (l ++ q :: m) (length l + S k) x = l ++ q :: set_nth m k x.
Proof. intros. rewrite set_right by lia. now replace (length l + S k - length l)%nat with (S k) by lia. Qed.
Lemma forall2_snoc : forall A B (R : A -> B -> Prop) l m x y, Forall2 R l m -> R x y -> Forall2 R (l ++ [x]) (m ++ [y]).
Proof. intros. apply Forall2_app; auto. Qed.

Definition good (packs : list (packheader * list ppacket)) (X : plan) (s : gstate) : Prop := (quiet s /\ sound packs X s) \/ broken packs X s.
Lemma whole_wait : forall P q w, whole P q -> whole P (mkQ (q_pc q) (q_head q) (q_panic q) (q_closed q) w (q_log q)).
Proof. intros P q w H. exact H. Qed.
Lemma whole_end : forall P q, whole P q -> whole P (q_at q PEnded (q_panic q)).
Proof. intros P q (A & B & C & D & E). repeat split; auto. Qed.
(** A step of a goroutine that has done its work: only its end *)
Lemma idle_set : forall packs X s j q q' r, quiet s -> sound packs X s -> nth_error (g_procs s) j = Some q -> (forall P, whole P q -> whole P q') ->
  (forall tail, q_panic q = false -> curr (g_br s) q tail X -> q_panic q' = false /\ curr r q' tail X) -> ((exists P, whole P q) -> r = g_br s) -> 
  sound packs X (g_at s (g_pc s) r (g_err s) (set_nth (g_procs s) j q')).
Proof.
  intros packs X s j q q' r _ So Hq Hw Hc Hr. unfold sound in *. cbn [g_at g_pc g_procs g_br g_err].
  assert (In_ : forall done, Forall2 whole done (g_procs s) -> r = g_br s /\ Forall2 whole done (set_nth (g_procs s) j q')).
  { intros done F. destruct (whole_at _ _ _ _ F Hq) as (P & _ & W). split; [apply Hr; eauto | eapply whole_set; eauto]. }
  destruct (g_pc s).
  1: destruct So as (done & tail & E & F & Pr); destruct (In_ _ F) as (-> & F'); eauto 10.
  3: destruct So as (done & tail & E & F & Pr); destruct (In_ _ F) as (-> & F'); eauto 10.
  3-7: destruct So as (F & So); destruct (In_ _ F) as (-> & F'); eauto 10.
  1,2: destruct So as (done & tail & old & q0 & E & Ep & L & F & Pq & C); rewrite Ep in Hq |- *; apply nth_snoc in Hq as [ (Ej & Eq) | (Lj & Hq)].
  1,3: subst j q0; rewrite set_app; destruct (Hc _ Pq C); exists done, tail, old, q'; auto 10.
  1,2: rewrite set_left by exact Lj; destruct (whole_at _ _ _ _ F Hq) as (P & _ & W); rewrite Hr by eauto; exists done, tail, (set_nth old j q'), q0;
    rewrite set_nth_length; split; [exact E|]; split; [reflexivity|]; split; [exact L|]; split; [eapply whole_set; eauto|]; auto.
Qed.
Lemma broken_set : forall packs X s j q q' pc br e cl dc w wd lg dn cr, broken packs X s -> nth_error (g_procs s) j = Some q -> (forall P, whole P q -> whole P q') ->
  (g_crash s = true -> cr = true) ->
  (q_panic q = true -> match q_pc q with PClosePkts | PComplete | PCloseC | PEnded => True | _ => False end ->
     q_head q' = q_head q /\ q_log q' = q_log q /\ q_panic q' = true /\ match q_pc q' with PClosePkts | PComplete | PCloseC => True | PEnded => q_pc q = PEnded \/ cr = true | _ => False end) ->
  broken packs X (mkG pc br e (set_nth (g_procs s) j q') cl dc w wd lg dn cr).
Proof.
  intros packs X s j q q' pc br e cl dc w wd lg dn cr (old & q0 & more & Ep & F & EX & Pq & S) Hq Hw Hcr Hb. unfold broken. cbn [g_procs g_crash]. rewrite Ep in Hq |- *.
  assert (S' : match q_pc q0 with PClosePkts | PComplete | PCloseC => True | PEnded => cr = true | _ => False end) by (destruct (q_pc q0); auto).
  apply nth_split3 in Hq as [(L & Hq) | [(-> & ->) | (k & -> & Hq)] ].
  - rewrite set_left by exact L. exists (set_nth old j q'), q0, more. split; [reflexivity|]. split; [eapply whole_set; eauto|]. auto.
  - rewrite set_app. destruct (Hb Pq) as (B1 & B2 & B3 & B4); [destruct (q_pc q0); auto|]. exists old, q', more. rewrite B1, B2. split; [reflexivity|]. split; [exact F|]. split; [exact EX|]. split; [exact B3|].
    destruct (q_pc q'); auto. destruct B4 as [B4|B4]; [|exact B4]. now rewrite B4 in S'.
  - rewrite set3. exists old, q0, (set_nth more k q'). auto 10.
Qed.
Lemma broken_frame : forall packs X s pc br e ps cl dc w wd lg dn, broken packs X s -> (exists t, ps = g_procs s ++ t) -> broken packs X (mkG pc br e ps cl dc w wd lg dn (g_crash s)).
Proof.
  intros packs X s pc br e ps cl dc w wd lg dn (old & q0 & more & Ep & F & EX & Pq & S) (t & ->). exists old, q0, (more ++ t). cbn [g_procs g_crash]. rewrite Ep, <- app_assoc. auto 10.
Qed.
Lemma good_env : forall packs X s s', good packs X s -> genv s s' -> good packs X s'.
Proof.
  intros packs X s s' [(Q & So) | B] V; inversion V as [ | | j q Hq]; subst.
  - left. split; [exact Q | exact So].
  - left. split; [exact Q | exact So].
  - left. split; [exact Q|]. eapply idle_set; eauto.
  - right. apply broken_frame; [exact B | exists []; now rewrite app_nil_r].
  - right. apply broken_frame; [exact B | exists []; now rewrite app_nil_r].
  - right. unfold g_at. eapply broken_set; [exact B | exact Hq | intros P W; now apply whole_wait | auto |]. cbn. intros Pq M. destruct (q_pc q); auto 10.
Qed.
Lemma not_whole : forall P q, whole P q -> active q -> False.
Proof. intros P q (_ & _ & _ & _ & N) A. contradiction. Qed.
Lemma good_own : forall packs X s s', g_crash s = false -> good packs X s -> gown s s' -> good packs X s'.
Proof.
  intros packs X s s' Cr G E.
  inversion E as [h r' K Kn|e r' K Kn|i K Kw|i q K Kq Kp|e r' K Kn|v r' K Kn Kv|v r' K Kn Kv|e r' K Kn|v r' K Kn Kv|v r' K Kn Kv
    |K|K Kw|K|j q p r' Kq Kp Kl|j q r' Kq Kp Kl|j q r' Kq Kp Kl|j q p Kq Kp Kw|j q Kq Kp|j q Kq Kp]; subst s'; clear E.
  (* the decoder's steps after a panic *)
  all: destruct G as [(Q & So) | B].
  all: try (right; unfold g_at; apply broken_frame; [exact B | first [exists []; now rewrite app_nil_r | eexists; reflexivity] ]).
  all: try (left; destruct Q as (Qc & Qe); rewrite K in Qe; unfold sound in So; rewrite K in So).
  - (* head *) destruct So as (done & tail & Ep & F & Pr). split; [split; [exact Qc | exact Qe]|]. unfold sound. cbn [g_at g_pc g_procs g_br].
    destruct (prog_inv _ _ _ Pr) as [(e & r1 & E1 & _) | (h1 & r1 & E1 & P)]; [congruence|]. rewrite Kn in E1. injection E1 as <- <-.
    exists done, tail, (g_procs s), (mkQ PLook h false false 0 []). split; [exact Ep|]. split; [reflexivity|]. split; [reflexivity|]. split; [exact F|]. split; [reflexivity|].
    unfold curr. cbn [q_head q_pc q_closed q_log app]. destruct P as [(ps & r2 & packs' & -> & B & T) | (ps & -> & -> & B)]; [left | right]; eauto 12.
  - destruct So as (done & tail & Ep & F & Pr). split; [split; [exact Qc | exact I]|]. unfold sound. cbn [g_at g_pc g_procs g_br g_err].
    destruct (prog_inv _ _ _ Pr) as [(e1 & r1 & E1 & -> & ->) | (h1 & r1 & E1 & _)]; [|congruence]. rewrite Kn in E1. injection E1 as <- <-. rewrite app_nil_r in Ep. subst done. auto.
  - split; [split; [exact Qc | exact Qe]|]. exact So.
  - destruct So as (done & tail & old & q0 & Ep & Eq & L & F & Pq & C). rewrite Eq in Kq |- *. subst i. apply nth_snoc in Kq as [(_ & ->) | (Lt & _)]; [|lia]. split; [split; [exact Qc | exact Qe]|]. unfold sound. cbn [g_at g_pc g_procs g_br g_err].
    destruct C as [(ps & packs' & -> & C) | (ps & _ & _ & _ & C)]; rewrite Kp in C; [|destruct C]. destruct C as (C1 & -> & C2). exists (done ++ [(q_head q0, q_log q0)]), packs'. rewrite <- app_assoc. split; [exact Ep|].
    rewrite set_app. split; [|exact C2]. apply forall2_snoc; [exact F|]. repeat split; auto.
  - right. unfold g_at. eapply broken_set; [exact B | exact Kq | intros P W; destruct (not_whole P q W); unfold active; now rewrite Kp | auto |]. cbn. auto.
  - destruct So as (done & tail & Ep & F & Pr). split; [split; [exact Qc | exact I]|]. unfold sound. cbn [g_at g_pc g_procs g_br g_err].
    destruct (thenx_inv _ _ _ Pr) as [(e1 & r1 & E1 & -> & ->) | [(E1 & _) | [(E1 & _) | (v & E1 & _)] ] ]; try congruence. rewrite Kn in E1. injection E1 as <- <-. rewrite app_nil_r in Ep. subst done. auto.
  - destruct So as (done & tail & Ep & F & Pr). split; [split; [exact Qc | exact Qe]|]. unfold sound. cbn [g_at g_pc g_procs g_br g_err]. change PackStartCode with 442 in Kv. subst v.
    destruct (thenx_inv _ _ _ Pr) as [(e1 & r1 & E1 & -> & ->) | [(E1 & P) | [(E1 & _) | (v & E1 & _ & N & _)] ] ]; try congruence. rewrite Kn in E1. injection E1 as ->. eauto.
  - destruct So as (done & tail & Ep & F & Pr). split; [split; [exact Qc | exact Qe]|]. unfold sound. cbn [g_at g_pc g_procs g_br g_err]. change PackStartCode with 442 in Kv.
    pose proof (peek_n_ok_inv _ _ _ _ Kn) as (_ & _ & ->).
    destruct (thenx_inv _ _ _ Pr) as [(e1 & r1 & E1 & -> & ->) | [(E1 & P) | [(E1 & -> & ->) | (v' & E1 & N & N2 & -> & ->)] ] ]; try congruence; rewrite app_nil_r in Ep; subst done; (split; [exact F|]); exists v; rewrite Kn in E1; injection E1 as E1; subst v; (split; [exact Kn|]); (split; [exact Kv|]).
    + reflexivity.
    + now rewrite (proj2 (Z.eqb_neq _ _) N).
  - destruct So as (F & v & E1 & _). congruence.
  - destruct So as (F & v' & E1 & N & ->). rewrite Kn in E1. injection E1 as -> ->. split; [split; [exact Qc | exact I]|]. unfold sound. cbn [g_at g_pc g_procs g_br g_err]. split; [exact F|]. rewrite Qe. change ProgramEndCode with 441 in Kv. subst v'. reflexivity.
  - destruct So as (F & v' & E1 & N & ->). rewrite Kn in E1. injection E1 as -> ->. split; [split; [exact Qc | exact I]|]. unfold sound. cbn [g_at g_pc g_procs g_br g_err]. split; [exact F|]. change ProgramEndCode with 441 in Kv. now rewrite (proj2 (Z.eqb_neq _ _) Kv).
  - split; [split; [exact Qc | exact I]|]. exact So.
  - split; [split; [exact Qc | exact I]|]. exact So.
  - split; [split; [exact Qc | exact I]|]. exact So.
  - (* a packet *) left. assert (A : active q) by (unfold active; now rewrite Kp). split; [exact Q|]. eapply idle_set; eauto; [intros P W; destruct (not_whole _ _ W A) | | intros (P & W); destruct (not_whole _ _ W A)].
    intros tail Pq C. split; [exact Pq|]. unfold curr in *. cbn [q_at q_head q_pc q_closed q_log]. rewrite Kp in C. destruct C as [(ps & packs' & -> & C1 & rest & r2 & -> & B & T) | (ps & -> & -> & C1 & rest & -> & B)].
    + left. destruct (body_inv _ _ _ B) as [(_ & E) | (p1 & r1 & ps' & -> & E & B')]; [congruence|]. rewrite Kl in E. injection E as <- <-. eauto 12.
    + right. destruct (body_dies_inv _ _ B) as [(_ & r1 & E) | (p1 & r1 & ps' & -> & E & B')]; [congruence|]. rewrite Kl in E. injection E as <- <-. eauto 12.
  - right. unfold g_at. eapply broken_set; [exact B | exact Kq | intros P W; destruct (not_whole P q W); unfold active; now rewrite Kp | auto | rewrite Kp; tauto].
  - (* the end of the packets *) left. assert (A : active q) by (unfold active; now rewrite Kp). split; [exact Q|]. eapply idle_set; eauto; [intros P W; destruct (not_whole _ _ W A) | | intros (P & W); destruct (not_whole _ _ W A)].
    intros tail Pq C. split; [exact Pq|]. unfold curr in *. cbn [q_at q_head q_pc q_closed q_log]. rewrite Kp in C. destruct C as [(ps & packs' & -> & C1 & rest & r2 & -> & B & T) | (ps & -> & -> & C1 & rest & -> & B)].
    + left. destruct (body_inv _ _ _ B) as [(-> & E) | (p1 & r1 & ps' & -> & E & B')]; [|congruence]. rewrite Kl in E. injection E as <-. rewrite app_nil_r. eauto 12.
    + exfalso. destruct (body_dies_inv _ _ B) as [(_ & r1 & E) | (p1 & r1 & ps' & -> & E & B')]; congruence.
  - right. unfold g_at. eapply broken_set; [exact B | exact Kq | intros P W; destruct (not_whole P q W); unfold active; now rewrite Kp | auto | rewrite Kp; tauto].
  - (* a panic *) right. assert (A : active q) by (unfold active; now rewrite Kp). unfold sound in So.
    assert (N : forall done, Forall2 whole done (g_procs s) -> False) by (intros done F; destruct (whole_at _ _ _ _ F Kq) as (P & _ & W); exact (not_whole _ _ W A)).
    assert (M : forall i, (exists done tail old q, packs = done ++ tail /\ g_procs s = old ++ [q] /\ length old = i /\ Forall2 whole done old /\ q_panic q = false /\ curr (g_br s) q tail X) ->
      broken packs X (g_at s (g_pc s) r' (g_err s) (set_nth (g_procs s) j (q_at q PClosePkts true)))).
    { intros i (done & tail & old & q0 & Ep & Eq & L & F & Pq & C). rewrite Eq in Kq. apply nth_snoc in Kq as [(-> & ->) | (Lt & Hq)]; [|destruct (whole_at _ _ _ _ F Hq) as (P & _ & W); destruct (not_whole _ _ W A)].
      unfold curr in C. rewrite Kp in C. destruct C as [(ps & packs' & -> & C1 & rest & r2 & -> & B & T) | (ps & -> & -> & C1 & rest & -> & B)].
      - exfalso. destruct (body_inv _ _ _ B) as [(_ & E) | (p1 & r1 & ps' & -> & E & B')]; congruence.
      - destruct (body_dies_inv _ _ B) as [(-> & r1 & E) | (p1 & r1 & ps' & -> & E & B')]; [|congruence]. unfold broken. cbn [g_at g_procs g_crash]. rewrite Eq, set_app. exists old, (q_at q0 PClosePkts true), [].
        rewrite app_nil_r in Ep. subst packs. split; [reflexivity|]. split; [exact F|]. split; [cbn; now rewrite app_nil_r|]. cbn. auto. }
    destruct (g_pc s) eqn:EP; eauto; exfalso.
    1,2: destruct So as (done & tail & _ & F & _); eauto.
    all: destruct So as (F & _); eauto.
  - right. unfold g_at. eapply broken_set; [exact B | exact Kq | intros P W; destruct (not_whole P q W); unfold active; now rewrite Kp | auto | rewrite Kp; tauto].
  - (* a packet is sent *) left. assert (A : active q) by (unfold active; now rewrite Kp). split; [exact Q|]. eapply idle_set; eauto; [intros P W; destruct (not_whole _ _ W A)|].
    intros tail Pq C. split; [exact Pq|]. unfold curr in *. cbn [q_at q_head q_pc q_closed q_log]. rewrite Kp in C. destruct C as [(ps & packs' & -> & C1 & rest & r2 & -> & B & T) | (ps & -> & -> & C1 & rest & -> & B)]; [left | right].
    + do 2 eexists. split; [reflexivity|]. split; [exact C1|]. exists rest, r2. rewrite <- app_assoc. auto.
    + eexists. split; [reflexivity|]. split; [reflexivity|]. split; [exact C1|]. exists rest. rewrite <- app_assoc. auto.
  - right. unfold g_at. eapply broken_set; [exact B | exact Kq | intros P W; destruct (not_whole P q W); unfold active; now rewrite Kp | auto | rewrite Kp; tauto].
  - left. assert (A : active q) by (unfold active; now rewrite Kp). split; [exact Q|]. eapply idle_set; eauto; [intros P W; destruct (not_whole _ _ W A)|].
    intros tail Pq C. split; [exact Pq|]. unfold curr in *. cbn [q_at q_head q_pc q_closed q_log]. rewrite Kp in C. destruct C as [(ps & packs' & -> & C1 & -> & T) | (ps & -> & -> & C1 & [])]. left; eauto 10.
  - right. unfold g_at. eapply broken_set; [exact B | exact Kq | intros P W; destruct (not_whole P q W); unfold active; now rewrite Kp | auto |]. cbn. auto.
  - left. assert (Pq : q_panic q = false).
    { unfold sound in So. assert (N : forall done l, Forall2 whole done l -> nth_error l j = Some q -> q_panic q = false) by (intros done l F H; destruct (whole_at _ _ _ _ F H) as (P & _ & W); apply W).
      destruct (g_pc s); try (destruct So as (F & _); now eauto). 1,4: destruct So as (done & tail & _ & F & _); eauto.
      1,2: destruct So as (done & tail & old & q0 & Ep & Eq & L & F & Pq & C); rewrite Eq in Kq; apply nth_snoc in Kq as [(_ & ->) | (_ & Hq)]; eauto. }
    split; [split; [rewrite Pq; cbn [g_crash]; rewrite orb_false_r; exact (proj1 Q) | exact (proj2 Q)]|].
    apply (idle_set packs X s j q (q_at q PEnded (q_panic q)) (g_br s) Q So Kq); [intros P W; now apply whole_end | | auto].
    intros tail _ C. exfalso. unfold curr in C. rewrite Kp in C. destruct C as [(ps & packs' & _ & []) | (ps & _ & _ & _ & [])].
  - right. eapply broken_set; [exact B | exact Kq | intros P W; now apply whole_end | intros ->; reflexivity |]. cbn. intros Pq _. rewrite Pq, orb_true_r. auto.
Qed.
Lemma good_reach : forall packs X r s, prog r packs X -> star gstep (g_init r) s -> good packs X s.
Proof.
  intros packs X r s P H. remember (g_init r) as s0. induction H as [|s1 s2 s3 H IH (Cr & [O|V])]; subst.
  - left. split; [split; reflexivity|]. exists [], packs. split; [reflexivity|]. split; [constructor | exact P].
  - eapply good_own; eauto.
  - eapply good_env; eauto.
Qed.

(** * Every source is one of these *)
Lemma stops_mono : forall r r', rlater r = [] -> stops r r' -> rlater r' = [] /\ (left r' <= left r)%nat.
Proof. intros r r' Hr S. apply look_stops in S. destruct (look_mono _ _ _ Hr S) as (A & B & _). auto. Qed.
Lemma body_total : forall n r, rlater r = [] -> (left r < n)%nat -> (exists ps r', body r ps r' /\ rlater r' = [] /\ (left r' <= left r)%nat) \/ exists ps, body_dies r ps.
Proof.
  induction n; intros r Hr L; [lia|]. destruct (look_cases r) as [(r' & S) | (A & [(p & r' & E & Lk) | (p & r' & E)])].
  - left. exists [], r'. split; [now apply body_end | now apply stops_mono].
  - destruct (look_mono _ _ _ Hr Lk) as (B1 & _ & B3). specialize (B3 p eq_refl). destruct (IHn r' B1 ltac:(lia)) as [(ps & r2 & B & R & L2) | (ps & D)].
    + left. exists (p :: ps), r2. split; [eapply body_more; eassumption|]. split; [exact R | lia].
    + right. exists (p :: ps). eapply dies_later; eassumption.
  - right. exists []. eapply dies_here; eassumption.
Qed.
Lemma prog_total : forall n r, rlater r = [] -> (left r < n)%nat -> exists packs X, prog r packs X.
Proof.
  induction n; intros r Hr L; [lia|]. pose proof (pack_header_total r) as T. destruct (new_pack_header r) as [[h|e| |] r1] eqn:E; try (cbn in T; tauto).
  2:{ exists [], (inl (Some e)). eapply no_header. exact E. }
  destruct (pack_header_strict _ _ _ Hr E) as (R1 & L1). destruct (body_total (S (left r1)) r1 R1 ltac:(lia)) as [(ps & r2 & B & R2 & L2) | (ps & D)].
  2:{ exists [], (inr (h, ps)). eapply in_this; eassumption. }
  pose proof (safe_peek_n 32 r2) as S2. destruct (peek_n 32 r2) as [[v|e| |] r3] eqn:E2; try (cbn in S2; tauto).
  2:{ exists [(h, ps)], (inl (Some e)). eapply a_pack; [exact E | exact B | eapply then_short; exact E2]. }
  pose proof (peek_n_ok_inv _ _ _ _ E2) as (_ & _ & ->). destruct (Z.eq_dec v 442) as [->|N2].
  - destruct (IHn r2 R2 ltac:(lia)) as (packs & X & P). exists ((h, ps) :: packs), X. destruct X as [e|[h1 ps1] ]; cbn [prog] in *.
    + eapply a_pack; [exact E | exact B | now apply then_pack].
    + eapply in_later; eassumption.
  - destruct (Z.eq_dec v 441) as [->|N1]; exists [(h, ps)]; [exists (inl None) | exists (inl (Some ErrProgramEndCodeNotFound))]; (eapply a_pack; [exact E | exact B |]); [now apply then_end | eapply then_other; eassumption].
Qed.

(** * What is received *)
Lemma whole_get : forall done procs j q, Forall2 whole done procs -> nth_error procs j = Some q -> exists ps, nth_error done j = Some (q_head q, ps) /\ q_log q = ps /\ q_closed q = true.
Proof. intros done procs j q F H. destruct (whole_at _ _ _ _ F H) as ([h ps] & A & (W1 & W2 & W3 & _)). cbn in *. subst. eauto. Qed.
Theorem received_fine : forall r packs e s, program r packs e -> star gstep (g_init r) s ->
  g_crash s = false /\
  (forall j q, nth_error (g_procs s) j = Some q -> exists ps more, nth_error packs j = Some (q_head q, ps) /\ ps = q_log q ++ more /\ (q_closed q = true -> more = [])) /\
  (g_closed s = true -> g_err s = e /\ g_log s = seq 0 (length packs) /\ length (g_procs s) = length packs /\ Forall (fun q => q_closed q = true) (g_procs s)) /\
  (g_dones s <> [] -> g_closed s = true /\ g_dones s = [match e with None => true | Some _ => false end]).
Proof.
  intros r packs e s P H. pose proof (good_reach packs (inl e) r s P H) as G. pose proof (gInv_reach r s H) as Inv.
  destruct G as [((Cr & _) & So) | (old & q & more & _ & _ & EX & _)]; [|discriminate]. split; [exact Cr|].
  assert (Wh : forall done tail, packs = done ++ tail -> Forall2 whole done (g_procs s) -> forall j q, nth_error (g_procs s) j = Some q -> exists ps more, nth_error packs j = Some (q_head q, ps) /\ ps = q_log q ++ more /\ (q_closed q = true -> more = [])).
  { intros done tail -> F j q Hq. destruct (whole_get _ _ _ _ F Hq) as (ps & N & <- & _). exists (q_log q), []. rewrite app_nil_r. split; [|auto]. rewrite nth_error_app1; [exact N | apply nth_error_Some; congruence]. }
  split.
  { unfold sound in So. destruct (g_pc s); try (destruct So as (F & _); apply (Wh packs []); [now rewrite app_nil_r | exact F]).
    1,4: destruct So as (done & tail & E & F & _); eapply Wh; eassumption.
    1,2: destruct So as (done & tail & old & q0 & E & Eq & L & F & _ & C); rewrite Eq; intros j q Hq; apply nth_snoc in Hq as [(-> & ->) | (Lj & Hq)];
      [rewrite E, nth_error_app2 by (rewrite (whole_len _ _ F); lia); rewrite (whole_len _ _ F), Nat.sub_diag; destruct C as [(ps & packs' & -> & C) | (ps & _ & EX & _)]; [|discriminate]; cbn [nth_error]
      |destruct (whole_get _ _ _ _ F Hq) as (ps & N & <- & _); exists (q_log q), []; rewrite app_nil_r, E; split; [|auto]; rewrite nth_error_app1; [exact N | apply nth_error_Some; congruence] ].
    1,2: destruct (q_pc q0); try contradiction.
    1,5: destruct C as (C1 & rest & r2 & -> & _); exists (q_log q0 ++ rest), rest; split; [reflexivity|]; split; [reflexivity | congruence].
    1,4: destruct C as (C1 & rest & r2 & -> & _); exists (q_log q0 ++ p :: rest), (p :: rest); split; [reflexivity|]; split; [reflexivity | congruence].
    all: destruct C as (C1 & -> & _); exists (q_log q0), []; rewrite app_nil_r; auto. }
  pose proof (i_done s Inv) as D. pose proof (i_log s Inv) as Lg. unfold sound in So.
  assert (Fin : Forall2 whole packs (g_procs s) -> inl e = inl (g_err s) :> plan -> g_log s = seq 0 (length (g_procs s)) ->
     g_err s = e /\ g_log s = seq 0 (length packs) /\ length (g_procs s) = length packs /\ Forall (fun q => q_closed q = true) (g_procs s)).
  { intros F E L. injection E as ->. rewrite (whole_len _ _ F). split; [reflexivity|]. split; [exact L|]. split; [reflexivity|]. clear - F. induction F as [|P q l m (_ & _ & W & _)]; constructor; auto. }
  destruct (g_pc s); try (destruct D as (D1 & D2); rewrite D1, D2; split; [discriminate | intro N; now destruct N]).
  - destruct So as (F & E), D as (D1 & D2). split; [intros _; now apply Fin | rewrite D2; intro N; now destruct N].
  - destruct So as (F & E), D as (D1 & D2). split; [intros _; now apply Fin|]. intros _. split; [exact D1|]. rewrite D2. now injection E as <-.
  - destruct So as (F & E), D as (D1 & D2). split; [intros _; now apply Fin|]. intros _. split; [exact D1|]. rewrite D2. now injection E as <-.
Qed.
Theorem received_panic : forall r packs h ps s, program_dies r packs h ps -> star gstep (g_init r) s ->
  (forall j q, nth_error (g_procs s) j = Some q -> (j <= length packs)%nat -> exists ps' more, nth_error (packs ++ [(h, ps)]) j = Some (q_head q, ps') /\ ps' = q_log q ++ more) /\
  (g_crash s = false -> g_pc s = DEnd -> ~ Forall (fun q => q_pc q = PEnded) (g_procs s)).
Proof.
  intros r packs h ps s P H. pose proof (good_reach packs (inr (h, ps)) r s P H) as G.
  assert (Wh : forall done tail, packs = done ++ tail -> forall procs, Forall2 whole done procs -> forall j q, nth_error procs j = Some q -> exists ps' more, nth_error (packs ++ [(h, ps)]) j = Some (q_head q, ps') /\ ps' = q_log q ++ more).
  { intros done tail -> procs F j q Hq. destruct (whole_get _ _ _ _ F Hq) as (ps' & N & <- & _). exists (q_log q), []. rewrite app_nil_r. split; [|auto]. rewrite <- app_assoc, nth_error_app1; [exact N | apply nth_error_Some; congruence]. }
  destruct G as [(_ & So) | (old & q0 & more & Eq & F & EX & Pq & S)].
  - split.
    + unfold sound in So. destruct (g_pc s); try (destruct So as (_ & E); first [discriminate | destruct E as (v & _ & _ & E); discriminate]).
      1,4: destruct So as (done & tail & E & F & _); intros j q Hq _; eapply Wh; eassumption.
      1,2: destruct So as (done & tail & old & q0 & E & Eq & L & F & _ & C); rewrite Eq; intros j q Hq _; apply nth_snoc in Hq as [(-> & ->) | (Lj & Hq)]; [|eapply Wh; eassumption];
        rewrite E, <- app_assoc, nth_error_app2 by (rewrite (whole_len _ _ F); lia); rewrite (whole_len _ _ F), Nat.sub_diag;
        destruct C as [(ps1 & packs' & -> & C) | (ps1 & -> & EX & _ & C)]; cbn [nth_error app].
      1,3: exists ps1; destruct (q_pc q0); try contradiction; [destruct C as (_ & rest & r2 & -> & _) | destruct C as (_ & rest & r2 & -> & _) | destruct C as (_ & -> & _) | destruct C as (_ & -> & _)]; first [eexists; split; reflexivity | exists []; split; [reflexivity | now rewrite app_nil_r] ].
      1,2: injection EX as -> ->; exists ps1; destruct (q_pc q0); try contradiction; destruct C as (rest & -> & _); eexists; split; reflexivity.
    + intros _ E. unfold sound in So. rewrite E in So. destruct So as (_ & X). discriminate.
  - split.
    + intros j q Hq Lj. rewrite Eq in Hq. rewrite (whole_len _ _ F) in Lj. apply nth_split3 in Hq as [(L & Hq) | [(-> & ->) | (k & -> & _)] ]; [| |lia].
      * apply (Wh packs [] ltac:(now rewrite app_nil_r) old F j q Hq).
      * rewrite nth_error_app2, (whole_len _ _ F), Nat.sub_diag by (rewrite (whole_len _ _ F); lia). injection EX as -> ->. exists (q_log q0), []. rewrite app_nil_r. auto.
    + intros Cr _ A. rewrite Eq in A. apply Forall_app in A as (_ & A). apply Forall_inv in A. rewrite A in S. congruence.
Qed.
