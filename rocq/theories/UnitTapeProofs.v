(** UnitTapeProofs: the payload unit reader over any bytes is the machine of SpecUnitTape. *)
From Verif Require Import Base BitReader Exec Local TsModel TsReaders TsRobust Mono SpecUnitTape.

Lemma log_app : forall P R (next : P * R -> res unit * (P * R)) k s l s1, log next k s l s1 ->
  forall k2 l2 s2, log next k2 s1 l2 s2 -> log next (k + k2) s (l ++ l2) s2.
Proof.
  intros P R next k s l s1 H. induction H as [s|k s p src l s' E H IH|k s e p src l s' E H IH]; intros k2 l2 s2 H2; cbn [Nat.add app].
  - exact H2.
  - eapply log_ok; eauto.
  - eapply log_error; eauto.
Qed.

(** ** Along the log *)
(** Pieces that are left to the reader [s]: inside a unit, or before the first call. *)
Definition left_pieces (s : ureader) (l : list (packet * option err)) : list piece :=
  match ur_cur s with Some p => gather (ur_where s) p (ur_buf s) l | None => search (ur_where s) l end.
Definition cur_of (s : ureader) : packet := match ur_cur s with Some p => p | None => zero_packet end.
Definition u_ok (s : ureader) : Prop := (ur_cur s = None -> ur_buf s = []) /\ (ur_ready s = true -> ur_cur s <> None).
(** The pieces when a unit is being drained: the buffer is the unit *)
Definition later_pieces (s : ureader) (l : list (packet * option err)) : list piece :=
  match ur_cur s with Some p => if ur_ready s then gather (ur_where s) p [] l else gather (ur_where s) p (ur_buf s) l | None => search (ur_where s) l end.
Definition draining (s : ureader) : option (list Z) := if ur_ready s then Some (ur_buf s) else None.

Lemma collect_log : forall k p r l s', log packet_next k (p, r) l s' -> forall fuel s buf x t, (k <= fuel)%nat ->
  gather (ur_where s) p buf l = x :: t ->
  exists k2 p2 r2 l2 buf2, log packet_next k2 (p2, r2) l2 s' /\ (k2 <= k)%nat /\
    match x with
    | Whole b => ur_collect fuel s p r buf = (Ok None, ur_set s p2 r2 b false) /\ t = gather (ur_where s) p2 [] l2 /\ buf2 = []
    | Broken e => ur_collect fuel s p r buf = (Ok (Some e), ur_set s p2 r2 buf2 false) /\ t = gather (ur_where s) p2 buf2 l2
    end.
Proof.
  intros k p r l s' H. remember (p, r) as st eqn:Es. revert p r Es.
  induction H as [st|k st q src l s' E H IH|k st e q src l s' E H IH]; intros p r -> fuel s buf x t Hf G; cbn [gather] in G; [discriminate| |];
    (destruct fuel as [|f]; [lia|]); cbn [ur_collect]; rewrite E;
    replace (if ur_where s p then buf ++ pk_payload p else buf) with (buf ++ adds (ur_where s) p)
      by (unfold adds; destruct (ur_where s p); [reflexivity | apply app_nil_r]).
  - change (ur_start s q) with (begins (ur_where s) q). destruct (begins (ur_where s) q).
    + assert (x = Whole (buf ++ adds (ur_where s) p) /\ t = gather (ur_where s) q [] l) as (-> & ->) by (split; congruence).
      exists k, q, src, l, []. repeat split; auto.
    + destruct (IH q src eq_refl f s (buf ++ adds (ur_where s) p) x t ltac:(lia) G) as (k2 & p2 & r2 & l2 & b2 & L & Lk & X).
      exists k2, p2, r2, l2, b2. repeat split; auto.
  - assert (x = Broken e /\ t = gather (ur_where s) q (buf ++ adds (ur_where s) p) l) as (-> & ->) by (split; congruence).
    exists k, q, src, l, (buf ++ adds (ur_where s) p). repeat split; auto.
Qed.

Lemma seek_log : forall k p r l s', log packet_next k (p, r) l s' -> forall fuel s x t, (k <= fuel)%nat -> ur_start s p = false ->
  search (ur_where s) l = x :: t ->
  exists k2 p2 r2 l2, log packet_next k2 (p2, r2) l2 s' /\ (k2 < k)%nat /\
    ((ur_seek fuel s p r = (Ok tt, (p2, r2)) /\ gather (ur_where s) p2 [] l2 = x :: t) \/
     exists e, x = Broken e /\ ur_seek fuel s p r = (Err e, (p2, r2)) /\ t = gather (ur_where s) p2 [] l2).
Proof.
  intros k p r l s' H. remember (p, r) as st eqn:Es. revert p r Es.
  induction H as [st|k st q src l s' E H IH|k st e q src l s' E H IH]; intros p r -> fuel s x t Hf Hs G; cbn [search] in G; [discriminate| |];
    (destruct fuel as [|f]; [lia|]); cbn [ur_seek]; rewrite Hs, E.
  - change (begins (ur_where s) q) with (ur_start s q) in G. destruct (ur_start s q) eqn:Eq.
    + exists k, q, src, l. split; [exact H|]. split; [lia|]. left. split; [destruct f; cbn [ur_seek]; rewrite Eq; reflexivity | exact G].
    + destruct (IH q src eq_refl f s x t ltac:(lia) Eq G) as (k2 & p2 & r2 & l2 & L & Lk & X). exists k2, p2, r2, l2. split; [exact L|]. split; [lia | exact X].
  - assert (x = Broken e /\ t = gather (ur_where s) q [] l) as (-> & ->) by (split; congruence).
    exists k, q, src, l. split; [exact H|]. split; [lia|]. right. exists e. auto.
Qed.

(** [reach s k l s']: the log of [k] calls that the reader [s] still has to make *)
Definition ahead (s : ureader) k l s' : Prop := log packet_next k (cur_of s, ur_br s) l s'.

Lemma fill_log : forall s k l s' fuel x t, u_ok s -> ur_ready s = false -> ahead s k l s' -> (k <= fuel)%nat -> later_pieces s l = x :: t ->
  exists s2 k2 l2, u_ok (mkUR (ur_cur s2) (ur_buf s2) (ur_br s2) (ur_where s2) true) /\ ur_where s2 = ur_where s /\ ur_ready s2 = false /\ ahead s2 k2 l2 s' /\ (k2 <= k)%nat /\
    match x with
    | Whole b => ur_fill fuel s = (Ok None, s2) /\ ur_buf s2 = b /\ (exists p, ur_cur s2 = Some p /\ t = gather (ur_where s) p [] l2)
    | Broken e => ur_fill fuel s = (Ok (Some e), s2) /\ t = later_pieces s2 l2
    end.
Proof.
  intros s k l s' fuel x t [U1 U2] Hr H Hf G. unfold ahead, cur_of, later_pieces in *. rewrite Hr in *. unfold ur_fill.
  assert (K : forall k0 p r l0 buf, (k0 <= k)%nat -> log packet_next k0 (p, r) l0 s' -> gather (ur_where s) p buf l0 = x :: t ->
    exists s2 k2 l2, u_ok (mkUR (ur_cur s2) (ur_buf s2) (ur_br s2) (ur_where s2) true) /\ ur_where s2 = ur_where s /\ ur_ready s2 = false /\ ahead s2 k2 l2 s' /\ (k2 <= k)%nat /\
      match x with
      | Whole b => ur_collect fuel s p r buf = (Ok None, s2) /\ ur_buf s2 = b /\ (exists q, ur_cur s2 = Some q /\ t = gather (ur_where s) q [] l2)
      | Broken e => ur_collect fuel s p r buf = (Ok (Some e), s2) /\ t = later_pieces s2 l2
      end).
  { intros k0 p r l0 buf Lk L G0. destruct (collect_log _ _ _ _ _ L fuel s buf x t ltac:(lia) G0) as (k2 & p2 & r2 & l2 & b2 & L2 & Lk2 & X).
    destruct x as [b|e].
    - destruct X as (X1 & X2 & _). exists (ur_set s p2 r2 b false), k2, l2.
      split; [split; cbn; intros; discriminate|]. split; [reflexivity|]. split; [reflexivity|]. split; [exact L2|]. split; [lia|].
      split; [exact X1|]. split; [reflexivity|]. exists p2. split; [reflexivity | exact X2].
    - destruct X as (X1 & X2). exists (ur_set s p2 r2 b2 false), k2, l2.
      split; [split; cbn; intros; discriminate|]. split; [reflexivity|]. split; [reflexivity|]. split; [exact L2|]. split; [lia|].
      split; [exact X1|]. unfold later_pieces, ur_set. cbn. exact X2. }
  destruct (ur_cur s) as [p|] eqn:Ec.
  - exact (K k p (ur_br s) l (ur_buf s) (le_n _) H G).
  - rewrite (U1 eq_refl). assert (Hz : ur_start s zero_packet = false) by (unfold ur_start, t_and; apply andb_false_r).
    destruct (seek_log _ _ _ _ _ H fuel s x t Hf Hz G) as (k2 & p2 & r2 & l2 & L2 & Lk2 & [(X1 & X2)|(e & -> & X1 & X2)]); rewrite X1.
    + apply (K k2 p2 r2 l2 []); [lia | exact L2 | exact X2].
    + exists (ur_set s p2 r2 [] false), k2, l2.
      split; [split; cbn; intros; discriminate|]. split; [reflexivity|]. split; [reflexivity|]. split; [exact L2|]. split; [lia|].
      split; [reflexivity|]. unfold later_pieces, ur_set. cbn. exact X2.
Qed.

Lemma drain_is : forall n s p, ur_cur s = Some p ->
  exists s2, ur_drain n s = (Ok (if (n <=? length (ur_buf s))%nat then (firstn n (ur_buf s), None) else (ur_buf s, Some EOP)), s2) /\
    ur_cur s2 = Some p /\ ur_where s2 = ur_where s /\ ur_br s2 = ur_br s /\
    (if (n <=? length (ur_buf s))%nat then ur_ready s2 = true /\ ur_buf s2 = skipn n (ur_buf s) else ur_ready s2 = false /\ ur_buf s2 = []).
Proof.
  intros n s p Hp. unfold ur_drain. rewrite firstn_length. destruct (Nat.leb_spec n (length (ur_buf s))) as [L|L].
  - rewrite Nat.min_l by exact L. rewrite Nat.ltb_irrefl. eexists. split; [reflexivity|]. cbn. rewrite Hp. auto.
  - rewrite Nat.min_r by lia. rewrite (proj2 (Nat.ltb_lt _ _) L). rewrite firstn_all2 by lia. eexists. split; [reflexivity|]. cbn. rewrite Hp.
    rewrite skipn_all. auto.
Qed.

Lemma read_log : forall s k l s' fuel n out c2 t2, u_ok s -> ahead s k l s' -> (k <= fuel)%nat ->
  piece_read n (draining s) (later_pieces s l) = Some (out, (c2, t2)) ->
  exists s2 k2 l2, ur_read fuel n s = (Ok out, s2) /\ u_ok s2 /\ ahead s2 k2 l2 s' /\ (k2 <= k)%nat /\ draining s2 = c2 /\ later_pieces s2 l2 = t2.
Proof.
  intros s k l s' fuel n out c2 t2 U H Hf HT.
  assert (D : forall s0 k0 l0 p, ur_cur s0 = Some p -> (k0 <= k)%nat -> ahead s0 k0 l0 s' ->
    Some (if (n <=? length (ur_buf s0))%nat then ((firstn n (ur_buf s0), None), (Some (skipn n (ur_buf s0)), gather (ur_where s0) p [] l0)) else ((ur_buf s0, Some EOP), (None, gather (ur_where s0) p [] l0)))
      = Some (out, (c2, t2)) ->
    exists s2 k2 l2, ur_drain n s0 = (Ok out, s2) /\ u_ok s2 /\ ahead s2 k2 l2 s' /\ (k2 <= k)%nat /\ draining s2 = c2 /\ later_pieces s2 l2 = t2).
  { intros s0 k0 l0 p Hp Lk A E. destruct (drain_is n s0 p Hp) as (s2 & E2 & Y1 & Y2 & Y3 & Y4). exists s2, k0, l0. rewrite E2.
    unfold ahead, cur_of, draining, later_pieces, u_ok. rewrite Y1, Y2, Y3.
    unfold ahead, cur_of in A. rewrite Hp in A.
    destruct (Nat.leb_spec n (length (ur_buf s0))) as [L|L]; destruct Y4 as (Y4 & Y5); rewrite Y4, Y5;
      (split; [congruence|]); (split; [split; intros; congruence|]); (split; [exact A|]); (split; [exact Lk|]); split; congruence. }
  unfold ur_read. unfold draining, later_pieces in HT. destruct (ur_ready s) eqn:Er.
  - destruct U as (U1 & U2). specialize (U2 Er). destruct (ur_cur s) as [p|] eqn:Ec; [|congruence].
    apply (D s k l p Ec (le_n _) H). cbn [piece_read] in HT. destruct (n <=? length (ur_buf s))%nat; exact HT.
  - destruct (match ur_cur s with Some p => gather (ur_where s) p (ur_buf s) l | None => search (ur_where s) l end) as [|x t] eqn:G; [discriminate|].
    assert (G2 : later_pieces s l = x :: t) by (unfold later_pieces; rewrite Er; exact G).
    destruct (fill_log s k l s' fuel x t U Er H Hf G2) as (s2 & k2 & l2 & V & W & R & A & Lk & X). destruct x as [b|e].
    + destruct X as (-> & Eb & p & Ep & ->). apply (D s2 k2 l2 p Ep Lk A). rewrite Eb, W. cbn [piece_read] in HT. destruct (n <=? length b)%nat; exact HT.
    + destruct X as (-> & ->). cbn [piece_read] in HT. exists s2, k2, l2.
      split; [congruence|]. split; [destruct V as (V1 & V2); split; [exact V1 | rewrite R; discriminate]|]. split; [exact A|]. split; [exact Lk|].
      unfold draining. rewrite R. split; congruence.
Qed.
Lemma reads_log : forall s' fuel sizes s k l outs, u_ok s -> ahead s k l s' -> (k <= fuel)%nat ->
  piece_reads sizes (draining s) (later_pieces s l) = Some outs -> ur_reads fuel sizes s = map Ok outs.
Proof.
  intros s' fuel. induction sizes as [|n t IH]; intros s k l outs U H Hf HT; cbn [piece_reads ur_reads] in *.
  - assert (outs = []) as -> by congruence. reflexivity.
  - destruct (piece_read n (draining s) (later_pieces s l)) as [[out [c2 t2]]|] eqn:E1; [|discriminate].
    destruct (piece_reads t c2 t2) as [outs'|] eqn:E2; [|discriminate]. assert (outs = out :: outs') as -> by congruence.
    destruct (read_log _ _ _ _ _ _ _ _ _ U H Hf E1) as (s2 & k2 & l2 & G & V & A & Lk & <- & <-).
    rewrite G. cbn [map]. f_equal. eapply IH; [exact V|exact A|lia|exact E2].
Qed.

(** ** The other way round *)
Definition piece_of (x : option err) (b : list Z) : piece := match x with None => Whole b | Some e => Broken e end.
Lemma collect_calls : forall fuel s p r buf x s2, ur_collect fuel s p r buf = (Ok x, s2) ->
  exists k l q, log packet_next k (p, r) l (q, ur_br s2) /\ ur_cur s2 = Some q /\ ur_where s2 = ur_where s /\ ur_ready s2 = false /\
    forall l2, gather (ur_where s) p buf (l ++ l2) = piece_of x (ur_buf s2) :: gather (ur_where s) q (match x with None => [] | Some _ => ur_buf s2 end) l2.
Proof.
  induction fuel as [|f IH]; intros s p r buf x s2 H; cbn [ur_collect] in H; [discriminate|].
  replace (if ur_where s p then buf ++ pk_payload p else buf) with (buf ++ adds (ur_where s) p) in H
    by (unfold adds; destruct (ur_where s p); [reflexivity | apply app_nil_r]).
  destruct (packet_next (p, r)) as [[[]|e| |] [q src]] eqn:E; try discriminate.
  - change (ur_start s q) with (begins (ur_where s) q) in H. destruct (begins (ur_where s) q) eqn:B.
    + assert (x = None /\ s2 = ur_set s q src (buf ++ adds (ur_where s) p) false) as (-> & ->) by (split; congruence).
      exists 1%nat, [(q, None)], q. split; [eapply log_ok; [exact E | constructor]|]. repeat split.
      intro l2. cbn [app gather]. rewrite B. reflexivity.
    + destruct (IH _ _ _ _ _ _ H) as (k & l & q2 & L & A1 & A2 & A3 & G). exists (S k), ((q, None) :: l), q2.
      split; [eapply log_ok; eassumption|]. repeat split; auto. intro l2. cbn [app gather]. rewrite B. apply G.
  - assert (x = Some e /\ s2 = ur_set s q src (buf ++ adds (ur_where s) p) false) as (-> & ->) by (split; congruence).
    exists 1%nat, [(q, Some e)], q. split; [eapply log_error; [exact E | constructor]|]. repeat split.
Qed.
Lemma seek_calls : forall fuel s p r x q r2, ur_start s p = false -> ur_seek fuel s p r = (x, (q, r2)) ->
  match x with
  | Ok _ => exists k l, log packet_next k (p, r) l (q, r2) /\ forall l2, search (ur_where s) (l ++ l2) = gather (ur_where s) q [] l2
  | Err e => exists k l, log packet_next k (p, r) l (q, r2) /\ forall l2, search (ur_where s) (l ++ l2) = Broken e :: gather (ur_where s) q [] l2
  | Panic => exists k l st, log packet_next k (p, r) l st /\ fst (packet_next st) = Panic
  | OutOfFuel => True
  end.
Proof.
  induction fuel as [|f IH]; intros s p r x q r2 Hs H; cbn [ur_seek] in H; rewrite Hs in H.
  - assert (x = OutOfFuel) as -> by congruence. exact I.
  - destruct (packet_next (p, r)) as [[[]|e| |] [q1 src]] eqn:E.
    + destruct (ur_start s q1) eqn:B.
      * assert (H1 : ur_seek f s q1 src = (Ok tt, (q1, src))) by (destruct f; cbn [ur_seek]; rewrite B; reflexivity).
        rewrite H1 in H. assert (x = Ok tt /\ q = q1 /\ r2 = src) as (-> & -> & ->) by (repeat split; congruence).
        exists 1%nat, [(q1, None)]. split; [eapply log_ok; [exact E | constructor]|]. intro l2. cbn [app search].
        change (begins (ur_where s) q1) with (ur_start s q1). rewrite B. reflexivity.
      * specialize (IH _ _ _ _ _ _ B H). change (ur_start s q1) with (begins (ur_where s) q1) in B.
        destruct x as [[]|e| |]; [| | |exact I].
        -- destruct IH as (k & l & L & G). exists (S k), ((q1, None) :: l). split; [eapply log_ok; eassumption|]. intro l2. cbn [app search]. rewrite B. apply G.
        -- destruct IH as (k & l & L & G). exists (S k), ((q1, None) :: l). split; [eapply log_ok; eassumption|]. intro l2. cbn [app search]. rewrite B. apply G.
        -- destruct IH as (k & l & st & L & N). exists (S k), ((q1, None) :: l), st. split; [eapply log_ok; eassumption | exact N].
    + assert (x = Err e /\ q = q1 /\ r2 = src) as (-> & -> & ->) by (repeat split; congruence).
      exists 1%nat, [(q1, Some e)]. split; [eapply log_error; [exact E | constructor]|]. reflexivity.
    + assert (x = Panic) as -> by congruence. exists 0%nat, [], (p, r). split; [constructor | rewrite E; reflexivity].
    + assert (x = OutOfFuel) as -> by congruence. exact I.
Qed.
Lemma fill_calls : forall fuel s x s2, u_ok s -> ur_ready s = false -> ur_fill fuel s = (Ok x, s2) ->
  exists k l q, log packet_next k (cur_of s, ur_br s) l (q, ur_br s2) /\ ur_cur s2 = Some q /\ ur_where s2 = ur_where s /\ ur_ready s2 = false /\
    forall l2, later_pieces s (l ++ l2) = piece_of x (ur_buf s2) :: gather (ur_where s) q (match x with None => [] | Some _ => ur_buf s2 end) l2.
Proof.
  intros fuel s x s2 [U1 U2] Hr H. unfold ur_fill, cur_of, later_pieces in *. rewrite Hr. destruct (ur_cur s) as [p|] eqn:Ec; [apply (collect_calls _ _ _ _ _ _ _ H)|].
  rewrite (U1 eq_refl) in H. assert (Hz : ur_start s zero_packet = false) by (unfold ur_start, t_and; apply andb_false_r).
  destruct (ur_seek fuel s zero_packet (ur_br s)) as [y [p r]] eqn:E. pose proof (seek_calls _ _ _ _ _ _ _ Hz E) as K.
  destruct y as [[]|e| |]; try discriminate.
  - destruct K as (k & l & L & G). destruct (collect_calls _ _ _ _ _ _ _ H) as (k2 & l2 & q & L2 & A1 & A2 & A3 & G2).
    exists (k + k2)%nat, (l ++ l2), q. split; [eapply log_app; eassumption|]. repeat split; auto. intro l3. rewrite <- app_assoc, G, G2. reflexivity.
  - destruct K as (k & l & L & G). assert (x = Some e /\ s2 = ur_set s p r [] false) as (-> & ->) by (split; congruence).
    exists k, l, p. split; [exact L|]. repeat split. exact G.
Qed.
Lemma read_calls : forall fuel n s out s2, u_ok s -> ur_read fuel n s = (Ok out, s2) ->
  exists k l c2, log packet_next k (cur_of s, ur_br s) l (cur_of s2, ur_br s2) /\ u_ok s2 /\ draining s2 = c2 /\
    forall l2, piece_read n (draining s) (later_pieces s (l ++ l2)) = Some (out, (c2, later_pieces s2 l2)).
Proof.
  intros fuel n s out s2 U H. unfold ur_read in H.
  assert (D : forall s0 p k l, ur_cur s0 = Some p -> ur_drain n s0 = (Ok out, s2) -> log packet_next k (cur_of s, ur_br s) l (p, ur_br s0) ->
    (forall l2, piece_read n (draining s) (later_pieces s (l ++ l2)) =
       if (n <=? length (ur_buf s0))%nat then Some ((firstn n (ur_buf s0), None), (Some (skipn n (ur_buf s0)), gather (ur_where s0) p [] l2)) else Some ((ur_buf s0, Some EOP), (None, gather (ur_where s0) p [] l2))) ->
    exists k l c2, log packet_next k (cur_of s, ur_br s) l (cur_of s2, ur_br s2) /\ u_ok s2 /\ draining s2 = c2 /\
    forall l2, piece_read n (draining s) (later_pieces s (l ++ l2)) = Some (out, (c2, later_pieces s2 l2))).
  { intros s0 p k l Hp E L G. destruct (drain_is n s0 p Hp) as (s3 & E2 & Y1 & Y2 & Y3 & Y4). rewrite E2 in E.
    assert (s3 = s2) as -> by congruence. exists k, l, (draining s2). unfold cur_of, draining, later_pieces, u_ok in *. rewrite Y1, Y2, Y3.
    split; [exact L|]. split; [split; intros; congruence|]. split; [reflexivity|]. intro l2. rewrite G.
    destruct (n <=? length (ur_buf s0))%nat; destruct Y4 as (Y4 & Y5); rewrite Y4, Y5; clear - E; injection E as <-; reflexivity. }
  destruct (ur_ready s) eqn:Er.
  - destruct U as (U1 & U2). specialize (U2 Er). destruct (ur_cur s) as [p|] eqn:Ec; [|congruence].
    apply (D s p 0%nat [] Ec H); [unfold cur_of; rewrite Ec; constructor|].
    intro l2. unfold draining, later_pieces. rewrite Er, Ec. reflexivity.
  - destruct (ur_fill fuel s) as [[x|e| |] s3] eqn:E; try discriminate.
    2:{ exfalso. clear - E. unfold ur_fill in E.
        assert (C : forall fuel p r buf e0 s4, ur_collect fuel s p r buf <> (Err e0, s4)).
        { induction fuel0 as [|f IH]; intros p r buf e0 s4 Q; cbn [ur_collect] in Q; [discriminate|].
          destruct (packet_next (p, r)) as [[[]|e1| |] [q src]]; try discriminate. destruct (ur_start s q); [discriminate|]. exact (IH _ _ _ _ _ Q). }
        destruct (ur_cur s); [exact (C _ _ _ _ _ _ E)|]. destruct (ur_seek fuel s zero_packet (ur_br s)) as [[[]|e0| |] [p r]]; try discriminate. exact (C _ _ _ _ _ _ E). }
    destruct (fill_calls _ _ _ _ U Er E) as (k & l & q & L & A1 & A2 & A3 & G). destruct x as [e|].
    + assert (out = ([], Some e) /\ s2 = s3) as (-> & ->) by (split; congruence). exists k, l, (draining s3).
      unfold cur_of at 2. rewrite A1. split; [exact L|]. split; [split; intros; congruence|]. split; [reflexivity|].
      intro l2. unfold draining at 1. rewrite Er, G. cbn [piece_of piece_read]. unfold draining, later_pieces. rewrite A1, A2, A3. reflexivity.
    + apply (D s3 q k l A1 H L). intro l2. unfold draining. rewrite Er, G, A2. reflexivity.
Qed.
Lemma reads_calls : forall fuel sizes s outs, u_ok s -> ur_reads fuel sizes s = map Ok outs ->
  exists k l s', log packet_next k (cur_of s, ur_br s) l s' /\ piece_reads sizes (draining s) (later_pieces s l) = Some outs.
Proof.
  intros fuel. induction sizes as [|n t IH]; intros s outs U H; cbn [ur_reads] in H.
  - destruct outs; [|discriminate]. exists 0%nat, [], (cur_of s, ur_br s). split; [constructor | reflexivity].
  - destruct (ur_read fuel n s) as [x s2] eqn:E. destruct outs as [|out outs]; [discriminate|].
    cbn [map] in H. assert (x = Ok out) as -> by congruence. assert (H' : ur_reads fuel t s2 = map Ok outs) by congruence. clear H.
    destruct (read_calls _ _ _ _ _ U E) as (k & l & c2 & L & V & <- & G). destruct (IH _ _ V H') as (k2 & l2 & s' & L2 & T2).
    exists (k + k2)%nat, (l ++ l2), s'. split; [eapply log_app; eassumption|]. cbn [piece_reads]. rewrite G, T2. reflexivity.
Qed.

(** ** Every Read returns, unless Next panics *)
Lemma log_mono : forall k s l s', log packet_next k s l s' -> rlater (snd s) = [] -> rlater (snd s') = [] /\ (left (snd s') <= left (snd s))%nat.
Proof.
  induction 1 as [s|k s p src l s' E H IH|k s e p src l s' E H IH]; intro Hr; [auto| |];
    destruct (monop_packet_next _ _ _ Hr E) as (A & _ & B); cbn [snd] in *; destruct (IH A) as (C & D); split; [exact C|lia|exact C|lia].
Qed.
Definition panics (s : packet * reader) : Prop := exists k l st, log packet_next k s l st /\ fst (packet_next st) = Panic.
Lemma collect_total : forall fuel s p r buf, rlater r = [] -> (left r < fuel)%nat ->
  (exists x s2, ur_collect fuel s p r buf = (Ok x, s2)) \/ panics (p, r).
Proof.
  induction fuel as [|f IH]; intros s p r buf Hr Hl; [lia|]. cbn [ur_collect].
  destruct (packet_next (p, r)) as [[[]|e| |] [q src]] eqn:E.
  - destruct (ur_start s q); [left; eauto|]. destruct (packet_next_strict _ _ _ _ Hr E) as (A & B & _).
    match goal with |- context [ur_collect f s q src ?b] => destruct (IH s q src b ltac:(auto) ltac:(lia)) as [X|(k & l & st & L & N)] end; [left; exact X|].
    right. exists (S k), ((q, None) :: l), st. split; [eapply log_ok; eassumption | exact N].
  - left. eauto.
  - right. exists 0%nat, [], (p, r). split; [constructor | rewrite E; reflexivity].
  - exfalso. exact (packet_next_fuel _ _ E).
Qed.
Lemma seek_total : forall fuel s p r, rlater r = [] -> (left r < fuel)%nat -> fst (ur_seek fuel s p r) <> OutOfFuel.
Proof.
  induction fuel as [|f IH]; intros s p r Hr Hl; [lia|]. cbn [ur_seek]. destruct (ur_start s p); [discriminate|].
  destruct (packet_next (p, r)) as [[[]|e| |] [q src]] eqn:E; try discriminate.
  - destruct (packet_next_strict _ _ _ _ Hr E) as (A & B & _). apply IH; [auto|lia].
  - exfalso. exact (packet_next_fuel _ _ E).
Qed.
Lemma panics_after : forall k s l s', log packet_next k s l s' -> panics s' -> panics s.
Proof. intros k s l s' H (k2 & l2 & st & L & N). exists (k + k2)%nat, (l ++ l2), st. split; [eapply log_app; eassumption | exact N]. Qed.
Lemma fill_total : forall fuel s, rlater (ur_br s) = [] -> (left (ur_br s) < fuel)%nat ->
  (exists x s2, ur_fill fuel s = (Ok x, s2)) \/ panics (cur_of s, ur_br s).
Proof.
  intros fuel s Hr Hl. unfold ur_fill, cur_of. destruct (ur_cur s) as [p|]; [apply collect_total; auto|].
  assert (Hz : ur_start s zero_packet = false) by (unfold ur_start, t_and; apply andb_false_r).
  pose proof (seek_total fuel s zero_packet (ur_br s) Hr Hl) as T. destruct (ur_seek fuel s zero_packet (ur_br s)) as [y [p r]] eqn:E.
  pose proof (seek_calls _ _ _ _ _ _ _ Hz E) as K. destruct y as [[]|e| |].
  - destruct K as (k & l & L & _). destruct (log_mono _ _ _ _ L Hr) as (A & B). cbn [snd] in A, B.
    destruct (collect_total fuel s p r (ur_buf s) A ltac:(lia)) as [X|X]; [left; exact X | right; eapply panics_after; eassumption].
  - left. eauto.
  - right. exact K.
  - exfalso. apply T. reflexivity.
Qed.
Lemma reads_total : forall fuel sizes s, u_ok s -> rlater (ur_br s) = [] -> (left (ur_br s) < fuel)%nat ->
  (exists outs, ur_reads fuel sizes s = map Ok outs) \/ panics (cur_of s, ur_br s).
Proof.
  intros fuel. induction sizes as [|n t IH]; intros s U Hr Hl; [left; exists []; reflexivity|]. cbn [ur_reads].
  assert (R : (exists out s2, ur_read fuel n s = (Ok out, s2)) \/ panics (cur_of s, ur_br s)).
  { unfold ur_read. assert (D : forall s0, exists out s2, ur_drain n s0 = (Ok out, s2)).
    { intro s0. unfold ur_drain. destruct (Nat.ltb _ n); eauto. }
    destruct (ur_ready s); [left; apply D|]. destruct (fill_total fuel s Hr Hl) as [([e|] & s2 & ->)|P]; [left; eauto | left; apply D | right; exact P]. }
  destruct R as [(out & s2 & E)|P]; [|right; exact P]. rewrite E.
  destruct (read_calls _ _ _ _ _ U E) as (k & l & c2 & L & V & _). destruct (log_mono _ _ _ _ L Hr) as (A & B). cbn [snd] in A, B.
  destruct (IH s2 V A ltac:(lia)) as [(outs & ->)|P]; [left; exists (out :: outs); reflexivity | right; eapply panics_after; eassumption].
Qed.

(** ** Units that arrive whole *)
Lemma gather_app : forall w a p got b, exists p' got' ps, gather w p got (a ++ b) = ps ++ gather w p' got' b.
Proof.
  intros w. induction a as [|[q [e|]] t IH]; intros p got b; cbn [app gather].
  - exists p, got, []. reflexivity.
  - destruct (IH q (got ++ adds w p) b) as (p' & g' & ps & ->). exists p', g', (Broken e :: ps). reflexivity.
  - destruct (begins w q).
    + destruct (IH q [] b) as (p' & g' & ps & ->). exists p', g', (Whole (got ++ adds w p) :: ps). reflexivity.
    + destruct (IH q (got ++ adds w p) b) as (p' & g' & ps & ->). exists p', g', ps. reflexivity.
Qed.
Lemma search_app : forall w a b, (exists ps, search w (a ++ b) = ps ++ search w b) \/ exists p' got' ps, search w (a ++ b) = ps ++ gather w p' got' b.
Proof.
  intros w. induction a as [|[q [e|]] t IH]; intro b; cbn [app search].
  - left. exists []. reflexivity.
  - right. destruct (gather_app w t q [] b) as (p' & g' & ps & ->). exists p', g', (Broken e :: ps). reflexivity.
  - destruct (begins w q); [right; apply gather_app|]. apply IH.
Qed.
Lemma gather_rest : forall w mids p got q b, Forall (fun m => begins w m = false) mids -> begins w q = true ->
  gather w p got (map (fun m => (m, None)) mids ++ (q, None) :: b) = Whole (got ++ flat_map (adds w) (p :: mids)) :: gather w q [] b.
Proof.
  intros w. induction mids as [|m mids IH]; intros p got q b F B; cbn [map app gather flat_map].
  - rewrite B, app_nil_r. reflexivity.
  - inversion F as [|? ? F1 F2]; subst. rewrite F1, (IH _ _ _ _ F2 B), <- app_assoc. reflexivity.
Qed.
Lemma undamaged : forall w a p mids q b, begins w p = true -> Forall (fun m => begins w m = false) mids -> begins w q = true ->
  exists ps, search w (a ++ (p, None) :: map (fun m => (m, None)) mids ++ (q, None) :: b) =
    ps ++ Whole (flat_map (adds w) (p :: mids)) :: gather w q [] b.
Proof.
  intros w a p mids q b Hp F Hq. destruct (search_app w a ((p, None) :: map (fun m => (m, None)) mids ++ (q, None) :: b)) as [(ps & ->)|(p' & g' & ps & ->)]; cbn [search gather]; rewrite Hp, (gather_rest w mids p [] q b F Hq).
  - exists ps. reflexivity.
  - exists (ps ++ [Whole (g' ++ adds w p')]). rewrite <- app_assoc. reflexivity.
Qed.

(** A buffer that is larger than every unit: one Read for each piece *)
Definition at_once (x : piece) : list Z * option err := match x with Whole b => (b, Some EOP) | Broken e => ([], Some e) end.
Lemma big_reads : forall n ps, (forall b, In (Whole b) ps -> (length b < n)%nat) -> piece_reads (repeat n (length ps)) None ps = Some (map at_once ps).
Proof.
  induction ps as [|[b|e] ps IH]; intro H; cbn [length repeat piece_reads piece_read map at_once]; [reflexivity| |].
  - rewrite (proj2 (Nat.leb_gt _ _) (H b (or_introl eq_refl))), IH by (intros c Hc; apply H; right; exact Hc). reflexivity.
  - rewrite IH by (intros c Hc; apply H; right; exact Hc). reflexivity.
Qed.

(** The log, computed *)
Fixpoint run_log (k : nat) (s : packet * reader) : option (list (packet * option err)) * (packet * reader) :=
  match k with
  | O => (Some [], s)
  | S k =>
      match packet_next s with
      | (Ok _, s1) => let '(t, s') := run_log k s1 in (option_map (cons (fst s1, None)) t, s')
      | (Err e, s1) => let '(t, s') := run_log k s1 in (option_map (cons (fst s1, Some e)) t, s')
      | (_, s1) => (None, s1)
      end
  end.
Lemma run_log_ok : forall k s l, fst (run_log k s) = Some l -> log packet_next k s l (snd (run_log k s)).
Proof.
  induction k as [|k IH]; intros s l H; cbn [run_log] in *.
  - assert (l = []) as -> by (cbn in H; congruence). constructor.
  - destruct (packet_next s) as [[[]|e| |] [p1 r1]] eqn:E; try discriminate;
      pose proof (IH (p1, r1)) as I1; destruct (run_log k (p1, r1)) as [[t|] s']; cbn [fst snd option_map] in *; try discriminate.
    + assert (l = (p1, None) :: t) as -> by congruence. eapply log_ok; [exact E | apply I1; reflexivity].
    + assert (l = (p1, Some e) :: t) as -> by congruence. eapply log_error; [exact E | apply I1; reflexivity].
Qed.
