(** TsRobust: resynchronisation, panics, stale fields and the adaptation field extension. *)
From Verif Require Import Base BitReader Exec Local TsModel SpecTs TsProofs TsLocal.

(** ** Inversion of bind *)
Lemma bind_ok_inv : forall S A B (m : M S A) (k : A -> M S B) s b s',
  bind m k s = (Ok b, s') -> exists a s1, m s = (Ok a, s1) /\ k a s1 = (Ok b, s').
Proof.
  intros S A B m k s b s' H. unfold bind in H. destruct (m s) as [[a|e| |] s1]; try discriminate. eauto.
Qed.
Lemma bind_panic_inv : forall S A B (m : M S A) (k : A -> M S B) s s', safe m ->
  bind m k s = (Panic, s') -> exists a s1, m s = (Ok a, s1) /\ k a s1 = (Panic, s').
Proof.
  intros S A B m k s s' Hs H. unfold bind in H. specialize (Hs s).
  destruct (m s) as [[a|e| |] s1]; simpl in Hs; try discriminate; try contradiction. eauto.
Qed.
Lemma bind_fuel_inv : forall S A B (m : M S A) (k : A -> M S B) s s', safe m ->
  bind m k s = (OutOfFuel, s') -> exists a s1, m s = (Ok a, s1) /\ k a s1 = (OutOfFuel, s').
Proof.
  intros S A B m k s s' Hs H. unfold bind in H. specialize (Hs s).
  destruct (m s) as [[a|e| |] s1]; simpl in Hs; try discriminate; try contradiction. eauto.
Qed.

(** ** Safety of the parts *)
Lemma safe_new_tpd : safe new_tpd.
Proof.
  unfold new_tpd. apply safe_bind; [apply safe_read_n|]. intro n. apply safe_if; [|apply safe_ret].
  intro r. pose proof (safe_read_bytes n r).
  destruct (read_bytes n r) as [[d|e| |] r']; simpl in *; auto. destruct e; exact I.
Qed.
Lemma safe_new_ext : safe new_ext.
Proof. unfold new_ext. safe_tac. Qed.
Lemma safe_new_af : safe new_af.
Proof.
  unfold new_af. unfold read_pcr.
  repeat first [ apply safe_new_tpd | apply safe_new_ext | progress safe_tac ].
  all: intro r0; match goal with |- context [read_bytes ?n ?r] => pose proof (safe_read_bytes n r);
    destruct (read_bytes n r) as [[d'|e| |] r']; simpl in *; auto; destruct e; exact I end.
Qed.
Lemma safe_ts_is_aligned : safe ts_is_aligned.
Proof.
  intro r. unfold ts_is_aligned. destruct (negb _); [exact I|].
  apply (safe_bind _ _ _ (peek_n 8) (fun v => ret (v =? SyncByte))); [apply safe_peek_n | intro; apply safe_ret].
Qed.
Lemma safe_realign_loop : forall k, safe (realign_loop k).
Proof. induction k; cbn [realign_loop]; safe_tac. apply IHk. Qed.
Lemma safe_realign : safe realign.
Proof. intro r. unfold realign. apply safe_realign_loop. Qed.

(** The declared length kept in the AdaptationField. *)
Lemma new_af_length : forall r a l r', new_af r = (Ok (a, l), r') -> af_length a = l /\ 0 <= l < 256.
Proof.
  intros r a l r' H. unfold new_af in H.
  apply bind_ok_inv in H. destruct H as (len & r0 & E & H).
  assert (0 <= len < 256).
  { unfold read_n in E. destruct (Nat.leb_spec 8 (length (rbits r))).
    - inversion E. subst. pose proof (dec_range (firstn 8 (rbits r))) as D.
      rewrite firstn_length_le in D by auto. exact D.
    - destruct (short_is_err Z 8 r) as (e & r2 & E2). rewrite E2 in E. discriminate. }
  apply bind_ok_inv in H. destruct H as ([[[[[[[[? ?] ?] ?] ?] ?] ?] ?] ?] & ? & _ & H).
  apply bind_ok_inv in H. destruct H as ([? ?] & ? & _ & H).
  apply bind_ok_inv in H. destruct H as ([? ?] & ? & _ & H).
  apply bind_ok_inv in H. destruct H as ([? ?] & ? & _ & H).
  apply bind_ok_inv in H. destruct H as ([? ?] & ? & _ & H).
  apply bind_ok_inv in H. destruct H as ([? ?] & ? & _ & H).
  apply bind_ok_inv in H. destruct H as (? & ? & _ & H).
  inversion H; subst. cbn [af_length]. auto.
Qed.

Lemma upd_inv : forall T R (f : T -> T) s x s1, upd (R := R) f s = (Ok x, s1) -> s1 = (f (fst s), snd s).
Proof. intros T R f s x s1 H. inversion H. reflexivity. Qed.
Lemma onr_inv : forall T R A (m : M R A) (s : T * R) x s1,
  onr m s = (x, s1) -> fst s1 = fst s /\ m (snd s) = (x, snd s1).
Proof.
  intros T R A m s x s1 H. unfold onr in H. destruct (m (snd s)) as [y r']. inversion H; subst. auto.
Qed.

Lemma onrz_inv : forall T R A z (m : M R A) (s : T * R) a s1,
  onrz z m s = (Ok a, s1) -> fst s1 = fst s /\ m (snd s) = (Ok a, snd s1).
Proof.
  intros T R A z m s a s1 H. unfold onrz in H. destruct (m (snd s)) as [[y|e| |] r']; inversion H; subst. auto.
Qed.

Lemma safe_read_full_payload : forall size s s', size <= 184 -> read_payload size s <> (Panic, s').
Proof.
  intros size s s' H. unfold read_payload, MaxPayloadSize.
  rewrite (proj2 (Z.ltb_ge 184 size)) by lia.
  destruct (read_full size (snd s)) as [[bs [e|]] r2]; [destruct e|]; discriminate.
Qed.

(** Next panics only for adaptation_field_control 11 with adaptation_field_length > 183. *)
Lemma next_tail_panic : forall afc p r p' r', pk_afc p = afc ->
  next_tail afc (p, r) = (Panic, (p', r')) ->
  pk_afc p' = 3 /\ exists a, pk_af p' = Some a /\ 183 < af_length a.
Proof.
  intros afc p r p' r' Hp H. unfold next_tail in H.
  destruct (orb (afc =? FieldOnly) (afc =? FieldThenPayload)) eqn:E1.
  - unfold bind in H. cbn [fst snd] in H.
    destruct (new_af r) as [[[a l]|e| |] r1] eqn:E.
    + destruct (new_af_length _ _ _ _ E) as [EL HL].
      destruct (orb (afc =? PayloadOnly) (afc =? FieldThenPayload)) eqn:E2; [|discriminate].
      assert (afc = 3).
      { unfold FieldOnly, FieldThenPayload, PayloadOnly in *.
        apply orb_true_iff in E1. apply orb_true_iff in E2. rewrite !Z.eqb_eq in *. lia. }
      unfold read_payload in H.
      destruct (MaxPayloadSize <? u32 (MaxPayloadSize - u32 (l + 1))) eqn:E3.
      * inversion H; subst. cbn. split; [auto|]. exists a. split; auto.
        apply Z.ltb_lt in E3. unfold MaxPayloadSize in E3. rewrite (u32_small (af_length a + 1)) in E3 by lia.
        destruct (Z.le_gt_cases (af_length a) 183); [|lia].
        rewrite u32_small in E3 by lia. lia.
      * cbn [fst snd] in H. destruct (read_full _ r1) as [[bs [e|]] r2]; [destruct e|]; discriminate.
    + discriminate.
    + pose proof (safe_new_af r) as S. rewrite E in S. contradiction.
    + discriminate.
  - apply orb_false_iff in E1. destruct E1 as [E1 E1'].
    unfold bind, ret in H. rewrite E1' in H.
    destruct (orb (afc =? PayloadOnly) false); [|discriminate].
    exfalso. revert H. apply safe_read_full_payload. unfold MaxPayloadSize; lia.
Qed.

Ltac inv_onr H := let E := fresh "E" in
  apply bind_panic_inv in H;
  [ destruct H as (? & [? ?] & E & H); (apply onr_inv in E || apply onrz_inv in E); destruct E as [E _]; cbn [fst snd] in E; subst
  | ].
Ltac inv_upd H := let E := fresh "E" in
  apply bind_panic_inv in H;
  [ destruct H as (? & ? & E & H); apply upd_inv in E; subst; cbn [fst snd] in H | apply safe_upd ].

Lemma packet_next_panic : forall p r p' r', packet_next (p, r) = (Panic, (p', r')) ->
  pk_afc p' = 3 /\ exists a, pk_af p' = Some a /\ 183 < af_length a.
Proof.
  intros p r p' r' H. unfold packet_next in H.
  inv_onr H; [|safe_tac; apply safe_ts_is_aligned].
  apply bind_panic_inv in H.
  2:{ apply safe_if; [apply safe_onr; apply safe_realign | apply safe_ret]. }
  destruct H as (u & [p1 r1] & _ & H).
  inv_onr H; [|safe_tac].
  inv_onr H; [|safe_tac]. inv_upd H.
  inv_onr H; [|safe_tac]. inv_upd H.
  inv_onr H; [|safe_tac]. inv_upd H.
  inv_onr H; [|safe_tac]. inv_upd H.
  inv_onr H; [|safe_tac]. inv_upd H.
  inv_onr H; [|safe_tac]. inv_upd H.
  inv_onr H; [|safe_tac]. inv_upd H.
  eapply next_tail_panic; [|exact H]. reflexivity.
Qed.

Ltac inv_onrf H := apply bind_fuel_inv in H; [ destruct H as (? & [? ?] & _ & H) | ].
Ltac inv_updf H := apply bind_fuel_inv in H; [ destruct H as (? & [? ?] & _ & H) | apply safe_upd ].

Lemma next_tail_fuel : forall afc s s', next_tail afc s <> (OutOfFuel, s').
Proof.
  intros afc s s' H. unfold next_tail in H. apply bind_fuel_inv in H.
  - destruct H as (size & s1 & _ & H).
    destruct (orb (afc =? PayloadOnly) (afc =? FieldThenPayload)); [|discriminate].
    unfold read_payload in H. destruct (MaxPayloadSize <? size); [discriminate|].
    destruct (read_full size (snd s1)) as [[bs [e|]] r2]; [destruct e|]; discriminate.
  - apply safe_if; [|apply safe_ret]. intro s0. pose proof (safe_new_af (snd s0)).
    destruct (new_af (snd s0)) as [[[]| | |] ]; simpl in *; auto.
Qed.

Lemma packet_next_fuel : forall s s', packet_next s <> (OutOfFuel, s').
Proof.
  intros s s' H. unfold packet_next in H.
  inv_onrf H; [|safe_tac; apply safe_ts_is_aligned].
  inv_onrf H; [|apply safe_if; [apply safe_onr; apply safe_realign | apply safe_ret]].
  inv_onrf H; [|safe_tac].
  inv_onrf H; [|safe_tac]. inv_updf H.
  inv_onrf H; [|safe_tac]. inv_updf H.
  inv_onrf H; [|safe_tac]. inv_updf H.
  inv_onrf H; [|safe_tac]. inv_updf H.
  inv_onrf H; [|safe_tac]. inv_updf H.
  inv_onrf H; [|safe_tac]. inv_updf H.
  inv_onrf H; [|safe_tac]. inv_updf H.
  exact (next_tail_fuel _ _ _ H).
Qed.

(** A packet that makes Next panic. *)
Definition panic_bytes : list Z := [71; 0; 0; 48; 184] ++ repeat 0 184.
Lemma packet_next_can_panic :
  fst (packet_next (zero_packet, mkR (bb panic_bytes) EEOF [] (fun _ _ => EUnexpectedEOF))) = Panic.
Proof. vm_compute. reflexivity. Qed.

(** ** Resynchronisation *)
Definition no_sync (g : list Z) : Prop := Forall (fun b => b <> 71) g.

Lemma realign_garbage : forall g k r l, bytes g -> no_sync g ->
  realign_loop (length g + k) (setb r (bb g ++ l)) = realign_loop k (setb r l).
Proof.
  induction g as [|b g IH]; intros k r l Hb Hn; [reflexivity|].
  inversion Hb; inversion Hn; subst. cbn [length Nat.add realign_loop].
  rewrite bb_cons, <- app_assoc. unfold byte in *.
  erewrite bind_ok by (apply peek_enc; cbn; lia).
  unfold SyncByte. rewrite (proj2 (Z.eqb_neq b 71)) by auto.
  erewrite bind_ok by apply skip_enc. apply IH; auto.
Qed.

Lemma realign_sync : forall k r l,
  realign_loop (S k) (setb r (enc 8 71 ++ l)) = (Ok tt, setb r (enc 8 71 ++ l)).
Proof. intros. cbn [realign_loop]. erewrite bind_ok by (apply peek_enc; cbn; lia). reflexivity. Qed.

(** Realign drops a partial byte first. *)
Lemma realign_partial : forall pre r l, (length pre < 8)%nat -> aligned_len l ->
  realign (setb r (pre ++ l)) = realign_loop 188 (setb r l).
Proof.
  intros pre r l Hp Hl. unfold realign. rewrite is_aligned_setb.
  assert (E : (length (pre ++ l) mod 8 = length pre)%nat).
  { rewrite app_length, Nat.add_mod, Hl, Nat.add_0_r, Nat.mod_mod by lia. now apply Nat.mod_small. }
  rewrite E. destruct pre as [|b pre]; [reflexivity|].
  cbn [length Nat.eqb negb]. f_equal. unfold align. rewrite rbits_setb, E, setb_setb.
  now rewrite skipn_app_exact.
Qed.

Lemma not_aligned_partial : forall pre r l, (0 < length pre < 8)%nat -> aligned_len l ->
  ts_is_aligned (setb r (pre ++ l)) = (Ok false, setb r (pre ++ l)).
Proof.
  intros pre r l Hp Hl. unfold ts_is_aligned. rewrite is_aligned_setb.
  rewrite app_length, Nat.add_mod, Hl, Nat.add_0_r, Nat.mod_mod by lia.
  rewrite Nat.mod_small by lia. rewrite (proj2 (Nat.eqb_neq (length pre) 0)) by lia. reflexivity.
Qed.

Lemma not_aligned_garbage : forall b r l, byte b -> b <> 71 -> aligned_len l ->
  ts_is_aligned (setb r (enc 8 b ++ l)) = (Ok false, setb r (enc 8 b ++ l)).
Proof.
  intros b r l Hb Hn Hl. unfold byte in Hb. unfold ts_is_aligned. rewrite is_aligned_setb.
  rewrite app_length, enc_length, Nat.add_mod, Hl by lia. cbn [Nat.eqb Nat.modulo negb Nat.add].
  change (8 mod 8 =? 0)%nat with true. cbn [negb].
  erewrite bind_ok by (apply peek_enc; cbn; lia). unfold ret, SyncByte.
  now rewrite (proj2 (Z.eqb_neq b 71)).
Qed.

(** The part of Next after synchronisation. *)
Definition next_synced : M (packet * reader) unit :=
  onr (skip_n 8) ;;
  b <- onrz (set_tei false) read1 ;; upd (set_tei b) ;;
  b <- onrz (set_pusi false) read1 ;; upd (set_pusi b) ;;
  b <- onrz (set_prio false) read1 ;; upd (set_prio b) ;;
  v <- onrz (set_pid 0) (read_n 13) ;; upd (set_pid v) ;;
  v <- onrz (set_tsc 0) (read_n 2) ;; upd (set_tsc v) ;;
  afc <- onr (read_n 2) ;; upd (set_afc afc) ;;
  v <- onrz (set_cc 0) (read_n 4) ;; upd (set_cc v) ;;
  next_tail afc.

Lemma packet_next_eq : packet_next =
  (aligned <- onr ts_is_aligned ;;
   (if negb aligned then onr realign else ret tt) ;; next_synced).
Proof. reflexivity. Qed.

Lemma resync : forall pre g p r l, (length pre < 8)%nat -> bytes g -> no_sync g ->
  (length g < 188)%nat -> aligned_len l ->
  packet_next (p, setb r (pre ++ bb g ++ enc 8 71 ++ l)) = packet_next (p, setb r (enc 8 71 ++ l)).
Proof.
  intros pre g p r l Hp Hb Hn Hg Hl.
  assert (AL : aligned_len (enc 8 71 ++ l)) by (apply aligned_app; [reflexivity | auto]).
  assert (AG : aligned_len (bb g ++ enc 8 71 ++ l)) by (apply aligned_app; [apply aligned_bb | auto]).
  rewrite packet_next_eq.
  rewrite (bind_onr_ok _ _ _ _ ts_is_aligned _ p (setb r (enc 8 71 ++ l)) true (setb r (enc 8 71 ++ l)))
    by (apply ts_is_aligned_sync; auto).
  cbn [negb]. rewrite bind_ret.
  assert (R : realign (setb r (pre ++ bb g ++ enc 8 71 ++ l)) = (Ok tt, setb r (enc 8 71 ++ l))).
  { rewrite realign_partial by auto.
    replace 188%nat with (length g + (188 - length g))%nat by lia.
    rewrite realign_garbage by auto.
    replace (188 - length g)%nat with (S (187 - length g)) by lia. apply realign_sync. }
  destruct pre as [|b0 pre].
  - destruct g as [|b g].
    + cbn [bb flat_map app].
      rewrite (bind_onr_ok _ _ _ _ ts_is_aligned _ p (setb r (enc 8 71 ++ l)) true (setb r (enc 8 71 ++ l)))
        by (apply ts_is_aligned_sync; auto).
      reflexivity.
    + inversion Hb; inversion Hn; subst. cbn [app] in *. rewrite bb_cons, <- app_assoc in *.
      erewrite bind_onr_ok.
      2:{ apply not_aligned_garbage; auto. apply aligned_app; auto. apply aligned_bb. }
      cbn [negb]. erewrite bind_onr_ok by exact R. reflexivity.
  - erewrite bind_onr_ok. 2:{ apply not_aligned_partial; auto. cbn [length] in *; lia. }
    cbn [negb]. erewrite bind_onr_ok by exact R. reflexivity.
Qed.

Lemma resync_fail_gen : forall pre g p r l e r', (length pre < 8)%nat -> bytes g -> no_sync g ->
  aligned_len l -> (pre <> [] \/ g <> []) ->
  realign (setb r (pre ++ bb g ++ l)) = (Err e, r') ->
  packet_next (p, setb r (pre ++ bb g ++ l)) = (Err e, (p, r')).
Proof.
  intros pre g p r l e r' Hp Hb Hn Hl Hne R. rewrite packet_next_eq.
  destruct pre as [|b0 pre].
  - destruct g as [|b g]; [destruct Hne; congruence|].
    inversion Hb; inversion Hn; subst. cbn [app] in *. rewrite bb_cons, <- app_assoc in *.
    erewrite bind_onr_ok.
    2:{ apply not_aligned_garbage; auto. apply aligned_app; auto. apply aligned_bb. }
    cbn [negb]. erewrite bind_onr_err by exact R. reflexivity.
  - erewrite bind_onr_ok.
    2:{ apply not_aligned_partial. cbn [length] in *; lia. apply aligned_app; auto. apply aligned_bb. }
    cbn [negb]. erewrite bind_onr_err by exact R. reflexivity.
Qed.

Lemma resync_none : forall pre g p r l, (length pre < 8)%nat -> bytes g -> no_sync g ->
  length g = 188%nat -> aligned_len l ->
  packet_next (p, setb r (pre ++ bb g ++ l)) = (Err ErrNoSyncByte, (p, setb r l)).
Proof.
  intros pre g p r l Hp Hb Hn Hg Hl.
  apply resync_fail_gen; auto.
  - right. intro; subst. discriminate.
  - rewrite realign_partial; auto. 2:{ apply aligned_app; auto. apply aligned_bb. }
    rewrite <- Hg. rewrite <- (Nat.add_0_r (length g)).
    rewrite realign_garbage by auto. reflexivity.
Qed.

Lemma resync_end : forall pre g p r, (length pre < 8)%nat -> bytes g -> no_sync g ->
  (length g < 188)%nat ->
  packet_next (p, setb r (pre ++ bb g)) = (Err (rfin r), (p, advance r)).
Proof.
  intros pre g p r Hp Hb Hn Hg.
  assert (E : advance (setb r []) = advance r) by (unfold advance; destruct r as [? ? [|[]]]; reflexivity).
  destruct pre as [|b0 pre], g as [|b g].
  - cbn [app bb flat_map]. rewrite packet_next_eq.
    erewrite bind_onr_err; [rewrite <- E; reflexivity|]. reflexivity.
  - rewrite <- (app_nil_r (bb (b :: g))). apply resync_fail_gen; auto. reflexivity. right; discriminate.
    rewrite realign_partial; auto. 2:{ rewrite app_nil_r. apply aligned_bb. }
    replace 188%nat with (length (b :: g) + S (187 - length (b :: g)))%nat by lia.
    rewrite realign_garbage by auto. rewrite <- E. reflexivity.
  - rewrite <- (app_nil_r (bb [])).
    apply resync_fail_gen; auto. reflexivity. left; discriminate.
    rewrite realign_partial by (auto; reflexivity). rewrite <- E. reflexivity.
  - rewrite <- (app_nil_r (bb (b :: g))). apply resync_fail_gen; auto. reflexivity. right; discriminate.
    rewrite realign_partial; auto. 2:{ rewrite app_nil_r. apply aligned_bb. }
    replace 188%nat with (length (b :: g) + S (187 - length (b :: g)))%nat by lia.
    rewrite realign_garbage by auto. rewrite <- E. reflexivity.
Qed.
