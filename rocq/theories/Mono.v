(** Mono: reading never adds input.  Used to show that loops over a finite source end. *)
From Verif Require Import Base BitReader TsModel.

Definition left (r : reader) : nat := length (rbits r).

Definition mono {A} (m : M reader A) : Prop := forall r x r', rlater r = [] -> m r = (x, r') ->
  rlater r' = [] /\ rfin r' = rfin r /\ (left r' <= left r)%nat.

Lemma advance_mono : forall r, rlater r = [] ->
  rlater (advance r) = [] /\ rfin (advance r) = rfin r /\ left (advance r) = 0%nat.
Proof. intros r H. unfold advance. rewrite H. auto. Qed.

Lemma short_mono : forall A n, mono (@short A n).
Proof.
  intros A n r x r' Hr H. unfold short in H. destruct (rbits r) eqn:E; inversion H; subst.
  - destruct (advance_mono r Hr) as (? & ? & Z). rewrite Z. repeat split; auto. lia.
  - auto.
Qed.
Lemma mono_read_n : forall n, mono (read_n n).
Proof.
  intros n r x r' Hr H. unfold read_n in H. destruct (Nat.leb n (length (rbits r))).
  - inversion H; subst. cbn. repeat split; auto. unfold left; cbn. rewrite skipn_length. lia.
  - eapply short_mono; eauto.
Qed.
Lemma read_n_strict : forall n r a r', read_n n r = (Ok a, r') -> (left r = left r' + n)%nat.
Proof.
  intros n r a r' H. unfold read_n in H. destruct (Nat.leb_spec n (length (rbits r))).
  - inversion H; subst. unfold left; cbn. rewrite skipn_length. lia.
  - unfold short in H. destruct (rbits r); inversion H.
Qed.
Lemma mono_peek_n : forall n, mono (peek_n n).
Proof.
  intros n r x r' Hr H. unfold peek_n in H. destruct (Nat.leb n (length (rbits r))).
  - inversion H; subst. auto.
  - eapply short_mono; eauto.
Qed.
Lemma mono_ret : forall A (a : A), mono (ret a).
Proof. intros A a r x r' Hr H. inversion H; subst. auto. Qed.
Lemma mono_fail : forall A e, mono (@fail reader A e).
Proof. intros A a r x r' Hr H. inversion H; subst. auto. Qed.
Lemma mono_panic : forall A, mono (@panic reader A).
Proof. intros A r x r' Hr H. inversion H; subst. auto. Qed.
Lemma mono_nofuel : forall A, mono (@nofuel reader A).
Proof. intros A r x r' Hr H. inversion H; subst. auto. Qed.
Lemma mono_bind : forall A B (m : M reader A) (k : A -> M reader B), mono m -> (forall a, mono (k a)) -> mono (bind m k).
Proof.
  intros A B m k Hm Hk r x r' Hr H. unfold bind in H. destruct (m r) as [[a|e| |] r1] eqn:E.
  - destruct (Hm _ _ _ Hr E) as (A1 & A2 & A3). destruct (Hk a _ _ _ A1 H) as (B1 & B2 & B3).
    repeat split; auto; try congruence. lia.
  - inversion H; subst. eapply Hm; eauto.
  - inversion H; subst. eapply Hm; eauto.
  - inversion H; subst. eapply Hm; eauto.
Qed.
Lemma mono_if : forall A (c : bool) (a b : M reader A), mono a -> mono b -> mono (if c then a else b).
Proof. intros A [] a b Ha Hb; auto. Qed.
Lemma mono_ignore : forall A (d : A) m, mono m -> mono (ignore_err d m).
Proof.
  intros A d m Hm r x r' Hr H. unfold ignore_err in H. destruct (m r) as [[a|e| |] r1] eqn:E;
  inversion H; subst; eapply Hm; eauto.
Qed.
Lemma mono_read1 : mono read1.
Proof. unfold read1. apply mono_bind; [apply mono_read_n | intro; apply mono_ret]. Qed.
Lemma mono_peek1 : mono peek1.
Proof. unfold peek1. apply mono_bind; [apply mono_peek_n | intro; apply mono_ret]. Qed.
Lemma mono_skip_n : forall n, mono (skip_n n).
Proof. intro. unfold skip_n. apply mono_bind; [apply mono_read_n | intro; apply mono_ret]. Qed.
Lemma read_full_mono : forall n r bs e r', rlater r = [] -> read_full n r = ((bs, e), r') ->
  rlater r' = [] /\ rfin r' = rfin r /\ (left r' <= left r)%nat.
Proof.
  intros n r bs e r' Hr H. unfold read_full in H.
  destruct (n <=? 0); [inversion H; subst; auto|].
  destruct (n <=? avail r).
  - inversion H; subst. cbn. repeat split; auto. unfold left; cbn [rbits setb]. rewrite skipn_length. lia.
  - inversion H; subst. destruct (advance_mono r Hr) as (? & ? & Z). rewrite Z. repeat split; auto. lia.
Qed.
Lemma mono_read_bytes : forall n, mono (read_bytes n).
Proof.
  intros n r x r' Hr H. unfold read_bytes in H. destruct (read_full n r) as [[bs [e|]] r1] eqn:E;
  inversion H; subst; eapply read_full_mono; eauto.
Qed.
Lemma align_mono : forall r, rlater (align r) = rlater r /\ rfin (align r) = rfin r /\ (left (align r) <= left r)%nat.
Proof. intro r. unfold align, left; cbn [rbits setb rlater rfin]. rewrite skipn_length. repeat split; auto. lia. Qed.
Lemma mono_align : mono align_m.
Proof.
  intros r x r' Hr H. unfold align_m in H. inversion H; subst. destruct (align_mono r) as (A & B & C).
  repeat split; auto; congruence.
Qed.

Create HintDb mono.
Ltac mono_tac :=
  repeat first
    [ apply mono_ret | apply mono_fail | apply mono_panic | apply mono_nofuel
    | apply mono_read_n | apply mono_peek_n | apply mono_read1 | apply mono_peek1 | apply mono_skip_n
    | apply mono_read_bytes | apply mono_align | solve [auto with mono]
    | apply mono_bind | apply mono_if | apply mono_ignore
    | match goal with
      | |- forall _, _ => intro
      | |- mono (let '_ := ?x in _) => destruct x
      | |- mono (match ?x with _ => _ end) => destruct x
      end ].

(** ** ts packets *)
Lemma mono_eof_bytes : forall A n (f : list Z -> A), mono (fun r => match read_bytes n r with
             | (Err EEOF, r') => (Err EUnexpectedEOF, r')
             | (Ok d, r') => (Ok (f d), r')
             | (Err e, r') => (Err e, r')
             | (Panic, r') => (Panic, r')
             | (OutOfFuel, r') => (OutOfFuel, r')
             end).
Proof.
  intros A n f r x r' Hr H. pose proof (mono_read_bytes n r) as Q.
  destruct (read_bytes n r) as [[d|e| |] r1].
  - inversion H; subst. eapply Q; eauto.
  - destruct e; inversion H; subst; eapply Q; eauto.
  - inversion H; subst. eapply Q; eauto.
  - inversion H; subst. eapply Q; eauto.
Qed.
Lemma mono_new_tpd : mono new_tpd.
Proof. unfold new_tpd. mono_tac. apply (mono_eof_bytes _ _ (fun d => (mkTpd a d, a))). Qed.
Lemma mono_new_ext : mono new_ext.
Proof. unfold new_ext. mono_tac. Qed.
Global Hint Resolve mono_new_tpd mono_new_ext : mono.
Lemma mono_eof_junk : forall n, mono (fun r => match read_bytes n r with
                | (Err EEOF, r') => (Err EUnexpectedEOF, r') | x => x end).
Proof.
  intros n r x r' Hr H. pose proof (mono_read_bytes n r) as Q.
  destruct (read_bytes n r) as [[d|e| |] r1].
  - inversion H; subst. eapply Q; eauto.
  - destruct e; inversion H; subst; eapply Q; eauto.
  - inversion H; subst. eapply Q; eauto.
  - inversion H; subst. eapply Q; eauto.
Qed.
Lemma mono_new_af : mono new_af.
Proof. unfold new_af, read_pcr. mono_tac. all: apply mono_eof_junk. Qed.
Lemma mono_ts_is_aligned : mono ts_is_aligned.
Proof.
  intros r x r' Hr H. unfold ts_is_aligned in H. destruct (negb (is_aligned r)).
  - inversion H; subst. auto.
  - revert H. apply (mono_bind _ _ (peek_n 8)); auto; mono_tac.
Qed.
Lemma mono_realign_loop : forall k, mono (realign_loop k).
Proof. induction k; cbn [realign_loop]; mono_tac. Qed.
Lemma mono_realign : mono realign.
Proof.
  intros r x r' Hr H. unfold realign in H.
  destruct (negb (is_aligned r)).
  - destruct (align_mono r) as (A & B & C).
    destruct (mono_realign_loop 188 _ _ _ (eq_trans A Hr) H) as (D & E & F). repeat split; auto; try congruence. lia.
  - eapply mono_realign_loop; eauto.
Qed.
Global Hint Resolve mono_new_af mono_ts_is_aligned mono_realign : mono.

(** Computations on a pair of value and reader. *)
Definition monop {T A} (m : M (T * reader) A) : Prop := forall s x s', rlater (snd s) = [] -> m s = (x, s') ->
  rlater (snd s') = [] /\ rfin (snd s') = rfin (snd s) /\ (left (snd s') <= left (snd s))%nat.
Lemma monop_bind : forall T A B (m : M (T * reader) A) (k : A -> M (T * reader) B),
  monop m -> (forall a, monop (k a)) -> monop (bind m k).
Proof.
  intros T A B m k Hm Hk r x r' Hr H. unfold bind in H. destruct (m r) as [[a|e| |] r1] eqn:E.
  - destruct (Hm _ _ _ Hr E) as (A1 & A2 & A3). destruct (Hk a _ _ _ A1 H) as (B1 & B2 & B3).
    repeat split; auto; try congruence. lia.
  - inversion H; subst. eapply Hm; eauto.
  - inversion H; subst. eapply Hm; eauto.
  - inversion H; subst. eapply Hm; eauto.
Qed.
Lemma monop_if : forall T A (c : bool) (a b : M (T * reader) A), monop a -> monop b -> monop (if c then a else b).
Proof. intros T A [] a b Ha Hb; auto. Qed.
Lemma monop_ret : forall T A (a : A), monop (T := T) (ret a).
Proof. intros T A a r x r' Hr H. inversion H; subst. auto. Qed.
Lemma monop_fail : forall T A e, monop (T := T) (@fail _ A e).
Proof. intros T A e r x r' Hr H. inversion H; subst. auto. Qed.
Lemma monop_panic : forall T A, monop (T := T) (@panic _ A).
Proof. intros T A r x r' Hr H. inversion H; subst. auto. Qed.
Lemma monop_nofuel : forall T A, monop (T := T) (@nofuel _ A).
Proof. intros T A r x r' Hr H. inversion H; subst. auto. Qed.
Lemma monop_onr : forall T A (m : M reader A), mono m -> monop (T := T) (onr m).
Proof.
  intros T A m Hm [t r] x [t' r'] Hr H. unfold onr in H; cbn [snd fst] in *.
  destruct (m r) as [y r1] eqn:E. inversion H; subst. eapply Hm; eauto.
Qed.
Lemma monop_onrz : forall T A z (m : M reader A), mono m -> monop (T := T) (onrz z m).
Proof.
  intros T A z m Hm [t r] x [t' r'] Hr H. unfold onrz in H; cbn [snd fst] in *.
  destruct (m r) as [[y|e| |] r1] eqn:E; inversion H; subst; eapply Hm; eauto.
Qed.
Lemma monop_upd : forall T (f : T -> T), monop (upd (R := reader) f).
Proof. intros T f [t r] x s' Hr H. inversion H; subst. auto. Qed.
Lemma monop_ignore : forall T A (d : A) (m : M (T * reader) A), monop m -> monop (ignore_err d m).
Proof.
  intros T A d m Hm r x r' Hr H. unfold ignore_err in H. destruct (m r) as [[a|e| |] r1] eqn:E;
  inversion H; subst; eapply Hm; eauto.
Qed.
Lemma monop_get : forall T, monop (T := T) get.
Proof. intros T r x r' Hr H. inversion H; subst. auto. Qed.
Ltac monop_tac :=
  repeat first
    [ apply monop_ret | apply monop_fail | apply monop_panic | apply monop_nofuel | apply monop_upd | apply monop_get
    | apply monop_onr; solve [mono_tac] | apply monop_onrz; solve [mono_tac] | solve [auto with mono]
    | apply monop_bind | apply monop_if | apply monop_ignore
    | match goal with
      | |- forall _, _ => intro
      | |- monop (let '_ := ?x in _) => destruct x
      | |- monop (match ?x with _ => _ end) => destruct x
      end ].

Lemma monop_read_payload : forall size, monop (read_payload size).
Proof.
  intros size [p r] x s' Hr H. unfold read_payload in H. destruct (MaxPayloadSize <? size).
  - inversion H; subst. auto.
  - cbn [fst snd] in *. destruct (read_full size r) as [[bs e] r1] eqn:E.
    pose proof (read_full_mono _ _ _ _ _ Hr E).
    destruct e as [[]|]; inversion H; subst; auto.
Qed.
Global Hint Resolve monop_read_payload : mono.

Lemma monop_af : monop (fun s : packet * reader => match new_af (snd s) with
                | (Ok (a, l), r') => (Ok (u32 (MaxPayloadSize - u32 (l + 1))), (set_af (Some a) (fst s), r'))
                | (Err e, r') => (Err e, (set_af None (fst s), r'))
                | (Panic, r') => (Panic, (fst s, r'))
                | (OutOfFuel, r') => (OutOfFuel, (fst s, r'))
                end).
Proof.
  intros [p r] x s' Hr H. cbn [snd fst] in *. pose proof (mono_new_af r) as Q.
  destruct (new_af r) as [[[a l]|e| |] r1]; inversion H; subst; cbn [snd]; eapply Q; eauto.
Qed.

Lemma monop_packet_next : monop packet_next.
Proof. unfold packet_next. monop_tac. apply monop_af. Qed.

(** A packet read without error consumes input. *)
Lemma packet_next_strict : forall p r p' r', rlater r = [] -> packet_next (p, r) = (Ok tt, (p', r')) ->
  (left r' < left r)%nat /\ rlater r' = [] /\ rfin r' = rfin r.
Proof.
  intros p r p' r' Hr H. unfold packet_next in H.
  unfold bind in H at 1. 
  assert (Q := monop_onr packet _ _ mono_ts_is_aligned (p, r)).
  destruct (onr ts_is_aligned (p, r)) as [[al|e| |] s1] eqn:E1; try discriminate.
  destruct (Q _ _ Hr eq_refl) as (A1 & A2 & A3). clear Q.
  unfold bind in H at 1.
  assert (Q2 : monop (T := packet) (if negb al then onr realign else ret tt)) by monop_tac.
  destruct ((if negb al then onr realign else ret tt) s1) as [[u|e| |] s2] eqn:E2; try discriminate.
  destruct (Q2 _ _ _ A1 E2) as (B1 & B2 & B3).
  unfold bind in H at 1.
  destruct (onr (skip_n 8) s2) as [[u3|e| |] s3] eqn:E3; try discriminate.
  assert (S3 : (left (snd s2) = left (snd s3) + 8)%nat /\ rlater (snd s3) = [] /\ rfin (snd s3) = rfin (snd s2)).
  { unfold onr in E3. destruct (skip_n 8 (snd s2)) as [y r3] eqn:E4. inversion E3; subst. cbn [snd].
    destruct (mono_skip_n 8 _ _ _ B1 E4) as (C1 & C2 & C3). repeat split; auto.
    unfold skip_n, bind in E4. destruct (read_n 8 (snd s2)) as [[v|e| |] r4] eqn:E5; inversion E4; subst.
    eapply read_n_strict; eauto. }
  destruct S3 as (S3 & S4 & S5).
  match type of H with ?m s3 = _ => assert (Q3 : monop m) by (monop_tac; apply monop_af) end.
  destruct (Q3 _ _ _ S4 H) as (D1 & D2 & D3). cbn [snd] in *.
  repeat split; auto; try congruence. lia.
Qed.
