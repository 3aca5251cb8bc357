(** After: what a successful reading says about the bits that were read. *)
From Verif Require Import Base BitReader TsRobust PesLocal.

(** From [r] the bits [c] have been read, and [r'] is left. *)
Definition after (r : reader) (c : list bool) (r' : reader) : Prop := r = setb r' (c ++ rbits r').
Lemma after_nil : forall r, after r [] r.
Proof. intro r. symmetry. apply setb_rbits. Qed.
Lemma after_app : forall r c r1 d r2, after r c r1 -> after r1 d r2 -> after r (c ++ d) r2.
Proof. unfold after. intros r c r1 d r2 -> ->. rewrite rbits_setb, <- app_assoc. reflexivity. Qed.
Lemma after_intro : forall r c r', rbits r = c ++ rbits r' -> r' = setb r (rbits r') -> after r c r'.
Proof. unfold after. intros r c r' H ->. rewrite rbits_setb in *. rewrite setb_setb, <- H. symmetry. apply setb_rbits. Qed.
Lemma after_bits : forall r c r', after r c r' -> rbits r = c ++ rbits r'.
Proof. intros r c r' ->. reflexivity. Qed.
Lemma after_later : forall r c r', after r c r' -> rlater r' = rlater r.
Proof. intros r c r' ->. reflexivity. Qed.
Lemma after_length : forall r c r', after r c r' -> length (rbits r) = (length c + length (rbits r'))%nat.
Proof. intros r c r' H. rewrite (after_bits _ _ _ H), app_length. reflexivity. Qed.

Lemma read_after : forall n r v r', read_n n r = (Ok v, r') -> 0 <= v < 2 ^ Z.of_nat n /\ after r (enc n v) r'.
Proof.
  intros n r v r' H. destruct (read_n_ok_inv _ _ _ _ H) as (L & -> & ->).
  pose proof (dec_range (firstn n (rbits r))) as D. rewrite firstn_length, Nat.min_l in D by lia. split; [exact D|].
  replace (enc n (dec (firstn n (rbits r)))) with (firstn n (rbits r)).
  - apply after_intro; [rewrite rbits_setb; symmetry; apply firstn_skipn | reflexivity].
  - replace n with (length (firstn n (rbits r))) at 2 by (rewrite firstn_length; lia). symmetry. apply enc_dec.
Qed.
Lemma read_bit_after : forall r v r', read_n 1 r = (Ok v, r') -> exists b, v = Z.b2z b /\ after r (bit b) r'.
Proof.
  intros r v r' H. destruct (read_after _ _ _ _ H) as (B & A). change (2 ^ Z.of_nat 1) with 2 in B.
  exists (v =? 1). assert (v = 0 \/ v = 1) as [-> | ->] by lia; (split; [reflexivity | exact A]).
Qed.
Lemma read1_after : forall r b r', read1 r = (Ok b, r') -> after r (bit b) r'.
Proof.
  intros r b r' H. unfold read1 in H. apply bind_ok_inv in H. destruct H as (v & r1 & H1 & H2). apply read_bit_after in H1. destruct H1 as (c & -> & A).
  assert (b = c /\ r' = r1) as [-> ->] by (unfold ret in H2; split; destruct c; cbn in H2; congruence). exact A.
Qed.
Lemma peek_after : forall n r v r', peek_n n r = (Ok v, r') -> r' = r /\ 0 <= v < 2 ^ Z.of_nat n /\ exists t, rbits r = enc n v ++ t.
Proof.
  intros n r v r' H. destruct (peek_n_ok_inv _ _ _ _ H) as (L & -> & ->). split; [reflexivity|].
  split; [pose proof (dec_range (firstn n (rbits r))) as D; rewrite firstn_length, Nat.min_l in D by lia; exact D|]. exists (skipn n (rbits r)).
  rewrite <- (firstn_skipn n (rbits r)) at 1. f_equal. replace n with (length (firstn n (rbits r))) at 2 by (rewrite firstn_length; lia). symmetry. apply enc_dec.
Qed.
Lemma skip_after : forall n r u r', skip_n n r = (Ok u, r') -> exists v, 0 <= v < 2 ^ Z.of_nat n /\ after r (enc n v) r'.
Proof.
  intros n r u r' H. unfold skip_n in H. apply bind_ok_inv in H. destruct H as (v & r1 & H1 & H2). exists v.
  assert (r1 = r') as -> by (unfold ret in H2; congruence). now apply read_after.
Qed.
(** What was seen before is what is read. *)
Lemma after_seen : forall n r v t w r', rbits r = enc n v ++ t -> after r (enc n w) r' -> after r (enc n v) r'.
Proof.
  intros n r v t w r' Q A. pose proof (after_bits _ _ _ A) as Q2. rewrite Q in Q2. apply (f_equal (firstn n)) in Q2. rewrite !firstn_app_exact in Q2 by apply enc_length. rewrite Q2. exact A.
Qed.
Lemma bytes_after : forall n r d r', 0 <= n -> read_bytes n r = (Ok d, r') -> blen d = n /\ bytes d /\ after r (bb d) r'.
Proof.
  intros n r d r' Hn H. unfold read_bytes, read_full in H. destruct (Z.leb_spec n 0).
  - assert (n = 0) as -> by lia. assert (d = [] /\ r = r') as [-> ->] by (split; congruence). split; [reflexivity|]. split; [constructor | apply after_nil].
  - destruct (Z.leb_spec n (avail r)) as [L|L]; [|discriminate].
    assert (d = get_bytes (Z.to_nat n) (rbits r) /\ r' = setb r (skipn (8 * Z.to_nat n) (rbits r))) as [-> ->] by (split; congruence).
    split; [unfold blen; rewrite get_bytes_length; lia|]. split; [apply get_bytes_bytes|]. apply after_intro; [|reflexivity].
    assert (8 * Z.to_nat n <= length (rbits r))%nat. { unfold avail in L. pose proof (Z.div_mod (Z.of_nat (length (rbits r))) 8 ltac:(lia)). pose proof (Z.mod_pos_bound (Z.of_nat (length (rbits r))) 8 ltac:(lia)). lia. }
    rewrite bb_get_bytes, rbits_setb by assumption. symmetry. apply firstn_skipn.
Qed.
(** The readings one after the other *)
Ltac chain := repeat (eapply after_app; [eassumption|]); try eassumption; try apply after_nil.
