(** PanicProofs: a decoder that meets neither slices nor the extensions it does not support does not panic. *)
From Coq Require Import Lia.
From Verif Require Import Base BitReader Exec Local TsRobust Mono PesModel PesLocal VidModel SpecVid VidProofs VidStream VidExt VidLocal PropertiesVidHeaders MbModel NextProofs SpecEnd EndProofs EndProofs2 PropertiesRefuse.

(** No slice start code, and no extension start code with one of the four identifiers, at a byte boundary counted from the end *)
Definition unsupported : list Z := [4; 5; 7; 9].
Definition calm (l : list bool) : Prop :=
  (forall a b t, 1 <= b <= 175 -> (length t mod 8 = 0)%nat -> l <> a ++ code b ++ t) /\
  (forall a id t, In id unsupported -> (length (enc 4 id ++ t) mod 8 = 0)%nat -> l <> a ++ code extension_code ++ enc 4 id ++ t).
Lemma calm_app : forall a l, calm (a ++ l) -> calm l.
Proof.
  intros a l (H1 & H2). split.
  - intros c b t Hb Ht E. apply (H1 (a ++ c) b t Hb Ht). now rewrite E, app_assoc.
  - intros c id t Hi Ht E. apply (H2 (a ++ c) id t Hi Ht). now rewrite E, app_assoc.
Qed.
Definition whole (l : list bool) : Prop := (length l mod 8 = 0)%nat.
Lemma whole_code : forall b t, whole (code b ++ t) -> whole t.
Proof. unfold whole. intros b t H. rewrite app_length, code_length, Nat.add_comm in H. change 32%nat with (4 * 8)%nat in H. now rewrite Nat.mod_add in H by lia. Qed.

(** [stays P Q m]: from a quiet state with [P] the result is not a panic, and a quiet state with [Q] if it is [Ok] *)
Definition quiet (s : vidseq * reader) : Prop := rlater (snd s) = [] /\ calm (rbits (snd s)).
Definition stays {A} (P Q : vidseq * reader -> Prop) (m : V A) : Prop :=
  forall s, quiet s -> P s -> match m s with (Ok _, s') => quiet s' /\ Q s' | (Panic, _) => False | _ => True end.
Definition any (s : vidseq * reader) : Prop := True.
Definition even (s : vidseq * reader) : Prop := whole (rbits (snd s)).
Definition ready (s : vidseq * reader) : Prop := v_se (fst s) <> None.
Definition both (P Q : vidseq * reader -> Prop) (s : vidseq * reader) : Prop := P s /\ Q s.

Lemma stays_bind : forall A B (P Q R : vidseq * reader -> Prop) (m : V A) (k : A -> V B), stays P Q m -> (forall a, stays Q R (k a)) -> stays P R (bind m k).
Proof. intros A B P Q R m k Hm Hk s H Hp. unfold bind. specialize (Hm s H Hp). destruct (m s) as [ [a|e| |] s1]; auto. destruct Hm as (H1 & H2). exact (Hk a s1 H1 H2). Qed.
Lemma stays_if : forall A P Q (c : bool) (a b : V A), stays P Q a -> stays P Q b -> stays P Q (if c then a else b).
Proof. intros A P Q [] a b; auto. Qed.
Lemma stays_less : forall A (P P' Q Q' : vidseq * reader -> Prop) (m : V A), (forall s, P s -> P' s) -> (forall s, Q' s -> Q s) -> stays P' Q' m -> stays P Q m.
Proof. intros A P P' Q Q' m Hp Hq H s Hs K. specialize (H s Hs (Hp s K)). destruct (m s) as [ [a|e| |] s1]; auto. destruct H; auto. Qed.
Lemma stays_ret : forall A P (a : A), stays P P (ret a).
Proof. intros A P a s H K. split; auto. Qed.
Lemma stays_fail : forall A P Q e, stays (A := A) P Q (fail e).
Proof. intros A P Q e s H K. exact I. Qed.
Lemma stays_own : forall P, stays P P (own (T := vidseq) (R := reader)).
Proof. intros P s H K. split; auto. Qed.
Lemma stays_upd : forall (P Q : vidseq * reader -> Prop) f, (forall v r, P (v, r) -> Q (f v, r)) -> stays P Q (upd f).
Proof. intros P Q f Hf [v r] H K. cbn. split; [exact H | now apply Hf]. Qed.
Lemma quiet_suf : forall (v v' : vidseq) r r' a, quiet (v, r) -> rlater r' = [] -> rbits r = a ++ rbits r' -> quiet (v', r').
Proof. intros v v' r r' a (_ & H) Hr E. split; [exact Hr|]. cbn [snd] in *. rewrite E in H. now apply calm_app in H. Qed.
Lemma stays_onr : forall A (m : M reader A) (Q : vidseq -> Prop), sufr m -> safe m -> stays (fun s => Q (fst s)) (fun s => Q (fst s)) (onr m).
Proof.
  intros A m Q Hs Hn [v r] H K. unfold onr. cbn [fst snd]. specialize (Hn r). destruct (m r) as [o r1] eqn:E. cbn [fst] in Hn.
  destruct (Hs _ _ _ (proj1 H) E) as (R & a & E1). destruct o; try tauto. split; [eapply quiet_suf; eassumption | exact K].
Qed.
(** Reading up to a start code leaves the reader at a byte *)
Definition lands {A} (m : M reader A) : Prop := forall r a r', m r = (Ok a, r') -> whole (rbits r').
Lemma lands_bind : forall A B (m : M reader A) (k : A -> M reader B), (forall a, lands (k a)) -> lands (bind m k).
Proof. intros A B m k H r a r' E. apply bind_ok_inv in E as (x & r1 & _ & E). exact (H _ _ _ _ E). Qed.
Lemma lands_end : forall A (a : A), lands (next_start_code ;; ret a).
Proof. intros A a r x r' E. apply bind_ok_inv in E as ([] & r1 & E & E1). inversion E1; subst. destruct (nsc_ok_inv _ _ E) as (al & k & t & _ & _ & -> & M). exact M. Qed.
Lemma lands_nsc : lands next_start_code.
Proof. intros r [] r' E. destruct (nsc_ok_inv _ _ E) as (al & k & t & _ & _ & -> & M). exact M. Qed.
Ltac lands_tac := repeat first [apply lands_end | apply lands_nsc | apply lands_bind; intro].
Lemma stays_lands : forall A (m : M reader A) (Q : vidseq -> Prop), sufr m -> safe m -> lands m -> stays (fun s => Q (fst s)) (both even (fun s => Q (fst s))) (onr m).
Proof.
  intros A m Q Hs Hn Hl [v r] H K. pose proof (stays_onr _ m Q Hs Hn (v, r) H K) as S. unfold onr in *. cbn [fst snd] in *.
  destruct (m r) as [ [x|e| |] r1] eqn:E; auto. destruct S as (S1 & S2). split; [exact S1 | split; [exact (Hl _ _ _ E) | exact S2] ].
Qed.
Lemma stays_assign : forall A (set : option A -> vidseq -> vidseq) (m : M reader A) (P Q : vidseq -> Prop), sufr m -> safe m -> (forall x v, P v -> Q (set (Some x) v)) ->
  stays (fun s => P (fst s)) (both even (fun s => Q (fst s))) (assign_header set m).
Proof.
  intros A set m P Q Hs Hn Hq [v r] H K. cbn [fst] in K. unfold assign_header. cbn [fst snd]. specialize (Hn r). destruct (m r) as [o r1] eqn:E. cbn [fst] in Hn.
  destruct (Hs _ _ _ (proj1 H) E) as (R & a & E1). destruct o as [x|e| |]; try tauto.
  pose proof (safe_nsc r1) as N. destruct (next_start_code r1) as [o2 r2] eqn:E2. cbn [fst] in N. destruct (suf_nsc _ _ _ R E2) as (R2 & a2 & Q2).
  destruct o2 as [ []|e| |]; try tauto. split; [|split; [exact (lands_nsc _ _ _ E2) | now apply Hq] ].
  apply (quiet_suf v _ r r2 (a ++ a2)); auto. cbn [snd] in E1. now rewrite E1, Q2, app_assoc.
Qed.
Lemma stays_peek : forall n P, stays P P (onr (peek_n n)).
Proof.
  intros n P [v r] H K. unfold onr. cbn [fst snd]. pose proof (safe_peek_n n r) as S. destruct (peek_n n r) as [ [x|e| |] r1] eqn:E; cbn [fst] in S; try tauto.
  destruct (peek_n_ok_inv _ _ _ _ E) as (_ & _ & ->). split; auto.
Qed.
(** ** Extensions *)
Lemma peek_enc : forall n r v r', peek_n n r = (Ok v, r') -> r' = r /\ rbits r = enc n v ++ skipn n (rbits r).
Proof.
  intros n r v r' E. destruct (peek_n_ok_inv _ _ _ _ E) as (L & -> & ->). split; [reflexivity|].
  rewrite <- (firstn_skipn n (rbits r)) at 1. f_equal. rewrite <- (enc_dec (firstn n (rbits r))) at 1. now rewrite firstn_length, Nat.min_l by exact L.
Qed.
Definition after_code (l : list bool) : Prop := calm (code extension_code ++ l).
Lemma no_id : forall r id r', after_code (rbits r) -> whole (rbits r) -> peek_n 4 r = (Ok id, r') -> ~ In id unsupported.
Proof.
  intros r id r' (_ & H) W E Hi. destruct (peek_enc _ _ _ _ E) as (_ & Q). rewrite Q in H, W. exact (H [] id _ Hi W eq_refl).
Qed.

Definition lifts (P : vidseq -> Prop) (s : vidseq * reader) : Prop := P (fst s).
Definition has_se (v : vidseq) : Prop := v_se v <> None.
Definition true_v (v : vidseq) : Prop := True.
Lemma quant_stays : forall P : vidseq -> Prop, (forall a b c d v, P v -> P (set_q a b c d v)) -> stays (lifts P) (both even (lifts P)) quant_matrix_extension.
Proof.
  intros P HP. unfold quant_matrix_extension.
  assert (Hm : forall f : list Z -> vidseq -> vidseq, (forall m v, P v -> P (f m v)) -> forall l : bool, stays (lifts P) (lifts P) (if l then m <- onr read_matrix ;; upd (f m) else ret tt)).
  { intros f Hf l. apply stays_if; [|apply stays_ret]. apply stays_bind with (Q := lifts P); [apply stays_onr; [apply suf_matrix | apply safe_matrix]|]. intro m. apply stays_upd. intros v r. apply Hf. }
  assert (H1 : stays (lifts P) (lifts P) (onr read1)) by (apply stays_onr; [suf_tac | apply safe_read1]).
  apply stays_bind with (Q := lifts P).
  { intros [v r] H K. unfold ignore_err. pose proof (safe_id_assert QuantMatrixExtensionID r) as S. unfold onr. cbn [fst snd]. destruct (id_assert QuantMatrixExtensionID r) as [o r1] eqn:E.
    destruct (suf_id_assert _ _ _ _ (proj1 H) E) as (R & a & E1). cbn [fst] in S. destruct o; try tauto; (split; [eapply quiet_suf; eassumption | exact K]). }
  intros _. do 4 (apply stays_bind with (Q := lifts P); [exact H1|]; intro; apply stays_bind with (Q := lifts P); [apply (Hm (fun m v => _)); intros; apply HP; assumption|]; intros _).
  apply stays_lands; [apply suf_nsc | apply safe_nsc | apply lands_nsc].
Qed.
Definition aft (s : vidseq * reader) : Prop := after_code (rbits (snd s)) /\ whole (rbits (snd s)).
Lemma body_stays : forall i (P : vidseq -> Prop), i <> 1 -> (forall a b c d v, P v -> P (set_q a b c d v)) -> stays (both aft (lifts P)) (both even (lifts P)) (extension_body i).
Proof.
  intros i P Hi HP [v r] H ((A & W) & K). cbn [snd] in A, W. unfold extension_body.
  pose (good := fun o : res unit * (vidseq * reader) => match o with (Ok _, s') => quiet s' /\ both even (lifts P) s' | (Panic, _) => False | _ => True end).
  assert (X : forall m : Z -> V unit, (forall id, ~ In id unsupported -> peek_n 4 r = (Ok id, r) -> good (m id (v, r))) -> good ((id <- onr (peek_n 4) ;; m id) (v, r))).
  { intros m Hm. unfold bind, onr. cbn [fst snd]. pose proof (safe_peek_n 4 r) as S. destruct (peek_n 4 r) as [ [id|e| |] r1] eqn:E; cbn [fst] in S; try tauto; try exact I.
    destruct (peek_n_ok_inv _ _ _ _ E) as (_ & _ & ->). apply Hm; auto. exact (no_id _ _ _ A W E). }
  assert (Z : forall A (m : M reader A), sufr m -> safe m -> lands m -> good ((onr m ;; ret tt) (v, r))).
  { intros B m M1 M2 M3. apply (stays_bind _ _ (lifts P) (both even (lifts P)) (both even (lifts P)) (onr m)); [now apply stays_lands | intro; apply stays_ret | exact H | exact K]. }
  fold (good (extension_body i (v, r))). unfold extension_body.
  destruct (Z.eqb_spec i 0) as [->|N0]; [|destruct (Z.eqb_spec i 2) as [->|N2] ].
  - apply X. intros id N E. destruct (id =? SequenceDisplayExtensionID); [apply Z; [apply suf_disp | apply safe_disp | unfold sequence_display_extension; lands_tac; match goal with |- lands (match ?x with _ => _ end) => destruct x as [ [? ?] ?] end; lands_tac]|].
    unfold onr, sequence_scalable_extension, id_assert, id_check, bind. cbn [fst snd]. rewrite E. unfold ret. destruct (Z.eqb_spec id SequenceScalableExtensionID) as [->|_]; [|exact I].
    exfalso. apply N. unfold unsupported, SequenceScalableExtensionID. cbn. tauto.
  - apply X. intros id N E. destruct (id =? QuantMatrixExtensionID); [apply (quant_stays P HP (v, r) H K)|].
    assert (U : forall c, In c unsupported -> (id =? c) = false) by (intros c Hc; apply Z.eqb_neq; intros ->; contradiction).
    rewrite !U by (cbv; tauto). apply Z; [apply suf_temp | apply safe_temp | unfold picture_temporal_scalable_extension; lands_tac].
  - cbn. split; [exact H | split; [exact W | exact K] ].
Qed.
Lemma ext_data_stays : forall f i (P : vidseq -> Prop), i <> 1 -> (forall a b c d v, P v -> P (set_q a b c d v)) -> stays (both even (lifts P)) (both even (lifts P)) (extension_data f i).
Proof.
  induction f; intros i P Hi HP; [intros s _ _; exact I|]. cbn [extension_data]. intros [v r] H K. unfold bind at 1, onr at 1. cbn [fst snd].
  pose proof (safe_peek_n 32 r) as S. destruct (peek_n 32 r) as [ [b|e| |] r1] eqn:E; cbn [fst] in S; try tauto.
  pose proof (peek_enc _ _ _ _ E) as (-> & Q). destruct (Z.eqb_spec b ExtensionStartCode) as [->|_]; cbn [negb]; [|split; [exact H | exact K] ].
  change (enc 32 ExtensionStartCode) with (code extension_code) in Q. destruct (peek_n_ok_inv _ _ _ _ E) as (L & _).
  assert (E2 : ignore_err tt (onr (skip_n 32)) (v, r) = (Ok tt, (v, setb r (skipn 32 (rbits r))))).
  { unfold ignore_err, onr. cbn [fst snd]. unfold skip_n, bind. now rewrite read_n_enough by auto. }
  unfold bind at 1. rewrite E2.
  apply (stays_bind _ _ (both aft (lifts P)) (both even (lifts P)) (both even (lifts P)) (extension_body i) (fun _ => extension_data f i)); [now apply body_stays | intros _; now apply IHf | |].
  - apply (quiet_suf v v r (setb r (skipn 32 (rbits r))) (code extension_code)); [exact H | exact (proj1 H) | now rewrite rbits_setb].
  - destruct K as (W & K). split; [|exact K]. split; cbn [snd]; rewrite rbits_setb.
    + unfold after_code. rewrite <- Q. exact (proj2 H).
    + unfold even in W. cbn [snd] in W. rewrite Q in W. now apply whole_code in W.
Qed.
Lemma ext_loop_stays : forall f i (P : vidseq -> Prop), (forall a b c d v, P v -> P (set_q a b c d v)) -> stays (both even (lifts P)) (both even (lifts P)) (ext_user_loop f i).
Proof.
  induction f; intros i P HP; [intros s _ _; exact I|]. cbn [ext_user_loop]. apply stays_bind with (Q := both even (lifts P)); [apply stays_peek|]. intro b.
  apply stays_if; [apply stays_ret|]. apply stays_bind with (Q := both even (lifts P)); [|intros _; now apply IHf].
  destruct (Z.eqb_spec i 1) as [->|Ni]; cbn [negb andb].
  - apply stays_if; [|apply stays_ret]. eapply stays_bind; [eapply stays_less; [| |apply (stays_lands _ user_data P suf_user safe_user)] |intro; apply stays_ret]; [intros s (_ & X); exact X | intros s X; exact X | unfold user_data; lands_tac].
  - apply stays_if; [intros s Hs Ks; exact (ext_data_stays _ i P Ni HP s Hs Ks)|]. apply stays_if; [|apply stays_ret].
    eapply stays_bind; [eapply stays_less; [| |apply (stays_lands _ user_data P suf_user safe_user)] |intro; apply stays_ret]; [intros s (_ & X); exact X | intros s X; exact X | unfold user_data; lands_tac].
Qed.
Lemma ext_stays : forall i (P : vidseq -> Prop), (forall a b c d v, P v -> P (set_q a b c d v)) -> stays (both even (lifts P)) (both even (lifts P)) (extension_and_user_data i).
Proof. intros i P HP s Hs Ks. exact (ext_loop_stays _ i P HP s Hs Ks). Qed.

(** ** Pictures *)
Lemma picture_refused : forall v r, v_se v <> None -> quiet (v, r) -> whole (rbits r) -> exists e r', picture_data v r = (Err e, r').
Proof.
  intros v r Hs (Hr & (Hc & _)) W. unfold picture_data. destruct (size v) as [w h]. destruct (v_se v) as [se|]; [|congruence]. cbn [deref]. rewrite bind_ret.
  cbn [slices]. unfold bind at 1 2, slice at 1. unfold bind at 1. pose proof (safe_read_n 32 r) as S.
  destruct (read_n 32 r) as [ [c|e| |] r1] eqn:E; cbn [fst] in S; try tauto; [|eauto].
  assert (N : is_slice c = false).
  { destruct (is_slice c) eqn:Ei; [|reflexivity]. exfalso. unfold is_slice in Ei. apply andb_true_iff in Ei as (E1 & E2). apply Z.leb_le in E1, E2.
    change MinSliceStartCode with 257 in E1. change MaxSliceStartCode with 431 in E2. apply read_n_ok_inv in E as (L & Ec & ->).
    assert (Q : rbits r = code (c - 256) ++ skipn 32 (rbits r)) by (apply code_inv; [lia | exact L | lia]).
    cbn [snd] in Hc. apply (Hc [] (c - 256) (skipn 32 (rbits r))); [lia | | exact Q]. rewrite Q in W. apply whole_code in W. exact W. }
  rewrite N. cbn [negb]. unfold fail. eexists _, _; reflexivity.
Qed.
Lemma stays_deref : forall A (P Q : vidseq * reader -> Prop) (o : option A), (forall s, P s -> Q s /\ o <> None) -> stays P Q (deref o).
Proof. intros A P Q [x|] H s Hs Ks; cbn; [split; [exact Hs | apply H, Ks] | destruct (H s Ks); congruence]. Qed.
Definition has_both (v : vidseq) : Prop := v_se v <> None /\ v_ph v <> None.
Lemma more_stays : stays (both even (lifts has_se)) (fun _ => False) more_frames.
Proof.
  unfold more_frames. apply stays_bind with (Q := both even (lifts has_se)); [apply stays_peek|]. intro b.
  apply stays_bind with (Q := both even (lifts has_se)).
  { apply stays_if; [|apply stays_ret].
    apply stays_bind with (Q := both even (lifts has_se)); [eapply stays_less; [| |apply (stays_lands _ read_gop_header has_se suf_gop safe_gop)]; [intros s (_ & X); exact X | intros s X; exact X | unfold read_gop_header; lands_tac]|]. intro g.
    apply stays_bind with (Q := both even (lifts has_se)); [apply stays_upd; intros v r X; exact X|]. intros _. apply ext_stays. intros; assumption. }
  intros _. apply stays_bind with (Q := both even (lifts has_both)).
  { eapply stays_less; [| |apply (stays_assign _ set_ph picture_header_fields has_se has_both suf_pic_fields safe_pic)]; [intros s (_ & X); exact X | intros s X; exact X |].
    intros x v X. split; [exact X | discriminate]. }
  intros _. apply stays_bind with (Q := both even (lifts has_both)).
  { eapply stays_less; [| |apply (stays_assign _ set_pce picture_coding_extension_fields has_both has_both suf_pce_fields safe_pce)]; [intros s (_ & X); exact X | intros s X; exact X |].
    intros x v X. exact X. }
  intros _. apply stays_bind with (Q := both even (lifts has_both)); [apply ext_stays; intros; assumption|]. intros _.
  intros [v r] H (W & K). unfold bind at 1, own at 1. cbn [fst]. destruct K as (K1 & K2). cbn [fst] in K1, K2. destruct (v_ph v) as [ph|] eqn:Eph; [|congruence]. cbn [deref]. rewrite bind_ret.
  unfold bind at 1, upd at 1. cbn [fst snd]. unfold bind at 1, own at 1. cbn [fst]. unfold bind at 1, onr at 1. cbn [fst snd].
  destruct (picture_refused (set_fs (fs_set (ph_tr ph) (v_fs v)) v) r K1 H W) as (e & r' & ->). exact I.
Qed.
Lemma continue_stays : stays (both even (lifts has_se)) (fun _ => False) continue_frames.
Proof. unfold continue_frames. apply stays_bind with (Q := both even (lifts has_se)); [apply ext_stays; intros; assumption | intros _; apply more_stays]. Qed.
Lemma seq_stays : stays any (both even (lifts true_v)) vs_sequence_header.
Proof.
  unfold vs_sequence_header. apply stays_bind with (Q := both even (lifts true_v)).
  - eapply stays_less; [| |apply (stays_lands _ read_sequence_header true_v suf_read_seq safe_read_sequence_header)]; [intros s _; exact I | intros s X; exact X | unfold read_sequence_header; lands_tac].
  - intro h. apply stays_upd. intros v r X. exact X.
Qed.
Lemma sext_stays : stays any (both even (lifts has_se)) vs_sequence_extension.
Proof.
  eapply stays_less; [| |apply (stays_assign _ set_se sequence_extension_fields true_v has_se suf_sext_fields safe_sext)]; [intros s _; exact I | intros s X; exact X |].
  intros x v _. discriminate.
Qed.
Lemma any_less : forall A P Q (m : V A), stays any Q m -> stays P Q m.
Proof. intros A P Q m H. eapply stays_less; [| |exact H]; [intros; exact I | auto]. Qed.
Lemma step_stays : forall s, quiet s -> even s -> v_sh (fst s) = None \/ v_se (fst s) <> None -> match fst (step s) with Ok _ | Panic => False | _ => True end.
Proof.
  intros s H W K. assert (X : stays (both even (fun s => v_sh (fst s) = None \/ v_se (fst s) <> None)) (fun _ => False) step); [|specialize (X s H (conj W K)); destruct (step s) as [ [| | |] ?]; cbn [fst]; tauto].
  clear s H W K. intros [v r] H (W & K). cbn [fst] in K. unfold step. unfold bind at 1, own at 1. cbn [fst].
  assert (T : stays any (fun _ => False) (vs_sequence_extension ;; continue_frames)) by (apply stays_bind with (Q := both even (lifts has_se)); [apply sext_stays | intros _; apply continue_stays]).
  destruct (v_sh v) as [h|].
  - destruct K as [K|K]; [discriminate|].
    match goal with |- match ?m (v, r) with _ => _ end => enough (X : stays (both even (lifts has_se)) (fun _ => False) m) by exact (X (v, r) H (conj W K)) end.
    apply stays_bind with (Q := both even (lifts has_se)); [apply stays_peek|]. intro b. apply stays_if; [apply more_stays|].
    apply stays_bind with (Q := both even (lifts has_se)); [apply stays_peek|]. intro b2. apply stays_if.
    + apply stays_bind with (Q := lifts true_v); [|intro; apply stays_fail].
      eapply stays_less; [| |apply (stays_onr _ (skip_n 32) true_v (suf_skip_n 32) (safe_skip_n 32))]; [intros; exact I | auto].
    + apply stays_bind with (Q := both even (lifts true_v)); [apply any_less, seq_stays|]. intros _. now apply any_less.
  - match goal with |- match ?m (v, r) with _ => _ end => enough (X : stays (lifts true_v) (fun _ => False) m) by exact (X (v, r) H I) end.
    apply stays_bind with (Q := lifts true_v); [apply stays_onr; [apply suf_nsc | apply safe_nsc]|]. intros _.
    apply stays_bind with (Q := both even (lifts true_v)); [apply any_less, seq_stays|]. intros _.
    apply stays_bind with (Q := any); [eapply stays_less; [| |apply stays_peek]; [intros s X; exact X | intros; exact I]|]. intro b.
    apply stays_if; [apply stays_fail | exact T].
Qed.

(** A single call *)
Theorem next_calm : forall v r, rlater r = [] -> calm (rbits r) -> whole (rbits r) -> v_sh v = None \/ v_se v <> None ->
  (exists img, fs_tryget (v_fc v) (v_fs v) = Some img /\ fst (next (v, r)) = Ok img) \/ (exists e, fst (next (v, r)) = Err e) \/ extension_after_group (rbits r).
Proof.
  intros v r Hr Hc W K. destruct (next (v, r)) as [o s'] eqn:E. cbn [fst]. pose proof E as E0. unfold next in E. unfold bind at 1, own at 1 in E. cbn [fst] in E.
  destruct (fs_tryget (v_fc v) (v_fs v)) as [img|] eqn:Et.
  - left. exists img. split; [reflexivity|]. unfold bind, upd, ret in E. congruence.
  - right. cbn [next_loop] in E. unfold bind at 1 in E. pose proof (step_stays (v, r) (conj Hr Hc) W K) as S.
    destruct (step (v, r)) as [ [i|e| |] s1]; cbn [fst] in S; try tauto.
    + left. exists e. congruence.
    + right. assert (o = OutOfFuel) by congruence. subst o. exact (next_ends v r s' Hr E0).
Qed.
