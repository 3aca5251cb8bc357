(** CountProofs: no picture is shown twice, so a stream gives no more frames than it has picture start codes. *)
From Coq Require Import Lia.
From Verif Require Import Base BitReader Exec TsRobust Mono PesLocal VidModel BlockModel MbModel SpecVid VidProofs VidStream VidExt SpecStore StoreProofs NextProofs SpecEnd EndProofs EndProofs2.

(** * The temporal reference is a number of ten bits *)
Definition small (x : Z) : Prop := 0 <= x < 1024.
Definition trs (v : vidseq) : Prop := forall ph, v_ph v = Some ph -> small (ph_tr ph).
Definition holdt {A} (m : V A) : Prop := forall s, trs (fst s) -> trs (fst (snd (m s))).
Lemma holdt_bind : forall A B (m : V A) (k : A -> V B), holdt m -> (forall a, holdt (k a)) -> holdt (bind m k).
Proof. intros A B m k Hm Hk s H. unfold bind. specialize (Hm s H). destruct (m s) as [ [a| | |] s1]; cbn [fst snd] in *; auto. now apply Hk. Qed.
Lemma holdt_onr : forall A (m : M reader A), holdt (onr m).
Proof. intros A m s H. unfold onr. destruct (m (snd s)); cbn. auto. Qed.
Lemma holdt_same : forall A (m : V A), (forall s, snd (m s) = s) -> holdt m.
Proof. intros A m E s H. now rewrite E. Qed.
Lemma holdt_ignore : forall A d (m : V A), holdt m -> holdt (ignore_err d m).
Proof. intros A d m H s T. unfold ignore_err. specialize (H s T). destruct (m s) as [ [a| | |] s1]; auto. Qed.
Lemma holdt_upd : forall f, (forall v, v_ph (f v) = v_ph v) -> holdt (upd f).
Proof. intros f E s H. unfold trs, upd in *. cbn [fst snd] in *. now rewrite E. Qed.
Lemma holdt_assign : forall A set (m : M reader A), (forall x v, v_ph (set x v) = v_ph v) -> holdt (assign_header set m).
Proof.
  intros A set m E s H. unfold assign_header. destruct (m (snd s)) as [ [x|e| |] r]; [destruct (next_start_code r) as [o r'] | | |]; cbn [fst snd]; auto; unfold trs; now rewrite E.
Qed.
Lemma holdt_pic : holdt vs_picture_header.
Proof.
  intros s H. unfold vs_picture_header, assign_header. destruct (picture_header_fields (snd s)) as [ [x|e| |] r] eqn:E; cbn [fst snd]; auto; [|intros ph Q; discriminate Q].
  destruct (next_start_code r) as [o r']. cbn [fst snd]. intros ph Q. injection Q as <-.
  unfold picture_header_fields in E. apply bind_ok_inv in E as (u & r1 & _ & E). apply bind_ok_inv in E as (tr & r2 & E1 & E).
  apply read_n_ok_inv in E1 as (L & T & _).
  assert (B : small tr).
  { rewrite T. pose proof (dec_range (firstn 10 (rbits r1))) as Bd. rewrite firstn_length in Bd. replace (Nat.min 10 (length (rbits r1))) with 10%nat in Bd by lia. exact Bd. }
  repeat match type of E with
  | bind _ _ _ = _ => apply bind_ok_inv in E as (? & ? & _ & E)
  | (let (_, _) := ?x in _) _ = _ => destruct x
  | ret _ _ = _ => injection E as <- <-
  end. exact B.
Qed.
Ltac holdt_tac := repeat first [ apply holdt_bind; [|intro] | apply holdt_onr | apply holdt_pic | apply holdt_same; reflexivity | apply holdt_ignore
  | apply holdt_upd; reflexivity | apply holdt_assign; reflexivity | solve [auto]
  | match goal with |- holdt (if ?b then _ else _) => destruct b | |- holdt (deref ?o) => destruct o end ].
Lemma holdt_seq : holdt vs_sequence_header.
Proof. unfold vs_sequence_header. holdt_tac. Qed.
Lemma holdt_sext : holdt vs_sequence_extension.
Proof. unfold vs_sequence_extension. holdt_tac. Qed.
Lemma holdt_pce : holdt vs_picture_coding_extension.
Proof. unfold vs_picture_coding_extension. holdt_tac. Qed.
Lemma holdt_quant : holdt quant_matrix_extension.
Proof. unfold quant_matrix_extension. holdt_tac. Qed.
Lemma holdt_body : forall i, holdt (extension_body i).
Proof. intro i. pose proof holdt_quant. unfold extension_body. holdt_tac. Qed.
Lemma holdt_data : forall n i, holdt (extension_data n i).
Proof. pose proof holdt_body. induction n as [|n IH]; intro i; cbn [extension_data]; holdt_tac. Qed.
Lemma holdt_ext : forall i, holdt (extension_and_user_data i).
Proof.
  intro i. assert (H : forall n, holdt (ext_user_loop n i)).
  { induction n as [|n IH]; cbn [ext_user_loop]; holdt_tac. intro s. apply holdt_data. }
  intro s. apply H.
Qed.
Lemma holdt_more : holdt more_frames.
Proof. pose proof holdt_ext. pose proof holdt_pce. unfold more_frames. holdt_tac. Qed.
Lemma holdt_step : holdt step.
Proof.
  pose proof holdt_ext. pose proof holdt_seq. pose proof holdt_sext. pose proof holdt_more. unfold step, continue_frames.
  apply holdt_bind; [apply holdt_same; reflexivity|]. intro v. destruct (v_sh v); holdt_tac.
Qed.

(** * Frames still to be shown *)
Definition pend (fc : Z) (x : refframe) : nat :=
  match rf_frame x with Some _ => if negb (rf_prev x) && (fc <=? rf_tr x) then 1%nat else 0%nat | None => 0%nat end.
Definition pending (v : vidseq) : nat := (pend (v_fc v) (fs_0 (v_fs v)) + pend (v_fc v) (fs_1 (v_fs v)))%nat.
Definition small_refs (v : vidseq) : Prop := small (rf_tr (fs_0 (v_fs v))) /\ small (rf_tr (fs_1 (v_fs v))).
Definition fine (v : vidseq) : Prop := trs v /\ small_refs v.

Lemma pend_le1 : forall fc x, (pend fc x <= 1)%nat.
Proof. intros. unfold pend. destruct (rf_frame x); [|lia]. destruct (_ && _); lia. Qed.
Lemma pend_succ : forall fc x, (pend (fc + 1) x <= pend fc x)%nat.
Proof. intros. unfold pend. destruct (rf_frame x); [|lia]. destruct (rf_prev x); cbn [negb andb]; [lia|]. destruct (Z.leb_spec (fc + 1) (rf_tr x)); destruct (Z.leb_spec fc (rf_tr x)); lia. Qed.
Lemma pend_prev : forall fc x, pend fc (ref_prev x) = 0%nat.
Proof. intros. unfold pend, ref_prev. cbn. now destruct (rf_frame x). Qed.
Lemma pend_new : forall f tr fc, fc = tr -> pend (fc + 1) (mkRef (Some f) tr false) = 0%nat.
Proof. intros. unfold pend. cbn. rewrite (proj2 (Z.leb_gt (fc + 1) tr)) by lia. reflexivity. Qed.
Lemma fs_do_pend : forall fc fs ph img, let fs' := fs_do fs (happens ph img) in
  (pend fc (fs_0 fs') + pend fc (fs_1 fs') <= pend fc (fs_0 fs) + pend fc (fs_1 fs) + 1)%nat /\
  (fc = ph_tr ph -> pend (fc + 1) (fs_0 fs') + pend (fc + 1) (fs_1 fs') <= pend fc (fs_0 fs) + pend fc (fs_1 fs))%nat /\
  (small (ph_tr ph) -> small (rf_tr (fs_0 fs)) -> small (rf_tr (fs_1 fs)) -> small (rf_tr (fs_0 fs')) /\ small (rf_tr (fs_1 fs'))).
Proof.
  intros fc fs ph img. unfold happens. destruct (fs_set_refs (ph_tr ph) fs) as (E0 & E1).
  destruct ((ph_type ph =? 1) || (ph_type ph =? 2)); cbn [fs_do fs_add fs_0 fs_1]; rewrite ?E0, ?E1.
  - split; [pose proof (pend_le1 fc (mkRef (Some img) (ph_tr ph) false)); lia|]. split; [|cbn; auto].
    intro E. rewrite pend_new by assumption. pose proof (pend_succ fc (fs_1 fs)). lia.
  - split; [lia|]. split; [|auto]. intros _. pose proof (pend_succ fc (fs_0 fs)). pose proof (pend_succ fc (fs_1 fs)). lia.
Qed.
Lemma step_count : forall v r img v' r', rlater r = [] -> fine v -> step (v, r) = (Ok img, (v', r')) ->
  fine v' /\ (left r' + 32 <= left r)%nat /\ (pending v' <= pending v + 1)%nat /\
  exists ph, v_ph v' = Some ph /\ (ph_tr ph = v_fc v' -> pending (set_fc (v_fc v' + 1) v') <= pending v)%nat.
Proof.
  intros v r img v' r' Hr (T & S0 & S1) H. pose proof (eats_step (v, r) _ _ Hr H) as L. cbn [snd] in L.
  pose proof (holdt_step (v, r) T) as T'. rewrite H in T'. cbn [fst snd] in T'.
  assert (G : exists ph fs, v_ph v' = Some ph /\ v_fs v' = fs_do fs (happens ph img) /\ small (rf_tr (fs_0 fs)) /\ small (rf_tr (fs_1 fs)) /\
    (pend (v_fc v') (fs_0 fs) + pend (v_fc v') (fs_1 fs) <= pending v)%nat).
  { apply step_history in H. destruct H as [ ((ph & v2 & r2 & r3 & P & _ & _ & _ & K) & C) | ((ph & v2 & r2 & r3 & P & _ & _ & _ & K) & g & C) ].
    - exists ph, (v_fs v). repeat (split; [assumption|]). unfold pending. injection C as -> _. lia.
    - exists ph, (fs_gop (v_fs v)). repeat (split; [assumption|]). cbn [fs_gop fs_0 fs_1]. rewrite !pend_prev. lia. }
  destruct G as (ph & fs & P & K & Q0 & Q1 & B). destruct (fs_do_pend (v_fc v') fs ph img) as (D1 & D2 & D3). rewrite <- K in *.
  split; [split; [exact T'|]; apply D3; auto|]. split; [exact L|]. split; [unfold pending at 1; lia|]. exists ph. split; [exact P|].
  intro E. unfold pending at 1. cbn [set_fc v_fc v_fs]. specialize (D2 (eq_sym E)). lia.
Qed.
Lemma fine_fc : forall c v, fine v -> fine (set_fc c v).
Proof. intros c v H. exact H. Qed.
Lemma u32_succ : forall x, small x -> u32 (x + 1) = x + 1.
Proof. intros x [H1 H2]. unfold u32. apply Z.mod_small. change (2 ^ 32) with 4294967296. lia. Qed.
Lemma loop_count : forall f v r img v' r', rlater r = [] -> fine v -> next_loop f (v, r) = (Ok img, (v', r')) ->
  fine v' /\ rlater r' = [] /\ (32 * pending v' + left r' + 32 <= 32 * pending v + left r)%nat.
Proof.
  induction f; intros v r img v' r' Hr F H; [discriminate|]. cbn [next_loop] in H. apply bind_ok_inv in H as (i & (v1 & r1) & E & H).
  destruct (suf_step (v, r) _ _ Hr E) as (R1 & _). cbn [snd] in R1. destruct (step_count _ _ _ _ _ Hr F E) as (F1 & L & P1 & ph & EP & P2).
  unfold bind at 1, own in H. cbn [fst] in H. rewrite EP in H. unfold deref in H. rewrite bind_ret in H.
  destruct (Z.eqb_spec (ph_tr ph) (v_fc v1)) as [Q|Q].
  - rewrite bind_upd in H. cbn [fst snd] in H. unfold ret in H. injection H as _ <- <-. split; [now apply fine_fc|]. split; [exact R1|].
    rewrite u32_succ by (rewrite <- Q; apply (proj1 F1 _ EP)). specialize (P2 Q). lia.
  - destruct (IHf _ _ _ _ _ R1 F1 H) as (F2 & R2 & P3). split; [exact F2|]. split; [exact R2|]. lia.
Qed.
Lemma ref_get_pend : forall c x f, ref_get c x = Some f -> rf_tr x = c /\ pend c x = 1%nat /\ pend (c + 1) x = 0%nat.
Proof.
  intros c x f H. unfold ref_get, pend in *. destruct (rf_frame x) as [g|]; [|discriminate]. destruct (rf_prev x); cbn [negb andb] in *; [discriminate|].
  destruct (Z.eqb_spec (rf_tr x) c) as [<-|]; [|discriminate]. rewrite Z.leb_refl, (proj2 (Z.leb_gt _ _)) by lia. auto.
Qed.
Lemma next_count : forall v r img v' r', rlater r = [] -> fine v -> next (v, r) = (Ok img, (v', r')) ->
  fine v' /\ rlater r' = [] /\ (32 * pending v' + left r' + 32 <= 32 * pending v + left r)%nat.
Proof.
  intros v r img v' r' Hr F H. unfold next in H. unfold bind at 1, own in H. cbn [fst] in H.
  destruct (fs_tryget (v_fc v) (v_fs v)) as [g|] eqn:G; [|eapply loop_count; eauto].
  rewrite bind_upd in H. cbn [fst snd] in H. unfold ret in H. injection H as _ <- <-. split; [now apply fine_fc|]. split; [exact Hr|].
  destruct F as (_ & S0 & S1). unfold pending. cbn [set_fc v_fc v_fs]. unfold fs_tryget in G.
  destruct (ref_get (v_fc v) (fs_0 (v_fs v))) as [g0|] eqn:G0.
  - apply ref_get_pend in G0 as (Q & A & B). rewrite u32_succ by (rewrite <- Q; exact S0). pose proof (pend_succ (v_fc v) (fs_1 (v_fs v))). lia.
  - apply ref_get_pend in G as (Q & A & B). rewrite u32_succ by (rewrite <- Q; exact S1). pose proof (pend_succ (v_fc v) (fs_0 (v_fs v))). lia.
Qed.
Lemma nexts_count : forall n v r imgs v' r', rlater r = [] -> fine v -> nexts n (v, r) = (Ok imgs, (v', r')) ->
  fine v' /\ rlater r' = [] /\ (32 * pending v' + left r' + 32 * n <= 32 * pending v + left r)%nat.
Proof.
  induction n; intros v r imgs v' r' Hr F H; cbn [nexts] in H.
  - unfold ret in H. injection H as _ <- <-. split; [exact F|]. split; [exact Hr | lia].
  - apply bind_ok_inv in H as (x & (v1 & r1) & E & H). apply bind_ok_inv in H as (xs & (v2 & r2) & E2 & H). unfold ret in H. injection H as _ <- <-.
    destruct (next_count _ _ _ _ _ Hr F E) as (F1 & R1 & C1). destruct (IHn _ _ _ _ _ R1 F1 E2) as (F2 & R2 & C2). split; [exact F2|]. split; [exact R2 | lia].
Qed.
Lemma new_fine : fine new_vidseq.
Proof. split; [intros ph H; discriminate H | split; cbn; unfold small; lia]. Qed.
Theorem frames_bound : forall n r imgs v' r', rlater r = [] -> nexts n (new_vidseq, r) = (Ok imgs, (v', r')) -> (left r' + 32 * n <= left r)%nat.
Proof. intros n r imgs v' r' Hr H. destruct (nexts_count _ _ _ _ _ _ Hr new_fine H) as (_ & _ & C). change (pending new_vidseq) with 0%nat in C. lia. Qed.

(** What is left after some frames is a suffix of the stream. *)
Lemma suf_next : sufs next.
Proof.
  unfold next. apply suf_bind; [suf_tac|]. intro v. destruct (fs_tryget _ _); [suf_tac|].
  assert (L : forall f, sufs (next_loop f)) by (pose proof suf_step; induction f; cbn [next_loop]; suf_tac; auto). apply (suf_fuels _ _ next_loop L).
Qed.
(** The loop that calls Next until it reports an error *)
Theorem play_ends : forall k v r, rlater r = [] -> fine v -> ~ extension_after_group (rbits r) -> (32 * pending v + left r < 32 * k)%nat ->
  exists n imgs s', nexts n (v, r) = (Ok imgs, s') /\ (n < k)%nat /\ (fst (next s') = Panic \/ exists e, fst (next s') = Err e).
Proof.
  induction k; intros v r Hr F X Hk; [lia|].
  destruct (next (v, r)) as [ [img|e| |] (v1 & r1)] eqn:E.
  - destruct (next_count _ _ _ _ _ Hr F E) as (F1 & R1 & C). destruct (suf_next (v, r) _ _ Hr E) as (_ & a & Q). cbn [snd] in Q.
    destruct (IHk v1 r1 R1 F1) as (n & imgs & s' & N & Ln & D); [intro Y; apply X; rewrite Q; now apply hang_app | lia |].
    exists (S n), (img :: imgs), s'. split; [cbn [nexts]; unfold bind; now rewrite E, N|]. split; [lia | exact D].
  - exists 0%nat, [], (v, r). split; [reflexivity|]. split; [lia|]. right. exists e. now rewrite E.
  - exists 0%nat, [], (v, r). split; [reflexivity|]. split; [lia|]. left. now rewrite E.
  - exfalso. apply X. eapply next_ends; eauto.
Qed.
