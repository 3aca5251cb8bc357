(** StoreProofs: the frame store after any history of pictures and groups; and every call of Next is such a
    history. *)
From Coq Require Import Lia.
From Verif Require Import Base BitReader VidModel BlockModel MbModel SpecStore Exec TsRobust.

(** What the decoder does to the frame store *)
Definition fs_do (fs : framestore) (x : happening) : framestore :=
  match x with
  | NewGroup => fs_gop fs
  | Reference f tr => fs_add f tr (fs_set tr fs)
  | Bidirectional tr => fs_set tr fs
  end.
Definition fs_run (h : list happening) : framestore := fold_left fs_do h (v_fs new_vidseq).

Lemma fs_set_refs : forall tr fs, fs_0 (fs_set tr fs) = fs_0 fs /\ fs_1 (fs_set tr fs) = fs_1 fs.
Proof.
  intros. assert (S1 : forall x g, fs_0 (fs_set1 tr x g) = fs_0 g /\ fs_1 (fs_set1 tr x g) = fs_1 g).
  { intros x g. unfold fs_set1. destruct (rf_frame x); [|auto]. destruct (_ || _); auto. }
  unfold fs_set. destruct (S1 (fs_1 fs) (fs_set1 tr (fs_0 fs) fs)) as (-> & ->). apply S1.
Qed.

(** [x] holds the reference [r], in group [g] *)
Definition holds (g : Z) (r : option (position * image)) (x : refframe) : Prop :=
  match r with
  | None => rf_frame x = None
  | Some ((gi, t), f) => rf_frame x = Some f /\ rf_tr x = t /\ rf_prev x = (gi <? g) /\ gi <= g
  end.
Lemma holds_next : forall g r x, holds g r x -> holds (g + 1) r (ref_prev x).
Proof.
  intros g [ [ [gi t] f]|] x H; cbn in *; [|exact H]. destruct H as (H1 & H2 & H3 & H4). repeat split; auto; [symmetry; apply Z.ltb_lt; lia | lia].
Qed.
Lemma refs_app : forall a b g, refs_from g (a ++ b) = refs_from g a ++ refs_from (g + group_after a) b.
Proof.
  induction a as [|x a IH]; intros b g; cbn [app refs_from]; [unfold group_after; cbn; now rewrite Z.add_0_r|].
  assert (E : forall y, group_after (y :: a) = group_after a + (match y with NewGroup => 1 | _ => 0 end)).
  { intros y. unfold group_after. destruct y; cbn [filter length]; lia. }
  destruct x; cbn [refs_from]; rewrite IH, E; cbn [app].
  - f_equal. f_equal. lia.
  - now rewrite Z.add_0_r.
  - now rewrite Z.add_0_r.
Qed.
Lemma group_snoc : forall a x, group_after (a ++ [x]) = group_after a + match x with NewGroup => 1 | _ => 0 end.
Proof. intros. unfold group_after. rewrite filter_app, app_length. destruct x; cbn; lia. Qed.
(** The last two references *)
Definition last1 (l : list (position * image)) : option (position * image) := hd_error (rev l).
Definition last2 (l : list (position * image)) : option (position * image) := hd_error (tl (rev l)).
Lemma store_run : forall h, holds (group_after h) (last1 (refs h)) (fs_1 (fs_run h)) /\ holds (group_after h) (last2 (refs h)) (fs_0 (fs_run h)).
Proof.
  induction h as [|x h IH] using rev_ind; [split; reflexivity|].
  unfold refs in *. rewrite refs_app, group_snoc. unfold fs_run in *. rewrite fold_left_app. cbn [fold_left].
  set (fs := fold_left fs_do h (v_fs new_vidseq)) in *. rewrite Z.add_0_l. destruct x; cbn [refs_from fs_do].
  - rewrite app_nil_r. cbn [fs_gop fs_0 fs_1]. split; now apply holds_next.
  - rewrite Z.add_0_r. unfold last1, last2. rewrite rev_app_distr. cbn [rev app hd_error tl fs_add fs_0 fs_1]. split.
    + cbn. repeat split; [symmetry; apply Z.ltb_irrefl | lia].
    + rewrite (proj2 (fs_set_refs tr fs)). apply IH.
  - rewrite app_nil_r, Z.add_0_r. destruct (fs_set_refs tr fs) as (-> & ->). exact IH.
Qed.

Lemma before_flag : forall g tr r x f, holds g (Some (r, f)) x -> (shown_before r (g, tr) -> rf_prev x || (rf_tr x <? tr) = true) /\ (shown_before (g, tr) r -> rf_prev x || (rf_tr x <? tr) = false).
Proof.
  intros g tr [gi t] x f (_ & -> & -> & L). unfold shown_before. cbn [fst snd]. split; intro H.
  - apply orb_true_iff. rewrite Z.ltb_lt, Z.ltb_lt. lia.
  - apply orb_false_iff. rewrite Z.ltb_ge, Z.ltb_ge. lia.
Qed.
Lemma before_irrefl : forall a, ~ shown_before a a.
Proof. unfold shown_before. lia. Qed.
Lemma before_asym : forall a b, shown_before a b -> ~ shown_before b a.
Proof. unfold shown_before. lia. Qed.
Lemma before_trans : forall a b c, shown_before a b -> shown_before b c -> shown_before a c.
Proof. unfold shown_before. lia. Qed.
Lemma in_order_app : forall a b, in_order (a ++ b) -> in_order a /\ in_order b /\ forall x y, In x a -> In y b -> shown_before x y.
Proof.
  induction a as [|x a IH]; intros b H; [cbn in *; split; [exact I|]; split; [exact H | intros ? ? []]|]. destruct H as (F & H). destruct (IH _ H) as (H1 & H2 & H3).
  apply Forall_app in F. destruct F as (F1 & F2). split; [split; auto|]. split; [exact H2|]. intros u y [<- | I] J; [|now apply H3]. rewrite Forall_forall in F2. now apply F2.
Qed.
Lemma position_inj : forall (l : list (position * image)) p f g, in_order (map fst l) -> In (p, f) l -> In (p, g) l -> f = g.
Proof.
  induction l as [|(q, k) l IH]; intros p f g O F G; [destruct F|]. destruct O as (A & O). cbn in A. rewrite Forall_forall in A.
  destruct F as [F | F]; destruct G as [G | G].
  - congruence.
  - injection F as -> ->. exfalso. apply (before_irrefl p). apply A. apply (in_map fst) in G. exact G.
  - injection G as -> ->. exfalso. apply (before_irrefl p). apply A. apply (in_map fst) in F. exact F.
  - eapply IH; eauto.
Qed.

Lemma snoc_cases : forall (l : list (position * image)), l = [] \/ exists l' p f, l = l' ++ [(p, f)].
Proof. intros l. destruct l as [|(p, f) l] using rev_ind; [now left|]. right. eauto. Qed.
(** The neighbours, by cases on the last reference *)
Theorem store_neighbours : forall h tr, coding_order h (group_after h, tr) ->
  (forall f, nearest_before (refs h) (group_after h, tr) f -> fs_past (fs_set tr (fs_run h)) = Some f) /\
  (forall f, nearest_after (refs h) (group_after h, tr) f -> fs_future (fs_set tr (fs_run h)) = Some f).
Proof.
  intros h tr (O & C). destruct (store_run h) as (H1 & H0). set (fs := fs_run h) in *. set (x := (group_after h, tr)) in *.
  destruct (snoc_cases (refs h)) as [E | (l0 & p1 & f1 & E)]; rewrite E in *.
  { split; intros f (p & I & _); destruct I. }
  destruct (C l0 p1 f1 eq_refl) as (F & D). rewrite map_app in O. apply in_order_app in O as O'. destruct O' as (O0 & _ & OB).
  unfold last1, last2 in H1, H0. rewrite rev_app_distr in H1, H0. cbn [rev app hd_error tl] in H1, H0.
  assert (IN0 : forall q g, In (q, g) l0 -> shown_before q x /\ shown_before q p1).
  { intros q g I. rewrite Forall_forall in F. split; [apply (F _ I)|]. apply OB; [now apply (in_map fst) in I | now left]. }
  unfold fs_set. unfold fs_set1 at 1 3.
  assert (R1 : rf_frame (fs_1 fs) = Some f1) by (destruct p1; apply H1). rewrite R1.
  assert (P0 : forall f, (exists p, In (p, f) l0 /\ forall q g, In (q, g) l0 -> q = p \/ shown_before q p) -> fs_past (fs_set1 tr (fs_0 fs) fs) = Some f).
  { intros f (p & I & M). destruct (snoc_cases l0) as [-> | (l2 & p2 & f2 & ->)]; [destruct I|].
    rewrite rev_app_distr in H0. cbn [rev app hd_error] in H0.
    assert (B2 : shown_before p2 x) by (apply (IN0 p2 f2), in_or_app; right; now left).
    unfold fs_set1. assert (rf_frame (fs_0 fs) = Some f2) as -> by (destruct p2; apply H0). rewrite (proj1 (before_flag _ tr _ _ _ H0) B2). cbn [fs_past]. f_equal.
    rewrite map_app in O0. assert (O1 := O0). apply in_order_app in O0. destruct O0 as (_ & _ & OB2).
    assert (p2 = p) as ->.
    { destruct (M p2 f2) as [-> | B]; [apply in_or_app; right; now left | reflexivity |]. exfalso. apply in_app_or in I. destruct I as [I | [I | [] ] ].
      - apply (before_asym _ _ B). apply OB2; [now apply (in_map fst) in I | now left].
      - injection I as <- <-. now apply before_irrefl in B. }
    rewrite <- map_app in O1. eapply position_inj; [exact O1 | apply in_or_app; right; now left | exact I]. }
  destruct D as [D | D].
  - rewrite (proj1 (before_flag _ tr _ _ _ H1) D). cbn [fs_past fs_future]. split; intros f (p & I & B & M).
    + apply in_app_or in I. destruct I as [I | [I | [] ] ]; [|congruence]. exfalso.
      destruct (M p1 f1) as [-> | N]; [apply in_or_app; right; now left | exact D | |]; destruct (IN0 _ _ I) as (_ & Q); [now apply before_irrefl in Q | now apply before_asym in Q].
    + exfalso. apply in_app_or in I. destruct I as [I | [I | [] ] ]; [destruct (IN0 _ _ I) as (Q & _); now apply before_asym in Q|]. injection I as <- <-. now apply before_asym in D.
  - rewrite (proj2 (before_flag _ tr _ _ _ H1) D). cbn [fs_past fs_future]. split; intros f (p & I & B & M).
    + apply P0. exists p. apply in_app_or in I. destruct I as [I | [I | [] ] ]; [|exfalso; injection I as <- <-; now apply before_asym in D].
      split; [exact I|]. intros q g J. apply (M q g); [apply in_or_app; now left | apply (IN0 _ _ J)].
    + apply in_app_or in I. destruct I as [I | [I | [] ] ]; [exfalso; destruct (IN0 _ _ I) as (Q & _); now apply before_asym in Q | congruence].
Qed.

(** * Steps *)

(** The counter and the group header *)
Definition cg (v : vidseq) : Z * option gophdr := (v_fc v, v_gop v).
(** [m] changes neither the frame store nor these. *)
Definition keeps {A} (m : V A) : Prop := forall s, v_fs (fst (snd (m s))) = v_fs (fst s) /\ cg (fst (snd (m s))) = cg (fst s).
Lemma keeps_bind : forall A B (m : V A) (k : A -> V B), keeps m -> (forall a, keeps (k a)) -> keeps (bind m k).
Proof.
  intros A B m k Hm Hk s. unfold bind. destruct (Hm s) as (H1 & H2). destruct (m s) as [ [a| | |] s1]; cbn [fst snd] in *; auto.
  destruct (Hk a s1) as (-> & ->). auto.
Qed.
Lemma keeps_onr : forall A (m : M reader A), keeps (onr m).
Proof. intros A m s. unfold onr. destruct (m (snd s)); cbn. auto. Qed.
Lemma keeps_ret : forall A (a : A), keeps (ret a).
Proof. intros A a s. auto. Qed.
Lemma keeps_fail : forall A e, keeps (fail e : V A).
Proof. intros A e s. auto. Qed.
Lemma keeps_panic : forall A, keeps (panic : V A).
Proof. intros A s. auto. Qed.
Lemma keeps_nofuel : forall A, keeps (nofuel : V A).
Proof. intros A s. auto. Qed.
Lemma keeps_ignore : forall A d (m : V A), keeps m -> keeps (ignore_err d m).
Proof. intros A d m H s. unfold ignore_err. destruct (H s) as (H1 & H2). destruct (m s) as [ [a| | |] s1]; auto. Qed.
Lemma keeps_upd : forall f, (forall v, v_fs (f v) = v_fs v /\ cg (f v) = cg v) -> keeps (upd f).
Proof. intros f H s. apply H. Qed.
Lemma keeps_assign : forall A set (m : M reader A), (forall x v, v_fs (set x v) = v_fs v /\ cg (set x v) = cg v) -> keeps (assign_header set m).
Proof.
  intros A set m H s. unfold assign_header. destruct (m (snd s)) as [ [x|e| |] r]; cbn [fst snd]; auto. destruct (next_start_code r) as [o r']. cbn. apply H.
Qed.
Ltac keep := repeat first [ apply keeps_bind; [|intro] | apply keeps_onr | apply keeps_ret | apply keeps_fail | apply keeps_panic | apply keeps_nofuel
  | apply keeps_ignore | apply keeps_upd; intro; split; reflexivity | apply keeps_assign; intros; split; reflexivity
  | match goal with |- keeps (if ?b then _ else _) => destruct b end ].
Lemma keeps_seq : keeps vs_sequence_header.
Proof. unfold vs_sequence_header. keep. Qed.
Lemma keeps_sext : keeps vs_sequence_extension.
Proof. unfold vs_sequence_extension. keep. Qed.
Lemma keeps_ph : keeps vs_picture_header.
Proof. unfold vs_picture_header. keep. Qed.
Lemma keeps_pce : keeps vs_picture_coding_extension.
Proof. unfold vs_picture_coding_extension. keep. Qed.
Lemma keeps_quant : keeps quant_matrix_extension.
Proof. unfold quant_matrix_extension. keep. Qed.
Lemma keeps_body : forall i, keeps (extension_body i).
Proof. intro i. unfold extension_body. keep. Qed.
Lemma keeps_data : forall n i, keeps (extension_data n i).
Proof. induction n as [|n IH]; intro i; cbn [extension_data]; keep; auto using keeps_body. Qed.
Lemma keeps_ext : forall i, keeps (extension_and_user_data i).
Proof.
  intro i. assert (H : forall n, keeps (ext_user_loop n i)).
  { induction n as [|n IH]; cbn [ext_user_loop]; keep; try apply IH. intro s. apply keeps_data. }
  intro s. apply H.
Qed.

Lemma keeps_ok : forall A (m : V A) s a v r, keeps m -> m s = (Ok a, (v, r)) -> v_fs v = v_fs (fst s) /\ cg v = cg (fst s).
Proof. intros A m s a v r H E. specialize (H s). rewrite E in H. exact H. Qed.

(** What a picture does *)
Definition happens (ph : pichdr) (img : image) : happening :=
  if (ph_type ph =? 1) || (ph_type ph =? 2) then Reference img (ph_tr ph) else Bidirectional (ph_tr ph).
(** A picture is decoded with the frame store [fs], set for it, and then recorded. *)
Definition decoded (fs : framestore) (img : image) (v' : vidseq) : Prop :=
  exists ph v2 r2 r3, v_ph v' = Some ph /\ v_ph v2 = Some ph /\ v_fs v2 = fs_set (ph_tr ph) fs /\
    picture_data v2 r2 = (Ok img, r3) /\ v_fs v' = fs_do fs (happens ph img).

Lemma more_frames_history : forall v r img v' r', more_frames (v, r) = (Ok img, (v', r')) ->
  (decoded (v_fs v) img v' /\ cg v' = cg v) \/ (decoded (fs_gop (v_fs v)) img v' /\ exists g, cg v' = (0, Some g)).
Proof.
  intros v r img v' r' H. unfold more_frames in H.
  apply bind_ok_inv in H. destruct H as (nb & (v0 & r0) & E0 & H). apply keeps_ok in E0; [|apply keeps_onr]. cbn [fst] in E0. destruct E0 as (F0 & C0).
  apply bind_ok_inv in H. destruct H as ([] & (v1 & r1) & E1 & H).
  assert (G : (v_fs v1 = v_fs v /\ cg v1 = cg v) \/ (v_fs v1 = fs_gop (v_fs v) /\ exists g, cg v1 = (0, Some g))).
  { destruct (nb =? GroupStartCode).
    - right. apply bind_ok_inv in E1. destruct E1 as (gop & (v5 & r5) & E5 & E1). apply keeps_ok in E5; [|apply keeps_onr]. cbn [fst] in E5.
      rewrite bind_upd in E1. apply keeps_ok in E1; [|apply keeps_ext]. cbn [fst snd start_gop set_fc set_fs set_gop v_fs] in E1. destruct E5 as (E5 & _). destruct E1 as (-> & ->). rewrite E5, F0. split; [reflexivity|]. exists gop. reflexivity.
    - left. apply keeps_ok in E1; [|apply keeps_ret]. cbn [fst] in E1. destruct E1 as (-> & ->). auto. }
  clear E1. apply bind_ok_inv in H. destruct H as ([] & (v2 & r2) & E2 & H). apply keeps_ok in E2; [|apply keeps_ph]. cbn [fst] in E2.
  apply bind_ok_inv in H. destruct H as ([] & (v3 & r3) & E3 & H). apply keeps_ok in E3; [|apply keeps_pce]. cbn [fst] in E3.
  apply bind_ok_inv in H. destruct H as ([] & (v4 & r4) & E4 & H). apply keeps_ok in E4; [|apply keeps_ext]. cbn [fst] in E4.
  assert (F4 : v_fs v4 = v_fs v1 /\ cg v4 = cg v1) by (destruct E2, E3, E4; split; congruence). clear E2 E3 E4.
  unfold own at 1, bind at 1 in H. cbn [fst] in H. destruct (v_ph v4) as [ph|] eqn:EP; [|discriminate H]. unfold deref in H. rewrite bind_ret in H. rewrite bind_upd in H. cbn [fst snd] in H.
  unfold own at 1, bind at 1 in H. cbn [fst] in H. set (v6 := set_fs (fs_set (ph_tr ph) (v_fs v4)) v4) in *.
  apply bind_ok_inv in H. destruct H as (frame & (v7 & r7) & E7 & H).
  assert (D : picture_data v6 r4 = (Ok frame, r7) /\ v7 = v6).
  { unfold onr in E7. cbn [snd fst] in E7. destruct (picture_data v6 r4) as [x r8]. injection E7 as -> <- <-. auto. }
  destruct D as (D & ->). clear E7. apply bind_ok_inv in H. destruct H as ([] & (v8 & r8) & E8 & H). cbn in H. injection H as <- <- <-.
  assert (K : v_fs v8 = fs_do (v_fs v4) (happens ph frame) /\ v_ph v8 = Some ph /\ cg v8 = cg v4).
  { unfold happens. change IFrame with 1 in E8. change PFrame with 2 in E8. destruct ((ph_type ph =? 1) || (ph_type ph =? 2)).
    - cbn in E8. injection E8 as <- <-. auto.
    - cbn in E8. injection E8 as <- <-. auto. }
  destruct K as (K1 & K2 & K3). destruct F4 as (F4 & C4).
  destruct G as [ (G1 & G2) | (G1 & g & G2) ]; [left; split; [|congruence] | right; split; [|exists g; congruence] ]; exists ph, v6, r4, r7; repeat split; auto; cbn [v6 set_fs v_fs]; congruence.
Qed.
Theorem step_history : forall v r img v' r', step (v, r) = (Ok img, (v', r')) ->
  (decoded (v_fs v) img v' /\ cg v' = cg v) \/ (decoded (fs_gop (v_fs v)) img v' /\ exists g, cg v' = (0, Some g)).
Proof.
  intros v r img v' r' H. unfold step in H. unfold own at 1, bind at 1 in H. cbn [fst] in H. destruct (v_sh v).
  - apply bind_ok_inv in H. destruct H as (nb & (v0 & r0) & E0 & H). apply keeps_ok in E0; [|apply keeps_onr]. cbn [fst] in E0.
    destruct ((nb =? PictureStartCode) || (nb =? GroupStartCode)).
    { apply more_frames_history in H. destruct E0 as (E0 & E1). now rewrite E0, E1 in H. }
    apply bind_ok_inv in H. destruct H as (nb2 & (v1 & r1) & E1 & H). apply keeps_ok in E1; [|apply keeps_onr]. cbn [fst] in E1.
    destruct (nb2 =? SequenceEndStartCode); [apply bind_ok_inv in H; destruct H as (? & ? & _ & H); discriminate H|].
    apply bind_ok_inv in H. destruct H as ([] & (v2 & r2) & E2 & H). apply keeps_ok in E2; [|apply keeps_seq]. cbn [fst] in E2.
    apply bind_ok_inv in H. destruct H as ([] & (v3 & r3) & E3 & H). apply keeps_ok in E3; [|apply keeps_sext]. cbn [fst] in E3.
    unfold continue_frames in H. apply bind_ok_inv in H. destruct H as ([] & (v4 & r4) & E4 & H). apply keeps_ok in E4; [|apply keeps_ext]. cbn [fst] in E4.
    apply more_frames_history in H.
    assert (F : v_fs v4 = v_fs v /\ cg v4 = cg v) by (destruct E0, E1, E2, E3, E4; split; congruence). destruct F as (F & C). now rewrite F, C in H.
  - apply bind_ok_inv in H. destruct H as ([] & (v1 & r1) & E1 & H). apply keeps_ok in E1; [|apply keeps_onr]. cbn [fst] in E1.
    apply bind_ok_inv in H. destruct H as ([] & (v2 & r2) & E2 & H). apply keeps_ok in E2; [|apply keeps_seq]. cbn [fst] in E2.
    apply bind_ok_inv in H. destruct H as (nb & (v0 & r0) & E0 & H). apply keeps_ok in E0; [|apply keeps_onr]. cbn [fst] in E0.
    destruct (negb (nb =? ExtensionStartCode)); [discriminate H|].
    apply bind_ok_inv in H. destruct H as ([] & (v3 & r3) & E3 & H). apply keeps_ok in E3; [|apply keeps_sext]. cbn [fst] in E3.
    unfold continue_frames in H. apply bind_ok_inv in H. destruct H as ([] & (v4 & r4) & E4 & H). apply keeps_ok in E4; [|apply keeps_ext]. cbn [fst] in E4.
    apply more_frames_history in H.
    assert (F : v_fs v4 = v_fs v /\ cg v4 = cg v) by (destruct E0, E1, E2, E3, E4; split; congruence). destruct F as (F & C). now rewrite F, C in H.
Qed.

(** Every state between two pictures comes from a history. *)
Lemma step_extends : forall h v r img v' r', v_fs v = fs_run h -> step (v, r) = (Ok img, (v', r')) -> exists h', v_fs v' = fs_run (h ++ h').
Proof.
  intros h v r img v' r' E H. apply step_history in H. unfold fs_run in *. destruct H as [ ((ph & v2 & r2 & r3 & _ & _ & _ & _ & K) & _) | ((ph & v2 & r2 & r3 & _ & _ & _ & _ & K) & _) ].
  - exists [happens ph img]. rewrite fold_left_app. cbn [fold_left]. now rewrite <- E.
  - exists [NewGroup; happens ph img]. rewrite fold_left_app. cbn [fold_left fs_do]. now rewrite <- E.
Qed.
Lemma next_loop_extends : forall n h v r img v' r', v_fs v = fs_run h -> next_loop n (v, r) = (Ok img, (v', r')) -> exists h', v_fs v' = fs_run (h ++ h').
Proof.
  induction n as [|n IH]; intros h v r img v' r' E H; [discriminate H|]. cbn [next_loop] in H.
  apply bind_ok_inv in H. destruct H as (i1 & (v1 & r1) & E1 & H). destruct (step_extends _ _ _ _ _ _ E E1) as (h1 & K1).
  unfold own at 1, bind at 1 in H. cbn [fst] in H. destruct (v_ph v1) as [ph|]; [|discriminate H]. unfold deref in H. rewrite bind_ret in H.
  destruct (ph_tr ph =? v_fc v1).
  - rewrite bind_upd in H. cbn in H. injection H as _ <- _. cbn [set_fc v_fs]. eauto.
  - destruct (IH _ _ _ _ _ _ K1 H) as (h2 & K2). exists (h1 ++ h2). now rewrite app_assoc.
Qed.
Lemma next_extends : forall h v r img v' r', v_fs v = fs_run h -> next (v, r) = (Ok img, (v', r')) -> exists h', v_fs v' = fs_run (h ++ h').
Proof.
  intros h v r img v' r' E H. unfold next in H. unfold own at 1, bind at 1 in H. cbn [fst] in H. destruct (fs_tryget (v_fc v) (v_fs v)).
  - rewrite bind_upd in H. cbn in H. injection H as _ <- _. exists []. rewrite app_nil_r. exact E.
  - eapply next_loop_extends; eauto.
Qed.
