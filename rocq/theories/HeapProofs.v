(** HeapProofs: the decoder with shared frames does what the decoder of MbModel does; a frame is never written again; no
    frame is returned twice; and what a caller writes to a frame that the decoder does not hold is never seen. *)
From Coq Require Import Lia.
From Verif Require Import Base BitReader VidModel BlockModel MbModel HeapModel Exec TsRobust StoreProofs CountProofs.

(** * The memory *)
Lemma put_length : forall i x m, length (put i x m) = length m.
Proof. induction i; destruct m; cbn; auto. Qed.
Lemma put_same : forall i x m, (i < length m)%nat -> nth_error (put i x m) i = Some x.
Proof. induction i; destruct m; cbn; intros; try lia; auto. apply IHi. lia. Qed.
Lemma put_other : forall i j x m, i <> j -> nth_error (put i x m) j = nth_error m j.
Proof. induction i; destruct m; destruct j; cbn; intros; try lia; auto. Qed.
Lemma put_app : forall i x m l, (i < length m)%nat -> put i x (m ++ l) = put i x m ++ l.
Proof. induction i; destruct m; cbn; intros; try lia; auto. f_equal. apply IHi. lia. Qed.
Lemma put_last : forall m x y, put (length m) x (m ++ [y]) = m ++ [x].
Proof. induction m; cbn; intros; auto. now rewrite IHm. Qed.
Lemma nth_last : forall (m : memory) x, nth_error (m ++ [x]) (length m) = Some x.
Proof. induction m; cbn; auto. Qed.
Lemma put_comm : forall i j x y m, i <> j -> put i x (put j y m) = put j y (put i x m).
Proof. induction i; destruct m; destruct j; cbn; intros; try lia; auto. f_equal. apply IHi. lia. Qed.

(** The pointers of the frame store *)
Definition pointers (s : hstore) : list (option nat) := [hr_frame (hs_0 s); hr_frame (hs_1 s); hs_past s; hs_future s].
Definition held (i : nat) (h : hseq) : Prop := In (Some i) (pointers (h_fs h)).
Definition wf (h : hseq) : Prop := forall i, held i h -> (i < length (h_mem h))%nat.

Lemma load_same : forall s m m', (forall i, In (Some i) (pointers s) -> nth_error m' i = nth_error m i) -> load m' s = load m s.
Proof.
  intros s m m' E. unfold load, load_ref, load_ptr. unfold pointers in E. cbn [In] in E.
  destruct (hr_frame (hs_0 s)), (hr_frame (hs_1 s)), (hs_past s), (hs_future s); rewrite ?E by auto; reflexivity.
Qed.
Lemma load_app : forall s m l, (forall i, In (Some i) (pointers s) -> (i < length m)%nat) -> load (m ++ l) s = load m s.
Proof. intros s m l W. apply load_same. intros i I. apply nth_error_app1. now apply W. Qed.

(** * What a step does to the frame store, the counter and the memory *)
Definition alike (h h' : hseq) : Prop := h_fs h' = h_fs h /\ h_mem h' = h_mem h /\ v_fc (h_v h') = v_fc (h_v h).
Definition still {A} (m : H A) : Prop := forall s, alike (fst s) (fst (snd (m s))).
Lemma alike_refl : forall h, alike h h.
Proof. intro h. repeat split. Qed.
Lemma wf_alike : forall h h', alike h h' -> wf h -> wf h'.
Proof. intros h h' (E1 & E2 & _) W i I. unfold held in I. rewrite E1 in I. rewrite E2. now apply W. Qed.
Lemma still_onr : forall A (m : M reader A), still (onr m).
Proof. intros A m s. unfold onr. destruct (m (snd s)). apply alike_refl. Qed.
Lemma still_onv : forall A (m : V A), keeps m -> still (onv m).
Proof.
  intros A m K s. unfold onv. specialize (K (see (fst s), snd s)). destruct (m (see (fst s), snd s)) as [o [v r]]. cbn [fst snd] in *. destruct K as (_ & K). injection K as K _.
  split; [reflexivity|]. split; [reflexivity|]. cbn [h_v]. rewrite K. reflexivity.
Qed.

(** One picture, without the group header before it; and with it *)
Definition shape (fs1 : hstore) (fc1 : Z) (h : hseq) (o : res nat) (h' : hseq) : Prop :=
  v_fc (h_v h') = fc1 /\
  match o with
  | Ok i => i = length (h_mem h) /\ (exists img, h_mem h' = h_mem h ++ [img]) /\
      exists ph, v_ph (h_v h') = Some ph /\
        h_fs h' = if (ph_type ph =? IFrame) || (ph_type ph =? PFrame) then hs_add i (ph_tr ph) (hs_set (ph_tr ph) fs1) else hs_set (ph_tr ph) fs1
  | _ => (exists l, h_mem h' = h_mem h ++ l) /\ (h_fs h' = fs1 \/ exists tr, h_fs h' = hs_set tr fs1)
  end.
Definition shaped (m : H nat) : Prop := forall h r, wf h -> let '(o, (h', _)) := m (h, r) in
  shape (h_fs h) (v_fc (h_v h)) h o h' \/ shape (hs_gop (h_fs h)) 0 h o h'.
Definition shaped1 (m : H nat) : Prop := forall h r, wf h -> let '(o, (h', _)) := m (h, r) in shape (h_fs h) (v_fc (h_v h)) h o h'.

Lemma shape_alike : forall fs fc h h1 o h', h_mem h1 = h_mem h -> shape fs fc h1 o h' -> shape fs fc h o h'.
Proof. intros fs fc h h1 o h' E. unfold shape. now rewrite E. Qed.
Lemma shape_stop : forall h h' (o : res nat), alike h h' -> (forall i, o <> Ok i) -> shape (h_fs h) (v_fc (h_v h)) h o h'.
Proof.
  intros h h' o (E1 & E2 & E3) N. split; [exact E3|]. destruct o as [i| | |]; [destruct (N i eq_refl)| | |]; (split; [exists []; now rewrite app_nil_r | now left]).
Qed.
Lemma shaped1_bind : forall A (m : H A) k, still m -> (forall a, shaped1 (k a)) -> shaped1 (bind m k).
Proof.
  intros A m k S K h r W. unfold bind. specialize (S (h, r)). destruct (m (h, r)) as [o [h1 r1]]. cbn [fst snd] in S.
  destruct o as [a|e| |]; try (apply shape_stop; [exact S | intros i Q; discriminate Q]).
  specialize (K a h1 r1 (wf_alike _ _ S W)). destruct (k a (h1, r1)) as [o [h' r']]. destruct S as (E1 & E2 & E3). rewrite E1, E3 in K. now apply (shape_alike _ _ _ _ _ _ E2) in K.
Qed.
Lemma shaped_bind : forall A (m : H A) k, still m -> (forall a, shaped (k a)) -> shaped (bind m k).
Proof.
  intros A m k S K h r W. unfold bind. specialize (S (h, r)). destruct (m (h, r)) as [o [h1 r1]]. cbn [fst snd] in S.
  destruct o as [a|e| |]; try (left; apply shape_stop; [exact S | intros i Q; discriminate Q]).
  specialize (K a h1 r1 (wf_alike _ _ S W)). destruct (k a (h1, r1)) as [o [h' r']]. destruct S as (E1 & E2 & E3). rewrite E1, E3 in K. destruct K as [K|K]; apply (shape_alike _ _ _ _ _ _ E2) in K; auto.
Qed.
Lemma shaped_1 : forall m, shaped1 m -> shaped m.
Proof. intros m K h r W. specialize (K h r W). destruct (m (h, r)) as [o [h' r']]. now left. Qed.
Lemma shaped_fail : forall e, shaped (fail e).
Proof. intros e h r W. left. apply shape_stop; [apply alike_refl | intros i Q; discriminate Q]. Qed.

(** The slices write to the new object only. *)
Definition view (v : vidseq) (fs : hstore) (m : memory) : vidseq := see (mkHSeq v fs m).
Definition omap {A B} (f : A -> B) (o : res A) : res B := match o with Ok a => Ok (f a) | Err e => Err e | Panic => Panic | OutOfFuel => OutOfFuel end.
Definition inside (fs : hstore) (m : memory) : Prop := forall i, In (Some i) (pointers fs) -> (i < length m)%nat.
Lemma h_slice_see : forall w f r o r', slice w f r = (o, r') ->
  exists f', (forall v fs m, inside fs m -> view v fs m = w -> h_slice (length m) (mkHSeq v fs (m ++ [f]), r) = (omap (fun _ => tt) o, (mkHSeq v fs (m ++ [f']), r'))) /\ (forall x, o = Ok x -> f' = x).
Proof.
  intros w f r o r' E. exists (match o with Ok x => x | _ => f end). split; [|intros x ->; reflexivity]. intros v fs m W V. unfold h_slice. cbn [fst snd h_mem h_v h_fs]. rewrite nth_last. unfold view in V.
  assert (Q : see (mkHSeq v fs (m ++ [f])) = w) by (rewrite <- V; unfold see; cbn [h_v h_fs h_mem]; now rewrite load_app by exact W).
  rewrite Q, E. destruct o as [f'|e| |]; [rewrite put_last|..]; reflexivity.
Qed.
Lemma h_slices_see : forall n w f r o r', slices n w f r = (o, r') ->
  exists f', (forall v fs m, inside fs m -> view v fs m = w -> h_slices n (length m) (mkHSeq v fs (m ++ [f]), r) = (omap (fun _ => tt) o, (mkHSeq v fs (m ++ [f']), r'))) /\ (forall x, o = Ok x -> f' = x).
Proof.
  induction n as [|n IH]; intros w f r o r' E; cbn [slices] in *.
  { injection E as <- <-. exists f. split; [reflexivity | discriminate]. }
  unfold bind at 1 in E. destruct (slice w f r) as [o1 r1] eqn:E1. destruct (h_slice_see _ _ _ _ _ E1) as (f1 & H1 & L1).
  destruct o1 as [x|e| |].
  2-4: (injection E as <- <-; exists f1; split; [|discriminate]; intros v fs m W V; cbn [h_slices]; unfold bind at 1; rewrite (H1 v fs m W V); reflexivity).
  rewrite <- (L1 x eq_refl) in *. unfold bind at 1 in E. destruct (peek_n 32 r1) as [ [nb|e| |] r2] eqn:EP.
  2-4: (injection E as <- <-; exists f1; split; [|discriminate]; intros v fs m W V; cbn [h_slices]; unfold bind at 1; rewrite (H1 v fs m W V); cbn [omap]; unfold bind, onr; cbn [fst snd]; rewrite EP; reflexivity).
  destruct (is_slice nb) eqn:IS.
  - destruct (IH _ _ _ _ _ E) as (f2 & H2 & L2). exists f2. split; [|exact L2]. intros v fs m W V. cbn [h_slices]. unfold bind at 1. rewrite (H1 v fs m W V). cbn [omap]. unfold bind, onr. cbn [fst snd]. rewrite EP, IS. now apply H2.
  - injection E as <- <-. exists f1. split; [|congruence]. intros v fs m W V. cbn [h_slices]. unfold bind at 1. rewrite (H1 v fs m W V). cbn [omap]. unfold bind, onr. cbn [fst snd]. rewrite EP, IS. reflexivity.
Qed.
Lemma h_picture_data_see : forall w r o r', picture_data w r = (o, r') ->
  exists l, (forall v fs m, inside fs m -> view v fs m = w -> h_picture_data (mkHSeq v fs m, r) = (omap (fun _ => length m) o, (mkHSeq v fs (m ++ l), r'))) /\ (forall x, o = Ok x -> l = [x]).
Proof.
  intros w r o r' E. unfold picture_data in E. destruct (size w) as [wd ht] eqn:SZ. unfold deref in *. destruct (v_se w) as [se|] eqn:SE.
  2:{ injection E as <- <-. exists []. split; [|discriminate]. intros v fs m W V. rewrite app_nil_r. unfold h_picture_data. cbn [fst snd h_v].
      assert (Q1 : size v = (wd, ht)) by (rewrite <- SZ, <- V; reflexivity). assert (Q2 : v_se v = None) by (rewrite <- SE, <- V; reflexivity). rewrite Q1, Q2. reflexivity. }
  rewrite bind_ret in E. unfold bind at 1 in E. destruct (slices _ w _ r) as [o1 r1] eqn:E1. destruct (h_slices_see _ _ _ _ _ _ E1) as (f1 & H1 & L1).
  assert (R : forall v fs m, inside fs m -> view v fs m = w -> h_picture_data (mkHSeq v fs m, r) =
    match o1 with Ok _ => (onr next_start_code ;; ret (length m)) (mkHSeq v fs (m ++ [f1]), r1) | Err e => (Err e, (mkHSeq v fs (m ++ [f1]), r1)) | Panic => (Panic, (mkHSeq v fs (m ++ [f1]), r1)) | OutOfFuel => (OutOfFuel, (mkHSeq v fs (m ++ [f1]), r1)) end).
  { intros v fs m W V. unfold h_picture_data. cbn [fst snd h_v].
    assert (Q1 : size v = (wd, ht)) by (rewrite <- SZ, <- V; reflexivity). assert (Q2 : v_se v = Some se) by (rewrite <- SE, <- V; reflexivity). rewrite Q1, Q2. unfold deref. rewrite bind_ret.
    unfold bind at 1, alloc. cbn [fst snd h_mem h_v h_fs]. unfold bind at 1. rewrite (H1 v fs m W V). destruct o1; reflexivity. }
  destruct o1 as [x|e| |].
  2-4: (injection E as <- <-; exists [f1]; split; [exact R | discriminate]).
  rewrite <- (L1 x eq_refl) in *. unfold bind at 1 in E. exists [f1]. split.
  - intros v fs m W V. rewrite (R v fs m W V). unfold bind, onr. cbn [fst snd]. destruct (next_start_code r1) as [ [u|e| |] r2]; injection E as <- <-; reflexivity.
  - intros y ->. destruct (next_start_code r1) as [ [u|e| |] r2]; try discriminate E. injection E as <- _. reflexivity.
Qed.

Lemma set1_pointers : forall tr x s, (forall i, hr_frame x = Some i -> In (Some i) (pointers s)) -> forall i, In (Some i) (pointers (hs_set1 tr x s)) -> In (Some i) (pointers s).
Proof.
  intros tr x s X i I. unfold hs_set1 in I. destruct (hr_frame x) as [j|]; [|exact I]. specialize (X j eq_refl).
  destruct (_ || _); unfold pointers in I; cbn [hs_0 hs_1 hs_past hs_future In] in I; unfold pointers in *; cbn [In] in *.
  - destruct I as [I|[I|[I|[I|[] ] ] ] ]; auto. now rewrite <- I.
  - destruct I as [I|[I|[I|[I|[] ] ] ] ]; auto. now rewrite <- I.
Qed.
Lemma set1_refs : forall tr x s, hs_0 (hs_set1 tr x s) = hs_0 s /\ hs_1 (hs_set1 tr x s) = hs_1 s.
Proof. intros. unfold hs_set1. destruct (hr_frame x); [|auto]. destruct (_ || _); auto. Qed.
Lemma set_refs : forall tr s, hs_0 (hs_set tr s) = hs_0 s /\ hs_1 (hs_set tr s) = hs_1 s.
Proof. intros. unfold hs_set. destruct (set1_refs tr (hs_1 s) (hs_set1 tr (hs_0 s) s)) as (-> & ->). apply set1_refs. Qed.
Lemma set_pointers : forall tr s i, In (Some i) (pointers (hs_set tr s)) -> In (Some i) (pointers s).
Proof.
  intros tr s i I. unfold hs_set in I. apply set1_pointers in I; [apply set1_pointers in I; [exact I|]|].
  - intros j E. left. exact E.
  - intros j E. right. left. now rewrite (proj2 (set1_refs _ _ _)).
Qed.

Definition tail : H nat :=
  onv vs_picture_header ;;
  onv vs_picture_coding_extension ;;
  onv (extension_and_user_data 2) ;;
  h <- own ;;
  ph <- deref (v_ph (h_v h)) ;;
  upd (h_set_fs (hs_set (ph_tr ph))) ;;
  i <- h_picture_data ;;
  (if (ph_type ph =? IFrame) || (ph_type ph =? PFrame)
   then upd (h_set_fs (hs_add i (ph_tr ph))) else ret tt) ;;
  ret i.
Lemma shaped1_tail : shaped1 tail.
Proof.
  unfold tail. apply shaped1_bind; [apply still_onv, keeps_ph|]. intros _. apply shaped1_bind; [apply still_onv, keeps_pce|]. intros _. apply shaped1_bind; [apply still_onv, keeps_ext|]. intros _.
  intros h r W. unfold bind at 1, own. cbn [fst]. unfold deref. destruct (v_ph (h_v h)) as [ph|] eqn:EP.
  2:{ apply shape_stop; [apply alike_refl | intros i Q; discriminate Q]. }
  rewrite bind_ret, bind_upd. cbn [fst snd]. destruct h as [v fs m]. unfold h_set_fs. cbn [h_v h_fs h_mem] in *.
  destruct (picture_data (view v (hs_set (ph_tr ph) fs) m) r) as [o r'] eqn:E.
  assert (I : inside (hs_set (ph_tr ph) fs) m) by (intros i J; apply set_pointers in J; exact (W i J)).
  destruct (h_picture_data_see _ _ _ _ E) as (l & HP & L). unfold bind at 1. rewrite (HP _ _ _ I eq_refl).
  destruct o as [img|e| |]; cbn [omap].
  - rewrite (L img eq_refl). destruct ((ph_type ph =? IFrame) || (ph_type ph =? PFrame)) eqn:T; unfold bind, upd, ret, shape; cbn [fst snd h_v h_fs h_mem h_set_fs];
      (split; [reflexivity|]; split; [reflexivity|]; split; [exists img; reflexivity|]; exists ph; split; [exact EP|]; rewrite T; reflexivity).
  - split; [reflexivity|]. cbn [h_mem h_fs]. split; [exists l; reflexivity | right; exists (ph_tr ph); reflexivity].
  - split; [reflexivity|]. cbn [h_mem h_fs]. split; [exists l; reflexivity | right; exists (ph_tr ph); reflexivity].
  - split; [reflexivity|]. cbn [h_mem h_fs]. split; [exists l; reflexivity | right; exists (ph_tr ph); reflexivity].
Qed.
Lemma shaped_more : shaped h_more_frames.
Proof.
  unfold h_more_frames. apply shaped_bind; [apply still_onr|]. intro nb. change (onv vs_picture_header ;; _) with tail.
  destruct (nb =? GroupStartCode).
  2:{ intros h r W. rewrite bind_ret. pose proof (shaped1_tail h r W) as K. destruct (tail (h, r)) as [o [h' r']]. now left. }
  intros h r W. unfold bind at 1 2. pose proof (still_onr _ read_gop_header (h, r)) as S. destruct (onr read_gop_header (h, r)) as [ [g|e| |] [h1 r1] ]; cbn [fst snd] in S;
    try (left; apply shape_stop; [exact S | intros i Q; discriminate Q]).
  rewrite bind_upd. cbn [fst snd].
  assert (W1 : wf (h_start_gop g h1)) by (intros i J; apply (wf_alike _ _ S W i); exact J).
  destruct S as (E1 & E2 & E3).
  pose proof (still_onv _ _ (keeps_ext 1) (h_start_gop g h1, r1)) as S2. destruct (onv (extension_and_user_data 1) (h_start_gop g h1, r1)) as [o [h2 r2] ]. cbn [fst snd] in S2.
  assert (Q : h_fs (h_start_gop g h1) = hs_gop (h_fs h) /\ v_fc (h_v (h_start_gop g h1)) = 0 /\ h_mem (h_start_gop g h1) = h_mem h).
  { cbn [h_start_gop h_fs h_v h_mem set_fc v_fc]. now rewrite E1, E2. }
  destruct Q as (Q1 & Q2 & Q3). rewrite <- Q1, <- Q2.
  destruct o as [ []|e| |]; try (right; apply (shape_alike _ _ _ _ _ _ Q3); apply shape_stop; [exact S2 | intros i Q; discriminate Q]).
  pose proof (shaped1_tail h2 r2 (wf_alike _ _ S2 W1)) as K. destruct (tail (h2, r2)) as [o [h' r'] ]. right. apply (shape_alike _ _ _ _ _ _ Q3). destruct S2 as (F1 & F2 & F3). rewrite F1, F3 in K. apply (shape_alike _ _ _ _ _ _ F2 K).
Qed.
Theorem shaped_step : shaped h_step.
Proof.
  unfold h_step, h_continue_frames. intros h r W. unfold bind at 1, own. cbn [fst]. destruct (v_sh (h_v h)).
  - revert h r W. change (shaped (nextbits <- onr (peek_n 32);; (if (nextbits =? PictureStartCode) || (nextbits =? GroupStartCode) then h_more_frames else
      (nextbits0 <- onr (peek_n 32);; (if nextbits0 =? SequenceEndStartCode then onr (skip_n 32);; fail EOS
       else onv vs_sequence_header;; onv vs_sequence_extension;; onv (extension_and_user_data 0);; h_more_frames))))).
    apply shaped_bind; [apply still_onr|]. intro nb. destruct (_ || _); [apply shaped_more|]. apply shaped_bind; [apply still_onr|]. intro nb2. destruct (_ =? _).
    + apply shaped_bind; [apply still_onr|]. intros _. apply shaped_fail.
    + apply shaped_bind; [apply still_onv, keeps_seq|]. intros _. apply shaped_bind; [apply still_onv, keeps_sext|]. intros _. apply shaped_bind; [apply still_onv, keeps_ext|]. intros _. apply shaped_more.
  - revert h r W. change (shaped (onr next_start_code;; onv vs_sequence_header;; val <- onr (peek_n 32);; (if negb (val =? ExtensionStartCode) then fail ErrUnsupported
       else onv vs_sequence_extension;; onv (extension_and_user_data 0);; h_more_frames))).
    apply shaped_bind; [apply still_onr|]. intros _. apply shaped_bind; [apply still_onv, keeps_seq|]. intros _. apply shaped_bind; [apply still_onr|]. intro nb. destruct (negb _); [apply shaped_fail|].
    apply shaped_bind; [apply still_onv, keeps_sext|]. intros _. apply shaped_bind; [apply still_onv, keeps_ext|]. intros _. apply shaped_more.
Qed.

(** * The decoder of MbModel *)
Lemma bind_own : forall T R B (k : T -> M (T * R) B) s, bind own k s = k (fst s) s.
Proof. reflexivity. Qed.
Lemma bind_val : forall S A B (m : M S A) (k : A -> M S B) s o s', m s = (o, s') ->
  bind m k s = match o with Ok a => k a s' | Err e => (Err e, s') | Panic => (Panic, s') | OutOfFuel => (OutOfFuel, s') end.
Proof. intros S A B m k s o s' E. unfold bind. now rewrite E. Qed.
Definition orel {A B} (R : A -> B -> Prop) (x : res A) (y : res B) : Prop :=
  match x, y with Ok a, Ok b => R a b | Err e, Err e' => e = e' | Panic, Panic => True | OutOfFuel, OutOfFuel => True | _, _ => False end.
Definition sim {A B} (R : hseq -> A -> B -> Prop) (mh : H A) (m : V B) : Prop :=
  forall h r, wf h -> exists oh o h' r', mh (h, r) = (oh, (h', r')) /\ m (see h, r) = (o, (see h', r')) /\ wf h' /\ orel (R h') oh o.
Definition same {A} (_ : hseq) (a b : A) : Prop := a = b.
(** A pointer to the picture *)
Definition points (h : hseq) (i : nat) (img : image) : Prop := nth_error (h_mem h) i = Some img.
Lemma sim_bind : forall A B C (R : hseq -> B -> C -> Prop) (mh : H A) (m : V A) kh k, sim same mh m -> (forall a, sim R (kh a) (k a)) -> sim R (bind mh kh) (bind m k).
Proof.
  intros A B C R mh m kh k S K h r W. destruct (S h r W) as (oh & o & h1 & r1 & E1 & E2 & W1 & O). unfold bind. rewrite E1, E2.
  destruct oh as [a|e| |], o as [b|e'| |]; cbn in O; try contradiction; try (subst; eexists _, _, _, _; repeat split; [assumption|..]; cbn; auto; fail).
  unfold same in O. subst b. exact (K a h1 r1 W1).
Qed.
Lemma sim_onr : forall A (m : M reader A), sim same (onr m) (onr m).
Proof.
  intros A m h r W. unfold onr. cbn [fst snd]. destruct (m r) as [o r']. exists o, o, h, r'. split; [reflexivity|]. split; [reflexivity|]. split; [exact W|]. destruct o; cbn; unfold same; auto.
Qed.
Lemma set_fs_same : forall v, set_fs (v_fs v) v = v.
Proof. intros []. reflexivity. Qed.
Lemma sim_onv : forall A (m : V A), keeps m -> sim same (onv m) m.
Proof.
  intros A m K h r W. unfold onv. cbn [fst snd]. specialize (K (see h, r)). destruct (m (see h, r)) as [o [v r'] ]. cbn [fst snd] in K.
  exists o, o, (mkHSeq v (h_fs h) (h_mem h)), r'. split; [reflexivity|]. split; [|split; [exact W | destruct o; cbn; unfold same; auto] ].
  f_equal. f_equal. unfold see at 1. cbn [h_v h_fs h_mem]. destruct K as (K & _). change (v_fs (see h)) with (load (h_mem h) (h_fs h)) in K. rewrite <- K. symmetry. apply set_fs_same.
Qed.
Lemma sim_ret : forall A (a : A), sim same (ret a) (ret a).
Proof. intros A a h r W. exists (Ok a), (Ok a), h, r. repeat split; auto. Qed.
Lemma sim_fail : forall A B (R : hseq -> A -> B -> Prop) e, sim R (fail e) (fail e).
Proof. intros A B R e h r W. exists (Err e), (Err e), h, r. repeat split; auto. Qed.
Lemma sim_upd : forall f g, (forall h, wf h -> wf (f h) /\ see (f h) = g (see h)) -> sim same (upd f) (upd g).
Proof. intros f g E h r W. destruct (E h W) as (W' & Q). exists (Ok tt), (Ok tt), (f h), r. unfold upd. cbn [fst snd]. rewrite Q. repeat split; auto. Qed.

Lemma load_gop : forall m s, load m (hs_gop s) = fs_gop (load m s).
Proof. reflexivity. Qed.
Lemma load_set1 : forall tr m x s, (forall i, hr_frame x = Some i -> (i < length m)%nat) -> load m (hs_set1 tr x s) = fs_set1 tr (load_ref m x) (load m s).
Proof.
  intros tr m x s B. unfold hs_set1, fs_set1, load_ref at 1. cbn [rf_frame rf_prev rf_tr]. destruct x as [ [i|] t p]; cbn [hr_frame hr_prev hr_tr load_ptr load_ref rf_frame rf_prev rf_tr] in *; [|reflexivity].
  specialize (B i eq_refl). destruct (nth_error m i) as [f|] eqn:E; [|apply nth_error_None in E; lia].
  destruct (p || (t <? tr)); unfold load; cbn [hs_0 hs_1 hs_past hs_future fs_0 fs_1 fs_past fs_future load_ptr]; now rewrite E.
Qed.
Lemma load_set : forall tr m s, inside s m -> load m (hs_set tr s) = fs_set tr (load m s).
Proof.
  intros tr m s I. unfold hs_set, fs_set. rewrite load_set1, load_set1.
  - change (fs_0 (load m s)) with (load_ref m (hs_0 s)). change (fs_1 (load m s)) with (load_ref m (hs_1 s)). reflexivity.
  - intros i E. apply I. left. exact E.
  - intros i E. apply I. right. left. exact E.
Qed.
Lemma sim_gop : forall g, sim same (upd (h_start_gop g)) (upd (start_gop g)).
Proof. intro g. apply sim_upd. intros h W. split; [exact W | reflexivity]. Qed.

Lemma sim_tail : sim points tail (
  vs_picture_header ;;
  vs_picture_coding_extension ;;
  extension_and_user_data 2 ;;
  v <- own ;;
  ph <- deref (v_ph v) ;;
  upd (fun v => set_fs (fs_set (ph_tr ph) (v_fs v)) v) ;;
  v <- own ;;
  frame <- onr (picture_data v) ;;
  (if (ph_type ph =? IFrame) || (ph_type ph =? PFrame)
   then upd (fun v => set_fs (fs_add frame (ph_tr ph) (v_fs v)) v) else ret tt) ;;
  ret frame).
Proof.
  unfold tail. apply sim_bind; [apply sim_onv, keeps_ph|]. intros _. apply sim_bind; [apply sim_onv, keeps_pce|]. intros _. apply sim_bind; [apply sim_onv, keeps_ext|]. intros _.
  intros h r W. rewrite !bind_own. cbn [fst]. change (v_ph (see h)) with (v_ph (h_v h)). unfold deref. destruct (v_ph (h_v h)) as [ph|] eqn:EP.
  2:{ exists Panic, Panic, h, r. repeat split. exact W. }
  rewrite !bind_ret, !bind_upd. cbn [fst snd]. destruct h as [v fs m]. unfold h_set_fs at 1. cbn [h_v h_fs h_mem] in *.
  assert (I0 : inside fs m) by exact W.
  assert (I : inside (hs_set (ph_tr ph) fs) m) by (intros i J; apply set_pointers in J; exact (W i J)).
  assert (Q : set_fs (fs_set (ph_tr ph) (v_fs (see (mkHSeq v fs m)))) (see (mkHSeq v fs m)) = view v (hs_set (ph_tr ph) fs) m).
  { unfold view, see. cbn [h_v h_fs h_mem]. rewrite load_set by exact I0. reflexivity. }
  rewrite Q, bind_own. cbn [fst].
  destruct (picture_data (view v (hs_set (ph_tr ph) fs) m) r) as [o r'] eqn:E.
  destruct (h_picture_data_see _ _ _ _ E) as (l & HP' & L). pose proof (HP' _ _ _ I eq_refl) as HP. clear HP'. erewrite (bind_val _ _ _ h_picture_data) by exact HP.
  assert (HQ : @onr vidseq _ _ (picture_data (view v (hs_set (ph_tr ph) fs) m)) (view v (hs_set (ph_tr ph) fs) m, r) = (o, (view v (hs_set (ph_tr ph) fs) m, r'))) by (unfold onr; cbn [fst snd]; now rewrite E).
  erewrite (bind_val _ _ _ (onr (picture_data _))) by exact HQ. clear HP HQ.
  assert (SE : view v (hs_set (ph_tr ph) fs) m = see (mkHSeq v (hs_set (ph_tr ph) fs) (m ++ l))).
  { unfold view, see. cbn [h_v h_fs h_mem]. now rewrite load_app by exact I. }
  assert (W2 : wf (mkHSeq v (hs_set (ph_tr ph) fs) (m ++ l))) by (intros i J; specialize (I i J); cbn [h_mem]; rewrite app_length; lia).
  rewrite SE. destruct o as [img|e| |]; cbn [omap]; try (eexists _, _, _, _; split; [reflexivity|]; split; [reflexivity|]; split; [exact W2 | cbn; auto]; fail).
  rewrite (L img eq_refl) in *. destruct ((ph_type ph =? IFrame) || (ph_type ph =? PFrame)).
  - unfold bind, upd, ret. cbn [fst snd]. eexists _, _, _, _. split; [reflexivity|]. split; [|split].
    + f_equal. f_equal. unfold see, h_set_fs. cbn [h_v h_fs h_mem v_fs set_fs]. unfold hs_add, fs_add, load. cbn [hs_0 hs_1 hs_past hs_future fs_0 fs_1 fs_past fs_future]. change (load_ref (m ++ [img]) (mkHRef (Some (length m)) (ph_tr ph) false)) with (mkRef (nth_error (m ++ [img]) (length m)) (ph_tr ph) false). rewrite nth_last. reflexivity.
    + intros i J. unfold held in J. cbn [h_set_fs h_fs hs_add pointers hs_0 hs_1 hs_past hs_future hr_frame In] in J. cbn [h_set_fs h_mem].
      destruct J as [J|[J|[J|[J|[] ] ] ] ].
      * apply W2. right. left. exact J.
      * injection J as <-. rewrite app_length. cbn. lia.
      * apply W2. right. right. left. exact J.
      * apply W2. right. right. right. left. exact J.
    + cbn. unfold points. cbn [h_set_fs h_mem]. apply nth_last.
  - unfold bind, ret. eexists _, _, _, _. split; [reflexivity|]. split; [reflexivity|]. split; [exact W2|]. cbn. unfold points. cbn [h_mem]. apply nth_last.
Qed.
Lemma sim_more : sim points h_more_frames more_frames.
Proof.
  unfold h_more_frames, more_frames. apply sim_bind; [apply sim_onr|]. intro nb. apply sim_bind; [|intros _; exact sim_tail].
  destruct (nb =? GroupStartCode); [|apply sim_ret]. apply sim_bind; [apply sim_onr|]. intro g. apply sim_bind; [apply sim_gop|]. intros _. apply sim_onv, keeps_ext.
Qed.
Theorem sim_step : sim points h_step step.
Proof.
  unfold h_step, step, h_continue_frames, continue_frames. intros h r W. rewrite !bind_own. cbn [fst]. change (v_sh (see h)) with (v_sh (h_v h)). destruct (v_sh (h_v h)).
  - revert h r W. match goal with |- forall h r, wf h -> exists oh o h' r', ?a (h, r) = _ /\ ?b (see h, r) = _ /\ _ => change (sim points a b) end.
    apply sim_bind; [apply sim_onr|]. intro nb. destruct (_ || _); [apply sim_more|]. apply sim_bind; [apply sim_onr|]. intro nb2. destruct (_ =? _).
    + apply sim_bind; [apply sim_onr|]. intros _. apply sim_fail.
    + apply sim_bind; [apply sim_onv, keeps_seq|]. intros _. apply sim_bind; [apply sim_onv, keeps_sext|]. intros _. apply sim_bind; [apply sim_onv, keeps_ext|]. intros _. apply sim_more.
  - revert h r W. match goal with |- forall h r, wf h -> exists oh o h' r', ?a (h, r) = _ /\ ?b (see h, r) = _ /\ _ => change (sim points a b) end.
    apply sim_bind; [apply sim_onr|]. intros _. apply sim_bind; [apply sim_onv, keeps_seq|]. intros _. apply sim_bind; [apply sim_onr|]. intro nb. destruct (negb _); [apply sim_fail|].
    apply sim_bind; [apply sim_onv, keeps_sext|]. intros _. apply sim_bind; [apply sim_onv, keeps_ext|]. intros _. apply sim_more.
Qed.
Lemma see_count : forall h, see (h_count h) = set_fc (u32 (v_fc (see h) + 1)) (see h).
Proof. reflexivity. Qed.
Lemma sim_loop : forall n, sim points (h_next_loop n) (next_loop n).
Proof.
  induction n as [|n IH]; cbn [h_next_loop next_loop].
  { intros h r W. exists OutOfFuel, OutOfFuel, h, r. repeat split. exact W. }
  intros h r W. destruct (sim_step h r W) as (oh & o & h1 & r1 & E1 & E2 & W1 & O). rewrite (bind_val _ _ _ _ _ _ _ _ E1), (bind_val _ _ _ _ _ _ _ _ E2).
  destruct oh as [i|e| |], o as [img|e'| |]; cbn in O; try contradiction; try (subst; eexists _, _, _, _; split; [reflexivity|]; split; [reflexivity|]; split; [exact W1 | cbn; auto]; fail).
  rewrite !bind_own. cbn [fst]. change (v_ph (see h1)) with (v_ph (h_v h1)). unfold deref. destruct (v_ph (h_v h1)) as [ph|].
  2:{ exists Panic, Panic, h1, r1. repeat split. exact W1. }
  rewrite !bind_ret. change (v_fc (see h1)) with (v_fc (h_v h1)). destruct (ph_tr ph =? v_fc (h_v h1)).
  - rewrite !bind_upd. cbn [fst snd]. eexists _, _, _, _. split; [reflexivity|]. split; [reflexivity|]. split; [exact W1 | exact O].
  - apply IH. exact W1.
Qed.
Lemma tryget_load : forall tr m s, inside s m -> fs_tryget tr (load m s) = load_ptr m (hs_tryget tr s) /\ (hs_tryget tr s = None -> fs_tryget tr (load m s) = None).
Proof.
  intros tr m s I.
  assert (G : forall x, (forall i, hr_frame x = Some i -> (i < length m)%nat) -> ref_get tr (load_ref m x) = load_ptr m (href_get tr x) /\ (ref_get tr (load_ref m x) = None -> href_get tr x = None)).
  { intros x B. unfold ref_get, href_get, load_ref. cbn [rf_frame rf_prev rf_tr]. destruct (hr_frame x) as [i|]; cbn [load_ptr]; [|auto]. specialize (B i eq_refl).
    destruct (nth_error m i) eqn:E; [|apply nth_error_None in E; lia]. destruct (_ && _); cbn [load_ptr]; rewrite ?E; split; auto; discriminate. }
  destruct (G (hs_0 s)) as (G0 & N0); [intros i E; apply I; left; exact E|]. destruct (G (hs_1 s)) as (G1 & N1); [intros i E; apply I; right; left; exact E|].
  assert (Q : fs_tryget tr (load m s) = load_ptr m (hs_tryget tr s)).
  { unfold fs_tryget, hs_tryget. change (fs_0 (load m s)) with (load_ref m (hs_0 s)). change (fs_1 (load m s)) with (load_ref m (hs_1 s)).
    destruct (ref_get tr (load_ref m (hs_0 s))) as [f|] eqn:E.
    - destruct (href_get tr (hs_0 s)); [now rewrite <- G0 | discriminate G0].
    - rewrite (N0 eq_refl). exact G1. }
  split; [exact Q|]. intro E. rewrite Q, E. reflexivity.
Qed.
Lemma tryget_held : forall tr s i, hs_tryget tr s = Some i -> In (Some i) (pointers s).
Proof.
  intros tr s i E. unfold hs_tryget in E. assert (G : forall x, href_get tr x = Some i -> hr_frame x = Some i).
  { intros x X. unfold href_get in X. destruct (hr_frame x); [|discriminate]. destruct (_ && _); congruence. }
  destruct (href_get tr (hs_0 s)) eqn:E0; [left; injection E as ->; now apply G | right; left; now apply G].
Qed.
Theorem sim_next : sim points h_next next.
Proof.
  intros h r W. unfold h_next, next. rewrite !bind_own. cbn [fst]. change (v_fc (see h)) with (v_fc (h_v h)). change (v_fs (see h)) with (load (h_mem h) (h_fs h)).
  destruct (tryget_load (v_fc (h_v h)) (h_mem h) (h_fs h) W) as (T & TN). destruct (hs_tryget (v_fc (h_v h)) (h_fs h)) as [i|] eqn:E.
  - apply tryget_held in E. specialize (W i E) as B. cbn [load_ptr] in T. destruct (nth_error (h_mem h) i) as [img|] eqn:N; [|apply nth_error_None in N; lia].
    rewrite T. rewrite !bind_upd. cbn [fst snd]. eexists _, _, _, _. split; [reflexivity|]. split; [reflexivity|]. split; [exact W | exact N].
  - rewrite (TN eq_refl). cbn [snd]. apply sim_loop. exact W.
Qed.

(** * No frame is returned twice, and none is written again *)

(** A frame that could still be returned has not been returned. *)
Definition waiting (given : list nat) (fc : Z) (x : href) : Prop :=
  small (hr_tr x) /\ forall i, hr_frame x = Some i -> hr_prev x = false -> fc <= hr_tr x -> ~ In i given.
Definition ok_store (given : list nat) (s : hstore) (fc : Z) : Prop :=
  waiting given fc (hs_0 s) /\ waiting given fc (hs_1 s) /\ forall i, hr_frame (hs_0 s) = Some i -> hr_frame (hs_1 s) = Some i -> False.
Definition inv (given : list nat) (h : hseq) : Prop :=
  wf h /\ (forall i, In i given -> (i < length (h_mem h))%nat) /\ trs (h_v h) /\ ok_store given (h_fs h) (v_fc (h_v h)).

Lemma ok_gop : forall given s fc, ok_store given s fc -> ok_store given (hs_gop s) 0.
Proof.
  intros given s fc ((S0 & _) & (S1 & _) & D). unfold hs_gop. split; [|split]; cbn [hs_0 hs_1].
  - split; [exact S0|]. cbn. discriminate.
  - split; [exact S1|]. cbn. discriminate.
  - exact D.
Qed.
Lemma ok_set : forall given s fc tr, ok_store given s fc -> ok_store given (hs_set tr s) fc.
Proof. intros given s fc tr K. unfold ok_store. destruct (set_refs tr s) as (-> & ->). exact K. Qed.
Lemma ok_add : forall given s fc tr n, ok_store given s fc -> (forall i, In (Some i) (pointers s) -> (i < n)%nat) -> (forall i, In i given -> (i < n)%nat) -> small tr -> ok_store given (hs_add n tr s) fc.
Proof.
  intros given s fc tr n (_ & K1 & _) I G T. unfold hs_add. split; [|split]; cbn [hs_0 hs_1 hr_frame].
  - exact K1.
  - split; [exact T|]. cbn. intros i E _ _ J. injection E as <-. specialize (G _ J). lia.
  - intros i E E'. injection E' as <-. assert (X : (n < n)%nat) by (apply I; right; left; exact E). lia.
Qed.
Lemma ok_count : forall given s fc i, ok_store given s fc ->
  (hr_frame (hs_0 s) = Some i -> hr_prev (hs_0 s) = true \/ hr_tr (hs_0 s) <= fc) -> (hr_frame (hs_1 s) = Some i -> hr_prev (hs_1 s) = true \/ hr_tr (hs_1 s) <= fc) ->
  ok_store (i :: given) s (fc + 1).
Proof.
  intros given s fc i ((S0 & K0) & (S1 & K1) & D) C0 C1. split; [|split]; [| |exact D].
  - split; [exact S0|]. intros j E P L [<-|J]; [destruct (C0 E); [congruence | lia] | apply (K0 j E P); [lia | exact J] ].
  - split; [exact S1|]. intros j E P L [<-|J]; [destruct (C1 E); [congruence | lia] | apply (K1 j E P); [lia | exact J] ].
Qed.
Lemma see_ph : forall h, v_ph (see h) = v_ph (h_v h).
Proof. reflexivity. Qed.
Lemma step_wf : forall h r o h' r', wf h -> h_step (h, r) = (o, (h', r')) -> wf h'.
Proof. intros h r o h' r' W E. destruct (sim_step h r W) as (oh & o2 & h1 & r1 & E1 & _ & W1 & _). assert (h1 = h') as <- by congruence. exact W1. Qed.
Lemma step_trs : forall h r o h' r', wf h -> trs (h_v h) -> h_step (h, r) = (o, (h', r')) -> trs (h_v h').
Proof.
  intros h r o h' r' W T E. destruct (sim_step h r W) as (oh & o2 & h1 & r1 & E1 & E2 & _). assert (h1 = h') as -> by congruence.
  pose proof (holdt_step (see h, r) T) as K. rewrite E2 in K. exact K.
Qed.
Lemma gop_pointers : forall s i, In (Some i) (pointers (hs_gop s)) -> In (Some i) (pointers s).
Proof. intros s i I. exact I. Qed.
Lemma step_inv : forall given h r o h' r', inv given h -> h_step (h, r) = (o, (h', r')) ->
  inv given h' /\ (exists l, h_mem h' = h_mem h ++ l) /\
  forall i, o = Ok i -> ~ In i given /\ (i < length (h_mem h'))%nat /\ (forall ph, v_ph (h_v h') = Some ph -> ph_tr ph = v_fc (h_v h') -> inv (i :: given) (h_count h')).
Proof.
  intros given h r o h' r' (W & G & T & K) E. pose proof (shaped_step h r W) as SH. rewrite E in SH.
  pose proof (step_wf _ _ _ _ _ W E) as W'. pose proof (step_trs _ _ _ _ _ W T E) as T'.
  assert (X : exists fs1, ok_store given fs1 (v_fc (h_v h')) /\ (forall i, In (Some i) (pointers fs1) -> (i < length (h_mem h))%nat) /\ shape fs1 (v_fc (h_v h')) h o h').
  { destruct SH as [SH|SH]; pose proof (proj1 SH) as F; [exists (h_fs h) | exists (hs_gop (h_fs h))]; rewrite F; (split; [|split; [|exact SH] ]).
    - exact K.
    - exact W.
    - eapply ok_gop; exact K.
    - exact W. }
  clear SH K. destruct X as (fs1 & K & I & _ & SH). destruct o as [i|e| |].
  - destruct SH as (-> & (img & EM) & ph & EP & EF). pose proof (T' ph EP) as S.
    assert (I2 : forall i, In (Some i) (pointers (hs_set (ph_tr ph) fs1)) -> (i < length (h_mem h))%nat) by (intros j J; apply set_pointers in J; auto).
    assert (K2 : ok_store given (h_fs h') (v_fc (h_v h'))).
    { rewrite EF. destruct (_ || _); [apply ok_add; auto; now apply ok_set | now apply ok_set]. }
    assert (G2 : forall i, In i given -> (i < length (h_mem h'))%nat) by (intros j J; rewrite EM, app_length; specialize (G j J); lia).
    split; [split; [exact W'|]; split; [exact G2|]; split; assumption|]. split; [eauto|]. intros i E0. injection E0 as <-.
    split; [intro J; specialize (G _ J); lia|]. split; [rewrite EM, app_length; cbn; lia|]. intros ph' EP' TR. assert (ph' = ph) as -> by congruence.
    split; [exact W'|]. split; [intros j [<-|J]; [cbn [h_count h_mem]; rewrite EM, app_length; cbn; lia | exact (G2 j J)]|]. split; [exact T'|]. cbn [h_count h_v h_fs set_fc v_fc].
    rewrite <- TR at 1. rewrite u32_succ by exact S. rewrite TR. apply ok_count; [exact K2| |].
    + intro E0. exfalso. rewrite EF in E0. destruct (_ || _).
      * cbn [hs_add hs_0] in E0. assert (Y : (length (h_mem h) < length (h_mem h))%nat) by (apply I2; right; left; exact E0). lia.
      * assert (Y : (length (h_mem h) < length (h_mem h))%nat) by (apply I2; left; exact E0). lia.
    + intro E0. right. rewrite EF in *. destruct (_ || _).
      * cbn [hs_add hs_1 hr_tr]. lia.
      * exfalso. assert (Y : (length (h_mem h) < length (h_mem h))%nat) by (apply I2; right; left; exact E0). lia.
  - destruct SH as ((l & EM) & EF). split; [|split; [eauto | discriminate] ]. split; [exact W'|]. split; [intros j J; rewrite EM, app_length; specialize (G j J); lia|]. split; [exact T'|].
    destruct EF as [->|(tr & ->)]; [exact K | now apply ok_set].
  - destruct SH as ((l & EM) & EF). split; [|split; [eauto | discriminate] ]. split; [exact W'|]. split; [intros j J; rewrite EM, app_length; specialize (G j J); lia|]. split; [exact T'|].
    destruct EF as [->|(tr & ->)]; [exact K | now apply ok_set].
  - destruct SH as ((l & EM) & EF). split; [|split; [eauto | discriminate] ]. split; [exact W'|]. split; [intros j J; rewrite EM, app_length; specialize (G j J); lia|]. split; [exact T'|].
    destruct EF as [->|(tr & ->)]; [exact K | now apply ok_set].
Qed.
Definition given_after (o : res nat) (given : list nat) : list nat := match o with Ok i => i :: given | _ => given end.
Lemma loop_inv : forall n given h r o h' r', inv given h -> h_next_loop n (h, r) = (o, (h', r')) ->
  inv (given_after o given) h' /\ (exists l, h_mem h' = h_mem h ++ l) /\ forall i, o = Ok i -> ~ In i given.
Proof.
  induction n as [|n IH]; intros given h r o h' r' K E; cbn [h_next_loop] in E.
  { injection E as <- <- <-. split; [exact K|]. split; [exists []; now rewrite app_nil_r | discriminate]. }
  destruct (h_step (h, r)) as [o1 [h1 r1] ] eqn:E1. rewrite (bind_val _ _ _ _ _ _ _ _ E1) in E. destruct (step_inv _ _ _ _ _ _ K E1) as (K1 & (l1 & M1) & F1).
  destruct o1 as [i|e| |]; try (injection E as <- <- <-; split; [exact K1|]; split; [eauto | discriminate]; fail).
  rewrite bind_own in E. cbn [fst] in E. unfold deref in E. destruct (v_ph (h_v h1)) as [ph|] eqn:EP.
  2:{ injection E as <- <- <-. split; [exact K1|]. split; [eauto | discriminate]. }
  rewrite bind_ret in E. destruct (Z.eqb_spec (ph_tr ph) (v_fc (h_v h1))) as [Q|Q].
  - rewrite bind_upd in E. cbn [fst snd] in E. injection E as <- <- <-. destruct (F1 i eq_refl) as (N & B & K2). split; [exact (K2 ph eq_refl Q)|]. split; [exists l1; exact M1|]. intros j J. injection J as <-. exact N.
  - destruct (IH _ _ _ _ _ _ K1 E) as (K2 & (l2 & M2) & N2). split; [exact K2|]. split; [exists (l1 ++ l2); rewrite M2, M1; now rewrite app_assoc | exact N2].
Qed.
Lemma href_get_inv : forall tr x i, href_get tr x = Some i -> hr_frame x = Some i /\ hr_prev x = false /\ hr_tr x = tr.
Proof.
  intros tr x i E. unfold href_get in E. destruct (hr_frame x) as [j|]; [|discriminate]. destruct (hr_prev x); cbn [negb andb] in E; [discriminate|]. destruct (Z.eqb_spec (hr_tr x) tr); [|discriminate]. auto.
Qed.
Theorem next_inv : forall given h r o h' r', inv given h -> h_next (h, r) = (o, (h', r')) ->
  inv (given_after o given) h' /\ (exists l, h_mem h' = h_mem h ++ l) /\ forall i, o = Ok i -> ~ In i given.
Proof.
  intros given h r o h' r' K E. unfold h_next in E. rewrite bind_own in E. cbn [fst] in E. destruct (hs_tryget (v_fc (h_v h)) (h_fs h)) as [i|] eqn:T.
  2:{ cbn [snd] in E. eapply loop_inv; eauto. }
  rewrite bind_upd in E. cbn [fst snd] in E. injection E as <- <- <-. destruct K as (W & G & TR & K). pose proof (tryget_held _ _ _ T) as HD.
  assert (X : ~ In i given /\ small (v_fc (h_v h)) /\ ok_store (i :: given) (h_fs h) (v_fc (h_v h) + 1)).
  { pose proof K as ((S0 & K0) & (S1 & K1) & D). unfold hs_tryget in T. destruct (href_get (v_fc (h_v h)) (hs_0 (h_fs h))) as [j|] eqn:T0.
    - injection T as ->. apply href_get_inv in T0 as (A & B & C). split; [apply (K0 i A B); lia|]. split; [now rewrite <- C|]. apply ok_count; [exact K | intros _; right; lia | intro Q; destruct (D i A Q)].
    - apply href_get_inv in T as (A & B & C). split; [apply (K1 i A B); lia|]. split; [now rewrite <- C|]. apply ok_count; [exact K | intro Q; destruct (D i Q A) | intros _; right; lia]. }
  destruct X as (N & S & K'). split; [|split; [exists []; cbn [h_count h_mem]; now rewrite app_nil_r | intros j J; injection J as <-; exact N] ].
  split; [exact W|]. split; [intros j [<-|J]; [now apply W | now apply G]|]. split; [exact TR|]. cbn [h_count h_v h_fs set_fc v_fc]. now rewrite u32_succ.
Qed.
Lemma inv_new : inv [] h_new.
Proof.
  split; [intros i [J|[J|[J|[J|[] ] ] ] ]; discriminate J|]. split; [intros i []|]. split; [intros ph E; discriminate E|]. split; [|split]; [| |intros i E; discriminate E]; (split; [unfold small; cbn; lia | intros i E; discriminate E]).
Qed.

(** * Drawing on a frame that the decoder does not hold *)
Definition safe (i : nat) (h : hseq) : Prop := wf h /\ ~ held i h /\ (i < length (h_mem h))%nat.
Definition blind {A} (m : H A) : Prop := forall i img h r o h' r', safe i h -> m (h, r) = (o, (h', r')) -> m (draw i img h, r) = (o, (draw i img h', r')) /\ safe i h'.
Lemma see_draw : forall i img h, ~ held i h -> see (draw i img h) = see h.
Proof.
  intros i img h N. unfold see, draw. cbn [h_v h_fs h_mem]. f_equal. apply load_same. intros j J. apply put_other. intros ->. now apply N.
Qed.
Lemma blind_bind : forall A B (m : H A) (k : A -> H B), blind m -> (forall a, blind (k a)) -> blind (bind m k).
Proof.
  intros A B m k M K i img h r o h' r' S E. destruct (m (h, r)) as [o1 [h1 r1] ] eqn:E1. rewrite (bind_val _ _ _ _ _ _ _ _ E1) in E. destruct (M i img h r _ _ _ S E1) as (D1 & S1).
  rewrite (bind_val _ _ _ _ _ _ _ _ D1). destruct o1 as [a|e| |]; try (injection E as <- <- <-; auto). exact (K a i img h1 r1 _ _ _ S1 E).
Qed.
Lemma blind_onr : forall A (m : M reader A), blind (onr m).
Proof. intros A m i img h r o h' r' S E. unfold onr in *. cbn [fst snd] in *. destruct (m r) as [x r1]. injection E as <- <- <-. auto. Qed.
Lemma blind_onv : forall A (m : V A), blind (onv m).
Proof.
  intros A m i img h r o h' r' S E. unfold onv in *. cbn [fst snd] in *. rewrite see_draw by apply S. destruct (m (see h, r)) as [x [v r1] ]. injection E as <- <- <-. split; [reflexivity | exact S].
Qed.
Lemma blind_ret : forall A (a : A), blind (ret a).
Proof. intros A a i img h r o h' r' S E. injection E as <- <- <-. auto. Qed.
Lemma blind_fail : forall A e, blind (fail e : H A).
Proof. intros A e i img h r o h' r' S E. injection E as <- <- <-. auto. Qed.
Lemma blind_gop : forall g, blind (upd (h_start_gop g)).
Proof. intros g i img h r o h' r' S E. injection E as <- <- <-. split; [reflexivity | exact S]. Qed.
Lemma blind_tail : blind tail.
Proof.
  unfold tail. apply blind_bind; [apply blind_onv|]. intros _. apply blind_bind; [apply blind_onv|]. intros _. apply blind_bind; [apply blind_onv|]. intros _.
  intros i img h r o h' r' S E. rewrite bind_own in *. cbn [fst] in *. change (v_ph (h_v (draw i img h))) with (v_ph (h_v h)). unfold deref in *. destruct (v_ph (h_v h)) as [ph|].
  2:{ injection E as <- <- <-. split; [reflexivity | exact S]. }
  rewrite bind_ret, bind_upd in *. cbn [fst snd] in *. destruct h as [v fs m]. unfold h_set_fs at 1 in E. unfold h_set_fs at 1. destruct S as (W & N & L). unfold draw in *. cbn [h_v h_fs h_mem] in *.
  assert (I : inside (hs_set (ph_tr ph) fs) m) by (intros j J; apply set_pointers in J; exact (W j J)).
  assert (I' : inside (hs_set (ph_tr ph) fs) (put i img m)) by (intros j J; rewrite put_length; now apply I).
  assert (N2 : ~ In (Some i) (pointers (hs_set (ph_tr ph) fs))) by (intro J; apply set_pointers in J; now apply N).
  assert (SV : view v (hs_set (ph_tr ph) fs) (put i img m) = view v (hs_set (ph_tr ph) fs) m).
  { apply (see_draw i img (mkHSeq v (hs_set (ph_tr ph) fs) m)). exact N2. }
  destruct (picture_data (view v (hs_set (ph_tr ph) fs) m) r) as [x r1] eqn:EX. destruct (h_picture_data_see _ _ _ _ EX) as (l & HP & HL).
  pose proof (HP _ _ _ I eq_refl) as P1. pose proof (HP _ _ _ I' SV) as P2. rewrite put_length, <- put_app in P2 by exact L.
  rewrite (bind_val _ _ _ _ _ _ _ _ P1) in E. rewrite (bind_val _ _ _ _ _ _ _ _ P2). clear P1 P2 HP.
  assert (S2 : safe i (mkHSeq v (hs_set (ph_tr ph) fs) (m ++ l))).
  { split; [|split; [exact N2 | cbn [h_mem]; rewrite app_length; lia] ]. intros j J. specialize (I j J). cbn [h_mem]. rewrite app_length. lia. }
  destruct x as [y|e| |]; cbn [omap] in *; try (injection E as <- <- <-; split; [reflexivity | exact S2]).
  rewrite (HL y eq_refl) in *. destruct (_ || _).
  - unfold bind, upd, ret in *. cbn [fst snd] in *. injection E as <- <- <-. split; [reflexivity|]. destruct S2 as (W2 & _ & L2). split; [|split; [|exact L2] ].
    + intros j J. cbn [h_set_fs h_mem h_fs] in *. unfold held in J. cbn [h_set_fs h_fs hs_add pointers hs_0 hs_1 hs_past hs_future hr_frame In] in J. destruct J as [J|[J|[J|[J|[] ] ] ] ].
      * apply W2. right. left. exact J.
      * injection J as <-. rewrite app_length. cbn. lia.
      * apply W2. right. right. left. exact J.
      * apply W2. right. right. right. left. exact J.
    + intro J. unfold held in J. cbn [h_set_fs h_fs hs_add pointers hs_0 hs_1 hs_past hs_future hr_frame In] in J. destruct J as [J|[J|[J|[J|[] ] ] ] ].
      * apply N2. right. left. exact J.
      * injection J as J. lia.
      * apply N2. right. right. left. exact J.
      * apply N2. right. right. right. left. exact J.
  - unfold bind, ret in *. injection E as <- <- <-. split; [reflexivity | exact S2].
Qed.
Lemma blind_more : blind h_more_frames.
Proof.
  unfold h_more_frames. apply blind_bind; [apply blind_onr|]. intro nb. apply blind_bind; [|intros _; exact blind_tail].
  destruct (nb =? GroupStartCode); [|apply blind_ret]. apply blind_bind; [apply blind_onr|]. intro g. apply blind_bind; [apply blind_gop|]. intros _. apply blind_onv.
Qed.
Lemma blind_own : forall B (f : vidseq -> H B), (forall v, blind (f v)) -> blind (h <- own ;; f (h_v h)).
Proof. intros B f K i img h r o h' r' S E. rewrite bind_own in *. cbn [fst] in *. exact (K (h_v h) i img h r o h' r' S E). Qed.
Lemma blind_step : blind h_step.
Proof.
  unfold h_step, h_continue_frames. apply (blind_own _ (fun v => match v_sh v with None => _ | Some _ => _ end)). intro v. destruct (v_sh v).
  - apply blind_bind; [apply blind_onr|]. intro nb. destruct (_ || _); [apply blind_more|]. apply blind_bind; [apply blind_onr|]. intro nb2. destruct (_ =? _).
    + apply blind_bind; [apply blind_onr|]. intros _. apply blind_fail.
    + apply blind_bind; [apply blind_onv|]. intros _. apply blind_bind; [apply blind_onv|]. intros _. apply blind_bind; [apply blind_onv|]. intros _. apply blind_more.
  - apply blind_bind; [apply blind_onr|]. intros _. apply blind_bind; [apply blind_onv|]. intros _. apply blind_bind; [apply blind_onr|]. intro nb. destruct (negb _); [apply blind_fail|].
    apply blind_bind; [apply blind_onv|]. intros _. apply blind_bind; [apply blind_onv|]. intros _. apply blind_more.
Qed.
Lemma blind_count : forall (j : nat), blind (upd h_count ;; ret j).
Proof. intros j i img h r o h' r' S E. injection E as <- <- <-. split; [reflexivity | exact S]. Qed.
Lemma blind_deref : forall A (x : option A), blind (deref x : H A).
Proof. intros A x i img h r o h' r' S E. destruct x; injection E as <- <- <-; split; auto. Qed.
Lemma blind_loop : forall n, blind (h_next_loop n).
Proof.
  induction n as [|n IH]; cbn [h_next_loop].
  { intros i img h r o h' r' S E. injection E as <- <- <-. split; [reflexivity | exact S]. }
  apply blind_bind; [apply blind_step|]. intro j. apply (blind_own _ (fun v => ph <- deref (v_ph v) ;; if ph_tr ph =? v_fc v then upd h_count ;; ret j else h_next_loop n)).
  intro v. apply blind_bind; [apply blind_deref|]. intro ph. destruct (_ =? _); [apply blind_count | exact IH].
Qed.
Theorem blind_next : blind h_next.
Proof.
  intros i img h r o h' r' S E. unfold h_next in *. rewrite bind_own in *. cbn [fst] in *. change (h_v (draw i img h)) with (h_v h). change (h_fs (draw i img h)) with (h_fs h).
  destruct (hs_tryget (v_fc (h_v h)) (h_fs h)) as [j|].
  - exact (blind_count j i img h r o h' r' S E).
  - cbn [snd] in *. exact (blind_loop _ i img h r o h' r' S E).
Qed.
