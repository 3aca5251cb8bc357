(** LossProofs: pictures that lose slices (C118). *)
From Coq Require Import Lia.
From Verif Require Import Base SpecVid VidModel MbModel SpecMotion SpecNext SpecPicture SpecLoss VidProofs VidExt NextProofs SliceProofs.

(** * Two runs: the same but for what the references show *)

Definition kn (k k' : known) : Prop :=
  match k, k' with
  | Unknown, Unknown | Missing, Missing => True
  | Is c, Is c' => cv_w c = cv_w c' /\ cv_h c = cv_h c'
  | _, _ => False
  end.
Definition canvas_eq (c c' : canvas) : Prop :=
  cv_w c = cv_w c' /\ cv_h c = cv_h c' /\ (forall x y, cv_y c x y = cv_y c' x y) /\ (forall x y, cv_b c x y = cv_b c' x y) /\ (forall x y, cv_r c x y = cv_r c' x y).
Definition kneq (k k' : known) : Prop :=
  match k, k' with
  | Unknown, Unknown | Missing, Missing => True
  | Is c, Is c' => canvas_eq c c'
  | _, _ => False
  end.
Definition alike (P P' : params) : Prop :=
  pp_type P = pp_type P' /\ pp_pce P = pp_pce P' /\ pp_intra P = pp_intra P' /\ pp_non_intra P = pp_non_intra P' /\
  pp_w P = pp_w P' /\ pp_h P = pp_h P' /\ kn (pp_past P) (pp_past P') /\ kn (pp_future P) (pp_future P').

Lemma alike_start : forall P P' q, alike P P' -> ps_start P q = ps_start P' q.
Proof. intros P P' q (E1 & E2 & _). unfold ps_start. now rewrite E2. Qed.
Lemma alike_before : forall P P' s b, alike P P' -> ps_before P s b = ps_before P' s b.
Proof. intros P P' s b (E1 & E2 & _). unfold ps_before. now rewrite E1, E2. Qed.
Lemma alike_after : forall P P' s b, alike P P' -> ps_after P s b = ps_after P' s b.
Proof. intros P P' s b A. unfold ps_after. rewrite (alike_before P P' s b A). destruct A as (E1 & _). now rewrite E1. Qed.

Lemma alike_vec : forall P P' row col k k' v (d : bool), alike P P' -> kn k k' ->
  cvector_in P row col (if d then with_vector k v else None) -> cvector_in P' row col (if d then with_vector k' v else None).
Proof.
  intros P P' row col k k' v d (_ & _ & _ & _ & EW & EH & _) KN H. destruct d; [|exact H].
  destruct k as [| |c], k' as [| |c']; try contradiction; try exact H. destruct KN as [K1 K2]. cbn [with_vector cvector_in] in *. rewrite <- EW, <- EH, <- K1, <- K2. exact H.
Qed.
Lemma alike_past : forall P P' row col s, alike P P' -> cvector_in P row col (past_of P s) -> cvector_in P' row col (past_of P' s).
Proof. intros P P' row col s A H. unfold past_of in *. apply (alike_vec P P' row col (pp_past P)); auto. apply A. Qed.
Lemma alike_future : forall P P' row col s, alike P P' -> cvector_in P row col (future_of P s) -> cvector_in P' row col (future_of P' s).
Proof. intros P P' row col s A H. unfold future_of in *. apply (alike_vec P P' row col (pp_future P)); auto. apply A. Qed.
Lemma kn_known : forall k k', kn k k' -> k <> Unknown -> k' <> Unknown.
Proof. intros [| |c] [| |c'] H N; try contradiction; try discriminate; try congruence. Qed.
Lemma alike_available : forall P P' s, alike P P' -> available P s -> available P' s.
Proof.
  intros P P' s A [H1 H2]. destruct A as (_ & _ & _ & _ & _ & _ & KP & KF). split; intro D.
  - apply (kn_known (pp_past P)); auto.
  - apply (kn_known (pp_future P)); auto.
Qed.

Lemma alike_mb_ok : forall P P' row addr s b, alike P P' -> mb_ok P row addr s b -> mb_ok P' row addr s b.
Proof.
  intros P P' row addr s b A (M1 & M2 & M3 & M4 & M5 & M6 & M7 & M8 & M9). pose proof A as (E1 & E2 & E3 & E4 & EW & EH & KP & KF).
  unfold mb_ok. rewrite <- (alike_after P P' s b A), <- EW, <- EH, <- E2, <- E1.
  split; [exact M1|]. split; [exact M2|]. split; [unfold body_ok in *; rewrite <- E2; exact M3|]. split; [exact M4|]. split; [exact M5|].
  cbv zeta in *. split; [now apply (alike_available P)|]. split; [now apply (alike_past P)|]. split; [now apply (alike_future P)|].
  intros A0 I1. destruct (M9 A0 I1) as (N1 & N2 & N3). split; [exact N1|]. split.
  - intro T. destruct (N2 T) as (c & C1 & C2 & C3). rewrite C1 in KP. destruct (pp_past P') as [| |c'] eqn:EP; try contradiction. destruct KP as [K1 K2].
    exists c'. split; [reflexivity|]. split; congruence.
  - intros T col C. destruct (N3 T col C) as [V1 V2]. split; [now apply (alike_past P) | now apply (alike_future P)].
Qed.
Lemma alike_intra_code : forall P P' blocks p i c, alike P P' -> intra_code P p i blocks c -> intra_code P' p i blocks c.
Proof.
  intros P P' blocks. induction blocks as [|[dc rls] blocks IH]; intros p i c A H; [exact H|]. cbn [intra_code] in *. destruct H as (c1 & c2 & c3 & H1 & H2 & H3 & H4).
  exists c1, c2, c3. repeat (split; [assumption|]). split; [|now apply IH]. destruct A as (_ & E2 & _). now rewrite <- E2.
Qed.
Lemma alike_mb_code : forall P P' s b c, alike P P' -> mb_code P s b c -> mb_code P' s b c.
Proof.
  intros P P' s b c A (c1 & c2 & c3 & c4 & c5 & H1 & H2 & H3 & H4 & H5 & H6). pose proof A as (E1 & E2 & _).
  unfold mb_code. rewrite <- (alike_before P P' s b A), <- E1, <- E2. exists c1, c2, c3, c4, c5.
  repeat (split; [assumption|]). split; [|exact H6]. unfold body_code in *. destruct (b_body b); auto. now apply (alike_intra_code P).
Qed.
Lemma alike_mbs_code : forall P P' row mbs addr s c, alike P P' -> mbs_code P row addr s mbs c -> mbs_code P' row addr s mbs c.
Proof.
  intros P P' row mbs. induction mbs as [|b mbs IH]; intros addr s c A H; [exact H|]. cbn [mbs_code] in *. destruct H as (H1 & c1 & c2 & H2 & H3 & H4).
  split; [now apply (alike_mb_ok P)|]. exists c1, c2. split; [exact H2|]. split; [now apply (alike_mb_code P)|]. rewrite <- (alike_after P P' s b A). now apply IH.
Qed.
Lemma alike_slice : forall P P' l c, alike P P' -> slice_code P l c -> slice_code P' l c.
Proof.
  intros P P' l c A (H1 & H2 & H3 & H4 & H5 & c1 & H6 & H7). pose proof A as (_ & _ & _ & _ & _ & EH & _).
  unfold slice_code. rewrite <- EH, <- (alike_start P P' (sl_q l) A). repeat (split; [assumption|]). exists c1. split; [now apply (alike_mbs_code P) | exact H7].
Qed.

(** * Painting *)

(** Equal in row [r] *)
Definition row_eq (r : Z) (c c' : canvas) : Prop :=
  (forall x y, y / 16 = r -> cv_y c x y = cv_y c' x y) /\ (forall x y, y / 8 = r -> cv_b c x y = cv_b c' x y) /\ (forall x y, y / 8 = r -> cv_r c x y = cv_r c' x y).
Lemma row_eq_refl : forall r c, row_eq r c c.
Proof. repeat split; reflexivity. Qed.
Lemma row_eq_trans : forall r a b c, row_eq r a b -> row_eq r b c -> row_eq r a c.
Proof. intros r a b c (H1 & H2 & H3) (K1 & K2 & K3). split; [|split]; intros x y E; [rewrite H1|rewrite H2|rewrite H3]; auto. Qed.

Lemma paint_same : forall r c c' row col n ly lb lr ly' lb' lr', row_eq r c c' ->
  (forall x y, ly x y = ly' x y) -> (forall x y, lb x y = lb' x y) -> (forall x y, lr x y = lr' x y) ->
  row_eq r (paint c row col n ly lb lr) (paint c' row col n ly' lb' lr').
Proof.
  intros r c c' row col n ly lb lr ly' lb' lr' (H1 & H2 & H3) E1 E2 E3. split; [|split]; intros x y E; cbn [paint cv_y cv_b cv_r];
    destruct (in_mbs _ _ _ _ _ _); auto.
Qed.
Lemma in_mbs_row : forall size row col n x y, 0 < size -> in_mbs size row col n x y = true -> y / size = row.
Proof.
  intros size row col n x y S H. unfold in_mbs in H. apply andb_prop in H. destruct H as [H H2]. apply andb_prop in H. destruct H as [_ H1].
  symmetry. apply (Z.div_unique_pos y size row (y - size * row)); lia.
Qed.
Lemma paint_other : forall r c row col n ly lb lr, row <> r -> row_eq r (paint c row col n ly lb lr) c.
Proof.
  intros r c row col n ly lb lr N. split; [|split]; intros x y E; cbn [paint cv_y cv_b cv_r];
    destruct (in_mbs _ _ _ _ _ _) eqn:I; try reflexivity; apply in_mbs_row in I; try lia.
Qed.
Lemma skipped_other : forall P r row col n s c, row <> r -> row_eq r (paint_skipped P row col n s c) c.
Proof.
  intros P r row col n s c N. unfold paint_skipped. destruct (n <=? 0); [apply row_eq_refl|]. destruct (pp_type P =? 2).
  - destruct (pp_past P); try apply row_eq_refl. now apply paint_other.
  - cbv zeta. now apply paint_other.
Qed.
Lemma mbs_other : forall P r row mbs addr s c, row <> r -> row_eq r (mbs_paint P row addr s mbs c) c.
Proof.
  intros P r row mbs. induction mbs as [|b mbs IH]; intros addr s c N; [apply row_eq_refl|]. cbn [mbs_paint]. cbv zeta.
  eapply row_eq_trans; [apply IH; exact N|]. unfold paint_mb. cbv zeta. eapply row_eq_trans; [apply paint_other; exact N|].
  destruct (addr =? -1); [apply row_eq_refl | now apply skipped_other].
Qed.

Definition same_refs (P P' : params) : Prop := alike P P' /\ kneq (pp_past P) (pp_past P') /\ kneq (pp_future P) (pp_future P').
Lemma csample_eq : forall c c' i x y, canvas_eq c c' -> csample c i x y = csample c' i x y.
Proof. intros c c' i x y (_ & _ & H1 & H2 & H3). unfold csample. destruct (i <? 4); [apply H1|]. destruct (i =? 4); auto. Qed.
Lemma cpredict1_eq : forall c c' i v x y, canvas_eq c c' -> cpredict1 c i v x y = cpredict1 c' i v x y.
Proof. intros c c' i v x y E. unfold cpredict1, half_sample. cbv zeta. now rewrite !(csample_eq c c' i _ _ E). Qed.
Lemma cpredict_eq : forall k1 k1' k2 k2' v1 v2 (d1 d2 : bool) i x y, kneq k1 k1' -> kneq k2 k2' ->
  cpredict (if d1 then with_vector k1 v1 else None) (if d2 then with_vector k2 v2 else None) i x y =
  cpredict (if d1 then with_vector k1' v1 else None) (if d2 then with_vector k2' v2 else None) i x y.
Proof.
  intros k1 k1' k2 k2' v1 v2 d1 d2 i x y H1 H2. destruct d1, d2, k1 as [| |c1], k1' as [| |c1'], k2 as [| |c2], k2' as [| |c2']; try contradiction; cbn [with_vector cpredict];
    rewrite ?(cpredict1_eq c1 c1' i _ _ _ H1), ?(cpredict1_eq c2 c2' i _ _ _ H2); reflexivity.
Qed.
Lemma predict_eq : forall P P' s i x y, same_refs P P' -> cpredict (past_of P s) (future_of P s) i x y = cpredict (past_of P' s) (future_of P' s) i x y.
Proof. intros P P' s i x y (_ & H1 & H2). unfold past_of, future_of. now apply cpredict_eq. Qed.
Lemma residuals_eq : forall P P' q b, alike P P' -> residuals P q b = residuals P' q b.
Proof.
  intros P P' q b (_ & E2 & E3 & E4 & _). unfold residuals, residual, iso_coefficients. rewrite E2, E3, E4. reflexivity.
Qed.
Lemma skipped_same : forall P P' r row col n s c c', same_refs P P' -> row_eq r c c' -> row_eq r (paint_skipped P row col n s c) (paint_skipped P' row col n s c').
Proof.
  intros P P' r row col n s c c' R E. pose proof R as ((E1 & _) & K1 & _). unfold paint_skipped. rewrite <- E1. destruct (n <=? 0); [exact E|]. destruct (pp_type P =? 2).
  - destruct (pp_past P) as [| |d], (pp_past P') as [| |d']; try contradiction; auto. destruct K1 as (_ & _ & H1 & H2 & H3). now apply paint_same.
  - cbv zeta. apply paint_same; auto; intros x y; now apply predict_eq.
Qed.
Lemma mbs_same : forall P P' r row mbs addr s c c', same_refs P P' -> row_eq r c c' -> row_eq r (mbs_paint P row addr s mbs c) (mbs_paint P' row addr s mbs c').
Proof.
  intros P P' r row mbs. induction mbs as [|b mbs IH]; intros addr s c c' R E; [exact E|]. cbn [mbs_paint]. cbv zeta. pose proof R as (A & _).
  rewrite <- (alike_after P P' s b A). apply IH; [exact R|]. unfold paint_mb. cbv zeta. rewrite <- (residuals_eq P P' _ _ A).
  apply paint_same; [|intros x y; f_equal; f_equal; now apply predict_eq..].
  destruct (addr =? -1); [exact E | now apply skipped_same].
Qed.

(** * Slices *)

Definition paints (P : params) (ls : list sslice) (c : canvas) : canvas := fold_left (fun c l => slice_paint P l c) ls c.
(** The slices that arrive, as slices *)
Fixpoint keep (ls : list sslice) (K : cuts) : list sslice :=
  match ls, K with
  | l :: ls, (true, _) :: K => l :: keep ls K
  | _ :: ls, (false, _) :: K => keep ls K
  | _, _ => []
  end.
Lemma slice_row : forall P l c, slice_code P l c -> of_row (sl_row l) c.
Proof. intros P l c (_ & _ & _ & _ & _ & c1 & _ & ->). unfold stuffed. eexists. rewrite <- !app_assoc. reflexivity. Qed.

Lemma keep_rows : forall P P' r K ls c c', same_refs P P' -> Forall2 (slice_code P) ls (map snd K) -> ~ lost K r -> row_eq r c c' ->
  row_eq r (paints P ls c) (paints P' (keep ls K) c').
Proof.
  intros P P' r. induction K as [|[b k] K IH]; intros ls c c' R F N E; inversion F as [|l k' ls' K' H1 H2]; subst; [exact E|].
  assert (N' : ~ lost K r) by (intros (x & I1 & I2); apply N; exists x; split; [now right | exact I2]).
  cbn [keep]. destruct b.
  - apply (IH ls' _ _ R H2 N'). unfold slice_paint. destruct R as (A & R). rewrite <- (alike_start P P' _ A). now apply mbs_same.
  - apply (IH ls' _ _ R H2 N'). eapply row_eq_trans; [|exact E]. unfold slice_paint. apply mbs_other.
    intro X. apply N. exists k. split; [now left|]. rewrite <- X. exact (slice_row _ _ _ H1).
Qed.
Lemma keep_gone : forall P P' r K ls c, Forall2 (slice_code P) ls (map snd K) -> gone K r -> row_eq r (paints P' (keep ls K) c) c.
Proof.
  intros P P' r. induction K as [|[b k] K IH]; intros ls c F N; inversion F as [|l k' ls' K' H1 H2]; subst; [apply row_eq_refl|].
  assert (N' : gone K r) by (intros x X; apply N; now right).
  cbn [keep]. destruct b.
  - eapply row_eq_trans; [apply (IH ls' _ H2 N')|]. unfold slice_paint. apply mbs_other. intro X. apply (N k); [now left|]. rewrite <- X. exact (slice_row _ _ _ H1).
  - apply (IH ls' _ H2 N').
Qed.
Lemma paints_size : forall P ls c, cv_w (paints P ls c) = cv_w c /\ cv_h (paints P ls c) = cv_h c.
Proof.
  intros P ls. induction ls as [|l ls IH]; intro c; [auto|]. change (paints P (l :: ls) c) with (paints P ls (slice_paint P l c)).
  destruct (IH (slice_paint P l c)) as [-> ->]. unfold slice_paint. generalize (-1), (ps_start P (sl_q l)). revert c. induction (sl_mbs l) as [|b mbs IH2]; intros c a s; [auto|].
  cbn [mbs_paint]. cbv zeta. destruct (IH2 (paint_mb P (sl_row l) (a + b_incr b) (ps_after P s b) b (if a =? -1 then c else paint_skipped P (sl_row l) (a + 1) (b_incr b - 1) s c)) (a + b_incr b) (ps_after P s b)) as [-> ->].
  unfold paint_mb. cbv zeta. cbn [paint cv_w cv_h]. destruct (a =? -1); [auto|]. unfold paint_skipped. destruct (_ <=? 0); [auto|]. destruct (pp_type P =? 2); [destruct (pp_past P); auto | auto].
Qed.

Lemma keep_codes : forall P ls K, Forall2 (slice_code P) ls (map snd K) -> Forall2 (slice_code P) (keep ls K) (map snd (filter fst K)).
Proof.
  intros P ls K. revert ls. induction K as [|[b k] K IH]; intros ls F; inversion F as [|l k' ls' K' H1 H2]; subst; [constructor|].
  cbn [keep filter fst]. destruct b; [cbn [map snd]; constructor; auto | auto].
Qed.
Lemma keep_some : forall P ls K, Forall2 (slice_code P) ls (map snd K) -> Exists (fun x => fst x = true) K -> keep ls K <> [].
Proof.
  intros P ls K. revert ls. induction K as [|[b k] K IH]; intros ls F E; inversion F as [|l k' ls' K' H1 H2]; subst; [inversion E|].
  cbn [keep]. destruct b; [discriminate|]. inversion E as [? ? X|? ? X]; subst; [discriminate X | now apply IH].
Qed.
Lemma slices_of : forall P ls cs, Forall2 (slice_code P) ls cs -> ls <> [] -> slices_code P ls (concat cs).
Proof.
  intros P ls cs F. induction F as [|l c ls cs H1 H2 IH]; intro N; [now destruct N|]. cbn [concat]. destruct H2 as [|l2 c2 ls cs H3 H4].
  - cbn [concat]. rewrite app_nil_r. now constructor.
  - constructor; [exact H1|]. apply IH. discriminate.
Qed.
Lemma slice_shape : forall P l c, slice_code P l c -> exists t, c = code (sl_row l + 1) ++ t /\ 1 <= sl_row l + 1 <= 175 /\ (length t mod 8 = 0)%nat.
Proof.
  intros P l c H. pose proof H as (R & _ & _ & _ & _ & c1 & _ & E). destruct (slice_row P l c H) as [t ->]. exists t. split; [reflexivity|]. split; [lia|].
  assert (M : (length (code (sl_row l + 1) ++ t) mod 8 = 0)%nat) by (rewrite E; unfold stuffed; now apply stuffed_mod8).
  rewrite app_length in M. change (length (code (sl_row l + 1))) with 32%nat in M. rewrite Nat.add_mod in M by lia. change (32 mod 8)%nat with 0%nat in M. rewrite Nat.add_0_l, Nat.mod_mod in M by lia. exact M.
Qed.
Lemma slices_shape : forall P ls cs, Forall2 (slice_code P) ls cs -> ls <> [] -> exists b t, concat cs = code b ++ t /\ 1 <= b <= 175 /\ (length t mod 8 = 0)%nat.
Proof.
  intros P ls cs F N. destruct F as [|l c ls cs H1 H2]; [now destruct N|]. destruct (slice_shape P l c H1) as (t & -> & R & M).
  exists (sl_row l + 1), (t ++ concat cs). cbn [concat]. rewrite <- app_assoc. split; [reflexivity|]. split; [exact R|]. apply app_mod8; [exact M|].
  clear - H2. induction H2 as [|l c ls cs H1 H2 IH]; [reflexivity|]. cbn [concat]. apply app_mod8; [|exact IH].
  destruct (slice_shape P l c H1) as (t & -> & _ & M). apply app_mod8; [reflexivity | exact M].
Qed.

(** * Pictures *)

(** References of the two runs, that may differ in the rows [d] *)
Definition rel (d : Z -> Prop) (k k' : known) : Prop :=
  match k, k' with
  | Unknown, Unknown | Missing, Missing => True
  | Is c, Is c' => cv_w c = cv_w c' /\ cv_h c = cv_h c' /\ forall r, ~ d r -> row_eq r c c'
  | _, _ => False
  end.
Lemma rel_kn : forall d k k', rel d k k' -> kn k k'.
Proof. intros d [| |c] [| |c'] H; try contradiction; try exact Logic.I. destruct H as (H1 & H2 & _). split; auto. Qed.
Lemma rel_kneq : forall d k k', rel d k k' -> ~ (exists r, d r) -> kneq k k'.
Proof.
  intros d [| |c] [| |c'] H N; try contradiction; try exact Logic.I. destruct H as (H1 & H2 & H3). split; [exact H1|]. split; [exact H2|].
  assert (E : forall r, row_eq r c c') by (intro r; apply H3; intro X; apply N; now exists r).
  split; [|split]; intros x y; [apply (E (y / 16)) | apply (E (y / 8)) | apply (E (y / 8))]; reflexivity.
Qed.

(** The picture with the frame that what arrives stands for *)
Definition shows (p' : spicture) (h : hurt) : Prop :=
  enc_picture p' = enc_picture (thin (hu_pic h, hu_cuts h)) /\ pi_hdr p' = pi_hdr (hu_pic h) /\
  cv_w (pi_frame (hu_pic h)) = cv_w (pi_frame p') /\ cv_h (pi_frame (hu_pic h)) = cv_h (pi_frame p') /\
  (forall r, ~ hu_rows h r -> row_eq r (pi_frame (hu_pic h)) (pi_frame p')) /\
  (forall r, gone (hu_cuts h) r -> (forall x y, y / 16 = r -> cv_y (pi_frame p') x y = 0) /\
     (forall x y, y / 8 = r -> cv_b (pi_frame p') x y = 0 /\ cv_r (pi_frame p') x y = 0)).

Lemma params_alike : forall c o l o' l' p p', kn o o' -> kn l l' -> pi_hdr p' = pi_hdr p -> pi_pce p' = pi_pce p -> alike (params_of c o l p) (params_of c o' l' p').
Proof.
  intros c o l o' l' p p' KO KL E1 E2. unfold alike, params_of. rewrite E1, E2. cbn [pp_type pp_pce pp_intra pp_non_intra pp_w pp_h pp_past pp_future].
  repeat (split; [reflexivity|]). destruct (p_type (pi_hdr p) =? 2), (p_type (pi_hdr p) =? 3); split; auto; exact Logic.I.
Qed.
Lemma params_same : forall c o l o' l' p p' (T2 : p_type (pi_hdr p) = 2 -> kneq l l') (T3 : p_type (pi_hdr p) = 3 -> kneq o o' /\ kneq l l'),
  kn o o' -> kn l l' -> pi_hdr p' = pi_hdr p -> pi_pce p' = pi_pce p -> same_refs (params_of c o l p) (params_of c o' l' p').
Proof.
  intros c o l o' l' p p' T2 T3 KO KL E1 E2. split; [now apply params_alike|]. unfold params_of. rewrite E1. cbn [pp_past pp_future].
  destruct (p_type (pi_hdr p) =? 2) eqn:B2, (p_type (pi_hdr p) =? 3) eqn:B3; try lia.
  - split; [apply T2; lia | exact Logic.I].
  - apply T3. lia.
  - split; exact Logic.I.
Qed.

Lemma picture_lose : forall c o l o' l' od ld p K, picture_cut c o l p K -> wf_picture p -> rel od o o' -> rel ld l l' ->
  exists p', pi_items p' = pi_items p /\ wf_picture p' /\ picture_coded c o' l' p' /\ shows p' (mkHurt p K (damage od ld p K)).
Proof.
  intros c o l o' l' od ld p K ((WS & WX & CH & V28 & PW & PH & PO & _) & (ls & F & FR) & _ & EX) (W1 & W2 & W3 & W4 & W5 & _) RO RL.
  pose proof (rel_kn _ _ _ RO) as KO. pose proof (rel_kn _ _ _ RL) as KL.
  set (P := params_of c o l p) in *.
  set (q := mkPicture (pi_hdr p) (pi_k1 p) (pi_pce p) (pi_k2 p) (pi_items p) (arrived K) (picture_paint (params_of c o' l' p) (keep ls K))).
  set (P' := params_of c o' l' p) in *.
  assert (A : alike P P') by (now apply params_alike).
  assert (F' : Forall2 (slice_code P') (keep ls K) (map snd (filter fst K))).
  { apply keep_codes. clear - F A. induction F as [|x y a b H1 H2 IH]; constructor; auto. now apply (alike_slice P). }
  pose proof (keep_some P ls K F EX) as NE.
  exists q. split; [reflexivity|]. split; [|split].
  - unfold wf_picture. cbn [q pi_hdr pi_pce pi_items pi_data]. repeat (split; [assumption|]). exact (slices_shape P' _ _ F' NE).
  - unfold picture_coded. change (params_of c o' l' q) with P'. cbv zeta. repeat (split; [assumption|]).
    exists (keep ls K). split; [exact (slices_of P' _ _ F' NE) | reflexivity].
  - unfold shows. cbn [hu_pic hu_cuts hu_rows q pi_hdr pi_frame]. split; [reflexivity|]. split; [reflexivity|].
    rewrite FR. change (picture_paint P ls) with (paints P ls (blank P)). change (picture_paint P' (keep ls K)) with (paints P' (keep ls K) (blank P')).
    destruct (paints_size P ls (blank P)) as [-> ->]. destruct (paints_size P' (keep ls K) (blank P')) as [-> ->]. cbn [blank cv_w cv_h].
    split; [apply A|]. split; [apply A|]. split.
    + intros r N. apply keep_rows; auto.
      * apply params_same; auto; intro T; unfold damage in N.
        -- apply (rel_kneq ld); auto; intros [r' X]; apply N; right; left; split; eauto.
        -- split; [apply (rel_kneq od) | apply (rel_kneq ld)]; auto; intros [r' X]; apply N; right; right; split; eauto.
      * intro L. apply N. now left.
      * apply row_eq_refl.
    + intros r G. destruct (keep_gone P P' r K ls (blank P') F G) as (H1 & H2 & H3). split; [exact H1|]. intros x y E. split; [now apply H2 | now apply H3].
Qed.

Lemma is_ref_hdr : forall p p', pi_hdr p' = pi_hdr p -> is_ref p' = is_ref p.
Proof. intros p p' E. unfold is_ref. now rewrite E. Qed.
Lemma shows_rel : forall p' p K d, shows p' (mkHurt p K d) -> rel d (Is (pi_frame p)) (Is (pi_frame p')).
Proof. intros p' p K d (_ & _ & H1 & H2 & H3 & _). split; [exact H1|]. split; [exact H2 | exact H3]. Qed.

Lemma pictures_lose : forall ps c o l o' l' od ld, pictures_cut c o l ps -> Forall wf_picture (map fst ps) -> rel od o o' -> rel ld l l' ->
  exists ps', Forall2 shows ps' (hurt_pictures od ld ps) /\ Forall wf_picture ps' /\ pictures_all picture_coded c o' l' ps' /\
    let '(c1, o1, l1) := after_pictures c o l (map fst ps) in let '(c2, o2, l2) := after_pictures c o' l' ps' in
    let '(o3, l3) := after_hurt od ld ps in c2 = c1 /\ rel o3 o1 o2 /\ rel l3 l1 l2.
Proof.
  induction ps as [|[p K] ps IH]; intros c o l o' l' od ld H W RO RL.
  - exists []. split; [constructor|]. split; [constructor|]. split; [exact Logic.I|]. cbn. auto.
  - cbn [pictures_cut] in H. cbv zeta in H. destruct H as [H1 H2]. cbn [map fst] in W. apply Forall_cons_iff in W. destruct W as [W1 W2].
    destruct (picture_lose _ o l o' l' od ld p K H1 W1 RO RL) as (p' & EI & W' & C' & S').
    pose proof (shows_rel p' p K _ S') as RP. pose proof S' as (_ & EH & _). cbn [hu_pic] in EH. pose proof (is_ref_hdr p p' EH) as ER.
    assert (RO' : rel (if is_ref p then ld else od) (older o l p) (older o' l' p')) by (unfold older; rewrite ER; destruct (is_ref p); auto).
    assert (RL' : rel (if is_ref p then damage od ld p K else ld) (latest l p) (latest l' p')) by (unfold latest; rewrite ER; destruct (is_ref p); auto).
    destruct (IH _ _ _ _ _ _ _ H2 W2 RO' RL') as (ps' & S2 & Wps & C2 & AF).
    exists (p' :: ps'). cbn [hurt_pictures]. cbv zeta. split; [constructor; auto|]. split; [constructor; auto|]. cbn [pictures_all map fst after_pictures after_hurt]. cbv zeta. rewrite EI. split; [split; auto|]. exact AF.
Qed.

Lemma reorder_shows : forall ps hs held held', Forall2 shows ps hs ->
  match held, held' with None, None => True | Some p, Some h => shows p h | _, _ => False end ->
  Forall2 shows (reorder held ps) (reorder_hurt held' hs).
Proof.
  intros ps hs held held' F. revert held held'. induction F as [|p h ps hs H1 H2 IH]; intros held held' HH.
  - destruct held, held'; try contradiction; cbn; auto.
  - cbn [reorder reorder_hurt]. pose proof H1 as (_ & EH & _). rewrite (is_ref_hdr _ _ EH). destruct (is_ref (hu_pic h)).
    + apply Forall2_app; [destruct held, held'; try contradiction; auto|]. apply IH. exact H1.
    + constructor; [exact H1|]. now apply IH.
Qed.
Lemma reorder_pics : forall hs held, map hu_pic (reorder_hurt held hs) = reorder (option_map hu_pic held) (map hu_pic hs).
Proof.
  induction hs as [|h hs IH]; intro held; [destruct held; reflexivity|]. cbn [map reorder reorder_hurt]. destruct (is_ref (hu_pic h)).
  - rewrite map_app, IH. destruct held; reflexivity.
  - cbn [map]. now rewrite IH.
Qed.
Lemma hurt_pics : forall ps o l, map hu_pic (hurt_pictures o l ps) = map fst ps.
Proof. induction ps as [|[p K] ps IH]; intros o l; [reflexivity|]. cbn [hurt_pictures map fst]. cbv zeta. cbn [map hu_pic]. now rewrite IH. Qed.
Lemma hurt_thin : forall ps o l, map (fun h => thin (hu_pic h, hu_cuts h)) (hurt_pictures o l ps) = map thin ps.
Proof. induction ps as [|[p K] ps IH]; intros o l; [reflexivity|]. cbn [hurt_pictures map]. cbv zeta. cbn [map hu_pic hu_cuts]. now rewrite IH. Qed.
Lemma shows_tref : forall ps hs, Forall2 shows ps hs -> map tref ps = map tref (map hu_pic hs).
Proof. intros ps hs F. induction F as [|p h ps hs H1 H2 IH]; [reflexivity|]. cbn [map]. rewrite IH. destruct H1 as (_ & EH & _). unfold tref at 1 3. now rewrite EH. Qed.
Lemma shows_enc : forall ps hs, Forall2 shows ps hs -> flat_map enc_picture ps = flat_map enc_picture (map (fun h => thin (hu_pic h, hu_cuts h)) hs).
Proof. intros ps hs F. induction F as [|p h ps hs (H1 & _) H2 IH]; [reflexivity|]. cbn [flat_map map]. now rewrite H1, IH. Qed.
Lemma pairs_fst : forall g : lgroup, length (snd g) = length (gr_pics (fst g)) -> map fst (pairs g) = gr_pics (fst g).
Proof.
  intros [g Ks] E. unfold pairs. cbn [fst snd] in *. revert Ks E. induction (gr_pics g) as [|p ps IH]; intros [|K Ks] E; try discriminate E; [reflexivity|].
  cbn [combine map fst]. rewrite IH; auto.
Qed.

Lemma groups_lose : forall gs c o l o' l' od ld, Forall wf_group (map fst gs) -> Forall valid_group (map fst gs) -> groups_cut c o l gs -> rel od o o' -> rel ld l l' ->
  exists gs', Forall2 (fun a b => enc_group a = enc_group (thin_group b)) gs' gs /\ Forall wf_group gs' /\ Forall valid_group gs' /\ groups_all picture_coded c o' l' gs' /\
    Forall2 shows (flat_map (fun g => display (gr_pics g)) gs') (hurt_shown od ld gs).
Proof.
  induction gs as [|g gs IH]; intros c o l o' l' od ld W V H RO RL.
  - exists []. repeat (split; [constructor|]). constructor.
  - cbn [map] in W, V. apply Forall_cons_iff in W. destruct W as [W1 W2]. apply Forall_cons_iff in V. destruct V as [V1 V2].
    cbn [groups_cut] in H. destruct (match gr_start (fst g) with Some s => Some (ctx_start s) | None => c end) as [c'|] eqn:EC; [|contradiction].
    destruct H as (HL & H1 & H2). pose proof (pairs_fst g HL) as EP. destruct W1 as (WS & WG & WI & WJ & WP). rewrite <- EP in WP.
    destruct (pictures_lose (pairs g) c' o l o' l' od ld H1 WP RO RL) as (ps' & S' & W' & C' & AF). rewrite EP in AF.
    destruct (after_pictures c' o l (gr_pics (fst g))) as [[c1 o1] l1] eqn:E1. destruct (after_pictures c' o' l' ps') as [[c2 o2] l2] eqn:E2.
    destruct (after_hurt od ld (pairs g)) as [o3 l3] eqn:E3. destruct AF as (-> & RO' & RL').
    destruct (IH (Some c1) o1 l1 o2 l2 o3 l3 W2 V2 H2 RO' RL') as (gs' & G1 & G2 & G3 & G4 & G5).
    set (g' := mkGroup (gr_start (fst g)) (gr_hdr (fst g)) (gr_k (fst g)) (gr_items (fst g)) ps').
    exists (g' :: gs').
    assert (SD : Forall2 shows (display ps') (reorder_hurt None (hurt_pictures od ld (pairs g)))) by (apply reorder_shows; auto).
    split; [constructor; [|exact G1]|split; [|split; [|split] ] ].
    + unfold enc_group, thin_group, g'. cbn [gr_start gr_hdr gr_k gr_items gr_pics]. do 3 f_equal. rewrite (shows_enc _ _ S'), hurt_thin. reflexivity.
    + constructor; [|exact G2]. unfold wf_group, g'. cbn [gr_start gr_hdr gr_k gr_items gr_pics]. auto.
    + constructor; [|exact G3]. unfold valid_group, g'. cbn [gr_pics]. destruct V1 as (VT & p & ps & VP & VI). split.
      * rewrite (shows_tref _ _ SD), reorder_pics, hurt_pics, EP. cbn [option_map]. fold (display (gr_pics (fst g))). rewrite VT. f_equal.
        rewrite <- EP, <- (hurt_pics (pairs g) od ld), map_length. clear - S'. induction S'; cbn; auto.
      * pose proof S' as SX. destruct (pairs g) as [|[p0 K0] rest]; [rewrite <- EP in VP; discriminate VP|]. cbn [map fst] in EP. rewrite VP in EP. injection EP as -> _.
        cbn [hurt_pictures] in SX. cbv zeta in SX. inversion SX as [|a b x y S1 S2]; subst. exists a, x. split; [reflexivity|]. destruct S1 as (_ & -> & _). exact VI.
    + cbn [groups_all]. change (gr_start g') with (gr_start (fst g)). rewrite EC. change (gr_pics g') with ps'. rewrite E2. split; auto.
    + cbn [flat_map hurt_shown]. rewrite E3. change (gr_pics g') with ps'. apply Forall2_app; assumption.
Qed.

Lemma enc_groups : forall gs' gs, Forall2 (fun a b => enc_group a = enc_group (thin_group b)) gs' gs -> flat_map enc_group gs' = flat_map enc_group (map thin_group gs).
Proof. intros gs' gs F. induction F as [|a b gs' gs H1 H2 IH]; [reflexivity|]. cbn [flat_map map]. now rewrite H1, IH. Qed.

Lemma looks_shows : forall f p h, looks f (pi_frame p) -> shows p h -> looks_but f h.
Proof.
  intros f p h (L1 & L2 & L3 & L4 & L5 & L6) (_ & _ & E1 & E2 & RW & GN). unfold looks_but. cbv zeta. rewrite E1, E2. split; [exact L1|]. split; [exact L2|]. split; [exact L3|]. split.
  - intros x y X Y. destruct (L4 x y X Y) as [-> _]. split.
    + intro N. symmetry. now apply (RW (y / 16) N).
    + intro G. now apply (GN (y / 16) G).
  - intros x y X Y. destruct (L5 x y X Y) as [-> _]. destruct (L6 x y X Y) as [-> _]. split.
    + intro N. destruct (RW (y / 8) N) as (_ & R2 & R3). split; symmetry; auto.
    + intro G. now apply (GN (y / 8) G).
Qed.
Lemma looks_shows_all : forall fs ps hs, Forall2 looks fs (map pi_frame ps) -> Forall2 shows ps hs -> Forall2 looks_but fs hs.
Proof.
  intros fs ps hs F S. revert fs F. induction S as [|p h ps hs H1 H2 IH]; intros fs F; inversion F; subst; constructor; auto. now apply (looks_shows _ p).
Qed.
Lemma shown_length : forall gs od ld c o l, groups_cut c o l gs -> length (hurt_shown od ld gs) = length (shown (map fst gs)).
Proof.
  induction gs as [|g gs IH]; intros od ld c o l H; [reflexivity|]. cbn [groups_cut] in H.
  destruct (match gr_start (fst g) with Some s => Some (ctx_start s) | None => c end) as [c'|]; [|contradiction]. destruct H as (HL & _ & H2).
  unfold shown. cbn [hurt_shown map flat_map]. destruct (after_hurt od ld (pairs g)) as [o3 l3]. destruct (after_pictures c' o l (gr_pics (fst g))) as [[c1 o1] l1].
  rewrite map_app, !app_length, (IH _ _ _ _ _ H2). f_equal. rewrite map_length. rewrite <- (map_length hu_pic), reorder_pics, hurt_pics, (pairs_fst g HL). reflexivity.
Qed.

(** * Groups that lost nothing *)

Definition none (d : Z -> Prop) : Prop := forall r, ~ d r.
Lemma none_lost : forall K, Forall (fun x : bool * list bool => fst x = true) K -> none (lost K).
Proof. intros K F r (c & I1 & _). rewrite Forall_forall in F. now apply F in I1. Qed.
Lemma none_damage : forall od ld p K, Forall (fun x : bool * list bool => fst x = true) K -> none od -> none ld -> none (damage od ld p K).
Proof.
  intros od ld p K F NO NL r [X|[(_ & r' & X)|(_ & r' & [X|X])] ]; [now apply (none_lost K F r)|now apply (NL r')|now apply (NO r')|now apply (NL r')].
Qed.
Definition wholes (ps : list (spicture * cuts)) : Prop := Forall (fun pk => Forall (fun x : bool * list bool => fst x = true) (snd pk)) ps.
Lemma wholes_pairs : forall g, whole_group g -> wholes (pairs g).
Proof.
  intros [g Ks] W. unfold pairs, whole_group, wholes in *. cbn [fst snd] in *. revert Ks W. induction (gr_pics g) as [|p ps IH]; intros [|K Ks] W; try constructor.
  - now inversion W.
  - apply IH. now inversion W.
Qed.
Lemma none_pictures : forall ps od ld, wholes ps -> none od -> none ld ->
  Forall (fun h => none (hu_rows h)) (hurt_pictures od ld ps) /\ none (fst (after_hurt od ld ps)) /\ none (snd (after_hurt od ld ps)).
Proof.
  induction ps as [|[p K] ps IH]; intros od ld W NO NL; [split; [constructor | split; assumption]|]. apply Forall_cons_iff in W; destruct W as [W1 W2]. cbn [snd] in W1.
  pose proof (none_damage od ld p K W1 NO NL) as ND. cbn [hurt_pictures after_hurt]. cbv zeta.
  destruct (IH (if is_ref p then ld else od) (if is_ref p then damage od ld p K else ld) W2) as (H1 & H2 & H3); [destruct (is_ref p); auto..|].
  split; [constructor; auto|]. auto.
Qed.
Lemma none_first : forall p K od ld, p_type (pi_hdr p) = 1 -> Forall (fun x : bool * list bool => fst x = true) K -> none (damage od ld p K).
Proof. intros p K od ld T F r [X|[(T2 & _)|(T3 & _)] ]; [now apply (none_lost K F r)|rewrite T in T2; discriminate T2|rewrite T in T3; discriminate T3]. Qed.
(** After the first picture of such a group the last reference is right. *)
Lemma whole_latest : forall ps od ld, wholes ps -> (exists p K rest, ps = (p, K) :: rest /\ p_type (pi_hdr p) = 1) -> none (snd (after_hurt od ld ps)).
Proof.
  intros ps od ld W (p & K & rest & -> & T). apply Forall_cons_iff in W; destruct W as [W1 W2]. cbn [snd] in W1. cbn [after_hurt]. unfold is_ref at 1 2. rewrite T. cbn [Z.eqb Pos.eqb negb].
  pose proof (none_first p K od ld T W1) as N. clear - W2 N. revert N. generalize (damage od ld p K). generalize ld. clear ld.
  induction rest as [|[q L] rest IH]; intros o l N; [exact N|]. apply Forall_cons_iff in W2; destruct W2 as [W1 W3]. cbn [snd] in W1. cbn [after_hurt]. unfold is_ref. destruct (p_type (pi_hdr q) =? 3) eqn:B; cbn [negb].
  - now apply IH.
  - apply IH; [exact W3|]. intros r [X|[(_ & r' & X)|(T3 & _)] ]; [now apply (none_lost L W1 r)|now apply (N r')|lia].
Qed.
(** In such a group after which nothing of the last reference is missing, all pictures are right. *)
Lemma whole_pictures : forall ps od ld, wholes ps -> (exists p K rest, ps = (p, K) :: rest /\ p_type (pi_hdr p) = 1) -> none ld ->
  Forall (fun h => none (hu_rows h)) (hurt_pictures od ld ps) /\ none (snd (after_hurt od ld ps)).
Proof.
  intros ps od ld W (p & K & rest & -> & T) NL. apply Forall_cons_iff in W; destruct W as [W1 W2]. cbn [snd] in W1. pose proof (none_first p K od ld T W1) as N.
  cbn [hurt_pictures after_hurt]. cbv zeta. unfold is_ref. rewrite T. cbn [Z.eqb Pos.eqb negb]. destruct (none_pictures rest ld (damage od ld p K) W2 NL N) as (H1 & _ & H3). split; [constructor; auto | exact H3].
Qed.
Lemma first_pair : forall g, valid_group (fst g) -> length (snd g) = length (gr_pics (fst g)) -> exists p K rest, pairs g = (p, K) :: rest /\ p_type (pi_hdr p) = 1.
Proof.
  intros [g Ks] (_ & p & ps & E & T) L. cbn [fst snd] in *. unfold pairs. cbn [fst snd]. rewrite E in *. destruct Ks as [|K Ks]; [discriminate L|]. cbn [combine]. eauto.
Qed.
Lemma reorder_all : forall (D : hurt -> Prop) hs held, Forall D hs -> (forall h, held = Some h -> D h) -> Forall D (reorder_hurt held hs).
Proof.
  intros D. induction hs as [|h hs IH]; intros held F H.
  - cbn. destruct held; [constructor; [now apply H | constructor] | constructor].
  - inversion F; subst. cbn [reorder_hurt]. destruct (is_ref (hu_pic h)).
    + apply Forall_app. split; [destruct held; [constructor; [now apply H | constructor] | constructor]|]. apply IH; auto. intros x X. injection X as <-. assumption.
    + constructor; auto.
Qed.
Lemma whole_groups : forall gs c o l od ld, groups_cut c o l gs -> Forall valid_group (map fst gs) -> Forall whole_group gs -> none ld ->
  Forall (fun h => none (hu_rows h)) (hurt_shown od ld gs).
Proof.
  induction gs as [|g gs IH]; intros c o l od ld H V W NL; [constructor|]. cbn [groups_cut] in H. destruct (match gr_start (fst g) with Some s => Some (ctx_start s) | None => c end) as [c'|]; [|contradiction].
  destruct H as (HL & _ & H2). cbn [map] in V. apply Forall_cons_iff in V. destruct V as [V1 V2]. apply Forall_cons_iff in W. destruct W as [W1 W2].
  destruct (whole_pictures (pairs g) od ld (wholes_pairs g W1) (first_pair g V1 HL) NL) as (F1 & N1).
  cbn [hurt_shown]. destruct (after_hurt od ld (pairs g)) as [o3 l3]. destruct (after_pictures c' o l (gr_pics (fst g))) as [[c1 o1] l1]. apply Forall_app. split; [apply reorder_all; [exact F1 | discriminate]|].
  exact (IH _ _ _ o3 l3 H2 V2 W2 N1).
Qed.
Lemma hurt_shown_pics : forall gs c o l od ld, groups_cut c o l gs -> map hu_pic (hurt_shown od ld gs) = flat_map (fun g => display (gr_pics g)) (map fst gs).
Proof.
  induction gs as [|g gs IH]; intros c o l od ld H; [reflexivity|]. cbn [groups_cut] in H. destruct (match gr_start (fst g) with Some s => Some (ctx_start s) | None => c end) as [c'|]; [|contradiction].
  destruct H as (HL & _ & H2). cbn [hurt_shown map flat_map]. destruct (after_hurt od ld (pairs g)) as [o3 l3]. destruct (after_pictures c' o l (gr_pics (fst g))) as [[c1 o1] l1].
  rewrite map_app, (IH _ _ _ _ _ H2), reorder_pics, hurt_pics, (pairs_fst g HL). reflexivity.
Qed.
Lemma cut_coded : forall gs c o l, groups_cut c o l gs -> groups_all picture_coded c o l (map fst gs).
Proof.
  induction gs as [|g gs IH]; intros c o l H; [exact Logic.I|]. cbn [groups_cut map groups_all] in *. destruct (match gr_start (fst g) with Some s => Some (ctx_start s) | None => c end) as [c'|]; [|contradiction].
  destruct H as (HL & H1 & H2). split; [|destruct (after_pictures c' o l (gr_pics (fst g))) as [[c1 o1] l1]; now apply IH].
  rewrite <- (pairs_fst g HL). clear - H1. revert c' o l H1. induction (pairs g) as [|[p K] ps IH]; intros c o l H; [exact Logic.I|].
  cbn [pictures_cut map fst pictures_all] in *. cbv zeta in *. destruct H as ((H1 & _) & H2). split; [exact H1 | now apply IH].
Qed.
Lemma whole_suffix : forall gs1 g gs2 c o l od ld, groups_cut c o l (gs1 ++ g :: gs2) -> Forall valid_group (map fst (gs1 ++ g :: gs2)) -> whole_group g -> Forall whole_group gs2 ->
  exists a b, hurt_shown od ld (gs1 ++ g :: gs2) = a ++ b /\ Forall (fun h => none (hu_rows h)) b /\ map hu_pic b = flat_map (fun g => display (gr_pics g)) (map fst gs2) /\
    map hu_pic a = flat_map (fun g => display (gr_pics g)) (map fst (gs1 ++ [g])).
Proof.
  induction gs1 as [|g1 gs1 IH]; intros g gs2 c o l od ld H V W1 W2; cbn [app] in *.
  - cbn [groups_cut] in H. destruct (match gr_start (fst g) with Some s => Some (ctx_start s) | None => c end) as [c'|]; [|contradiction].
    destruct H as (HL & _ & H2). cbn [map] in V. apply Forall_cons_iff in V. destruct V as [V1 V2].
    pose proof (whole_latest (pairs g) od ld (wholes_pairs g W1) (first_pair g V1 HL)) as N.
    cbn [hurt_shown map flat_map]. destruct (after_hurt od ld (pairs g)) as [o3 l3]. destruct (after_pictures c' o l (gr_pics (fst g))) as [[c1 o1] l1]. cbn [snd] in N.
    eexists _, _. split; [reflexivity|]. split; [exact (whole_groups _ _ _ _ o3 l3 H2 V2 W2 N)|]. split; [exact (hurt_shown_pics _ _ _ _ _ _ H2)|].
    rewrite reorder_pics, hurt_pics, (pairs_fst g HL), app_nil_r. reflexivity.
  - cbn [groups_cut] in H. destruct (match gr_start (fst g1) with Some s => Some (ctx_start s) | None => c end) as [c'|]; [|contradiction].
    destruct H as (HL & _ & H2). cbn [map] in V. apply Forall_cons_iff in V. destruct V as [V1 V2].
    cbn [hurt_shown map flat_map]. destruct (after_hurt od ld (pairs g1)) as [o3 l3]. destruct (after_pictures c' o l (gr_pics (fst g1))) as [[c1 o1] l1].
    destruct (IH g gs2 _ _ _ o3 l3 H2 V2 W1 W2) as (a & b & -> & B1 & B2 & B3). eexists (_ ++ a), b. rewrite app_assoc. split; [reflexivity|]. split; [exact B1|]. split; [exact B2|].
    rewrite map_app, B3, reorder_pics, hurt_pics, (pairs_fst g1 HL). reflexivity.
Qed.
Lemma looks_again : forall f g h, looks_but f h -> none (hu_rows h) -> looks g (pi_frame (hu_pic h)) -> looks f (pi_frame (hu_pic h)).
Proof.
  intros f g h (L1 & L2 & L3 & L4 & L5) N (_ & _ & _ & G4 & G5 & G6). split; [exact L1|]. split; [exact L2|]. split; [exact L3|]. split; [|split]; intros x y X Y.
  - split; [apply (L4 x y X Y), N | now apply (G4 x y X Y)].
  - split; [apply (L5 x y X Y), N | now apply (G5 x y X Y)].
  - split; [apply (L5 x y X Y), N | now apply (G6 x y X Y)].
Qed.
