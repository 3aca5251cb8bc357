(** OrderProofs: lemmas for C125 (slices in another order). *)
From Coq Require Import Lia.
From Verif Require Import Base BitReader VidModel SpecVid SpecVlc SpecBlock SpecMotion SpecNext SpecPicture SpecLoss SpecOrder BlockModel MbModel NextProofs SliceProofs LossProofs.

Lemma row_eq_sym : forall r a b, row_eq r a b -> row_eq r b a.
Proof. intros r a b (H1 & H2 & H3). split; [|split]; intros x y E; symmetry; auto. Qed.
Lemma same_refs_refl : forall P, same_refs P P.
Proof.
  intro P. unfold same_refs, alike. assert (K : forall k, kneq k k) by (intros [| |c]; cbn; unfold canvas_eq; auto 6).
  assert (N : forall k, kn k k) by (intros [| |c]; cbn; auto). auto 12.
Qed.
Lemma slice_same : forall P r l c c', row_eq r c c' -> row_eq r (slice_paint P l c) (slice_paint P l c').
Proof. intros P r l c c' E. unfold slice_paint. apply mbs_same; [apply same_refs_refl | exact E]. Qed.
Lemma paints_same : forall P r ls c c', row_eq r c c' -> row_eq r (paints P ls c) (paints P ls c').
Proof. intros P r ls. induction ls as [|l ls IH]; intros c c' E; [exact E|]. cbn [paints fold_left]. apply IH. now apply slice_same. Qed.
(** What is painted does not depend on what was there before. *)
Definition fixes {A} (f : canvas -> A) (g : canvas -> canvas) : Prop := (forall c, f (g c) = f c) \/ (forall c c', f (g c) = f (g c')).
Definition fixed (g : canvas -> canvas) : Prop :=
  (forall x y, fixes (fun c => cv_y c x y) g) /\ (forall x y, fixes (fun c => cv_b c x y) g) /\ (forall x y, fixes (fun c => cv_r c x y) g).
Lemma fixes_comp : forall A (f : canvas -> A) g h, fixes f g -> fixes f h -> fixes f (fun c => h (g c)).
Proof.
  intros A f g h G [H|H]; [|right; intros; apply H]. destruct G as [G|G]; [left; intro c; now rewrite H | right; intros c c'; rewrite !H; apply G].
Qed.
Lemma fixed_comp : forall g h, fixed g -> fixed h -> fixed (fun c => h (g c)).
Proof. intros g h (G1 & G2 & G3) (H1 & H2 & H3). split; [|split]; intros x y; apply fixes_comp; auto. Qed.
Lemma fixed_id : fixed (fun c => c).
Proof. split; [|split]; intros x y; left; reflexivity. Qed.
Lemma fixed_paint : forall row col n ly lb lr, fixed (fun c => paint c row col n ly lb lr).
Proof.
  intros. split; [|split]; intros x y; unfold fixes; cbn [paint cv_y cv_b cv_r]; destruct (in_mbs _ _ _ _ _ _); auto.
Qed.
Lemma fixed_skipped : forall P row col n s, fixed (paint_skipped P row col n s).
Proof.
  intros. unfold paint_skipped. destruct (n <=? 0); [apply fixed_id|]. destruct (pp_type P =? 2); [destruct (pp_past P); try apply fixed_id; apply fixed_paint|]. cbv zeta. apply fixed_paint.
Qed.
Lemma fixed_mb : forall P row a s b, fixed (paint_mb P row a s b).
Proof. intros. unfold paint_mb. cbv zeta. apply fixed_paint. Qed.
Lemma fixed_mbs : forall P row mbs addr s, fixed (mbs_paint P row addr s mbs).
Proof.
  intros P row mbs. induction mbs as [|b mbs IH]; intros addr s; [apply fixed_id|]. cbn [mbs_paint]. cbv zeta.
  apply (fixed_comp (fun c => paint_mb P row (addr + b_incr b) (ps_after P s b) b (if addr =? -1 then c else paint_skipped P row (addr + 1) (b_incr b - 1) s c)) _); [|apply IH].
  apply (fixed_comp (fun c => if addr =? -1 then c else paint_skipped P row (addr + 1) (b_incr b - 1) s c) (paint_mb P row (addr + b_incr b) (ps_after P s b) b)); [|apply fixed_mb].
  destruct (addr =? -1); [apply fixed_id | apply fixed_skipped].
Qed.
Lemma slice_again : forall P r l c, row_eq r (slice_paint P l c) (slice_paint P l (slice_paint P l c)).
Proof.
  intros P r l c. destruct (fixed_mbs P (sl_row l) (sl_mbs l) (-1) (ps_start P (sl_q l))) as (H1 & H2 & H3). unfold slice_paint.
  split; [|split]; intros x y _; [destruct (H1 x y) as [E|E]|destruct (H2 x y) as [E|E]|destruct (H3 x y) as [E|E] ]; solve [now rewrite !E | apply E].
Qed.

(** A slice paints only the macroblocks it covers. *)
Definition spares (g : canvas -> canvas) (row lo hi : Z) : Prop :=
  (forall c x y, ~ (y / 16 = row /\ lo <= x / 16 <= hi) -> cv_y (g c) x y = cv_y c x y) /\
  (forall c x y, ~ (y / 8 = row /\ lo <= x / 8 <= hi) -> cv_b (g c) x y = cv_b c x y) /\
  (forall c x y, ~ (y / 8 = row /\ lo <= x / 8 <= hi) -> cv_r (g c) x y = cv_r c x y).
Lemma in_mbs_cell : forall size row col n x y, 0 < size -> in_mbs size row col n x y = true -> y / size = row /\ col <= x / size <= col + n - 1.
Proof.
  intros size row col n x y S H. split; [exact (in_mbs_row _ _ _ _ _ _ S H)|]. unfold in_mbs in H. apply andb_prop in H. destruct H as [H _]. apply andb_prop in H. destruct H as [H _].
  apply andb_prop in H. destruct H as [H1 H2]. split; [apply Z.div_le_lower_bound; lia|]. assert (x / size < col + n) by (apply Z.div_lt_upper_bound; lia). lia.
Qed.
Lemma spares_paint : forall row col n ly lb lr lo hi, lo <= col -> col + n - 1 <= hi -> spares (fun c => paint c row col n ly lb lr) row lo hi.
Proof.
  intros row col n ly lb lr lo hi L H. split; [|split]; intros c x y N; cbn [paint cv_y cv_b cv_r]; destruct (in_mbs _ _ _ _ _ _) eqn:E; try reflexivity;
    apply in_mbs_cell in E; try lia; destruct E as (E1 & E2); destruct N; split; auto; lia.
Qed.
Lemma spares_id : forall row lo hi, spares (fun c => c) row lo hi.
Proof. intros. split; [|split]; reflexivity. Qed.
Lemma spares_comp : forall g h row lo hi, spares g row lo hi -> spares h row lo hi -> spares (fun c => h (g c)) row lo hi.
Proof. intros g h row lo hi (G1 & G2 & G3) (H1 & H2 & H3). split; [|split]; intros c x y N; [rewrite H1, G1|rewrite H2, G2|rewrite H3, G3]; auto. Qed.
Lemma spares_skipped : forall P row col n s lo hi, lo <= col -> col + n - 1 <= hi -> spares (paint_skipped P row col n s) row lo hi.
Proof.
  intros. unfold paint_skipped. destruct (n <=? 0); [apply spares_id|]. destruct (pp_type P =? 2); [destruct (pp_past P); try apply spares_id; now apply spares_paint|]. cbv zeta. now apply spares_paint.
Qed.
Lemma spares_mb : forall P row a s b lo hi, lo <= a <= hi -> spares (paint_mb P row a s b) row lo hi.
Proof. intros. unfold paint_mb. cbv zeta. apply spares_paint; lia. Qed.
Lemma last_ge : forall P row mbs addr s c, mbs_code P row addr s mbs c -> -1 <= fold_right (fun b n => b_incr b + n) (-1) mbs.
Proof.
  intros P row mbs. induction mbs as [|b mbs IH]; intros addr s c H; [cbn; lia|]. cbn [mbs_code] in H. destruct H as ((I1 & _) & c1 & c2 & _ & _ & H2).
  cbn [fold_right]. apply IH in H2. lia.
Qed.
Lemma spares_mbs : forall P row mbs addr s c lo hi, mbs_code P row addr s mbs c ->
  lo <= (if addr =? -1 then match mbs with b :: _ => b_incr b - 1 | [] => 0 end else addr + 1) -> -1 <= addr -> addr + 1 + fold_right (fun b n => b_incr b + n) (-1) mbs <= hi ->
  spares (mbs_paint P row addr s mbs) row lo hi.
Proof.
  intros P row mbs. induction mbs as [|b mbs IH]; intros addr s c lo hi H L A U; [apply spares_id|]. cbn [mbs_code] in H. destruct H as ((I1 & _) & c1 & c2 & _ & _ & H2).
  pose proof (last_ge _ _ _ _ _ _ H2) as G. cbn [fold_right] in U.
  assert (L1 : lo <= addr + b_incr b) by (destruct (addr =? -1) eqn:E; lia).
  cbn [mbs_paint]. cbv zeta.
  apply (spares_comp (fun c => paint_mb P row (addr + b_incr b) (ps_after P s b) b (if addr =? -1 then c else paint_skipped P row (addr + 1) (b_incr b - 1) s c)) (mbs_paint P row (addr + b_incr b) (ps_after P s b) mbs)).
  - apply (spares_comp (fun c => if addr =? -1 then c else paint_skipped P row (addr + 1) (b_incr b - 1) s c) (paint_mb P row (addr + b_incr b) (ps_after P s b) b)); [|apply spares_mb; lia].
    destruct (addr =? -1) eqn:E; [apply spares_id | apply spares_skipped; lia].
  - apply (IH _ _ _ _ _ H2); [|lia|lia]. replace (addr + b_incr b =? -1) with false by lia. lia.
Qed.
Lemma slice_spares : forall P l c, slice_code P l c -> spares (slice_paint P l) (sl_row l) (first_mb l) (last_mb l).
Proof.
  intros P l c (_ & _ & _ & _ & _ & c1 & H & _). unfold slice_paint. apply (spares_mbs P _ _ _ _ _ _ _ H); unfold first_mb, last_mb; [|lia|lia].
  change (-1 =? -1) with true. cbv iota. lia.
Qed.
Lemma swap_at : forall A (f : canvas -> A) g h, ((forall c, f (g c) = f c) \/ (forall c, f (h c) = f c)) -> fixes f g -> fixes f h -> forall c, f (h (g c)) = f (g (h c)).
Proof.
  intros A f g h [E|E] G H c.
  - rewrite E. destruct H as [H|H]; [now rewrite !H, E | apply H].
  - rewrite E. destruct G as [G|G]; [now rewrite !G, E | apply G].
Qed.
Lemma slice_swap : forall P r a b ca cb c, slice_code P a ca -> slice_code P b cb -> apart a b -> row_eq r (slice_paint P b (slice_paint P a c)) (slice_paint P a (slice_paint P b c)).
Proof.
  intros P r a b ca cb c CA CB D.
  destruct (slice_spares P a ca CA) as (A1 & A2 & A3). destruct (slice_spares P b cb CB) as (B1 & B2 & B3).
  destruct (fixed_mbs P (sl_row a) (sl_mbs a) (-1) (ps_start P (sl_q a))) as (F1 & F2 & F3).
  destruct (fixed_mbs P (sl_row b) (sl_mbs b) (-1) (ps_start P (sl_q b))) as (G1 & G2 & G3).
  assert (DD : forall row col, ~ (row = sl_row a /\ first_mb a <= col <= last_mb a) \/ ~ (row = sl_row b /\ first_mb b <= col <= last_mb b)).
  { intros row col. specialize (D row col). unfold covers in D. lia. }
  split; [|split]; intros x y _.
  - apply (swap_at _ (fun c => cv_y c x y)); [|apply F1|apply G1]. destruct (DD (y / 16) (x / 16)) as [N|N]; [left|right]; intro; auto.
  - apply (swap_at _ (fun c => cv_b c x y)); [|apply F2|apply G2]. destruct (DD (y / 8) (x / 8)) as [N|N]; [left|right]; intro; auto.
  - apply (swap_at _ (fun c => cv_r c x y)); [|apply F3|apply G3]. destruct (DD (y / 8) (x / 8)) as [N|N]; [left|right]; intro; auto.
Qed.
Definition coded_by (P : params) (x : sslice * list bool) : Prop := slice_code P (fst x) (snd x).
Lemma shuffle_slices : forall P X Y, shuffled X Y -> Forall (coded_by P) X ->
  Forall (coded_by P) Y /\ (X <> [] -> Y <> []) /\ forall r c, row_eq r (paints P (map fst X) c) (paints P (map fst Y) c).
Proof.
  intros P X Y H. induction H as [|x l l' H IH|a b l N|a l|l l' l'' H1 IH1 H2 IH2]; intro F.
  - split; [constructor|]. split; [auto|]. intros. apply row_eq_refl.
  - apply Forall_cons_iff in F. destruct F as [F1 F2]. destruct (IH F2) as (G1 & _ & G3). split; [now constructor|]. split; [discriminate|].
    intros r c. cbn [map paints fold_left]. apply G3.
  - apply Forall_cons_iff in F. destruct F as [F1 F2]. apply Forall_cons_iff in F2. destruct F2 as [F2 F3]. split; [repeat (constructor; auto)|]. split; [discriminate|].
    intros r c. cbn [map paints fold_left]. apply paints_same. exact (slice_swap _ _ _ _ _ _ _ F1 F2 N).
  - apply Forall_cons_iff in F. destruct F as [F1 F2]. split; [repeat (constructor; auto)|]. split; [discriminate|].
    intros r c. cbn [map paints fold_left]. apply paints_same. apply slice_again.
  - destruct (IH1 F) as (G1 & G2 & G3). destruct (IH2 G1) as (K1 & K2 & K3). split; [exact K1|]. split; [auto|].
    intros r c. eapply row_eq_trans; [apply G3 | apply K3].
Qed.
Lemma arriving_keep : forall ls K, map fst (arriving ls K) = keep ls K.
Proof. induction ls as [|l ls IH]; intros [|[[] k] K]; cbn [arriving keep map fst]; try reflexivity; now rewrite IH. Qed.
Lemma arriving_coded : forall P ls K, Forall2 (slice_code P) ls (map snd K) -> Forall (coded_by P) (arriving ls K).
Proof.
  intros P ls K. revert ls. induction K as [|[b k] K IH]; intros ls F; inversion F as [|l k' ls' K' H1 H2]; subst; [constructor|].
  cbn [arriving]. destruct b; [constructor; auto | auto].
Qed.
Lemma coded_pairs : forall P Y, Forall (coded_by P) Y -> Forall2 (slice_code P) (map fst Y) (map snd Y).
Proof. intros P Y F. induction F; constructor; auto. Qed.

(** As [shows] *)
Definition bears (p' : spicture) (h : hurt) : Prop :=
  pi_hdr p' = pi_hdr (hu_pic h) /\
  cv_w (pi_frame (hu_pic h)) = cv_w (pi_frame p') /\ cv_h (pi_frame (hu_pic h)) = cv_h (pi_frame p') /\
  (forall r, ~ hu_rows h r -> row_eq r (pi_frame (hu_pic h)) (pi_frame p')) /\
  (forall r, gone (hu_cuts h) r -> (forall x y, y / 16 = r -> cv_y (pi_frame p') x y = 0) /\
     (forall x y, y / 8 = r -> cv_b (pi_frame p') x y = 0 /\ cv_r (pi_frame p') x y = 0)).

Lemma picture_mix : forall c o l o' l' od ld p K m, picture_cut c o l p K -> wf_picture p -> rel od o o' -> rel ld l l' -> picture_mixed c o l p K m ->
  exists p', enc_picture p' = enc_picture m /\ pi_items p' = pi_items p /\ wf_picture p' /\ picture_coded c o' l' p' /\ bears p' (mkHurt p K (damage od ld p K)).
Proof.
  intros c o l o' l' od ld p K m ((WS & WX & CH & V28 & PW & PH & PO & _) & _ & _ & EX) (W1 & W2 & W3 & W4 & W5 & _) RO RL (ls & cs & F & FR & SH & EM).
  pose proof (rel_kn _ _ _ RO) as KO. pose proof (rel_kn _ _ _ RL) as KL.
  set (P := params_of c o l p) in *.
  assert (A : alike P (params_of c o' l' p)) by (now apply params_alike).
  assert (F0 : Forall (coded_by (params_of c o' l' p)) (arriving ls K)).
  { apply arriving_coded. clear - F A. induction F as [|x y a b H1 H2 IH]; constructor; auto. now apply (alike_slice P). }
  destruct (shuffle_slices _ _ _ SH F0) as (F1 & NE' & RW). rewrite arriving_keep in RW. pose proof (coded_pairs _ _ F1) as F'.
  set (ls' := map fst cs) in *.
  set (q := mkPicture (pi_hdr p) (pi_k1 p) (pi_pce p) (pi_k2 p) (pi_items p) (concat (map snd cs)) (picture_paint (params_of c o' l' p) ls')).
  set (P' := params_of c o' l' p) in *.
  assert (NE : ls' <> []).
  { pose proof (keep_some P ls K F EX) as NK. rewrite <- arriving_keep in NK. assert (NC : cs <> []) by (apply NE'; intro E; apply NK; now rewrite E).
    unfold ls'. destruct cs; [now destruct NC | discriminate]. }
  exists q. split; [rewrite EM; reflexivity|]. split; [reflexivity|]. split; [|split].
  - unfold wf_picture. cbn [q pi_hdr pi_pce pi_items pi_data]. repeat (split; [assumption|]). exact (slices_shape P' _ _ F' NE).
  - unfold picture_coded. change (params_of c o' l' q) with P'. cbv zeta. repeat (split; [assumption|]).
    exists ls'. split; [exact (slices_of P' _ _ F' NE) | reflexivity].
  - unfold bears. cbn [hu_pic hu_cuts hu_rows q pi_hdr pi_frame]. split; [reflexivity|].
    rewrite FR. change (picture_paint P ls) with (paints P ls (blank P)). change (picture_paint P' ls') with (paints P' ls' (blank P')).
    destruct (paints_size P ls (blank P)) as [-> ->]. destruct (paints_size P' ls' (blank P')) as [-> ->]. cbn [blank cv_w cv_h].
    split; [apply A|]. split; [apply A|]. split.
    + intros r N. eapply row_eq_trans; [|apply RW]. apply keep_rows; auto.
      * apply params_same; auto; intro T; unfold damage in N.
        -- apply (rel_kneq ld); auto; intros [r' X]; apply N; right; left; split; eauto.
        -- split; [apply (rel_kneq od) | apply (rel_kneq ld)]; auto; intros [r' X]; apply N; right; right; split; eauto.
      * intro L. apply N. now left.
      * apply row_eq_refl.
    + intros r G. destruct (row_eq_trans _ _ _ _ (row_eq_sym _ _ _ (RW r (blank P'))) (keep_gone P P' r K ls (blank P') F G)) as (H1 & H2 & H3).
      split; [exact H1|]. intros x y E. split; [now apply H2 | now apply H3].
Qed.

Lemma bears_rel : forall p' p K d, bears p' (mkHurt p K d) -> rel d (Is (pi_frame p)) (Is (pi_frame p')).
Proof. intros p' p K d (_ & H1 & H2 & H3 & _). split; [exact H1|]. split; [exact H2 | exact H3]. Qed.

Lemma pictures_mix : forall ps ms c o l o' l' od ld, pictures_cut c o l ps -> Forall wf_picture (map fst ps) -> rel od o o' -> rel ld l l' -> pictures_mixed c o l ps ms ->
  exists ps', flat_map enc_picture ps' = flat_map enc_picture ms /\ Forall2 bears ps' (hurt_pictures od ld ps) /\ Forall wf_picture ps' /\ pictures_all picture_coded c o' l' ps' /\
    let '(c1, o1, l1) := after_pictures c o l (map fst ps) in let '(c2, o2, l2) := after_pictures c o' l' ps' in
    let '(o3, l3) := after_hurt od ld ps in c2 = c1 /\ rel o3 o1 o2 /\ rel l3 l1 l2.
Proof.
  induction ps as [|[p K] ps IH]; intros [|m ms] c o l o' l' od ld H W RO RL M; try contradiction.
  - exists []. split; [reflexivity|]. split; [constructor|]. split; [constructor|]. split; [exact Logic.I|]. cbn. auto.
  - cbn [pictures_mixed] in M. cbv zeta in M. destruct M as [M1 M2]. cbn [pictures_cut] in H. cbv zeta in H. destruct H as [H1 H2]. cbn [map fst] in W. apply Forall_cons_iff in W. destruct W as [W1 W2].
    destruct (picture_mix _ o l o' l' od ld p K m H1 W1 RO RL M1) as (p' & EE & EI & W' & C' & S').
    pose proof (bears_rel p' p K _ S') as RP. pose proof S' as (EH & _). cbn [hu_pic] in EH. pose proof (is_ref_hdr p p' EH) as ER.
    assert (RO' : rel (if is_ref p then ld else od) (older o l p) (older o' l' p')) by (unfold older; rewrite ER; destruct (is_ref p); auto).
    assert (RL' : rel (if is_ref p then damage od ld p K else ld) (latest l p) (latest l' p')) by (unfold latest; rewrite ER; destruct (is_ref p); auto).
    destruct (IH _ _ _ _ _ _ _ _ H2 W2 RO' RL' M2) as (ps' & E2 & S2 & Wps & C2 & AF).
    exists (p' :: ps'). cbn [hurt_pictures flat_map]. cbv zeta. rewrite EE, E2. split; [reflexivity|]. split; [constructor; auto|]. split; [constructor; auto|]. cbn [pictures_all map fst after_pictures after_hurt]. cbv zeta. rewrite EI. split; [split; auto|]. exact AF.
Qed.

Lemma reorder_bears : forall ps hs held held', Forall2 bears ps hs ->
  match held, held' with None, None => True | Some p, Some h => bears p h | _, _ => False end ->
  Forall2 bears (reorder held ps) (reorder_hurt held' hs).
Proof.
  intros ps hs held held' F. revert held held'. induction F as [|p h ps hs H1 H2 IH]; intros held held' HH.
  - destruct held, held'; try contradiction; cbn; auto.
  - cbn [reorder reorder_hurt]. pose proof H1 as (EH & _). rewrite (is_ref_hdr _ _ EH). destruct (is_ref (hu_pic h)).
    + apply Forall2_app; [destruct held, held'; try contradiction; auto|]. apply IH. exact H1.
    + constructor; [exact H1|]. now apply IH.
Qed.
Lemma bears_tref : forall ps hs, Forall2 bears ps hs -> map tref ps = map tref (map hu_pic hs).
Proof. intros ps hs F. induction F as [|p h ps hs H1 H2 IH]; [reflexivity|]. cbn [map]. rewrite IH. destruct H1 as (EH & _). unfold tref at 1 3. now rewrite EH. Qed.

Lemma groups_mix : forall gs ms c o l o' l' od ld, Forall wf_group (map fst gs) -> Forall valid_group (map fst gs) -> groups_cut c o l gs -> rel od o o' -> rel ld l l' -> groups_mixed c o l gs ms ->
  exists gs', flat_map enc_group gs' = flat_map enc_group ms /\ Forall wf_group gs' /\ Forall valid_group gs' /\ groups_all picture_coded c o' l' gs' /\
    Forall2 bears (flat_map (fun g => display (gr_pics g)) gs') (hurt_shown od ld gs) /\ length gs' = length gs.
Proof.
  induction gs as [|g gs IH]; intros [|m ms] c o l o' l' od ld W V H RO RL M; try contradiction.
  - exists []. split; [reflexivity|]. repeat (split; [constructor|]). reflexivity.
  - cbn [map] in W, V. apply Forall_cons_iff in W. destruct W as [W1 W2]. apply Forall_cons_iff in V. destruct V as [V1 V2].
    cbn [groups_cut] in H. destruct (match gr_start (fst g) with Some s => Some (ctx_start s) | None => c end) as [c'|] eqn:EC; [|contradiction].
    destruct H as (HL & H1 & H2). pose proof (pairs_fst g HL) as EP. destruct W1 as (WS & WG & WI & WJ & WP). rewrite <- EP in WP.
    cbn [groups_mixed] in M. rewrite EC in M. destruct M as (MS & MH & MK & MI & MP & M2).
    destruct (pictures_mix (pairs g) (gr_pics m) c' o l o' l' od ld H1 WP RO RL MP) as (ps' & EE & S' & W' & C' & AF). rewrite EP in AF.
    destruct (after_pictures c' o l (gr_pics (fst g))) as [[c1 o1] l1] eqn:E1. destruct (after_pictures c' o' l' ps') as [[c2 o2] l2] eqn:E2.
    destruct (after_hurt od ld (pairs g)) as [o3 l3] eqn:E3. cbv beta iota in M2. destruct AF as (-> & RO' & RL').
    destruct (IH ms (Some c1) o1 l1 o2 l2 o3 l3 W2 V2 H2 RO' RL' M2) as (gs' & G1 & G2 & G3 & G4 & G5 & G6).
    set (g' := mkGroup (gr_start (fst g)) (gr_hdr (fst g)) (gr_k (fst g)) (gr_items (fst g)) ps').
    exists (g' :: gs').
    assert (SD : Forall2 bears (display ps') (reorder_hurt None (hurt_pictures od ld (pairs g)))) by (apply reorder_bears; auto).
    split; [cbn [flat_map]; f_equal; [|exact G1]|split; [|split; [|split; [|split] ] ] ].
    + unfold enc_group, g'. cbn [gr_start gr_hdr gr_k gr_items gr_pics]. now rewrite MS, MH, MK, MI, EE.
    + constructor; [|exact G2]. unfold wf_group, g'. cbn [gr_start gr_hdr gr_k gr_items gr_pics]. auto.
    + constructor; [|exact G3]. unfold valid_group, g'. cbn [gr_pics]. destruct V1 as (VT & p & ps & VP & VI). split.
      * rewrite (bears_tref _ _ SD), reorder_pics, hurt_pics, EP. cbn [option_map]. fold (display (gr_pics (fst g))). rewrite VT. f_equal.
        rewrite <- EP, <- (hurt_pics (pairs g) od ld), map_length. clear - S'. induction S'; cbn; auto.
      * pose proof S' as SX. destruct (pairs g) as [|[p0 K0] rest]; [rewrite <- EP in VP; discriminate VP|]. cbn [map fst] in EP. rewrite VP in EP. injection EP as -> _.
        cbn [hurt_pictures] in SX. cbv zeta in SX. inversion SX as [|a b x y S1 S2]; subst. exists a, x. split; [reflexivity|]. destruct S1 as (-> & _). exact VI.
    + cbn [groups_all]. change (gr_start g') with (gr_start (fst g)). rewrite EC. change (gr_pics g') with ps'. rewrite E2. split; auto.
    + cbn [flat_map hurt_shown]. rewrite E3. change (gr_pics g') with ps'. apply Forall2_app; assumption.
    + cbn [length]. now rewrite G6.
Qed.

Lemma looks_bears : forall f p h, looks f (pi_frame p) -> bears p h -> looks_but f h.
Proof.
  intros f p h (L1 & L2 & L3 & L4 & L5 & L6) (_ & E1 & E2 & RW & GN). unfold looks_but. cbv zeta. rewrite E1, E2. split; [exact L1|]. split; [exact L2|]. split; [exact L3|]. split.
  - intros x y X Y. destruct (L4 x y X Y) as [-> _]. split.
    + intro N. symmetry. now apply (RW (y / 16) N).
    + intro G. now apply (GN (y / 16) G).
  - intros x y X Y. destruct (L5 x y X Y) as [-> _]. destruct (L6 x y X Y) as [-> _]. split.
    + intro N. destruct (RW (y / 8) N) as (_ & R2 & R3). split; symmetry; auto.
    + intro G. now apply (GN (y / 8) G).
Qed.
Lemma looks_bears_all : forall fs ps hs, Forall2 looks fs (map pi_frame ps) -> Forall2 bears ps hs -> Forall2 looks_but fs hs.
Proof.
  intros fs ps hs F S. revert fs F. induction S as [|p h ps hs H1 H2 IH]; intros fs F; inversion F; subst; constructor; auto. now apply (looks_bears _ p).
Qed.

(** Nothing lost in the whole sequence *)
Lemma none_groups : forall gs od ld, Forall whole_group gs -> none od -> none ld -> Forall (fun h => none (hu_rows h)) (hurt_shown od ld gs).
Proof.
  induction gs as [|g gs IH]; intros od ld W NO NL; [constructor|]. apply Forall_cons_iff in W. destruct W as [W1 W2].
  destruct (none_pictures (pairs g) od ld (wholes_pairs g W1) NO NL) as (H1 & H2 & H3). cbn [hurt_shown].
  destruct (after_hurt od ld (pairs g)) as [o l]. apply Forall_app. split; [|now apply IH].
  generalize (hurt_pictures od ld (pairs g)), H1. clear. intros hs. assert (G : forall held, match held with Some h => none (hu_rows h) | None => True end -> Forall (fun h => none (hu_rows h)) hs -> Forall (fun h => none (hu_rows h)) (reorder_hurt held hs)).
  { induction hs as [|h hs IH]; intros held HH F; [destruct held; constructor; auto|]. apply Forall_cons_iff in F. destruct F as [F1 F2]. cbn [reorder_hurt]. destruct (is_ref (hu_pic h)).
    - apply Forall_app. split; [destruct held; constructor; auto|]. now apply IH.
    - constructor; auto. }
  intro F. now apply G.
Qed.
