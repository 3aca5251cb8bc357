(** ClearProofs: the syntax of macroblocks and slices is unambiguous, so data that follow it break no rule (C103). *)
From Coq Require Import Lia.
From Verif Require Import Base BitReader VidModel SpecVid VidProofs VlcTables VlcProofs SpecVlc SpecBlock SpecMotion MotionProofs BlockModel BlockProofs SpecPicture SpecNext MbModel MbWholeProofs SliceProofs SpecSyntax SyntaxProofs SpecRules RulesProofs.

(** Bits in which [T] begins say which, and where it ends. *)
Definition clear {A} (T : A -> list bool -> Prop) : Prop :=
  forall a c t a' c' t', T a c -> T a' c' -> c ++ t = c' ++ t' -> a = a' /\ c = c' /\ t = t'.
Definition some_reader : reader := mkR [] EEOF [] (fun _ _ => EEOF).
Lemma read_clear : forall A (m : M reader A) (T : A -> list bool -> Prop), (forall a c r l, T a c -> m (setb r (c ++ l)) = (Ok a, setb r l)) -> clear T.
Proof.
  intros A m T H a c t a' c' t' H1 H2 E. pose proof (H a c some_reader t H1) as X. pose proof (H a' c' some_reader t' H2) as X2. rewrite E, X2 in X. injection X as -> ->. split; [reflexivity|]. split; [now apply app_inv_tail in E | reflexivity].
Qed.
Lemma exact_clear : forall A (m : M reader A) T, decodes_exactly m T -> clear (fun a c => T c a).
Proof. intros A m T (H & _). apply (read_clear A m). intros a c r l X. now apply H. Qed.
Lemma app_split : forall (a b t u : list bool), length a = length b -> a ++ t = b ++ u -> a = b /\ t = u.
Proof. induction a as [|x a IH]; intros [|y b] t u L E; try discriminate L; [auto|]. injection E as -> E. injection L as L. destruct (IH _ _ _ L E) as (-> & ->). auto. Qed.
Lemma enc_clear : forall n a b t t', 0 <= a < 2 ^ Z.of_nat n -> 0 <= b < 2 ^ Z.of_nat n -> enc n a ++ t = enc n b ++ t' -> a = b /\ t = t'.
Proof. intros n a b t t' Ha Hb E. apply app_split in E; [|now rewrite !enc_length]. destruct E as (E & Et). split; [now apply (enc_inj n) | exact Et]. Qed.

(** * Codes *)
Lemma incr_clear : clear incr_code.
Proof.
  intros n c t n' c' t' H H' E. set (z := repeat false 11).
  pose proof (incr_run n c some_reader (t ++ z) H ltac:(rewrite app_length; unfold z; cbn; lia)) as X. pose proof (incr_run n' c' some_reader (t' ++ z) H' ltac:(rewrite app_length; unfold z; cbn; lia)) as X2.
  rewrite !app_assoc, E in X. rewrite app_assoc, X in X2. injection X2 as -> X2. apply app_inv_tail in X2. subst t'. split; [reflexivity|]. split; [now apply app_inv_tail in E | reflexivity].
Qed.
Lemma type_clear : forall t, clear (fun ty c => mbt_code (type_table t) c ty).
Proof.
  intro t. assert (X : clear (fun m c => mbt_code (type_table t) c (mbt_fields m))).
  { unfold type_table. destruct (t =? 1); [|destruct (t =? 2)]; eapply exact_clear; [apply mbtype_I_exact | apply mbtype_P_exact | apply mbtype_B_exact]. }
  intros [[[[a1 a2] a3] a4] a5] c u [[[[b1 b2] b3] b4] b5] c' u' H H' E.
  destruct (X (mkMBT a1 a2 a3 a4 a5) c u (mkMBT b1 b2 b3 b4 b5) c' u' H H' E) as (Q & R). injection Q as -> -> -> -> ->. auto.
Qed.
Lemma cbp_clear : clear (fun a c => cbp_code c a).
Proof. exact (exact_clear _ _ _ cbp_exact). Qed.
Lemma motion_clear : clear (fun a c => motion_code_code c a).
Proof. exact (exact_clear _ _ _ motion_code_exact). Qed.
(** A difference of vectors: the code, and the residual *)
Lemma delta_inv : forall fc d c, delta_code fc d c -> exists m c0 res, motion_code_code c0 m /\ 0 <= res < Z.max 1 (mv_f fc) /\ (m = 0 -> res = 0) /\
  c = c0 ++ (if m =? 0 then [] else enc (Z.to_nat (fc - 1)) res) /\ d = if m =? 0 then 0 else if 0 <? m then (m - 1) * mv_f fc + res + 1 else - ((- m - 1) * mv_f fc + res + 1).
Proof.
  intros fc d c H. destruct H as [c H|c m res H M R|c m res H M R].
  - exists 0, c, 0. split; [exact H|]. split; [lia|]. split; [reflexivity|]. split; [now rewrite app_nil_r | reflexivity].
  - exists m, c, res. split; [exact H|]. split; [lia|]. split; [lia|]. destruct (Z.eqb_spec m 0); [lia|]. destruct (Z.ltb_spec 0 m); [|lia]. auto.
  - exists (- m), c, res. split; [exact H|]. split; [lia|]. split; [lia|]. destruct (Z.eqb_spec (- m) 0); [lia|]. destruct (Z.ltb_spec 0 (- m)); [lia|]. split; [reflexivity|]. now rewrite Z.opp_involutive.
Qed.
Lemma delta_clear : forall fc, 1 <= fc -> clear (delta_code fc).
Proof.
  intros fc F d c t d' c' t' H H' E. apply delta_inv in H. destruct H as (m & c0 & res & M & R & R0 & -> & ->). apply delta_inv in H'. destruct H' as (m' & c0' & res' & M' & R' & R0' & -> & ->).
  pose proof (mv_f_pos fc F) as P. rewrite <- !app_assoc in E. destruct (motion_clear _ _ _ _ _ _ M M' E) as (-> & -> & E2).
  destruct (Z.eqb_spec m' 0) as [Z0|Z0]; [cbn [app] in E2; subst t'; auto|].
  apply enc_clear in E2; [destruct E2 as (-> & ->); auto| |]; unfold mv_f in *; rewrite Z2Nat.id by lia; lia.
Qed.
Lemma vector_clear : forall fc p, 1 <= fc -> clear (fun v c => mv_range fc v /\ vector_code fc p v c).
Proof.
  intros fc p F v c t v' c' t' (R & d & k & D & Q) (R' & d' & k' & D' & Q') E. destruct (delta_clear fc F _ _ _ _ _ _ D D' E) as (-> & -> & ->). split; [|auto].
  unfold mv_range in *. pose proof (mv_f_pos fc F). set (f := mv_f fc) in *. assert (v - v' = 32 * f * (k' - k)) by lia. assert (k' - k = 0) by nia. lia.
Qed.
Lemma pair_clear : forall fx fy p, 1 <= fx -> 1 <= fy -> clear (pair_code fx fy p).
Proof.
  intros fx fy p Fx Fy [vx vy] c t [wx wy] c' t' (cx & cy & -> & R1 & R2 & V1 & V2) (cx' & cy' & -> & R1' & R2' & V1' & V2') E. cbn [fst snd] in *. rewrite <- !app_assoc in E.
  destruct (vector_clear fx _ Fx _ _ _ _ _ _ (conj R1 V1) (conj R1' V1') E) as (-> & -> & E2). destruct (vector_clear fy _ Fy _ _ _ _ _ _ (conj R2 V2) (conj R2' V2') E2) as (-> & -> & ->). auto.
Qed.
Lemma opt_clear : forall fx fy p v c t v' c' t', 1 <= fx -> 1 <= fy -> some v = some v' -> opt_vector fx fy p v c -> opt_vector fx fy p v' c' -> c ++ t = c' ++ t' -> v = v' /\ c = c' /\ t = t'.
Proof.
  intros fx fy p [v|] c t [v'|] c' t' Fx Fy S H H' E; try discriminate S; cbn [opt_vector] in *.
  - destruct (pair_clear fx fy p Fx Fy _ _ _ _ _ _ H H' E) as (-> & R). auto.
  - subst c c'. auto.
Qed.
(** * Blocks *)
Lemma dc_clear : forall luma, clear (fun d c => dc_code luma c d).
Proof.
  intros luma d c t d' c' t' (n & s & S & D) (n' & s' & S' & D') E.
  assert (X : clear (fun n s => (if luma then dc_size_luma_code else dc_size_chroma_code) s n)) by (destruct luma; eapply exact_clear; [apply dc_luma_exact | apply dc_chroma_exact]).
  pose proof (dc_size_bound luma s n S) as B.
  assert (Y : exists u u', c = s ++ u /\ c' = s' ++ u').
  { destruct (n =? 0), (n' =? 0); destruct D as (_ & ->), D' as (_ & ->); do 2 eexists; split; first [reflexivity | symmetry; apply app_nil_r]. }
  destruct Y as (u & u' & Q & Q'). assert (E0 := E). rewrite Q, Q', <- !app_assoc in E. destruct (X _ _ _ _ _ _ S S' E) as (<- & <- & _). clear E Q Q'.
  destruct (Z.eqb_spec n 0) as [->|N].
  - destruct D as (-> & ->), D' as (-> & ->). apply app_inv_head in E0. auto.
  - destruct D as (D & ->), D' as (D' & ->). rewrite <- !app_assoc in E0. apply app_inv_head in E0.
    assert (P2 : 2 ^ n = 2 * 2 ^ (n - 1)) by (rewrite <- Z.pow_succ_r by lia; f_equal; lia).
    assert (W : Z.of_nat (Z.to_nat n) = n) by lia.
    apply enc_clear in E0; [|rewrite W; destruct (Z.ltb_spec 0 d); lia..|rewrite W; destruct (Z.ltb_spec 0 d'); lia]. destruct E0 as (E0 & ->).
    assert (d = d') as -> by (destruct (Z.ltb_spec 0 d), (Z.ltb_spec 0 d'); lia). auto.
Qed.
Lemma symbol_clear : forall one n, clear (fun s c => dct_code one (n =? 0) c s).
Proof.
  intros one n s c t s' c' t' H H' E.
  destruct (exact_clear _ _ _ (dct_exact one n) (symbol_result s) c t (symbol_result s') c' t' (ex_intro _ s (conj H eq_refl)) (ex_intro _ s' (conj H' eq_refl)) E) as (Q & -> & ->). split; [|auto].
  destruct s, s'; cbn in Q; congruence.
Qed.
Lemma rest_clear : forall one n rls body, syms one n rls body -> forall rls' body' t t', (n = 0 -> rls <> [] /\ rls' <> []) -> 0 <= n -> syms one n rls' body' ->
  let e := if one then b15_eob else b14_eob in body ++ e ++ t = body' ++ e ++ t' -> rls = rls' /\ body = body' /\ t = t'.
Proof.
  intros one n rls body H. induction H as [n|n run level rls c bits C S IH]; intros rls' body' t t' N0 Nn H' e E.
  - inversion H' as [|? run level rls2 c bits C S]; subst; [cbn [app] in E; apply app_inv_head in E; auto|]. exfalso. cbn [app] in E. rewrite <- app_assoc in E.
    assert (F : (n =? 0) = false) by (destruct (Z.eqb_spec n 0) as [X|X]; [destruct (N0 X) as (Y & _); now elim Y | reflexivity]).
    assert (Eb : dct_code one (n =? 0) e EndOfBlock) by (rewrite F; apply code_eob; reflexivity).
    destruct (symbol_clear one n _ _ _ _ _ _ Eb C E) as (Q & _). discriminate.
  - inversion H' as [|? run' level' rls2 c' bits' C' S']; subst.
    + exfalso. cbn [app] in E. rewrite <- app_assoc in E.
      assert (F : (n =? 0) = false) by (destruct (Z.eqb_spec n 0) as [X|X]; [destruct (N0 X) as (_ & Y); now elim Y | reflexivity]).
      assert (Eb : dct_code one (n =? 0) e EndOfBlock) by (rewrite F; apply code_eob; reflexivity).
      destruct (symbol_clear one n _ _ _ _ _ _ C Eb E) as (Q & _). discriminate.
    + rewrite <- !app_assoc in E. destruct (symbol_clear one n _ _ _ _ _ _ C C' E) as (Q & -> & E2). injection Q as -> ->.
      pose proof (dct_code_run _ _ _ _ _ C) as Rr. destruct (IH rls2 bits' t t' ltac:(lia) ltac:(lia) S' E2) as (-> & -> & ->). auto.
Qed.
Lemma coded_clear : forall one n, 0 <= n -> clear (coded_from one n).
Proof.
  intros one n Nn rls c t rls' c' t' (N & body & S & ->) (N' & body' & S' & ->) E. rewrite <- !app_assoc in E. destruct (rest_clear one n rls body S rls' body' t t' ltac:(auto) Nn S' E) as (-> & -> & ->). auto.
Qed.
Lemma intra_clear : forall P blocks blocks' p i c c' t t', length blocks = length blocks' -> intra_code P p i blocks c -> intra_code P p i blocks' c' -> c ++ t = c' ++ t' -> blocks = blocks' /\ c = c' /\ t = t'.
Proof.
  intros P. induction blocks as [|[dc rls] bl IH]; intros [|[dc' rls'] bl'] p i c c' t t' L H H' E; try discriminate L; cbn [intra_code] in *; [subst; auto|].
  destruct H as (c1 & c2 & c3 & -> & D & R & H), H' as (c1' & c2' & c3' & -> & D' & R' & H'). rewrite <- !app_assoc in E.
  destruct (dc_clear _ _ _ _ _ _ _ D D' E) as (Q & -> & E2). assert (dc = dc') as -> by lia. destruct (coded_clear _ 1 ltac:(lia) _ _ _ _ _ _ R R' E2) as (-> & -> & E3).
  injection L as L. destruct (IH _ _ _ _ _ _ _ L H H' E3) as (-> & -> & ->). auto.
Qed.
Lemma inter_clear : forall blocks blocks' c c' t t', map some blocks = map some blocks' -> inter_code blocks c -> inter_code blocks' c' -> c ++ t = c' ++ t' -> blocks = blocks' /\ c = c' /\ t = t'.
Proof.
  induction blocks as [|[rls|] bl IH]; intros [|[rls'|] bl'] c c' t t' M H H' E; try discriminate M; cbn [inter_code] in *; [subst; auto| |].
  - destruct H as (c1 & c2 & -> & R & H), H' as (c1' & c2' & -> & R' & H'). rewrite <- !app_assoc in E. destruct (coded_clear _ 0 ltac:(lia) _ _ _ _ _ _ R R' E) as (-> & -> & E2).
    injection M as M. destruct (IH _ _ _ _ _ M H H' E2) as (-> & -> & ->). auto.
  - injection M as M. destruct (IH _ _ _ _ _ M H H' E) as (-> & -> & ->). auto.
Qed.
Lemma pattern_inj : forall b b', length b = length b' -> pattern_of b = pattern_of b' -> map some b = map some b'.
Proof.
  assert (G : forall (b b' : list (option (list (Z * Z)))) a a', length b = length b' ->
    fold_left (fun a x => 2 * a + Z.b2z (some x)) b a = fold_left (fun a x => 2 * a + Z.b2z (some x)) b' a' -> a = a' /\ map some b = map some b').
  { induction b as [|x b IH]; intros [|x' b'] a a' L E; try discriminate L; [auto|]. cbn [fold_left map] in *. injection L as L. destruct (IH _ _ _ L E) as (Q & ->).
    destruct (some x), (some x'); cbn [Z.b2z] in Q; first [split; [lia | reflexivity] | lia]. }
  intros b b' L E. exact (proj2 (G _ _ _ _ L E)).
Qed.

(** * Macroblocks *)
Lemma mb_clear : forall P s b b' c c' t t', params_ok P -> formed P b -> formed P b' -> mb_code P s b c -> mb_code P s b' c' -> c ++ t = c' ++ t' -> b = b' /\ c = c' /\ t = t'.
Proof.
  intros P s b b' c c' t t' (_ & _ & _ & _ & F0 & F1 & F2 & F3 & _) (C & Q & B) (C' & Q' & B') (ci & ct & cf & cb & cd & HI & HT & HF & HB & HD & ->) (ci' & ct' & cf' & cb' & cd' & HI' & HT' & HF' & HB' & HD' & ->) E.
  rewrite <- !app_assoc in E. destruct (incr_clear _ _ _ _ _ _ HI HI' E) as (N & -> & E1). destruct (type_clear _ _ _ _ _ _ _ HT HT' E1) as (T & -> & E2). injection T as TQ TF TB TC TI. clear E E1.
  assert (SF : some (b_forward b) = some (b_forward b')).
  { unfold is_forward in TF. destruct (is_intra b); [rewrite (C eq_refl), (C' (eq_sym TI)); reflexivity|]. rewrite <- TI in TF. now rewrite !andb_true_r in TF. }
  rewrite <- TF, <- TB, <- TC, <- TI in E2.
  set (m := (is_forward b || some (b_backward b)) && negb (e_fpfd (pp_pce P))) in *. apply app_inv_head in E2.
  set (g := negb (e_fpfd (pp_pce P)) && (is_intra b || is_coded b)) in *.
  assert (E3 : field_dct (b_body b) = field_dct (b_body b') /\ forall u u', (if g then [field_dct (b_body b)] else []) ++ u = (if g then [field_dct (b_body b')] else []) ++ u' -> u = u').
  { split.
    - destruct g eqn:G; [injection E2 as E2 _; exact E2|]. unfold g in G. unfold is_intra, is_coded in *. destruct (b_body b) as [f bl|bl|], (b_body b') as [f' bl'|bl'|]; try discriminate TI; cbn [field_dct orb] in *; try reflexivity.
      rewrite andb_true_r in G. apply negb_false_iff in G. destruct B as (_ & B), B' as (_ & B'). now rewrite B, B'.
    - intros u u' X. destruct g; [now injection X | exact X]. }
  destruct E3 as (FD & E3). apply E3 in E2. clear E3.
  assert (E4 : b_quant b = b_quant b' /\ cf ++ cb ++ (if is_intra b && e_conceal (pp_pce P) then [true] else []) ++ cd ++ t = cf' ++ cb' ++ (if is_intra b && e_conceal (pp_pce P) then [true] else []) ++ cd' ++ t').
  { destruct (b_quant b) as [q|], (b_quant b') as [q'|]; try discriminate TQ; [|auto]. apply enc_clear in E2; [|cbn; lia..]. destruct E2 as (-> & E2). auto. }
  destruct E4 as (EQ & E4). clear E2.
  assert (PB : ps_fwd (ps_before P s b) = ps_fwd (ps_before P s b') /\ ps_bwd (ps_before P s b) = ps_bwd (ps_before P s b') /\ ps_dc (ps_before P s b) = ps_dc (ps_before P s b')).
  { unfold ps_before. cbn [ps_fwd ps_bwd ps_dc]. rewrite N, TF, TI. auto. }
  destruct PB as (P1 & P2 & P3). rewrite P1 in HF. rewrite P2 in HB.
  destruct (opt_clear _ _ _ _ _ _ _ _ _ F0 F1 SF HF HF' E4) as (VF & -> & E5). destruct (opt_clear _ _ _ _ _ _ _ _ _ F2 F3 TB HB HB' E5) as (VB & -> & E6). apply app_inv_head in E6. clear E4 E5.
  assert (X : b_body b = b_body b' /\ cd = cd' /\ t = t').
  { unfold is_intra, is_coded in *. destruct (b_body b) as [f bl|bl|], (b_body b') as [f' bl'|bl'|]; try discriminate TI; try discriminate TC; cbn [body_code field_dct] in *.
    - rewrite P3 in HD. assert (LL : length bl = length bl') by (rewrite (proj1 B), (proj1 B'); reflexivity). destruct (intra_clear _ _ _ _ _ _ _ _ _ LL HD HD' E6) as (-> & -> & ->). subst f'. auto.
    - destruct HD as (c1 & c2 & -> & CB & HD), HD' as (c1' & c2' & -> & CB' & HD'). rewrite <- !app_assoc in E6. destruct (cbp_clear _ _ _ _ _ _ CB CB' E6) as (PT & -> & E7).
      apply pattern_inj in PT; [|congruence]. destruct (inter_clear _ _ _ _ _ _ PT HD HD' E7) as (-> & -> & ->). auto.
    - subst. auto. }
  destruct X as (BB & -> & ->). assert (b = b') as -> by (destruct b as [n1 q1 f1 k1 y1], b' as [n2 q2 f2 k2 y2]; cbn [b_incr b_quant b_forward b_backward b_body] in *; congruence). auto.
Qed.

Lemma ok_formed : forall P row addr s b c, SpecPicture.mb_ok P row addr s b -> mb_code P s b c -> formed P b.
Proof.
  intros P row addr s b c (_ & _ & B & C & Q & _) _. split; [exact C|]. split; [destruct (b_quant b); [lia | exact I]|]. destruct (b_body b); cbn [body_ok] in B; tauto.
Qed.
Lemma breaks_not : forall P row addr s b, SpecPicture.mb_ok P row addr s b -> breaks P row addr s b -> False.
Proof.
  intros P row addr s b (N & M & B & C & Q & A & V1 & V2 & SK) H. destruct H as [H|H|f bl x H I O|H|H|A0 I1 T|c A0 I1 T E O|col A0 T I O].
  - rewrite H in Q. lia.
  - unfold mb_in in M. lia.
  - rewrite H in B. destruct B as (_ & _ & B). rewrite Forall_forall in B. destruct (B x I) as (B1 & _). contradiction.
  - exact (outside_not _ _ _ _ H V1).
  - exact (outside_not _ _ _ _ H V2).
  - destruct (SK A0 I1) as (X & _). contradiction.
  - destruct (SK A0 I1) as (_ & X & _). destruct (X T) as (c' & E' & W & Hh). rewrite E in E'. injection E' as <-. destruct O; contradiction.
  - destruct (SK A0 ltac:(lia)) as (_ & _ & X). destruct (X T col I) as (X1 & X2). destruct O as [O|O]; [exact (outside_not _ _ _ _ O X1) | exact (outside_not _ _ _ _ O X2)].
Qed.
Lemma field_not : forall y P s b c t c' t', layer_for y P -> mb_code P s b c -> field_mb y c' -> c ++ t = c' ++ t' -> False.
Proof.
  intros y P s b c t c' t' (HT & HE & _) (ci & ct & cf & cb & cd & HI & HTy & HF & HB & HD & ->) (NF & n & q & fw & bw & pt & intra & ci' & ct' & HI' & HTy' & X) E.
  rewrite HT in HTy'. unfold y_fpfd in NF. rewrite HE in NF. rewrite NF in E. cbn [negb andb] in E. rewrite andb_true_r in E.
  destruct X as [(M & ->)|(-> & ->)]; rewrite <- !app_assoc in E; destruct (incr_clear _ _ _ _ _ _ HI HI' E) as (_ & -> & E1); destruct (type_clear _ _ _ _ _ _ _ HTy HTy' E1) as (T & -> & E2); injection T as TQ TF TB TC TI.
  - rewrite TF, TB, M in E2. apply enc_clear in E2; [|cbn; lia..]. destruct E2; discriminate.
  - rewrite TF, TB, TC, orb_true_r in E2. apply app_inv_head in E2. injection E2 as E2 _. unfold is_coded in TC. destruct (b_body b); discriminate.
Qed.
Lemma cut_not : forall y P s b c t c' t', layer_for y P -> params_ok P -> formed P b -> mb_code P s b c -> mb_cut y c' -> c ++ t = c' ++ t' -> False.
Proof.
  intros y P s b c t c' t' LY PO (C & Q & B) (ci & ct & cf & cb & cd & HI & HTy & HF & HB & HD & ->) (quant & fw & bw & intra & c1 & -> & Hd) E.
  pose proof LY as (HT & HE & HC). pose proof PO as (TY & ST & CF & _).
  assert (Fr : y_frame y = true) by (unfold y_frame; rewrite HE, ST; reflexivity).
  assert (Fp : y_fpfd y = e_fpfd (pp_pce P)) by (unfold y_fpfd; now rewrite HE).
  unfold mb_head_syn, mb_head_at in Hd. rewrite Fr in Hd. rewrite HE in Hd. cbn [andb] in Hd.
  destruct Hd as (n & tm & form & ci' & ct' & c_motion & c_dct & c_quant & c_fwd & c_bwd & c_marker & -> & HI' & Ty & Mo & Dc & Qu & Fo & Fw & Bw & Mk).
  rewrite <- !app_assoc in E. destruct (incr_clear _ _ _ _ _ _ HI HI' E) as (_ & -> & E1). rewrite HT in Ty. destruct (type_clear _ _ _ _ _ _ _ HTy Ty E1) as (T & -> & E2). injection T as TQ TF TB TC TI. clear E E1.
  destruct (mbt_rows _ ct' quant fw bw true intra TY Ty) as (R1 & R2 & R3 & R4 & R5).
  assert (intra = false) as -> by (destruct intra; [destruct (R1 eq_refl) as (_ & _ & X); discriminate | reflexivity]).
  rewrite TF, TB, TC, TI in E2. cbn [orb andb only_if] in *. rewrite orb_false_r in *. subst c_marker. rewrite Fp in *. rewrite andb_true_r in *.
  (* the motion type *)
  assert (E3 : (if negb (e_fpfd (pp_pce P)) then [field_dct (b_body b)] else []) ++ match b_quant b with Some q => enc 5 q | None => [] end ++ cf ++ cb ++ cd ++ t = c_dct ++ c_quant ++ c_fwd ++ c_bwd ++ repeat false 9 ++ t' /\ (fw || bw = true -> form = OneFrame)).
  { destruct ((fw || bw) && negb (e_fpfd (pp_pce P))) eqn:MO; cbn [only_if] in Mo.
    - destruct Mo as (T4 & ->). apply enc_clear in E2; [|cbn; lia..]. destruct E2 as (<- & E2). split; [exact E2|]. intro X. specialize (Fo X). unfold form_of in Fo. rewrite Fr in Fo. destruct (y_fpfd y); [exact Fo|]. destruct Fo as [(X2 & _)|(_ & Fo)]; [discriminate | exact Fo].
    - subst c_motion. split; [exact E2|]. intro X. specialize (Fo X). rewrite X in MO. cbn [andb] in MO. apply negb_false_iff in MO. unfold form_of in Fo. rewrite Fp, MO in Fo. exact Fo. }
  destruct E3 as (E3 & FF). clear E2.
  assert (E4 : match b_quant b with Some q => enc 5 q | None => [] end ++ cf ++ cb ++ cd ++ t = c_quant ++ c_fwd ++ c_bwd ++ repeat false 9 ++ t').
  { apply dct_parse in Dc. destruct Dc as (df & _ & ->). destruct (negb (e_fpfd (pp_pce P))); [now injection E3 | exact E3]. }
  clear E3. apply quant_parse in Qu. destruct Qu as (qo & Qs & -> & Qr).
  assert (E5 : cf ++ cb ++ cd ++ t = c_fwd ++ c_bwd ++ repeat false 9 ++ t').
  { rewrite <- Qs in TQ. destruct (b_quant b) as [q|], qo as [q'|]; try discriminate TQ; [|exact E4]. apply enc_clear in E4; [|cbn; lia..]. apply E4. }
  clear E4.
  assert (Fw2 : only_if fw (vector_syn y 0) c_fwd) by (destruct fw; [rewrite (FF eq_refl) in Fw; exact Fw | exact Fw]).
  assert (Bw2 : only_if bw (vector_syn y 1) c_bwd) by (destruct bw; [rewrite (FF (orb_true_r fw)) in Bw; exact Bw | exact Bw]).
  destruct (opt_parse y P 0 (ps_fwd (ps_before P s b)) fw c_fwd LY PO Fw2) as (vf & Vs & Vc). destruct (opt_parse y P 1 (ps_bwd (ps_before P s b)) bw c_bwd LY PO Bw2) as (vb & Vs2 & Vc2).
  unfold y_f in Vc, Vc2. rewrite HE in Vc, Vc2. destruct PO as (_ & _ & _ & _ & F0 & F1 & F2 & F3 & _).
  assert (SF : some (b_forward b) = some vf) by (rewrite Vs, <- TF; unfold is_forward; rewrite TI; cbn [negb]; now rewrite andb_true_r).
  assert (SB : some (b_backward b) = some vb) by congruence.
  destruct (opt_clear _ _ _ _ _ _ _ _ _ F0 F1 SF HF Vc E5) as (_ & _ & E6). destruct (opt_clear _ _ _ _ _ _ _ _ _ F2 F3 SB HB Vc2 E6) as (_ & _ & E7).
  (* no code of table B-9 begins with nine zero bits *)
  unfold is_coded in TC. destruct (b_body b) as [f bl|bl|]; try discriminate TC. destruct HD as (k1 & k2 & -> & (_ & v & w & Nt & ->) & _). rewrite <- app_assoc in E7.
  assert (W : exists i, (i < 9)%nat /\ nth i (enc (Z.to_nat w) v) false = true).
  { apply nth_error_In in Nt. revert Nt. clear. intro Nt. cbn [In b9] in Nt. repeat (destruct Nt as [Nt|Nt]; [injection Nt as <- <-; first [exists 0%nat; split; [lia | reflexivity] | exists 1%nat; split; [lia | reflexivity] | exists 2%nat; split; [lia | reflexivity] | exists 3%nat; split; [lia | reflexivity] | exists 4%nat; split; [lia | reflexivity] | exists 5%nat; split; [lia | reflexivity] | exists 6%nat; split; [lia | reflexivity] | exists 7%nat; split; [lia | reflexivity] | exists 8%nat; split; [lia | reflexivity]]|]). contradiction. }
  destruct W as (i & L9 & W). apply (f_equal (fun l => nth i l false)) in E7. rewrite (app_nth1 (repeat false 9)) in E7 by (rewrite repeat_length; lia). rewrite nth_repeat in E7.
  destruct (Nat.lt_ge_cases i (length (enc (Z.to_nat w) v))) as [Li|Li]; [rewrite app_nth1 in E7 by exact Li; congruence | rewrite nth_overflow in W by exact Li; discriminate].
Qed.

(** * Slices *)
(** No macroblock begins in [t]: zero bits, then nothing or a start code. *)
Definition quiet (t : list bool) : Prop := exists j u, t = repeat false j ++ u /\ (u = [] \/ exists w, u = prefix ++ w).
Lemma quiet_zeros : forall t i, quiet t -> (i < 23)%nat -> nth i t false = false.
Proof.
  intros t i (j & u & -> & H) L. destruct (Nat.lt_ge_cases i j) as [X|X]; [rewrite app_nth1 by (rewrite repeat_length; lia); apply nth_repeat|].
  rewrite app_nth2, repeat_length by (rewrite repeat_length; lia). destruct H as [->|(w & ->)]; [now destruct (i - j)%nat|]. rewrite app_nth1 by (change (length prefix) with 24%nat; lia).
  assert (B : (i - j < 23)%nat) by lia. revert B. generalize (i - j)%nat. intros k B. do 23 (destruct k as [|k]; [reflexivity|]). lia.
Qed.
Lemma quiet_not : forall n c t u, incr_code n c -> quiet u -> c ++ t <> u.
Proof.
  intros n c t u H Q E. destruct (incr_start _ _ H) as (a & w & -> & L & I). apply (In_nth _ _ false) in I. destruct I as (i & Li & X).
  pose proof (quiet_zeros u i Q ltac:(lia)) as Z0. rewrite <- E, app_nth1, app_nth1 in Z0 by (rewrite ?app_length; lia). congruence.
Qed.
Lemma mb_starts : forall P s b c, mb_code P s b c -> exists n c0 u, incr_code n c0 /\ c = c0 ++ u.
Proof. intros P s b c (ci & ct & cf & cb & cd & HI & _ & _ & _ & _ & ->). eauto. Qed.
Lemma wrong_starts : forall y P row addr s c, mb_wrong y P row addr s c -> exists n c0 u, incr_code n c0 /\ c = c0 ++ u.
Proof.
  intros y P row addr s c (c1 & c2 & -> & H).
  assert (X : exists n c0 u, incr_code n c0 /\ c1 = c0 ++ u).
  { destruct H as [(b & _ & M & _)|[(_ & n & q & f & k & p & i & ci & ct & HI & _ & [(_ & ->)|(_ & ->)])|(q & f & k & i & c3 & -> & Hd)]]; [eapply mb_starts; eauto|eauto|eauto|].
    destruct Hd as (n & tm & form & ci' & ct' & c_motion & c_dct & c_quant & c_fwd & c_bwd & c_marker & -> & HI' & _). exists n, ci'. eexists. split; [exact HI'|]. rewrite <- !app_assoc. reflexivity. }
  destruct X as (n & c0 & u & HI & ->). exists n, c0, (u ++ c2). split; [exact HI | now rewrite app_assoc].
Qed.
Lemma mbs_clear : forall P row, params_ok P -> forall mbs' addr s mbs c c' t t', quiet t -> mbs_code P row addr s mbs c -> mbs_code P row addr s mbs' c' -> c ++ t = c' ++ t' ->
  exists mbs2 c2, mbs = mbs' ++ mbs2 /\ c = c' ++ c2 /\ t' = c2 ++ t /\ let '(a, s') := after_mbs P addr s mbs' in mbs_code P row a s' mbs2 c2.
Proof.
  intros P row PO. induction mbs' as [|b' mbs' IH]; intros addr s mbs c c' t t' Qt H H' E; cbn [mbs_code after_mbs] in *.
  - subst c'. cbn [app] in E. exists mbs, c. auto.
  - destruct H' as (Ok' & c1' & c2' & -> & M' & H'). destruct mbs as [|b mbs]; cbn [mbs_code] in H.
    + exfalso. subst c. destruct (mb_starts _ _ _ _ M') as (n & c0 & u & HI & ->). cbn [app] in E. rewrite <- !app_assoc in E. eapply (quiet_not n c0); [exact HI | exact Qt | symmetry; exact E].
    + destruct H as (Ok_ & c1 & c2 & -> & M & H). rewrite <- !app_assoc in E. destruct (mb_clear P s b b' _ _ _ _ PO (ok_formed _ _ _ _ _ _ Ok_ M) (ok_formed _ _ _ _ _ _ Ok' M') M M' E) as (-> & -> & E2).
      destruct (IH _ _ _ _ _ _ _ Qt H H' E2) as (mbs2 & c3 & -> & -> & -> & X). exists mbs2, c3. split; [reflexivity|]. split; [now rewrite app_assoc|]. auto.
Qed.
Lemma code_clear : forall a b t t', 0 <= a < 256 -> 0 <= b < 256 -> code a ++ t = code b ++ t' -> a = b /\ t = t'.
Proof. intros a b t t' Ha Hb E. unfold code in E. rewrite <- !app_assoc in E. apply app_inv_head in E. apply (enc_clear 8) in E; [exact E | cbn; lia | cbn; lia]. Qed.
Definition flags_ok (fl : option (bool * list Z)) : Prop := match fl with Some (_, extra) => bytes extra | None => True end.
Lemma flags_clear : forall fl fl' t t', flags_ok fl -> flags_ok fl' -> flags_code fl ++ t = flags_code fl' ++ t' -> fl = fl' /\ t = t'.
Proof.
  assert (G : forall e e' t t', bytes e -> bytes e' -> flat_map (fun b => [true] ++ enc 8 b) e ++ [false] ++ t = flat_map (fun b => [true] ++ enc 8 b) e' ++ [false] ++ t' -> e = e' /\ t = t').
  { induction e as [|x e IH]; intros [|x' e'] t t' B B' E; cbn [flat_map app] in E.
    - injection E as ->. auto.
    - discriminate E.
    - discriminate E.
    - apply (f_equal (@tl bool)) in E. cbn [tl] in E. inversion B as [|? ? X B2]; subst. inversion B' as [|? ? X' B2']; subst. rewrite <- !app_assoc in E.
      apply (enc_clear 8) in E; [|exact X|exact X']. destruct E as (-> & E). destruct (IH _ _ _ B2 B2' E) as (-> & ->). auto. }
  intros [[i e]|] [[i' e']|] t t' H H' E; unfold flags_code in E; cbn [flags_ok] in *; rewrite <- !app_assoc in E.
  - cbn [app] in E. assert (Ei : i = i') by (apply (f_equal (fun l => nth 1 l false)) in E; exact E). subst i'. apply (f_equal (skipn 2)) in E. cbn [skipn] in E. apply app_inv_head in E. destruct (G _ _ _ _ H H' E) as (-> & ->). auto.
  - discriminate E.
  - discriminate E.
  - cbn [app] in E. injection E as ->. auto.
Qed.
Lemma stuffing_zeros : forall n k, exists j, stuffing n k = repeat false j.
Proof. intros n k. unfold stuffing. rewrite bb_zeros, <- repeat_app. eauto. Qed.
Lemma zeros_then : forall j j' w w', repeat false j ++ prefix ++ w = repeat false j' ++ prefix ++ w' -> w = w'.
Proof.
  assert (P : prefix = repeat false 23 ++ [true]) by reflexivity.
  assert (G : forall j j' w w', repeat false j ++ true :: w = repeat false j' ++ true :: w' -> w = w').
  { induction j as [|j IH]; intros [|j'] w w' E; cbn [repeat app] in E; try discriminate E; injection E as E; eauto. }
  intros j j' w w' E. rewrite P, <- !app_assoc, !app_assoc, <- !repeat_app in E. cbn [app] in E. rewrite <- !app_assoc in E. cbn [app] in E. eapply G. exact E.
Qed.
Lemma zeros_not : forall j j' w, repeat false j <> repeat false j' ++ prefix ++ w.
Proof. intros j j' w E. assert (I : In true (repeat false j)) by (rewrite E; apply in_or_app; right; apply in_or_app; left; vm_compute; tauto). apply repeat_spec in I. discriminate. Qed.

Definition some_slices (P : params) (ls : list sslice) (c : list bool) : Prop := (ls = [] /\ c = []) \/ slices_code P ls c.
Lemma some_cons : forall P l ls c, some_slices P (l :: ls) c -> exists c1 d, c = c1 ++ d /\ slice_code P l c1 /\ some_slices P ls d.
Proof.
  intros P l ls c [(X & _)|H]; [discriminate|]. inversion H as [? ? S|? ? ? ? S H2]; subst.
  - exists c, []. split; [now rewrite app_nil_r|]. split; [exact S | left; auto].
  - eexists _, _. split; [reflexivity|]. split; [exact S | right; exact H2].
Qed.
Lemma slices_begin : forall P ls c, some_slices P ls c -> c = [] \/ exists w, c = prefix ++ w.
Proof.
  intros P [|l ls] c H; [destruct H as [(_ & ->)|H]; [now left | inversion H]|]. right. apply some_cons in H. destruct H as (c1 & d & -> & (_ & _ & _ & _ & _ & c2 & _ & ->) & _). unfold stuffed, code. rewrite <- !app_assoc. eauto.
Qed.
Lemma wrong_begin : forall y P c, slice_wrong y P c -> exists w, c = prefix ++ w.
Proof. intros y P c (row & q & fl & c1 & _ & _ & _ & -> & _). unfold code. rewrite <- !app_assoc. eauto. Qed.
Theorem slices_not_wrong : forall y P c2, layer_for y P -> params_ok P -> slice_wrong y P c2 ->
  forall ls' ls c c1, some_slices P ls c -> some_slices P ls' c1 -> c = c1 ++ c2 -> False.
Proof.
  intros y P c2 LY PO W. induction ls' as [|l' ls' IH]; intros ls c c1 H H' E.
  - assert (c1 = []) as -> by (destruct H' as [(_ & X)|X]; [exact X | inversion X]). cbn [app] in E. subst c.
    destruct ls as [|l ls].
    { assert (c2 = []) as -> by (destruct H as [(_ & X)|X]; [exact X | inversion X]). destruct (wrong_begin _ _ _ W) as (w & X). discriminate X. }
    apply some_cons in H. destruct H as (c3 & d & E & (R & Rh & Rq & _ & Fl & c4 & Ms & ->) & H). destruct W as (row & q & fl & c5 & Wr & Wq & Wf & -> & W).
    unfold stuffed in E. destruct (stuffing_zeros (length (code (sl_row l + 1) ++ enc 5 (sl_q l) ++ flags_code (sl_flags l) ++ c4)) (sl_k l)) as (j & Ej). rewrite Ej in E. clear Ej. rewrite <- !app_assoc in E.
    apply code_clear in E; [|lia..]. destruct E as (Er & E). apply (enc_clear 5) in E; [|cbn; lia..]. destruct E as (Eq & E). apply flags_clear in E; [|exact Wf|exact Fl]. destruct E as (_ & E). assert (row = sl_row l) as -> by lia. subst q.
    destruct W as [W|[W|(mbs & c6 & c7 & -> & Mw & W)]]; [lia|lia|].
    assert (Qt : quiet (repeat false j ++ d)) by (exists j, d; split; [reflexivity | eapply slices_begin; eauto]).
    symmetry in E. destruct (mbs_clear P _ PO mbs _ _ _ _ _ _ _ Qt Ms Mw E) as (mbs2 & c8 & _ & _ & -> & X). destruct (after_mbs P (-1) (ps_start P (sl_q l)) mbs) as [a s'].
    destruct mbs2 as [|b mbs2]; cbn [mbs_code] in X.
    + subst c8. destruct (wrong_starts _ _ _ _ _ _ W) as (n & c0 & u & HI & X). cbn [app] in X. eapply quiet_not; [exact HI | exact Qt | symmetry; exact X].
    + destruct X as (Ok_ & c9 & c10 & -> & M & _). destruct W as (k1 & k2 & Ek & W). rewrite <- !app_assoc in Ek. pose proof (ok_formed _ _ _ _ _ _ Ok_ M) as Fb.
      destruct W as [(b' & Fb' & M' & Br)|[F|C]].
      * destruct (mb_clear P s' b b' _ _ _ _ PO Fb Fb' M M' Ek) as (<- & _). exact (breaks_not _ _ _ _ _ Ok_ Br).
      * exact (field_not _ _ _ _ _ _ _ _ LY M F Ek).
      * exact (cut_not _ _ _ _ _ _ _ _ LY PO Fb M C Ek).
  - apply some_cons in H'. destruct H' as (e1 & d' & -> & (R' & Rh' & Rq' & _ & Fl' & e4 & Ms' & ->) & H'). unfold stuffed in E.
    destruct (stuffing_zeros (length (code (sl_row l' + 1) ++ enc 5 (sl_q l') ++ flags_code (sl_flags l') ++ e4)) (sl_k l')) as (j' & Ej). rewrite Ej in E. clear Ej.
    destruct ls as [|l ls].
    { assert (c = []) as -> by (destruct H as [(_ & X)|X]; [exact X | inversion X]). unfold code in E. rewrite <- !app_assoc in E. discriminate E. }
    apply some_cons in H. destruct H as (c3 & d & -> & (R & Rh & Rq & _ & Fl & c4 & Ms & ->) & H).
    unfold stuffed in E. destruct (stuffing_zeros (length (code (sl_row l + 1) ++ enc 5 (sl_q l) ++ flags_code (sl_flags l) ++ c4)) (sl_k l)) as (j & Ej). rewrite Ej in E. clear Ej. rewrite <- !app_assoc in E.
    apply code_clear in E; [|lia..]. destruct E as (Er & E). apply (enc_clear 5) in E; [|cbn; lia..]. destruct E as (Eq & E). apply flags_clear in E; [|exact Fl|exact Fl']. destruct E as (_ & E). assert (Er2 : sl_row l' = sl_row l) by lia. rewrite Er2, <- Eq in Ms'.
    assert (Qt : quiet (repeat false j ++ d)) by (exists j, d; split; [reflexivity | eapply slices_begin; eauto]).
    assert (Wb : exists w, d' ++ c2 = prefix ++ w).
    { destruct (slices_begin _ _ _ H') as [->|(w & ->)]; [exact (wrong_begin _ _ _ W) | exists (w ++ c2); now rewrite <- app_assoc]. }
    destruct Wb as (w & Ew).
    assert (Qt' : quiet (repeat false j' ++ d' ++ c2)) by (exists j', (d' ++ c2); split; [reflexivity | right; eauto]).
    destruct (mbs_clear P _ PO _ _ _ _ _ _ _ _ Qt Ms Ms' E) as (mbs2 & c8 & _ & _ & E2 & X). destruct (after_mbs P (-1) (ps_start P (sl_q l)) (sl_mbs l')) as [a s'].
    destruct mbs2 as [|b mbs2]; cbn [mbs_code] in X.
    + subst c8. cbn [app] in E2. rewrite Ew in E2. destruct (slices_begin _ _ _ H) as [->|(w2 & ->)].
      * rewrite app_nil_r in E2. eapply zeros_not. symmetry. exact E2.
      * apply zeros_then in E2. subst w2. apply (IH ls _ d' H H'). now rewrite Ew.
    + destruct X as (_ & c9 & c10 & -> & M & _). destruct (mb_starts _ _ _ _ M) as (n & c0 & u & HI & ->). rewrite <- !app_assoc in E2. eapply quiet_not; [exact HI | exact Qt' | symmetry; exact E2].
Qed.
Lemma zeros_until : forall j j' w w', (w = [] \/ exists u, w = prefix ++ u) -> (w' = [] \/ exists u, w' = prefix ++ u) -> repeat false j ++ w = repeat false j' ++ w' -> j = j' /\ w = w'.
Proof.
  intros j j' w w' [->|(u & ->)] [->|(u' & ->)] E.
  - rewrite !app_nil_r in E. apply (f_equal (@length bool)) in E. rewrite !repeat_length in E. auto.
  - rewrite app_nil_r in E. now apply zeros_not in E.
  - rewrite app_nil_r in E. symmetry in E. now apply zeros_not in E.
  - assert (Eu := zeros_then _ _ _ _ E). subst u'. apply app_inv_tail in E. apply (f_equal (@length bool)) in E. rewrite !repeat_length in E. auto.
Qed.
Lemma slices_unique : forall P, params_ok P -> forall ls ls' c, some_slices P ls c -> some_slices P ls' c -> ls = ls'.
Proof.
  intros P PO. induction ls as [|l ls IH]; intros [|l' ls'] c H H'; [reflexivity| | |].
  - exfalso. assert (c = []) as -> by (destruct H as [(_ & X)|X]; [exact X | inversion X]). apply some_cons in H'. destruct H' as (c1 & d & E & (_ & _ & _ & _ & _ & c4 & _ & ->) & _). unfold stuffed, code in E. rewrite <- !app_assoc in E. discriminate E.
  - exfalso. assert (c = []) as -> by (destruct H' as [(_ & X)|X]; [exact X | inversion X]). apply some_cons in H. destruct H as (c1 & d & E & (_ & _ & _ & _ & _ & c4 & _ & ->) & _). unfold stuffed, code in E. rewrite <- !app_assoc in E. discriminate E.
  - apply some_cons in H. destruct H as (c3 & d & -> & (R & Rh & Rq & _ & Fl & c4 & Ms & ->) & H). apply some_cons in H'. destruct H' as (c3' & d' & E & (R' & Rh' & Rq' & _ & Fl' & c4' & Ms' & ->) & H').
    unfold stuffed in E. rewrite <- !app_assoc in E. set (n := length _) in E. set (n' := length (code (sl_row l' + 1) ++ _)) in E.
    apply code_clear in E; [|lia..]. destruct E as (Er & E). apply (enc_clear 5) in E; [|cbn; lia..]. destruct E as (Eq & E). apply flags_clear in E; [|exact Fl|exact Fl']. destruct E as (Ef & E). assert (Er2 : sl_row l' = sl_row l) by lia. rewrite Er2, <- Eq in Ms'.
    assert (Qt : forall m k e lz, some_slices P lz e -> quiet (stuffing m k ++ e)) by (intros m k e lz X; destruct (stuffing_zeros m k) as (j & ->); exists j, e; split; [reflexivity | eapply slices_begin; eauto]).
    destruct (mbs_clear P _ PO _ _ _ _ _ _ _ _ (Qt n (sl_k l) _ _ H) Ms Ms' E) as (mbs2 & c8 & Em & Ec & E2 & X). destruct (after_mbs P (-1) (ps_start P (sl_q l)) (sl_mbs l')) as [a s'].
    destruct mbs2 as [|b mbs2]; cbn [mbs_code] in X.
    + subst c8. rewrite app_nil_r in Em, Ec. cbn [app] in E2.
      assert (n' = n) by (unfold n, n'; rewrite Er2, Eq, Ef, Ec; reflexivity). clearbody n n'. subst n'.
      destruct (stuffing_zeros n (sl_k l)) as (j & Ej). destruct (stuffing_zeros n (sl_k l')) as (j' & Ej'). rewrite Ej, Ej' in E2. apply zeros_until in E2; [|eapply slices_begin; eauto..]. destruct E2 as (Ejj & Ed).
      assert (sl_k l = sl_k l').
      { rewrite Ejj, <- Ej in Ej'. unfold stuffing in Ej'. apply app_inv_head in Ej'. apply (f_equal (@length bool)) in Ej'. rewrite !bb_zeros, !repeat_length in Ej'. lia. }
      f_equal; [destruct l as [x1 x2 x3 x4 x5], l' as [z1 z2 z3 z4 z5]; cbn [sl_row sl_q sl_flags sl_mbs sl_k] in *; congruence|]. subst d'. exact (IH _ _ H H').
    + exfalso. destruct X as (_ & c9 & c10 & -> & M & _). destruct (mb_starts _ _ _ _ M) as (m & c0 & u & HI & ->). rewrite <- !app_assoc in E2. eapply quiet_not; [exact HI | exact (Qt n' (sl_k l') _ _ H') | symmetry; exact E2].
Qed.
