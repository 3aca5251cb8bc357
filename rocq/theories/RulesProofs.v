(** RulesProofs: data that follows the syntax is a coding of macroblocks, or breaks one of the rules of SpecRules. *)
From Verif Require Import Base BitReader VlcProofs SpecVlc SpecBlock VidModel SpecVid SpecMotion SpecNext SpecPicture SpecSyntax SpecRules.

(** * Bits and numbers *)
Lemma width_enc : forall n c, width n c -> exists z, 0 <= z < 2 ^ Z.of_nat n /\ c = enc n z.
Proof.
  intros n c H. unfold width in H. exists (dec c). assert (E : enc n (dec c) = c) by (rewrite <- H; apply enc_dec). split; [|now symmetry].
  rewrite <- E, dec_enc_mod. apply Z.mod_pos_bound. lia.
Qed.
Lemma coded_pairs_ok : forall one n rls c, coded_from one n rls c -> pairs_ok rls.
Proof.
  intros one n rls c (_ & body & S & _). unfold pairs_ok. induction S as [n|n run level rls c0 bits D S IH]; constructor; [|exact IH].
  cbn [fst snd]. inversion D as [|c1 r l V|r l R L]; subst; [|lia]. apply vlc_level_bound in V. lia.
Qed.
Lemma mbt_rows : forall t c q f b p i, 1 <= t <= 3 -> mbt_code (type_table t) c (q, f, b, p, i) ->
  (i = true -> f = false /\ b = false /\ p = false) /\ (i = false -> t <> 1) /\ (t = 2 -> b = false) /\ (i = false -> q = true -> p = true) /\ (t = 3 -> i = false -> f || b = true).
Proof.
  intros t c q f b p i T (v & n & I & _). unfold type_table in I.
  destruct (Z.eqb_spec t 1) as [->|N1]; [|destruct (Z.eqb_spec t 2) as [->|N2]]; cbn [In b2 b3 b4] in I;
    repeat (destruct I as [I|I]; [injection I as _ _ <- <- <- <- <-; repeat split; intros; try reflexivity; try discriminate; try lia|]); contradiction.
Qed.

(** * Vectors *)
Lemma component_delta : forall fc c, 1 <= fc -> component_syn fc c -> exists d, delta_code fc d c.
Proof.
  intros fc c F (m & c1 & c2 & -> & M & W). destruct (Z.eqb_spec m 0) as [->|N].
  - rewrite orb_true_r in W. apply length_zero_iff_nil in W. subst c2. rewrite app_nil_r. exists 0. now constructor.
  - rewrite orb_false_r in W.
    assert (X : exists res, 0 <= res < mv_f fc /\ c2 = enc (Z.to_nat (fc - 1)) res).
    { destruct (Z.eqb_spec fc 1) as [->|N1].
      - apply length_zero_iff_nil in W. subst. exists 0. split; [unfold mv_f; cbn; lia | reflexivity].
      - apply width_enc in W. destruct W as (z & B & ->). exists z. rewrite Z2Nat.id in B by lia. auto. }
    destruct X as (res & B & ->). destruct (Z_lt_ge_dec 0 m) as [G|G].
    + eexists. apply (delta_up fc c1 m res); [exact M | lia | exact B].
    + eexists. apply (delta_down fc c1 (- m) res); [now rewrite Z.opp_involutive | lia | exact B].
Qed.
Lemma component_vector : forall fc p c, 1 <= fc -> component_syn fc c -> exists v, mv_range fc v /\ vector_code fc p v c.
Proof.
  intros fc p c F H. destruct (component_delta _ _ F H) as (d & D). assert (G : 0 < mv_f fc) by (apply Z.pow_pos_nonneg; lia).
  set (f := mv_f fc) in *. exists ((p + d + 16 * f) mod (32 * f) - 16 * f). pose proof (Z.mod_pos_bound (p + d + 16 * f) (32 * f) ltac:(lia)) as B. pose proof (Z.div_mod (p + d + 16 * f) (32 * f) ltac:(lia)) as E.
  split; [unfold mv_range; fold f; lia|]. exists d, ((p + d + 16 * f) / (32 * f)). split; [exact D | fold f; lia].
Qed.
Lemma vector_pair : forall y s p c, 1 <= y_f y s 0 -> 1 <= y_f y s 1 -> vector_syn y s c -> exists v, pair_code (y_f y s 0) (y_f y s 1) p v c.
Proof.
  intros y s p c F0 F1 (c1 & c2 & -> & H1 & H2). destruct (component_vector _ (fst p) _ F0 H1) as (vx & Rx & Cx). destruct (component_vector _ (snd p) _ F1 H2) as (vy & Ry & Cy).
  exists (vx, vy), c1, c2. cbn [fst snd]. auto.
Qed.

(** * Blocks *)
Definition block_shape (x : Z * list (Z * Z)) : Prop := pairs_ok (snd x) /\ (length (expand (snd x)) <= 63)%nat.
Lemma intra_blocks : forall y P, y_pce y = pp_pce P -> forall n k p c, (k + n <= 6)%nat -> blocks_syn y true k (repeat true n) c ->
  exists blocks, length blocks = n /\ Forall block_shape blocks /\ intra_code P p k blocks c.
Proof.
  intros y P HE. induction n as [|n IH]; intros k p c Hk H; cbn [repeat blocks_syn] in H.
  - exists []. split; [reflexivity|]. split; [constructor | exact H].
  - destruct H as (c1 & c2 & -> & B & H). cbn [only_if] in B. unfold block_syn in B. destruct B as (d & a1 & rls & a2 & -> & D & C & L).
    destruct (IH (S k) (set_dc p (component k) (d + p (component k))) c2 ltac:(lia) H) as (bl & L2 & F & I).
    exists ((d + p (component k), rls) :: bl). split; [cbn; lia|]. split; [constructor; [split; [eapply coded_pairs_ok; exact C | exact L] | exact F]|].
    cbn [intra_code]. exists a1, a2, c2. split; [now rewrite <- app_assoc|]. rewrite HE in C. replace (d + p (component k) - p (component k)) with d by lia.
    split; [|split; [exact C | exact I]]. replace (Nat.eqb (component k) 0) with (Nat.ltb k 4); [exact D|]. do 6 (destruct k as [|k]; [reflexivity|]). lia.
Qed.
Lemma inter_blocks : forall y l k c, blocks_syn y false k l c ->
  exists blocks, map some blocks = l /\ Forall (fun x : option (list (Z * Z)) => match x with Some rls => pairs_ok rls /\ (length (expand rls) <= 64)%nat | None => True end) blocks /\ inter_code blocks c.
Proof.
  intro y. induction l as [|b l IH]; intros k c H; cbn [blocks_syn] in H.
  - exists []. split; [reflexivity|]. split; [constructor | exact H].
  - destruct H as (c1 & c2 & -> & B & H). destruct (IH _ _ H) as (bl & M & F & I). destruct b; cbn [only_if] in B.
    + destruct B as (rls & C & L). exists (Some rls :: bl). split; [cbn; congruence|]. split; [constructor; [split; [eapply coded_pairs_ok; exact C | exact L] | exact F]|].
      exists c1, c2. auto.
    + subst c1. exists (None :: bl). split; [cbn; congruence|]. split; [constructor; [exact Logic.I | exact F]|]. exact I.
Qed.
Lemma pattern_bits : forall blocks, pattern_of blocks = fold_left (fun a b => 2 * a + Z.b2z b) (map some blocks) 0.
Proof.
  intro blocks. unfold pattern_of. generalize 0. induction blocks as [|x bl IH]; intro a; [reflexivity|]. cbn [fold_left map]. apply IH.
Qed.
Lemma b9_bound : forall n c, has b9 n c -> (n < 64)%nat.
Proof.
  intros n c H. unfold has in H. destruct (Nat.lt_ge_cases n 64) as [L|L]; [exact L|]. exfalso.
  assert (E : nth_error b9 n = None) by (apply nth_error_None; change (length b9) with 64%nat; exact L).
  repeat match type of H with exists _, _ => destruct H as [? H] end. rewrite E in H. intuition discriminate.
Qed.
Lemma pattern_cbp : forall blocks cbp, 0 <= cbp < 64 -> map some blocks = map (fun k => Z.testbit cbp (5 - Z.of_nat k)) (seq 0 6) -> pattern_of blocks = cbp.
Proof.
  intros blocks cbp B E. rewrite pattern_bits, E.
  assert (A : forallb (fun n => fold_left (fun a b => 2 * a + Z.b2z b) (map (fun k => Z.testbit (Z.of_nat n) (5 - Z.of_nat k)) (seq 0 6)) 0 =? Z.of_nat n) (seq 0 64) = true) by reflexivity.
  rewrite forallb_forall in A. specialize (A (Z.to_nat cbp) ltac:(apply in_seq; lia)). rewrite Z2Nat.id in A by lia. now apply Z.eqb_eq.
Qed.

(** * Macroblocks *)
Definition layer_for (y : layer) (P : params) : Prop := y_type y = pp_type P /\ y_pce y = pp_pce P /\ y_chroma y = 1.
Definition mb_shape (P : params) (b : smb) : Prop :=
  1 <= b_incr b /\
  match b_body b with
  | Intra f blocks => length blocks = 6%nat /\ (e_fpfd (pp_pce P) = true -> f = false) /\ Forall block_shape blocks
  | _ => body_ok P (b_body b)
  end /\
  (is_intra b = true -> some (b_forward b) = e_conceal (pp_pce P)) /\
  match b_quant b with Some q => 0 <= q < 32 | None => True end /\
  (is_intra b = false -> pp_type P <> 1) /\ (pp_type P = 2 -> b_backward b = None).
Lemma quant_parse : forall quant c, only_if quant (width 5) c -> exists qo, some qo = quant /\ c = match qo with Some q => enc 5 q | None => [] end /\ match qo with Some q => 0 <= q < 32 | None => True end.
Proof.
  intros [|] c H; cbn [only_if] in H.
  - apply width_enc in H. destruct H as (z & B & ->). exists (Some z). split; [reflexivity|]. split; [reflexivity | exact B].
  - exists None. auto.
Qed.
Lemma incr_pos : forall n c, incr_code n c -> 1 <= n.
Proof. intros n c (k & i & c0 & -> & (H & _) & _). lia. Qed.
Lemma opt_parse : forall y P s p (on : bool) c, layer_for y P -> params_ok P -> only_if on (vector_syn y s) c ->
  exists vo, some vo = on /\ opt_vector (y_f y s 0) (y_f y s 1) p vo c.
Proof.
  intros y P s p on c (_ & HE & _) PO H. destruct PO as (_ & _ & _ & _ & F0 & F1 & F2 & F3 & _). destruct on; cbn [only_if] in H.
  - assert (G : 1 <= y_f y s 0 /\ 1 <= y_f y s 1) by (unfold y_f; rewrite HE; destruct s; auto). destruct G as (G0 & G1).
    destruct (vector_pair y s p c G0 G1 H) as (v & V). exists (Some v). auto.
  - exists None. auto.
Qed.
Lemma dct_parse : forall on c, only_if on (width 1) c -> exists f : bool, (on = false -> f = false) /\ c = if on then [f] else [].
Proof.
  intros [|] c H; cbn [only_if] in H.
  - destruct c as [|f [|? ?]]; try discriminate H. exists f. split; [discriminate | reflexivity].
  - exists false. auto.
Qed.

Lemma mb_parse : forall y P s c, layer_for y P -> params_ok P -> mb_syn y c ->
  (exists b, mb_code P s b c /\ mb_shape P b) \/ (exists c1 c2, c = c1 ++ c2 /\ field_mb y c1).
Proof.
  intros y P s c LY PO (quant & fw & bw & pat & intra & cbp & c1 & c2 & c3 & -> & Hd & Cb & Bl).
  pose proof LY as (HT & HE & HC). pose proof PO as (TY & ST & CF & _).
  assert (Fr : y_frame y = true) by (unfold y_frame; rewrite HE, ST; reflexivity).
  assert (Fp : y_fpfd y = e_fpfd (pp_pce P)) by (unfold y_fpfd; now rewrite HE).
  unfold mb_head_syn, mb_head_at in Hd. rewrite Fr in Hd. rewrite HE in Hd. cbn [andb] in Hd.
  destruct Hd as (n & t & form & c_incr & c_type & c_motion & c_dct & c_quant & c_fwd & c_bwd & c_marker & -> & In_ & Ty & Mo & Dc & Qu & Fo & Fw & Bw & Mk).
  destruct (mbt_rows (y_type y) c_type quant fw bw pat intra ltac:(rewrite HT; exact TY) Ty) as (R1 & R2 & R3 & R4 & R5). rewrite HT in R2, R3, R5.
  apply quant_parse in Qu. destruct Qu as (qo & Qs & -> & Qr). pose proof (incr_pos _ _ In_) as N1.
  assert (NB : coded_blocks y intra (if pat then cbp else 0) = map (fun k => intra || Z.testbit (if pat then cbp else 0) (5 - Z.of_nat k)) (seq 0 6)) by (unfold coded_blocks, y_blocks; now rewrite HC).
  rewrite NB in Bl. clear NB. apply dct_parse in Dc. destruct Dc as (df & Df & Dc). rewrite Fp in *.
  destruct intra.
  - (* intra *)
    destruct (R1 eq_refl) as (-> & -> & ->). cbn [orb andb only_if] in *. subst c_motion c_bwd c2 c_dct. left.
    set (cl := e_conceal (pp_pce P)) in *. assert (Fw2 : only_if cl (vector_syn y 0) c_fwd).
    { destruct cl; cbn [only_if] in *; [|exact Fw]. specialize (Fo eq_refl). unfold form_of in Fo. rewrite Fp, (CF eq_refl) in Fo. subst form. exact Fw. }
    set (s1 := ps_before P s (mkMb n qo None None (Intra df []))).
    destruct (opt_parse y P 0 (ps_fwd s1) cl c_fwd LY PO Fw2) as (vo & Vs & Vc).
    destruct (intra_blocks y P HE 6 0 (ps_dc s1) c3 ltac:(lia) Bl) as (blocks & L6 & FB & IC).
    exists (mkMb n qo vo None (Intra df blocks)).
    assert (S1 : ps_before P s (mkMb n qo vo None (Intra df blocks)) = s1) by (unfold s1, ps_before, is_forward, is_intra; cbn [b_incr b_quant b_forward b_backward b_body negb]; now rewrite andb_false_r).
    split.
    + unfold mb_code. rewrite S1. unfold is_forward, is_coded, is_intra. cbn [b_incr b_quant b_forward b_backward b_body negb some body_code opt_vector field_dct]. rewrite andb_false_r. cbn [orb andb].
      exists c_incr, c_type, c_fwd, [], c3. split; [exact In_|]. split; [rewrite <- HT, Qs; exact Ty|].
      split; [unfold y_f in Vc; rewrite HE in Vc; exact Vc|]. split; [reflexivity|]. split; [exact IC|].
      assert (Km : c_marker = if cl then [true] else []) by (destruct cl; exact Mk). rewrite Km.
      rewrite <- !app_assoc. rewrite andb_true_r. reflexivity.
    + split; [exact N1|]. split; [cbn [b_body]; split; [exact L6|]; split; [|exact FB]; intro X; apply Df; now rewrite X|]. split; [intros _; exact Vs|]. split; [exact Qr|]. split; [discriminate | reflexivity].
  - (* predicted *)
    cbn [andb orb only_if] in *. subst c_marker. rewrite orb_false_r in *.
    assert (TN : pp_type P <> 1) by auto.
    destruct (andb (fw || bw) (negb (e_fpfd (pp_pce P)))) eqn:MO; cbn [only_if] in Mo.
    + (* frame_motion_type is there *)
      apply andb_true_iff in MO. destruct MO as (MO & NF). apply negb_true_iff in NF. destruct Mo as (T4 & ->). specialize (Fo MO). unfold form_of in Fo. rewrite Fp, NF, Fr in Fo. rewrite NF in Dc, Df. cbn [negb andb] in Dc, Df.
      destruct Fo as [(-> & _) | (-> & ->)].
      { right. exists (c_incr ++ c_type ++ enc 2 1). eexists. split; [rewrite <- !app_assoc; reflexivity|]. split; [rewrite Fp; exact NF|].
        exists n, quant, fw, bw, pat, false, c_incr, c_type. split; [exact In_|]. split; [exact Ty|]. left. auto. }
      destruct pat.
      * destruct df.
        { right. exists (c_incr ++ c_type ++ enc 2 2 ++ [true]). eexists. split; [rewrite Dc, <- !app_assoc; reflexivity|]. split; [rewrite Fp; exact NF|].
          exists n, quant, fw, bw, true, false, c_incr, c_type. split; [exact In_|]. split; [exact Ty|]. right. rewrite MO. auto. }
        left. cbn [only_if orb] in *. set (s1 := ps_before P s (mkMb n qo (if fw then Some (0, 0) else None) None (Coded []))).
        destruct (opt_parse y P 0 (ps_fwd s1) fw c_fwd LY PO Fw) as (vf & Vs & Vc). destruct (opt_parse y P 1 (ps_bwd s1) bw c_bwd LY PO Bw) as (vb & Vs2 & Vc2).
        destruct (inter_blocks y _ _ _ Bl) as (blocks & Mp & FB & IC).
        assert (L6 : length blocks = 6%nat) by (rewrite <- (map_length some), Mp; reflexivity).
        assert (Cp : 0 <= cbp < 64) by (destruct Cb as (B0 & Hb); apply b9_bound in Hb; lia).
        apply pattern_cbp in Mp; [|exact Cp].
        exists (mkMb n qo vf vb (Coded blocks)).
        assert (S1 : ps_before P s (mkMb n qo vf vb (Coded blocks)) = s1) by (unfold s1, ps_before, is_forward, is_intra; cbn [b_incr b_quant b_forward b_backward b_body negb]; rewrite Vs; destruct fw; reflexivity).
        split.
        -- unfold mb_code. rewrite S1. unfold is_forward, is_coded, is_intra. cbn [b_incr b_quant b_forward b_backward b_body negb body_code field_dct]. rewrite Vs, Vs2, andb_true_r.
           exists c_incr, c_type, c_fwd, c_bwd, (c2 ++ c3). split; [exact In_|]. split; [rewrite <- HT, Qs; exact Ty|].
           split; [unfold y_f in Vc; rewrite HE in Vc; exact Vc|]. split; [unfold y_f in Vc2; rewrite HE in Vc2; exact Vc2|]. split; [exists c2, c3; rewrite Mp; auto|].
           rewrite NF, MO, Dc. cbn [negb andb orb]. rewrite <- !app_assoc. reflexivity.
        -- split; [exact N1|]. split; [cbn [b_body body_ok]; auto|]. split; [discriminate|]. split; [exact Qr|]. split; [intros _; exact TN|].
           cbn [b_backward]. intro T2. rewrite (R3 T2) in Vs2. destruct vb; [discriminate | reflexivity].
      * left. cbn [only_if orb andb] in *. set (s1 := ps_before P s (mkMb n qo (if fw then Some (0, 0) else None) None NotCoded)).
        destruct (opt_parse y P 0 (ps_fwd s1) fw c_fwd LY PO Fw) as (vf & Vs & Vc). destruct (opt_parse y P 1 (ps_bwd s1) bw c_bwd LY PO Bw) as (vb & Vs2 & Vc2).
        exists (mkMb n qo vf vb NotCoded).
        assert (S1 : ps_before P s (mkMb n qo vf vb NotCoded) = s1) by (unfold s1, ps_before, is_forward, is_intra; cbn [b_incr b_quant b_forward b_backward b_body negb]; rewrite Vs; destruct fw; reflexivity).
        assert (E3 : c3 = []).
        { clear - Bl. cbn in Bl. repeat match goal with H : exists _, _ |- _ => destruct H | H : _ /\ _ |- _ => destruct H end. subst. reflexivity. }
        split.
        -- unfold mb_code. rewrite S1. unfold is_forward, is_coded, is_intra. cbn [b_incr b_quant b_forward b_backward b_body negb body_code field_dct]. rewrite Vs, Vs2, andb_true_r.
           exists c_incr, c_type, c_fwd, c_bwd, []. split; [exact In_|]. split; [rewrite <- HT, Qs; exact Ty|].
           split; [unfold y_f in Vc; rewrite HE in Vc; exact Vc|]. split; [unfold y_f in Vc2; rewrite HE in Vc2; exact Vc2|]. split; [reflexivity|].
           rewrite NF, MO, Dc. cbn [negb andb orb]. subst c2 c3. rewrite <- !app_assoc. reflexivity.
        -- split; [exact N1|]. split; [exact Logic.I|]. split; [discriminate|]. split; [exact Qr|]. split; [intros _; exact TN|].
           cbn [b_backward]. intro T2. rewrite (R3 T2) in Vs2. destruct vb; [discriminate | reflexivity].
    + subst c_motion.
      assert (FF : fw || bw = true -> form = OneFrame).
      { intro X. specialize (Fo X). unfold form_of in Fo. rewrite X in MO. cbn [andb] in MO. apply negb_false_iff in MO. rewrite Fp, MO in Fo. exact Fo. }
      assert (Fw2 : only_if fw (vector_syn y 0) c_fwd) by (destruct fw; [rewrite (FF eq_refl) in Fw; exact Fw | exact Fw]).
      assert (Bw2 : only_if bw (vector_syn y 1) c_bwd) by (destruct bw; [rewrite (FF (orb_true_r fw)) in Bw; exact Bw | exact Bw]).
      destruct pat.
      * rewrite andb_true_r in Dc, Df. destruct df.
        { destruct (e_fpfd (pp_pce P)) eqn:NF; [cbn in Df; specialize (Df eq_refl); discriminate|]. cbn [negb] in *. rewrite andb_true_r in MO.
          right. exists (c_incr ++ c_type ++ [true]). eexists. split; [rewrite Dc, <- !app_assoc; reflexivity|]. split; [now rewrite Fp|].
          exists n, quant, fw, bw, true, false, c_incr, c_type. split; [exact In_|]. split; [exact Ty|]. right. rewrite MO. auto. }
        left. cbn [only_if orb] in *. set (s1 := ps_before P s (mkMb n qo (if fw then Some (0, 0) else None) None (Coded []))).
        destruct (opt_parse y P 0 (ps_fwd s1) fw c_fwd LY PO Fw2) as (vf & Vs & Vc). destruct (opt_parse y P 1 (ps_bwd s1) bw c_bwd LY PO Bw2) as (vb & Vs2 & Vc2).
        destruct (inter_blocks y _ _ _ Bl) as (blocks & Mp & FB & IC).
        assert (L6 : length blocks = 6%nat) by (rewrite <- (map_length some), Mp; reflexivity).
        assert (Cp : 0 <= cbp < 64) by (destruct Cb as (B0 & Hb); apply b9_bound in Hb; lia).
        apply pattern_cbp in Mp; [|exact Cp].
        exists (mkMb n qo vf vb (Coded blocks)).
        assert (S1 : ps_before P s (mkMb n qo vf vb (Coded blocks)) = s1) by (unfold s1, ps_before, is_forward, is_intra; cbn [b_incr b_quant b_forward b_backward b_body negb]; rewrite Vs; destruct fw; reflexivity).
        split.
        -- unfold mb_code. rewrite S1. unfold is_forward, is_coded, is_intra. cbn [b_incr b_quant b_forward b_backward b_body negb body_code field_dct]. rewrite Vs, Vs2, andb_true_r.
           exists c_incr, c_type, c_fwd, c_bwd, (c2 ++ c3). split; [exact In_|]. split; [rewrite <- HT, Qs; exact Ty|].
           split; [unfold y_f in Vc; rewrite HE in Vc; exact Vc|]. split; [unfold y_f in Vc2; rewrite HE in Vc2; exact Vc2|]. split; [exists c2, c3; rewrite Mp; auto|].
           rewrite MO, Dc. cbn [orb]. rewrite andb_true_r. rewrite <- !app_assoc. reflexivity.
        -- split; [exact N1|]. split; [cbn [b_body body_ok]; auto|]. split; [discriminate|]. split; [exact Qr|]. split; [intros _; exact TN|].
           cbn [b_backward]. intro T2. rewrite (R3 T2) in Vs2. destruct vb; [discriminate | reflexivity].
      * left. rewrite andb_false_r in Dc. cbn [only_if orb andb] in *. set (s1 := ps_before P s (mkMb n qo (if fw then Some (0, 0) else None) None NotCoded)).
        destruct (opt_parse y P 0 (ps_fwd s1) fw c_fwd LY PO Fw2) as (vf & Vs & Vc). destruct (opt_parse y P 1 (ps_bwd s1) bw c_bwd LY PO Bw2) as (vb & Vs2 & Vc2).
        exists (mkMb n qo vf vb NotCoded).
        assert (S1 : ps_before P s (mkMb n qo vf vb NotCoded) = s1) by (unfold s1, ps_before, is_forward, is_intra; cbn [b_incr b_quant b_forward b_backward b_body negb]; rewrite Vs; destruct fw; reflexivity).
        assert (E3 : c3 = []).
        { clear - Bl. cbn in Bl. repeat match goal with H : exists _, _ |- _ => destruct H | H : _ /\ _ |- _ => destruct H end. subst. reflexivity. }
        split.
        -- unfold mb_code. rewrite S1. unfold is_forward, is_coded, is_intra. cbn [b_incr b_quant b_forward b_backward b_body negb body_code field_dct]. rewrite Vs, Vs2, andb_true_r.
           exists c_incr, c_type, c_fwd, c_bwd, []. split; [exact In_|]. split; [rewrite <- HT, Qs; exact Ty|].
           split; [unfold y_f in Vc; rewrite HE in Vc; exact Vc|]. split; [unfold y_f in Vc2; rewrite HE in Vc2; exact Vc2|]. split; [reflexivity|].
           rewrite MO, Dc. cbn [orb]. rewrite andb_false_r. subst c2 c3. rewrite <- !app_assoc. reflexivity.
        -- split; [exact N1|]. split; [exact Logic.I|]. split; [discriminate|]. split; [exact Qr|]. split; [intros _; exact TN|].
           cbn [b_backward]. intro T2. rewrite (R3 T2) in Vs2. destruct vb; [discriminate | reflexivity].
Qed.

(** * Rules: kept or broken *)
Lemma vector_in_dec : forall w h i row col mv, vector_in w h i row col mv \/ ~ vector_in w h i row col mv.
Proof.
  intros w h i row col mv. unfold vector_in.
  destruct (Z_le_dec 0 (2 * block_x i col + block_vector i (fst mv))); [|right; tauto].
  destruct (Z_le_dec (2 * (block_x i col + 7) + block_vector i (fst mv)) (2 * (plane_w i w - 1))); [|right; tauto].
  destruct (Z_le_dec 0 (2 * block_y i row + block_vector i (snd mv))); [|right; tauto].
  destruct (Z_le_dec (2 * (block_y i row + 7) + block_vector i (snd mv)) (2 * (plane_h i h - 1))); [left; tauto | right; tauto].
Qed.
(** A property of the numbers from [a] on *)
Lemma range_dec : forall (A : Z -> Prop) (n : nat) a, (forall i, A i \/ ~ A i) -> (forall i, a <= i < a + Z.of_nat n -> A i) \/ exists i, a <= i < a + Z.of_nat n /\ ~ A i.
Proof.
  intros A n a D. induction n as [|n [IH | (i & B & N)]].
  - left. intros i B. lia.
  - destruct (D (a + Z.of_nat n)) as [Y|N].
    + left. intros i B. destruct (Z.eq_dec i (a + Z.of_nat n)) as [->|]; [exact Y | apply IH; lia].
    + right. exists (a + Z.of_nat n). split; [lia | exact N].
  - right. exists i. split; [lia | exact N].
Qed.
Lemma outside_dec : forall P row col ref, cvector_in P row col ref \/ outside P row col ref.
Proof.
  intros P row col [[c mv]|]; cbn [cvector_in outside]; [|now left].
  destruct (Z.eq_dec (cv_w c) (pp_w P)) as [W|W]; [|right; tauto]. destruct (Z.eq_dec (cv_h c) (pp_h P)) as [H|H]; [|right; tauto].
  destruct (range_dec (fun i => vector_in (pp_w P) (pp_h P) i row col mv) 6 0 (fun i => vector_in_dec _ _ _ _ _ _)) as [Y | (i & B & N)].
  - left. split; [exact W|]. split; [exact H|]. intros i B. apply Y. lia.
  - right. right. right. exists i. split; [lia | exact N].
Qed.
Lemma outside_not : forall P row col ref, outside P row col ref -> ~ cvector_in P row col ref.
Proof. intros P row col [[c mv]|] H; [|contradiction]. cbn [cvector_in outside] in *. intros (W & Hh & V). destruct H as [H|[H|(i & B & N)]]; auto. Qed.

(** What there is to predict from *)
Definition refs_known (P : params) : Prop :=
  (pp_type P <> 1 -> exists c, pp_past P = Is c) /\ (pp_type P = 3 -> exists c, pp_future P = Is c).
Lemma mb_decide : forall P row addr s b, params_ok P -> refs_known P -> 0 <= row -> 16 * row + 16 <= pp_h P -> -1 <= addr -> mb_shape P b ->
  SpecPicture.mb_ok P row addr s b \/ breaks P row addr s b.
Proof.
  intros P row addr s b PO (K1 & K2) R0 R1 A (N & B & C & Q & T & T2). pose proof PO as (TY & _).
  destruct (Z_lt_dec (pp_w P) (16 * (addr + b_incr b) + 16)) as [W|W]; [right; now apply address_outside|].
  assert (QD : b_quant b = Some 0 \/ match b_quant b with Some q => 1 <= q < 32 | None => True end).
  { destruct (b_quant b) as [q|]; [|auto]. destruct (Z.eq_dec q 0) as [->|]; [auto | right; lia]. }
  destruct QD as [QD|QD]; [right; now apply quantiser_zero|].
  assert (BD : body_ok P (b_body b) \/ breaks P row addr s b).
  { destruct (b_body b) as [f blocks|blocks|] eqn:EB; [|left; exact B|left; exact B]. destruct B as (L & F & S).
    assert (X : Forall (fun x : Z * list (Z * Z) => 0 <= fst x < 2 ^ (8 + e_dc (pp_pce P))) blocks \/ exists x, In x blocks /\ ~ 0 <= fst x < 2 ^ (8 + e_dc (pp_pce P))).
    { clear. induction blocks as [|x bl [IH|(z & I & N)]]; [left; constructor| |right; exists z; split; [now right | exact N]].
      destruct (Z_le_dec 0 (fst x)); [destruct (Z_lt_dec (fst x) (2 ^ (8 + e_dc (pp_pce P))))|]; [left; constructor; auto|right; exists x; split; [now left | lia]..]. }
    destruct X as [X|(x & I & N2)]; [left|right; now apply (dc_outside P row addr s b f blocks x)].
    cbn [body_ok]. split; [exact L|]. split; [exact F|]. rewrite Forall_forall in *. intros x I. specialize (X x I). specialize (S x I). destruct S as (S1 & S2). auto. }
  destruct BD as [BD|BD]; [|now right].
  assert (AV : available P (ps_after P s b)).
  { unfold available, ps_after. cbn [ps_dirs]. destruct (is_intra b) eqn:EI; [split; discriminate|]. specialize (T eq_refl). destruct (Z.eqb_spec (pp_type P) 2) as [E2|E2]; cbn [fst snd].
    - split; [|discriminate]. intros _. destruct (K1 T) as (c & ->). discriminate.
    - assert (T3 : pp_type P = 3) by lia. destruct (K1 T) as (c & ->), (K2 T3) as (d & ->). split; discriminate. }
  destruct (outside_dec P row (addr + b_incr b) (past_of P (ps_after P s b))) as [V1|V1]; [|right; now apply past_outside].
  destruct (outside_dec P row (addr + b_incr b) (future_of P (ps_after P s b))) as [V2|V2]; [|right; now apply future_outside].
  enough (SK : (0 <= addr -> 1 < b_incr b ->
     pp_type P <> 1 /\ (pp_type P = 2 -> exists c, pp_past P = Is c /\ cv_w c = pp_w P /\ cv_h c = pp_h P) /\
     (pp_type P = 3 -> forall col, addr < col < addr + b_incr b ->
        cvector_in P row col (past_of P s) /\ cvector_in P row col (future_of P s))) \/ breaks P row addr s b).
  { destruct SK as [SK|SK]; [left|now right]. split; [exact N|]. split; [unfold mb_in; lia|]. split; [exact BD|]. split; [exact C|]. split; [exact QD|]. split; [exact AV|]. split; [exact V1|]. split; [exact V2 | exact SK]. }
  destruct (Z_le_dec 0 addr) as [A0|A0]; [|left; lia]. destruct (Z_lt_dec 1 (b_incr b)) as [I1|I1]; [|left; lia].
  destruct (Z.eq_dec (pp_type P) 1) as [E1|E1]; [right; now apply skipped_intra|].
  destruct (Z.eq_dec (pp_type P) 2) as [E2|E2].
  - destruct (K1 E1) as (c & EC). destruct (Z.eq_dec (cv_w c) (pp_w P)) as [W1|W1]; [|right; apply (skipped_size P row addr s b c); auto]. destruct (Z.eq_dec (cv_h c) (pp_h P)) as [H1|H1]; [|right; apply (skipped_size P row addr s b c); auto].
    left. intros _ _. split; [exact E1|]. split; [intros _; exists c; auto | lia].
  - assert (E3 : pp_type P = 3) by lia.
    destruct (range_dec (fun col => cvector_in P row col (past_of P s) /\ cvector_in P row col (future_of P s)) (Z.to_nat (b_incr b - 1)) (addr + 1)) as [Y|(col & Bc & Nc)].
    + intro col. destruct (outside_dec P row col (past_of P s)) as [O1|O1]; [|right; intros (X & _); revert X; now apply outside_not].
      destruct (outside_dec P row col (future_of P s)) as [O2|O2]; [left; auto | right; intros (_ & X); revert X; now apply outside_not].
    + left. intros _ _. split; [exact E1|]. split; [lia|]. intros _ col Bc. apply Y. lia.
    + right. apply (skipped_outside P row addr s b col); [exact A0 | exact E3 | lia|].
      destruct (outside_dec P row col (past_of P s)) as [O1|O1]; [|now left]. destruct (outside_dec P row col (future_of P s)) as [O2|O2]; [contradiction (Nc (conj O1 O2)) | now right].
Qed.

(** * Slices *)
Lemma shape_formed : forall P b, mb_shape P b -> formed P b.
Proof. intros P b (_ & B & C & Q & _). split; [exact C|]. split; [exact Q|]. destruct (b_body b); cbn [body_ok] in B; tauto. Qed.
Lemma mbs_parse : forall y P row, layer_for y P -> params_ok P -> refs_known P -> 0 <= row -> 16 * row + 16 <= pp_h P ->
  forall ms addr s, -1 <= addr -> Forall (fun c => mb_syn y c \/ mb_cut y c) ms ->
  (exists mbs, length mbs = length ms /\ mbs_code P row addr s mbs (concat ms)) \/
  (exists mbs c2 c3, concat ms = c2 ++ c3 /\ mbs_code P row addr s mbs c2 /\ let '(a, s') := after_mbs P addr s mbs in mb_wrong y P row a s' c3).
Proof.
  intros y P row LY PO K R0 R1. induction ms as [|c ms IH]; intros addr s A F.
  - left. exists []. split; reflexivity.
  - inversion F as [|? ? M F2]; subst. cbn [concat].
    assert (Wr : forall c1 c2, c = c1 ++ c2 -> ((exists b, formed P b /\ mb_code P s b c1 /\ breaks P row addr s b) \/ field_mb y c1 \/ mb_cut y c1) ->
      exists mbs c2 c3, c ++ concat ms = c2 ++ c3 /\ mbs_code P row addr s mbs c2 /\ let '(a, s') := after_mbs P addr s mbs in mb_wrong y P row a s' c3).
    { intros c1 c2 -> W. exists [], [], ((c1 ++ c2) ++ concat ms). split; [reflexivity|]. split; [reflexivity|]. cbn [after_mbs]. exists c1, (c2 ++ concat ms). split; [now rewrite <- app_assoc | exact W]. }
    destruct M as [M|M]; [|right; apply (Wr c []); [now rewrite app_nil_r | auto]].
    destruct (mb_parse y P s c LY PO M) as [(b & C & S)|(c1 & c2 & E & Fm)]; [|right; apply (Wr c1 c2); auto].
    destruct (mb_decide P row addr s b PO K R0 R1 A S) as [OKb|Br]; [|right; apply (Wr c []); [now rewrite app_nil_r | left; exists b; split; [now apply shape_formed | auto]]].
    assert (N1 : 1 <= b_incr b) by (destruct S as (N1 & _); exact N1).
    destruct (IH (addr + b_incr b) (ps_after P s b) ltac:(lia) F2) as [(mbs & L & Cs)|(mbs & d2 & d3 & E & Cs & W)].
    + left. exists (b :: mbs). split; [cbn [length]; congruence|]. cbn [mbs_code]. split; [exact OKb|]. exists c, (concat ms). auto.
    + right. exists (b :: mbs), (c ++ d2), d3. split; [rewrite E; now rewrite app_assoc|]. split; [cbn [mbs_code]; split; [exact OKb | exists c, d2; auto]|]. cbn [after_mbs]. exact W.
Qed.

Lemma bb_zeros : forall k, bb (repeat 0 k) = repeat false (8 * k).
Proof. induction k as [|k IH]; [reflexivity|]. replace (8 * S k)%nat with (8 + 8 * k)%nat by lia. rewrite repeat_app, <- IH. reflexivity. Qed.
Lemma zeros_stuffing : forall n j, ((n + j) mod 8 = 0)%nat -> exists k, repeat false j = stuffing n k.
Proof.
  intros n j M. unfold stuffing, alignment. set (a := ((8 - n mod 8) mod 8)%nat).
  assert (D : (a <= j)%nat /\ ((j - a) mod 8 = 0)%nat).
  { pose proof (Nat.mod_upper_bound n 8 ltac:(lia)) as B. pose proof (Nat.div_mod n 8 ltac:(lia)) as En. pose proof (Nat.div_mod (n + j) 8 ltac:(lia)) as Enj. rewrite M in Enj.
    assert (Ea : a = if Nat.eqb (n mod 8) 0 then 0%nat else (8 - n mod 8)%nat). { unfold a. destruct (Nat.eqb_spec (n mod 8) 0) as [->|Nz]; [reflexivity | apply Nat.mod_small; lia]. }
    rewrite Ea. destruct (Nat.eqb_spec (n mod 8) 0) as [E0|E0].
    - split; [lia|]. rewrite Nat.sub_0_r. replace j with (((n + j) / 8 - n / 8) * 8)%nat by lia. apply Nat.mod_mul. lia.
    - split; [lia|]. replace (j - (8 - n mod 8))%nat with (((n + j) / 8 - n / 8 - 1) * 8)%nat by lia. apply Nat.mod_mul. lia. }
  destruct D as (D1 & D2). exists ((j - a) / 8)%nat. rewrite bb_zeros, <- repeat_app. f_equal. pose proof (Nat.div_mod (j - a) 8 ltac:(lia)). lia.
Qed.
Lemma slice_parse : forall y P c, layer_for y P -> params_ok P -> refs_known P -> y_vertical y <= 2800 ->
  slice_syn (fun c => mb_syn y c \/ mb_cut y c) y c -> (length c mod 8 = 0)%nat -> (exists l, slice_code P l c) \/ slice_wrong y P c.
Proof.
  intros y P c LY PO K V28 (rw & ext & qb & fl & ms & j & R & Ex & Q & Fl & NE & F & ->) L8.
  replace (2800 <? y_vertical y) with false in Ex by lia. cbn [only_if] in Ex. subst ext. apply width_enc in Q. destruct Q as (q & Q & ->). change (2 ^ Z.of_nat 5) with 32 in Q.
  cbn [app] in *. set (row := rw - 1). replace rw with (row + 1) in * by (unfold row; lia). assert (R0 : 0 <= row < 175) by lia. clearbody row. clear R.
  assert (Wr : pp_h P < 16 * row + 16 \/ q = 0 \/ (exists mbs c2 c3, concat ms ++ repeat false j = c2 ++ c3 /\ mbs_code P row (-1) (ps_start P q) mbs c2 /\ let '(addr, s) := after_mbs P (-1) (ps_start P q) mbs in mb_wrong y P row addr s c3) ->
    slice_wrong y P (code (row + 1) ++ enc 5 q ++ flags_code fl ++ concat ms ++ repeat false j)).
  { intro W. exists row, q, fl, (concat ms ++ repeat false j). auto. }
  destruct (Z_lt_dec (pp_h P) (16 * row + 16)) as [H1|H1]; [right; auto|]. destruct (Z.eq_dec q 0) as [Q0|Q0]; [right; auto|].
  destruct (mbs_parse y P row LY PO K ltac:(lia) ltac:(lia) ms (-1) (ps_start P q) ltac:(lia) F) as [(mbs & L & C)|(mbs & c2 & c3 & E & C & W)].
  - left. destruct (zeros_stuffing (length (code (row + 1) ++ enc 5 q ++ flags_code fl ++ concat ms)) j) as (k & Ek).
    { rewrite !app_length in *. rewrite repeat_length in L8. etransitivity; [|exact L8]. apply (f_equal (fun z => z mod 8)%nat). lia. }
    exists (mkSlice row q fl mbs k). unfold slice_code. cbn [sl_row sl_q sl_flags sl_mbs sl_k]. split; [exact R0|]. split; [lia|]. split; [lia|].
    split; [intro X; subst mbs; destruct ms; [contradiction|discriminate L]|]. split; [destruct fl as [[? ?]|]; exact Fl|]. exists (concat ms). split; [exact C|]. unfold stuffed. rewrite <- Ek, <- !app_assoc. reflexivity.
  - right. apply Wr. right. right. exists mbs, c2, (c3 ++ repeat false j). split; [rewrite E; now rewrite app_assoc|]. split; [exact C|].
    destruct (after_mbs P (-1) (ps_start P q) mbs) as [a s']. destruct W as (d1 & d2 & -> & W). exists d1, (d2 ++ repeat false j). split; [now rewrite app_assoc | exact W].
Qed.
Lemma slices_parse : forall y P, layer_for y P -> params_ok P -> refs_known P -> y_vertical y <= 2800 ->
  forall ss, ss <> [] -> Forall (fun c => slice_syn (fun c => mb_syn y c \/ mb_cut y c) y c /\ (length c mod 8 = 0)%nat) ss ->
  (exists ls, slices_code P ls (concat ss)) \/ slices_wrong y P (concat ss).
Proof.
  intros y P LY PO K V28. induction ss as [|c ss IH]; intros NE F; [contradiction|]. inversion F as [|? ? (S & L8) F2]; subst. cbn [concat].
  assert (WX : forall c d, slice_wrong y P c -> slice_wrong y P (c ++ d)).
  { clear. intros c d (row & q & fl & c1 & R & Q & Fl & -> & W). exists row, q, fl, (c1 ++ d). split; [exact R|]. split; [exact Q|]. split; [exact Fl|]. split; [now rewrite <- !app_assoc|].
    destruct W as [W|[W|(mbs & c2 & c3 & -> & C & W)]]; [auto|auto|]. right. right. exists mbs, c2, (c3 ++ d). split; [now rewrite app_assoc|]. split; [exact C|].
    destruct (after_mbs P (-1) (ps_start P q) mbs) as [a s']. destruct W as (d1 & d2 & -> & W). exists d1, (d2 ++ d). split; [now rewrite app_assoc | exact W]. }
  destruct (slice_parse y P c LY PO K V28 S L8) as [(l & C)|W].
  - destruct ss as [|c' ss].
    + left. exists [l]. cbn [concat]. rewrite app_nil_r. now constructor.
    + destruct (IH ltac:(discriminate) F2) as [(ls & Cs)|(c1 & c2 & E & C1 & W)].
      * left. exists (l :: ls). now constructor.
      * right. exists (c ++ c1), c2. split; [rewrite E; now rewrite app_assoc|]. split; [|exact W]. right. destruct C1 as [->|(ls & C1)]; [exists [l]; rewrite app_nil_r; now constructor | exists (l :: ls); now constructor].
  - right. exists [], (c ++ concat ss). split; [reflexivity|]. split; [now left | now apply WX].
Qed.
