(** StrayClear: slices that follow the syntax and keep the rules hold nothing that makes the decoder panic (C115). *)
From Coq Require Import Lia.
From Verif Require Import Base BitReader VidModel SpecVid VidProofs VlcTables VlcProofs SpecVlc SpecBlock SpecMotion MotionProofs BlockModel BlockProofs SpecPicture SpecNext MbModel MbWholeProofs SliceProofs SpecSyntax SyntaxProofs SpecRules RulesProofs ClearProofs
  SpecPanic SpecCertain SpecStray.

(** * Blocks *)
Lemma syms_longer : forall one n rls body, syms one n rls body -> (n = 0 -> rls <> []) -> 0 <= n -> forall rls' body' t u, syms one n rls' body' ->
  body ++ (if one then b15_eob else b14_eob) ++ t = body' ++ u -> (length (expand rls') <= length (expand rls))%nat.
Proof.
  intros one n rls body H. induction H as [n|n run level rls c bits C S IH]; intros N0 Nn rls' body' t u H' E.
  - inversion H' as [|? run level rls2 c bits C S]; subst; [cbn; lia|]. exfalso. cbn [app] in E. rewrite <- app_assoc in E.
    assert (F : (n =? 0) = false) by (destruct (Z.eqb_spec n 0) as [X|X]; [now elim (N0 X) | reflexivity]).
    assert (Eb : dct_code one (n =? 0) (if one then b15_eob else b14_eob) EndOfBlock) by (rewrite F; apply code_eob; reflexivity).
    destruct (symbol_clear one n _ _ _ _ _ _ Eb C E) as (Q & _). discriminate.
  - inversion H' as [|? run' level' rls2 c' bits' C' S']; subst; [cbn; lia|].
    rewrite <- !app_assoc in E. destruct (symbol_clear one n _ _ _ _ _ _ C C' E) as (Q & -> & E2). injection Q as -> ->.
    pose proof (dct_code_run _ _ _ _ _ C) as Rr. pose proof (IH ltac:(lia) ltac:(lia) rls2 bits' t u S' E2) as L. cbn [expand flat_map]. rewrite !app_length. unfold expand in L. lia.
Qed.
Lemma coded_longer : forall one n rls c rls' c' t u, 0 <= n -> coded_from one n rls c -> syms one n rls' c' -> c ++ t = c' ++ u -> (length (expand rls') <= length (expand rls))%nat.
Proof. intros one n rls c rls' c' t u Nn (N & body & S & ->) S' E. rewrite <- app_assoc in E. eapply syms_longer; eauto. Qed.
Lemma luma_component : forall k, (k < 6)%nat -> Nat.eqb (component k) 0 = Nat.ltb k 4.
Proof. intros k H. do 6 (destruct k as [|k]; [reflexivity|]). lia. Qed.
Lemma intra_over : forall y P, y_pce y = pp_pce P -> forall i blocks k p c c3 c4 t u, (k + length blocks <= 6)%nat -> (i < length blocks)%nat ->
  Forall (fun x : Z * list (Z * Z) => (length (expand (snd x)) <= 63)%nat) blocks -> intra_code P p k blocks c -> blocks_syn y true k (repeat true i) c3 -> over y true (k + i) c4 -> c ++ t = c3 ++ c4 ++ u -> False.
Proof.
  intros y P HE. induction i as [|i IH]; intros blocks k p c c3 c4 t u Hk Hi F H B O E; destruct blocks as [|[dc rls] bl]; cbn [length] in *; try lia; cbn [intra_code] in H; destruct H as (c1 & c2 & d & -> & D & R & H); inversion F as [|? ? F1 F2]; subst; cbn [snd] in F1.
  - cbn [repeat blocks_syn] in B. subst c3. cbn [app] in E. rewrite Nat.add_0_r in O. destruct O as (d' & e1 & rls' & e2 & -> & D' & S' & L). rewrite luma_component in D by lia. rewrite <- !app_assoc in E.
    destruct (dc_clear _ _ _ _ _ _ _ D D' E) as (_ & -> & E2). rewrite HE in S'. pose proof (coded_longer _ 1 rls c2 rls' e2 (d ++ t) u ltac:(lia) R S' E2). lia.
  - cbn [repeat blocks_syn] in B. destruct B as (a1 & a2 & -> & B & B2). cbn [only_if] in B. unfold block_syn in B. destruct B as (d' & e1 & rls' & e2 & -> & D' & R' & L). rewrite luma_component in D by lia. rewrite <- !app_assoc in E.
    destruct (dc_clear _ _ _ _ _ _ _ D D' E) as (_ & -> & E2). rewrite HE in R'. destruct (coded_clear _ 1 ltac:(lia) _ _ _ _ _ _ R R' E2) as (_ & -> & E3).
    replace (k + S i)%nat with (S k + i)%nat in O by lia. eapply (IH bl (S k)); eauto; lia.
Qed.
Lemma inter_over : forall y i blocks k c c3 c4 t u, nth_error (map some blocks) i = Some true ->
  Forall (fun x : option (list (Z * Z)) => match x with Some rls => (length (expand rls) <= 64)%nat | None => True end) blocks -> inter_code blocks c -> blocks_syn y false k (firstn i (map some blocks)) c3 -> over y false (k + i) c4 -> c ++ t = c3 ++ c4 ++ u -> False.
Proof.
  intros y. induction i as [|i IH]; intros blocks k c c3 c4 t u N F H B O E; destruct blocks as [|x bl]; try discriminate N; cbn [map nth_error firstn] in *; inversion F as [|? ? F1 F2]; subst.
  - destruct x as [rls|]; [|discriminate N]. cbn [blocks_syn] in B. subst c3. cbn [app] in E. destruct H as (c1 & c2 & -> & R & H). destruct O as (rls' & S' & L). rewrite <- app_assoc in E.
    pose proof (coded_longer _ 0 rls c1 rls' c4 (c2 ++ t) u ltac:(lia) R S' E). lia.
  - replace (k + S i)%nat with (S k + i)%nat in O by lia. cbn [blocks_syn] in B. destruct B as (a1 & a2 & -> & B & B2). destruct x as [rls|]; cbn [some only_if] in B.
    + destruct H as (c1 & c2 & -> & R & H). unfold block_syn in B. destruct B as (rls' & R' & L). rewrite <- !app_assoc in E. destruct (coded_clear _ 0 ltac:(lia) _ _ _ _ _ _ R R' E) as (_ & -> & E3). eapply (IH bl (S k)); eauto.
    + subst a1. cbn [app] in E. eapply (IH bl (S k)); eauto.
Qed.

(** * Macroblocks *)
(** The head of a macroblock is that of the macroblock. *)
Lemma head_clear : forall P s b b' c c' t t', params_ok P -> formed P b -> formed P b' -> mb_code P s b c -> head_code P s b' c' -> c ++ t = c' ++ t' ->
  b_incr b = b_incr b' /\ is_intra b = is_intra b' /\ is_coded b = is_coded b' /\ past_of P (ps_after P s b) = past_of P (ps_after P s b') /\ future_of P (ps_after P s b) = future_of P (ps_after P s b') /\
  exists cd, body_code P (ps_before P s b) (b_body b) cd /\ cd ++ t = t'.
Proof.
  intros P s b b' c c' t t' (_ & _ & _ & _ & F0 & F1 & F2 & F3 & _) (C & Q & B) (C' & Q' & B') (ci & ct & cf & cb & cd & HI & HT & HF & HB & HD & ->) (ci' & ct' & cf' & cb' & HI' & HT' & HF' & HB' & ->) E.
  rewrite <- !app_assoc in E. destruct (incr_clear _ _ _ _ _ _ HI HI' E) as (N & -> & E1). destruct (type_clear _ _ _ _ _ _ _ HT HT' E1) as (T & -> & E2). injection T as TQ TF TB TC TI. clear E E1.
  assert (SF : some (b_forward b) = some (b_forward b')).
  { unfold is_forward in TF. destruct (is_intra b); [rewrite (C eq_refl), (C' (eq_sym TI)); reflexivity|]. rewrite <- TI in TF. now rewrite !andb_true_r in TF. }
  rewrite <- TF, <- TB, <- TC, <- TI in E2.
  set (m := (is_forward b || some (b_backward b)) && negb (e_fpfd (pp_pce P))) in *. apply app_inv_head in E2.
  set (g := negb (e_fpfd (pp_pce P)) && (is_intra b || is_coded b)) in *.
  assert (E3 : forall u u', (if g then [field_dct (b_body b)] else []) ++ u = (if g then [field_dct (b_body b')] else []) ++ u' -> u = u') by (intros u u' X; destruct g; [now injection X | exact X]).
  apply E3 in E2. clear E3.
  assert (E4 : cf ++ cb ++ (if is_intra b && e_conceal (pp_pce P) then [true] else []) ++ cd ++ t = cf' ++ cb' ++ (if is_intra b && e_conceal (pp_pce P) then [true] else []) ++ t').
  { destruct (b_quant b) as [q|], (b_quant b') as [q'|]; try discriminate TQ; [|exact E2]. apply enc_clear in E2; [|cbn; lia..]. apply E2. }
  clear E2.
  assert (PB : ps_fwd (ps_before P s b) = ps_fwd (ps_before P s b') /\ ps_bwd (ps_before P s b) = ps_bwd (ps_before P s b')).
  { unfold ps_before. cbn [ps_fwd ps_bwd]. rewrite N, TF, TI. auto. }
  destruct PB as (P1 & P2). rewrite P1 in HF. rewrite P2 in HB.
  destruct (opt_clear _ _ _ _ _ _ _ _ _ F0 F1 SF HF HF' E4) as (VF & -> & E5). destruct (opt_clear _ _ _ _ _ _ _ _ _ F2 F3 TB HB HB' E5) as (VB & -> & E6). apply app_inv_head in E6.
  split; [exact N|]. split; [exact TI|]. split; [exact TC|].
  split; [unfold past_of, ps_after; cbn [ps_dirs ps_fwd fst]; rewrite TI, TF, VF, P1; destruct (is_intra b'); [reflexivity|]; destruct (pp_type P =? 2); reflexivity|].
  split; [unfold future_of, ps_after; cbn [ps_dirs ps_bwd snd]; rewrite TI, TB, VB, P2; destruct (is_intra b'); [reflexivity|]; destruct (pp_type P =? 2); reflexivity|].
  exists cd. auto.
Qed.
Lemma stray_not : forall y P row addr s b c t, layer_for y P -> params_ok P -> SpecPicture.mb_ok P row addr s b -> mb_code P s b c -> mb_stray y P row addr s (c ++ t) -> False.
Proof.
  intros y P row addr s b c t (HT & HE & HC) PO Ok_ M H. pose proof (ok_formed _ _ _ _ _ _ Ok_ M) as Fb. pose proof Ok_ as (N & I & B & C & Q & A & V1 & V2 & SK).
  assert (In_ : forall n c1 c2, c ++ t = c1 ++ c2 -> incr_code n c1 -> n = b_incr b).
  { intros n c1 c2 E HI. destruct M as (ci & ct & cf & cb & cd & HI' & _ & _ & _ & _ & ->). rewrite <- !app_assoc in E. destruct (incr_clear _ _ _ _ _ _ HI' HI E) as (X & _). congruence. }
  destruct H as [n c1 c2 E HI L | n c1 c2 past E HI A0 N1 T Pp Sz | n c1 c2 col E HI A0 T Cl O | n q f bw p i mt ci ct c2 E HI HTy M2 NF Mt | b' c1 c2 E Fb' Hd O | b' cbp k c1 c2 c3 c4 c5 E Fb' Hd Cb coded Nk Bl Ov].
  - rewrite (In_ _ _ _ E HI) in L. unfold mb_in in I. lia.
  - rewrite (In_ _ _ _ E HI) in N1. destruct (SK A0 N1) as (_ & X & _). destruct (X T) as (c' & E' & W & Hh). rewrite Pp in E'. injection E' as <-. destruct Sz; contradiction.
  - rewrite (In_ _ _ _ E HI) in Cl. destruct (SK A0 ltac:(lia)) as (_ & _ & X). destruct (X T col Cl) as (X1 & X2). destruct O as [O|O]; [exact (outside_not _ _ _ _ O X1) | exact (outside_not _ _ _ _ O X2)].
  - destruct M as (ci' & ct' & cf & cb & cd & HI' & HTy' & _ & _ & _ & ->). rewrite <- !app_assoc in E. destruct (incr_clear _ _ _ _ _ _ HI' HI E) as (_ & -> & E1). destruct (type_clear _ _ _ _ _ _ _ HTy' HTy E1) as (X & -> & E2). injection X as TQ TF TB TC TI.
    rewrite TF, TB, M2, NF in E2. cbn [andb negb] in E2. apply enc_clear in E2; [|cbn; lia..]. destruct E2 as (E2 & _). destruct Mt; lia.
  - destruct (head_clear P s b b' c c1 t c2 PO Fb Fb' M Hd E) as (N' & _ & _ & Pa & Fu & _). rewrite <- N', <- Pa, <- Fu in O. destruct O as [O|O]; [exact (outside_not _ _ _ _ O V1) | exact (outside_not _ _ _ _ O V2)].
  - destruct (head_clear P s b b' c c1 t _ PO Fb Fb' M Hd E) as (_ & TI & TC & _ & _ & cd & HD & E2). subst coded. rewrite <- TI, <- TC in *. unfold is_intra, is_coded in *.
    assert (Y6 : y_blocks y = 6%nat) by (unfold y_blocks; now rewrite HC). unfold coded_blocks in Nk, Bl. rewrite Y6 in Nk, Bl.
    destruct (b_body b) as [f bl|bl|]; cbn [body_code body_ok only_if orb] in *.
    + subst c2. cbn [app] in E2. assert (K6 : (k < 6)%nat). { assert (X : nth_error (map (fun k => true) (seq 0 6)) k <> None) by (rewrite Nk; discriminate). apply nth_error_Some in X. exact X. }
      destruct B as (B1 & _ & B2). eapply (intra_over y P HE k bl 0 _ cd c3 c4 t c5); [cbn; lia|lia| |exact HD| |exact Ov|exact E2].
      * eapply Forall_impl; [|exact B2]. intros x (_ & _ & X). exact X.
      * replace (repeat true k) with (firstn k (map (fun k0 : nat => true) (seq 0 6))); [exact Bl|]. clear -K6. do 6 (destruct k as [|k]; [reflexivity|]). lia.
    + destruct HD as (d1 & d2 & -> & Cp & HD). rewrite <- app_assoc in E2. destruct (cbp_clear _ _ _ _ _ _ Cp Cb E2) as (Pt & -> & E3).
      assert (Mp : map (fun k0 => Z.testbit cbp (5 - Z.of_nat k0)) (seq 0 6) = map some bl).
      { subst cbp. destruct B as (L6 & _). destruct bl as [|x0 [|x1 [|x2 [|x3 [|x4 [|x5 [|] ] ] ] ] ] ]; try discriminate L6. cbn [seq map]. f_equal; [|f_equal; [|f_equal; [|f_equal; [|f_equal; [|f_equal] ] ] ] ]; first [exact (MbWholeProofs.pattern_bits x0 x1 x2 x3 x4 x5 0 ltac:(lia)) | exact (MbWholeProofs.pattern_bits x0 x1 x2 x3 x4 x5 1 ltac:(lia)) | exact (MbWholeProofs.pattern_bits x0 x1 x2 x3 x4 x5 2 ltac:(lia)) | exact (MbWholeProofs.pattern_bits x0 x1 x2 x3 x4 x5 3 ltac:(lia)) | exact (MbWholeProofs.pattern_bits x0 x1 x2 x3 x4 x5 4 ltac:(lia)) | exact (MbWholeProofs.pattern_bits x0 x1 x2 x3 x4 x5 5 ltac:(lia))]. }
      rewrite Mp in Nk, Bl. destruct B as (_ & B). eapply (inter_over y k bl 0 d2 c3 c4 t c5); [exact Nk| |exact HD|exact Bl|exact Ov|exact E3].
      eapply Forall_impl; [|exact B]. intros [rls|] X; [apply X | exact Logic.I].
    + apply nth_error_In, in_map_iff in Nk. destruct Nk as (z & X & _). rewrite Z.bits_0 in X. discriminate.
Qed.
Lemma stray_starts : forall y P row addr s c, mb_stray y P row addr s c -> exists n c0 u, incr_code n c0 /\ c = c0 ++ u.
Proof.
  intros y P row addr s c H. destruct H as [n c1 c2 E HI L | n c1 c2 past E HI A0 N1 T Pp Sz | n c1 c2 col E HI A0 T Cl O | n q f bw p i mt ci ct c2 E HI HTy M2 NF Mt | b' c1 c2 E Fb' Hd O | b' cbp k c1 c2 c3 c4 c5 E Fb' Hd Cb coded Nk Bl Ov]; eauto.
  - destruct Hd as (ci & ct & cf & cb & HI & _ & _ & _ & ->). rewrite <- !app_assoc in E. eauto.
  - destruct Hd as (ci & ct & cf & cb & HI & _ & _ & _ & ->). rewrite <- !app_assoc in E. eauto.
Qed.

(** * Slices *)
(** What [slice_stray] and [slice_wrong] have in common *)
Definition slice_bad (y : layer) (P : params) (c : list bool) : Prop :=
  exists row c1, 0 <= row < 175 /\ c = code (row + 1) ++ c1 /\
    (pp_h P < 16 * row + 16 \/
     exists q fl c2, 0 <= q < 32 /\ flags_ok fl /\ c1 = enc 5 q ++ flags_code fl ++ c2 /\
       (q = 0 \/ exists mbs c3 c4, c2 = c3 ++ c4 /\ mbs_code P row (-1) (ps_start P q) mbs c3 /\
         let '(addr, s) := after_mbs P (-1) (ps_start P q) mbs in mb_stray y P row addr s c4 \/ mb_wrong y P row addr s c4)).
Lemma stray_bad : forall y P c, slice_stray y P c -> slice_bad y P c.
Proof.
  intros y P c (row & c1 & R & E & [H|(q & fl & mbs & c2 & c3 & Q & Fl & -> & M & W)]); exists row, c1 || eexists row, _; (split; [exact R|]); (split; [exact E|]); [now left|]. right. exists q, fl, (c2 ++ c3). split; [exact Q|]. split; [exact Fl|]. split; [reflexivity|].
  right. exists mbs, c2, c3. split; [reflexivity|]. split; [exact M|]. destruct (after_mbs P (-1) (ps_start P q) mbs) as [a s]. now left.
Qed.
Lemma wrong_bad : forall y P c, slice_wrong y P c -> slice_bad y P c.
Proof.
  intros y P c (row & q & fl & c1 & R & Q & Fl & -> & W). exists row, (enc 5 q ++ flags_code fl ++ c1). split; [exact R|]. split; [reflexivity|]. destruct W as [W|W]; [now left|]. right. exists q, fl, c1. split; [exact Q|]. split; [exact Fl|]. split; [reflexivity|].
  destruct W as [W|(mbs & c2 & c3 & -> & M & W)]; [now left|]. right. exists mbs, c2, c3. split; [reflexivity|]. split; [exact M|]. destruct (after_mbs P (-1) (ps_start P q) mbs) as [a s]. now right.
Qed.
(** What may follow the slices of a picture: nothing, or a start code other than a slice's *)
Definition no_slice (rest : list bool) : Prop := rest = [] \/ exists b u, rest = code b ++ u /\ 0 <= b < 256 /\ ~ 1 <= b <= 175.
Lemma no_slice_begin : forall P ls c rest, some_slices P ls c -> no_slice rest -> c ++ rest = [] \/ exists w, c ++ rest = prefix ++ w.
Proof.
  intros P ls c rest H R. destruct (slices_begin _ _ _ H) as [->|(w & ->)]; [|right; rewrite <- app_assoc; eauto]. cbn [app]. destruct R as [->|(b & u & -> & _)]; [now left|]. right. unfold code. rewrite <- app_assoc. eauto.
Qed.
Theorem slices_not_bad : forall y P c2 rest, layer_for y P -> params_ok P -> slice_bad y P c2 -> no_slice rest ->
  forall ls' ls c c1, some_slices P ls c -> some_slices P ls' c1 -> c ++ rest = c1 ++ c2 -> False.
Proof.
  intros y P c2 rest LY PO W NS. pose proof W as (row & c5 & Wr & Ec2 & W').
  assert (NR : forall r a w, 0 <= r < 175 -> rest = code (r + 1) ++ a ++ w -> False).
  { intros r a w Hr E. destruct NS as [->|(b & u & -> & Hb & Nb)]; [discriminate E|]. apply code_clear in E; [|lia..]. lia. }
  induction ls' as [|l' ls' IH]; intros ls c c1 H H' E.
  - assert (c1 = []) as -> by (destruct H' as [(_ & X)|X]; [exact X | inversion X]). cbn [app] in E.
    destruct ls as [|l ls].
    { assert (c = []) as -> by (destruct H as [(_ & X)|X]; [exact X | inversion X]). apply (NR row c5 [] Wr). cbn [app] in E. rewrite app_nil_r, E. exact Ec2. }
    apply some_cons in H. destruct H as (c3 & d & -> & (R & Rh & Rq & _ & Fl & c4 & Ms & ->) & H). rewrite Ec2 in E.
    unfold stuffed in E. destruct (stuffing_zeros (length (code (sl_row l + 1) ++ enc 5 (sl_q l) ++ flags_code (sl_flags l) ++ c4)) (sl_k l)) as (j & Ej). rewrite Ej in E. clear Ej. rewrite <- !app_assoc in E.
    apply code_clear in E; [|lia..]. destruct E as (Er & E). assert (row = sl_row l) as -> by lia. destruct W' as [W'|(q & fl & c6 & Wq & Wf & -> & W')]; [lia|].
    apply (enc_clear 5) in E; [|cbn; lia..]. destruct E as (Eq & E). apply flags_clear in E; [|exact Fl|exact Wf]. destruct E as (_ & E). subst q.
    destruct W' as [W'|(mbs & c7 & c8 & -> & Mw & W')]; [lia|].
    assert (Qt : quiet (repeat false j ++ d ++ rest)) by (exists j, (d ++ rest); split; [reflexivity | eapply no_slice_begin; eauto]).
    destruct (mbs_clear P _ PO mbs _ _ _ _ _ _ _ Qt Ms Mw E) as (mbs2 & c9 & _ & _ & -> & X). destruct (after_mbs P (-1) (ps_start P (sl_q l)) mbs) as [a s'].
    destruct mbs2 as [|b mbs2]; cbn [mbs_code] in X.
    + subst c9. assert (Z : exists n c0 u, incr_code n c0 /\ [] ++ repeat false j ++ d ++ rest = c0 ++ u) by (destruct W' as [W'|W']; [exact (stray_starts _ _ _ _ _ _ W') | exact (wrong_starts _ _ _ _ _ _ W')]).
      destruct Z as (n & c0 & u & HI & Z). cbn [app] in Z. eapply quiet_not; [exact HI | exact Qt | symmetry; exact Z].
    + destruct X as (Ok_ & e1 & e2 & -> & M & _). rewrite <- app_assoc in W'. destruct W' as [W'|W']; [exact (stray_not _ _ _ _ _ _ _ _ LY PO Ok_ M W')|].
      destruct W' as (k1 & k2 & Ek & W'). pose proof (ok_formed _ _ _ _ _ _ Ok_ M) as Fb.
      destruct W' as [(b' & Fb' & M' & Br)|[F|C]].
      * destruct (mb_clear P s' b b' _ _ _ _ PO Fb Fb' M M' Ek) as (<- & _). exact (breaks_not _ _ _ _ _ Ok_ Br).
      * exact (field_not _ _ _ _ _ _ _ _ LY M F Ek).
      * exact (cut_not _ _ _ _ _ _ _ _ LY PO Fb M C Ek).
  - apply some_cons in H'. destruct H' as (e1 & d' & -> & (R' & Rh' & Rq' & _ & Fl' & e4 & Ms' & ->) & H'). unfold stuffed in E.
    destruct (stuffing_zeros (length (code (sl_row l' + 1) ++ enc 5 (sl_q l') ++ flags_code (sl_flags l') ++ e4)) (sl_k l')) as (j' & Ej). rewrite Ej in E. clear Ej.
    destruct ls as [|l ls].
    { assert (c = []) as -> by (destruct H as [(_ & X)|X]; [exact X | inversion X]). cbn [app] in E. rewrite <- !app_assoc in E. eapply (NR (sl_row l')); [lia | exact E]. }
    apply some_cons in H. destruct H as (c3 & d & -> & (R & Rh & Rq & _ & Fl & c4 & Ms & ->) & H).
    unfold stuffed in E. destruct (stuffing_zeros (length (code (sl_row l + 1) ++ enc 5 (sl_q l) ++ flags_code (sl_flags l) ++ c4)) (sl_k l)) as (j & Ej). rewrite Ej in E. clear Ej. rewrite <- !app_assoc in E.
    apply code_clear in E; [|lia..]. destruct E as (Er & E). apply (enc_clear 5) in E; [|cbn; lia..]. destruct E as (Eq & E). apply flags_clear in E; [|exact Fl|exact Fl']. destruct E as (_ & E). assert (Er2 : sl_row l' = sl_row l) by lia. rewrite Er2, <- Eq in Ms'.
    assert (Qt : quiet (repeat false j ++ d ++ rest)) by (exists j, (d ++ rest); split; [reflexivity | eapply no_slice_begin; eauto]).
    assert (Wb : exists w, d' ++ c2 = prefix ++ w).
    { destruct (slices_begin _ _ _ H') as [->|(w & ->)]; [exists (enc 8 (row + 1) ++ c5); rewrite Ec2; unfold code; now rewrite <- app_assoc | exists (w ++ c2); now rewrite <- app_assoc]. }
    destruct Wb as (w & Ew).
    assert (Qt' : quiet (repeat false j' ++ d' ++ c2)) by (exists j', (d' ++ c2); split; [reflexivity | right; eauto]).
    destruct (mbs_clear P _ PO _ _ _ _ _ _ _ _ Qt Ms Ms' E) as (mbs2 & c8 & _ & _ & E2 & X). destruct (after_mbs P (-1) (ps_start P (sl_q l)) (sl_mbs l')) as [a s'].
    destruct mbs2 as [|b mbs2]; cbn [mbs_code] in X.
    + subst c8. cbn [app] in E2. rewrite Ew in E2. destruct (no_slice_begin _ _ _ _ H NS) as [Z|(w2 & Z)]; rewrite Z in E2.
      * rewrite app_nil_r in E2. eapply zeros_not. symmetry. exact E2.
      * apply zeros_then in E2. subst w2. apply (IH ls d d' H H'). now rewrite Ew.
    + destruct X as (_ & c9 & c10 & -> & M & _). destruct (mb_starts _ _ _ _ M) as (n & c0 & u & HI & ->). rewrite <- !app_assoc in E2. eapply quiet_not; [exact HI | exact Qt' | symmetry; exact E2].
Qed.
