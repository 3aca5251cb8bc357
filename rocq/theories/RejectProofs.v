(** RejectProofs: on bits that break the syntax, after ones that follow it, the decoder returns the error, or it has panicked before. *)
From Coq Require Import Lia.
From Verif Require Import Base BitReader Exec Local TsRobust PesLocal After Huffman VlcTables BlockModel SpecVlc SpecBlock VlcProofs BlockProofs
  VidModel SpecVid VidProofs VidStream VidExt VidLocal MbModel SpecMotion MotionProofs SpecPicture EndProofs2 ShapeProofs NextProofs MbProofs SliceProofs SpecSyntax SyntaxProofs SpecPanic SpecUnsupported SpecNext SpecCertain ForwardProofs SpecReject.
From Verif Require PropertiesVidHeaders CauseProofs ErrorProofs UnsupportedProofs CountProofs CutProofs.

(** * Computations that end with a certain error, or panic *)
Definition stops {S A} (e : err) (m : M S A) (s : S) : Prop := dies m s \/ exists s', m s = (Err e, s').
Lemma stops_err : forall S A e (m : M S A) s s', m s = (Err e, s') -> stops e m s.
Proof. intros. right. eauto. Qed.
Lemma stops_bind : forall S A B e (m : M S A) (k : A -> M S B) s, stops e m s -> stops e (bind m k) s.
Proof. intros S A B e m k s [D | (s' & E)]; [left; now apply dies_bind | right]. exists s'. now apply bind_err. Qed.
Lemma stops_ok : forall S A B e (m : M S A) (k : A -> M S B) s a s1, m s = (Ok a, s1) -> stops e (k a) s1 -> stops e (bind m k) s.
Proof. intros S A B e m k s a s1 E [D | (s' & D)]; [left; eapply dies_ok; eauto | right]. exists s'. now rewrite (bind_ok _ _ _ _ _ _ _ _ E). Qed.
Lemma stops_onr : forall T A e (m : M reader A) (t : T) r, stops e m r -> stops e (onr m) (t, r).
Proof. intros T A e m t r [(r' & E) | (r' & E)]; [left | right]; exists (t, r'); unfold onr; cbn [fst snd]; now rewrite E. Qed.
Definition fails {T A} (e : err) (I : T -> Prop) (m : M (T * reader) A) (d : list bool) : Prop := forall t rd, I t -> stops e m (t, setb rd d).
Lemma fails_gets : forall T A B e I (m : M (T * reader) A) (k : A -> M (T * reader) B) n c Q d, gets I m n c Q -> (n <= length d)%nat -> (forall a, Q a -> fails e I (k a) d) -> fails e I (bind m k) (c ++ d).
Proof.
  intros T A B e I m k n c Q d Hm L Hk t rd It. destruct (Hm t rd d It L) as [D | (a & t' & E & It' & Qa)]; [left; now apply dies_bind|]. eapply stops_ok; [exact E | now apply Hk].
Qed.
Lemma fails_first : forall T A B e I (m : M (T * reader) A) (k : A -> M (T * reader) B) Q d, gets I m 0 [] Q -> (forall a, Q a -> fails e I (k a) d) -> fails e I (bind m k) d.
Proof. intros T A B e I m k Q d Hm Hk. change d with ([] ++ d). eapply fails_gets; [exact Hm | lia | exact Hk]. Qed.
Lemma fails_bind : forall T A B e I (m : M (T * reader) A) (k : A -> M (T * reader) B) d, fails e I m d -> fails e I (bind m k) d.
Proof. intros T A B e I m k d H t rd It. now apply stops_bind, H. Qed.
Lemma fails_onr : forall T A e (I : T -> Prop) (m : M reader A) d, (forall rd, stops e m (setb rd d)) -> fails e I (onr m) d.
Proof. intros T A e I m d H t rd It. now apply stops_onr. Qed.

(** * Missing codes *)
Lemma hwalk_missing : forall A f (t : codes A) rd d e r', (maxlen t <= length d)%nat -> hwalk f t (setb rd d) = (Err e, r') -> e = ErrMissingHuffmanValue.
Proof.
  induction f as [|f IH]; intros t rd d e r' L H; [discriminate|]. cbn [hwalk] in H. destruct (leaf t) as [x|] eqn:El; [discriminate|].
  destruct t as [|h t]; [now injection H|]. remember (h :: t) as u.
  assert (P : (1 <= maxlen u)%nat). { destruct h as [ [|b c] a]; [subst; discriminate|]. subst u. cbn [maxlen length]. lia. }
  destruct d as [|b d]; [cbn [length] in L; lia|]. rewrite (bind_ok _ _ _ _ _ _ _ _ (read1_cons b rd d)) in H. eapply IH; [|exact H].
  destruct (branch b u) eqn:Eb; [cbn; lia|]. rewrite <- Eb. assert (S (maxlen (branch b u)) <= maxlen u)%nat by (apply maxlen_branch; congruence). cbn [length] in L. lia.
Qed.
Lemma table_missing : forall A (t : htable A) (m : M reader A) T (K : list bool -> Prop) rd d, (forall r, m r = hdecode t r) -> decodes_exactly m T -> (maxlen (codes_of t) <= 24)%nat -> (forall c a, T c a -> K c) -> no_code K d ->
  exists r', m (setb rd d) = (Err ErrMissingHuffmanValue, r').
Proof.
  intros A t m T K rd d Em (_ & Ex) L HK (Ld & N). destruct (Ex (setb rd d)) as (e & r' & E).
  - intros c a u Tc. rewrite rbits_setb. apply N. eapply HK; exact Tc.
  - exists r'. rewrite E. rewrite Em in E. unfold hdecode in E. apply hwalk_missing in E; [now subst | lia].
Qed.
Lemma dct_missing : forall one n rd d, no_code (fun c => exists x, dct_code one (n =? 0) c x) d -> exists r', dct_of one n (setb rd d) = (Err ErrMissingHuffmanValue, r').
Proof.
  intros one n rd d (Ld & N). destruct (dct_exact one n) as (_ & Ex). destruct (Ex (setb rd d)) as (e & r' & E).
  - intros c a u (x & C & _). rewrite rbits_setb. apply N. eauto.
  - exists r'. rewrite E. rewrite dct_of_unfold in E. unfold dct_decode in E. set (t := if n =? 0 then dtable one true else dtable one false) in *.
    assert (Mx : (maxlen (codes_of t) <= 17)%nat) by (subst t; destruct (n =? 0), one; apply Nat.leb_le; vm_compute; reflexivity).
    destruct (hdecode t (setb rd d)) as [ [v|e1| |] r1] eqn:H.
    + exfalso. rewrite (bind_ok _ _ _ _ _ _ _ _ H) in E. apply hdecode_ok_inv in H. destruct H as (c & Hi & Hr & Hs). rewrite Hs in E. clear Hs. rewrite rbits_setb in Hr. rewrite setb_setb in E.
      pose proof (maxlen_in _ _ _ _ Hi) as Lc. apply (f_equal (@length bool)) in Hr. rewrite app_length in Hr. remember (rbits r1) as u. destruct v as [run level| |].
      * destruct u as [|b u]; [cbn in Hr; lia|]. match type of E with _ (setb ?a _) = _ => rewrite (bind_ok _ _ _ _ _ _ _ _ (read1_cons b a u)) in E end. discriminate.
      * discriminate.
      * assert (Lc6 : length c = 6%nat).
        { assert (X : In (c, DctEscape) (codes_of (dtable one (n =? 0)))) by (subst t; destruct (n =? 0); exact Hi). apply dtable_spec, in_sc_esc in X. subst c. reflexivity. }
        rewrite <- (firstn_skipn 6 u) in E. match type of E with _ (setb ?a _) = _ => rewrite (bind_ok _ _ _ _ _ _ _ _ (read_n_app 6 a (firstn 6 u) (skipn 6 u) ltac:(rewrite firstn_length; lia))) in E end.
        destruct (skipn 6 u) as [|b w] eqn:Ew; [apply (f_equal (@length bool)) in Ew; rewrite skipn_length in Ew; cbn in Ew; lia|]. apply (f_equal (@length bool)) in Ew. rewrite skipn_length in Ew. cbn [length] in Ew.
        match type of E with _ (setb ?a _) = _ => rewrite (bind_ok _ _ _ _ _ _ _ _ (read1_cons b a w)) in E end.
        rewrite <- (firstn_skipn 11 w) in E. match type of E with _ (setb ?a _) = _ => rewrite (bind_ok _ _ _ _ _ _ _ _ (read_n_app 11 a (firstn 11 w) (skipn 11 w) ltac:(rewrite firstn_length; lia))) in E end. discriminate.
    + rewrite (bind_err _ _ _ _ _ _ _ _ H) in E. injection E as <- <-. unfold hdecode in H. apply hwalk_missing in H; [now subst | lia].
    + unfold bind in E. rewrite H in E. discriminate.
    + unfold bind in E. rewrite H in E. discriminate.
Qed.

(** * Blocks *)
Lemma coeffs_fails : forall one n rls body st rd t, syms one n rls body -> 0 <= n -> n + Z.of_nat (length (expand rls)) <= 64 -> no_code (fun c => exists x, dct_code one (n + Z.of_nat (length (expand rls)) =? 0) c x) t ->
  exists s', block_coeffs 66 (dct_of one) n (st, setb rd (body ++ t)) = (Err ErrMissingHuffmanValue, s').
Proof.
  intros one n rls body st rd t Hs Hn Ht N. pose proof (expand_rls_length _ _ _ _ Hs) as Hlen.
  replace 66%nat with (length rls + S (65 - length rls))%nat by lia. destruct (syms_takes _ _ _ _ Hs (S (65 - length rls)) st rd t Hn Ht) as (st1 & ->).
  remember (n + Z.of_nat (length (expand rls))) as k. cbn [block_coeffs]. destruct (dct_missing one k rd t N) as (r' & E). eexists. now rewrite (bind_onr_err _ _ _ _ _ _ _ _ _ _ E).
Qed.
Lemma block_fails : forall y intra k b c m rd, (k < 12)%nat -> broken_block y intra k c -> stops ErrMissingHuffmanValue (mb_block_read (pc_vlc (pce_of (y_pce y))) (nth k color_channel 0%nat) intra b) (m, setb rd c).
Proof.
  intros y intra k b c m rd Hk B. right. unfold mb_block_read, block_read. cbn [fst snd]. rewrite vlc_bit. destruct intra; cbn [andb broken_block] in *.
  - destruct B as (d & c1 & rls & c2 & t & -> & D & C & L & N). rewrite <- (color_luma k Hk) in D. erewrite bind_ok by (apply dc_read; exact D).
    change (if e_vlc (y_pce y) then dct_table_one else dct_table_zero) with (dct_of (e_vlc (y_pce y))).
    match goal with |- context [block_coeffs 66 _ 1 (?st, _)] => destruct (coeffs_fails _ _ _ _ st rd t C ltac:(lia) ltac:(lia)) as ([st' r'] & ->) end; [|eexists; reflexivity].
    replace (1 + Z.of_nat (length (expand rls)) =? 0) with false by (symmetry; apply Z.eqb_neq; lia). exact N.
  - destruct B as (rls & c2 & t & -> & C & L & N). change dct_table_zero with (dct_of false). destruct (coeffs_fails _ _ _ _ (mkBS b (ms_dcp m)) rd t C ltac:(lia) ltac:(lia)) as ([st' r'] & ->); [|eexists; reflexivity].
    replace (0 + Z.of_nat (length (expand rls)) =? 0) with (Nat.eqb (length (expand rls)) 0); [exact N|]. destruct (length (expand rls)); [reflexivity|]. symmetry. apply Z.eqb_neq. lia.
Qed.
Lemma put_fails : forall e sh v y se mb row addr coded k b d,
  (forall b', fails e (framed sh) (mb_blocks v (pce_of (y_pce y)) se mb row addr (Z.of_nat (S k)) coded b') d) ->
  fails e (framed sh) (m <- own ;; bf <- put_block (ms_mvd m) (v_fs v) row addr (Z.of_nat k) (mo_dct mb) b (ms_frame m) ;; upd (ms_set_frame (snd bf)) ;; mb_blocks v (pce_of (y_pce y)) se mb row addr (Z.of_nat k + 1) coded (fst bf)) d.
Proof.
  intros e sh v y se mb row addr coded k b d H. replace (Z.of_nat k + 1) with (Z.of_nat (S k)) by lia. eapply fails_first; [apply gets_own|]. intros m Im.
  eapply fails_first with (Q := fun bf => shape (snd bf) = sh).
  - apply gets_quiet; [apply quiet_put|]. intros s bf s' E. apply put_block_shape in E; destruct E as (_ & ->); exact Im.
  - intros bf Sb. eapply fails_first with (Q := fun _ => True); [apply gets_upd; [intros t _; exact Sb | exact I]|]. intros _ _. apply H.
Qed.
Lemma blocks_fails : forall sh v y se mb row addr coded k j b c1 c2, (k + length coded <= 12)%nat -> nth_error coded j = Some true ->
  blocks_syn y (mb_intra (mo_type mb)) k (firstn j coded) c1 -> broken_block y (mb_intra (mo_type mb)) (k + j) c2 ->
  fails ErrMissingHuffmanValue (framed sh) (mb_blocks v (pce_of (y_pce y)) se mb row addr (Z.of_nat k) coded b) (c1 ++ c2).
Proof.
  intros sh v y se mb row addr. induction coded as [|x coded IH]; intros k j b c1 c2 L N B O; [destruct j; discriminate|]. cbn [mb_blocks length] in *. rewrite Nat2Z.id.
  destruct j as [|j]; cbn [nth_error firstn blocks_syn] in *.
  - injection N as ->. subst c1. rewrite Nat.add_0_r in O. cbn [app]. intros t rd It. apply stops_bind, stops_bind. apply (block_fails y); [lia | exact O].
  - destruct B as (c3 & c4 & -> & O3 & B). rewrite <- app_assoc. eapply fails_gets; [apply coded_gets; [lia | exact O3] | lia|]. intros b1 _.
    apply put_fails. intro b'. apply (IH (S k) j b' c4 c2); [lia | exact N | exact B | replace (S k + j)%nat with (k + S j)%nat by lia; exact O].
Qed.

(** * Macroblocks *)
Lemma escapes_end : forall n fuel i0 r t, (n < fuel)%nat -> no_code (fun c => c = mb_escape \/ exists i, mba_code c i) t ->
  mba_escapes fuel i0 (setb r (concat (repeat mb_escape n) ++ t)) = (Ok (i0 + 33 * Z.of_nat n), setb r t).
Proof.
  induction n as [|n IH]; intros fuel i0 r t Hf Ht; destruct fuel as [|fuel]; try lia; cbn [mba_escapes repeat concat app].
  - destruct Ht as (L & N). assert (L11 : (11 <= length t)%nat) by lia. rewrite <- (firstn_skipn 11 t) at 1. rewrite (bind_ok _ _ _ _ _ _ _ _ (peek_n_app 11 r (firstn 11 t) _ (firstn_length_le _ L11))).
    rewrite firstn_skipn. replace (dec (firstn 11 t) =? 8) with false; [unfold ret; do 2 f_equal; lia|]. symmetry. apply Z.eqb_neq. intro E. apply (N mb_escape (skipn 11 t)); [now left|].
    rewrite <- (firstn_skipn 11 t) at 1. f_equal. rewrite <- (enc_dec (firstn 11 t)), firstn_length_le by exact L11. rewrite E. reflexivity.
  - unfold mb_escape at 1. rewrite <- app_assoc. rewrite (bind_ok _ _ _ _ _ _ _ _ (peek_enc 11 8 r _ ltac:(vm_compute; split; [discriminate | reflexivity]))).
    rewrite Z.eqb_refl. assert (E : forall l, skip_n 11 (setb r (enc 11 8 ++ l)) = (Ok tt, setb r l)) by (intro; apply skip_app; apply enc_length).
    rewrite (bind_ok _ _ _ _ _ _ _ _ (ignore_ok _ _ _ _ _ _ _ (E _))). rewrite IH by (auto; lia). do 2 f_equal. lia.
Qed.
Lemma incr_missing : forall k t rd, no_code (fun c => c = mb_escape \/ exists i, mba_code c i) t -> exists r', mb_increment (setb rd (concat (repeat mb_escape k) ++ t)) = (Err ErrMissingHuffmanValue, r').
Proof.
  intros k t rd N. unfold mb_increment. rewrite rbits_setb.
  assert (L : (k < S (length (concat (repeat mb_escape k) ++ t)))%nat).
  { rewrite app_length. assert ((k <= length (concat (repeat mb_escape k)))%nat); [|lia].
    clear. induction k; [cbn; lia|]. cbn [repeat concat]. rewrite app_length. unfold mb_escape at 1. rewrite enc_length. lia. }
  rewrite (bind_ok _ _ _ _ _ _ _ _ (escapes_end k _ 0 rd t L N)).
  destruct (table_missing Z mba_table mba_decode mba_code _ rd t (fun r => eq_refl) mba_exact ltac:(apply Nat.leb_le; vm_compute; reflexivity) (fun c a H => or_intror (ex_intro _ a H)) N) as (r' & E).
  exists r'. now rewrite (bind_err _ _ _ _ _ _ _ _ E).
Qed.
Lemma type_missing : forall ty e t rd, 1 <= ty <= 3 -> no_code (fun c => exists f, mbt_code (type_table ty) c f) t -> exists r', macroblock_mode ty e (setb rd t) = (Err ErrMissingHuffmanValue, r').
Proof.
  intros ty e t rd R N.
  assert (X : exists r', (if ty =? IFrame then mbtype_decode_I else if ty =? PFrame then mbtype_decode_P else if ty =? BFrame then mbtype_decode_B else panic) (setb rd t) = (Err ErrMissingHuffmanValue, r')).
  { change IFrame with 1. change PFrame with 2. change BFrame with 3. unfold type_table in N. assert (E : ty = 1 \/ ty = 2 \/ ty = 3) by lia. destruct E as [-> | [-> | ->] ]; cbn [Z.eqb Pos.eqb] in *.
    - eapply (table_missing _ mbtype_table_I _ _ _ rd t (fun r => eq_refl) mbtype_I_exact); [apply Nat.leb_le; vm_compute; reflexivity | | exact N]. intros c a H. exists (mbt_fields a). exact H.
    - eapply (table_missing _ mbtype_table_P _ _ _ rd t (fun r => eq_refl) mbtype_P_exact); [apply Nat.leb_le; vm_compute; reflexivity | | exact N]. intros c a H. exists (mbt_fields a). exact H.
    - eapply (table_missing _ mbtype_table_B _ _ _ rd t (fun r => eq_refl) mbtype_B_exact); [apply Nat.leb_le; vm_compute; reflexivity | | exact N]. intros c a H. exists (mbt_fields a). exact H. }
  destruct X as (r' & X). exists r'. unfold macroblock_mode. now rewrite (bind_err _ _ _ _ _ _ _ _ X).
Qed.
Lemma macroblock_fails : forall x sh v y row addr n t c1 d, v_ph v = Some (pic_of (y_hdr y)) -> v_pce v = Some (pce_of (y_pce y)) -> mb_head_at y (mbt_fields t) n c1 -> (11 <= length d)%nat ->
  (forall mb, mo_type mb = t -> fails x (framed sh) (mb_rest v (pce_of (y_pce y)) row addr n mb) d) -> fails x (framed sh) (macroblock v row addr) (c1 ++ d).
Proof.
  intros x0 sh v y row addr n t c1 d Hph Hpce Hd Ld Hr. unfold mbt_fields in Hd. cbv beta iota zeta delta [mb_head_at] in Hd.
  destruct Hd as (mt & form & c_incr & c_type & c_motion & c_dct & c_quant & c_fwd & c_bwd & c_marker & -> & Hi & Ht & O2 & O3 & O4 & F & O5 & O6 & O7). rewrite <- !app_assoc.
  pose proof (types_intra _ _ _ Ht) as Ti. cbn in Ti.
  assert (W2 : forall A (m : MB A) k c (R : A -> Prop), gets (fun _ => True) m 0 c R -> same m -> gets (framed sh) m k c R) by (intros A m k c R G S tt rd l It _; apply (gets_same A m 0 c R sh G S); [exact It | lia]).
  assert (W3 : forall A (m : MB A) k c (R : A -> Prop), gets (framed sh) m 0 c R -> gets (framed sh) m k c R) by (intros A m k c R G tt rd l It _; apply G; [exact It | lia]).
  assert (Sr : forall b e, gets (framed sh) (when b (reset_dc e)) 0 [] (fun _ => True)) by (intros; apply W2; [apply gets_whenq; now apply gets_upd | apply same_when; unfold reset_dc; hold]).
  assert (Sv : forall b, gets (framed sh) (when b reset_mv) 0 [] (fun _ => True)) by (intros; apply W2; [apply gets_whenq; now apply gets_upd | apply same_when; unfold reset_mv; hold]).
  unfold macroblock. rewrite Hph, Hpce. eapply fails_gets; [apply incr_gets; exact Hi | rewrite !app_length; lia|]. intros x <-. eapply fails_first; [apply W3; now apply gets_deref|]. intros ph <-. eapply fails_first; [apply W3; now apply gets_deref|]. intros e <-. cbv zeta.
  change (ph_type (pic_of (y_hdr y))) with (y_type y).
  eapply fails_first; [apply W2; [apply gets_skipped | apply same_skipped]|]. intros _ _.
  eapply fails_first; [apply Sr|]. intros _ _. eapply fails_first; [apply Sv|]. intros _ _.
  rewrite (app_assoc c_motion), (app_assoc c_type). eapply fails_gets; [apply W3; exact (mode_gets _ _ y t mt _ _ _ Ht O2 O3) | apply Nat.le_0_l|]. intros mb Sm. pose proof (proj1 Sm) as Et. rewrite Et.
  eapply fails_first; [apply Sr|]. intros _ _. eapply fails_first; [apply Sv|]. intros _ _. eapply fails_first; [apply Sv|]. intros _ _.
  eapply fails_gets with (n := 0%nat) (Q := fun _ => True); [|lia|].
  { apply W2; [|apply same_when; hold]. eapply gets_when; [exact O4|]. intro Wq. replace c_quant with (c_quant ++ []) by apply app_nil_r.
    eapply gets_bind; [apply gets_onr; intros; apply read_n_app; exact Wq|]. intros q _. now apply gets_upd. }
  intros _ _. rewrite pce_conceal.
  assert (Hi2 : mb_intra t = true -> mb_motion_forward t = false /\ mb_motion_backward t = false) by (intro X; destruct (Ti X) as (? & ? & ?); auto).
  eapply fails_gets with (n := 0%nat) (Q := fun _ => True); [|lia|].
  { apply W2; [|apply same_when, same_vectors]. destruct (mb_motion_forward t || mb_intra t && e_conceal (y_pce y)) eqn:B; cbn [only_if when] in *; [|subst c_fwd; now apply gets_ret].
    apply (vectors_gets y t mt mb form 0 c_fwd Sm Hi2); [| |exact O5].
    - intro X. apply orb_false_iff in X. destruct X as (X1 & X2). rewrite X1 in B. cbn [orb] in B. apply andb_true_iff in B. apply B.
    - apply F. destruct (mb_motion_forward t); [reflexivity|]. cbn [orb] in *. rewrite B. apply orb_true_r. }
  intros _ _. eapply fails_gets with (n := 0%nat) (Q := fun _ => True); [|lia|].
  { apply W2; [|apply same_when, same_vectors]. destruct (Bool.bool_dec (mb_motion_backward t) true) as [B|B]; [|apply Bool.not_true_is_false in B]; rewrite B; rewrite B in O6; cbn [only_if when] in *; [|subst c_bwd; now apply gets_ret].
    apply (vectors_gets y t mt mb form 1 c_bwd Sm Hi2); [| |exact O6].
    - intro X. rewrite B, orb_true_r in X. discriminate.
    - apply F. now rewrite B, orb_true_r. }
  intros _ _. eapply fails_first with (Q := fun _ => True); [apply W2; [now apply gets_upd | hold]|]. intros _ _.
  eapply fails_gets with (n := 0%nat) (Q := fun _ => True); [apply W2; [|apply same_when; hold]; eapply gets_when; [exact O7|]; intros ->; apply marker_gets | lia|]. intros _ _.
  rewrite <- Et. exact (Hr mb Et).
Qed.
Lemma rest_fails : forall x sh v y se row addr n t mb cbp c2 d, v_se v = Some se -> se_chroma se = y_chroma y -> mo_type mb = t -> only_if (mb_pattern t) (fun c => cbp_code c cbp) c2 ->
  (forall coded, coded = coded_blocks y (mb_intra t) (if mb_pattern t then cbp else 0) -> (length coded <= 12)%nat ->
     fails x (framed sh) (mb_blocks v (pce_of (y_pce y)) se mb row (addr + n) 0 coded block_zero) d) ->
  fails x (framed sh) (mb_rest v (pce_of (y_pce y)) row addr n mb) (c2 ++ d).
Proof.
  intros x0 sh v y se row addr n t mb cbp c2 d Hse Hch Et O B.
  unfold mb_rest. rewrite Hse, Et. eapply fails_first; [now apply gets_deref|]. intros x <-. rewrite Hch.
  eapply fails_gets with (n := 0%nat) (Q := fun o => exists c, o = Some c /\ (if mb_pattern t then c else 0) = (if mb_pattern t then cbp else 0)); [|lia|].
  { destruct (mb_pattern t); cbn [only_if] in O; [|subst; apply gets_ret; now exists 0].
    intros s rd l Is _. pose proof (proj1 cbp_exact c2 cbp rd l O) as E. unfold dies, ignore_err, bind, onr, coded_block_pattern. cbn [fst snd]. destruct (_ || _); [left; eexists; rewrite E; reflexivity | right].
    exists (Some cbp), s. split; [rewrite E; reflexivity|]. split; [exact Is | now exists cbp]. }
  intros o (c & -> & Ec).
  eapply fails_first with (Q := fun pc => firstn (block_count (y_chroma y)) pc = coded_blocks y (mb_intra t) (if mb_pattern t then cbp else 0) /\ (length (coded_blocks y (mb_intra t) (if mb_pattern t then cbp else 0%Z)) <= 12)%nat).
  { intros s rd l Is _. cbn [app]. destruct (pattern_code c (mb_intra t) (mb_pattern t) (y_chroma y) (s, setb rd l)) as [ [pc|e| |] s'] eqn:E.
    - right. exists pc. pose proof (pattern_after y c (mb_intra t) (mb_pattern t) (s, setb rd l) pc s' E) as (-> & P1 & P2). exists s. rewrite Ec in P1, P2. auto.
    - unfold pattern_code in E. destruct (_ && _); discriminate.
    - left. eexists. exact E.
    - unfold pattern_code in E. destruct (_ && _); discriminate. }
  intros pc (P1 & P2). rewrite P1. now apply fails_bind, B.
Qed.
Lemma block_long : forall y intra k c, broken_block y intra k c -> (24 <= length c)%nat.
Proof.
  intros y intra k c B. unfold broken_block in B. destruct intra.
  - destruct B as (d & c1 & rls & c2 & t & -> & _ & _ & _ & L & _). rewrite !app_length. lia.
  - destruct B as (rls & c2 & t & -> & _ & _ & L & _). rewrite !app_length. lia.
Qed.
Lemma broken_fails : forall sh v y row addr d, mvctx v y -> broken_mb y d -> fails ErrMissingHuffmanValue (framed sh) (macroblock v row addr) d.
Proof.
  intros sh v y row addr d (Hph & Hpce & (se & Hse & Hch) & _) [(k & t & -> & N & _) | [(n & c & t & -> & Hi & R & N) | (n & quant & forward & backward & pattern & intra & cbp & c1 & c2 & k & c4 & c5 & -> & Hd & O & X)] ].
  - intros m rd _. apply stops_bind, stops_onr. right. now apply incr_missing.
  - unfold macroblock. rewrite Hph, Hpce. pose proof (proj1 N) as Lt.
    assert (W2 : forall A (m : MB A) k c (R : A -> Prop), gets (fun _ => True) m 0 c R -> same m -> gets (framed sh) m k c R) by (intros A m k c' R' G S tt rd l It _; apply (gets_same A m 0 c' R' sh G S); [exact It | lia]).
    assert (Sr : forall b e, gets (framed sh) (when b (reset_dc e)) 0 [] (fun _ => True)) by (intros; apply W2; [apply gets_whenq; now apply gets_upd | apply same_when; unfold reset_dc; hold]).
    assert (Sv : forall b, gets (framed sh) (when b reset_mv) 0 [] (fun _ => True)) by (intros; apply W2; [apply gets_whenq; now apply gets_upd | apply same_when; unfold reset_mv; hold]).
    eapply fails_gets; [apply incr_gets; exact Hi | lia|]. intros x <-. eapply fails_first; [now apply gets_deref|]. intros ph <-. eapply fails_first; [now apply gets_deref|]. intros e <-. cbv zeta.
    change (ph_type (pic_of (y_hdr y))) with (y_type y).
    eapply fails_first; [apply W2; [apply gets_skipped | apply same_skipped]|]. intros _ _. eapply fails_first; [apply Sr|]. intros _ _. eapply fails_first; [apply Sv|]. intros _ _.
    apply fails_bind, fails_onr. intro rd. right. now apply type_missing.
  - cbv zeta in X. destruct X as (N & B & Br). pose proof (block_long _ _ _ _ Br) as Lb.
    destruct (ErrorProofs.fields_all (quant, forward, backward, pattern, intra)) as (t & Et). rewrite <- Et in Hd. pose proof Et as Et2. unfold mbt_fields in Et2. injection Et2 as <- <- <- <- <-.
    eapply macroblock_fails; [eassumption.. | rewrite !app_length; lia|]. intros mb Em. eapply rest_fails; try eassumption. intros coded -> L. change 0 with (Z.of_nat 0) at 1. rewrite <- Em in *.
    eapply blocks_fails; [exact L | exact N | exact B | exact Br].
Qed.

(** * Slices *)
Lemma broken_long : forall y d, broken_mb y d -> (24 <= length d)%nat.
Proof.
  intros y d [(k & t & -> & (L & _) & _) | [(n & c & t & -> & _ & _ & (L & _)) | (n & quant & forward & backward & pattern & intra & cbp & c1 & c2 & k & c4 & c5 & -> & _ & _ & X)] ]; rewrite !app_length; try lia.
  cbv zeta in X. destruct X as (_ & _ & Br). apply block_long in Br. lia.
Qed.
Lemma broken_start : forall y d, broken_mb y d -> exists b t, d = b ++ t /\ (length b <= 23)%nat /\ In true b.
Proof.
  intros y d [(k & t & -> & _ & T) | [(n & c & t & -> & Hi & _) | (n & quant & forward & backward & pattern & intra & cbp & c1 & c2 & k & c4 & c5 & -> & Hd & _)] ].
  - eexists. eexists. split; [symmetry; apply (firstn_skipn 23)|]. split; [rewrite firstn_length; lia | exact T].
  - destruct (incr_start _ _ Hi) as (b & u & -> & Lb & T). exists b. eexists. rewrite <- app_assoc. split; [reflexivity|]. split; [lia | exact T].
  - destruct (head_start _ _ _ _ Hd) as (b & u & -> & Lb & T). exists b. eexists. rewrite <- app_assoc. split; [reflexivity|]. split; [lia | exact T].
Qed.
Lemma loop_fails : forall v y row ms, mvctx v y -> Forall (fun m => mb_at y (fst m) (snd m)) ms -> forall addr f m rd d, (length ms < f)%nat -> broken_mb y d ->
  stops ErrMissingHuffmanValue (slice_loop f v row addr) (m, setb rd (concat (map snd ms) ++ d)).
Proof.
  intros v y row ms C. pose proof C as (Hph & Hpce & (se & Hse & Hch) & _). induction ms as [|[n c] ms IH]; intros F addr f m rd d Lf Br; (destruct f as [|f]; [lia|]); cbn [fst snd map concat length fold_right app] in *.
  - cbn [slice_loop]. apply stops_bind. apply (broken_fails (shape (ms_frame m)) v y row addr d C Br). reflexivity.
  - apply Forall_cons_iff in F. destruct F as (M & F). cbn [fst snd] in M. rewrite <- app_assoc. destruct (broken_start _ _ Br) as (b & t & Eb & Lb & Tb). pose proof (broken_long _ _ Br) as Ld.
    destruct (mb_gets (shape (ms_frame m)) v y se row addr n c Hph Hpce Hse Hch M m rd (concat (map snd ms) ++ d) eq_refl ltac:(rewrite !app_length; lia)) as [D | (a & m1 & E & Sh & -> & _)]; [left; cbn [slice_loop]; now apply dies_bind|].
    assert (G : exists b t, concat (map snd ms) ++ d = b ++ t /\ (length b <= 23)%nat /\ In true b).
    { destruct ms as [|[n2 c2] ms]; [exists b, t; auto|]. apply Forall_inv in F. cbn [fst snd] in F. destruct (mb_start _ _ _ F) as (b2 & t2 & -> & L & T). exists b2. eexists. cbn [map concat snd]. rewrite <- !app_assoc. split; [reflexivity|]. split; [lia | exact T]. }
    destruct G as (b' & t' & G1 & G2 & G3). pose proof (loop_goes f _ _ _ _ _ _ _ _ b' t' E G1 G2 G3 ltac:(rewrite !app_length; lia)) as E2. unfold stops, dies. rewrite E2.
    apply IH; [exact F | lia | exact Br].
Qed.
Lemma slice_stops1 : forall e v f r, stops e (slice_head v f) r -> stops e (slice v f) r.
Proof. intros e v f r [D | (r' & E)]; [left; now apply slice_dies1 | right]. exists r'. unfold slice. fold (slice_head v f). now rewrite E. Qed.
Lemma slice_stops2 : forall x v f r e row q r1, slice_head v f r = (Ok (e, row, q), r1) -> stops x (slice_loop (S (length (rbits r1))) v row (-1)) (mkMS (dc_reset (pc_dc e)) mv_zero q f, r1) -> stops x (slice v f) r.
Proof. intros x v f r e row q r1 E [D | ([m' r'] & E2)]; [left; eapply slice_dies2; eassumption | right]. exists r'. unfold slice. fold (slice_head v f). rewrite E. cbn [snd]. now rewrite E2. Qed.
Lemma slice_fails : forall v y f row e t rd, mvctx v y -> 1 <= row <= 175 -> broken_slice y e t -> stops e (slice v f) (setb rd (code row ++ t)).
Proof.
  intros v y f row e t rd C R (ext & q & u & -> & Ex & Q & [(-> & b & n & d & -> & Hn) | (-> & flags & ms & d & -> & FL & F & Br)]).
  - apply slice_stops1. destruct C as (Hph & Hpce & _ & sh & Hsh & Hv). unfold slice_head. destruct (row_of (row - 1) ltac:(lia)) as [RW SL]. replace (row - 1 + 1) with row in * by ring.
    rewrite code_enc by lia. eapply stops_ok; [apply (read_enc 32 (256 + row) rd _ ltac:(change (2 ^ Z.of_nat 32) with 4294967296; lia))|].
    rewrite SL. cbn [negb]. rewrite Hpce. eapply stops_ok; [reflexivity|]. cbv zeta. rewrite RW. destruct (_ && _); [|left; eexists; reflexivity].
    rewrite Hsh. eapply stops_ok; [reflexivity|]. rewrite Hv.
    assert (E : forall l, when (y_vertical y >? 2800) (read_n 3 ;; ret tt) (setb rd (ext ++ l)) = (Ok tt, setb rd l)).
    { intro l'. rewrite Z.gtb_ltb. destruct (2800 <? y_vertical y); cbn [only_if when] in *; [|subst; reflexivity]. rewrite (bind_ok _ _ _ _ _ _ _ _ (read_n_app 3 rd ext l' Ex)). reflexivity. }
    eapply stops_ok; [apply E|]. eapply stops_ok; [apply (read_n_app 5 rd q _ Q)|]. apply stops_bind. unfold slice_flags. cbn [app].
    change (true :: b :: enc 7 n ++ d) with ([true] ++ b :: enc 7 n ++ d). eapply stops_ok; [apply (peek_n_app 1 rd [true] _ eq_refl)|]. change (dec [true] =? 1) with true. cbv iota. cbn [app].
    apply stops_bind. eapply stops_ok; [apply read1_cons|]. eapply stops_ok; [apply read1_cons|]. eapply stops_ok; [apply (read_enc 7 n rd d); change (2 ^ Z.of_nat 7) with 128; lia|].
    apply stops_bind. replace (n =? 0) with false by (symmetry; apply Z.eqb_neq; lia). right. eexists. reflexivity.
  - destruct (head_gets v y f row ext q flags rd (concat (map snd ms) ++ d) C R Ex Q FL) as [D | (e & E)]; [left; now apply slice_dies1|].
    eapply slice_stops2; [exact E|]. eapply loop_fails; [exact C | exact F | | exact Br]. rewrite rbits_setb, app_length. pose proof (mb_count _ _ F). lia.
Qed.
Lemma slices_fails : forall v y e rd row t, mvctx v y -> 1 <= row <= 175 -> (length t mod 8 = 0)%nat -> broken_slice y e t ->
  forall ss fuel f, Forall (whole_slice y) ss -> (length ss < fuel)%nat -> stops e (slices fuel v f) (setb rd (concat ss ++ code row ++ t)).
Proof.
  intros v y e rd row t C R L Br. induction ss as [|c ss IH]; intros fuel f F Lf; (destruct fuel as [|fuel]; [cbn in Lf; lia|]); cbn [slices concat app].
  - apply stops_bind. eapply slice_fails; eassumption.
  - apply Forall_cons_iff in F. destruct F as (Wc & F). rewrite <- app_assoc. destruct (slices_starts2 y ss row t F R L) as (b & u & E & B & U).
    destruct (slice_whole v y f c (concat ss ++ code row ++ t) rd C (proj1 Wc)) as [D | (f' & Es & Sh)]; [rewrite E; now apply code_at | left; now apply dies_bind|].
    eapply stops_ok; [exact Es|]. rewrite E. destruct (peek_slice b rd u B) as (P & I). eapply stops_ok; [exact P|]. rewrite I, <- E. apply IH; [exact F | cbn in Lf; lia].
Qed.
Lemma data_fails : forall v y e rd ss row t, mvctx v y -> 1 <= row <= 175 -> Forall (whole_slice y) ss -> (length t mod 8 = 0)%nat -> broken_slice y e t ->
  stops e (picture_data v) (setb rd (concat ss ++ code row ++ t)).
Proof.
  intros v y e rd ss row t C R F L Br. pose proof C as (_ & _ & (se & Hse & Hch) & _). unfold picture_data, stops, dies. destruct (size v) as [w h]. rewrite Hse. unfold deref. rewrite bind_ret.
  apply stops_bind. eapply slices_fails; [exact C | exact R | exact L | exact Br | exact F|]. rewrite rbits_setb, app_length. pose proof (whole_count _ _ F). lia.
Qed.

(** * Headers *)
Definition errs {S A} (e : err) (m : M S A) (s : S) : Prop := exists s', m s = (Err e, s').
Lemma errs_bind : forall S A B e (m : M S A) (k : A -> M S B) s, errs e m s -> errs e (bind m k) s.
Proof. intros S A B e m k s (s' & E). exists s'. now apply bind_err. Qed.
Lemma errs_ok : forall S A B e (m : M S A) (k : A -> M S B) s a s1, m s = (Ok a, s1) -> errs e (k a) s1 -> errs e (bind m k) s.
Proof. intros S A B e m k s a s1 E (s' & D). exists s'. now rewrite (bind_ok _ _ _ _ _ _ _ _ E). Qed.
Lemma errs_onr : forall T A e (m : M reader A) (t : T) r, errs e m r -> errs e (onr m) (t, r).
Proof. intros T A e m t r (r' & E). exists (t, r'). unfold onr. cbn [fst snd]. now rewrite E. Qed.
Lemma errs_assign : forall A e set (m : M reader A) v r, errs e m r -> errs e (assign_header set m) (v, r).
Proof. intros A e set m v r (r' & E). unfold assign_header, errs. cbn [fst snd]. rewrite E. eauto. Qed.
Lemma nsc_nonzero : forall k f n r t, (k < f)%nat -> 0 < n < 256 -> (n = 1 -> (k < 2)%nat) -> (16 <= length t)%nat ->
  errs ErrUnexpectedNonZeroByte (nsc_loop f) (setb r (bb (repeat 0 k) ++ enc 8 n ++ t)).
Proof.
  induction k as [|k IH]; intros f n r t Hf Hn H1 Lt; (destruct f as [|f]; [lia|]); cbn [nsc_loop].
  - cbn [repeat bb flat_map app]. assert (L : (24 <= length (enc 8 n ++ t))%nat) by (rewrite app_length, enc_length; lia).
    assert (N : dec (firstn 24 (enc 8 n ++ t)) <> 1).
    { intro X. assert (Y : firstn 8 (firstn 24 (enc 8 n ++ t)) = enc 8 0). { rewrite <- (enc_dec (firstn 24 _)), firstn_length_le, X by exact L. reflexivity. }
      rewrite firstn_firstn in Y. change (Nat.min 8 24) with 8%nat in Y. rewrite firstn_app, firstn_all2 in Y by (rewrite enc_length; lia). rewrite enc_length in Y. cbn [Nat.sub firstn] in Y. rewrite app_nil_r in Y.
      apply (f_equal dec) in Y. rewrite !dec_enc in Y by (change (2 ^ Z.of_nat 8) with 256; lia). lia. }
    eapply errs_ok; [rewrite <- (firstn_skipn 24 (enc 8 n ++ t)); apply peek_n_app; now apply firstn_length_le|]. rewrite firstn_skipn. change StartCodePrefix with 1. rewrite (proj2 (Z.eqb_neq _ _) N).
    eapply errs_ok; [apply read_enc; change (2 ^ Z.of_nat 8) with 256; lia|]. rewrite (proj2 (Z.eqb_neq n 0)) by lia. eexists. reflexivity.
  - cbn [repeat bb flat_map]. change (flat_map (enc 8) (repeat 0 k)) with (bb (repeat 0 k)). rewrite <- app_assoc. set (u := bb (repeat 0 k) ++ enc 8 n ++ t).
    assert (Lu : (24 <= length u)%nat) by (unfold u; rewrite !app_length, enc_length; lia).
    assert (L : (24 <= length (enc 8 0 ++ u))%nat) by (rewrite app_length; lia).
    assert (N : dec (firstn 24 (enc 8 0 ++ u)) <> 1).
    { intro X. assert (Y : firstn 24 (enc 8 0 ++ u) = enc 24 1). { rewrite <- (enc_dec (firstn 24 _)), firstn_length_le, X by exact L. reflexivity. }
      rewrite firstn_app, firstn_all2 in Y by (rewrite enc_length; lia). rewrite enc_length in Y. change (24 - 8)%nat with 16%nat in Y. change (enc 24 1) with (enc 8 0 ++ enc 8 0 ++ enc 8 1) in Y. apply app_inv_head in Y.
      unfold u in Y. destruct k as [|[|k] ]; cbn [repeat bb flat_map app] in Y.
      - apply (f_equal (firstn 8)) in Y. rewrite firstn_firstn in Y. change (Nat.min 8 16) with 8%nat in Y. rewrite firstn_app, firstn_all2 in Y by (rewrite enc_length; lia). rewrite enc_length in Y. cbn [Nat.sub firstn] in Y. rewrite app_nil_r in Y.
        apply (f_equal dec) in Y. rewrite dec_enc in Y by (change (2 ^ Z.of_nat 8) with 256; lia). match type of Y with _ = ?x => change x with 0 in Y end. lia.
      - rewrite app_nil_r in Y. rewrite firstn_app, firstn_all2 in Y by (rewrite enc_length; lia). rewrite enc_length in Y. change (16 - 8)%nat with 8%nat in Y. apply app_inv_head in Y.
        rewrite firstn_app, firstn_all2 in Y by (rewrite enc_length; lia). rewrite enc_length in Y. cbn [Nat.sub firstn] in Y. rewrite app_nil_r in Y.
        apply (f_equal dec) in Y. rewrite !dec_enc in Y by (change (2 ^ Z.of_nat 8) with 256; lia). lia.
      - change (flat_map (enc 8) (repeat 0 k)) with (bb (repeat 0 k)) in Y. rewrite <- !app_assoc in Y. rewrite firstn_app, firstn_all2 in Y by (rewrite enc_length; lia). rewrite enc_length in Y. change (16 - 8)%nat with 8%nat in Y. apply app_inv_head in Y.
        rewrite firstn_app, firstn_all2 in Y by (rewrite enc_length; lia). rewrite enc_length in Y. cbn [Nat.sub firstn] in Y. discriminate Y. }
    eapply errs_ok; [rewrite <- (firstn_skipn 24 (enc 8 0 ++ u)); apply peek_n_app; now apply firstn_length_le|]. rewrite firstn_skipn. change StartCodePrefix with 1. rewrite (proj2 (Z.eqb_neq _ _) N).
    eapply errs_ok; [apply read_enc; change (2 ^ Z.of_nat 8) with 256; lia|]. change (0 =? 0) with true. cbn [negb]. apply IH; [lia | exact Hn | intro; specialize (H1 ltac:(assumption)); lia | exact Lt].
Qed.
Lemma unstuffed_fails : forall c d, unstuffed c d -> exists u, d = c ++ u /\ forall r, errs ErrUnexpectedNonZeroByte next_start_code (setb r u).
Proof.
  intros c d (k & n & t & -> & Hn & H1 & Lt & L8). unfold stuffed, stuffing. rewrite <- !app_assoc. eexists. split; [reflexivity|]. intro r. unfold next_start_code.
  eapply errs_ok; [apply vid_align_run|].
  - rewrite repeat_length. apply alignment_small.
  - apply app_mod8; [apply bb_mod8|]. apply app_mod8; [now rewrite enc_length | exact L8].
  - cbv beta. apply nsc_nonzero; auto. rewrite rbits_setb, !app_length, bb_length, repeat_length. lia.
Qed.
Lemma errs_stuffing : forall A (m : M reader A) c x set v d rd, (forall r t, m (setb r (c ++ t)) = (Ok x, setb r t)) -> unstuffed c d -> errs ErrUnexpectedNonZeroByte (assign_header set m) (v, setb rd d).
Proof.
  intros A m c x set v d rd H U. destruct (unstuffed_fails _ _ U) as (u & -> & F). destruct (F rd) as (r' & E). unfold errs, assign_header. cbn [fst snd]. rewrite H, E. eauto.
Qed.
Lemma errs_code : forall b b' r t, 0 <= b' < 256 -> b' <> b -> errs ErrUnexpectedStartCode (sc_assert (256 + b)) (setb r (code b' ++ t)).
Proof.
  intros b b' r t R N. unfold sc_assert, sc_check, errs. rewrite bind_assoc. rewrite (bind_ok _ _ _ _ _ _ _ _ (peek_code b' r t R)). rewrite bind_ret. rewrite (proj2 (Z.eqb_neq _ _)) by lia. eexists. reflexivity.
Qed.
Lemma errs_id : forall i i' r t, 0 <= i' < 16 -> i' <> i -> errs ErrUnexpectedExtensionID (id_assert i) (setb r (enc 4 i' ++ t)).
Proof.
  intros i i' r t R N. unfold id_assert, id_check, errs. rewrite bind_assoc. erewrite bind_ok by (apply peek_enc; change (2 ^ Z.of_nat 4) with 16; lia). rewrite bind_ret. rewrite (proj2 (Z.eqb_neq _ _) N). eexists. reflexivity.
Qed.
Lemma width_split : forall a b c, width (a + b) c -> exists c1 c2, c = c1 ++ c2 /\ width a c1 /\ width b c2.
Proof. intros a b c W. unfold width in *. exists (firstn a c), (skipn a c). split; [symmetry; apply firstn_skipn|]. rewrite firstn_length, skipn_length. lia. Qed.
Lemma errs_marker : forall r t, errs ErrMissingMarkerBit marker_bit (setb r ([false] ++ t)).
Proof. intros r t. eexists. reflexivity. Qed.
Lemma seq_marker : forall d r, no_marker (code sequence_header_code) 50 d -> errs ErrMissingMarkerBit sequence_header_fields (setb r d).
Proof.
  intros d r (c & t & -> & W & _). destruct (width_split 12 38 c W) as (c1 & c' & -> & W1 & W'). destruct (width_split 12 26 c' W') as (c2 & c'' & -> & W2 & W''). destruct (width_split 4 22 c'' W'') as (c3 & c3' & -> & W3 & W3'). destruct (width_split 4 18 c3' W3') as (c4 & c5 & -> & W4 & W5).
  rewrite <- !app_assoc. unfold sequence_header_fields. eapply errs_ok; [apply sc_assert_code; [unfold sequence_header_code; lia | reflexivity]|].
  do 5 (eapply errs_ok; [apply read_n_app; eassumption|]). apply errs_bind, errs_marker.
Qed.
Lemma ext_marker : forall d r, no_marker (code extension_code ++ enc 4 1) 27 d -> errs ErrMissingMarkerBit sequence_extension_fields (setb r d).
Proof.
  intros d r (c & t & -> & W & _). destruct (width_split 8 19 c W) as (c1 & c' & -> & W1 & W'). destruct (width_split 1 18 c' W') as (c2 & c'' & -> & W2 & W''). destruct (width_split 2 16 c'' W'') as (c3 & c3' & -> & W3 & W3'). destruct (width_split 2 14 c3' W3') as (c4 & c4' & -> & W4 & W4'). destruct (width_split 2 12 c4' W4') as (c5 & c6 & -> & W5 & W6).
  rewrite <- !app_assoc. unfold sequence_extension_fields. eapply errs_ok; [apply sc_assert_code; [unfold extension_code; lia | reflexivity]|]. eapply errs_ok; [apply id_assert_run; lia|].
  do 6 (eapply errs_ok; [apply read_n_app; eassumption|]). apply errs_bind, errs_marker.
Qed.

(** An extension with an unexpected identifier, after others *)
Definition odd (i : Z) (d : list bool) : Prop := (length d mod 8 = 0)%nat /\ (exists t, d = code extension_code ++ t) /\ forall t v r, d = code extension_code ++ t -> errs ErrUnexpectedExtensionID (extension_body i) (v, setb r t).
Lemma odd_0 : forall d, other_id [2; 5] d -> odd 0 d.
Proof.
  intros d (id & t & -> & R & N & L). split; [exact L|]. split; [eauto|]. intros t' v r E. apply app_inv_head in E. subst t'. cbn [In] in N. unfold extension_body. cbn [Z.eqb]. eapply errs_ok; [unfold onr; cbn [fst snd]; rewrite (peek_enc 4 id r t) by (change (2 ^ Z.of_nat 4) with 16; lia); reflexivity|].
  change SequenceDisplayExtensionID with 2. rewrite (proj2 (Z.eqb_neq id 2)) by lia. apply errs_onr. unfold sequence_scalable_extension. apply errs_bind. apply errs_id; [exact R|]. change SequenceScalableExtensionID with 5. lia.
Qed.
Lemma odd_2 : forall d, other_id [3; 4; 7; 9; 10] d -> odd 2 d.
Proof.
  intros d (id & t & -> & R & N & L). split; [exact L|]. split; [eauto|]. intros t' v r E. apply app_inv_head in E. subst t'. cbn [In] in N. unfold extension_body. cbn [Z.eqb Pos.eqb]. eapply errs_ok; [unfold onr; cbn [fst snd]; rewrite (peek_enc 4 id r t) by (change (2 ^ Z.of_nat 4) with 16; lia); reflexivity|].
  change QuantMatrixExtensionID with 3. change CopyrightExtensionID with 4. change PictureDisplayExtensionID with 7. change PictureSpatialScalableExtensionID with 9.
  rewrite (proj2 (Z.eqb_neq id 3)), (proj2 (Z.eqb_neq id 4)), (proj2 (Z.eqb_neq id 7)), (proj2 (Z.eqb_neq id 9)) by lia. apply errs_bind, errs_onr. unfold picture_temporal_scalable_extension. apply errs_bind. apply errs_id; [exact R|]. change PictureTemporalScalableExtensionID with 10. lia.
Qed.
Lemma odd_at : forall i d, odd i d -> at_code d.
Proof.
  intros i d (L & (t & ->) & _). unfold code in *. rewrite <- app_assoc in *. eexists. split; [reflexivity|].
  rewrite app_length in L. change (length prefix) with (3 * 8)%nat in L. rewrite Nat.add_comm in L. now rewrite Nat.mod_add in L by lia.
Qed.
Lemma data_odd : forall xs i f v r d, (length xs < f)%nat -> (i = 0 \/ i = 2) -> Forall (allowed i) xs -> Forall wf_xitem xs -> odd i d ->
  (snd (split_ext xs) = [] /\ errs ErrUnexpectedExtensionID (extension_data f i) (v, setb r (enc_xitems xs ++ d))) \/
  (snd (split_ext xs) <> [] /\ extension_data f i (v, setb r (enc_xitems xs ++ d)) =
    (Ok tt, (items_effect (fst (split_ext xs)) v, setb r (enc_xitems (snd (split_ext xs)) ++ d)))).
Proof.
  induction xs as [|x xs IH]; intros i f v r d Hf Hi HA HW HU; (destruct f; [lia|]); cbn [extension_data].
  - left. split; [reflexivity|]. pose proof HU as (_ & (t & E) & B). specialize (B t v r E). rewrite E. cbn [enc_xitems flat_map app]. unfold errs.
    erewrite bind_onr_ok by (apply peek_code; unfold extension_code; lia). change (256 + extension_code =? ExtensionStartCode) with true. cbn [negb].
    rewrite (bind_ok _ _ _ _ _ _ _ _ (skip_code_run _ _ _ _)). destruct B as (s & B). exists s. now apply bind_err.
  - cbn [enc_xitems flat_map split_ext]. rewrite <- app_assoc. fold (enc_xitems xs). destruct (is_ext x) eqn:E.
    + rewrite enc_ext_bits by auto. rewrite <- app_assoc. unfold errs. erewrite bind_onr_ok by (apply peek_code; unfold extension_code; lia).
      change (256 + extension_code =? ExtensionStartCode) with true. cbn [negb]. rewrite (bind_ok _ _ _ _ _ _ _ _ (skip_code_run _ _ _ _)).
      erewrite bind_ok; [|apply body_run; auto; [exact (Forall_inv HA) | exact (Forall_inv HW) | apply xitems_at_code; eapply odd_at; eauto]].
      cbn [fst snd]. apply IH; auto; [cbn in Hf; lia | exact (Forall_inv_tail HA) | exact (Forall_inv_tail HW)].
    + right. split; [discriminate|]. destruct x; try discriminate E. cbn [enc_xitem fst snd]. unfold enc_user. rewrite <- app_assoc.
      erewrite bind_onr_ok by (apply peek_code; unfold user_data_code; lia).
      change (256 + user_data_code =? ExtensionStartCode) with false. cbn [negb enc_xitems flat_map enc_xitem]. unfold enc_user.
      rewrite <- !app_assoc. reflexivity.
Qed.
Lemma loop_odd : forall n xs i f v r d, length xs = n -> (n < f)%nat -> (i = 0 \/ i = 2) -> Forall (allowed i) xs -> Forall wf_xitem xs -> odd i d ->
  errs ErrUnexpectedExtensionID (ext_user_loop f i) (v, setb r (enc_xitems xs ++ d)).
Proof.
  induction n as [n IH] using lt_wf_ind. intros xs i f v r d Hn Hf Hi HA HW HU. destruct f; [lia|]. cbn [ext_user_loop].
  assert (I1 : (i =? 1) = false) by (destruct Hi as [-> | ->]; reflexivity).
  assert (C : (exists t, enc_xitems xs ++ d = code extension_code ++ t) \/ exists u xs', xs = XUser u :: xs').
  { destruct xs as [|x xs']; [left; cbn [enc_xitems flat_map app]; apply HU|]. destruct (is_ext x) eqn:E.
    - left. cbn [enc_xitems flat_map]. rewrite enc_ext_bits by auto. rewrite <- !app_assoc. eauto.
    - right. destruct x; try discriminate E. eauto. }
  destruct C as [(t & E) | (u & xs' & ->)].
  - assert (P : peek_n 32 (setb r (enc_xitems xs ++ d)) = (Ok (256 + extension_code), setb r (enc_xitems xs ++ d))) by (rewrite E; apply peek_code; unfold extension_code; lia).
    unfold errs. erewrite bind_onr_ok by exact P. change (256 + extension_code =? ExtensionStartCode) with true. rewrite I1. cbn [negb andb].
    destruct (data_odd xs i (S (length (rbits (snd (v, setb r (enc_xitems xs ++ d)))))) v r d) as [(_ & s & D) | (N & D)]; auto.
    { cbn [snd]. rewrite rbits_setb, app_length. pose proof (UnsupportedProofs.xitems_len xs). lia. }
    + exists s. now apply bind_err.
    + erewrite bind_ok; [|exact D]. pose proof (split_ext_parts xs) as SP.
      assert (Lb : (length (snd (split_ext xs)) < length xs)%nat).
      { destruct xs as [|x xs']; [now elim N|]. destruct (is_ext x) eqn:Ex.
        - rewrite <- SP at 2. rewrite app_length. cbn [split_ext]. rewrite Ex. cbn [fst snd length]. lia.
        - exfalso. destruct x; try discriminate Ex. cbn [enc_xitems flat_map enc_xitem] in E. unfold enc_user in E. rewrite <- !app_assoc in E.
          apply (f_equal (firstn 32)) in E. rewrite !firstn_app, !code_length, !firstn_all2 in E by (rewrite code_length; lia). cbn [Nat.sub firstn] in E. rewrite !app_nil_r in E. discriminate E. }
      apply (IH (length (snd (split_ext xs)))); auto; [lia|lia| |]; rewrite <- SP in HA, HW; [apply Forall_app in HA; tauto | apply Forall_app in HW; tauto].
  - cbn [enc_xitems flat_map enc_xitem].
    assert (P : peek_n 32 (setb r ((enc_user u ++ flat_map enc_xitem xs') ++ d)) = (Ok (256 + user_data_code), setb r ((enc_user u ++ flat_map enc_xitem xs') ++ d))).
    { unfold enc_user. rewrite <- !app_assoc. apply peek_code. unfold user_data_code. lia. }
    unfold errs. erewrite bind_onr_ok by exact P. change (256 + user_data_code =? ExtensionStartCode) with false.
    change (256 + user_data_code =? UserDataStartCode) with true. cbn [negb andb]. rewrite andb_false_r.
    destruct (Forall_inv HW) as [B N]. rewrite <- app_assoc. fold (enc_xitems xs').
    destruct (xitems_at_code xs' d (odd_at _ _ HU)) as (t & Et & T). rewrite Et.
    rewrite bind_assoc. erewrite bind_onr_ok by (now apply user_data_run). rewrite bind_ret.
    rewrite <- Et. cbn [length] in Hn. apply (IH (length xs')); auto; [lia|lia|exact (Forall_inv_tail HA) | exact (Forall_inv_tail HW)].
Qed.
Lemma ext_odd : forall xs i v r d, (i = 0 \/ i = 2) -> Forall (allowed i) xs -> Forall wf_xitem xs -> odd i d -> errs ErrUnexpectedExtensionID (extension_and_user_data i) (v, setb r (enc_xitems xs ++ d)).
Proof.
  intros. unfold extension_and_user_data, errs. apply (loop_odd (length xs)); auto. cbn [snd]. rewrite rbits_setb, app_length. pose proof (UnsupportedProofs.xitems_len xs). lia.
Qed.

(** ** The places of a fault *)
Definition leads (b : Z) (d : list bool) : Prop := 0 <= b < 256 /\ exists t, d = code b ++ t /\ (length t mod 8 = 0)%nat.
Lemma leads_mod : forall b t, 0 <= b < 256 -> (length (code b ++ t) mod 8 = 0)%nat -> leads b (code b ++ t).
Proof. intros b t R L. split; [exact R|]. exists t. split; [reflexivity|]. rewrite app_length, code_length in L. rewrite Nat.add_comm in L. change 32%nat with (4 * 8)%nat in L. now rewrite Nat.mod_add in L by lia. Qed.
Lemma leads_at : forall b d, leads b d -> at_code d.
Proof. intros b d (_ & t & -> & L). now apply code_at. Qed.
Lemma leads_other : forall b d, leads b d -> b <> extension_code -> b <> user_data_code -> at_other_code d.
Proof. intros b d (R & t & -> & L) N1 N2. exists b, t. auto 6. Qed.
Lemma leads_id : forall ids d, other_id ids d -> leads extension_code d.
Proof. intros ids d (id & t & -> & R & N & L). apply leads_mod; [unfold extension_code; lia | exact L]. Qed.
Lemma leads_stuffed : forall b e d, 0 <= b < 256 -> unstuffed (code b ++ e) d -> leads b d.
Proof.
  intros b e d R (k & n & t & -> & _ & _ & _ & L). pose proof (stuffed_mod8 (length (code b ++ e)) k (code b ++ e) eq_refl) as M8. fold (stuffed (code b ++ e) k) in M8.
  assert (X : (length (stuffed (code b ++ e) k ++ enc 8 n ++ t) mod 8 = 0)%nat) by (apply app_mod8; [exact M8|]; apply app_mod8; [now rewrite enc_length | exact L]).
  unfold stuffed in *. rewrite <- !app_assoc in *. now apply leads_mod.
Qed.
Lemma leads_marker : forall b e n d, 0 <= b < 256 -> no_marker (code b ++ e) n d -> leads b d.
Proof. intros b e n d R (c & t & -> & _ & L). rewrite <- !app_assoc in *. now apply leads_mod. Qed.
Lemma leads_start : forall s d, at_code d -> leads sequence_header_code (enc_start s ++ d).
Proof.
  intros s d A. apply (start_at s) in A. destruct (start_starts s d) as (t & E). rewrite E in *. apply leads_mod; [unfold sequence_header_code; lia | now apply at_code_mod8].
Qed.
Lemma leads_seq : forall s k d, at_code d -> leads sequence_header_code (stuffed (enc_seq s) k ++ d).
Proof.
  intros s k d A. assert (X : at_code (stuffed (enc_seq s) k ++ d)) by (unfold enc_seq; now apply stuffed_at_code). apply at_code_mod8 in X. unfold stuffed, enc_seq in *. rewrite <- !app_assoc in *. apply leads_mod; [unfold sequence_header_code; lia | exact X].
Qed.
Lemma leads_group : forall g d, at_code d -> leads group_code (enc_group_head g ++ d).
Proof.
  intros g d A. pose proof (at_code_mod8 _ (other_at_code _ (UnsupportedProofs.group_head_at g d A))) as X. unfold enc_group_head, stuffed, enc_gop in *. rewrite <- !app_assoc in *. apply leads_mod; [unfold group_code; lia | exact X].
Qed.
Lemma leads_pic : forall p k d, at_code d -> leads picture_code (stuffed (enc_pic p) k ++ d).
Proof.
  intros p k d A. assert (X : at_code (stuffed (enc_pic p) k ++ d)) by (unfold enc_pic; now apply stuffed_at_code). apply at_code_mod8 in X. unfold stuffed, enc_pic in *. rewrite <- !app_assoc in *. apply leads_mod; [unfold picture_code; lia | exact X].
Qed.
Lemma leads_head : forall p d, at_code d -> leads picture_code (enc_picture_head p ++ d).
Proof.
  intros p d A. pose proof (at_code_mod8 _ (UnsupportedProofs.head_at p d A)) as X. destruct (UnsupportedProofs.head_starts p d) as (t & E). rewrite E in *. apply leads_mod; [unfold picture_code; lia | exact X].
Qed.
Definition started (v : vidseq) : bool := match v_sh v with Some _ => true | None => false end.
Definition seq_rest (st : bool) : V image :=
  if st then vs_sequence_extension ;; continue_frames
  else val <- onr (peek_n 32) ;; if negb (val =? ExtensionStartCode) then fail ErrUnsupported else vs_sequence_extension ;; continue_frames.
Lemma seq_place : forall k v rd b d, (v_sh v <> None -> k = 0%nat) -> leads b d -> (started v = true -> ~ In b [picture_code; group_code; sequence_end_code]) ->
  step (v, setb rd (bb (repeat 0 k) ++ d)) = (vs_sequence_header ;; seq_rest (started v)) (v, setb rd d).
Proof.
  intros k v rd b d K L N. unfold step, started in *. rewrite bind_own. cbn [fst]. destruct (v_sh v) as [q|].
  - rewrite (K ltac:(discriminate)). cbn [repeat bb flat_map app]. specialize (N eq_refl). cbn [In] in N. destruct L as (R & t & -> & L).
    erewrite bind_onr_ok by (now apply peek_code). change PictureStartCode with (256 + picture_code). change GroupStartCode with (256 + group_code). change SequenceEndStartCode with (256 + sequence_end_code).
    rewrite (proj2 (Z.eqb_neq (256 + b) (256 + picture_code))), (proj2 (Z.eqb_neq (256 + b) (256 + group_code))) by lia. cbn [orb].
    erewrite bind_onr_ok by (now apply peek_code). rewrite (proj2 (Z.eqb_neq (256 + b) (256 + sequence_end_code))) by lia. reflexivity.
  - destruct (leads_at _ _ L) as (u & E & U). rewrite E. erewrite bind_onr_ok by (apply (next_start_code_run [] k); [cbn; lia | exact U]). reflexivity.
Qed.
Lemma seq_fails : forall e k v rd b d, (v_sh v <> None -> k = 0%nat) -> leads b d -> (started v = true -> ~ In b [picture_code; group_code; sequence_end_code]) ->
  errs e read_sequence_header (setb rd d) -> errs e step (v, setb rd (bb (repeat 0 k) ++ d)).
Proof. intros e k v rd b d K L N F. unfold errs. rewrite (seq_place k v rd b d K L N). apply errs_bind. unfold vs_sequence_header. apply errs_bind. now apply errs_onr. Qed.
Lemma seq_done : forall k v rd s j d, (v_sh v <> None -> k = 0%nat) -> wf_seq s -> at_code d -> exists v1, step (v, setb rd (bb (repeat 0 k) ++ stuffed (enc_seq s) j ++ d)) = seq_rest (started v) (v1, setb rd d).
Proof.
  intros k v rd s j d K W A. rewrite (seq_place k v rd sequence_header_code _ K (leads_seq s j d A)) by (intros _; cbn; unfold picture_code, group_code, sequence_end_code, sequence_header_code; lia).
  eexists. erewrite bind_ok by (apply PropertiesVidHeaders.vs_seq_run; auto). reflexivity.
Qed.
Lemma rest_ext : forall st v rd d, leads extension_code d -> seq_rest st (v, setb rd d) = (vs_sequence_extension ;; continue_frames) (v, setb rd d).
Proof. intros [] v rd d (R & t & -> & L); [reflexivity|]. unfold seq_rest. erewrite bind_onr_ok by (now apply peek_code). reflexivity. Qed.
Lemma ext_fails : forall e k v rd s j d, (v_sh v <> None -> k = 0%nat) -> wf_seq s -> leads extension_code d -> (forall v1, errs e vs_sequence_extension (v1, setb rd d)) ->
  errs e step (v, setb rd (bb (repeat 0 k) ++ stuffed (enc_seq s) j ++ d)).
Proof.
  intros e k v rd s j d K W L F. destruct (seq_done k v rd s j d K W (leads_at _ _ L)) as (v1 & E). unfold errs. rewrite E, rest_ext by exact L. apply errs_bind, F.
Qed.
Lemma start_place : forall k s d v rd, (v_sh v <> None -> k = 0%nat) -> wf_start s -> at_code d ->
  step (v, setb rd (bb (repeat 0 k) ++ enc_start s ++ d)) = (vs_sequence_header ;; vs_sequence_extension ;; continue_frames) (v, setb rd (enc_start s ++ d)).
Proof.
  intros k s d v rd K W A. destruct (v_sh v) as [q|] eqn:SH.
  - rewrite (K ltac:(discriminate)). cbn [repeat bb flat_map app]. apply UnsupportedProofs.resume_headers. now rewrite SH.
  - now apply UnsupportedProofs.first_headers.
Qed.
Lemma start_done : forall s v rd d, wf_start s -> at_other_code d -> exists v1, (vs_sequence_header ;; vs_sequence_extension ;; continue_frames) (v, setb rd (enc_start s ++ d)) = more_frames (v1, setb rd d) /\ knows v1 (Some (st_seq s, st_ext s)).
Proof.
  intros s v rd d (W1 & W2 & W3 & W4) Ao. pose proof (xitems_at_code (st_items s) _ (other_at_code _ Ao)) as A1. unfold enc_start. rewrite <- !app_assoc.
  assert (A2 : at_code (stuffed (enc_sext (st_ext s)) (st_k2 s) ++ enc_xitems (st_items s) ++ d)) by (apply stuffed_at_code; exact A1).
  erewrite bind_ok by (now apply PropertiesVidHeaders.vs_seq_run). unfold vs_sequence_extension.
  erewrite bind_ok by (apply (PropertiesVidHeaders.assign_run _ set_se sequence_extension_fields (enc_sext (st_ext s)) (sext_of (st_ext s))); [intros; now apply sext_fields_run | exact A1]).
  unfold continue_frames. erewrite bind_ok by (apply ext_user_data_run; [exact W3 | exact W4 | exact Ao]). eexists. split; [reflexivity|]. apply items_knows. split; reflexivity.
Qed.
Lemma start_odd : forall s v rd d, wf_start s -> odd 0 d -> errs ErrUnexpectedExtensionID (vs_sequence_header ;; vs_sequence_extension ;; continue_frames) (v, setb rd (enc_start s ++ d)).
Proof.
  intros s v rd d (W1 & W2 & W3 & W4) O. pose proof (xitems_at_code (st_items s) _ (odd_at _ _ O)) as A1. unfold enc_start. rewrite <- !app_assoc.
  assert (A2 : at_code (stuffed (enc_sext (st_ext s)) (st_k2 s) ++ enc_xitems (st_items s) ++ d)) by (apply stuffed_at_code; exact A1).
  eapply errs_ok; [now apply PropertiesVidHeaders.vs_seq_run|]. unfold vs_sequence_extension.
  eapply errs_ok; [apply (PropertiesVidHeaders.assign_run _ set_se sequence_extension_fields (enc_sext (st_ext s)) (sext_of (st_ext s))); [intros; now apply sext_fields_run | exact A1]|].
  unfold continue_frames. apply errs_bind. now apply ext_odd; auto.
Qed.
(** After a possible sequence header: [knows] of what it said *)
Lemma more_place : forall k os o v rd b d, (v_sh v <> None -> k = 0%nat) -> knows v o -> (started v = false -> os <> None) -> opt_wf wf_start os -> leads b d -> (b = picture_code \/ b = group_code) ->
  exists v1 h, step (v, setb rd (bb (repeat 0 k) ++ opt enc_start os ++ d)) = more_frames (v1, setb rd d) /\ knows v1 (Some h).
Proof.
  intros k os o v rd b d K Kn Ns W L B. destruct os as [s|]; cbn [opt opt_wf app] in *.
  - assert (Ao : at_other_code d) by (eapply leads_other; [exact L | |]; destruct B as [-> | ->]; discriminate).
    rewrite start_place by (auto; now apply other_at_code). destruct (start_done s v rd d W Ao) as (v1 & E & K1). eauto.
  - unfold started in Ns. destruct (v_sh v) as [q|] eqn:SH; [|now elim (Ns eq_refl)]. rewrite (K ltac:(discriminate)). cbn [repeat bb flat_map app].
    destruct o as [h|]; [|cbn [knows] in Kn; congruence]. exists v, h. split; [|exact Kn]. unfold step. rewrite bind_own. cbn [fst]. rewrite SH. destruct L as (R & t & -> & L).
    erewrite bind_onr_ok by (now apply peek_code). destruct B as [-> | ->]; reflexivity.
Qed.
Lemma more_not_group : forall v rd b d, leads b d -> b <> group_code -> more_frames (v, setb rd d) = picture_part (v, setb rd d).
Proof.
  intros v rd b d (R & t & -> & L) N. unfold more_frames. erewrite bind_onr_ok by (now apply peek_code). change GroupStartCode with (256 + group_code). rewrite (proj2 (Z.eqb_neq _ _)) by lia. rewrite bind_ret. reflexivity.
Qed.
Lemma group_done : forall g h v rd d, wf_group_head g -> at_other_code d -> knows v (Some h) -> exists v1, more_frames (v, setb rd (enc_group_head g ++ d)) = picture_part (v1, setb rd d) /\ knows v1 (Some h).
Proof.
  intros g h v rd d (W1 & W2 & W3) A K. unfold more_frames.
  assert (P : peek_n 32 (setb rd (enc_group_head g ++ d)) = (Ok (256 + group_code), setb rd (enc_group_head g ++ d))) by (unfold enc_group_head, stuffed, enc_gop; rewrite <- !app_assoc; apply peek_code; unfold group_code; lia).
  erewrite bind_onr_ok by exact P. change (256 + group_code =? GroupStartCode) with true. cbv iota. rewrite bind_assoc.
  unfold enc_group_head, stuffed. rewrite <- (app_assoc _ (enc_xitems (gh_items g))), <- (app_assoc (enc_gop (gh_hdr g))). erewrite bind_onr_ok by (apply gop_run; [exact W1 | apply xitems_at_code; now apply other_at_code]).
  rewrite bind_assoc, bind_upd. cbn [fst snd]. erewrite bind_ok by (apply ext_user_data_run; auto). eexists. split; [reflexivity|]. apply items_knows. destruct h as [s x]. exact K.
Qed.
Lemma group_fails : forall g v rd d, wf_gop g -> unstuffed (enc_gop g) d -> errs ErrUnexpectedNonZeroByte more_frames (v, setb rd d).
Proof.
  intros g v rd d W U. assert (L : leads group_code d) by (eapply leads_stuffed; [unfold group_code; lia | exact U]). destruct (unstuffed_fails _ _ U) as (u & E & F).
  destruct L as (R & t & Et & L). unfold more_frames. assert (P : peek_n 32 (setb rd d) = (Ok (256 + group_code), setb rd d)) by (rewrite Et; now apply peek_code).
  unfold errs. erewrite bind_onr_ok by exact P. change (256 + group_code =? GroupStartCode) with true. cbv iota. apply errs_bind, errs_bind, errs_onr.
  rewrite E. unfold read_gop_header, enc_gop in *. rewrite <- !app_assoc. eapply errs_ok; [apply sc_assert_code; [exact R | reflexivity]|].
  eapply errs_ok; [apply read_n_app; apply enc_time_length|]. eapply errs_ok; [apply read1_cons|]. eapply errs_ok; [apply read1_cons|]. apply errs_bind, F.
Qed.
Lemma head_place : forall k os og o v rd d, (v_sh v <> None -> k = 0%nat) -> knows v o -> (started v = false -> os <> None) -> opt_wf wf_start os -> opt_wf wf_group_head og -> leads picture_code d ->
  exists v1 h, step (v, setb rd (bb (repeat 0 k) ++ opt enc_start os ++ opt enc_group_head og ++ d)) = picture_part (v1, setb rd d) /\ knows v1 (Some h).
Proof.
  intros k os og o v rd d K Kn Ns W Wg L. destruct og as [g|]; cbn [opt opt_wf app] in *.
  - destruct (more_place k os o v rd group_code (enc_group_head g ++ d) K Kn Ns W (leads_group g d (leads_at _ _ L)) (or_intror eq_refl)) as (v1 & h & E & K1).
    destruct (group_done g h v1 rd d Wg) as (v2 & E2 & K2); [eapply leads_other; [exact L | discriminate | discriminate] | exact K1|]. exists v2, h. split; [now rewrite E | exact K2].
  - destruct (more_place k os o v rd picture_code d K Kn Ns W L (or_introl eq_refl)) as (v1 & h & E & K1). exists v1, h. split; [|exact K1]. rewrite E. eapply more_not_group; [exact L | discriminate].
Qed.
Lemma pic_done : forall p k v rd d, wf_pic p -> at_code d -> exists v1, picture_part (v, setb rd (stuffed (enc_pic p) k ++ d)) =
  (vs_picture_coding_extension ;; extension_and_user_data 2 ;; pic_tail) (v1, setb rd d).
Proof.
  intros p k v rd d W A. unfold picture_part, vs_picture_header.
  erewrite bind_ok by (apply (PropertiesVidHeaders.assign_run _ set_ph picture_header_fields (enc_pic p) (pic_of p)); [intros; now apply pic_fields_run | exact A]). eexists. reflexivity.
Qed.
Lemma no_slice_tail : forall v h p rd b d, ready_for v h p -> leads b d -> ~ (1 <= b <= 175) -> errs ErrUnexpectedStartCode pic_tail (v, setb rd d).
Proof.
  intros v [s x] p rd b d (E1 & E2 & _ & E3) (R & t & -> & L) N. unfold pic_tail, errs. rewrite bind_own. cbn [fst]. rewrite E1. unfold deref. rewrite bind_ret, bind_upd, bind_own. cbn [fst snd].
  set (w := set_fs _ v). apply errs_bind. apply errs_onr. unfold picture_data, errs. destruct (size w) as [a c]. change (v_se w) with (v_se v). rewrite E3. unfold deref. rewrite bind_ret. apply errs_bind.
  cbn [slices]. apply errs_bind. exists (setb rd t). unfold slice. fold (slice_head w (create_frame_buffer a c (se_chroma (sext_of x)))).
  assert (H : forall f, slice_head w f (setb rd (code b ++ t)) = (Err ErrUnexpectedStartCode, setb rd t)).
  { intro f. unfold slice_head. rewrite code_enc by lia. rewrite (bind_ok _ _ _ _ _ _ _ _ (read_enc 32 (256 + b) rd _ ltac:(change (2 ^ Z.of_nat 32) with 4294967296; lia))).
    replace (is_slice (256 + b)) with false; [reflexivity|]. symmetry. unfold is_slice. change MinSliceStartCode with 257. change MaxSliceStartCode with 431. apply andb_false_iff. lia. }
  now rewrite H.
Qed.
Lemma picture_odd : forall p v rd d, wf_picture_head p -> odd 2 d -> errs ErrUnexpectedExtensionID picture_part (v, setb rd (enc_picture_head p ++ d)).
Proof.
  intros p v rd d (W1 & W2 & W3 & W4) U. unfold picture_part, enc_picture_head. rewrite <- !app_assoc.
  pose proof (xitems_at_code (pd_items p) _ (odd_at _ _ U)) as A1.
  assert (A2 : at_code (stuffed (enc_pce (pd_pce p)) (pd_k2 p) ++ enc_xitems (pd_items p) ++ d)) by (apply stuffed_at_code; exact A1).
  unfold vs_picture_header, vs_picture_coding_extension.
  eapply errs_ok; [apply (PropertiesVidHeaders.assign_run _ set_ph picture_header_fields (enc_pic (pd_hdr p)) (pic_of (pd_hdr p))); [intros; now apply pic_fields_run | exact A2]|].
  eapply errs_ok; [apply (PropertiesVidHeaders.assign_run _ set_pce picture_coding_extension_fields (enc_pce (pd_pce p)) (pce_of (pd_pce p))); [intros; now apply pce_fields_run | exact A1]|].
  apply errs_bind. now apply ext_odd; auto.
Qed.
Lemma other_leads : forall bs d, other_code bs d -> exists b, leads b d /\ ~ In b bs.
Proof. intros bs d (b & t & -> & R & N & L). exists b. split; [|exact N]. split; [exact R|]. eauto. Qed.
Lemma pic_fails : forall e v rd d, errs e vs_picture_header (v, setb rd d) -> errs e picture_part (v, setb rd d).
Proof. intros e v rd d F. unfold picture_part. now apply errs_bind. Qed.
Lemma code_inj : forall b b' t t', 0 <= b < 256 -> 0 <= b' < 256 -> code b ++ t = code b' ++ t' -> b = b'.
Proof.
  intros b b' t t' R R' E. pose proof (peek_code b PropertiesVidHeaders.ex_r t R) as P. rewrite E, (peek_code b' PropertiesVidHeaders.ex_r t' R') in P. apply (f_equal fst) in P. cbn [fst] in P. assert (256 + b' = 256 + b) by congruence. lia.
Qed.

Lemma rejected_step : forall e d k o v rd, (v_sh v <> None -> k = 0%nat) -> knows v o -> rejected (started v) e d -> errs e step (v, setb rd (bb (repeat 0 k) ++ d)).
Proof.
  intros e d k o v rd K Kn H. destruct H as [d C Ns | d M | s d W U | s j d W C | s j d W I | s j d W M | s j x d W Wx U | s d W I | s d W C | os g d Ns W Wg U | os g d Ns W Wg C | os og p d Ns W Wg Wp U
    | os og p j d Ns W Wg Wp C | os og p j d Ns W Wg Wp I | os og p j x d Ns W Wg Wp Wx U | os og p d Ns W Wg Wp I | os og p d Ns W Wg Wp C NS].
  - destruct (other_leads _ _ C) as (b & L & N). eapply seq_fails; [exact K | exact L | |].
    + intros St. rewrite St in N. cbn [In] in *. tauto.
    + unfold read_sequence_header, sequence_header_fields. apply errs_bind, errs_bind. destruct L as (R & t & -> & L). apply (errs_code sequence_header_code); [exact R|]. intros ->. destruct (started v); cbn [In] in N; tauto.
  - eapply seq_fails; [exact K | eapply (leads_marker sequence_header_code []); [unfold sequence_header_code; lia | rewrite app_nil_r; exact M] | |].
    + intros _. cbn. unfold picture_code, group_code, sequence_end_code, sequence_header_code. lia.
    + unfold read_sequence_header. apply errs_bind. now apply seq_marker.
  - eapply seq_fails; [exact K | eapply leads_stuffed; [|exact U]; unfold sequence_header_code; lia | |].
    + intros _. cbn. unfold picture_code, group_code, sequence_end_code, sequence_header_code. lia.
    + unfold read_sequence_header. destruct (unstuffed_fails _ _ U) as (u & -> & F). eapply errs_ok; [now apply seq_fields_run|]. apply errs_bind, F.
  - destruct (other_leads _ _ C) as (b & L & N). destruct (seq_done k v rd s j d K W (leads_at _ _ L)) as (v1 & E). unfold errs. rewrite E. cbn [In] in N. destruct L as (R & t & -> & L). destruct (started v).
    + apply errs_bind. unfold vs_sequence_extension. apply errs_assign. unfold sequence_extension_fields. apply errs_bind. apply (errs_code extension_code); [exact R | lia].
    + unfold seq_rest. erewrite bind_onr_ok by (now apply peek_code). change ExtensionStartCode with (256 + extension_code). rewrite (proj2 (Z.eqb_neq _ _)) by lia. eexists. reflexivity.
  - eapply ext_fails; [exact K | exact W | eapply leads_id; exact I|]. intro v1. apply errs_assign. destruct I as (id & t & -> & R & N & L). unfold sequence_extension_fields. eapply errs_ok; [apply sc_assert_code; [unfold extension_code; lia | reflexivity]|].
    apply errs_bind. apply errs_id; [exact R|]. cbn [In] in N. change SequenceExtensionID with 1. lia.
  - eapply ext_fails; [exact K | exact W | eapply leads_marker; [|exact M]; unfold extension_code; lia|]. intro v1. apply errs_assign. now apply ext_marker.
  - eapply ext_fails; [exact K | exact W | eapply leads_stuffed; [|exact U]; unfold extension_code; lia|]. intro v1. unfold vs_sequence_extension. eapply (errs_stuffing _ _ (enc_sext x) (sext_of x)); [|exact U]. intros. now apply sext_fields_run.
  - pose proof (odd_0 _ I) as O. unfold errs. rewrite start_place by (auto; now apply (odd_at 0)). now apply start_odd.
  - destruct (other_leads _ _ C) as (b & L & N). cbn [In] in N. assert (Ao : at_other_code d) by (eapply leads_other; [exact L | |]; intros ->; tauto).
    unfold errs. rewrite start_place by (auto; now apply other_at_code). destruct (start_done s v rd d W Ao) as (v1 & E & _). rewrite E. rewrite (more_not_group v1 rd b d L) by (intros ->; tauto).
    apply pic_fails. destruct L as (R & t & -> & L). apply errs_assign. unfold picture_header_fields. apply errs_bind. apply (errs_code picture_code); [exact R | intros ->; tauto].
  - assert (L : leads group_code d) by (eapply leads_stuffed; [|exact U]; unfold group_code; lia). destruct (more_place k os o v rd group_code d K Kn Ns W L (or_intror eq_refl)) as (v1 & h & E & _). unfold errs. rewrite E. eapply group_fails; eassumption.
  - destruct (other_leads _ _ C) as (b & L & N). cbn [In] in N. destruct (more_place k os o v rd group_code (enc_group_head g ++ d) K Kn Ns W (leads_group g d (leads_at _ _ L)) (or_intror eq_refl)) as (v1 & h & E & K1).
    destruct (group_done g h v1 rd d Wg) as (v2 & E2 & _); [eapply leads_other; [exact L | |]; intros ->; tauto | exact K1|]. unfold errs. rewrite E, E2.
    apply pic_fails. destruct L as (R & t & -> & L). apply errs_assign. unfold picture_header_fields. apply errs_bind. apply (errs_code picture_code); [exact R | intros ->; tauto].
  - assert (L : leads picture_code d) by (eapply leads_stuffed; [|exact U]; unfold picture_code; lia). destruct (head_place k os og o v rd d K Kn Ns W Wg L) as (v1 & h & E & _). unfold errs. rewrite E. apply pic_fails.
    unfold vs_picture_header. eapply (errs_stuffing _ _ (enc_pic p) (pic_of p)); [|exact U]. intros. now apply pic_fields_run.
  - destruct (other_leads _ _ C) as (b & L & N). cbn [In] in N. pose proof (leads_at _ _ L) as A. destruct (head_place k os og o v rd _ K Kn Ns W Wg (leads_pic p j d A)) as (v1 & h & E & _). destruct (pic_done p j v1 rd d Wp A) as (v2 & E2). unfold errs. rewrite E, E2.
    apply errs_bind. destruct L as (R & t & -> & L). apply errs_assign. unfold picture_coding_extension_fields. apply errs_bind. apply (errs_code extension_code); [exact R | intros ->; tauto].
  - pose proof (leads_at _ _ (leads_id _ _ I)) as A. destruct (head_place k os og o v rd _ K Kn Ns W Wg (leads_pic p j d A)) as (v1 & h & E & _). destruct (pic_done p j v1 rd d Wp A) as (v2 & E2). unfold errs. rewrite E, E2.
    apply errs_bind. apply errs_assign. destruct I as (id & t & -> & R & N & L). unfold picture_coding_extension_fields. eapply errs_ok; [apply sc_assert_code; [unfold extension_code; lia | reflexivity]|].
    apply errs_bind. apply errs_id; [exact R|]. cbn [In] in N. change PictureCodingExtensionID with 8. lia.
  - assert (L : leads extension_code d) by (eapply leads_stuffed; [|exact U]; unfold extension_code; lia). pose proof (leads_at _ _ L) as A. destruct (head_place k os og o v rd _ K Kn Ns W Wg (leads_pic p j d A)) as (v1 & h & E & _). destruct (pic_done p j v1 rd d Wp A) as (v2 & E2). unfold errs. rewrite E, E2.
    apply errs_bind. unfold vs_picture_coding_extension. eapply (errs_stuffing _ _ (enc_pce x) (pce_of x)); [|exact U]. intros. now apply pce_fields_run.
  - pose proof (odd_2 _ I) as O. destruct (head_place k os og o v rd _ K Kn Ns W Wg (leads_head p d (odd_at _ _ O))) as (v1 & h & E & _). unfold errs. rewrite E. now apply picture_odd.
  - destruct (other_leads _ _ C) as (b & L & N). cbn [In] in N. assert (Ao : at_other_code d) by (eapply leads_other; [exact L | |]; intros ->; tauto).
    destruct (head_place k os og o v rd _ K Kn Ns W Wg (leads_head p d (leads_at _ _ L))) as (v1 & h & E & K1). destruct (picture_heads p h v1 rd d Wp Ao K1) as (v2 & E2 & R2). unfold errs. rewrite E, E2.
    eapply no_slice_tail; [exact R2 | exact L|]. destruct NS as (b' & t' & Ed & _ & R' & N'). destruct L as (R & t & E3 & _). assert (b' = b); [|subst; exact N'].
    rewrite Ed in E3. eapply code_inj; eauto.
Qed.

(** * Streams *)
Lemma tail_fails : forall v h p e d rd, ready_for v h p -> broken_picture h (pd_hdr p) (pd_pce p) e d -> stops e pic_tail (v, setb rd d).
Proof.
  intros v h p e d rd R (ss & row & t & -> & Hr & F & L & Br). pose proof R as (E1 & E2 & K). unfold stops, dies, pic_tail. rewrite bind_own. cbn [fst]. rewrite E1. unfold deref. rewrite bind_ret, bind_upd, bind_own. cbn [fst snd].
  set (w := set_fs _ v). assert (C : mvctx w (mkLayer (pd_hdr p) (pd_pce p) (x_chroma (snd h)) (q_vertical (fst h)))) by (eapply ready_ctx; [exact R | reflexivity]).
  apply (stops_bind _ _ _ e (onr (picture_data w))). apply stops_onr. eapply data_fails; eassumption.
Qed.
Definition rejected_piece (e : err) (o : option (sseq * ssext)) (d1 : list bool) : Prop :=
  rejected (match o with Some _ => true | None => false end) e d1 \/ exists h p c1 d2, d1 = c1 ++ d2 /\ heads o h p c1 /\ broken_picture h (pd_hdr p) (pd_pce p) e d2.
Lemma known_started : forall v o, knows v o -> started v = match o with Some _ => true | None => false end.
Proof. intros v [ [s x]|] K; unfold started; [destruct K as (-> & _) | cbn [knows] in K; rewrite K]; reflexivity. Qed.
Lemma piece_step : forall e o d v k rd, knows v o -> (v_sh v <> None -> k = 0%nat) -> rejected_piece e o d -> stops e step (v, setb rd (bb (repeat 0 k) ++ d)).
Proof.
  intros e o d v k rd K Kz [M | (h & p & c1 & d1 & -> & Hh & Br)].
  - right. rewrite <- (known_started v o K) in M. eapply rejected_step; eassumption.
  - destruct (heads_step o h p c1 k v rd d1 Hh K Kz) as (v1 & E & R).
    + destruct Br as (ss & row & t & -> & Hr & F & L & _). destruct (slices_starts2 _ ss row t F Hr L) as (b & u & -> & B & U). apply at_code_other; [lia | unfold extension_code; lia | unfold user_data_code; lia | now apply code_at].
    + unfold stops, dies. rewrite E. eapply tail_fails; [exact R | exact Br].
Qed.
Lemma leads_not_slice : forall b d, leads b d -> ~ (1 <= b <= 175) -> not_slice d.
Proof. intros b d (R & t & -> & L) N. exists b, t. auto. Qed.
Lemma opt_leads : forall os og d b, leads b d -> ~ (1 <= b <= 175) -> exists b', leads b' (opt enc_start os ++ opt enc_group_head og ++ d) /\ ~ (1 <= b' <= 175).
Proof.
  intros os og d b L N. assert (X : exists b', leads b' (opt enc_group_head og ++ d) /\ ~ (1 <= b' <= 175)).
  { destruct og as [g|]; cbn [opt app]; [|eauto]. exists group_code. split; [apply leads_group; eapply leads_at; exact L | unfold group_code; lia]. }
  destruct X as (b' & L' & N'). destruct os as [s|]; cbn [opt app]; [|eauto]. exists sequence_header_code. split; [apply leads_start; eapply leads_at; exact L' | unfold sequence_header_code; lia].
Qed.
Lemma rejected_not_slice : forall e d, rejected true e d -> not_slice d.
Proof.
  intros e d H.
  assert (O : forall os og d b, leads b d -> ~ (1 <= b <= 175) -> not_slice (opt enc_start os ++ opt enc_group_head og ++ d)) by (intros os og d' b L N; destruct (opt_leads os og d' b L N) as (b' & L' & N'); eapply leads_not_slice; eassumption).
  destruct H as [d C Ns | d M | s d W U | s j d W C | s j d W I | s j d W M | s j x d W Wx U | s d W I | s d W C | os g d Ns W Wg U | os g d Ns W Wg C | os og p d Ns W Wg Wp U
    | os og p j d Ns W Wg Wp C | os og p j d Ns W Wg Wp I | os og p j x d Ns W Wg Wp Wx U | os og p d Ns W Wg Wp I | os og p d Ns W Wg Wp C NS].
  - now apply Ns.
  - eapply leads_not_slice; [eapply (leads_marker sequence_header_code []); [unfold sequence_header_code; lia | rewrite app_nil_r; exact M] | unfold sequence_header_code; lia].
  - eapply leads_not_slice; [eapply leads_stuffed; [|exact U] | ]; unfold sequence_header_code; lia.
  - destruct (other_leads _ _ C) as (b & L & _). eapply leads_not_slice; [apply leads_seq; eapply leads_at; exact L | unfold sequence_header_code; lia].
  - eapply leads_not_slice; [apply leads_seq; eapply leads_at, leads_id; exact I | unfold sequence_header_code; lia].
  - eapply leads_not_slice; [apply leads_seq; eapply leads_at, leads_marker; [|exact M]; unfold extension_code; lia | unfold sequence_header_code; lia].
  - eapply leads_not_slice; [apply leads_seq; eapply leads_at, leads_stuffed; [|exact U]; unfold extension_code; lia | unfold sequence_header_code; lia].
  - eapply leads_not_slice; [apply leads_start; eapply leads_at, leads_id; exact I | unfold sequence_header_code; lia].
  - destruct (other_leads _ _ C) as (b & L & _). eapply leads_not_slice; [apply leads_start; eapply leads_at; exact L | unfold sequence_header_code; lia].
  - apply (O os None d group_code); [eapply leads_stuffed; [|exact U]; unfold group_code; lia | unfold group_code; lia].
  - destruct (other_leads _ _ C) as (b & L & _). apply (O os None _ group_code); [apply leads_group; eapply leads_at; exact L | unfold group_code; lia].
  - apply (O os og d picture_code); [eapply leads_stuffed; [|exact U]; unfold picture_code; lia | unfold picture_code; lia].
  - destruct (other_leads _ _ C) as (b & L & _). apply (O os og _ picture_code); [apply leads_pic; eapply leads_at; exact L | unfold picture_code; lia].
  - apply (O os og _ picture_code); [apply leads_pic; eapply leads_at, leads_id; exact I | unfold picture_code; lia].
  - apply (O os og _ picture_code); [apply leads_pic; eapply leads_at, leads_stuffed; [|exact U]; unfold extension_code; lia | unfold picture_code; lia].
  - apply (O os og _ picture_code); [apply leads_head; eapply leads_at, leads_id; exact I | unfold picture_code; lia].
  - destruct (other_leads _ _ C) as (b & L & _). apply (O os og _ picture_code); [apply leads_head; eapply leads_at; exact L | unfold picture_code; lia].
Qed.
Lemma piece_not_slice : forall e h d, rejected_piece e (Some h) d -> not_slice d.
Proof.
  intros e h0 d [M | (h & p & c1 & d1 & -> & Hh & ss & row & t & -> & Hr & F & L & _)]; [eapply rejected_not_slice; exact M|]. eapply heads_unit; [exact Hh|].
  destruct (slices_starts2 _ ss row t F Hr L) as (b & u & -> & B & U). now apply code_at.
Qed.
Theorem rejected_plays : forall k e d rd, rlater rd = [] -> rejected_stream e d ->
  (exists n, dies (nexts n) (new_vidseq, setb rd (bb (repeat 0 k) ++ d))) \/
  exists n imgs s s', nexts n (new_vidseq, setb rd (bb (repeat 0 k) ++ d)) = (Ok imgs, s) /\ next s = (Err e, s').
Proof.
  intros k e d rd Rl (o & c & d1 & -> & H & Su). fold (rejected_piece e o d1) in Su.
  assert (AU : c <> [] -> not_slice d1) by (intro N; destruct (whole_out _ _ _ H) as [X | (h & ->)]; [contradiction | eapply piece_not_slice; exact Su]).
  destruct (play_stops (before false o d1) (fun s => exists s', next s = (Err e, s')) (setb rd (bb (repeat 0 k) ++ c ++ d1))) as [D | (m & imgs & s & E & s' & E')]; [exact Rl | | apply new_before; auto; discriminate | now left | right; eauto 6].
  intros s B. destruct (next_pieces _ _ _ _ B) as [D | [X | (v' & k' & rd' & f' & E & K & W & Kz & _)] ]; [now left | now (right; right)|].
  destruct (stops_bind _ _ _ _ step (fun img => v <- own ;; ph <- deref (v_ph v) ;; if ph_tr ph =? v_fc v then upd (fun v => set_fc (u32 (v_fc v + 1)) v) ;; ret img else next_loop f') _ (piece_step e o d1 v' k' rd' K Kz Su)) as [(s1 & D) | (s1 & D)].
  - left. exists s1. rewrite E. exact D.
  - right. left. exists s1. rewrite E. exact D.
Qed.
Theorem rejected_first : forall k e d rd, rejected false e d -> exists s', next (new_vidseq, setb rd (bb (repeat 0 k) ++ d)) = (Err e, s').
Proof.
  intros k e d rd H. destruct (rejected_step e d k None new_vidseq rd) as (s' & E); [now intros X; elim X | reflexivity | exact H|]. exists s'. unfold next. rewrite bind_own. change (fs_tryget (v_fc (fst (new_vidseq, setb rd (bb (repeat 0 k) ++ d)))) (v_fs (fst (new_vidseq, setb rd (bb (repeat 0 k) ++ d))))) with (@None image). cbv iota beta. cbn [snd next_loop].
  now apply bind_err.
Qed.

(** * Streams of whole pieces that the source cuts *)
Lemma end_pieces : forall h t s, before true (Some h) (code sequence_end_code ++ t) s -> dies next s \/ (exists img s', next s = (Ok img, s') /\ before true (Some h) (code sequence_end_code ++ t) s') \/ exists v' r', next s = (Err EOS, (v', r')) /\ rbits r' = t.
Proof.
  intros h t s B. destruct (next_pieces _ _ _ _ B) as [D | [X | (v' & k' & rd' & f' & E & K & W & Kz & _ & Zk)] ]; [now left | now (right; left)|]. right. right. rewrite (Zk eq_refl) in E. cbn [repeat bb flat_map app] in E. cbn [next_loop] in E. apply knows_some in K.
  assert (St : step (v', setb rd' (code sequence_end_code ++ t)) = (Err EOS, (v', setb rd' t))).
  { unfold step. rewrite bind_own. cbn [fst]. destruct (v_sh v') as [q|]; [|congruence].
    assert (P : peek_n 32 (setb rd' (code sequence_end_code ++ t)) = (Ok (256 + sequence_end_code), setb rd' (code sequence_end_code ++ t))) by (apply peek_code; unfold sequence_end_code; lia).
    erewrite bind_onr_ok by exact P. change ((256 + sequence_end_code =? PictureStartCode) || (256 + sequence_end_code =? GroupStartCode)) with false. cbv iota.
    erewrite bind_onr_ok by exact P. change (256 + sequence_end_code =? SequenceEndStartCode) with true. cbv iota. erewrite bind_onr_ok by (apply skip_app; now rewrite code_length). reflexivity. }
  exists v', (setb rd' t). split; [rewrite E; now apply bind_err | now rewrite rbits_setb].
Qed.
Theorem whole_cut : forall (P : err -> Prop) k o c l x rd, CutProofs.src P rd -> whole_stream None o c -> c <> [] -> bb (repeat 0 k) ++ c = l ++ x -> (length x mod 8 = 0)%nat ->
  (exists n, dies (nexts n) (new_vidseq, setb rd l)) \/ exists n imgs s e s', nexts n (new_vidseq, setb rd l) = (Ok imgs, s) /\ next s = (Err e, s') /\ P e.
Proof.
  intros P k o c l x rd Sr H Ne E Lx. destruct (whole_out _ _ _ H) as [X | (h & ->)]; [contradiction|].
  set (D := code sequence_end_code ++ []).
  assert (LD : (length (x ++ D) mod 8 = 0)%nat) by (unfold D; rewrite !app_length, code_length; cbn [length]; apply Nat.mod_divides in Lx; [|lia]; destruct Lx as (q & ->); replace (8 * q + (32 + 0))%nat with ((q + 4) * 8)%nat by lia; now apply Nat.mod_mul).
  destruct (play_stops (fun s => exists v r l, s = (v, setb r l) /\ CutProofs.src P r /\ before true (Some h) D (v, setb r (l ++ x ++ D))) (fun s => exists e s', next s = (Err e, s') /\ P e) (setb rd l)) as [Q | (m & imgs & s & E1 & e & s' & E2 & Pe)].
  - exact (proj1 Sr).
  - intros s (v & r & l0 & -> & Sr0 & B). pose proof (CutProofs.cut_next P (v, r) l0 (x ++ D) Sr0 ltac:(lia) LD) as C. unfold CutProofs.wrs in C. cbn [fst snd] in C.
    destruct (end_pieces _ _ _ B) as [(s1 & Q) | [(img & s1 & Q & B1) | (v1 & r1 & Q & Z)] ]; rewrite Q in C; destruct (next (v, setb r l0)) as [ [i|e| |] s'] eqn:E0; cbn [fst] in C; try discriminate C; try (left; exists s'; exact E0).
    all: try (destruct C as (s2 & l' & R & _ & C); discriminate C).
    + destruct C as [C | (s2 & l' & _ & C)]; [right; left; eauto 6 | discriminate C].
    + right. right. destruct C as ([v2 r2] & l' & R & Es & C). cbn [fst snd] in *. injection C as -> ->. exists i, s'. split; [reflexivity|]. exists v2, r2, l'. auto.
    + destruct C as [C | (s2 & l' & _ & C)]; [right; left; eauto 6 | discriminate C].
    + destruct C as [C | (s2 & l' & _ & C)]; [right; left; eauto 6|]. exfalso. injection C as _ _ ->. rewrite rbits_setb in Z. apply app_eq_nil in Z. destruct Z as (_ & Z). apply app_eq_nil in Z. now destruct Z.
  - exists new_vidseq, rd, l. split; [reflexivity|]. split; [exact Sr|]. rewrite app_assoc, <- E, <- app_assoc. apply new_before; auto; [|exact (proj1 Sr)]. intros _. exists sequence_end_code, []. split; [reflexivity|]. split; [reflexivity | unfold sequence_end_code; lia].
  - now left.
  - right. eauto 8.
Qed.
