(** SpillProofs: a prediction from above or below its reference makes the decoder panic. *)
From Coq Require Import Lia.
From Verif Require Import Base BitReader Exec Local TsRobust PesLocal After Huffman VlcTables BlockModel SpecVlc SpecBlock VlcProofs BlockProofs DequantProofs IdctProofs
  VidModel SpecVid VidProofs VidStream VidExt VidLocal MbModel SpecMotion MotionProofs FrameProofs MbProofs SpecNext SpecPicture CanvasProofs MacroblockProofs MbRunProofs MbStepProofs MbWholeProofs
  EndProofs2 ShapeProofs NextProofs SliceProofs SpecStore StoreProofs SpecSyntax SyntaxProofs SpecRules RulesProofs SpecAround SpecSpill ForwardProofs.
From Verif Require Import PropertiesBlock.

(** * Samples *)
Lemma quiet_then : forall S A B (m : M S A) (k : A -> M S B) s, quiet m -> (forall a, dies (k a) s) -> dies (bind m k) s.
Proof. intros S A B m k s Q D. destruct (Q s) as [X|(a & E)]; [now apply dies_bind|]. eapply dies_ok; [exact E | apply D]. Qed.
Lemma get_dies : forall S p i (s : S), i < 0 \/ pl_len p <= i -> dies (pl_get p i) s.
Proof. intros S p i s H. unfold pl_get. replace ((0 <=? i) && (i <? pl_len p)) with false; [eexists; reflexivity|]. symmetry. apply andb_false_iff. lia. Qed.
Lemma flat_same : forall w x y, 0 < w -> (y + x / w) * w + x mod w = y * w + x.
Proof. intros w x y H. pose proof (Z.div_mod x w ltac:(lia)). lia. Qed.
Lemma flat_in : forall w h x y, 0 < w -> (0 <= y + x / w < h <-> 0 <= y * w + x < w * h).
Proof.
  intros w h x y H. rewrite <- (flat_same w x y H). pose proof (Z.mod_pos_bound x w H). set (q := y + x / w). set (m := x mod w) in *. clearbody q m. split; intro Q.
  - assert (0 * w <= q * w) by (apply Z.mul_le_mono_nonneg_r; lia). assert (q * w <= (h - 1) * w) by (apply Z.mul_le_mono_nonneg_r; lia). lia.
  - split; [destruct (Z_lt_le_dec q 0) as [G|G]; [|exact G]; assert (q * w <= -1 * w) by (apply Z.mul_le_mono_nonneg_r; lia); lia|].
    destruct (Z_lt_le_dec q h) as [G|G]; [exact G|]. assert (h * w <= q * w) by (apply Z.mul_le_mono_nonneg_r; lia). lia.
Qed.
Lemma plane_pos : forall f w h i, frame420 f w h -> 0 < plane_w i w.
Proof. intros f w h i (W & _ & M & _). unfold plane_w. destruct (i <? 4); [exact W|]. pose proof (Z.div_mod w 16 ltac:(lia)). apply Z.div_str_pos. lia. Qed.

(** The vector and the index of one sample *)
Lemma pel_eq : forall S f w h i row col mv u v (s : S), frame420 f w h -> 0 <= i < 6 ->
  let mx := block_vector i (fst mv) in let my := block_vector i (snd mv) in let W := plane_w i w in
  mc_pel f i row col (fst mv) (snd mv) v u s =
  mc_sample (channel f i) W (negb (mx mod 2 =? 0)) (negb (my mod 2 =? 0)) ((block_y i row + v + my / 2) * W + (block_x i col + u + mx / 2)) s.
Proof.
  intros S f w h i row col mv u v s Hf Hi mx my W. unfold mc_pel.
  assert (EV : (if (i =? 4) || (i =? 5) then (Z.shiftr (fst mv) 1, Z.shiftr (snd mv) 1) else (fst mv, snd mv)) = (mx, my)).
  { unfold mx, my, block_vector. rewrite !Z.shiftr_div_pow2 by lia. six Hi; reflexivity. }
  rewrite EV. clear EV. clearbody mx my. cbv zeta. rewrite mc_stride_eq, mc_index_eq by auto. rewrite !Z.shiftr_div_pow2 by lia. change (2 ^ 1) with 2.
  rewrite (frame_stride f w h i Hf). fold W. destruct (half_bit mx) as [-> _]. destruct (half_bit my) as [-> _]. f_equal. ring.
Qed.
Lemma pel_else : forall S f w h i row col mv u v x y (s : S), frame420 f w h -> 0 <= i < 6 -> needed i row col mv u v x y -> ~ 0 <= y + x / plane_w i w < plane_h i h ->
  dies (mc_pel f i row col (fst mv) (snd mv) v u) s.
Proof.
  intros S f w h i row col mv u v x y s Hf Hi Nd Out. unfold dies. rewrite (pel_eq S f w h) by auto. cbv zeta. unfold needed in Nd. cbv zeta in Nd.
  pose proof (frame_len f w h i Hf Hi) as L. pose proof (plane_pos f w h i Hf) as PW. rewrite (flat_in _ _ _ _ PW) in Out.
  set (mx := block_vector i (fst mv)) in *. set (my := block_vector i (snd mv)) in *. set (p := channel f i) in *. set (W := plane_w i w) in *. set (H := plane_h i h) in *.
  destruct (half_bit mx) as [_ Hx]. destruct (half_bit my) as [_ Hy].
  set (x0 := block_x i col + u + mx / 2) in *. set (y0 := block_y i row + v + my / 2) in *.
  assert (D : dies (pl_get p (y * W + x)) s) by (apply get_dies; lia). clear Out. clearbody x0 y0 p W H.
  assert (Q : forall k, quiet (pl_get p k : M S Z)) by (intro; apply quiet_get). fold (dies (mc_sample p W (negb (mx mod 2 =? 0)) (negb (my mod 2 =? 0)) (y0 * W + x0)) s).
  unfold mc_sample. destruct Nd as (Nx & Ny). destruct Hx as [Ex|Ex], Hy as [Ey|Ey]; rewrite Ex, Ey in *; cbn [Z.eqb Pos.eqb negb andb].
  - replace (y0 * W + x0) with (y * W + x); [exact D|]. f_equal; [f_equal|]; lia.
  - assert (x = x0) by lia. subst x. destruct Ny as [->| ->]; [now apply dies_bind|]. apply quiet_then; [apply Q|]. intro a. apply dies_bind. replace (y0 * W + x0 + W) with ((y0 + 1) * W + x0) by ring. exact D.
  - assert (y = y0) by lia. subst y. destruct Nx as [->| ->]; [now apply dies_bind|]. apply quiet_then; [apply Q|]. intro a. apply dies_bind. replace (y0 * W + x0 + 1) with (y0 * W + (x0 + 1)) by ring. exact D.
  - destruct Ny as [->| ->].
    + destruct Nx as [->| ->]; [now apply dies_bind|]. apply quiet_then; [apply Q|]. intro a. apply dies_bind. replace (y0 * W + x0 + 1) with (y0 * W + (x0 + 1)) by ring. exact D.
    + apply quiet_then; [apply Q|]. intro a. apply quiet_then; [apply Q|]. intro b. destruct Nx as [->| ->].
      * apply dies_bind. replace (y0 * W + x0 + W) with ((y0 + 1) * W + x0) by ring. exact D.
      * apply quiet_then; [apply Q|]. intro c. apply dies_bind. replace (y0 * W + x0 + W + 1) with ((y0 + 1) * W + (x0 + 1)) by ring. exact D.
Qed.
Lemma mapM_dies : forall S A B (f : A -> M S B) l x (s : S), (forall a, quiet (f a)) -> In x l -> dies (f x) s -> dies (mapM f l) s.
Proof.
  intros S A B f l x s Q. induction l as [|y l IH]; intros I D; [destruct I|]. cbn [mapM]. destruct I as [->|I]; [now apply dies_bind|].
  apply quiet_then; [apply Q|]. intro b. apply dies_bind. now apply IH.
Qed.
Definition off (w h i row col : Z) (ref : option (image * (Z * Z))) : Prop :=
  match ref with Some (_, mv) => exists u v x y, 0 <= u < 8 /\ 0 <= v < 8 /\ needed i row col mv u v x y /\ ~ 0 <= y + x / plane_w i w < plane_h i h | None => False end.
Definition bad_ref (w h i row col : Z) (ref : option (image * (Z * Z))) : Prop := match ref with Some (f, mv) => frame420 f w h /\ off w h i row col ref | None => False end.
Lemma compensation_dies : forall S m w h i row col fs b (s : S), 0 <= i < 6 -> bad_ref w h i row col (past_ref m fs) \/ bad_ref w h i row col (future_ref m fs) ->
  dies (motion_compensation m i row col fs b) s.
Proof.
  intros S m w h i row col fs b s Hi Hb. unfold motion_compensation. cbv zeta.
  assert (K : exists u v, 0 <= u < 8 /\ 0 <= v < 8 /\ ((exists f, mc_ref (mv_fwd m) (fs_past fs) = Some f /\ dies (mc_pel f i row col (nth (mvi 0 0 0) (mv_act m) 0) (nth (mvi 0 0 1) (mv_act m) 0) v u) s) \/
      (exists f, mc_ref (mv_bwd m) (fs_future fs) = Some f /\ dies (mc_pel f i row col (nth (mvi 0 1 0) (mv_act m) 0) (nth (mvi 0 1 1) (mv_act m) 0) v u) s))).
  { unfold past_ref, future_ref in *. destruct Hb as [Hb|Hb].
    - destruct (mc_ref (mv_fwd m) (fs_past fs)) as [f|]; [|contradiction]. destruct Hb as (F1 & u & v & x & y & Hu & Hv & Nd & O). exists u, v. split; [exact Hu|]. split; [exact Hv|]. left. exists f. split; [reflexivity|]. exact (pel_else S f w h i row col (mv_of m 0) u v x y s F1 Hi Nd O).
    - destruct (mc_ref (mv_bwd m) (fs_future fs)) as [f|]; [|contradiction]. destruct Hb as (F1 & u & v & x & y & Hu & Hv & Nd & O). exists u, v. split; [exact Hu|]. split; [exact Hv|]. right. exists f. split; [reflexivity|]. exact (pel_else S f w h i row col (mv_of m 1) u v x y s F1 Hi Nd O). }
  destruct K as (u & v & Hu & Hv & K).
  assert (Q1 : forall (o : option image) a c x y, quiet (match o with Some f => p <- mc_pel f i row col a c x y ;; ret (p, 1) | None => ret (0, 0) end : M S (Z * Z))).
  { intros [f|] a c x y; [apply quiet_bind; [apply quiet_pel | intro; apply quiet_ret] | apply quiet_ret]. }
  apply (mapM_dies _ _ _ _ _ (Z.to_nat (8 * v + u))).
  - intro k. apply quiet_bind; [apply Q1|]. intro pf. apply quiet_bind; [apply Q1|]. intro pb. repeat match goal with |- quiet (if ?c then _ else _) => apply quiet_if end; apply quiet_ret.
  - apply in_seq. lia.
  - rewrite Z2Nat.id by lia. replace ((8 * v + u) / 8) with v by (rewrite Z.mul_comm, Z.div_add_l, Z.div_small; lia). replace ((8 * v + u) mod 8) with u by (rewrite Z.add_comm, Z.mul_comm, Z.mod_add, Z.mod_small; lia).
    destruct K as [(f & E & D)|(f & E & D)]; rewrite E.
    + apply dies_bind, dies_bind. exact D.
    + apply quiet_then; [apply Q1|]. intro pf. apply dies_bind, dies_bind. exact D.
Qed.

(** * Blocks and macroblocks *)
Definition bad_block (w h i row col : Z) (m : mvdata) (fs : framestore) : Prop := bad_ref w h i row col (past_ref m fs) \/ bad_ref w h i row col (future_ref m fs).
Lemma put_dies : forall S m fs w h row col i il b f (s : S), 0 <= i < 6 -> bad_block w h i row col m fs -> dies (put_block m fs row col i il b f) s.
Proof. intros S m fs w h row col i il b f s Hi B. unfold put_block. apply dies_bind. now apply (compensation_dies _ _ w h). Qed.
Lemma bcopy_dies : forall S n m fs w h row addr col f (s : S), addr <= col < addr + Z.of_nat n -> (exists i, 0 <= i < 6 /\ bad_block w h i row col m fs) -> dies (bframe_copy_macroblocks n m fs row addr f) s.
Proof.
  intros S n m fs w h row addr col f s. revert addr f. induction n as [|n IH]; intros addr f Hc B; [lia|]. cbn [bframe_copy_macroblocks].
  destruct (Z.eq_dec col addr) as [->|N].
  - apply dies_bind. destruct B as (i & Hi & B).
    assert (Q : forall l f', In i l -> dies (bframe_blocks m fs row addr l f') s).
    { induction l as [|j l IHl]; intros f' Hj; [destruct Hj|]. cbn [bframe_blocks]. destruct Hj as [->|Hj]; [apply dies_bind; now apply (put_dies _ _ _ w h)|]. apply quiet_then; [apply quiet_put|]. intro bf. now apply IHl. }
    apply Q. assert (i = 0 \/ i = 1 \/ i = 2 \/ i = 3 \/ i = 4 \/ i = 5) as [->|[->|[->|[->|[->| ->] ] ] ] ] by lia; cbn; tauto.
  - match goal with |- dies (bind ?x _) s => assert (Q : quiet x) end.
    { generalize [0; 1; 2; 3; 4; 5]. intro l. revert f. induction l as [|j l IHl]; intro f'; cbn [bframe_blocks]; [apply quiet_ret|]. apply quiet_bind; [apply quiet_put | intro; apply IHl]. }
    apply quiet_then; [exact Q|]. intro f'. apply IH; [lia | exact B].
Qed.
Lemma inter_dies : forall v e se mb w h row col, mb_intra (mo_type mb) = false -> forall blocks k i b m rd l c, (k <= i < k + length blocks)%nat -> (i < 6)%nat -> inter_code blocks c ->
  bad_block w h (Z.of_nat i) row col (ms_mvd m) (v_fs v) -> dies (mb_blocks v e se mb row col (Z.of_nat k) (map some blocks) b) (m, setb rd (c ++ l)).
Proof.
  intros v e se mb w h row col HI. induction blocks as [|x blocks IH]; intros k i b m rd l c Hk Hi C B; cbn [length] in Hk; [lia|]. cbn [map mb_blocks]. rewrite HI.
  assert (PUT : forall b1 m1 c2, ms_mvd m1 = ms_mvd m -> inter_code blocks c2 ->
    dies (m <- own ;; bf <- put_block (ms_mvd m) (v_fs v) row col (Z.of_nat k) (mo_dct mb) b1 (ms_frame m) ;; upd (ms_set_frame (snd bf)) ;; mb_blocks v e se mb row col (Z.of_nat k + 1) (map some blocks) (fst bf)) (m1, setb rd (c2 ++ l))).
  { intros b1 m1 c2 Em C2. eapply dies_ok; [reflexivity|]. cbn [fst]. destruct (Nat.eq_dec i k) as [->|N]; [apply dies_bind; apply (put_dies _ _ _ w h); [lia | now rewrite Em]|].
    apply quiet_then; [apply quiet_put|]. intro bf. eapply dies_ok; [reflexivity|]. cbn [fst snd]. replace (Z.of_nat k + 1) with (Z.of_nat (S k)) by lia. apply (IH (S k) i); [lia | exact Hi | exact C2|]. cbn [ms_set_frame ms_mvd]. now rewrite Em. }
  destruct x as [rls|]; cbn [some inter_code] in *.
  - destruct C as (c1 & c2 & -> & C1 & C2). rewrite <- app_assoc. destruct (Z_le_dec (Z.of_nat (length (expand rls))) 64) as [G|G].
    + destruct (coeffs_takes _ _ _ _ (mkBS b (ms_dcp m)) rd (c2 ++ l) C1 ltac:(lia) ltac:(lia)) as (st' & E).
      assert (ER : mb_block_read (pc_vlc e) (nth (Z.to_nat (Z.of_nat k)) color_channel 0%nat) false b (m, setb rd (c1 ++ c2 ++ l)) = (Ok (bs_block st'), (ms_set_dcp (bs_pred st') m, setb rd (c2 ++ l)))).
      { unfold mb_block_read, block_read. cbn [fst snd andb]. change dct_table_zero with (dct_of false). now rewrite E. }
      eapply dies_ok; [|apply (PUT _ (ms_set_dcp (bs_pred st') m) c2 eq_refl C2)]. rewrite (bind_ok _ _ _ _ _ _ _ _ ER). reflexivity.
    + apply dies_bind, dies_bind. destruct C1 as (_ & body & Sy & ->). rewrite <- app_assoc. destruct (coeffs_dies _ _ _ _ Sy 66 (mkBS b (ms_dcp m)) rd (b14_eob ++ c2 ++ l) ltac:(lia) ltac:(lia) ltac:(lia)) as ([st' r'] & E).
      unfold dies, mb_block_read, block_read. cbn [fst snd andb]. change dct_table_zero with (dct_of false). rewrite E. eexists. reflexivity.
  - eapply dies_ok; [reflexivity|]. apply PUT; [reflexivity | exact C].
Qed.
(** The references, one at a time *)
Lemma past_found : forall v P e s m, vctx v P e -> agree e s m -> (fst (ps_dirs s) = true -> pp_type P <> 1) ->
  forall c mv, past_of P s = Some (c, mv) -> exists f, past_ref (ms_mvd m) (v_fs v) = Some (f, mv) /\ looks f c.
Proof.
  intros v P e s m (_ & _ & _ & _ & _ & _ & SP & _ & _) (_ & _ & _ & _ & V1 & _ & _ & _ & D) T c mv E. unfold past_of in E. unfold past_ref. rewrite V1. rewrite <- D in E, T. cbn [fst] in E, T.
  destruct (mv_fwd (ms_mvd m)); [|discriminate]. specialize (SP (T eq_refl)). destruct (pp_past P) as [| |x]; try discriminate. cbn [with_vector] in E. injection E as -> <-. destruct SP as (g & -> & L). exists g. split; [reflexivity | exact L].
Qed.
Lemma future_found : forall v P e s m, vctx v P e -> agree e s m -> (snd (ps_dirs s) = true -> pp_type P = 3) ->
  forall c mv, future_of P s = Some (c, mv) -> exists f, future_ref (ms_mvd m) (v_fs v) = Some (f, mv) /\ looks f c.
Proof.
  intros v P e s m (_ & _ & _ & _ & _ & _ & _ & SF & _) (_ & _ & _ & _ & _ & V2 & _ & _ & D) T c mv E. unfold future_of in E. unfold future_ref. rewrite V2. rewrite <- D in E, T. cbn [snd] in E, T.
  destruct (mv_bwd (ms_mvd m)); [|discriminate]. specialize (SF (T eq_refl)). destruct (pp_future P) as [| |x]; try discriminate. cbn [with_vector] in E. injection E as -> <-. destruct SF as (g & -> & L). exists g. split; [reflexivity | exact L].
Qed.
Lemma beyond_bad : forall v P e s m row col, vctx v P e -> agree e s m -> (fst (ps_dirs s) = true -> pp_type P <> 1) -> (snd (ps_dirs s) = true -> pp_type P = 3) ->
  beyond P row col (past_of P s) \/ beyond P row col (future_of P s) -> exists i, 0 <= i < 6 /\ bad_block (pp_w P) (pp_h P) i row col (ms_mvd m) (v_fs v).
Proof.
  intros v P e s m row col HV HA T1 T2 [B|B].
  - destruct (past_of P s) as [[c mv]|] eqn:E; [|contradiction]. destruct B as (W & H & i & u & v0 & x & y & Hi & B). destruct (past_found _ _ _ _ _ HV HA T1 _ _ E) as (f & F & L).
    exists i. split; [exact Hi|]. left. rewrite F. cbn [bad_ref]. split; [rewrite <- W, <- H; exact (proj1 L) | exists u, v0, x, y; exact B].
  - destruct (future_of P s) as [[c mv]|] eqn:E; [|contradiction]. destruct B as (W & H & i & u & v0 & x & y & Hi & B). destruct (future_found _ _ _ _ _ HV HA T2 _ _ E) as (f & F & L).
    exists i. split; [exact Hi|]. right. rewrite F. cbn [bad_ref]. split; [rewrite <- W, <- H; exact (proj1 L) | exists u, v0, x, y; exact B].
Qed.
Lemma skipped_or : forall v pct row addr incr m r, dies (copy_skipped v pct row addr incr) (m, r) \/ exists f', copy_skipped v pct row addr incr (m, r) = (Ok tt, (ms_set_frame f' m, r)).
Proof.
  intros v pct row addr incr m r. unfold copy_skipped.
  assert (SAME : exists f', (ret tt : MB unit) (m, r) = (Ok tt, (ms_set_frame f' m, r))) by (exists (ms_frame m); destruct m; reflexivity).
  destruct (_ && _); [|now right]. destruct (pct =? PFrame); [|destruct (pct =? BFrame); [|now right] ].
  - destruct (fs_past (v_fs v)) as [x|]; [|left; eexists; reflexivity]. unfold deref, dies. rewrite bind_ret. unfold own. unfold bind at 1 3. cbn [fst].
    destruct (quiet_pcopy (mstate * reader) row (addr + 1) (incr - 1) (ms_frame m) x (m, r)) as [(s' & E)|(f' & E)]; [left; exists s'; unfold bind; now rewrite E|]. right. exists f'. unfold bind. rewrite E. reflexivity.
  - unfold own, dies. unfold bind at 1 3. cbn [fst].
    destruct (quiet_bcopy (mstate * reader) (Z.to_nat (incr - 1)) (ms_mvd m) (v_fs v) row (addr + 1) (ms_frame m) (m, r)) as [(s' & E)|(f' & E)]; [left; exists s'; unfold bind; now rewrite E|]. right. exists f'. unfold bind. rewrite E. reflexivity.
Qed.
Lemma macroblock_skip_dies : forall v P e s m row addr n col c rd l, vctx v P e -> agree e s m -> dirs_ok P s -> incr_code n c -> 0 <= addr -> pp_type P = 3 -> addr < col < addr + n ->
  beyond P row col (past_of P s) \/ beyond P row col (future_of P s) -> (11 <= length l)%nat -> dies (macroblock v row addr) (m, setb rd (c ++ l)).
Proof.
  intros v P e s m row addr n col c rd l HV HA (D1 & D2 & _) C Ha T Hc B Hl. pose proof HV as ((ph & P1 & P2) & HE & _). unfold macroblock, dies.
  erewrite bind_onr_ok by (apply incr_run; [exact C | exact Hl]). rewrite P1, HE. unfold deref at 1 2. rewrite !bind_ret. cbv zeta. rewrite P2, T.
  apply dies_bind. unfold copy_skipped. replace (addr =? -1) with false by lia. replace (n >? 1) with true by lia. cbn [negb andb]. change (3 =? PFrame) with false. change (3 =? BFrame) with true. cbv iota.
  eapply dies_ok; [reflexivity|]. cbn [fst]. apply dies_bind. apply (bcopy_dies _ _ _ _ (pp_w P) (pp_h P) _ _ col); [lia|]. now apply (beyond_bad v P e s).
Qed.
Lemma macroblock_dies : forall v P e s m row addr b c rd l, vctx v P e -> agree e s m -> formed P b -> mb_code P s b c -> (11 <= length l)%nat ->
  beyond P row (addr + b_incr b) (past_of P (ps_after P s b)) \/ beyond P row (addr + b_incr b) (future_of P (ps_after P s b)) ->
  dies (macroblock v row addr) (m, setb rd (c ++ l)).
Proof.
  intros v P e s m row addr b c rd l HV HA (OC & O4 & OB) C Hl B.
  destruct C as (ci & ct & cf & cb & cy & C1 & C2 & C3 & C4 & C5 & ->). pose proof HV as ((ph & P1 & P2) & HE & PH & (se & S1 & S2) & _ & _ & _ & _ & PO).
  pose proof PO as (_ & PSt & PCon & _). pose proof (f_codes_of P e PH PO) as FC.
  unfold macroblock. rewrite <- !app_assoc. unfold dies.
  erewrite bind_onr_ok by (apply incr_run; [exact C1 | rewrite !app_length; lia]). rewrite P1, HE. unfold deref at 1 2. rewrite !bind_ret. cbv zeta. rewrite P2.
  match goal with |- exists s', bind ?x ?k ?st = _ => change (dies (bind x k) st) end.
  destruct (skipped_or v (pp_type P) row addr (b_incr b) m (setb rd (ct ++ (if (is_forward b || some (b_backward b)) && negb (e_fpfd (pp_pce P)) then enc 2 2 else []) ++
    (if negb (e_fpfd (pp_pce P)) && (is_intra b || is_coded b) then [field_dct (b_body b)] else []) ++ match b_quant b with Some q => enc 5 q | None => [] end ++ cf ++ cb ++ (if is_intra b && e_conceal (pp_pce P) then [true] else []) ++ cy ++ l))) as [X|(f1 & E1)]; [now apply dies_bind|].
  unfold dies. rewrite (bind_ok _ _ _ _ _ _ _ _ E1). clear E1. unfold reset_dc, reset_mv. rewrite !when_upd.
  set (m1 := ms_set_frame f1 m) in *. rewrite Z.gtb_ltb. unfold PFrame.
  set (m2 := if (pp_type P =? 2) && (1 <? b_incr b) then _ else _).
  assert (A2 : agree e (ps_reset1 P s b) m2).
  { unfold m2, ps_reset1. cbv zeta. apply agree_if; [|intros _; apply agree_mvr; [exact FC|] ]; (apply agree_if; [exact HA | intros _; now apply agree_dcr]). }
  clearbody m2.
  erewrite bind_onr_ok by (apply mode_run; [exact PO | exact PH | exact C2]).
  destruct (table_facts _ _ _ _ _ _ _ C2) as (T1 & T2 & T3).
  assert (CO : pc_conceal e = e_conceal (pp_pce P)) by (destruct PH as (_ & _ & _ & _ & _ & _ & _ & _ & -> & _); reflexivity). rewrite CO. set (mk := if is_intra b && e_conceal (pp_pce P) then [true] else []) in *.
  assert (KF : is_forward b || is_intra b && e_conceal (pp_pce P) = some (b_forward b)) by (clear - OC; unfold is_forward; destruct (is_intra b); cbn [negb andb]; [rewrite <- OC by reflexivity; now rewrite andb_false_r | now rewrite andb_true_r, orb_false_r]).
  cbn [mode_of mo_type mb_intra mb_motion_forward mb_motion_backward mb_pattern mb_quant]. fold (mode_of P b). rewrite KF.
  rewrite !when_upd. set (m3 := if (pp_type P =? 2) && negb (is_intra b) && negb (is_forward b) then _ else _).
  assert (A3 : agree e (ps_reset2 P (ps_reset1 P s b) b) m3).
  { unfold m3, ps_reset2. cbv zeta. apply agree_if; [|intros _; apply agree_mvr; [exact FC|] ]; (apply agree_if; [|intros _; apply agree_mvr; [exact FC|] ]); (apply agree_if; [exact A2 | intros _; now apply agree_dcr]). }
  clearbody m3.
  (* quantiser_scale_code *)
  assert (E4 : exists m4, when (some (b_quant b)) (q <- onr (read_n 5) ;; upd (ms_set_qsc q)) (m3, setb rd (match b_quant b with Some q => enc 5 q | None => [] end ++ cf ++ cb ++ mk ++ cy ++ l)) =
     (Ok tt, (m4, setb rd (cf ++ cb ++ mk ++ cy ++ l))) /\ agree e (ps_before P s b) m4).
  { rewrite before_eq. unfold ps_quant. destruct (b_quant b) as [q|]; cbn [some when app].
    - exists (ms_set_qsc q m3). split; [erewrite bind_onr_ok by (apply read_enc; cbn; lia); reflexivity|]. apply agree_q; [lia | exact A3].
    - exists m3. auto. }
  destruct E4 as (m4 & E4 & A4). rewrite (bind_ok _ _ _ _ _ _ _ _ E4). clear E4. set (s4 := ps_before P s b) in *.
  (* vectors *)
  assert (FF : some (b_forward b) || some (b_backward b) = true -> frame_format e (mode_of P b)).
  { intro M. rewrite <- KF in M. unfold frame_format, mode_of. cbn [mo_frame_motion]. destruct (e_fpfd (pp_pce P)) eqn:FP; [left; destruct PH as (_ & _ & _ & _ & _ & _ & _ & -> & _); now rewrite FP|].
    destruct (e_conceal (pp_pce P)); [specialize (PCon eq_refl); discriminate|]. rewrite andb_false_r, orb_false_r in M. rewrite M. right; reflexivity. }
  assert (FCE : f_code e 0 0 = e_f00 (pp_pce P) /\ f_code e 0 1 = e_f01 (pp_pce P) /\ f_code e 1 0 = e_f10 (pp_pce P) /\ f_code e 1 1 = e_f11 (pp_pce P)) by (unfold f_code; destruct PH as (? & ? & ? & ? & _); auto).
  destruct FCE as (FC1 & FC2 & FC3 & FC4). rewrite <- FC1, <- FC2 in C3. rewrite <- FC3, <- FC4 in C4.
  assert (E5 : exists m5, when (some (b_forward b)) (motion_vectors e (mode_of P b) 0) (m4, setb rd (cf ++ cb ++ mk ++ cy ++ l)) = (Ok tt, (m5, setb rd (cb ++ mk ++ cy ++ l))) /\
     agree e (match b_forward b with Some v => ps_set_fwd v s4 | None => s4 end) m5).
  { destruct (b_forward b) as [vf|]; cbn [some when opt_vector] in *.
    - pose proof A4 as (_ & _ & _ & (G1 & G2 & _) & _ & _ & V1 & _). rewrite <- V1 in C3. eexists. split; [apply vectors_frame_run; [now apply FF | exact FC | exact G1 | exact G2 | lia | exact C3]|].
      destruct C3 as (? & ? & _ & R1 & R2 & _). now apply agree_fwd.
    - subst cf. exists m4. auto. }
  destruct E5 as (m5 & E5 & A5). rewrite (bind_ok _ _ _ _ _ _ _ _ E5). clear E5.
  assert (E6 : exists m6, when (some (b_backward b)) (motion_vectors e (mode_of P b) 1) (m5, setb rd (cb ++ mk ++ cy ++ l)) = (Ok tt, (m6, setb rd (mk ++ cy ++ l))) /\
     agree e (ps_vectors b s4) m6).
  { unfold ps_vectors. cbv zeta. set (s5 := match b_forward b with Some v0 => _ | None => _ end) in *. destruct (b_backward b) as [vb|]; cbn [some when opt_vector] in *.
    - pose proof A5 as (_ & _ & _ & (G1 & G2 & _) & _ & _ & _ & V2 & _). assert (PB : ps_bwd s5 = ps_bwd s4) by (unfold s5; destruct (b_forward b); reflexivity). rewrite <- PB, <- V2 in C4.
      eexists. split; [apply vectors_frame_run; [apply FF; apply orb_true_r | exact FC | exact G1 | exact G2 | lia | exact C4]|].
      destruct C4 as (? & ? & _ & R1 & R2 & _). now apply agree_bwd.
    - subst cb. exists m5. auto. }
  destruct E6 as (m6 & E6 & A6). rewrite (bind_ok _ _ _ _ _ _ _ _ E6). clear E6.
  rewrite bind_upd. pose proof (previous_dirs P b ct (ms_mvd m6) C2) as PD. cbn [mode_of mo_type] in PD. rewrite PD. clear PD.
  assert (E7 : forall m' : mstate, when (is_intra b && e_conceal (pp_pce P)) (onr marker_bit) (m', setb rd (mk ++ cy ++ l)) = (Ok tt, (m', setb rd (cy ++ l)))).
  { intro m'. unfold mk. destruct (is_intra b && e_conceal (pp_pce P)); [|reflexivity]. cbn [when]. apply onr_ok. apply (marker_run rd (cy ++ l)). }
  rewrite (bind_ok _ _ _ _ _ _ _ _ (E7 _)). clear E7. rewrite S1. unfold deref. rewrite bind_ret.
  set (m7 := ms_set_mvd (mkMV _ _ _ _) m6). pose proof (agree_dirs e (ps_vectors b s4) m6 (fst (dirs_of P b)) (snd (dirs_of P b)) A6) as A7. rewrite <- surjective_pairing in A7. fold m7 in A7.
  set (s7 := ps_set_dirs (dirs_of P b) (ps_vectors b s4)) in *.
  assert (SA : ps_after P s b = match b_body b with Intra _ blocks => mkPS (dc_after (ps_dc s7) 0 blocks) (ps_fwd s7) (ps_bwd s7) (ps_q s7) (ps_dirs s7) | _ => s7 end) by apply after_eq.
  assert (PF : past_of P (ps_after P s b) = past_of P s7 /\ future_of P (ps_after P s b) = future_of P s7) by (rewrite SA; destruct (b_body b); auto).
  destruct PF as (PF1 & PF2). rewrite PF1, PF2 in B.
  assert (NI : is_intra b = false).
  { destruct (is_intra b) eqn:I; [|reflexivity]. exfalso. revert B. unfold past_of, future_of, s7. cbn [ps_set_dirs ps_dirs]. unfold dirs_of. rewrite I. cbn [fst snd]. intros [[]|[] ]. }
  assert (DD : (fst (ps_dirs s7) = true -> pp_type P <> 1) /\ (snd (ps_dirs s7) = true -> pp_type P = 3)).
  { unfold s7. cbn [ps_set_dirs ps_dirs]. unfold dirs_of. rewrite NI. pose proof PO as (TY & _). destruct (Z.eqb_spec (pp_type P) 2) as [E2|E2]; cbn [fst snd]; [split; [lia | discriminate]|].
    assert (pp_type P <> 1); [|split; intros; lia]. intro E. rewrite E in C2. destruct C2 as (v0 & n0 & C2 & _). rewrite NI in C2. cbn in C2. destruct C2 as [C2|[C2|[] ] ]; injection C2 as; discriminate. }
  destruct DD as (DD1 & DD2). destruct (beyond_bad v P e s7 m7 row (addr + b_incr b) HV A7 DD1 DD2 B) as (i & Hi & BB).
  rewrite S2. change (block_count ChromaFormat420) with 6%nat.
  match goal with |- exists s', ?x ?st = _ => change (dies x st) end.
  assert (FIN : forall blocks pc c', length blocks = 6%nat -> firstn 6 pc = map some blocks -> inter_code blocks c' ->
     dies (mb_blocks v e se (mode_of P b) row (addr + b_incr b) 0 (firstn 6 pc) block_zero ;; ret (addr + b_incr b)) (m7, setb rd (c' ++ l))).
  { intros blocks pc c' L6 -> Ci. apply dies_bind. apply (inter_dies v e se (mode_of P b) (pp_w P) (pp_h P) row (addr + b_incr b) NI blocks 0 (Z.to_nat i)); [lia | lia | exact Ci |]. rewrite Z2Nat.id by lia. exact BB. }
  unfold is_intra, is_coded in *. destruct (b_body b) as [f blocks|blocks|] eqn:EB; [discriminate | |]; cbn [body_code] in *.
  - destruct C5 as (c1 & c2 & -> & C51 & C52). rewrite <- app_assoc.
    assert (E0 : ignore_err None (c <- onr (coded_block_pattern ChromaFormat420) ;; ret (Some c)) (m7, setb rd (c1 ++ c2 ++ l)) = (Ok (Some (pattern_of blocks)), (m7, setb rd (c2 ++ l)))).
    { apply ignore_ok. erewrite bind_onr_ok; [reflexivity|]. unfold coded_block_pattern. rewrite (proj1 C39_coded_block_pattern c1 _ rd (c2 ++ l) C51). reflexivity. }
    eapply dies_ok; [exact E0|]. cbv iota beta. destruct (pattern_run _ (pattern_of blocks) false true ChromaFormat420 (m7, setb rd (c2 ++ l)) eq_refl) as (pc & E1 & Lp & N). eapply dies_ok; [exact E1|].
    apply (FIN blocks); [exact OB | | exact C52]. apply first6; [exact Lp | now rewrite map_length|]. intros j Hj. rewrite N by exact Hj. cbn [orb andb].
    destruct blocks as [|x0 [|x1 [|x2 [|x3 [|x4 [|x5 [|x6 bs] ] ] ] ] ] ]; try discriminate. now apply MbWholeProofs.pattern_bits.
  - subst cy. eapply dies_ok; [reflexivity|]. cbv iota beta. destruct (pattern_run _ 0 false false ChromaFormat420 (m7, setb rd ([] ++ l)) eq_refl) as (pc & E1 & Lp & N). eapply dies_ok; [exact E1|].
    apply (FIN (repeat None 6)); [reflexivity | | reflexivity]. apply first6; [exact Lp | reflexivity|]. intros j Hj. rewrite N by exact Hj. cbn [orb andb]. do 6 (destruct j as [|j]; [reflexivity|]). lia.
Qed.

(** * Slices and pictures *)
Lemma spill_starts : forall P row addr s d, mb_spill P row addr s d -> exists a t, d = a ++ t /\ (length a <= 11)%nat /\ In true a.
Proof.
  intros P row addr s d [b c1 c2 -> _ C _ | n c1 c2 col -> C _ _ _ _]; [apply mb_code_start in C | apply incr_start in C]; destruct C as (a & t & -> & L & I); exists a, (t ++ c2); rewrite <- app_assoc; auto.
Qed.
Lemma spill_dies : forall v P e s m row addr d rd l, vctx v P e -> agree e s m -> dirs_ok P s -> mb_spill P row addr s d -> (11 <= length l)%nat -> dies (macroblock v row addr) (m, setb rd (d ++ l)).
Proof.
  intros v P e s m row addr d rd l HV HA HD H Hl. destruct H as [b c1 c2 -> F C B | n c1 c2 col -> C Ha T Hc B]; rewrite <- app_assoc.
  - apply (macroblock_dies v P e s m row addr b); auto. rewrite app_length. lia.
  - apply (macroblock_skip_dies v P e s m row addr n col); auto. rewrite app_length. lia.
Qed.
Lemma loop_spill : forall v P e row d rd l, vctx v P e -> (23 <= length l)%nat -> forall mbs fuel addr s m cv c, (length mbs < fuel)%nat -> agree e s m -> dirs_ok P s -> looks (ms_frame m) cv -> cv_w cv = pp_w P -> cv_h cv = pp_h P -> -1 <= addr ->
  mbs_code P row addr s mbs c -> (let '(a, s') := after_mbs P addr s mbs in mb_spill P row a s' d) -> dies (slice_loop fuel v row addr) (m, setb rd (c ++ d ++ l)).
Proof.
  intros v P e row d rd l HV Hl. induction mbs as [|b mbs IH]; intros fuel addr s m cv c Hf HA HD L W H Ha C Sp; (destruct fuel as [|fuel]; [cbn [length] in Hf; lia|]).
  - cbn [mbs_code after_mbs] in *. subst c. cbn [app slice_loop]. apply dies_bind. apply (spill_dies v P e s); auto. lia.
  - cbn [mbs_code after_mbs length] in *. destruct C as (OK & c1 & c2 & -> & C1 & C2). rewrite <- app_assoc.
    destruct (macroblock_run v P e s m cv row addr b c1 rd (c2 ++ d ++ l) HV HA HD L W H Ha OK C1 ltac:(rewrite !app_length; lia)) as (m' & E & HA' & HD' & L').
    set (cv' := paint_mb _ _ _ _ _ _) in *.
    assert (D : cv_w cv' = pp_w P /\ cv_h cv' = pp_h P).
    { unfold cv', paint_mb. cbn [paint cv_w cv_h]. destruct (addr =? -1); [auto|]. destruct (skipped_dims P row (addr + 1) (b_incr b - 1) s cv) as [-> ->]. auto. }
    assert (ST : exists a t, c2 ++ d ++ l = a ++ t /\ (length a <= 11)%nat /\ In true a).
    { destruct mbs as [|b2 mbs]; cbn [mbs_code after_mbs] in *.
      - subst c2. destruct (spill_starts _ _ _ _ _ Sp) as (a & t & -> & A). exists a, (t ++ l). cbn [app]. rewrite <- app_assoc. auto.
      - destruct C2 as (_ & c3 & c4 & -> & C3 & _). destruct (mb_code_start _ _ _ _ C3) as (a & t & -> & A). exists a, (t ++ c4 ++ d ++ l). rewrite <- !app_assoc. auto. }
    destruct ST as (a & t & EQ & La & Ia). unfold dies.
    rewrite (loop_goes fuel v row addr (addr + b_incr b) m' rd (c2 ++ d ++ l) _ a t E EQ ltac:(lia) Ia ltac:(rewrite !app_length; lia)).
    apply (IH fuel (addr + b_incr b) (ps_after P s b) m' cv' c2); auto; try lia; try tauto. destruct OK as (O1 & _). lia.
Qed.
Lemma head_or : forall v P e sh f row q fl rd l, vctx v P e -> v_sh v = Some sh -> sh_vertical sh <= 2800 -> 0 <= row < 175 -> 0 <= q < 32 -> match fl with Some (_, extra) => bytes extra | None => True end ->
  dies (slice_head v f) (setb rd (code (row + 1) ++ enc 5 q ++ flags_code fl ++ l)) \/
  slice_head v f (setb rd (code (row + 1) ++ enc 5 q ++ flags_code fl ++ l)) = (Ok (e, row, q), setb rd l).
Proof.
  intros v P e sh f row q fl rd l HV HSH HV2 R Q FL. pose proof HV as (_ & HE & _). unfold slice_head. destruct (row_of row R) as [RW SL].
  rewrite code_enc by lia. unfold dies. rewrite (bind_ok _ _ _ _ _ _ _ _ (read_enc 32 (256 + (row + 1)) rd _ ltac:(change (2 ^ Z.of_nat 32) with 4294967296; lia))).
  rewrite SL. cbn [negb]. rewrite HE. unfold deref at 1 3. rewrite bind_ret. cbv zeta. rewrite RW. destruct (_ && _); [|left; eexists; reflexivity]. right.
  rewrite HSH. unfold deref. rewrite bind_ret. assert (sh_vertical sh >? 2800 = false) as -> by lia. rewrite when_no.
  rewrite (bind_ok _ _ _ _ _ _ _ _ (read_enc 5 q rd _ ltac:(cbn; lia))). rewrite (bind_ok _ _ _ _ _ _ _ _ (flags_run fl rd _ FL)). reflexivity.
Qed.
Lemma start_agree : forall P e q f v, vctx v P e -> 0 <= q < 32 -> agree e (ps_start P q) (mkMS (dc_reset (pc_dc e)) mv_zero q f).
Proof.
  intros P e q f v HV Q. pose proof HV as (_ & HE & PH & _ & _ & _ & _ & _ & PO). pose proof PO as (_ & _ & _ & D & _). pose proof PH as (_ & _ & _ & _ & ED & _). unfold agree, ps_start. cbn [ms_dcp ms_mvd ms_qsc ps_dc ps_fwd ps_bwd ps_q ps_dirs].
  split; [rewrite ED; exact (C40_reset _ D)|]. split; [reflexivity|]. split; [lia|]. split; [|repeat split; reflexivity].
  change mv_zero with (mv_reset mv_zero). apply reset_good. now apply (f_codes_of P).
Qed.
Lemma slice_spills : forall v P e sh f cv c rd l, vctx v P e -> v_sh v = Some sh -> sh_vertical sh <= 2800 -> looks f cv -> cv_w cv = pp_w P -> cv_h cv = pp_h P ->
  slice_spill P c -> (23 <= length l)%nat -> dies (slice v f) (setb rd (c ++ l)).
Proof.
  intros v P e sh f cv c rd l HV HSH HV2 L W H (row & q & fl & mbs & c1 & c2 & R & Q & FL & -> & C & Sp) Hl. rewrite <- !app_assoc.
  destruct (head_or v P e sh f row q fl rd (c1 ++ c2 ++ l) HV HSH HV2 R Q FL) as [D|E]; [now apply slice_dies1|].
  eapply slice_dies2; [exact E|]. rewrite rbits_setb. apply (loop_spill v P e row c2 rd l HV Hl mbs _ (-1) (ps_start P q) _ cv c1); auto; try lia.
  - apply mbs_length in C. rewrite app_length. lia.
  - now apply (start_agree P e q f v).
  - repeat split; discriminate.
Qed.
Lemma spill_code : forall P c, slice_spill P c -> exists b t, c = code b ++ t /\ 1 <= b <= 175.
Proof. intros P c (row & q & fl & mbs & c1 & c2 & R & _ & _ & -> & _). exists (row + 1). eexists. split; [reflexivity | lia]. Qed.
Lemma slices_mod : forall P ls c, slices_code P ls c -> (length c mod 8 = 0)%nat.
Proof. intros P ls c H. destruct (slices_starts _ _ _ H) as (b & t & -> & L & _). apply app_mod8; [now rewrite code_length | exact L]. Qed.
Lemma mod8_rest : forall (a b : list bool), (length (a ++ b) mod 8 = 0)%nat -> (length a mod 8 = 0)%nat -> (length b mod 8 = 0)%nat.
Proof. intros a b H A. rewrite app_length, Nat.add_mod, A in H by lia. cbn [Nat.add] in H. now rewrite Nat.mod_mod in H by lia. Qed.
Lemma slices_spills : forall v P e sh c rd l, vctx v P e -> v_sh v = Some sh -> sh_vertical sh <= 2800 -> slice_spill P c -> (23 <= length l)%nat -> (length (c ++ l) mod 8 = 0)%nat ->
  forall ls d, slices_code P ls d -> forall fuel f cv, (length ls < fuel)%nat -> looks f cv -> cv_w cv = pp_w P -> cv_h cv = pp_h P -> dies (slices fuel v f) (setb rd (d ++ c ++ l)).
Proof.
  intros v P e sh c rd l HV HSH HV2 Sp Hl M8. destruct (spill_code _ _ Sp) as (b0 & t0 & Ec & B0).
  intros ls d H. induction H as [x d C | x ls d d2 C H IH]; intros fuel f cv Hf L W Hh; (destruct fuel as [|fuel]; [cbn [length] in Hf; lia|]); cbn [slices].
  - assert (AC : at_code (c ++ l)). { rewrite Ec, <- app_assoc in *. apply code_at. apply (mod8_rest _ _ M8). now rewrite code_length. }
    destruct (slice_run v P e sh x f cv d (c ++ l) rd HV HSH HV2 L W Hh C AC) as (f1 & E & L1). eapply dies_ok; [exact E|].
    rewrite Ec, <- app_assoc. destruct (peek_slice b0 rd (t0 ++ l) B0) as (Pk & Is). eapply dies_ok; [exact Pk|]. rewrite Is. rewrite app_assoc, <- Ec.
    destruct fuel as [|fuel]; [cbn [length] in Hf; lia|]. cbn [slices]. apply dies_bind. destruct (mbs_paint_dims P (sl_row x) (sl_mbs x) (-1) (ps_start P (sl_q x)) cv) as [D1 D2].
    apply (slice_spills v P e sh f1 (slice_paint P x cv)); auto; unfold slice_paint; congruence.
  - destruct (slices_starts _ _ _ H) as (b & t & Ed & Lt & B).
    assert (AC2 : at_code (d2 ++ c ++ l)). { rewrite Ed, <- app_assoc. apply code_at. apply app_mod8; assumption. }
    destruct (slice_run v P e sh x f cv d (d2 ++ c ++ l) rd HV HSH HV2 L W Hh C AC2) as (f1 & E & L1). rewrite <- app_assoc. eapply dies_ok; [exact E|].
    rewrite Ed, <- app_assoc. destruct (peek_slice b rd (t ++ c ++ l) B) as (Pk & Is). eapply dies_ok; [exact Pk|]. rewrite Is. rewrite app_assoc, <- Ed.
    destruct (mbs_paint_dims P (sl_row x) (sl_mbs x) (-1) (ps_start P (sl_q x)) cv) as [D1 D2].
    apply (IH fuel f1 (slice_paint P x cv)); [cbn [length] in Hf; lia | exact L1 | |]; unfold slice_paint; congruence.
Qed.
(** [d]: the slices, up to the end of the one with the bad prediction or beyond *)
Lemma picture_spills : forall v P e sh w h d rd l, vctx v P e -> v_sh v = Some sh -> sh_vertical sh <= 2800 -> size v = (w, h) -> 0 < w -> 0 < h ->
  pp_w P = whole w -> pp_h P = whole h -> slices_spill P d -> (23 <= length l)%nat -> (length (d ++ l) mod 8 = 0)%nat -> dies (picture_data v) (setb rd (d ++ l)).
Proof.
  intros v P e sh w h d rd l HV HSH HV2 SZ Hw Hh PW PH (c1 & c2 & -> & O & Sp) Hl M8. rewrite <- app_assoc in *. unfold picture_data. rewrite SZ. pose proof HV as (_ & _ & _ & (se & S1 & S2) & _). rewrite S1. unfold deref, dies. rewrite bind_ret. rewrite S2.
  apply dies_bind. rewrite rbits_setb.
  assert (L0 : looks (create_frame_buffer w h ChromaFormat420) (blank P)) by (apply blank_looks; auto).
  destruct O as [->|(ls & C)].
  - cbn [app slices]. apply dies_bind. apply (slice_spills v P e sh _ (blank P)); auto.
  - apply (slices_spills v P e sh c2 rd l HV HSH HV2 Sp Hl) with (ls := ls) (cv := blank P); auto.
    + apply (mod8_rest _ _ M8). now apply (slices_mod P ls).
    + apply slices_length in C. rewrite app_length. lia.
Qed.
