(** MbWholeProofs: macroblocks from their bits to samples. *)
From Verif Require Import Base BitReader Exec Local TsRobust VlcTables Huffman BlockModel VidModel SpecVid SpecVlc SpecBlock SpecMotion VidProofs VlcProofs BlockProofs DequantProofs IdctProofs PropertiesBlock
  MbModel MotionProofs FrameProofs MbProofs SpecNext SpecPicture CanvasProofs MacroblockProofs MbRunProofs MbStepProofs.

(** * State changes *)
Definition ps_dcr (P : params) (s : pstate) := mkPS (fun _ => dc_reset_value (e_dc (pp_pce P))) (ps_fwd s) (ps_bwd s) (ps_q s) (ps_dirs s).
Definition ps_mvr (s : pstate) := mkPS (ps_dc s) (0, 0) (0, 0) (ps_q s) (ps_dirs s).
Definition ps_set_q (q : Z) (s : pstate) := mkPS (ps_dc s) (ps_fwd s) (ps_bwd s) q (ps_dirs s).
Definition ps_set_fwd (x : Z * Z) (s : pstate) := mkPS (ps_dc s) x (ps_bwd s) (ps_q s) (ps_dirs s).
Definition ps_set_bwd (x : Z * Z) (s : pstate) := mkPS (ps_dc s) (ps_fwd s) x (ps_q s) (ps_dirs s).
Definition ps_set_dirs (x : bool * bool) (s : pstate) := mkPS (ps_dc s) (ps_fwd s) (ps_bwd s) (ps_q s) x.
Definition ps_reset1 (P : params) (s : pstate) (b : smb) : pstate :=
  let s := if 1 <? b_incr b then ps_dcr P s else s in if (pp_type P =? 2) && (1 <? b_incr b) then ps_mvr s else s.
Definition ps_reset2 (P : params) (s : pstate) (b : smb) : pstate :=
  let s := if negb (is_intra b) then ps_dcr P s else s in
  let s := if is_intra b && negb (e_conceal (pp_pce P)) then ps_mvr s else s in
  if (pp_type P =? 2) && negb (is_intra b) && negb (is_forward b) then ps_mvr s else s.
Definition ps_quant (b : smb) (s : pstate) : pstate := match b_quant b with Some q => ps_set_q q s | None => s end.
Definition ps_vectors (b : smb) (s : pstate) : pstate :=
  let s := match b_forward b with Some v => ps_set_fwd v s | None => s end in
  match b_backward b with Some v => ps_set_bwd v s | None => s end.
Definition dirs_of (P : params) (b : smb) : bool * bool :=
  if is_intra b then (false, false) else if pp_type P =? 2 then (true, false) else (is_forward b, some (b_backward b)).
Lemma before_eq : forall P s b, ps_before P s b = ps_quant b (ps_reset2 P (ps_reset1 P s b) b).
Proof.
  intros P [dc f w q d] b. unfold ps_before, ps_quant, ps_reset1, ps_reset2, ps_dcr, ps_mvr, ps_set_q.
  cbv zeta. cbn [ps_dc ps_fwd ps_bwd ps_q ps_dirs]. generalize (dc_reset_value (e_dc (pp_pce P))), (1 <? b_incr b), (pp_type P =? 2), (is_intra b), (is_forward b), (b_quant b), (e_conceal (pp_pce P)).
  intros x c1 c2 c3 c4 o c5. destruct c1, c2, c3; cbn [andb orb negb]; destruct o; try reflexivity; destruct c4, c5; reflexivity.
Qed.
Lemma after_eq : forall P s b, ps_after P s b =
  let s := ps_set_dirs (dirs_of P b) (ps_vectors b (ps_before P s b)) in
  match b_body b with Intra _ blocks => mkPS (dc_after (ps_dc s) 0 blocks) (ps_fwd s) (ps_bwd s) (ps_q s) (ps_dirs s) | _ => s end.
Proof.
  intros P s b. unfold ps_after, dirs_of, ps_vectors. set (t := ps_before P s b). clearbody t. destruct t as [dc f w q d].
  destruct (b_body b), (b_forward b), (b_backward b); reflexivity.
Qed.

Lemma agree_frame : forall e s m f, agree e s m -> agree e s (ms_set_frame f m).
Proof. intros e s m f H. exact H. Qed.
Lemma agree_dcr : forall P e s m, params_ok P -> pce_holds (pp_pce P) e -> agree e s m -> agree e (ps_dcr P s) (ms_set_dcp (dc_reset (pc_dc e)) m).
Proof.
  intros P e s m (_ & _ & _ & D & _) (_ & _ & _ & _ & E & _) (_ & H). split; [|exact H]. cbn [ms_set_dcp ms_dcp ps_dcr ps_dc]. rewrite E. exact (C40_reset _ D).
Qed.
Lemma agree_mvr : forall e s m, f_codes_ok e -> agree e s m -> agree e (ps_mvr s) (ms_set_mvd (mv_reset (ms_mvd m)) m).
Proof.
  intros e s m F (A1 & A2 & A3 & A4 & A5 & A6 & A7 & A8 & A9). unfold agree. cbn [ms_set_mvd ms_mvd ms_dcp ms_qsc ps_mvr ps_dc ps_q ps_fwd ps_bwd ps_dirs].
  split; [exact A1|]. split; [exact A2|]. split; [exact A3|]. split; [now apply reset_good|]. repeat (split; [reflexivity|]). exact A9.
Qed.
Lemma agree_q : forall e s m q, 0 <= q < 32 -> agree e s m -> agree e (ps_set_q q s) (ms_set_qsc q m).
Proof. intros e s m q Hq (A1 & A2 & A3 & A). split; [exact A1|]. split; [reflexivity|]. split; [exact Hq | exact A]. Qed.
Lemma not_halved : forall e, is_halved e false 1 = false.
Proof. reflexivity. Qed.
Lemma agree_fwd : forall e s m v, f_codes_ok e -> mv_range (f_code e 0 0) (fst v) -> mv_range (f_code e 0 1) (snd v) -> agree e s m ->
  agree e (ps_set_fwd v s) (ms_set_mvd (mv_put e false 0 0 v (ms_mvd m)) m).
Proof.
  intros e s m v F R1 R2 (A1 & A2 & A3 & (G1 & G2 & G3) & A5 & A6 & A7 & A8 & A9). unfold agree. cbn [ms_set_mvd ms_mvd ms_dcp ms_qsc ps_set_fwd ps_dc ps_q ps_fwd ps_bwd ps_dirs].
  split; [exact A1|]. split; [exact A2|]. split; [exact A3|]. split; [split; [|split] |].
  - now apply put_wf.
  - apply put_fits; auto.
  - apply put_acts; auto.
  - unfold mv_of in *. rewrite !put_act by (auto; lia). cbn [Nat.eqb andb]. split; [reflexivity|]. split; [exact A6|].
    rewrite !put_pred by (auto; lia). rewrite not_halved. cbn [Nat.eqb andb]. split; [now destruct v|]. split; [exact A8 | exact A9].
Qed.
Lemma agree_bwd : forall e s m v, f_codes_ok e -> mv_range (f_code e 1 0) (fst v) -> mv_range (f_code e 1 1) (snd v) -> agree e s m ->
  agree e (ps_set_bwd v s) (ms_set_mvd (mv_put e false 0 1 v (ms_mvd m)) m).
Proof.
  intros e s m v F R1 R2 (A1 & A2 & A3 & (G1 & G2 & G3) & A5 & A6 & A7 & A8 & A9). unfold agree. cbn [ms_set_mvd ms_mvd ms_dcp ms_qsc ps_set_bwd ps_dc ps_q ps_fwd ps_bwd ps_dirs].
  split; [exact A1|]. split; [exact A2|]. split; [exact A3|]. split; [split; [|split] |].
  - now apply put_wf.
  - apply put_fits; auto.
  - apply put_acts; auto.
  - unfold mv_of in *. rewrite !put_act by (auto; lia). cbn [Nat.eqb andb]. split; [exact A5|]. split; [reflexivity|].
    rewrite !put_pred by (auto; lia). rewrite not_halved. cbn [Nat.eqb andb]. split; [exact A7|]. split; [now destruct v | exact A9].
Qed.
Lemma agree_dirs : forall e s m p q, agree e s m -> agree e (ps_set_dirs (p, q) s) (ms_set_mvd (mkMV (mv_pred (ms_mvd m)) (mv_act (ms_mvd m)) p q) m).
Proof. intros e s m p q (A1 & A2 & A3 & A4 & A5 & A6 & A7 & A8 & A9). repeat (split; [assumption|]). reflexivity. Qed.

(** What the tables of types have in common *)
Lemma table_facts : forall t c q f b p i, mbt_code (type_table t) c (q, f, b, p, i) ->
  (i = true -> f = false /\ b = false /\ p = false) /\ (i = false -> t = 2 -> b = false) /\ (i = false -> t <> 2 -> f || b = true).
Proof.
  intros t c q f b p i (v & n & H & _). unfold type_table in H.
  destruct (t =? 1) eqn:E1; [|destruct (t =? 2) eqn:E2]; cbn [b2 b3 b4 In] in H;
  repeat (destruct H as [H|H]; [injection H as; subst; repeat split; intros; try discriminate; try reflexivity; lia|]); contradiction.
Qed.
Lemma previous_dirs : forall P b c m, mbt_code (type_table (pp_type P)) c (some (b_quant b), is_forward b, some (b_backward b), is_coded b, is_intra b) ->
  mv_previous (mo_type (mode_of P b)) (pp_type P) m = mkMV (mv_pred m) (mv_act m) (fst (dirs_of P b)) (snd (dirs_of P b)).
Proof.
  intros P b c m C. destruct (table_facts _ _ _ _ _ _ _ C) as (F1 & F2 & F3). unfold mv_previous, mode_of, dirs_of, PFrame. cbn [mo_type mb_intra mb_motion_forward mb_motion_backward].
  destruct (is_intra b); [reflexivity|]. destruct (pp_type P =? 2) eqn:E.
  - rewrite (F2 eq_refl ltac:(lia)). destruct (is_forward b); reflexivity.
  - specialize (F3 eq_refl ltac:(lia)). destruct (is_forward b), (some (b_backward b)); try discriminate; reflexivity.
Qed.

Lemma dirs_of_ok : forall P b c, 1 <= pp_type P <= 3 -> mbt_code (type_table (pp_type P)) c (some (b_quant b), is_forward b, some (b_backward b), is_coded b, is_intra b) ->
  forall s, ps_dirs s = dirs_of P b -> available P s -> dirs_ok P s.
Proof.
  intros P b c T C s E AV. unfold dirs_ok. enough ((fst (ps_dirs s) = true -> pp_type P <> 1) /\ (snd (ps_dirs s) = true -> pp_type P = 3)) by tauto. rewrite E. unfold dirs_of. destruct C as (v & n & H & _). unfold type_table in H.
  assert (pp_type P = 1 \/ pp_type P = 2 \/ pp_type P = 3) as [E1|[E1|E1] ] by lia; rewrite E1 in *; cbn [Z.eqb Pos.eqb] in *.
  - cbn [b2 In] in H. destruct H as [H|[H|H] ]; [| |contradiction]; injection H as; replace (is_intra b) with true by auto; cbn; split; discriminate.
  - destruct (is_intra b); cbn; split; discriminate.
  - destruct (is_intra b); cbn; split; try discriminate; auto.
Qed.

(** * Patterns *)
Lemma pattern_bits : forall x0 x1 x2 x3 x4 x5 i, (i < 6)%nat -> Z.testbit (pattern_of [x0; x1; x2; x3; x4; x5]) (5 - Z.of_nat i) = nth i (map some [x0; x1; x2; x3; x4; x5]) false.
Proof.
  intros x0 x1 x2 x3 x4 x5 i H. unfold pattern_of. cbn [fold_left map].
  destruct (some x0), (some x1), (some x2), (some x3), (some x4), (some x5); do 6 (destruct i as [|i]; [reflexivity|]); lia.
Qed.
Lemma first6 : forall (pc want : list bool), length pc = 12%nat -> length want = 6%nat -> (forall i, (i < 6)%nat -> nth i pc false = nth i want false) -> firstn 6 pc = want.
Proof.
  intros pc want L W H. apply nth_ext with false false; [rewrite firstn_length; lia|]. intros n Hn. rewrite firstn_length in Hn. rewrite nth_firstn_lt by lia. apply H. lia.
Qed.

(** * The function *)
Lemma when_upd : forall S R A (c : bool) (g : S -> S) (k : unit -> M (S * R) A) m r, bind (when c (upd g)) k (m, r) = k tt (if c then g m else m, r).
Proof. intros. destruct c; reflexivity. Qed.
Lemma when_no : forall S A (x : M S unit) (k : unit -> M S A) s, bind (when false x) k s = k tt s.
Proof. reflexivity. Qed.
Lemma incr_run : forall n c rd l, incr_code n c -> (11 <= length l)%nat -> mb_increment (setb rd (c ++ l)) = (Ok n, setb rd l).
Proof.
  intros n c rd l (k & i & c0 & -> & C & ->) H. rewrite <- app_assoc. apply mb_increment_run; [exact C|]. rewrite app_length. lia.
Qed.

(** The blocks of a macroblock, after everything that precedes them *)
Lemma body_run : forall v P e se row col s b m rd l c cv, vctx v P e -> v_se v = Some se -> agree e s m -> dirs_ok P s -> looks (ms_frame m) cv -> cv_w cv = pp_w P -> cv_h cv = pp_h P ->
  mb_in (pp_w P) (pp_h P) row col -> body_ok P (b_body b) -> cvector_in P row col (past_of P s) -> cvector_in P row col (future_of P s) ->
  (is_intra b = true -> ps_dirs s = (false, false)) -> body_code P s (b_body b) c ->
  exists m',
    (cbp <- (if is_coded b then ignore_err None (c <- onr (coded_block_pattern (se_chroma se)) ;; ret (Some c)) else ret (Some 0)) ;;
     match cbp with
     | None => ret 0
     | Some cbp =>
         pc <- pattern_code cbp (is_intra b) (is_coded b) (se_chroma se) ;;
         mb_blocks v e se (mode_of P b) row col 0 (firstn (block_count (se_chroma se)) pc) block_zero ;;
         ret col
     end) (m, setb rd (c ++ l)) = (Ok col, (m', setb rd l)) /\
    agree e (match b_body b with Intra _ blocks => mkPS (dc_after (ps_dc s) 0 blocks) (ps_fwd s) (ps_bwd s) (ps_q s) (ps_dirs s) | _ => s end) m' /\
    looks (ms_frame m') (paint_mb P row col s b cv).
Proof.
  intros v P e se row col s b m rd l c cv HV HS HA HDI L W H Hm HB VP VF HD C.
  destruct (refs_of v P e s m row col HV HA HDI VP VF) as [RI RC]. destruct (past_looks v P e s m HV HA HDI) as [LP LF].
  assert (CF : se_chroma se = ChromaFormat420) by (destruct HV as (_ & _ & _ & (se' & E1 & E2) & _); congruence). rewrite CF.
  change (block_count ChromaFormat420) with 6%nat. pose proof HA as (A1 & A2 & A3 & A).
  assert (F420 : frame420 (ms_frame m) (pp_w P) (pp_h P)) by (rewrite <- W, <- H; exact (proj1 L)).
  assert (FD : mo_dct (mode_of P b) = field_dct (b_body b)).
  { unfold mode_of. cbn [mo_dct]. unfold is_intra, is_coded. destruct (b_body b) as [f blocks|blocks|]; cbn [field_dct orb].
    - destruct HB as (_ & HB & _). destruct (e_fpfd (pp_pce P)); [now rewrite HB | reflexivity].
    - now destruct (_ && _).
    - now destruct (_ && _). }
  assert (Q : 0 <= ms_qsc m < 32) by (rewrite A2; exact A3).
  assert (FIN : forall dcs f', chain (pp_w P) (pp_h P) row col (mo_dct (mode_of P b)) (past_ref (ms_mvd m) (v_fs v)) (future_ref (ms_mvd m) (v_fs v)) 0
       (residuals P (ms_qsc m) (b_body b)) (ms_frame m) f' -> length (residuals P (ms_qsc m) (b_body b)) = 6%nat ->
       agree e (mkPS dcs (ps_fwd s) (ps_bwd s) (ps_q s) (ps_dirs s)) (mkMS (pred_list dcs) (ms_mvd m) (ms_qsc m) f') /\ looks f' (paint_mb P row col s b cv)).
  { intros dcs f' CH L6. split; [split; [reflexivity|]; split; [exact A2|]; split; [exact A3 | exact A]|].
    rewrite A2 in CH, L6. refine (chain_looks P (pp_w P) (pp_h P) row col _ _ _ _ _ f' _ _ cv L W H L6 _ CH LP LF RC s b eq_refl FD eq_refl eq_refl).
    intro Et. rewrite FD in Et. assert (II : is_intra b = true) by (unfold is_intra; destruct (b_body b); [reflexivity | discriminate | discriminate]).
    destruct A as (_ & _ & _ & _ & _ & D). rewrite (HD II) in D. unfold past_ref, future_ref. replace (mv_fwd (ms_mvd m)) with false by congruence. replace (mv_bwd (ms_mvd m)) with false by congruence. split; reflexivity. }
  unfold is_coded, is_intra. destruct (b_body b) as [f blocks|blocks|] eqn:EB; cbn [body_code body_ok residuals] in *.
  - destruct HB as (L6 & _ & HB). rewrite bind_ret. destruct (pattern_run _ 0 true false ChromaFormat420 (m, setb rd (c ++ l)) eq_refl) as (pc & E1 & Lp & N). rewrite (bind_ok _ _ _ _ _ _ _ _ E1).
    assert (E6 : firstn 6 pc = repeat true (length blocks)). { rewrite L6. apply first6; [exact Lp | reflexivity|]. intros i Hi. rewrite N by exact Hi. cbn [orb]. do 6 (destruct i as [|i]; [reflexivity|]). lia. }
    rewrite E6. assert (IB : is_intra b = true) by (unfold is_intra; now rewrite EB).
    destruct (intra_blocks_run v P e se (mode_of P b) (pp_w P) (pp_h P) row col HV HS IB Hm blocks 0 block_zero m rd l (ps_dc s) c ltac:(lia) eq_refl F420 RI A1 Q HB C) as (f' & E2 & CH).
    rewrite (bind_ok _ _ _ _ _ _ _ _ E2). eexists. split; [reflexivity|]. apply FIN; [exact CH|]. rewrite map_length. exact L6.
  - destruct HB as (L6 & HB). destruct C as (c1 & c2 & -> & C1 & C2). rewrite <- app_assoc.
    assert (E0 : ignore_err None (c <- onr (coded_block_pattern ChromaFormat420) ;; ret (Some c)) (m, setb rd (c1 ++ c2 ++ l)) = (Ok (Some (pattern_of blocks)), (m, setb rd (c2 ++ l)))).
    { apply ignore_ok. erewrite bind_onr_ok; [reflexivity|]. unfold coded_block_pattern. rewrite (proj1 C39_coded_block_pattern c1 _ rd (c2 ++ l) C1). reflexivity. }
    rewrite (bind_ok _ _ _ _ _ _ _ _ E0). destruct (pattern_run _ (pattern_of blocks) false true ChromaFormat420 (m, setb rd (c2 ++ l)) eq_refl) as (pc & E1 & Lp & N). rewrite (bind_ok _ _ _ _ _ _ _ _ E1).
    assert (E6 : firstn 6 pc = map some blocks).
    { apply first6; [exact Lp | now rewrite map_length|]. intros i Hi. rewrite N by exact Hi. cbn [orb andb].
      destruct blocks as [|x0 [|x1 [|x2 [|x3 [|x4 [|x5 [|x6 bs] ] ] ] ] ] ]; try discriminate. now apply pattern_bits. }
    rewrite E6. assert (IB : is_intra b = false) by (unfold is_intra; now rewrite EB).
    destruct (inter_blocks_run v P e se (mode_of P b) (pp_w P) (pp_h P) row col HV HS IB Hm blocks 0 block_zero m rd l c2 ltac:(lia) eq_refl F420 RI Q HB C2) as (f' & E2 & CH).
    rewrite (bind_ok _ _ _ _ _ _ _ _ E2). eexists. split; [reflexivity|]. rewrite A1. destruct s as [dcs fw bw q d]. apply FIN; [exact CH|]. rewrite map_length. exact L6.
  - subst c. rewrite bind_ret. destruct (pattern_run _ 0 false false ChromaFormat420 (m, setb rd ([] ++ l)) eq_refl) as (pc & E1 & Lp & N). rewrite (bind_ok _ _ _ _ _ _ _ _ E1).
    assert (E6 : firstn 6 pc = map some (repeat (@None (list (Z * Z))) 6)). { apply first6; [exact Lp | reflexivity|]. intros i Hi. rewrite N by exact Hi. cbn [orb andb]. do 6 (destruct i as [|i]; [reflexivity|]). lia. }
    rewrite E6. assert (IB : is_intra b = false) by (unfold is_intra; now rewrite EB).
    destruct (inter_blocks_run v P e se (mode_of P b) (pp_w P) (pp_h P) row col HV HS IB Hm (repeat None 6) 0 block_zero m rd l [] ltac:(cbn; lia) eq_refl F420 RI Q) as (f' & E2 & CH).
    { repeat constructor. }
    { reflexivity. }
    rewrite (bind_ok _ _ _ _ _ _ _ _ E2). eexists. split; [reflexivity|]. rewrite A1. destruct s as [dcs fw bw q d]. apply FIN; [exact CH | reflexivity].
Qed.

Lemma agree_if : forall e (c : bool) s s' m m', agree e s m -> (c = true -> agree e s' m') -> agree e (if c then s' else s) (if c then m' else m).
Proof. intros e c s s' m m' H H'. destruct c; auto. Qed.
Lemma frame_dcp : forall x m, ms_frame (ms_set_dcp x m) = ms_frame m. Proof. reflexivity. Qed.

Lemma macroblock_run : forall v P e s m cv row addr b c rd l, vctx v P e -> agree e s m -> dirs_ok P s -> looks (ms_frame m) cv -> cv_w cv = pp_w P -> cv_h cv = pp_h P ->
  -1 <= addr -> mb_ok P row addr s b -> mb_code P s b c -> (11 <= length l)%nat ->
  exists m', macroblock v row addr (m, setb rd (c ++ l)) = (Ok (addr + b_incr b), (m', setb rd l)) /\ agree e (ps_after P s b) m' /\ dirs_ok P (ps_after P s b) /\
    looks (ms_frame m') (paint_mb P row (addr + b_incr b) (ps_after P s b) b
      (if addr =? -1 then cv else paint_skipped P row (addr + 1) (b_incr b - 1) s cv)).
Proof.
  intros v P e s m cv row addr b c rd l HV HA HDI L W H Ha (O1 & O2 & O3 & OC & O4 & O0 & O5 & O6 & O7) C Hl.
  destruct C as (ci & ct & cf & cb & cy & C1 & C2 & C3 & C4 & C5 & ->). pose proof HV as ((ph & P1 & P2) & HE & PH & (se & S1 & S2) & _ & _ & _ & _ & PO).
  pose proof PO as (_ & PSt & PCon & _). pose proof (f_codes_of P e PH PO) as FC.
  unfold macroblock. rewrite <- !app_assoc.
  erewrite bind_onr_ok by (apply incr_run; [exact C1 | rewrite !app_length; lia]). rewrite P1, HE. unfold deref at 1 2. rewrite !bind_ret. cbv zeta. rewrite P2.
  destruct (skip_run v P e s m cv row addr (b_incr b) (setb rd (ct ++ (if (is_forward b || some (b_backward b)) && negb (e_fpfd (pp_pce P)) then enc 2 2 else []) ++
    (if negb (e_fpfd (pp_pce P)) && (is_intra b || is_coded b) then [field_dct (b_body b)] else []) ++ match b_quant b with Some q => enc 5 q | None => [] end ++ cf ++ cb ++ (if is_intra b && e_conceal (pp_pce P) then [true] else []) ++ cy ++ l)) HV HA HDI L W H Ha O1 O2 O7) as (f1 & E1 & L1).
  rewrite (bind_ok _ _ _ _ _ _ _ _ E1). clear E1. set (cv1 := if addr =? -1 then cv else _) in *.
  assert (D1 : cv_w cv1 = pp_w P /\ cv_h cv1 = pp_h P).
  { unfold cv1, paint_skipped. destruct (addr =? -1); [auto|]. destruct (_ <=? 0); [auto|]. destruct (pp_type P =? 2); [destruct (pp_past P)|]; auto. }
  destruct D1 as [W1 H1]. unfold reset_dc, reset_mv. rewrite !when_upd.
  set (m1 := ms_set_frame f1 m) in *. rewrite Z.gtb_ltb. unfold PFrame.
  set (m2 := if (pp_type P =? 2) && (1 <? b_incr b) then _ else _).
  assert (A2 : agree e (ps_reset1 P s b) m2 /\ ms_frame m2 = f1).
  { split; [|unfold m2; destruct (_ && _), (1 <? b_incr b); reflexivity]. unfold m2, ps_reset1. cbv zeta. apply agree_if; [|intros _; apply agree_mvr; [exact FC|] ]; (apply agree_if; [exact HA | intros _; now apply agree_dcr]). }
  clearbody m2. destruct A2 as [A2 F2].
  erewrite bind_onr_ok by (apply mode_run; [exact PO | exact PH | exact C2]).
  destruct (table_facts _ _ _ _ _ _ _ C2) as (T1 & T2 & T3).
  assert (CO : pc_conceal e = e_conceal (pp_pce P)) by (destruct PH as (_ & _ & _ & _ & _ & _ & _ & _ & -> & _); reflexivity). rewrite CO. set (mk := if is_intra b && e_conceal (pp_pce P) then [true] else []) in *.
  assert (KF : is_forward b || is_intra b && e_conceal (pp_pce P) = some (b_forward b)) by (clear - OC; unfold is_forward; destruct (is_intra b); cbn [negb andb]; [rewrite <- OC by reflexivity; now rewrite andb_false_r | now rewrite andb_true_r, orb_false_r]).
  cbn [mode_of mo_type mb_intra mb_motion_forward mb_motion_backward mb_pattern mb_quant]. fold (mode_of P b). rewrite KF.
  rewrite !when_upd. set (m3 := if (pp_type P =? 2) && negb (is_intra b) && negb (is_forward b) then _ else _).
  assert (A3 : agree e (ps_reset2 P (ps_reset1 P s b) b) m3 /\ ms_frame m3 = f1).
  { split; [|unfold m3; rewrite <- F2; repeat match goal with |- context [if ?c then _ else _] => destruct c end; reflexivity].
    unfold m3, ps_reset2. cbv zeta. apply agree_if; [|intros _; apply agree_mvr; [exact FC|] ]; (apply agree_if; [|intros _; apply agree_mvr; [exact FC|] ]); (apply agree_if; [exact A2 | intros _; now apply agree_dcr]). }
  clearbody m3. destruct A3 as [A3 F3].
  (* quantiser_scale_code *)
  assert (E4 : exists m4, when (some (b_quant b)) (q <- onr (read_n 5) ;; upd (ms_set_qsc q)) (m3, setb rd (match b_quant b with Some q => enc 5 q | None => [] end ++ cf ++ cb ++ mk ++ cy ++ l)) =
     (Ok tt, (m4, setb rd (cf ++ cb ++ mk ++ cy ++ l))) /\ agree e (ps_before P s b) m4 /\ ms_frame m4 = f1).
  { rewrite before_eq. unfold ps_quant. destruct (b_quant b) as [q|]; cbn [some when app].
    - exists (ms_set_qsc q m3). split; [erewrite bind_onr_ok by (apply read_enc; cbn; lia); reflexivity|]. split; [apply agree_q; [lia | exact A3] | exact F3].
    - exists m3. auto. }
  destruct E4 as (m4 & E4 & A4 & F4). rewrite (bind_ok _ _ _ _ _ _ _ _ E4). clear E4. set (s4 := ps_before P s b) in *.
  (* vectors *)
  assert (FF : some (b_forward b) || some (b_backward b) = true -> frame_format e (mode_of P b)).
  { intro M. rewrite <- KF in M. unfold frame_format, mode_of. cbn [mo_frame_motion]. destruct (e_fpfd (pp_pce P)) eqn:FP; [left; destruct PH as (_ & _ & _ & _ & _ & _ & _ & -> & _); now rewrite FP|].
    destruct (e_conceal (pp_pce P)); [specialize (PCon eq_refl); discriminate|]. rewrite andb_false_r, orb_false_r in M. rewrite M. right; reflexivity. }
  assert (FCE : f_code e 0 0 = e_f00 (pp_pce P) /\ f_code e 0 1 = e_f01 (pp_pce P) /\ f_code e 1 0 = e_f10 (pp_pce P) /\ f_code e 1 1 = e_f11 (pp_pce P)) by (unfold f_code; destruct PH as (? & ? & ? & ? & _); auto).
  destruct FCE as (FC1 & FC2 & FC3 & FC4). rewrite <- FC1, <- FC2 in C3. rewrite <- FC3, <- FC4 in C4.
  assert (E5 : exists m5, when (some (b_forward b)) (motion_vectors e (mode_of P b) 0) (m4, setb rd (cf ++ cb ++ mk ++ cy ++ l)) = (Ok tt, (m5, setb rd (cb ++ mk ++ cy ++ l))) /\
     agree e (match b_forward b with Some v => ps_set_fwd v s4 | None => s4 end) m5 /\ ms_frame m5 = f1).
  { destruct (b_forward b) as [vf|]; cbn [some when opt_vector] in *.
    - pose proof A4 as (_ & _ & _ & (G1 & G2 & _) & _ & _ & V1 & _). rewrite <- V1 in C3. eexists. split; [apply vectors_frame_run; [now apply FF | exact FC | exact G1 | exact G2 | lia | exact C3]|].
      split; [|exact F4]. destruct C3 as (? & ? & _ & R1 & R2 & _). now apply agree_fwd.
    - subst cf. exists m4. auto. }
  destruct E5 as (m5 & E5 & A5 & F5). rewrite (bind_ok _ _ _ _ _ _ _ _ E5). clear E5.
  assert (E6 : exists m6, when (some (b_backward b)) (motion_vectors e (mode_of P b) 1) (m5, setb rd (cb ++ mk ++ cy ++ l)) = (Ok tt, (m6, setb rd (mk ++ cy ++ l))) /\
     agree e (ps_vectors b s4) m6 /\ ms_frame m6 = f1).
  { unfold ps_vectors. cbv zeta. set (s5 := match b_forward b with Some v0 => _ | None => _ end) in *. destruct (b_backward b) as [vb|]; cbn [some when opt_vector] in *.
    - pose proof A5 as (_ & _ & _ & (G1 & G2 & _) & _ & _ & _ & V2 & _). assert (PB : ps_bwd s5 = ps_bwd s4) by (unfold s5; destruct (b_forward b); reflexivity). rewrite <- PB, <- V2 in C4.
      eexists. split; [apply vectors_frame_run; [apply FF; apply orb_true_r | exact FC | exact G1 | exact G2 | lia | exact C4]|].
      split; [|exact F5]. destruct C4 as (? & ? & _ & R1 & R2 & _). now apply agree_bwd.
    - subst cb. exists m5. auto. }
  destruct E6 as (m6 & E6 & A6 & F6). rewrite (bind_ok _ _ _ _ _ _ _ _ E6). clear E6.
  rewrite bind_upd. pose proof (previous_dirs P b ct (ms_mvd m6) C2) as PD. cbn [mode_of mo_type] in PD. rewrite PD. clear PD.
  assert (E7 : forall m' : mstate, when (is_intra b && e_conceal (pp_pce P)) (onr marker_bit) (m', setb rd (mk ++ cy ++ l)) = (Ok tt, (m', setb rd (cy ++ l)))).
  { intro m'. unfold mk. destruct (is_intra b && e_conceal (pp_pce P)); [|reflexivity]. cbn [when]. apply onr_ok. apply (marker_run rd (cy ++ l)). }
  rewrite (bind_ok _ _ _ _ _ _ _ _ (E7 _)). clear E7. rewrite S1. unfold deref. rewrite bind_ret.
  set (m7 := ms_set_mvd (mkMV _ _ _ _) m6). pose proof (agree_dirs e (ps_vectors b s4) m6 (fst (dirs_of P b)) (snd (dirs_of P b)) A6) as A7. rewrite <- surjective_pairing in A7. fold m7 in A7.
  set (s7 := ps_set_dirs (dirs_of P b) (ps_vectors b s4)) in *.
  assert (SA : ps_after P s b = match b_body b with Intra _ blocks => mkPS (dc_after (ps_dc s7) 0 blocks) (ps_fwd s7) (ps_bwd s7) (ps_q s7) (ps_dirs s7) | _ => s7 end) by apply after_eq.
  assert (PF : past_of P (ps_after P s b) = past_of P s7 /\ future_of P (ps_after P s b) = future_of P s7 /\ ps_q (ps_after P s b) = ps_q s7) by (rewrite SA; destruct (b_body b); auto).
  destruct PF as (PF1 & PF2 & PF3). cbv zeta in O5, O6. rewrite PF1 in O5. rewrite PF2 in O6.
  assert (DC7 : ps_dc s7 = ps_dc s4) by (unfold s7, ps_vectors; destruct (b_forward b), (b_backward b); reflexivity).
  assert (D7 : dirs_ok P s7) by (apply (dirs_of_ok P b ct (proj1 PO) C2 s7 eq_refl); clear - O0 SA; cbv zeta in O0; rewrite SA in O0; destruct (b_body b); exact O0).
  destruct (body_run v P e se row (addr + b_incr b) s7 b m7 rd l cy cv1 HV S1 A7) as (m8 & E8 & A8 & L8); auto.
  { unfold m7. cbn [ms_set_mvd ms_frame]. rewrite F6. exact L1. }
  { intro I. unfold s7. cbn [ps_set_dirs ps_dirs]. unfold dirs_of. now rewrite I. }
  { unfold body_code in *. rewrite DC7. exact C5. }
  exists m8. split; [exact E8|]. rewrite SA at 1. split; [exact A8|]. split; [rewrite SA; destruct (b_body b); exact D7|].
  unfold paint_mb in *. rewrite PF1, PF2, PF3. exact L8.
Qed.
