(** VlcProofs: the decoders over the tables of VlcTables decode exactly the codes of SpecVlc. *)
From Verif Require Import Base BitReader Exec Local Mono TsRobust PesLocal Huffman VlcTables BlockModel SpecVlc.

(** The codes of a numbered table as a list of pairs. *)
Fixpoint numbered {A} (f : Z -> A) (k : Z) (t : vlc) : codes A :=
  match t with
  | [] => []
  | (v, n) :: t => (enc (Z.to_nat n) v, f k) :: numbered f (k + 1) t
  end.

Lemma numbered_spec : forall A (f : Z -> A) t k c a,
  In (c, a) (numbered f k t) <-> exists i, has t i c /\ a = f (k + Z.of_nat i).
Proof.
  induction t as [|[v n] t IH]; intros k c a; cbn [numbered].
  - split; [contradiction|]. intros (i & (v & n & H & _) & _). destruct i; discriminate.
  - cbn [In]. rewrite IH. split.
    + intros [E|(i & (v' & n' & H & Hc) & ->)].
      * exists 0%nat. split; [exists v, n; split; [reflexivity|congruence]|].
        rewrite Z.add_0_r. congruence.
      * exists (S i). split; [exists v', n'; auto|]. f_equal. lia.
    + intros (i & (v' & n' & H & Hc) & ->). destruct i as [|i].
      * left. cbn in H. assert (v = v' /\ n = n') as [-> ->] by (split; congruence).
        subst c. f_equal. f_equal. lia.
      * right. exists i. split; [exists v', n'; auto|]. f_equal. lia.
Qed.

(** Equality of a decoder's table and a specification list, by computation. *)
Definition same_codes {A} (eqb : A -> A -> bool) (s t : codes A) : bool :=
  let inc x y := forallb (fun e => existsb (fun e' => bits_eqb (fst e) (fst e') && eqb (snd e) (snd e')) y) x in
  inc s t && inc t s.

Lemma same_codes_spec : forall A (eqb : A -> A -> bool) (s t : codes A),
  (forall a b, eqb a b = true -> a = b) -> same_codes eqb s t = true ->
  forall c a, In (c, a) s <-> In (c, a) t.
Proof.
  intros A eqb s t He H c a. unfold same_codes in H. apply Bool.andb_true_iff in H.
  destruct H as [H1 H2]. split; eapply codes_incl_dec; eauto.
Qed.

Lemma exact_table : forall A (t : htable A) (T : list bool -> A -> Prop),
  prefix_free (codes_of t) = true ->
  (forall c a, T c a <-> In (c, a) (codes_of t)) ->
  decodes_exactly (hdecode t) T.
Proof.
  intros A t T Hp HT. split.
  - intros c a r l H. apply hdecode_code; [exact Hp|]. now apply HT.
  - intros r H. destruct (hdecode t r) as [x r'] eqn:E. pose proof (safe_hdecode _ t r) as Hs.
    rewrite E in Hs. destruct x as [a|e| |]; cbn in Hs; try contradiction; [|eauto].
    apply hdecode_ok_inv in E. destruct E as (c & Hi & Hr & _).
    exfalso. apply (H c a (rbits r')); [now apply HT|exact Hr].
Qed.

Lemma numbered_rel : forall t k c a, (0 <= k) ->
  In (c, a) (numbered (fun x => x) k t) <-> k <= a /\ has t (Z.to_nat (a - k)) c.
Proof.
  intros t k c a Hk. rewrite numbered_spec. split.
  - intros (i & H & ->). split; [lia|]. now replace (Z.to_nat (k + Z.of_nat i - k)) with i by lia.
  - intros [H1 H2]. exists (Z.to_nat (a - k)). split; [exact H2|]. lia.
Qed.

Lemma Zeqb_ok : forall a b, Z.eqb a b = true -> a = b.
Proof. intros. now apply Z.eqb_eq. Qed.

Lemma mba_exact : decodes_exactly mba_decode mba_code.
Proof.
  apply exact_table; [vm_compute; reflexivity|]. intros c a. unfold mba_code.
  rewrite <- (numbered_rel b1 1 c a) by lia.
  apply (same_codes_spec _ Z.eqb); [apply Zeqb_ok | vm_compute; reflexivity].
Qed.

Lemma cbp_exact : decodes_exactly cbp_decode cbp_code.
Proof.
  apply exact_table; [vm_compute; reflexivity|]. intros c a. unfold cbp_code.
  replace (Z.to_nat a) with (Z.to_nat (a - 0)) by lia.
  rewrite <- (numbered_rel b9 0 c a) by lia.
  apply (same_codes_spec _ Z.eqb); [apply Zeqb_ok | vm_compute; reflexivity].
Qed.

Lemma dc_luma_exact : decodes_exactly dc_size_luma dc_size_luma_code.
Proof.
  apply exact_table; [vm_compute; reflexivity|]. intros c a. unfold dc_size_luma_code.
  replace (Z.to_nat a) with (Z.to_nat (a - 0)) by lia.
  rewrite <- (numbered_rel b12 0 c a) by lia.
  apply (same_codes_spec _ Z.eqb); [apply Zeqb_ok | vm_compute; reflexivity].
Qed.

Lemma dc_chroma_exact : decodes_exactly dc_size_chroma dc_size_chroma_code.
Proof.
  apply exact_table; [vm_compute; reflexivity|]. intros c a. unfold dc_size_chroma_code.
  replace (Z.to_nat a) with (Z.to_nat (a - 0)) by lia.
  rewrite <- (numbered_rel b13 0 c a) by lia.
  apply (same_codes_spec _ Z.eqb); [apply Zeqb_ok | vm_compute; reflexivity].
Qed.

(** Motion codes: the magnitudes with a sign. *)
Definition signed_codes (t : vlc) : codes Z :=
  flat_map (fun e => let '(c, m) := e : list bool * Z in
              if m =? 0 then [(c, 0)] else [(c ++ [false], m); (c ++ [true], - m)])
           (numbered (fun x => x) 0 t).

Lemma signed_spec : forall c m, In (c, m) (signed_codes b10) <-> motion_code_code c m.
Proof.
  intros c m. unfold signed_codes, motion_code_code. rewrite in_flat_map. split.
  - intros ([d k] & Hi & H). apply (numbered_rel b10 0 d k) in Hi; [|lia]. destruct Hi as [Hk Hd].
    replace (k - 0) with k in Hd by lia.
    destruct (k =? 0) eqn:Ek.
    + apply Z.eqb_eq in Ek. subst k. destruct H as [E|[]].
      left. assert (d = c /\ m = 0) as [-> ->] by (split; congruence). auto.
    + apply Z.eqb_neq in Ek. right. destruct H as [E|[E|[]]].
      * assert (c = d ++ [false] /\ m = k) as [-> ->] by (split; congruence).
        split; [lia|]. exists d. rewrite Z.abs_eq by lia. split; [exact Hd|].
        now rewrite (proj2 (Z.ltb_ge _ _)) by lia.
      * assert (c = d ++ [true] /\ m = - k) as [-> ->] by (split; congruence).
        split; [lia|]. exists d. rewrite Z.abs_neq by lia. rewrite Z.opp_involutive. split; [exact Hd|].
        now rewrite (proj2 (Z.ltb_lt _ _)) by lia.
  - intros [[-> H]|(Hm & d & Hd & ->)].
    + exists (c, 0). split; [apply (numbered_rel b10 0); [lia|]; split; [lia|exact H]|]. left. reflexivity.
    + exists (d, Z.abs m). split.
      * apply (numbered_rel b10 0); [lia|]. split; [lia|].
        now replace (Z.abs m - 0) with (Z.abs m) by lia.
      * rewrite (proj2 (Z.eqb_neq _ _)) by lia. destruct (Z.ltb_spec m 0).
        -- right. left. f_equal. lia.
        -- left. f_equal. lia.
Qed.

Lemma motion_code_exact : decodes_exactly motion_code_decode motion_code_code.
Proof.
  apply exact_table; [vm_compute; reflexivity|]. intros c a. rewrite <- signed_spec.
  apply (same_codes_spec _ Z.eqb); [apply Zeqb_ok | vm_compute; reflexivity].
Qed.

(** Macroblock types. *)
Definition mbt_fields (t : mbtype) : bool * bool * bool * bool * bool :=
  (mb_quant t, mb_motion_forward t, mb_motion_backward t, mb_pattern t, mb_intra t).

Definition mbt_eqb (a b : mbtype) : bool :=
  Bool.eqb (mb_quant a) (mb_quant b) && Bool.eqb (mb_motion_forward a) (mb_motion_forward b) &&
  Bool.eqb (mb_motion_backward a) (mb_motion_backward b) && Bool.eqb (mb_pattern a) (mb_pattern b) &&
  Bool.eqb (mb_intra a) (mb_intra b).
Lemma mbt_eqb_ok : forall a b, mbt_eqb a b = true -> a = b.
Proof.
  intros [a b c d e] [a' b' c' d' e']. unfold mbt_eqb. cbn.
  rewrite !Bool.andb_true_iff, !Bool.eqb_true_iff. intros [[[[-> ->] ->] ->] ->]. reflexivity.
Qed.

Definition mbt_codes (t : list mbt_row) : codes mbtype :=
  map (fun e => let '((v, n), (a, b, c, d, i)) := e : mbt_row in (enc (Z.to_nat n) v, mkMBT a b c d i)) t.

Lemma mbt_codes_spec : forall t c m, In (c, m) (mbt_codes t) <-> mbt_code t c (mbt_fields m).
Proof.
  intros t c m. unfold mbt_codes, mbt_code. rewrite in_map_iff. split.
  - intros ([[v n] [[[[a b] x] d] i]] & E & H).
    assert (c = enc (Z.to_nat n) v /\ m = mkMBT a b x d i) as [-> ->] by (split; congruence).
    exists v, n. auto.
  - intros (v & n & H & ->). exists ((v, n), mbt_fields m). split; [|exact H]. destruct m; reflexivity.
Qed.

Lemma mbtype_I_exact : decodes_exactly mbtype_decode_I (fun c m => mbt_code b2 c (mbt_fields m)).
Proof.
  apply exact_table; [vm_compute; reflexivity|]. intros c a. rewrite <- mbt_codes_spec.
  apply (same_codes_spec _ mbt_eqb); [apply mbt_eqb_ok | vm_compute; reflexivity].
Qed.
Lemma mbtype_P_exact : decodes_exactly mbtype_decode_P (fun c m => mbt_code b3 c (mbt_fields m)).
Proof.
  apply exact_table; [vm_compute; reflexivity|]. intros c a. rewrite <- mbt_codes_spec.
  apply (same_codes_spec _ mbt_eqb); [apply mbt_eqb_ok | vm_compute; reflexivity].
Qed.
Lemma mbtype_B_exact : decodes_exactly mbtype_decode_B (fun c m => mbt_code b4 c (mbt_fields m)).
Proof.
  apply exact_table; [vm_compute; reflexivity|]. intros c a. rewrite <- mbt_codes_spec.
  apply (same_codes_spec _ mbt_eqb); [apply mbt_eqb_ok | vm_compute; reflexivity].
Qed.

(** DCT coefficients. *)
Definition dctval_eqb (a b : dctval) : bool :=
  match a, b with
  | DctCoef r l, DctCoef r' l' => Z.eqb r r' && Z.eqb l l'
  | DctEndOfBlock, DctEndOfBlock | DctEscape, DctEscape => true
  | _, _ => false
  end.
Lemma dctval_eqb_ok : forall a b, dctval_eqb a b = true -> a = b.
Proof.
  intros [r l| |] [r' l'| |]; cbn; try discriminate; auto.
  rewrite Bool.andb_true_iff, !Z.eqb_eq. intros [-> ->]. reflexivity.
Qed.

Fixpoint runs (k : Z) (T : list vlc) : codes dctval :=
  match T with
  | [] => []
  | t :: T => numbered (DctCoef k) 1 t ++ runs (k + 1) T
  end.

Lemma runs_spec : forall T k c v, In (c, v) (runs k T) <->
  exists i t j, nth_error T i = Some t /\ has t j c /\ v = DctCoef (k + Z.of_nat i) (1 + Z.of_nat j).
Proof.
  induction T as [|t T IH]; intros k c v; cbn [runs].
  - split; [contradiction|]. intros (i & t & j & H & _). destruct i; discriminate.
  - rewrite in_app_iff, numbered_spec, IH. split.
    + intros [(j & H & ->)|(i & u & j & Hn & H & ->)].
      * exists 0%nat, t, j. split; [reflexivity|]. split; [exact H|]. f_equal. lia.
      * exists (S i), u, j. split; [exact Hn|]. split; [exact H|]. f_equal. lia.
    + intros (i & u & j & Hn & H & ->). destruct i as [|i].
      * left. assert (t = u) as -> by (cbn in Hn; congruence). exists j. split; [exact H|]. f_equal. lia.
      * right. exists i, u, j. split; [exact Hn|]. split; [exact H|]. f_equal. lia.
Qed.

(** The tables of the code against those of the standard: the entries with, in the first table
    zero, the code 1 for run 0 level 1. *)
Definition shorten (T : codes dctval) : codes dctval :=
  map (fun e => if dctval_eqb (snd e) (DctCoef 0 1) then ([true], DctCoef 0 1) else e) T.

Definition spec_codes (one first : bool) : codes dctval :=
  (if first then [] else [(if one then b15_eob else b14_eob, DctEndOfBlock)]) ++
  [(dct_escape_prefix, DctEscape)] ++
  (if negb one && first then shorten (runs 0 b14) else runs 0 (if one then b15 else b14)).

Definition dtable (one first : bool) : htable dctval :=
  match one, first with
  | false, true => dct_table_0_first | false, false => dct_table_0_rest
  | true, true => dct_table_1_first | true, false => dct_table_1_rest
  end.

Lemma dtable_spec : forall one first c v, In (c, v) (spec_codes one first) <-> In (c, v) (codes_of (dtable one first)).
Proof.
  intros one first. apply (same_codes_spec _ dctval_eqb); [apply dctval_eqb_ok|].
  destruct one, first; vm_compute; reflexivity.
Qed.

Lemma dtable_prefix : forall one first, prefix_free (codes_of (dtable one first)) = true.
Proof. intros [] []; vm_compute; reflexivity. Qed.

Lemma runs_vlc : forall T c run mag, In (c, DctCoef run mag) (runs 0 T) <->
  0 <= run /\ 1 <= mag /\ exists t, nth_error T (Z.to_nat run) = Some t /\ has t (Z.to_nat (mag - 1)) c.
Proof.
  intros T c run mag. rewrite runs_spec. split.
  - intros (i & t & j & Hn & H & E).
    assert (run = 0 + Z.of_nat i /\ mag = 1 + Z.of_nat j) as [-> ->] by (split; congruence).
    split; [lia|]. split; [lia|]. exists t.
    replace (Z.to_nat (0 + Z.of_nat i)) with i by lia.
    replace (Z.to_nat (1 + Z.of_nat j - 1)) with j by lia. auto.
  - intros (H1 & H2 & t & Hn & H). exists (Z.to_nat run), t, (Z.to_nat (mag - 1)).
    split; [exact Hn|]. split; [exact H|]. f_equal; lia.
Qed.

Lemma runs_only : forall T c v, In (c, v) (runs 0 T) -> exists run mag, v = DctCoef run mag.
Proof. intros T c v H. apply runs_spec in H. destruct H as (i & t & j & _ & _ & ->). eauto. Qed.

Lemma shorten_spec : forall T c run mag, In (c, DctCoef run mag) (shorten T) <->
  (run = 0 /\ mag = 1 /\ c = [true] /\ exists d, In (d, DctCoef 0 1) T) \/
  (~ (run = 0 /\ mag = 1) /\ In (c, DctCoef run mag) T).
Proof.
  intros T c run mag. unfold shorten. rewrite in_map_iff. split.
  - intros ([d v] & E & Hi). cbn [snd] in E. destruct (dctval_eqb v (DctCoef 0 1)) eqn:Ev.
    + apply dctval_eqb_ok in Ev. subst v. left.
      assert (c = [true] /\ run = 0 /\ mag = 1) as (-> & -> & ->) by (repeat split; congruence). eauto.
    + right. assert (d = c /\ v = DctCoef run mag) as [-> ->] by (split; congruence).
      split; [|exact Hi]. intros [-> ->]. discriminate.
  - intros [(-> & -> & -> & d & H)|[Hn H]].
    + exists (d, DctCoef 0 1). auto.
    + exists (c, DctCoef run mag). split; [|exact H]. cbn [snd].
      destruct (dctval_eqb (DctCoef run mag) (DctCoef 0 1)) eqn:Ev; [|reflexivity].
      apply dctval_eqb_ok in Ev. exfalso. apply Hn. split; congruence.
Qed.

Lemma b14_has_0_1 : exists d, In (d, DctCoef 0 1) (runs 0 b14).
Proof. exists (enc 2 3). left. reflexivity. Qed.

Lemma in_sc_coef : forall one first c run mag,
  In (c, DctCoef run mag) (spec_codes one first) <-> dct_vlc one first c run mag.
Proof.
  intros one first c run mag. unfold spec_codes, dct_vlc. rewrite !in_app_iff.
  assert (H0 : forall x, ~ In (c, DctCoef run mag) (if first then [] else [(x, DctEndOfBlock)])).
  { intros x H. destruct first; [contradiction|]. destruct H as [E|[]]. discriminate. }
  assert (H1 : ~ In (c, DctCoef run mag) [(dct_escape_prefix, DctEscape)]).
  { intros [E|[]]. discriminate. }
  destruct (negb one && first) eqn:Eo.
  - apply Bool.andb_true_iff in Eo. destruct Eo as [Eo Ef]. destruct one; [discriminate|]. subst first.
    cbn [negb andb] in *. rewrite shorten_spec, runs_vlc.
    destruct ((run =? 0) && (mag =? 1)) eqn:E2.
    + apply Bool.andb_true_iff in E2. rewrite !Z.eqb_eq in E2. destruct E2 as [-> ->].
      split; [intros [H|[H|H]]; [contradiction|contradiction|]; destruct H as [(_ & _ & H & _)|[H _]]; [split; [lia|]; split; [lia|]; exact H | tauto]|].
      intros (_ & _ & ->). right. right. left. split; [reflexivity|]. split; [reflexivity|].
      split; [reflexivity|]. apply b14_has_0_1.
    + assert (Hn : ~ (run = 0 /\ mag = 1)).
      { intros [-> ->]. discriminate. }
      split; [intros [H|[H|H]]; [contradiction|contradiction|]; destruct H as [(? & ? & _)|[_ H]]; [tauto|exact H]|].
      intros H. right. right. right. auto.
  - cbn [andb]. rewrite runs_vlc. split.
    + intros [H|[H|H]]; [now apply H0 in H|contradiction|exact H].
    + intros H. right. right. exact H.
Qed.

Lemma in_sc_eob : forall one first c,
  In (c, DctEndOfBlock) (spec_codes one first) <-> first = false /\ c = (if one then b15_eob else b14_eob).
Proof.
  intros one first c. unfold spec_codes. rewrite !in_app_iff. split.
  - intros [H|[[E|[]]|H]]; [|discriminate|].
    + destruct first; [contradiction|]. destruct H as [E|[]]. split; [reflexivity|congruence].
    + exfalso. destruct (negb one && first).
      * unfold shorten in H. apply in_map_iff in H. destruct H as ([d v] & E & Hi).
        apply runs_only in Hi. destruct Hi as (r & m & ->). cbn [snd] in E.
        destruct (dctval_eqb _ _); discriminate.
      * apply runs_only in H. destruct H as (r & m & ?). discriminate.
  - intros [-> ->]. left. left. reflexivity.
Qed.

Lemma in_sc_esc : forall one first c,
  In (c, DctEscape) (spec_codes one first) <-> c = dct_escape_prefix.
Proof.
  intros one first c. unfold spec_codes. rewrite !in_app_iff. split.
  - intros [H|[[E|[]]|H]].
    + destruct first; [contradiction|]. destruct H as [E|[]]. discriminate.
    + congruence.
    + exfalso. destruct (negb one && first).
      * unfold shorten in H. apply in_map_iff in H. destruct H as ([d v] & E & Hi).
        apply runs_only in Hi. destruct Hi as (r & m & ->). cbn [snd] in E.
        destruct (dctval_eqb _ _); discriminate.
      * apply runs_only in H. destruct H as (r & m & ?). discriminate.
  - intros ->. right. left. left. reflexivity.
Qed.

(** What a DCT decoder returns for a symbol. *)
Definition symbol_result (s : dct_symbol) : Z * Z * bool :=
  match s with RunLevel run level => (run, level, false) | EndOfBlock => (0, 0, true) end.

Definition dct_of (one : bool) : Z -> M reader (Z * Z * bool) :=
  if one then dct_table_one else dct_table_zero.

Lemma dct_of_unfold : forall one n, dct_of one n =
  dct_decode (dtable one true) (dtable one false) n.
Proof. intros [] n; reflexivity. Qed.

Lemma hdecode_dct : forall one (n : Z) c v r l,
  In (c, v) (spec_codes one (n =? 0)) ->
  hdecode (if n =? 0 then dtable one true else dtable one false) (setb r (c ++ l)) = (Ok v, setb r l).
Proof.
  intros one n c v r l H.
  replace (if n =? 0 then dtable one true else dtable one false) with (dtable one (n =? 0))
    by (destruct (n =? 0); reflexivity).
  apply hdecode_code; [apply dtable_prefix|]. now apply dtable_spec.
Qed.

Lemma vlc_level_bound : forall one first c run mag, dct_vlc one first c run mag -> 0 <= run < 32 /\ 1 <= mag <= 40.
Proof.
  intros one first c run mag H. unfold dct_vlc in H. destruct H as (H1 & H2 & H).
  destruct (negb one && first && (run =? 0) && (mag =? 1)) eqn:E.
  - rewrite !Bool.andb_true_iff, !Z.eqb_eq in E. lia.
  - destruct H as (t & Ht & v & n & Hn & _).
    assert (Hl : forallb (fun t => Nat.leb (length t) 40) (if one then b15 else b14) = true)
      by (destruct one; vm_compute; reflexivity).
    assert (length (if one then b15 else b14) = 32%nat) by (destruct one; reflexivity).
    pose proof (nth_error_In _ _ Ht) as Hi.
    rewrite forallb_forall in Hl. specialize (Hl _ Hi). apply Nat.leb_le in Hl.
    assert (Z.to_nat run < length (if one then b15 else b14))%nat by (apply nth_error_Some; congruence).
    assert (Z.to_nat (mag - 1) < length t)%nat by (apply nth_error_Some; congruence).
    lia.
Qed.

Lemma dct_symbol_ok : forall one n c s r l, dct_code one (n =? 0) c s ->
  dct_of one n (setb r (c ++ l)) = (Ok (symbol_result s), setb r l).
Proof.
  intros one n c s r l H. rewrite dct_of_unfold. unfold dct_decode. inversion H; subst.
  - rewrite (bind_ok _ _ _ _ _ _ _ _ (hdecode_dct one n _ _ r l (proj2 (in_sc_eob one (n =? 0) _) (conj H0 eq_refl)))).
    reflexivity.
  - rename c0 into d. rewrite <- app_assoc.
    rewrite (bind_ok _ _ _ _ _ _ _ _ (hdecode_dct one n _ _ r _ (proj2 (in_sc_coef one (n =? 0) _ _ _) H0))).
    cbn [app]. rewrite (bind_ok _ _ _ _ _ _ _ _ (read1_cons _ r l)).
    apply vlc_level_bound in H0. unfold symbol_result, ret. do 3 f_equal.
    destruct (Z.ltb_spec level 0).
    + rewrite i32_small by lia. f_equal. f_equal. lia.
    + f_equal. f_equal. lia.
  - rewrite <- !app_assoc.
    rewrite (bind_ok _ _ _ _ _ _ _ _ (hdecode_dct one n _ _ r _ (proj2 (in_sc_esc one (n =? 0) _) eq_refl))).
    rewrite (bind_ok _ _ _ _ _ _ _ _ (read_enc 6 run r _ ltac:(change (2 ^ Z.of_nat 6) with 64; lia))).
    assert (E : enc 12 (level mod 4096) = (level <? 0) :: enc 11 (level mod 2048)).
    { change 12%nat with (1 + 11)%nat. rewrite enc_app. change (2 ^ Z.of_nat 11) with 2048.
      rewrite <- (enc_ext_mod 11). change (2 ^ Z.of_nat 11) with 2048.
      replace ((level mod 4096) mod 2048) with (level mod 2048).
      2:{ pose proof (Z.div_mod level 4096 ltac:(lia)). pose proof (Z.mod_pos_bound level 4096 ltac:(lia)).
          rewrite H2 at 1. replace (4096 * (level / 4096) + level mod 4096) with (level mod 4096 + (2 * (level / 4096)) * 2048) by lia.
          apply Z.mod_add. lia. }
      change (?b :: ?x) with ([b] ++ x). f_equal.
      destruct (Z.ltb_spec level 0).
      - replace (level mod 4096) with (level + 4096) by (apply (Z.mod_unique _ _ (-1)); lia).
        replace ((level + 4096) / 2048) with 1; [reflexivity|].
        apply Z.div_unique with (r := level + 2048); lia.
      - rewrite (Z.mod_small level 4096) by lia. rewrite Z.div_small by lia. reflexivity. }
    rewrite E. cbn [app]. rewrite (bind_ok _ _ _ _ _ _ _ _ (read1_cons _ r _)).
    rewrite (bind_ok _ _ _ _ _ _ _ _ (read_enc 11 (level mod 2048) r l
       ltac:(change (2 ^ Z.of_nat 11) with 2048; apply Z.mod_pos_bound; lia))).
    unfold symbol_result, ret. do 3 f_equal.
    pose proof (Z.mod_pos_bound level 2048 ltac:(lia)).
    rewrite !i32_small by (rewrite ?i32_small by lia; destruct (level <? 0); lia).
    f_equal. destruct (Z.ltb_spec level 0).
    + replace (level mod 2048) with (level + 2048); [lia|]. apply (Z.mod_unique _ _ (-1)); lia.
    + rewrite Z.mod_small; lia.
Qed.

Lemma safe_dct_decode : forall a b n, safe (dct_decode a b n).
Proof.
  intros. unfold dct_decode. apply safe_bind; [apply safe_hdecode|]. intros [run level| |].
  - apply safe_bind; [apply safe_read1|]. intros. apply safe_ret.
  - apply safe_ret.
  - apply safe_bind; [apply safe_read_n|]. intros. apply safe_bind; [apply safe_read1|]. intros.
    apply safe_bind; [apply safe_read_n|]. intros. apply safe_ret.
Qed.

Lemma hdecode_dct_inv : forall one (n : Z) v r r',
  hdecode (if n =? 0 then dtable one true else dtable one false) r = (Ok v, r') ->
  exists c, In (c, v) (spec_codes one (n =? 0)) /\ rbits r = c ++ rbits r' /\ r' = setb r (rbits r').
Proof.
  intros one n v r r' H.
  replace (if n =? 0 then dtable one true else dtable one false) with (dtable one (n =? 0)) in H
    by (destruct (n =? 0); reflexivity).
  apply hdecode_ok_inv in H. destruct H as (c & Hi & Hr). exists c. split; [now apply dtable_spec|exact Hr].
Qed.

Lemma read1_inv : forall r b r', read1 r = (Ok b, r') -> rbits r = b :: rbits r' /\ r' = setb r (rbits r').
Proof.
  intros r b r' H. destruct (rbits r) as [|b0 l] eqn:Eb.
  - unfold read1, bind, read_n, short in H. rewrite Eb in H. discriminate.
  - assert (E : read1 (setb r (b0 :: l)) = (Ok b, r')) by (rewrite <- Eb, setb_rbits; exact H).
    rewrite read1_cons in E. assert (b0 = b /\ setb r l = r') as [-> <-] by (split; congruence). auto.
Qed.

Lemma read_n_inv : forall n r v r', read_n n r = (Ok v, r') ->
  exists c, length c = n /\ v = dec c /\ rbits r = c ++ rbits r' /\ r' = setb r (rbits r').
Proof.
  intros n r v r' H. unfold read_n in H. destruct (Nat.leb_spec n (length (rbits r))).
  - assert (v = dec (firstn n (rbits r)) /\ r' = setb r (skipn n (rbits r))) as [-> ->] by (split; congruence).
    exists (firstn n (rbits r)). rewrite rbits_setb, firstn_length_le, firstn_skipn by lia. auto.
  - unfold short in H. destruct (rbits r); discriminate.
Qed.

(** A DCT decoder only succeeds on a symbol of the code. *)
Lemma dct_symbol_inv : forall one n r v r', dct_of one n r = (Ok v, r') ->
  exists c s, dct_code one (n =? 0) c s /\ rbits r = c ++ rbits r' /\ v = symbol_result s /\ r' = setb r (rbits r').
Proof.
  intros one n r v r' H. rewrite dct_of_unfold in H. unfold dct_decode in H.
  apply bind_ok_inv in H. destruct H as (d & r1 & H1 & H2).
  apply hdecode_dct_inv in H1. destruct H1 as (c & Hi & Hc & Hr1). destruct d as [run mag| |].
  - apply in_sc_coef in Hi. apply bind_ok_inv in H2. destruct H2 as (b & r2 & H2 & H3).
    apply read1_inv in H2. destruct H2 as [H2 Hr2].
    assert (v = (run, (if b then i32 (mag * -1) else mag), false) /\ r2 = r') as [-> ->] by (unfold ret in H3; split; congruence).
    pose proof (vlc_level_bound _ _ _ _ _ Hi) as [Hb1 Hb2].
    exists (c ++ [b]), (RunLevel run (if b then - mag else mag)). split.
    + replace [b] with [(if b then - mag else mag) <? 0].
      * constructor. now replace (Z.abs (if b then - mag else mag)) with mag by (destruct b; lia).
      * f_equal. destruct b; [apply Z.ltb_lt | apply Z.ltb_ge]; lia.
    + split; [rewrite Hc, H2, <- app_assoc; reflexivity|]. split.
      * cbn. destruct b; [rewrite i32_small by lia; f_equal; f_equal; lia | reflexivity].
      * rewrite Hr2, Hr1. reflexivity.
  - apply in_sc_eob in Hi. destruct Hi as [Hf ->].
    assert (v = (0, 0, true) /\ r1 = r') as [-> ->] by (unfold ret in H2; split; congruence).
    exists (if one then b15_eob else b14_eob), EndOfBlock. split; [now constructor|]. auto.
  - apply in_sc_esc in Hi. subst c. apply bind_ok_inv in H2. destruct H2 as (run & r2 & H2 & H3).
    apply read_n_inv in H2. destruct H2 as (cr & Lr & -> & Hr & Er).
    apply bind_ok_inv in H3. destruct H3 as (b & r3 & H3 & H4). apply read1_inv in H3. destruct H3 as [H3 Er3].
    apply bind_ok_inv in H4. destruct H4 as (val & r4 & H4 & H5).
    apply read_n_inv in H4. destruct H4 as (cl & Ll & -> & Hl & El).
    pose proof (dec_range cr) as Rr. rewrite Lr in Rr. change (2 ^ Z.of_nat 6) with 64 in Rr.
    pose proof (dec_range cl) as Rl. rewrite Ll in Rl. change (2 ^ Z.of_nat 11) with 2048 in Rl.
    remember ((if b then -2048 else 0) + dec cl) as level.
    assert (v = (dec cr, level, false) /\ r4 = r') as [-> ->].
    { unfold ret in H5. rewrite (i32_small (dec cl)) in H5 by lia. rewrite <- Heqlevel in H5.
      rewrite i32_small in H5 by (destruct b; lia). split; congruence. }
    exists (dct_escape_prefix ++ enc 6 (dec cr) ++ enc 12 (level mod 4096)), (RunLevel (dec cr) level).
    split; [constructor; [lia|destruct b; lia]|].
    split; [|split; [reflexivity|rewrite El, Er3, Er, Hr1; reflexivity]].
    rewrite Hc, Hr, H3, Hl. rewrite <- !app_assoc. f_equal.
    replace (enc 6 (dec cr)) with cr by (rewrite <- Lr; symmetry; apply enc_dec). f_equal.
    assert (E : enc 12 (level mod 4096) = b :: cl).
    { replace (level mod 4096) with (dec (b :: cl)).
      - replace 12%nat with (length (b :: cl)) by (cbn; lia). apply enc_dec.
      - rewrite dec_cons, Ll. change (2 ^ Z.of_nat 11) with 2048. subst level. destruct b; cbn [Z.b2z].
        + apply (Z.mod_unique _ _ (-1)); lia.
        + rewrite Z.mod_small; lia. }
    rewrite E. reflexivity.
Qed.

Lemma dct_exact : forall one n, decodes_exactly (dct_of one n)
  (fun c v => exists s, dct_code one (n =? 0) c s /\ v = symbol_result s).
Proof.
  intros one n. split.
  - intros c v r l (s & H & ->). now apply dct_symbol_ok.
  - intros r H. destruct (dct_of one n r) as [x r'] eqn:E.
    assert (Hs : safe (dct_of one n)) by (rewrite dct_of_unfold; apply safe_dct_decode).
    specialize (Hs r). rewrite E in Hs. destruct x as [v|e| |]; cbn in Hs; try contradiction; [|eauto].
    apply dct_symbol_inv in E. destruct E as (c & s & Hc & Hr & -> & _).
    exfalso. apply (H c (symbol_result s) (rbits r')); eauto.
Qed.
