(** EndProofs2: Next ends on every finite stream, unless extension data follows a group of pictures header. *)
From Verif Require Import Base BitReader Exec Local TsRobust Mono PesModel PesLocal Huffman VlcTables BlockModel SpecVlc VlcProofs BlockProofs PropertiesBlock
  VidModel SpecVid VidProofs VidStream VidExt VidLocal MbModel SpecEnd EndProofs.

(** * Computations that end, on a source without later segments *)
Definition ends {S A} (rd : S -> reader) (m : M S A) : Prop := forall s, rlater (rd s) = [] -> fst (m s) <> OutOfFuel.
Notation endr m := (ends (fun r : reader => r) m).
Notation endp m := (ends snd m).
Lemma ends_nf : forall S A rd (m : M S A), nf m -> ends rd m.
Proof. intros S A rd m H s _. apply H. Qed.
Lemma ends_safe : forall S A rd (m : M S A), safe m -> ends rd m.
Proof. intros. apply ends_nf, nf_safe; auto. Qed.
Lemma ends_still : forall S A rd (m : M S A), still m -> ends rd m.
Proof. intros. apply ends_nf, still_nf; auto. Qed.
Lemma ends_panic : forall S A rd, ends (S := S) (A := A) rd panic.
Proof. intros S A rd s _. discriminate. Qed.
Lemma ends_bind : forall S A B rd (m : M S A) (k : A -> M S B), suf rd m -> ends rd m -> (forall a, ends rd (k a)) -> ends rd (bind m k).
Proof.
  intros S A B rd m k Hs Hm Hk s Hr. unfold bind. specialize (Hm s Hr). destruct (m s) as [ [a|e| |] s1] eqn:E; cbn [fst] in *; try discriminate; auto.
  apply Hk. eapply Hs; eauto.
Qed.
Lemma ends_if : forall S A rd (c : bool) (a b : M S A), ends rd a -> ends rd b -> ends rd (if c then a else b).
Proof. intros S A rd [] a b; auto. Qed.
Lemma ends_when : forall S rd c (m : M S unit), ends rd m -> ends rd (when c m).
Proof. intros. unfold when. apply ends_if; auto. apply ends_safe, safe_ret. Qed.
Lemma ends_onr : forall T A (m : M reader A), endr m -> endp (onr (T := T) m).
Proof. intros T A m H [t r] Hr. unfold onr. cbn [fst snd] in *. specialize (H r Hr). destruct (m r). exact H. Qed.
Lemma ends_ignore : forall S A rd (d : A) (m : M S A), ends rd m -> ends rd (ignore_err d m).
Proof. intros S A rd d m H s Hr. unfold ignore_err. specialize (H s Hr). destruct (m s) as [ [a|e| |] s1]; cbn [fst] in *; auto; discriminate. Qed.
Lemma ends_upd : forall T (f : T -> T), endp (upd (R := reader) f).
Proof. intros T f s _. discriminate. Qed.
Create HintDb ends.
Ltac ends_tac :=
  repeat first
    [ apply ends_panic | apply ends_upd | solve [auto with ends]
    | apply ends_safe; first [ apply safe_ret | apply safe_fail | apply safe_read_n | apply safe_peek_n | apply safe_read1 | apply safe_peek1 | apply safe_skip_n | apply safe_hdecode | apply safe_nsc | apply safe_marker ]
    | apply ends_still; first [ apply still_own | apply still_deref ]
    | apply ends_onr | apply ends_when | (apply ends_bind; [suf_tac| | ]) | apply ends_if | apply ends_ignore
    | match goal with
      | |- forall _, _ => intro
      | |- ends _ (let '_ := ?x in _) => destruct x
      | |- ends _ (match ?x with _ => _ end) => destruct x
      end ].
#[export] Hint Resolve ends_still still_put still_pcopy still_bcopy still_info still_pattern : ends.

(** ** Blocks *)
Lemma nf_bwrite : forall i v, nf (bwrite i v).
Proof. intros i v s. unfold bwrite. destruct (_ && _); discriminate. Qed.
Lemma nf_bzeros : forall k n, nf (bzeros k n).
Proof. induction k; intro; cbn [bzeros]; [apply nf_safe, safe_ret|]. apply nf_bind; [apply nf_bwrite | auto]. Qed.
Lemma safe_dct_of : forall one n, safe (dct_of one n).
Proof. intros. rewrite dct_of_unfold. apply safe_dct_decode. Qed.
Lemma nf_coeffs : forall f one n, 0 <= n -> 64 - n < Z.of_nat f -> 0 < Z.of_nat f -> nf (block_coeffs f (dct_of one) n).
Proof.
  induction f; intros one n Hn Hf H0 s; [lia|]. cbn [block_coeffs]. unfold bind at 1, onr at 1.
  pose proof (safe_dct_of one n (snd s)) as S1. destruct (dct_of one n (snd s)) as [ [v|e| |] r1] eqn:E; cbn [fst] in *; try discriminate; try tauto.
  destruct (dct_symbol_inv _ _ _ _ _ E) as (c & sy & Hc & _ & -> & _). destruct sy as [run level|]; cbn [symbol_result].
  - pose proof (dct_code_run _ _ _ _ _ Hc) as Hrun. unfold bind at 1. pose proof (nf_bzeros (Z.to_nat run) n (fst s, r1)) as N.
    destruct (bzeros (Z.to_nat run) n (fst s, r1)) as [ [u|e| |] s2]; cbn [fst] in *; try discriminate; auto.
    unfold bind at 1, bwrite. destruct ((0 <=? n + run) && (n + run <? Z.of_nat blockSize)) eqn:B; [|discriminate].
    apply andb_true_iff in B. destruct B as [B1 B2]. apply Z.leb_le in B1. apply Z.ltb_lt in B2. change (Z.of_nat blockSize) with 64 in B2. apply IHf; lia.
  - apply nf_bzeros.
Qed.
Lemma nf_block_dc : forall cc, nf (block_dc cc).
Proof. intros cc s. apply block_dc_safe. Qed.
Lemma nf_block_read : forall a cc i, nf (block_read a cc i).
Proof.
  intros. unfold block_read. rewrite dct_choice. destruct i; [|apply nf_coeffs; cbn; lia].
  apply nf_bind; [apply nf_block_dc|]. intro. apply nf_coeffs; cbn; lia.
Qed.
Lemma ends_mb_block_read : forall a cc i b, endp (mb_block_read a cc i b).
Proof.
  intros a cc i b [m r] _. unfold mb_block_read. cbn [fst snd]. pose proof (nf_block_read a cc i (mkBS b (ms_dcp m), r)) as N.
  destruct (block_read a cc i (mkBS b (ms_dcp m), r)) as [o [bs r1] ]. destruct o; cbn [fst] in *; try discriminate. tauto.
Qed.
#[export] Hint Resolve ends_mb_block_read : ends.
Lemma ends_mb_blocks : forall v e se mb row addr coded i b, endp (mb_blocks v e se mb row addr i coded b).
Proof. intros v e se mb row addr coded. induction coded; intros; cbn [mb_blocks]; ends_tac. Qed.
(** ** Macroblocks *)
Lemma nf_escapes : forall f n r, (left r < f)%nat -> fst (mba_escapes f n r) <> OutOfFuel.
Proof.
  induction f; intros n r Hf; [lia|]. cbn [mba_escapes]. unfold bind at 1. pose proof (safe_peek_n 11 r) as S1.
  destruct (peek_n 11 r) as [ [b|e| |] r1] eqn:E; cbn [fst] in *; try discriminate; try tauto.
  destruct (peek_n_ok_inv _ _ _ _ E) as (L & _ & ->). destruct (b =? 8); [|discriminate].
  unfold bind at 1, ignore_err, skip_n, bind. rewrite read_n_enough by auto. cbn [ret]. apply IHf. unfold left in *. cbn [rbits setb]. rewrite skipn_length. lia.
Qed.
Lemma ends_mb_increment : endr mb_increment.
Proof.
  intros r Hr. unfold mb_increment. unfold bind at 1. pose proof (nf_escapes (S (length (rbits r))) 0 r ltac:(unfold left; lia)) as N.
  destruct (mba_escapes (S (length (rbits r))) 0 r) as [ [n|e| |] r1]; cbn [fst] in *; try discriminate; auto.
  unfold bind. pose proof (safe_hdecode _ mba_table r1) as S1. unfold mba_decode. destruct (hdecode mba_table r1) as [ [a|e| |] r2]; cbn [fst] in *; try discriminate; tauto.
Qed.
Lemma hdecode_eats : forall A (t : htable A) r a r', forallb (fun e => negb (Nat.eqb (length (fst e)) 0)) (codes_of t) = true ->
  hdecode t r = (Ok a, r') -> (left r' < left r)%nat.
Proof.
  intros A t r a r' N H. apply hdecode_ok_inv in H as (c & Hi & E & _). rewrite forallb_forall in N. specialize (N _ Hi). cbn [fst] in N.
  unfold left. rewrite E, app_length. destruct (Nat.eqb_spec (length c) 0); [discriminate | lia].
Qed.
Lemma suf_left : forall (r r' : reader), (exists a, rbits r = a ++ rbits r') -> (left r' <= left r)%nat.
Proof. intros r r' (a & E). unfold left. rewrite E, app_length. lia. Qed.
Lemma increment_eats : forall r a r', rlater r = [] -> mb_increment r = (Ok a, r') -> (left r' < left r)%nat.
Proof.
  intros r a r' Hr H. unfold mb_increment in H. apply bind_ok_inv in H as (n & r1 & H1 & H2). apply bind_ok_inv in H2 as (i & r2 & H2 & H3). inversion H3; subst.
  apply hdecode_eats in H2; [|vm_compute; reflexivity].
  assert (S1 : sufr (mba_escapes (S (length (rbits r))) 0)) by (generalize 0, (S (length (rbits r))); intros z k; revert z; induction k; intro; cbn [mba_escapes]; suf_tac).
  destruct (S1 _ _ _ Hr H1) as (_ & Q). apply suf_left in Q. lia.
Qed.
Lemma ends_cbp : forall c, endr (coded_block_pattern c).
Proof.
  intros c r Hr. unfold coded_block_pattern. pose proof (safe_hdecode _ cbp_table r) as S1. unfold cbp_decode. destruct (hdecode cbp_table r) as [o r1]. cbn [fst] in S1.
  destruct (_ || _); [discriminate|]. destruct o; try discriminate; tauto.
Qed.
Lemma ends_mvs : forall e mb s, endp (motion_vectors e mb s).
Proof. intros. unfold motion_vectors, motion_vector, motion_vector_part, motion_code_decode. ends_tac. Qed.
Lemma ends_mode : forall p e, endr (macroblock_mode p e).
Proof. intros. unfold macroblock_mode, mbtype_decode_I, mbtype_decode_P, mbtype_decode_B. ends_tac. Qed.
#[export] Hint Resolve ends_mb_blocks ends_mb_increment ends_cbp ends_mvs ends_mode : ends.
Lemma ends_copy : forall v p a b c, endp (copy_skipped v p a b c).
Proof. intros. unfold copy_skipped. ends_tac. Qed.
#[export] Hint Resolve ends_copy : ends.
Lemma ends_macroblock : forall v row addr, endp (macroblock v row addr).
Proof. intros. unfold macroblock, reset_dc, reset_mv. ends_tac. Qed.
Lemma macroblock_eats : forall v row addr s a s', rlater (snd s) = [] -> macroblock v row addr s = (Ok a, s') ->
  (left (snd s') < left (snd s))%nat /\ rlater (snd s') = [].
Proof.
  intros v row addr [m r] a s' Hr H. unfold macroblock in H. apply bind_ok_inv in H as (i & s1 & H1 & H2).
  apply onr_inv in H1. destruct H1 as (_ & H1). cbn [snd] in *. pose proof (increment_eats _ _ _ Hr H1) as L.
  destruct (suf_mb_increment _ _ _ Hr H1) as (R1 & _).
  match type of H2 with ?m2 s1 = _ => assert (S2 : sufs m2) by (unfold reset_dc, reset_mv; suf_tac) end.
  destruct (S2 _ _ _ R1 H2) as (R2 & Q). apply suf_left in Q. split; [lia | exact R2].
Qed.
(** ** Slices and pictures *)
Lemma ends_slice_loop : forall f v row addr s, rlater (snd s) = [] -> (left (snd s) < f)%nat -> fst (slice_loop f v row addr s) <> OutOfFuel.
Proof.
  induction f; intros v row addr s Hr Hf; [lia|]. cbn [slice_loop]. unfold bind at 1. pose proof (ends_macroblock v row addr s Hr) as N.
  destruct (macroblock v row addr s) as [ [a|e| |] s1] eqn:E; cbn [fst] in *; try discriminate; auto.
  destruct (macroblock_eats _ _ _ _ _ _ Hr E) as (L & R). unfold bind, onr. pose proof (safe_peek_n 23 (snd s1)) as S1.
  destruct (peek_n 23 (snd s1)) as [ [b|e| |] r2] eqn:P; cbn [fst] in *; try discriminate; try tauto.
  destruct (b =? 0); [discriminate|]. destruct (peek_n_ok_inv _ _ _ _ P) as (_ & _ & ->). apply IHf; cbn [snd]; auto. lia.
Qed.
Lemma nf_slice_extra : forall f r, (left r < f)%nat -> fst (slice_extra f r) <> OutOfFuel.
Proof.
  induction f; intros r Hf; [lia|]. cbn [slice_extra]. unfold bind at 1. pose proof (safe_peek_n 1 r) as S1.
  destruct (peek_n 1 r) as [ [b|e| |] r1] eqn:E; cbn [fst] in *; try discriminate; try tauto.
  destruct (peek_n_ok_inv _ _ _ _ E) as (L & _ & ->). destruct (negb (b =? 1)); [discriminate|].
  unfold bind at 1, skip_n, bind at 1. rewrite read_n_enough by auto. cbn [ret]. unfold bind at 1.
  set (r2 := setb r (skipn 1 (rbits r))). pose proof (safe_read_n 8 r2) as S2. destruct (read_n 8 r2) as [ [c|e| |] r3] eqn:E3; cbn [fst] in *; try discriminate; try tauto.
  apply read_n_strict in E3. apply IHf. assert (left r2 <= left r)%nat by (unfold r2, left; cbn [rbits setb]; rewrite skipn_length; lia). lia.
Qed.
Lemma ends_slice_flags : endr slice_flags.
Proof. unfold slice_flags. ends_tac; [apply (suf_fuel _ slice_extra); induction n; cbn [slice_extra]; suf_tac|]. intros r Hr. apply nf_slice_extra. unfold left. lia. Qed.
#[export] Hint Resolve ends_slice_flags : ends.
Lemma slice_facts : forall v frame r, rlater r = [] -> fst (slice v frame r) <> OutOfFuel /\
  forall x r', slice v frame r = (x, r') -> rlater r' = [] /\ (exists a, rbits r = a ++ rbits r') /\ (forall f, x = Ok f -> (left r' < left r)%nat).
Proof.
  intros v frame r Hr. unfold slice.
  match goal with |- context [match ?m r with _ => _ end] => set (head := m) end.
  assert (Hs : sufr head) by (unfold head; suf_tac).
  assert (He : endr head) by (unfold head; ends_tac).
  assert (Hc : forall x r1, head r = (Ok x, r1) -> (left r1 < left r)%nat).
  { intros x r1 Q. unfold head in Q. apply bind_ok_inv in Q as (c & r0 & Q1 & Q2). destruct (suf_read_n 32 _ _ _ Hr Q1) as (R0 & _). apply read_n_strict in Q1.
    match type of Q2 with ?m2 r0 = _ => assert (S2 : sufr m2) by suf_tac end. destruct (S2 _ _ _ R0 Q2) as (_ & Q3). apply suf_left in Q3. lia. }
  specialize (He r Hr). destruct (head r) as [o r1] eqn:E. destruct (Hs _ _ _ Hr E) as (R1 & l1 & E1).
  destruct o as [ [ [e row] q]|er| |]; cbn [fst] in He; try (split; [discriminate || auto | intros x r' Q; inversion Q; subst; split; [auto|]; split; [now exists l1 | discriminate] ]); try tauto.
  cbn [snd]. set (m0 := mkMS (dc_reset (pc_dc e)) mv_zero q frame).
  pose proof (ends_slice_loop (S (length (rbits r1))) v row (-1) (m0, r1) R1 ltac:(cbn [snd]; unfold left; lia)) as N.
  destruct (slice_loop (S (length (rbits r1))) v row (-1) (m0, r1)) as [o [m2 r2] ] eqn:E2.
  destruct (suf_slice_loop _ _ _ _ (m0, r1) _ _ R1 E2) as (R2 & l2 & E3). cbn [snd] in R2, E3.
  destruct o as [u|er| |]; cbn [fst] in N; try tauto.
  - assert (S3 : sufr (next_start_code ;; ret (ms_frame m2))) by suf_tac. assert (N3 : endr (next_start_code ;; ret (ms_frame m2))) by ends_tac.
    split; [now apply N3|]. intros x r' Q. destruct (S3 _ _ _ R2 Q) as (R3 & l3 & E4). split; auto. split; [exists (l1 ++ l2 ++ l3); now rewrite E1, E3, E4, !app_assoc|].
    intros _ _. specialize (Hc _ _ eq_refl). assert (left r' <= left r1)%nat by (apply suf_left; exists (l2 ++ l3); now rewrite E3, E4, app_assoc). lia.
  - split; [discriminate|]. intros x r' Q. inversion Q; subst. split; auto. split; [|discriminate]. exists (l1 ++ l2). now rewrite E1, E3, app_assoc.
  - split; [discriminate|]. intros x r' Q. inversion Q; subst. split; auto. split; [|discriminate]. exists (l1 ++ l2). now rewrite E1, E3, app_assoc.
Qed.
Lemma suf_slice : forall v frame, sufr (slice v frame).
Proof. intros v frame r x r' Hr E. destruct (slice_facts v frame r Hr) as (_ & H). destruct (H _ _ E) as (A & B & _). auto. Qed.
#[export] Hint Resolve suf_slice : suf.
Lemma suf_slices : forall f v frame, sufr (slices f v frame).
Proof. induction f; intros; cbn [slices]; suf_tac. Qed.
#[export] Hint Resolve suf_slices : suf.
Lemma ends_slices : forall f v frame r, rlater r = [] -> (left r < f)%nat -> fst (slices f v frame r) <> OutOfFuel.
Proof.
  induction f; intros v frame r Hr Hf; [lia|]. cbn [slices]. unfold bind at 1. destruct (slice_facts v frame r Hr) as (N & H).
  destruct (slice v frame r) as [ [a|e| |] r1] eqn:E; cbn [fst] in *; try discriminate; auto.
  destruct (H _ _ eq_refl) as (R & _ & L). specialize (L _ eq_refl). unfold bind. pose proof (safe_peek_n 32 r1) as S1.
  destruct (peek_n 32 r1) as [ [b|e| |] r2] eqn:P; cbn [fst] in *; try discriminate; try tauto.
  destruct (is_slice b); [|discriminate]. destruct (peek_n_ok_inv _ _ _ _ P) as (_ & _ & ->). apply IHf; auto. lia.
Qed.
Lemma suf_picture_data : forall v, sufr (picture_data v).
Proof.
  intros v r x r' Hr E. unfold picture_data in E. revert Hr E. generalize (S (length (rbits r))). intro n. destruct (size v) as [w h].
  match goal with |- _ -> ?m r = _ -> _ => assert (S1 : sufr m) by suf_tac end. apply S1.
Qed.
Lemma ends_picture_data : forall v, endr (picture_data v).
Proof.
  intros v r Hr. unfold picture_data. destruct (size v) as [w h]. unfold deref. destruct (v_se v) as [se|]; [|discriminate]. rewrite bind_ret.
  unfold bind at 1. pose proof (ends_slices (S (length (rbits r))) v (create_frame_buffer w h (se_chroma se)) r Hr ltac:(unfold left; lia)) as N.
  destruct (slices (S (length (rbits r))) v (create_frame_buffer w h (se_chroma se)) r) as [ [f|e| |] r1] eqn:E; cbn [fst] in *; try discriminate; auto.
  destruct (suf_slices _ _ _ _ _ _ Hr E) as (R & _). assert (N3 : endr (next_start_code ;; ret f)) by ends_tac. now apply N3.
Qed.
#[export] Hint Resolve suf_picture_data : suf.
#[export] Hint Resolve ends_picture_data : ends.

(** * Next *)
Definition hangs {A} (m : V A) : Prop := forall s, rlater (snd s) = [] -> fst (m s) = OutOfFuel -> extension_after_group (rbits (snd s)).
Lemma hang_app : forall b l, extension_after_group l -> extension_after_group (b ++ l).
Proof.
  intros b l (a & g & al & k & us & t & G & A & B & N & ->). exists (b ++ a), g, al, k, us, t. rewrite <- !app_assoc. auto.
Qed.
Lemma hangs_ends : forall A (m : V A), endp m -> hangs m.
Proof. intros A m H s Hr E. exfalso. exact (H s Hr E). Qed.
Lemma hangs_bind : forall A B (m : V A) (k : A -> V B), sufs m -> hangs m -> (forall a, hangs (k a)) -> hangs (bind m k).
Proof.
  intros A B m k Hs Hm Hk s Hr H. unfold bind in H. specialize (Hm s Hr). destruct (m s) as [ [a|e| |] s1] eqn:E; cbn [fst] in *; try discriminate; auto.
  destruct (Hs _ _ _ Hr E) as (R & l & ->). apply hang_app. now apply (Hk a).
Qed.
Lemma hangs_if : forall A (c : bool) (a b : V A), hangs a -> hangs b -> hangs (if c then a else b).
Proof. intros A [] a b; auto. Qed.

Lemma code_inv : forall c r, 0 <= c < 256 -> (32 <= length (rbits r))%nat -> dec (firstn 32 (rbits r)) = 256 + c -> rbits r = code c ++ skipn 32 (rbits r).
Proof.
  intros c r Hc L E. rewrite <- (firstn_skipn 32 (rbits r)) at 1. f_equal. replace (code c) with (enc 32 (256 + c)).
  - rewrite <- E. replace 32%nat with (length (firstn 32 (rbits r))) at 2 by (rewrite firstn_length; lia). symmetry. apply enc_dec.
  - symmetry. apply (code_enc c Hc).
Qed.
Lemma stuck_inv : forall f v r, (length (rbits r) mod 8 = 0)%nat -> rlater r = [] -> (left r < f)%nat -> fst (ext_user_loop f 1 (v, r)) = OutOfFuel ->
  exists us t, Forall bytes us /\ Forall no_prefix us /\ rbits r = concat (map enc_user us) ++ code extension_code ++ t.
Proof.
  induction f; intros v r M Hr Hf H; [lia|]. cbn [ext_user_loop] in H. unfold bind at 1, onr at 1 in H. cbn [fst snd] in H.
  pose proof (safe_peek_n 32 r) as S1. destruct (peek_n 32 r) as [ [b|e| |] r1] eqn:E; cbn [fst] in *; try discriminate; try tauto.
  destruct (peek_n_ok_inv _ _ _ _ E) as (L & Eb & ->). rewrite Z.eqb_refl in H. cbn [negb andb] in H.
  destruct (Z.eqb_spec b ExtensionStartCode) as [Ex|Ex]; cbn [negb andb] in H.
  - exists [], (skipn 32 (rbits r)). split; [constructor|]. split; [constructor|]. cbn [map concat app]. apply code_inv; [unfold extension_code; lia | exact L | rewrite <- Eb, Ex; reflexivity].
  - destruct (Z.eqb_spec b UserDataStartCode) as [Eu|Eu]; cbn [negb] in H; [|discriminate].
    rewrite bind_assoc in H. unfold bind at 1, onr at 1 in H. cbn [fst snd] in H. pose proof (safe_user r) as N.
    destruct (user_data r) as [ [d|e| |] r3] eqn:E3; cbn [fst] in *; try discriminate; try tauto.
    destruct (user_strict _ _ _ Hr E3) as (L3 & R3). rewrite bind_ret in H. destruct (user_data_inv _ _ _ M E3) as (t & Q1 & Q2 & Bd & Nd).
    assert (M3 : (length (rbits r3) mod 8 = 0)%nat).
    { rewrite Q2, rbits_setb. rewrite Q1, app_length in M. unfold enc_user in M. rewrite app_length, code_length, bb_length in M.
      replace (32 + 8 * length d + length (prefix ++ t))%nat with (length (prefix ++ t) + (4 + length d) * 8)%nat in M by lia. now rewrite Nat.mod_add in M by lia. }
    destruct (IHf v r3 M3 R3 ltac:(lia) H) as (us & t' & B & Nn & Q3). exists (d :: us), t'. split; [now constructor|]. split; [now constructor|].
    cbn [map concat]. rewrite <- app_assoc, <- Q3, Q1, Q2. reflexivity.
Qed.
Lemma nsc_ok_inv : forall r r', next_start_code r = (Ok tt, r') ->
  exists al k t, (length al < 8)%nat /\ rbits r = al ++ bb (repeat 0 k) ++ prefix ++ t /\ r' = setb r (prefix ++ t) /\ (length (prefix ++ t) mod 8 = 0)%nat.
Proof.
  intros r r' H. destruct (bytes_of _ (aligned_mod8 (rbits r))) as (bs & E & B).
  destruct (next_start_code_total r bs E B) as [(o & y & A & Q) | (_ & e & r2 & Q & _)]; rewrite Q in H; [|discriminate].
  inversion H; subst. destruct (nsc_answer_ok _ _ A) as (k & t & -> & Eb).
  exists (firstn (length (rbits r) mod 8) (rbits r)), k, (bb t). split; [rewrite firstn_length; pose proof (Nat.mod_upper_bound (length (rbits r)) 8); lia|].
  split; [|split; [reflexivity|]].
  - change (0 :: 0 :: 1 :: t) with ([0; 0; 1] ++ t) in Eb. rewrite Eb, !bb_app in E. change (bb [0; 0; 1]) with prefix in E. rewrite <- E. unfold aligned. now rewrite firstn_skipn.
  - rewrite app_length, bb_length. change (length prefix) with 24%nat. replace (24 + 8 * length t)%nat with ((3 + length t) * 8)%nat by lia. apply Nat.mod_mul. lia.
Qed.
Lemma sc_assert_inv : forall c r u r', 0 <= c < 256 -> sc_assert (256 + c) r = (Ok u, r') -> rbits r = code c ++ rbits r' /\ r' = setb r (rbits r').
Proof.
  intros c r u r' Hc H. unfold sc_assert, sc_check in H. apply bind_ok_inv in H as (b & r0 & A & B). apply bind_ok_inv in A as (v & r00 & A1 & A2).
  destruct (peek_n_ok_inv _ _ _ _ A1) as (L & -> & ->). unfold ret in A2.
  assert (EE : b = (dec (firstn 32 (rbits r)) =? 256 + c) /\ r0 = r) by (split; congruence). destruct EE as [-> ->].
  destruct (Z.eqb_spec (dec (firstn 32 (rbits r))) (256 + c)) as [E|]; [|inversion B].
  unfold skip_n in B. apply bind_ok_inv in B as (w & r3 & B1 & B2). apply read_n_ok_inv in B1 as (_ & _ & ->). inversion B2; subst. split; [|reflexivity].
  rewrite rbits_setb. now apply code_inv.
Qed.
Lemma gop_inv : forall r g r', read_gop_header r = (Ok g, r') ->
  exists g27 al k, length g27 = 27%nat /\ (length al < 8)%nat /\ rbits r = code 184 ++ g27 ++ al ++ bb (repeat 0 k) ++ rbits r' /\ (length (rbits r') mod 8 = 0)%nat.
Proof.
  intros r g r' H. unfold read_gop_header in H. apply bind_ok_inv in H as (u & r1 & H1 & H). apply (sc_assert_inv 184) in H1; [|lia]. destruct H1 as (Q1 & _).
  apply bind_ok_inv in H as (t & r2 & H2 & H). apply read_n_ok_inv in H2 as (L2 & _ & ->).
  apply bind_ok_inv in H as (c & r3 & H3 & H). apply read1_inv in H3 as (Q3 & _). rewrite rbits_setb in Q3.
  apply bind_ok_inv in H as (b & r4 & H4 & H). apply read1_inv in H4 as (Q4 & _).
  apply bind_ok_inv in H as ([] & r5 & H5 & H). inversion H; subst. apply nsc_ok_inv in H5 as (al & k & tt & La & Q5 & -> & M).
  exists (firstn 25 (rbits r1) ++ [c; b]), al, k. rewrite app_length, firstn_length. cbn [length]. split; [lia|]. split; [exact La|]. rewrite rbits_setb. split; [|exact M].
  rewrite Q1. f_equal. rewrite <- (firstn_skipn 25 (rbits r1)) at 1. rewrite Q3, Q4, Q5. rewrite <- !app_assoc. reflexivity.
Qed.
Lemma hangs_gop : hangs (gop <- onr read_gop_header ;; upd (start_gop gop) ;; extension_and_user_data 1).
Proof.
  intros [v r] Hr H. cbn [snd] in *. unfold bind at 1, onr at 1 in H. cbn [fst snd] in H. pose proof (safe_gop r) as S1.
  destruct (read_gop_header r) as [ [g|e| |] r1] eqn:E; cbn [fst] in *; try discriminate; try tauto.
  destruct (suf_gop _ _ _ Hr E) as (R1 & _). destruct (gop_inv _ _ _ E) as (g27 & al & k & L & La & Q & M).
  unfold bind, upd in H. cbn [fst snd] in H. unfold extension_and_user_data in H. cbn [snd] in H.
  apply stuck_inv in H; [|exact M|exact R1|unfold left; lia]. destruct H as (us & t & B & N & Q2). exists [], g27, al, k, us, t. rewrite <- Q2. auto.
Qed.
Lemma ends_ext : forall i, i <> 1 -> endp (extension_and_user_data i).
Proof. intros i Hi [v r] Hr. now apply ext_user_data_nf. Qed.
#[export] Hint Resolve safe_vs_seq safe_vs_sext safe_vs_pic safe_vs_pce ends_safe : ends.
Lemma hangs_more : hangs more_frames.
Proof.
  unfold more_frames. apply hangs_bind; [suf_tac | apply hangs_ends; ends_tac|]. intro b.
  apply hangs_bind; [suf_tac | apply hangs_if; [apply hangs_gop | apply hangs_ends; ends_tac]|]. intros _.
  apply hangs_ends. pose proof (ends_ext 2 ltac:(lia)) as X. ends_tac.
Qed.
Lemma suf_more : sufs more_frames.
Proof. unfold more_frames. suf_tac. Qed.
#[export] Hint Resolve suf_more : suf.
Lemma hangs_continue : hangs continue_frames.
Proof. unfold continue_frames. apply hangs_bind; [suf_tac | apply hangs_ends, ends_ext; lia | intro; apply hangs_more]. Qed.
Lemma suf_continue : sufs continue_frames.
Proof. unfold continue_frames. suf_tac. Qed.
#[export] Hint Resolve suf_continue : suf.
Lemma hangs_step : hangs step.
Proof.
  unfold step. apply hangs_bind; [suf_tac | apply hangs_ends; ends_tac|]. intro v. destruct (v_sh v).
  - apply hangs_bind; [suf_tac | apply hangs_ends; ends_tac|]. intro b. apply hangs_if; [apply hangs_more|].
    apply hangs_bind; [suf_tac | apply hangs_ends; ends_tac|]. intro b2. apply hangs_if; [apply hangs_ends; ends_tac|].
    do 2 (apply hangs_bind; [suf_tac | apply hangs_ends; ends_tac|]; intro). apply hangs_continue.
  - do 3 (apply hangs_bind; [suf_tac | apply hangs_ends; ends_tac|]; intro). apply hangs_if; [apply hangs_ends; ends_tac|].
    apply hangs_bind; [suf_tac | apply hangs_ends; ends_tac|]. intro. apply hangs_continue.
Qed.
Lemma suf_step : sufs step.
Proof. unfold step. suf_tac. Qed.
(** A step that gives a picture has read at least the picture's start code. *)
Definition eats {A} (m : V A) : Prop := forall s a s', rlater (snd s) = [] -> m s = (Ok a, s') -> (left (snd s') + 32 <= left (snd s))%nat.
Lemma eats_later : forall A B (m : V A) (k : A -> V B), sufs m -> (forall a, eats (k a)) -> eats (bind m k).
Proof.
  intros A B m k Hs Hk s b s' Hr H. apply bind_ok_inv in H as (a & s1 & H1 & H2). destruct (Hs _ _ _ Hr H1) as (R & Q). apply suf_left in Q.
  specialize (Hk a _ _ _ R H2). lia.
Qed.
Lemma eats_first : forall A B (m : V A) (k : A -> V B), sufs m -> eats m -> (forall a, sufs (k a)) -> eats (bind m k).
Proof.
  intros A B m k Hs Hm Hk s b s' Hr H. apply bind_ok_inv in H as (a & s1 & H1 & H2). destruct (Hs _ _ _ Hr H1) as (R & _). 
  destruct (Hk a _ _ _ R H2) as (_ & Q). apply suf_left in Q. specialize (Hm _ _ _ Hr H1). lia.
Qed.
Lemma eats_pic : eats vs_picture_header.
Proof.
  intros [v r] a s' Hr H. unfold vs_picture_header, assign_header in H. cbn [fst snd] in *.
  destruct (picture_header_fields r) as [ [x|e| |] r1] eqn:E; try discriminate. destruct (suf_pic_fields _ _ _ Hr E) as (R1 & _).
  destruct (next_start_code r1) as [o r2] eqn:E2. destruct (suf_nsc _ _ _ R1 E2) as (_ & Q). apply suf_left in Q. inversion H; subst. cbn [snd].
  unfold picture_header_fields in E. apply bind_ok_inv in E as (u & r3 & E3 & E4). apply (sc_assert_inv 0) in E3 as (Q3 & Q4); [|lia].
  assert (R3 : rlater r3 = []) by (rewrite Q4; exact Hr).
  match type of E4 with ?m2 r3 = _ => assert (S4 : sufr m2) by suf_tac end. destruct (S4 _ _ _ R3 E4) as (_ & Q5). apply suf_left in Q5.
  unfold left in *. rewrite Q3, app_length, code_length. lia.
Qed.
Lemma eats_more : eats more_frames.
Proof.
  unfold more_frames. apply eats_later; [suf_tac|]. intro. apply eats_later; [suf_tac|]. intro. apply eats_first; [suf_tac | apply eats_pic | intro; suf_tac].
Qed.
Lemma eats_if : forall A (c : bool) (a b : V A), eats a -> eats b -> eats (if c then a else b).
Proof. intros A [] a b; auto. Qed.
Lemma eats_fail : forall A e, eats (A := A) (fail e).
Proof. intros A e s a s' _ H. discriminate. Qed.
Lemma eats_step : eats step.
Proof.
  assert (C : eats continue_frames) by (unfold continue_frames; apply eats_later; [suf_tac | intro; apply eats_more]).
  unfold step. apply eats_later; [suf_tac|]. intro v. destruct (v_sh v).
  - apply eats_later; [suf_tac|]. intro. apply eats_if; [apply eats_more|]. apply eats_later; [suf_tac|]. intro.
    apply eats_if; [apply eats_later; [suf_tac | intro; apply eats_fail]|]. do 2 (apply eats_later; [suf_tac|]; intro). exact C.
  - do 3 (apply eats_later; [suf_tac|]; intro). apply eats_if; [apply eats_fail|]. apply eats_later; [suf_tac|]. intro. exact C.
Qed.
Lemma hangs_next_loop : forall f s, rlater (snd s) = [] -> (left (snd s) < f)%nat -> fst (next_loop f s) = OutOfFuel -> extension_after_group (rbits (snd s)).
Proof.
  induction f; intros s Hr Hf H; [lia|]. cbn [next_loop] in H. unfold bind at 1 in H. pose proof (hangs_step s Hr) as N.
  destruct (step s) as [ [i|e| |] s1] eqn:E; cbn [fst] in *; try discriminate; auto.
  pose proof (eats_step _ _ _ Hr E) as L. destruct (suf_step _ _ _ Hr E) as (R & a & ->). apply hang_app.
  unfold bind at 1, own in H. unfold bind at 1, deref in H. destruct (v_ph (fst s1)); [|discriminate]. cbn [ret] in H.
  destruct (_ =? _); [discriminate|]. apply IHf; auto. lia.
Qed.
Theorem next_ends : forall v r s', rlater r = [] -> next (v, r) = (OutOfFuel, s') -> extension_after_group (rbits r).
Proof.
  intros v r s' Hr H. unfold next in H. unfold bind at 1, own in H. cbn [fst] in H. destruct (fs_tryget (v_fc v) (v_fs v)); [discriminate|].
  cbn [snd] in H. apply (hangs_next_loop (S (length (rbits r))) (v, r)); [exact Hr | cbn [snd]; unfold left; lia | now rewrite H].
Qed.
