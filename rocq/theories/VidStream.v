(** VidStream: searching for start codes, user data, extensions: for all streams. *)
From Verif Require Import Base BitReader Exec Local Mono PesLocal PsLocal VidModel SpecVid VidProofs.

(** What is left after byte alignment. *)
Definition aligned (l : list bool) : list bool := skipn (length l mod 8)%nat l.
Lemma aligned_mod8 : forall l, (length (aligned l) mod 8 = 0)%nat.
Proof.
  intro l. unfold aligned. rewrite skipn_length.
  pose proof (Nat.div_mod (length l) 8 ltac:(lia)) as D. pose proof (Nat.mod_upper_bound (length l) 8 ltac:(lia)).
  replace (length l - length l mod 8)%nat with ((length l / 8) * 8)%nat by lia. apply Nat.mod_mul. lia.
Qed.
Lemma aligned_id : forall l, (length l mod 8 = 0)%nat -> aligned l = l.
Proof. intros l H. unfold aligned. now rewrite H. Qed.
Lemma vid_align_total : forall r, vid_align r = (Ok tt, setb r (aligned (rbits r))).
Proof.
  intro r. unfold vid_align, is_aligned. destruct (Nat.eqb_spec (length (rbits r) mod 8) 0) as [E|E].
  - rewrite aligned_id by auto. now rewrite setb_rbits.
  - reflexivity.
Qed.
Lemma bytes_of : forall l, (length l mod 8 = 0)%nat -> exists bs, l = bb bs /\ bytes bs.
Proof.
  intros l H. exists (get_bytes (length l / 8) l). split; [|apply get_bytes_bytes].
  pose proof (Nat.div_mod (length l) 8 ltac:(lia)) as D. rewrite H, Nat.add_0_r in D.
  rewrite bb_get_bytes by lia. rewrite <- D. symmetry. apply firstn_all.
Qed.

(** * AlignTo *)
Definition code_at (c : Z) (l : list bool) (j : nat) : Prop := firstn 32 (skipn (8 * j) l) = enc 32 c.
Lemma code_at_step : forall c b t j, code_at c (enc 8 b ++ t) (S j) <-> code_at c t j.
Proof.
  intros. unfold code_at. replace (8 * S j)%nat with (8 + 8 * j)%nat by lia.
  rewrite <- skipn_add. rewrite skipn_app_exact by apply enc_length. tauto.
Qed.
Lemma code_at_0 : forall c l, 0 <= c < 2 ^ 32 -> (32 <= length l)%nat -> (dec (firstn 32 l) =? c) = true <-> code_at c l 0.
Proof.
  intros c l Hc Hl. unfold code_at. rewrite Nat.mul_0_r, skipn_O. rewrite Z.eqb_eq.
  assert (L : length (firstn 32 l) = 32%nat) by (rewrite firstn_length; lia). split; intro H.
  - rewrite <- (enc_dec (firstn 32 l)), L, H. reflexivity.
  - rewrite H. apply dec_enc. exact Hc.
Qed.
Lemma peek_enough : forall n r l, (n <= length l)%nat -> peek_n n (setb r l) = (Ok (dec (firstn n l)), setb r l).
Proof. intros. unfold peek_n. rewrite rbits_setb, (proj2 (Nat.leb_le _ _)) by auto. reflexivity. Qed.
Definition source_error (r : reader) (n : nat) (e : err) : Prop := e = rfin r \/ exists k, (0 < k < n)%nat /\ e = rshort r n k.
Lemma peek_short_err : forall n r l, (length l < n)%nat -> exists e r', peek_n n (setb r l) = (Err e, r') /\ source_error r n e.
Proof.
  intros n r l H. unfold peek_n. rewrite rbits_setb, (proj2 (Nat.leb_gt _ _)) by auto. unfold short. rewrite rbits_setb.
  destruct l as [|b l]; do 2 eexists; (split; [reflexivity|]); [left; reflexivity|]. right. exists (length (b :: l)). split; [cbn in *; lia | reflexivity].
Qed.
Lemma code_at_short : forall c l j, (length l < 32)%nat -> ~ code_at c l j.
Proof.
  intros c l j H E. unfold code_at in E. apply (f_equal (@length bool)) in E. rewrite enc_length, firstn_length, skipn_length in E. lia.
Qed.
Lemma align_loop_total : forall c bs f r, 0 <= c < 2 ^ 32 -> (length bs < f)%nat ->
  (forall j, code_at c (bb bs) j -> (forall i, (i < j)%nat -> ~ code_at c (bb bs) i) ->
     align_to_loop f c (setb r (bb bs)) = (Ok tt, setb r (skipn (8 * j) (bb bs)))) /\
  ((forall j, ~ code_at c (bb bs) j) -> exists e r', align_to_loop f c (setb r (bb bs)) = (Err e, r') /\ source_error r 32 e).
Proof.
  intros c bs; induction bs as [|b bs IH]; intros f r Hc Hf; (destruct f; [lia|]).
  - split.
    + intros j H. exfalso. eapply code_at_short; [|exact H]. cbn. lia.
    + intros _. cbn [align_to_loop]. destruct (peek_short_err 32 r (bb [])) as (e & r' & E & S); [cbn; lia|].
      exists e, r'. split; auto. now erewrite bind_err by exact E.
  - cbn [align_to_loop]. destruct (Nat.le_gt_cases 32 (length (bb (b :: bs)))) as [L|L].
    + pose proof (peek_enough 32 r _ L) as P. pose proof (code_at_0 c _ Hc L) as C0.
      assert (Sk : forall k : unit -> M reader unit, bind (skip_n 8) k (setb r (bb (b :: bs))) = k tt (setb r (bb bs))).
      { intro k. rewrite bb_cons. now erewrite bind_ok; [|apply skip_enc]. }
      destruct (dec (firstn 32 (bb (b :: bs))) =? c) eqn:D.
      * split.
        -- intros j Hj Hmin. destruct j as [|j]; [|exfalso; apply (Hmin 0%nat); [lia | tauto]].
           erewrite bind_ok by exact P. rewrite D. rewrite Nat.mul_0_r, skipn_O. reflexivity.
        -- intro H. exfalso. apply (H 0%nat). tauto.
      * assert (N0 : ~ code_at c (bb (b :: bs)) 0) by (intro X; apply C0 in X; discriminate X).
        destruct (IH f r Hc ltac:(cbn in Hf; lia)) as [IH1 IH2]. split.
        -- intros j Hj Hmin. destruct j as [|j]; [contradiction|].
           erewrite bind_ok by exact P. rewrite D. rewrite Sk.
           assert (S1 : forall i, code_at c (bb (b :: bs)) (S i) <-> code_at c (bb bs) i) by (intro i; rewrite bb_cons; apply code_at_step).
           rewrite (IH1 j).
           ++ f_equal. f_equal. replace (8 * S j)%nat with (8 + 8 * j)%nat by lia. rewrite <- skipn_add. f_equal.
           ++ now apply S1.
           ++ intros i Hi X. apply (Hmin (S i)); [lia | now apply S1].
        -- intro H. erewrite bind_ok by exact P. rewrite D, Sk. apply IH2. intros j X. apply (H (S j)).
           rewrite bb_cons. now apply code_at_step.
    + split.
      * intros j H. exfalso. eapply code_at_short; eauto.
      * intros _. destruct (peek_short_err 32 r (bb (b :: bs)) L) as (e & r' & E & S). exists e, r'. split; auto.
        now erewrite bind_err by exact E.
Qed.
Lemma align_to_total : forall c r, 0 <= c < 2 ^ 32 ->
  (forall j, code_at c (aligned (rbits r)) j -> (forall i, (i < j)%nat -> ~ code_at c (aligned (rbits r)) i) ->
     align_to c r = (Ok tt, setb r (skipn (8 * j) (aligned (rbits r))))) /\
  ((forall j, ~ code_at c (aligned (rbits r)) j) -> exists e r', align_to c r = (Err e, r') /\ source_error r 32 e).
Proof.
  intros c r Hc. unfold align_to.
  assert (E : forall k : unit -> M reader unit, bind vid_align k r = k tt (setb r (aligned (rbits r)))) by
    (intro k; now erewrite bind_ok by apply vid_align_total).
  rewrite E. cbv beta. rewrite rbits_setb.
  destruct (bytes_of _ (aligned_mod8 (rbits r))) as (bs & -> & _). apply align_loop_total; auto. rewrite bb_length. lia.
Qed.
(** There is a first occurrence when there is one. *)
Lemma first_occurrence : forall c l j, code_at c l j -> exists i, code_at c l i /\ forall k, (k < i)%nat -> ~ code_at c l k.
Proof.
  intros c l j. induction j as [j IH] using lt_wf_ind. intro H.
  assert (D : forall k, {code_at c l k} + {~ code_at c l k}) by (intro; unfold code_at; apply list_eq_dec, bool_dec).
  assert (X : (exists k, (k < j)%nat /\ code_at c l k) \/ (forall k, (k < j)%nat -> ~ code_at c l k)).
  { clear IH H. induction j as [|j [(k & Hk & C) | N]].
    - right. lia.
    - left. exists k. split; [lia | auto].
    - destruct (D j) as [C|C]; [left; exists j; split; [lia | auto]|].
      right. intros k Hk. destruct (Nat.eq_dec k j) as [->|]; auto. apply N. lia. }
  destruct X as [(k & Hk & C) | N]; eauto.
Qed.

(** * next_start_code *)
Lemma window3 : forall a b c y, byte a -> byte b -> byte c ->
  dec (firstn 24 (bb (a :: b :: c :: y))) = 65536 * a + 256 * b + c.
Proof.
  intros a b c y A B C. unfold byte in *. rewrite !bb_cons, !app_assoc. rewrite <- app_assoc.
  rewrite <- (app_assoc (enc 8 a)).
  replace (enc 8 a ++ enc 8 b ++ enc 8 c ++ bb y) with ((enc 8 a ++ enc 8 b ++ enc 8 c) ++ bb y) by (now rewrite !app_assoc).
  rewrite firstn_app_exact by (rewrite !app_length, !enc_length; reflexivity).
  rewrite !dec_app, !app_length, !enc_length, !dec_enc by (cbn; lia).
  change (2 ^ Z.of_nat (8 + 8)) with 65536. change (2 ^ Z.of_nat 8) with 256. lia.
Qed.
(** The answer in terms of the bytes left. *)
Inductive nsc_answer : list Z -> res unit * list Z -> Prop :=
| nsc_found : forall y, nsc_answer (0 :: 0 :: 1 :: y) (Ok tt, 0 :: 0 :: 1 :: y)
| nsc_nonzero : forall a b c y, a <> 0 -> nsc_answer (a :: b :: c :: y) (Err ErrUnexpectedNonZeroByte, b :: c :: y)
| nsc_skip : forall b c y x, ~ (b = 0 /\ c = 1) -> nsc_answer (b :: c :: y) x -> nsc_answer (0 :: b :: c :: y) x.
Lemma nsc_short : forall f r l, (length l < 24)%nat -> exists e r', nsc_loop (S f) (setb r l) = (Err e, r') /\ source_error r 24 e.
Proof.
  intros f r l H. cbn [nsc_loop]. destruct (peek_short_err 24 r l H) as (e & r' & E & S). exists e, r'. split; auto.
  now erewrite bind_err by exact E.
Qed.
Lemma nsc_loop_total : forall bs f r, bytes bs -> (length bs < f)%nat ->
  (exists o y, nsc_answer bs (o, y) /\ nsc_loop f (setb r (bb bs)) = (o, setb r (bb y))) \/
  ((forall x, ~ nsc_answer bs x) /\ exists e r', nsc_loop f (setb r (bb bs)) = (Err e, r') /\ source_error r 24 e).
Proof.
  induction bs as [|a bs IH]; intros f r H Hf; (destruct f; [lia|]).
  - right. split; [intros x X; inversion X|]. cbn [nsc_loop].
    destruct (peek_short_err 24 r (bb [])) as (e & r' & E & S); [cbn; lia|]. exists e, r'. split; auto. now erewrite bind_err by exact E.
  - destruct bs as [|b [|c y]].
    { right; split; [intros x X; inversion X|]. apply nsc_short. rewrite bb_length; cbn [length]; lia. }
    { right; split; [intros x X; inversion X|]. apply nsc_short. rewrite bb_length; cbn [length]; lia. }
    pose proof (Forall_inv H) as A. pose proof (Forall_inv (Forall_inv_tail H)) as B. pose proof (Forall_inv (Forall_inv_tail (Forall_inv_tail H))) as C.
    cbn [nsc_loop].
    assert (P : peek_n 24 (setb r (bb (a :: b :: c :: y))) = (Ok (65536 * a + 256 * b + c), setb r (bb (a :: b :: c :: y)))).
    { rewrite peek_enough by (rewrite bb_length; cbn [length]; lia). now rewrite window3. }
    unfold byte in A, B, C.
    destruct (65536 * a + 256 * b + c =? StartCodePrefix) eqn:D.
    + apply Z.eqb_eq in D. unfold StartCodePrefix in D. assert (a = 0) by lia. assert (b = 0) by lia. assert (c = 1) by lia. subst.
      left. exists (Ok tt), (0 :: 0 :: 1 :: y). split; [constructor|]. erewrite bind_ok by exact P. reflexivity.
    + assert (R : forall k : Z -> M reader unit, bind (read_n 8) k (setb r (bb (a :: b :: c :: y))) = k a (setb r (bb (b :: c :: y)))).
      { intro k. rewrite bb_cons. erewrite bind_ok; [|apply read_enc; cbn; lia]. reflexivity. }
      destruct (Z.eq_dec a 0) as [->|Na].
      * assert (N : ~ (b = 0 /\ c = 1)) by (pose proof D as D'; apply Z.eqb_neq in D'; unfold StartCodePrefix in D'; lia).
        destruct (IH f r (Forall_inv_tail H) ltac:(cbn in *; lia)) as [(o & z & X & E) | (X & E)].
        -- left. exists o, z. split; [now constructor|]. erewrite bind_ok by exact P.
           rewrite D, R. exact E.
        -- right. split.
           ++ intros x Y. inversion Y; subst; [lia | congruence |]. eapply X; eauto.
           ++ erewrite bind_ok by exact P. rewrite D, R. exact E.
      * left. exists (Err ErrUnexpectedNonZeroByte), (b :: c :: y). split; [now constructor|].
        erewrite bind_ok by exact P. rewrite D, R. now rewrite (proj2 (Z.eqb_neq _ _) Na).
Qed.
Lemma next_start_code_total : forall r bs, aligned (rbits r) = bb bs -> bytes bs ->
  (exists o y, nsc_answer bs (o, y) /\ next_start_code r = (o, setb r (bb y))) \/
  ((forall x, ~ nsc_answer bs x) /\ exists e r', next_start_code r = (Err e, r') /\ source_error r 24 e).
Proof.
  intros r bs E B. unfold next_start_code.
  assert (X : bind vid_align (fun _ r0 => nsc_loop (S (length (rbits r0))) r0) r = nsc_loop (S (length (bb bs))) (setb r (bb bs))).
  { erewrite bind_ok by apply vid_align_total. rewrite E. reflexivity. }
  rewrite X. apply nsc_loop_total; auto. rewrite bb_length. lia.
Qed.
(** The answers, as descriptions of the stream. *)
Lemma nsc_answer_ok : forall bs y, nsc_answer bs (Ok tt, y) -> exists k t, y = 0 :: 0 :: 1 :: t /\ bs = repeat 0 k ++ y.
Proof.
  intros bs y H. remember (Ok tt, y) as x eqn:E. revert y E. induction H; intros z E.
  - injection E as <-. exists 0%nat, y. split; reflexivity.
  - discriminate E.
  - destruct (IHnsc_answer z E) as (k & t & -> & Q). exists (S k), t. split; [reflexivity|]. cbn [repeat app]. now rewrite Q.
Qed.
Lemma nsc_answer_err : forall bs e y, nsc_answer bs (Err e, y) ->
  e = ErrUnexpectedNonZeroByte /\ exists k b, b <> 0 /\ bs = repeat 0 k ++ b :: y /\ (b = 1 -> (k < 2)%nat) /\ (2 <= length y)%nat.
Proof.
  intros bs e y H. remember (Err e, y) as x eqn:E. revert e y E. induction H; intros e' z E.
  - discriminate E.
  - injection E as <- <-. split; [reflexivity|]. exists 0%nat, a. repeat split; auto; cbn; lia.
  - destruct (IHnsc_answer e' z E) as (-> & k & b' & N & Q & K & L). split; [reflexivity|].
    exists (S k), b'. split; [auto|]. split; [cbn [repeat app]; now rewrite Q|]. split; [|auto].
    intros ->. destruct k as [|[|k]]; [lia| |specialize (K eq_refl); lia].
    cbn in Q. injection Q as -> -> _. exfalso. apply H. split; reflexivity.
Qed.
Lemma nsc_answer_complete_ok : forall k t, nsc_answer (repeat 0 k ++ 0 :: 0 :: 1 :: t) (Ok tt, 0 :: 0 :: 1 :: t).
Proof.
  induction k; intro t; [constructor|]. cbn [repeat app]. specialize (IHk t).
  destruct k as [|[|k]]; cbn [repeat app] in *; (apply nsc_skip; [intros [? ?]; congruence | exact IHk]).
Qed.
Lemma nsc_answer_complete_err : forall k b y, b <> 0 -> (b = 1 -> (k < 2)%nat) -> (2 <= length y)%nat ->
  nsc_answer (repeat 0 k ++ b :: y) (Err ErrUnexpectedNonZeroByte, y).
Proof.
  induction k; intros b y N K L.
  - destruct y as [|y1 [|y2 y]]; cbn in L; try lia. now constructor.
  - cbn [repeat app]. assert (X := IHk b y N ltac:(lia) L). destruct y as [|y1 y]; [cbn in L; lia|].
    destruct k as [|[|k]]; cbn [repeat app] in *; (apply nsc_skip; [|exact X]); intros [P Q]; try congruence.
    specialize (K Q). lia.
Qed.

(** * User data *)
Lemma user_loop_run : forall d f acc r t, bytes d -> no_prefix d -> (length d < f)%nat ->
  user_loop f acc (setb r (bb d ++ prefix ++ t)) = (Ok (acc ++ d), setb r (prefix ++ t)).
Proof.
  induction d as [|x d IH]; intros f acc r t B N Hf; (destruct f; [lia|]); cbn [user_loop].
  - erewrite bind_ok; [|apply peek_enc; change (2 ^ Z.of_nat 24) with 16777216; lia]. rewrite app_nil_r. reflexivity.
  - pose proof (Forall_inv B) as X. pose proof (Forall_inv_tail B) as D.
    assert (BB : bytes (d ++ [0; 0; 1])) by (apply Forall_app; split; [auto|]; repeat (apply Forall_cons; [unfold byte; lia|]); constructor).
    assert (W : exists b c y, d ++ [0; 0; 1] = b :: c :: y /\ y <> []).
    { destruct d as [|b [|c y]]; cbn [app]; do 3 eexists; (split; [reflexivity|]); try discriminate. destruct y; discriminate. }
    destruct W as (b & c & y & W & Y). rewrite W in BB.
    pose proof (Forall_inv BB) as Bb. pose proof (Forall_inv (Forall_inv_tail BB)) as Bc.
    assert (W' : x :: d ++ [0; 0; 1] = x :: b :: c :: y) by (now rewrite W). clear W. rename W' into W.
    assert (S : bb (x :: d) ++ prefix ++ t = bb (x :: b :: c :: y) ++ t).
    { rewrite <- W. change (x :: d ++ [0; 0; 1]) with ((x :: d) ++ [0; 0; 1]). rewrite bb_app, <- app_assoc. reflexivity. }
    assert (P : peek_n 24 (setb r (bb (x :: d) ++ prefix ++ t)) = (Ok (65536 * x + 256 * b + c), setb r (bb (x :: d) ++ prefix ++ t))).
    { rewrite S. rewrite peek_enough by (rewrite app_length, bb_length; cbn [length]; lia).
      rewrite firstn_app. replace (24 - length (bb (x :: b :: c :: y)))%nat with 0%nat by (rewrite bb_length; cbn [length]; lia).
      rewrite firstn_O, app_nil_r. now rewrite window3. }
    erewrite bind_ok by exact P.
    assert (NE : (65536 * x + 256 * b + c =? StartCodePrefix) = false).
    { apply Z.eqb_neq. unfold StartCodePrefix, byte in *. intro Q. apply Y. apply (N x b c [] y); [exact W | lia | lia | lia]. }
    rewrite NE. rewrite bb_cons, <- app_assoc. unfold byte in X. erewrite bind_ok; [|apply read_enc; cbn; lia].
    rewrite IH; auto.
    + unfold u8. rewrite Z.mod_small by lia. rewrite <- app_assoc. reflexivity.
    + intros a' b' c' x' y' E. apply (N a' b' c' (x :: x') y'). cbn [app]. now rewrite E.
    + cbn in Hf. lia.
Qed.
Lemma user_data_run : forall d r t, bytes d -> no_prefix d -> (length t mod 8 = 0)%nat ->
  user_data (setb r (enc_user d ++ prefix ++ t)) = (Ok d, setb r (prefix ++ t)).
Proof.
  intros d r t B N T. unfold user_data, enc_user. rewrite <- app_assoc.
  erewrite bind_ok; [|apply sc_assert_code; [unfold user_data_code; lia | reflexivity]].
  erewrite bind_ok; [|apply user_loop_run; auto; rewrite rbits_setb, app_length, bb_length; lia].
  erewrite bind_ok; [reflexivity|]. apply (next_start_code_run [] 0 r t); auto. cbn. lia.
Qed.

(** * Quantiser matrix extension *)
Definition quant_update (s : squant) (v : vidseq) : vidseq :=
  set_q (matrix_or (v_q0 v) (m_intra s))
        (matrix_or (v_q1 v) (m_non_intra s))
        (matrix_or (matrix_or (v_q2 v) (m_intra s)) (m_chroma_intra s))
        (matrix_or (matrix_or (v_q3 v) (m_non_intra s)) (m_chroma_non_intra s)) v.
Lemma load_upd_run : forall A m (f : qmatrix -> vidseq -> vidseq) v r t (k : V A), wf_matrix m ->
  (l <- onr read1 ;; (if l : bool then x <- onr read_matrix ;; upd (f x) else ret tt) ;; k) (v, setb r (enc_matrix m ++ t)) =
  k (match m with Some x => f x v | None => v end, setb r t).
Proof.
  intros A m f v r t k H. destruct m as [m|]; unfold enc_matrix.
  - destruct H as [L B]. rewrite <- app_assoc. erewrite bind_onr_ok; [|apply read1_bit]. cbv iota. rewrite bind_assoc.
    erewrite bind_onr_ok; [|apply read_matrix_run; auto]. reflexivity.
  - erewrite bind_onr_ok; [|apply read1_bit]. reflexivity.
Qed.
Lemma quant_run : forall s n k v r l, wf_quant s -> at_code l ->
  quant_matrix_extension (v, setb r (enc_quant s ++ stuffing n k ++ l)) = (Ok tt, (quant_update s v, setb r l)).
Proof.
  intros s n k v r l (H1 & H2 & H3 & H4) Hl. unfold quant_matrix_extension, enc_quant. rewrite <- !app_assoc.
  erewrite bind_ok; [|apply ignore_ok; apply onr_ok; apply id_assert_run; cbv; split; congruence].
  rewrite (load_upd_run unit (m_intra s) (fun m v => set_q m (v_q1 v) m (v_q3 v) v)) by auto.
  rewrite (load_upd_run unit (m_non_intra s) (fun m v => set_q (v_q0 v) m (v_q2 v) m v)) by auto.
  rewrite (load_upd_run unit (m_chroma_intra s) (fun m v => set_q (v_q0 v) (v_q1 v) m (v_q3 v) v)) by auto.
  rewrite (load_upd_run unit (m_chroma_non_intra s) (fun m v => set_q (v_q0 v) (v_q1 v) (v_q2 v) m v)) by auto.
  erewrite onr_ok by (now apply nsc_stuffing). unfold quant_update. destruct v.
  destruct (m_intra s), (m_non_intra s), (m_chroma_intra s), (m_chroma_non_intra s); reflexivity.
Qed.
