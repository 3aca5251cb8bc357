(** ErrorProofs: what the errors of Next say about the stream. *)
From Coq Require Import Lia.
From Verif Require Import Base BitReader Exec Local TsRobust PesLocal After Huffman VlcTables BlockModel SpecVlc SpecBlock VlcProofs BlockProofs
  VidModel SpecVid VidProofs VidStream VidLocal MbModel SpecMotion MotionProofs SpecPicture EndProofs EndProofs2 ShapeProofs NextProofs SpecSyntax SyntaxProofs SpecError.

(** The bits [C] have just been read when [m] begins in [s]: an error of [m] is the end, or the last bits read and the next ones are
    what it stands for. *)
Definition told {S A} (rd : S -> reader) (C : list bool) (m : M S A) (s : S) : Prop :=
  rlater (rd s) = [] ->
  match m s with
  | (Ok _, s') => exists c, after (rd s) c (rd s')
  | (Err e, s') => exists c, after (rd s) c (rd s') /\
      (ended (rd s) e (rbits (rd s')) \/ exists c1 c2, C ++ c = c1 ++ c2 /\ tells e c2 (rbits (rd s')))
  | _ => True
  end.
Definition hon {S A} (rd : S -> reader) (m : M S A) : Prop := forall s, told rd [] m s.
Notation honr := (hon (fun r : reader => r)).
Notation hons := (hon snd).
Notation toldr := (told (fun r : reader => r)).
Notation tolds := (told snd).

Lemma told_more : forall S A rd C D (m : M S A) s, told rd C m s -> told rd (D ++ C) m s.
Proof.
  intros S A rd C D m s H Hr. specialize (H Hr). destruct (m s) as [ [a|e| |] s']; auto. destruct H as (c & A1 & [H | (c1 & c2 & E & T)]); exists c; (split; [exact A1|]); [now left|].
  right. exists (D ++ c1), c2. split; [rewrite <- !app_assoc, E; reflexivity | exact T].
Qed.
Lemma told_any : forall S A rd C (m : M S A) s, hon rd m -> told rd C m s.
Proof. intros S A rd C m s H. pose proof (told_more _ _ rd [] C m s (H s)) as X. now rewrite app_nil_r in X. Qed.
Lemma ended_after : forall r c r' e l, after r c r' -> ended r' e l -> ended r e l.
Proof. intros r c r' e l A H. rewrite A. exact H. Qed.
Lemma told_bind : forall S A B rd C (m : M S A) (k : A -> M S B) s, told rd C m s ->
  (forall a s' c, m s = (Ok a, s') -> after (rd s) c (rd s') -> rlater (rd s') = [] -> told rd (C ++ c) (k a) s') -> told rd C (bind m k) s.
Proof.
  intros S A B rd C m k s Hm Hk Hr. specialize (Hm Hr). unfold bind. destruct (m s) as [ [a|e| |] s1] eqn:E; auto.
  destruct Hm as (c & A1). assert (R1 : rlater (rd s1) = []) by (rewrite (after_later _ _ _ A1); exact Hr). specialize (Hk a s1 c eq_refl A1 R1 R1).
  destruct (k a s1) as [ [b|e| |] s2]; auto.
  - destruct Hk as (d & A2). exists (c ++ d). eapply after_app; eauto.
  - destruct Hk as (d & A2 & H). exists (c ++ d). split; [eapply after_app; eauto|]. destruct H as [H | (c1 & c2 & Q & T)]; [left; eapply ended_after; eauto|].
    right. exists c1, c2. split; [rewrite app_assoc; exact Q | exact T].
Qed.
Lemma hon_bind : forall S A B rd (m : M S A) (k : A -> M S B), hon rd m -> (forall a, hon rd (k a)) -> hon rd (bind m k).
Proof. intros S A B rd m k Hm Hk s. apply told_bind; [apply Hm|]. intros. apply told_any, Hk. Qed.
Lemma hon_ret : forall S A rd (a : A), hon (S := S) rd (ret a).
Proof. intros S A rd a s _. cbn. exists []. apply after_nil. Qed.
Lemma hon_panic : forall S A rd, hon (S := S) (A := A) rd panic.
Proof. intros S A rd s _. exact Logic.I. Qed.
Lemma hon_nofuel : forall S A rd, hon (S := S) (A := A) rd nofuel.
Proof. intros S A rd s _. exact Logic.I. Qed.
Lemma told_fail : forall S A rd C e s c1 c2, C = c1 ++ c2 -> tells e c2 (rbits (rd s)) -> told (S := S) (A := A) rd C (fail e) s.
Proof. intros S A rd C e s c1 c2 E T _. cbn. exists []. split; [apply after_nil|]. right. exists c1, c2. now rewrite app_nil_r. Qed.
Lemma hon_if : forall S A rd (c : bool) (a b : M S A), hon rd a -> hon rd b -> hon rd (if c then a else b).
Proof. intros S A rd [] a b; auto. Qed.
Lemma hon_ignore : forall S A rd d (m : M S A), hon rd m -> hon rd (ignore_err d m).
Proof.
  intros S A rd d m H s Hr. specialize (H s Hr). unfold ignore_err. destruct (m s) as [ [a|e| |] s']; auto. destruct H as (c & A1 & _). eauto.
Qed.
Lemma told_onr : forall T A C (m : M reader A) (s : T * reader), toldr C m (snd s) -> tolds C (onr m) s.
Proof. intros T A C m [t r] H Hr. specialize (H Hr). unfold onr. cbn [fst snd] in *. destruct (m r) as [ [a|e| |] r']; auto. Qed.
Lemma hon_onr : forall T A (m : M reader A), honr m -> hons (onr (T := T) m).
Proof. intros T A m H s. apply told_onr, H. Qed.
Lemma hon_upd : forall T (f : T -> T), hons (upd (R := reader) f).
Proof. intros T f s _. cbn. exists []. apply after_nil. Qed.
Lemma hon_own : forall T, hons (own (T := T)).
Proof. intros T s _. cbn. exists []. apply after_nil. Qed.
Lemma hon_deref : forall S A rd (o : option A), hon (S := S) rd (deref o).
Proof. intros S A rd [a|]; [apply hon_ret | apply hon_panic]. Qed.
Lemma hon_when : forall S rd c (m : M S unit), hon rd m -> hon rd (when c m).
Proof. intros S rd c m H. unfold when. apply hon_if; [exact H | apply hon_ret]. Qed.
Lemma told_ext : forall S A rd C (m m' : M S A) s, m s = m' s -> told rd C m' s -> told rd C m s.
Proof. intros S A rd C m m' s E H. unfold told. rewrite E. exact H. Qed.
(** The reader itself *)
Lemma short_told : forall A n r, (n <= 32)%nat -> rlater r = [] -> (length (rbits r) < n)%nat -> exists e, short (A := A) n r = (Err e, r) /\ ended r e (rbits r).
Proof.
  intros A n r Hn Hr L. unfold short, ended. destruct (rbits r) as [|b l] eqn:Q.
  - exists (rfin r). split; [|left; auto]. unfold advance. rewrite Hr. destruct r; cbn in *; subst; reflexivity.
  - exists (rshort r n (length (b :: l))). split; [reflexivity|]. right. exists n. cbn [length] in *. split; [lia|]. auto.
Qed.
Lemma hon_read_n : forall n, (n <= 32)%nat -> honr (read_n n).
Proof.
  intros n Hn r Hr. destruct (read_n n r) as [ [a|e| |] r'] eqn:E; auto.
  - apply read_after in E. destruct E as (_ & A). eauto.
  - unfold read_n in E. destruct (Nat.leb_spec n (length (rbits r))); [discriminate|]. destruct (short_told Z n r Hn Hr ltac:(lia)) as (e' & Es & En). rewrite Es in E. injection E as -> ->. exists []. split; [apply after_nil | now left].
Qed.
Lemma hon_peek_n : forall n, (n <= 32)%nat -> honr (peek_n n).
Proof.
  intros n Hn r Hr. destruct (peek_n n r) as [ [a|e| |] r'] eqn:E; auto.
  - apply peek_after in E. destruct E as (-> & _). exists []. apply after_nil.
  - unfold peek_n in E. destruct (Nat.leb_spec n (length (rbits r))); [discriminate|]. destruct (short_told Z n r Hn Hr ltac:(lia)) as (e' & Es & En). rewrite Es in E. injection E as -> ->. exists []. split; [apply after_nil | now left].
Qed.
Lemma hon_read1 : honr read1.
Proof. apply hon_bind; [apply hon_read_n; lia | intro; apply hon_ret]. Qed.
Lemma hon_peek1 : honr peek1.
Proof. apply hon_bind; [apply hon_peek_n; lia | intro; apply hon_ret]. Qed.
Lemma hon_skip_n : forall n, (n <= 32)%nat -> honr (skip_n n).
Proof. intros n Hn. apply hon_bind; [apply hon_read_n; lia | intro; apply hon_ret]. Qed.
Create HintDb hon.
Ltac hon_tac :=
  repeat lazymatch goal with
    | |- hon _ (ret _) => apply hon_ret
    | |- hon _ panic => apply hon_panic
    | |- hon _ nofuel => apply hon_nofuel
    | |- hon _ (read_n _) => first [ apply hon_read_n; solve [auto] | apply hon_read_n; lia ]
    | |- hon _ (peek_n _) => apply hon_peek_n; lia
    | |- hon _ read1 => apply hon_read1
    | |- hon _ peek1 => apply hon_peek1
    | |- hon _ (skip_n _) => apply hon_skip_n; lia
    | |- hon _ own => apply hon_own
    | |- hon _ (upd _) => apply hon_upd
    | |- hon _ (deref _) => apply hon_deref
    | |- hon _ (onr _) => apply hon_onr
    | |- hon _ (when _ _) => apply hon_when
    | |- hon _ (bind _ _) => apply hon_bind
    | |- hon _ (ignore_err None _) => solve [auto with hon]
    | |- hon _ (ignore_err _ _) => apply hon_ignore
    | |- hon _ (if _ then _ else _) => apply hon_if
    | |- hon _ (let '_ := ?x in _) => destruct x
    | |- hon _ (match ?x with _ => _ end) => destruct x
    | |- forall _, _ => intro
    | |- hon _ _ => solve [auto with hon]
    end.
Lemma hon_fun : forall S A rd (f : S -> nat) (m : nat -> M S A), (forall n, hon rd (m n)) -> hon rd (fun s => m (f s) s).
Proof. intros S A rd f m H s. exact (H (f s) s). Qed.
(** Peeking: what follows knows the next bits. *)
Lemma told_peek : forall A n C (k : Z -> M reader A) r, (n <= 32)%nat ->
  (forall v t, 0 <= v < 2 ^ Z.of_nat n -> rbits r = enc n v ++ t -> toldr C (k v) r) -> toldr C (bind (peek_n n) k) r.
Proof.
  intros A n C k r Hn Hk. apply told_bind; [apply told_any, hon_peek_n, Hn|]. intros a s' c E A1 R1. apply peek_after in E. destruct E as (-> & B & t & Q).
  assert (c = []) as ->. { apply after_bits in A1. apply (f_equal (@length bool)) in A1. rewrite app_length in A1. destruct c; [reflexivity | cbn in A1; lia]. }
  rewrite app_nil_r. eapply Hk; eauto.
Qed.
Lemma told_peeks : forall T A n C (k : Z -> M (T * reader) A) t r, (n <= 32)%nat ->
  (forall v l, 0 <= v < 2 ^ Z.of_nat n -> rbits r = enc n v ++ l -> tolds C (k v) (t, r)) -> tolds C (bind (onr (peek_n n)) k) (t, r).
Proof.
  intros T A n C k t r Hn Hk. apply told_bind; [apply told_any, hon_onr, hon_peek_n, Hn|]. intros a s' c E A1 R1. unfold onr in E. cbn [fst snd] in *.
  destruct (peek_n n r) as [o r1] eqn:Ep. injection E as -> <-. cbn [snd] in *. apply peek_after in Ep. destruct Ep as (-> & B & l & Q).
  assert (c = []) as ->. { apply after_bits in A1. apply (f_equal (@length bool)) in A1. rewrite app_length in A1. destruct c; [reflexivity | cbn in A1; lia]. }
  rewrite app_nil_r. eapply Hk; eauto.
Qed.
Lemma enc_code : forall c, 0 <= c < 256 -> enc 32 (256 + c) = code c.
Proof. intros c Hc. symmetry. apply (code_enc c Hc). Qed.
(** Asserting a start code, an extension identifier *)
Lemma told_assert : forall C b r, 0 <= b < 256 -> (other_than [b] (rbits r) -> exists c1 c2, C = c1 ++ c2 /\ tells ErrUnexpectedStartCode c2 (rbits r)) -> toldr C (sc_assert (256 + b)) r.
Proof.
  intros C b r Hb H. unfold sc_assert, sc_check. eapply told_ext; [apply bind_assoc|]. apply (told_peek _ 32); [lia|]. intros v t B Q. eapply told_ext; [apply bind_ret|]. destruct (Z.eqb_spec v (256 + b)) as [E|N].
  - apply told_any, hon_skip_n. lia.
  - destruct H as (c1 & c2 & E & T); [|eapply told_fail; eauto]. exists v, t. split; [exact Q|]. split; [exact B|]. intros x [<-|[]]. exact N.
Qed.
Lemma told_id : forall C i r, (next_bits 4 (fun v => v <> i) (rbits r) -> exists c1 c2, C = c1 ++ c2 /\ tells ErrUnexpectedExtensionID c2 (rbits r)) -> toldr C (id_assert i) r.
Proof.
  intros C i r H. unfold id_assert, id_check. eapply told_ext; [apply bind_assoc|]. apply (told_peek _ 4); [lia|]. intros v t B Q. eapply told_ext; [apply bind_ret|]. destruct (Z.eqb_spec v i) as [E|N].
  - apply told_any, hon_skip_n. lia.
  - destruct H as (c1 & c2 & E & T); [|eapply told_fail; eauto]. exists v, t. auto.
Qed.
Lemma next_enc : forall n p v t, 0 <= v < 2 ^ Z.of_nat n -> next_bits n p (enc n v ++ t) -> p v.
Proof.
  intros n p v t B (w & u & E & Bw & P). apply (f_equal (firstn n)) in E. rewrite !firstn_app_exact in E by apply enc_length. apply (enc_inj n) in E; auto. now subst.
Qed.

(** * Headers *)
Lemma hon_marker : honr marker_bit.
Proof.
  unfold marker_bit. intro s. apply told_bind; [apply hon_read1|]. intros b s' c E A _. destruct b; [apply told_any, hon_ret|].
  apply read1_after in E. assert (c = [false]) as ->. { rewrite A in E. apply after_bits in E. cbn [rbits setb] in E. now apply app_inv_tail in E. }
  apply told_fail with (c1 := []) (c2 := [false]); [reflexivity | constructor].
Qed.
#[export] Hint Resolve hon_marker : hon.
Lemma hon_align : honr vid_align.
Proof.
  intros r Hr. unfold vid_align. destruct (is_aligned r); [exists []; apply after_nil|]. unfold align_m, align. exists (firstn (length (rbits r) mod 8) (rbits r)).
  apply after_intro; [rewrite rbits_setb; symmetry; apply firstn_skipn | now rewrite rbits_setb].
Qed.
Lemma after_same : forall r c d r', after r c r' -> after r d r' -> c = d.
Proof. intros r c d r' A B. apply after_bits in A, B. rewrite A in B. now apply app_inv_tail in B. Qed.
Lemma hon_nsc : honr next_start_code.
Proof.
  unfold next_start_code. apply hon_bind; [apply hon_align|]. intros _. apply (hon_fun _ _ _ (fun r => S (length (rbits r))) nsc_loop).
  induction n; cbn [nsc_loop]; [apply hon_nofuel|]. intro r. apply told_peek; [lia|]. intros v t B Q. destruct (Z.eqb_spec v StartCodePrefix); [apply told_any, hon_ret|].
  apply told_bind; [apply hon_read_n; lia|]. intros b s' c E A _. apply read_after in E. destruct E as (Bb & A2). pose proof (after_same _ _ _ _ A A2) as ->.
  destruct (Z.eqb_spec b 0) as [E0|N]; [apply told_any, IHn|]. cbn [negb]. apply told_fail with (c1 := []) (c2 := enc 8 b); [reflexivity|]. change (2 ^ Z.of_nat 8) with 256 in Bb. constructor; [change (2 ^ 8) with 256; lia|].
  apply after_bits in A2. rewrite <- A2. exists v, t. auto.
Qed.
#[export] Hint Resolve hon_nsc : hon.
Lemma hon_matrix : honr read_matrix.
Proof. Transparent read_matrix. unfold read_matrix. generalize 64%nat. induction n; cbn [read_entries]; hon_tac. Qed.
#[export] Hint Resolve hon_matrix : hon.
Global Opaque read_matrix.

(** The headers after their start codes *)
Lemma told_seq : forall C r, (other_than [sequence_header_code] (rbits r) -> exists c1 c2, C = c1 ++ c2 /\ tells ErrUnexpectedStartCode c2 (rbits r)) -> toldr C sequence_header_fields r.
Proof.
  intros C r H. unfold sequence_header_fields. apply told_bind; [apply (told_assert C sequence_header_code); [unfold sequence_header_code; lia | exact H]|]. intros. apply told_any. hon_tac.
Qed.
Lemma told_sext : forall C r, (other_than [extension_code] (rbits r) -> exists c1 c2, C = c1 ++ c2 /\ tells ErrUnexpectedStartCode c2 (rbits r)) ->
  (forall t, rbits r = code extension_code ++ t -> next_bits 4 (fun v => v <> 1) t -> exists c1 c2, C ++ code extension_code = c1 ++ c2 /\ tells ErrUnexpectedExtensionID c2 t) ->
  toldr C sequence_extension_fields r.
Proof.
  intros C r H H2. unfold sequence_extension_fields. apply told_bind; [apply (told_assert C extension_code); [unfold extension_code; lia | exact H]|]. intros u s' c E A _.
  apply (assert_after extension_code) in E; [|unfold extension_code; lia]. pose proof (after_same _ _ _ _ A E) as ->. apply told_bind; [|intros; apply told_any; hon_tac].
  apply told_id. apply H2. apply (after_bits _ _ _ E).
Qed.
Lemma told_pic : forall C r, (other_than [picture_code] (rbits r) -> exists c1 c2, C = c1 ++ c2 /\ tells ErrUnexpectedStartCode c2 (rbits r)) -> toldr C picture_header_fields r.
Proof.
  intros C r H. unfold picture_header_fields. apply told_bind; [apply (told_assert C picture_code); [unfold picture_code; lia | exact H]|]. intros. apply told_any. hon_tac.
  apply (hon_fun _ _ _ (fun r => S (length (rbits r))) (fun n => extra_loop n [])). intro n. generalize (@nil Z). induction n; intro; cbn [extra_loop]; hon_tac.
Qed.
Lemma told_pce : forall C r, (other_than [extension_code] (rbits r) -> exists c1 c2, C = c1 ++ c2 /\ tells ErrUnexpectedStartCode c2 (rbits r)) ->
  (forall t, rbits r = code extension_code ++ t -> next_bits 4 (fun v => v <> 8) t -> exists c1 c2, C ++ code extension_code = c1 ++ c2 /\ tells ErrUnexpectedExtensionID c2 t) ->
  toldr C picture_coding_extension_fields r.
Proof.
  intros C r H H2. unfold picture_coding_extension_fields. apply told_bind; [apply (told_assert C extension_code); [unfold extension_code; lia | exact H]|]. intros u s' c E A _.
  apply (assert_after extension_code) in E; [|unfold extension_code; lia]. pose proof (after_same _ _ _ _ A E) as ->. apply told_bind; [|intros; apply told_any; hon_tac].
  apply told_id. apply H2. apply (after_bits _ _ _ E).
Qed.
Lemma not_other : forall b l t, 0 <= b < 256 -> l = code b ++ t -> forall bs, In b bs -> ~ other_than bs l.
Proof. intros b l t Hb -> bs Hi H. rewrite <- (enc_code b Hb) in H. apply next_enc in H; [|change (2 ^ Z.of_nat 32) with 4294967296; lia]. now apply (H b). Qed.
Lemma told_gop : forall C r t, rbits r = code group_code ++ t -> toldr C read_gop_header r.
Proof.
  intros C r t Q. unfold read_gop_header. apply told_bind; [apply (told_assert C group_code); [unfold group_code; lia|]|intros; apply told_any; hon_tac].
  intro H. exfalso. revert H. eapply not_other; [|exact Q|now left]. unfold group_code. lia.
Qed.
Lemma told_user : forall C r t, rbits r = code user_data_code ++ t -> toldr C user_data r.
Proof.
  intros C r t Q. unfold user_data. apply told_bind; [apply (told_assert C user_data_code); [unfold user_data_code; lia|]|intros; apply told_any; hon_tac].
  - intro H. exfalso. revert H. eapply not_other; [|exact Q|now left]. unfold user_data_code. lia.
  - apply (hon_fun _ _ _ (fun r => S (length (rbits r))) (fun n => user_loop n [])). intro n. generalize (@nil Z). induction n; intro; cbn [user_loop]; hon_tac.
Qed.
Lemma told_assign : forall A set (m : M reader A) C s, toldr C m (snd s) -> tolds C (assign_header set m) s.
Proof.
  intros A set m C [v r] H Hr. specialize (H Hr). unfold assign_header. cbn [fst snd] in *. destruct (m r) as [ [x|e| |] r1]; auto.
  destruct H as (c & A1). assert (R1 : rlater r1 = []) by (rewrite (after_later _ _ _ A1); exact Hr). pose proof (told_any _ _ _ (C ++ c) _ r1 hon_nsc R1) as N.
  destruct (next_start_code r1) as [ [u|e| |] r2]; auto; cbn [snd].
  - destruct N as (d & A2). exists (c ++ d). eapply after_app; eauto.
  - destruct N as (d & A2 & N). exists (c ++ d). split; [eapply after_app; eauto|]. destruct N as [N | (c1 & c2 & Q & T)]; [left; eapply ended_after; eauto|].
    right. exists c1, c2. split; [rewrite app_assoc; exact Q | exact T].
Qed.

(** * Extensions and user data *)
Definition ids (i : Z) : list Z := if i =? 0 then [2; 5] else [3; 4; 7; 9; 10].
Lemma told_body : forall i C v r, (i = 0 \/ i = 2) ->
  (next_bits 4 (fun w => ~ In w (ids i)) (rbits r) -> exists c1 c2, C = c1 ++ c2 /\ tells ErrUnexpectedExtensionID c2 (rbits r)) -> tolds C (extension_body i) (v, r).
Proof.
  intros i C v r Hi H. unfold extension_body. destruct Hi as [-> | ->]; cbn [Z.eqb].
  - apply told_peeks; [lia|]. intros w t B Q. destruct (Z.eqb_spec w SequenceDisplayExtensionID) as [E|N].
    + apply told_bind; [apply told_onr|intros; apply told_any; hon_tac]. cbn [snd]. unfold sequence_display_extension. apply told_bind; [|intros; apply told_any; hon_tac].
      apply told_id. intros X. exfalso. rewrite Q in X. apply next_enc in X; auto.
    + apply told_onr. cbn [snd]. unfold sequence_scalable_extension. apply told_bind; [|intros; apply told_any; hon_tac].
      apply told_id. intros X. apply H. rewrite Q in X. apply next_enc in X; [|exact B]. exists w, t. split; [exact Q|]. split; [exact B|]. unfold ids, SequenceDisplayExtensionID, SequenceScalableExtensionID in *. cbn. lia.
  - apply told_peeks; [lia|]. intros w t B Q. destruct (Z.eqb_spec w QuantMatrixExtensionID) as [E|N1].
    { apply told_any. unfold quant_matrix_extension. apply hon_bind; [|hon_tac]. intros [v0 r0] Hr. unfold ignore_err, onr. cbn [fst snd].
      assert (X : honr (ignore_err tt (id_assert QuantMatrixExtensionID))).
      { intros q Hq. unfold ignore_err, id_assert, id_check, bind, ret. pose proof (hon_peek_n 4 ltac:(lia) q Hq) as P. destruct (peek_n 4 q) as [ [z|e| |] q1]; auto.
        - destruct P as (c & A). destruct (z =? _).
          + assert (R1 : rlater q1 = []) by (rewrite (after_later _ _ _ A); exact Hq). pose proof (hon_skip_n 4 ltac:(lia) q1 R1) as P. destruct (skip_n 4 q1) as [ [z2|e| |] q2]; auto.
            * destruct P as (d & A2). exists (c ++ d). eapply after_app; eauto.
            * destruct P as (d & A2 & _). exists (c ++ d). eapply after_app; eauto.
          + exists c. exact A.
        - destruct P as (c & A & _). exists c. exact A. }
      specialize (X r0 Hr). unfold ignore_err in X. destruct (id_assert QuantMatrixExtensionID r0) as [ [z|e| |] q1]; auto. }
    destruct (Z.eqb_spec w CopyrightExtensionID) as [E|N2]; [apply told_any, hon_panic|]. destruct (Z.eqb_spec w PictureDisplayExtensionID) as [E|N3]; [apply told_any, hon_panic|].
    destruct (Z.eqb_spec w PictureSpatialScalableExtensionID) as [E|N4]; [apply told_any, hon_panic|].
    apply told_bind; [apply told_onr|intros; apply told_any; hon_tac]. cbn [snd]. unfold picture_temporal_scalable_extension. apply told_bind; [|intros; apply told_any; hon_tac].
    apply told_id. intros X. apply H. rewrite Q in X. apply next_enc in X; [|exact B]. exists w, t. split; [exact Q|]. split; [exact B|]. 
    unfold ids, QuantMatrixExtensionID, CopyrightExtensionID, PictureDisplayExtensionID, PictureSpatialScalableExtensionID, PictureTemporalScalableExtensionID in *. cbn. lia.
Qed.
Lemma xitems_nil : forall i, xitems_syn i [].
Proof. intro. exists [], []. auto. Qed.
Lemma xitems_app : forall i c d, xitems_syn i c -> xitems_syn i d -> xitems_syn i (c ++ d).
Proof.
  intros i c d (xs & cs & F & A & ->) (ys & ds & F' & A' & ->). exists (xs ++ ys), (cs ++ ds). split; [now apply Forall2_app|]. split; [now apply Forall_app|]. now rewrite concat_app.
Qed.
Lemma xitems_one : forall i x c, xitem_syn x c -> allowed i x -> xitems_syn i c.
Proof. intros i x c W A. exists [x], [c]. split; [auto|]. split; [auto|]. cbn. now rewrite app_nil_r. Qed.
Definition refuses (i : Z) (K : list bool) : Prop :=
  forall c l, xitems_syn i c -> next_bits 4 (fun v => ~ In v (ids i)) l -> tells ErrUnexpectedExtensionID (K ++ c ++ code extension_code) l.
Lemma told_data : forall f i D K c0 v r, (i = 0 \/ i = 2) -> refuses i K -> xitems_syn i c0 -> tolds (D ++ K ++ c0) (extension_data f i) (v, r).
Proof.
  induction f as [|f IH]; intros i D K c0 v r Hi HK Hc; cbn [extension_data]; [apply told_any, hon_nofuel|].
  apply told_peeks; [lia|]. intros b t B Q. destruct (Z.eqb_spec b ExtensionStartCode) as [Eb|_]; cbn [negb]; [|apply told_any, hon_ret].
  subst b. change (enc 32 ExtensionStartCode) with (code extension_code) in Q. apply told_bind; [apply told_any; hon_tac|].
  intros u [v1 r1] c E A R1. unfold ignore_err, onr in E. cbn [fst snd] in *. rewrite (skip32_after r extension_code t ltac:(unfold extension_code; lia) Q) in E. injection E as _ <- <-.
  assert (c = code extension_code) as ->. { apply after_bits in A. rewrite Q, rbits_setb in A. now apply app_inv_tail in A. }
  apply told_bind.
  - apply told_body; [exact Hi|]. rewrite rbits_setb. intro X. exists D, (K ++ c0 ++ code extension_code). split; [now rewrite <- !app_assoc|]. now apply HK.
  - intros u2 [v2 r2] c2 E2 A2 R2. cbn [snd] in *. apply body_after in E2; [|exact R1|exact Hi]. destruct E2 as (_ & x & c3 & W & Al & A3 & _). pose proof (after_same _ _ _ _ A2 A3) as ->.
    replace (((D ++ K ++ c0) ++ code extension_code) ++ c3) with (D ++ K ++ (c0 ++ code extension_code ++ c3)) by now rewrite <- !app_assoc.
    apply IH; auto. apply xitems_app; [exact Hc|]. eapply xitems_one; eauto.
Qed.
Lemma told_ext_user : forall f i D K c0 v r, (i = 1 \/ (i = 0 \/ i = 2) /\ refuses i K) -> ready r -> xitems_syn i c0 -> tolds (D ++ K ++ c0) (ext_user_loop f i) (v, r).
Proof.
  induction f as [|f IH]; intros i D K c0 v r Hi Rd Hc; cbn [ext_user_loop]; [apply told_any, hon_nofuel|].
  apply told_peeks; [lia|]. intros b t B Q. destruct (negb (b =? ExtensionStartCode) && negb (b =? UserDataStartCode)) eqn:Eb; [apply told_any, hon_ret|].
  assert (I3 : i = 0 \/ i = 1 \/ i = 2) by intuition. destruct (negb (i =? 1) && (b =? ExtensionStartCode)) eqn:E1; [|destruct (Z.eqb_spec b UserDataStartCode) as [Eu|Nu]].
  - apply andb_true_iff in E1. destruct E1 as (E1 & _). apply negb_true_iff, Z.eqb_neq in E1. destruct Hi as [Hi | (Hi & HK)]; [congruence|].
    apply told_bind; [exact (told_data (S (length (rbits r))) i D K c0 v r Hi HK Hc)|].
    intros u [v1 r1] c E A R1. cbn [snd] in *. intro Hr. assert (R0 : rlater r = []) by (rewrite <- (after_later _ _ _ A); exact Hr). revert Hr.
    apply data_after in E; [|exact R0|exact Rd|exact Hi]. destruct E as (_ & (xs & cs & W & Al & A2) & Rd1). pose proof (after_same _ _ _ _ A A2) as ->.
    rewrite <- !app_assoc. apply IH; auto. apply xitems_app; [exact Hc | exists xs, cs; auto].
  - subst b. change (enc 32 UserDataStartCode) with (code user_data_code) in Q. apply told_bind; [apply told_bind; [apply told_onr; eapply told_user; exact Q | intros; apply told_any, hon_ret]|].
    intros u [v1 r1] c E A R1. cbn [snd] in *. apply bind_ok_inv in E. destruct E as (d & [v2 r2] & E & E2). inversion E2; subst. apply onr_inv in E. destruct E as (_ & E). cbn [fst snd] in E.
    apply user_after in E; [|exact Rd]. destruct E as (W & A2 & Rd1). pose proof (after_same _ _ _ _ A A2) as ->. rewrite <- !app_assoc. apply IH; auto. apply xitems_app; [exact Hc|]. eapply xitems_one; [exact W | exact Logic.I].
  - apply told_bind; [apply told_any, hon_ret|]. intros u [v1 r1] c E A R1. inversion E; subst. cbn [snd] in A. pose proof (after_same _ _ _ _ A (after_nil _)) as ->. rewrite app_nil_r. apply IH; auto.
Qed.
(** After them comes something else. *)
Lemma ext_user_else : forall f i s u s', ext_user_loop f i s = (Ok u, s') -> other_than [extension_code; user_data_code] (rbits (snd s')).
Proof.
  induction f as [|f IH]; intros i s u s' H; cbn [ext_user_loop] in H; [discriminate|].
  apply bind_ok_inv in H. destruct H as (b & [v1 r1] & E & H). apply onr_inv in E. destruct E as (F & E). cbn [fst snd] in F, E. apply peek_after in E. destruct E as (-> & B & t & Q).
  destruct (negb (b =? ExtensionStartCode) && negb (b =? UserDataStartCode)) eqn:Eb.
  - inversion H; subst. cbn [snd]. exists b, t. split; [exact Q|]. split; [exact B|]. apply andb_true_iff in Eb. destruct Eb as (E1 & E2). apply negb_true_iff, Z.eqb_neq in E1, E2. intros x [<-|[<-|[]]]; assumption.
  - apply bind_ok_inv in H. destruct H as (u2 & s2 & _ & H). eapply IH; exact H.
Qed.

(** * Variable length codes *)
Lemma hwalk_told : forall A f (t : codes A) r e r', rlater r = [] -> hwalk f t r = (Err e, r') ->
  exists c, after r c r' /\ (ended r e (rbits r') \/ (e = ErrMissingHuffmanValue /\ forall u, fst (hwalk f t (setb r (c ++ u))) = Err e)).
Proof.
  induction f as [|f IH]; intros t r e r' Hr H; [discriminate|]. cbn [hwalk] in *. destruct (leaf t) as [x|] eqn:El; [discriminate|].
  destruct t as [|h t]; [injection H as <- <-; exists []; split; [apply after_nil | right; auto]|].
  destruct (rbits r) as [|b l] eqn:Q.
  - exists []. assert (X : e = rfin r /\ r' = r).
    { unfold bind, read1, read_n, short, advance in H. unfold bind in H. rewrite Q, Hr in H. cbn [Nat.leb length] in H. injection H as <- <-. split; [reflexivity|]. destruct r; cbn in *; subst; reflexivity. }
    destruct X as (-> & ->). split; [apply after_nil|]. left. left. auto.
  - assert (E : read1 r = (Ok b, setb r l)). { pose proof (read1_cons b r l) as X. rewrite <- Q, setb_rbits in X. exact X. }
    unfold bind in H. rewrite E in H. apply IH in H; [|exact Hr]. destruct H as (c & A0 & H). exists (b :: c). split.
    + change (b :: c) with ([b] ++ c). eapply after_app; [|exact A0]. apply after_intro; [rewrite rbits_setb; exact Q | now rewrite rbits_setb].
    + destruct H as [H | (-> & H)]; [left; exact H | right]. split; [reflexivity|]. intro u. change ((b :: c) ++ u) with (b :: (c ++ u)).
      unfold bind. rewrite (read1_cons b r (c ++ u)). exact (H u).
Qed.
Lemma hon_table : forall A (t : htable A) (m : M reader A) T (K : list bool -> Prop), (forall r, m r = hdecode t r) -> decodes_exactly m T -> (forall d, K d -> exists a, T d a) -> table K -> honr m.
Proof.
  intros A t m T K Em (Ex & _) HK Tb r Hr. rewrite Em. destruct (hdecode t r) as [ [a|e| |] r'] eqn:E; auto.
  - apply hdecode_after in E. destruct E as (c & _ & A1). eauto.
  - apply hwalk_told in E; [|exact Hr]. destruct E as (c & A1 & H). exists c. split; [exact A1|]. destruct H as [H | (-> & H)]; [now left | right]. exists [], c. split; [reflexivity|].
    apply (tell_code K); [exact Tb|]. intros d u w Kd Q. destruct (HK d Kd) as (a & Ta). specialize (Ex d a r w Ta). rewrite <- Q, Em in Ex. unfold hdecode in Ex. specialize (H u). rewrite Ex in H. discriminate.
Qed.
Lemma hon_mba : honr mba_decode.
Proof. eapply hon_table; [reflexivity | apply mba_exact | | apply tb_increment]. auto. Qed.
Lemma hon_motion : honr motion_code_decode.
Proof. eapply hon_table; [reflexivity | apply motion_code_exact | | apply tb_motion]. auto. Qed.
Lemma hon_luma : honr dc_size_luma.
Proof. eapply hon_table; [reflexivity | apply dc_luma_exact | | apply tb_dc_luma]. auto. Qed.
Lemma hon_chroma : honr dc_size_chroma.
Proof. eapply hon_table; [reflexivity | apply dc_chroma_exact | | apply tb_dc_chroma]. auto. Qed.
Lemma fields_all : forall x, exists m, mbt_fields m = x.
Proof. intros [ [ [ [a b] c] d] e]. eexists (mkMBT _ _ _ _ _). reflexivity. Qed.
Lemma hon_mbt : honr mbtype_decode_I /\ honr mbtype_decode_P /\ honr mbtype_decode_B.
Proof.
  assert (X : forall t d, (exists x, mbt_code t d x) -> exists m, mbt_code t d (mbt_fields m)) by (intros t d (x & H); destruct (fields_all x) as (m & <-); eauto).
  split; [|split].
  - eapply hon_table; [reflexivity | apply mbtype_I_exact | intros d H; apply X, H | apply tb_type; cbn; auto].
  - eapply hon_table; [reflexivity | apply mbtype_P_exact | intros d H; apply X, H | apply tb_type; cbn; auto].
  - eapply hon_table; [reflexivity | apply mbtype_B_exact | intros d H; apply X, H | apply tb_type; cbn; auto].
Qed.
Lemma hon_cbp : forall c, hon (S := mstate * reader) snd (ignore_err None (x <- onr (coded_block_pattern c) ;; ret (Some x))).
Proof.
  intros c [t r] Hr. unfold ignore_err, bind, onr, coded_block_pattern, cbp_decode. cbn [fst snd] in *. destruct (hdecode cbp_table r) as [ [a|e| |] r'] eqn:E; destruct (_ || _); auto; cbn [snd ret].
  - apply hdecode_after in E. destruct E as (d & _ & A). eauto.
  - apply hwalk_told in E; [|exact Hr]. destruct E as (d & A & _). eauto.
Qed.

Lemma hon_dct : forall one n, honr (dct_of one n).
Proof.
  intros one n. rewrite dct_of_unfold. unfold dct_decode. apply hon_bind; [|hon_tac].
  intros r Hr. set (t := if n =? 0 then dtable one true else dtable one false). destruct (hdecode t r) as [ [a|e| |] r'] eqn:E; auto.
  - apply hdecode_after in E. destruct E as (c & _ & A1). eauto.
  - apply hwalk_told in E; [|exact Hr]. destruct E as (c & A1 & H). exists c. split; [exact A1|]. destruct H as [H | (-> & H)]; [now left | right]. exists [], c. split; [reflexivity|].
    apply (tell_code (fun d => exists x, dct_code one (n =? 0) d x)); [apply tb_dct|]. intros d u w (x & Kd) Q. destruct (dct_exact one n) as (Ex & _). specialize (Ex d (symbol_result x) r w ltac:(eauto)).
    rewrite <- Q, dct_of_unfold in Ex. unfold dct_decode in Ex. fold t in Ex. unfold bind in Ex at 1. specialize (H u). unfold hdecode in Ex. destruct (hwalk _ _ (setb r (c ++ u))) as [o q]. cbn [fst] in H. subst o. discriminate.
Qed.
Local Opaque hdecode hwalk mba_decode motion_code_decode dc_size_luma dc_size_chroma mbtype_decode_I mbtype_decode_P mbtype_decode_B dct_of.
#[export] Hint Resolve hon_mba hon_motion hon_luma hon_chroma hon_cbp hon_dct : hon.

(** * Blocks, macroblocks *)
(** Computations that neither read nor change the state nor fail *)
Definition quiet {S A} (m : M S A) : Prop := exists o, (forall e, o <> Err e) /\ forall s, m s = (o, s).
Lemma quiet_ret : forall S A (a : A), quiet (S := S) (ret a).
Proof. intros. exists (Ok a). split; [discriminate | reflexivity]. Qed.
Lemma quiet_panic : forall S A, quiet (S := S) (A := A) panic.
Proof. intros. exists Panic. split; [discriminate | reflexivity]. Qed.
Lemma quiet_bind : forall S A B (m : M S A) (k : A -> M S B), quiet m -> (forall a, quiet (k a)) -> quiet (bind m k).
Proof.
  intros S A B m k (o & No & Hm) Hk. destruct o as [a|e| |]; [|now destruct (No e)| |].
  - destruct (Hk a) as (o & N & Ho). exists o. split; [exact N|]. intro s. unfold bind. rewrite Hm. apply Ho.
  - exists Panic. split; [discriminate|]. intro s. unfold bind. now rewrite Hm.
  - exists OutOfFuel. split; [discriminate|]. intro s. unfold bind. now rewrite Hm.
Qed.
Lemma quiet_if : forall S A (c : bool) (a b : M S A), quiet a -> quiet b -> quiet (if c then a else b).
Proof. intros S A [] a b; auto. Qed.
Lemma hon_quiet : forall S A rd (m : M S A), quiet m -> hon rd m.
Proof. intros S A rd m (o & N & H) s _. rewrite H. destruct o as [a|e| |]; auto; [exists []; apply after_nil | now destruct (N e)]. Qed.
Ltac quiet_tac := repeat first [ apply quiet_ret | apply quiet_panic | solve [auto] | apply quiet_bind | apply quiet_if
  | match goal with |- forall _, _ => intro | |- quiet (let '_ := ?x in _) => destruct x | |- quiet (match ?x with _ => _ end) => destruct x end ].
Lemma quiet_mapM : forall S A B (f : A -> M S B) l, (forall a, quiet (f a)) -> quiet (mapM f l).
Proof. intros S A B f l H. induction l; cbn [mapM]; quiet_tac. Qed.
Lemma quiet_get : forall S p i, quiet (S := S) (pl_get p i).
Proof. intros. unfold pl_get. quiet_tac. Qed.
Lemma quiet_pel : forall S f i a b c d e g, quiet (S := S) (mc_pel f i a b c d e g).
Proof. intros. pose proof (quiet_get S) as G. unfold mc_pel, mc_sample. quiet_tac. Qed.
Lemma quiet_mc : forall S m i a b fs bl, quiet (S := S) (motion_compensation m i a b fs bl).
Proof. intros. pose proof (quiet_pel S) as G. unfold motion_compensation. apply quiet_mapM. quiet_tac. Qed.
Lemma quiet_write : forall S p a b l, quiet (S := S) (pl_write p a b l).
Proof. intros. unfold pl_write. quiet_tac. Qed.
Lemma quiet_rows : forall S rows p a b c d, quiet (S := S) (write_rows p a b c d rows).
Proof. intros S rows. pose proof (quiet_write S) as G. induction rows; intros; cbn [write_rows]; quiet_tac. Qed.
Lemma quiet_update : forall S a b c d f l, quiet (S := S) (update_frame_slice a b c d f l).
Proof. intros. pose proof (quiet_rows S) as G. unfold update_frame_slice. quiet_tac. Qed.
Lemma quiet_lines : forall S n v src dst a b c d e g, quiet (S := S) (copy_lines n v src dst a b c d e g).
Proof.
  intros S n. pose proof (quiet_write S) as G. assert (G2 : forall p a b, quiet (S := S) (pl_slice p a b)) by (intros; unfold pl_slice; quiet_tac).
  induction n; intros; cbn [copy_lines]; quiet_tac.
Qed.
Lemma quiet_pcopy : forall S a b c f g, quiet (S := S) (pframe_copy_macroblocks a b c f g).
Proof. intros. pose proof (quiet_lines S) as G. unfold pframe_copy_macroblocks. quiet_tac. Qed.
Lemma quiet_put : forall S m fs a b c d bl f, quiet (S := S) (put_block m fs a b c d bl f).
Proof. intros. pose proof (quiet_mc S) as G. pose proof (quiet_update S) as G2. unfold put_block. quiet_tac. Qed.
Lemma quiet_bblocks : forall S m fs a b is f, quiet (S := S) (bframe_blocks m fs a b is f).
Proof. intros S m fs a b is. pose proof (quiet_put S) as G. induction is; intros; cbn [bframe_blocks]; quiet_tac. Qed.
Lemma quiet_bcopy : forall S n m fs a b f, quiet (S := S) (bframe_copy_macroblocks n m fs a b f).
Proof. intros S n. pose proof (quiet_bblocks S) as G. induction n; intros; cbn [bframe_copy_macroblocks]; quiet_tac. Qed.
Lemma quiet_info : forall S e mb, quiet (S := S) (mv_info e mb).
Proof. intros. unfold mv_info. quiet_tac. Qed.
Lemma quiet_pattern : forall S a b c d, quiet (S := S) (pattern_code a b c d).
Proof. intros. unfold pattern_code. quiet_tac. Qed.
#[export] Hint Resolve hon_quiet quiet_put quiet_pcopy quiet_bcopy quiet_info quiet_pattern : hon.
Lemma hon_bwrite : forall i v, hons (bwrite i v).
Proof. intros i v [b r] _. unfold bwrite. cbn [fst snd]. destruct (_ && _); [exists []; apply after_nil | exact Logic.I]. Qed.
#[export] Hint Resolve hon_bwrite : hon.
Lemma hon_bzeros : forall k n, hons (bzeros k n).
Proof. induction k; intro; cbn [bzeros]; hon_tac. Qed.
#[export] Hint Resolve hon_bzeros : hon.
Lemma hon_coeffs : forall f one n, hons (block_coeffs f (dct_of one) n).
Proof. induction f; intros; cbn [block_coeffs]; hon_tac. Qed.
#[export] Hint Resolve hon_coeffs : hon.
Local Transparent dc_size_luma dc_size_chroma.
Lemma dc_small : forall cc r z r', (if Nat.eqb cc 0 then dc_size_luma else dc_size_chroma) r = (Ok z, r') -> (Z.to_nat z <= 32)%nat.
Proof.
  intros cc r z r' H. assert (X : 0 <= z <= 11); [|lia]. destruct (Nat.eqb cc 0).
  - unfold dc_size_luma, dc_size_chroma in H. apply hdecode_after in H. destruct H as (c & Hc & _). revert Hc. assert (F : Forall (fun e => 0 <= snd e <= 11) (codes_of dc_size_luma_table)) by (cbn; repeat constructor; cbn; lia). rewrite Forall_forall in F. intro Hc. exact (F _ Hc).
  - unfold dc_size_luma, dc_size_chroma in H. apply hdecode_after in H. destruct H as (c & Hc & _). revert Hc. assert (F : Forall (fun e => 0 <= snd e <= 11) (codes_of dc_size_chroma_table)) by (cbn; repeat constructor; cbn; lia). rewrite Forall_forall in F. intro Hc. exact (F _ Hc).
Qed.
Lemma hon_block_dc : forall cc, hons (block_dc cc).
Proof.
  intros cc s. unfold block_dc. apply told_bind; [apply told_any, hon_onr, hon_if; [apply hon_luma | apply hon_chroma]|]. intros z [b r] c E A _. apply onr_inv in E. destruct E as (_ & E). apply dc_small in E.
  apply told_bind; [apply told_any, hon_onr, hon_read_n, E|]. intros d s' c' _ _ _ _. cbn. exists []. apply after_nil.
Qed.
#[export] Hint Resolve hon_block_dc : hon.
Lemma hon_block_read : forall a cc i, hons (block_read a cc i).
Proof. intros. unfold block_read. rewrite dct_choice. hon_tac. Qed.
Lemma hon_mb_block_read : forall a cc i b, hons (mb_block_read a cc i b).
Proof.
  intros a cc i b [m r] Hr. unfold mb_block_read. cbn [fst snd] in *. pose proof (hon_block_read a cc i (mkBS b (ms_dcp m), r) Hr) as X.
  destruct (block_read a cc i (mkBS b (ms_dcp m), r)) as [ [u|e| |] [bs r1] ]; auto.
Qed.
#[export] Hint Resolve hon_mb_block_read : hon.
Lemma hon_mb_blocks : forall v e se mb row addr coded i b, hons (mb_blocks v e se mb row addr i coded b).
Proof. intros v e se mb row addr coded. induction coded; intros; cbn [mb_blocks]; hon_tac. Qed.
Lemma hon_mb_increment : honr mb_increment.
Proof.
  apply (hon_fun _ _ _ (fun r => S (length (rbits r))) (fun n => e <- mba_escapes n 0 ;; i <- mba_decode ;; ret (e + i))). intro n. cbv beta. apply hon_bind; [|intro; apply hon_bind; [apply hon_mba | intro; apply hon_ret]].
  generalize 0. induction n; intro; cbn [mba_escapes]; hon_tac.
Qed.
Definition small_f (e : piccodext) : Prop := forall s t, f_code e s t <= 15.
Lemma hon_mvs : forall e mb s, small_f e -> hons (motion_vectors e mb s).
Proof.
  intros e mb s F. assert (X : forall s t, (Z.to_nat (f_code e s t - 1) <= 32)%nat) by (intros; specialize (F s0 t); lia).
  assert (P : forall a b r s t, hons (motion_vector_part e a b r s t)) by (intros; unfold motion_vector_part; apply hon_bind; [apply hon_onr, hon_motion|]; intro;
    apply hon_bind; [apply hon_if; [apply hon_if; [apply hon_panic | apply hon_onr, hon_read_n, X] | apply hon_ret]|]; intro; apply hon_if; [apply hon_panic | apply hon_upd]).
  clear X F. unfold motion_vectors, motion_vector. apply hon_bind; [apply hon_quiet, quiet_info|]. intros [ [a b] c]. hon_tac.
Qed.
Lemma hon_mode : forall p e, honr (macroblock_mode p e).
Proof. intros. destruct hon_mbt as (A & B & C). unfold macroblock_mode. hon_tac. Qed.
#[export] Hint Resolve hon_mb_blocks hon_mb_increment hon_mvs hon_mode : hon.
Lemma hon_copy : forall v p a b c, hons (copy_skipped v p a b c).
Proof. intros. unfold copy_skipped. hon_tac. Qed.
#[export] Hint Resolve hon_copy : hon.
Definition small_v (v : vidseq) : Prop := forall e, v_pce v = Some e -> small_f e.
Lemma hon_macroblock : forall v row addr, small_v v -> hons (macroblock v row addr).
Proof.
  intros v row addr F. unfold macroblock, reset_dc, reset_mv. apply hon_bind; [hon_tac|]. intro incr. apply hon_bind; [hon_tac|]. intro ph.
  destruct (v_pce v) as [e|] eqn:Ee; [|intros s _; exact Logic.I].
  specialize (F e Ee). unfold deref at 1. intro s. eapply told_ext; [apply bind_ret|]. revert s. match goal with |- forall s, told snd [] ?m s => change (hons m) end. hon_tac.
Qed.
Local Opaque macroblock next_start_code.
Lemma hon_slice_loop : forall f v row addr, small_v v -> hons (slice_loop f v row addr).
Proof. intros f v row addr F. pose proof (fun row addr => hon_macroblock v row addr F) as Hm. clear F. revert addr. induction f; intro; cbn [slice_loop]; [apply hon_nofuel|]. apply hon_bind; [apply Hm|]. intro. apply hon_bind; [hon_tac|]. intro. apply hon_if; [apply hon_ret | apply IHf]. Qed.

(** * Slices and pictures *)
Lemma hon_slice_flags : honr slice_flags.
Proof.
  unfold slice_flags. intro r. apply told_peek; [lia|]. intros w t B Q. apply told_bind; [|intros; apply told_any; hon_tac].
  destruct (Z.eqb_spec w 1) as [->|N]; [|apply told_any, hon_ret]. change (enc 1 1) with [true] in Q.
  apply told_bind; [apply told_any; hon_tac|]. intros b r1 c E A _. apply read1_after in E. pose proof (after_same _ _ _ _ A E) as ->.
  assert (b = true) as -> by (apply after_bits in E; rewrite Q in E; destruct b; [reflexivity | discriminate E]).
  apply told_bind; [apply told_any; hon_tac|]. intros b r2 c E2 A2 _. apply read1_after in E2. pose proof (after_same _ _ _ _ A2 E2) as ->.
  apply told_bind; [apply told_any; hon_tac|]. intros v r3 c E3 A3 _. apply read_after in E3. destruct E3 as (B3 & E3). pose proof (after_same _ _ _ _ A3 E3) as ->.
  apply told_bind.
  - destruct (Z.eqb_spec v 0) as [->|N]; [apply told_any, hon_ret|]. cbn [negb]. apply told_fail with (c1 := []) (c2 := [true; b] ++ enc 7 v); [destruct b; reflexivity|]. constructor. change (2 ^ Z.of_nat 7) with 128 in B3. change (2 ^ 7) with 128. lia.
  - intros. apply told_any. apply (hon_fun _ _ _ (fun r => S (length (rbits r))) slice_extra). induction n; cbn [slice_extra]; hon_tac.
Qed.
#[export] Hint Resolve hon_slice_flags : hon.
Lemma told_slice : forall v frame C r, small_v v ->
  (forall w t, 0 <= w < 2 ^ 32 -> rbits r = enc 32 w ++ t -> is_slice w = false -> exists c1 c2, C ++ enc 32 w = c1 ++ c2 /\ tells ErrUnexpectedStartCode c2 t) ->
  toldr C (slice v frame) r.
Proof.
  intros v frame C r F H Hr. unfold slice.
  match goal with |- context [match ?m r with _ => _ end] => set (head := m) end.
  assert (Hh : toldr C head r).
  { unfold head. apply told_bind; [apply told_any; hon_tac|]. intros w r1 c E A _. apply read_after in E. destruct E as (B & E). pose proof (after_same _ _ _ _ A E) as ->.
    destruct (is_slice w) eqn:Es; cbn [negb].
    - apply told_any. hon_tac.
    - destruct (H w (rbits r1) B (after_bits _ _ _ E) Es) as (c1 & c2 & Q & T). eapply told_fail; eauto. }
  specialize (Hh Hr). destruct (head r) as [ [ [ [e row] q]|er| |] r1]; auto.
  destruct Hh as (c & A). assert (R1 : rlater r1 = []) by (rewrite (after_later _ _ _ A); exact Hr).
  pose proof (hon_slice_loop (S (length (rbits r1))) v row (-1) F (mkMS (dc_reset (pc_dc e)) mv_zero q frame, r1) R1) as L. cbn [snd] in *.
  destruct (slice_loop _ v row (-1) _) as [ [u|er| |] [m r2] ]; auto; cbn [snd] in *.
  - destruct L as (d & A2). assert (R2 : rlater r2 = []) by (rewrite (after_later _ _ _ A2); exact R1).
    assert (X : honr (next_start_code ;; ret (ms_frame m))) by hon_tac. specialize (X r2 R2). destruct ((next_start_code ;; ret (ms_frame m)) r2) as [ [i|er| |] r3]; auto.
    + destruct X as (x & A3). exists ((c ++ d) ++ x). eapply after_app; [eapply after_app; eauto | exact A3].
    + destruct X as (x & A3 & X). exists ((c ++ d) ++ x). assert (A12 : after r (c ++ d) r2) by (eapply after_app; eauto). split; [eapply after_app; eauto|]. destruct X as [X | (c1 & c2 & Q & T)]; [left; eapply ended_after; eauto|].
      right. exists (C ++ (c ++ d) ++ c1), c2. split; [rewrite <- !app_assoc; cbn [app] in Q; rewrite Q; reflexivity | exact T].
  - destruct L as (d & A2 & L). exists (c ++ d). split; [eapply after_app; eauto|]. destruct L as [L | (c1 & c2 & Q & T)]; [left; eapply ended_after; eauto|].
    right. exists (C ++ c ++ c1), c2. split; [rewrite <- !app_assoc; cbn [app] in Q; rewrite Q; reflexivity | exact T].
Qed.
Lemma told_slices : forall f v frame C r, small_v v ->
  (forall w t, 0 <= w < 2 ^ 32 -> rbits r = enc 32 w ++ t -> is_slice w = false -> exists c1 c2, C ++ enc 32 w = c1 ++ c2 /\ tells ErrUnexpectedStartCode c2 t) ->
  toldr C (slices f v frame) r.
Proof.
  induction f as [|f IH]; intros v frame C r F H; cbn [slices]; [apply told_any, hon_nofuel|].
  apply told_bind; [now apply told_slice|]. intros img r1 c _ _ _. apply told_peek; [lia|]. intros w t B Q. destruct (is_slice w) eqn:Es; [|apply told_any, hon_ret].
  apply IH; [exact F|]. intros w' t' B' Q' E'. exfalso. rewrite Q in Q'. apply (f_equal (firstn 32)) in Q'. rewrite !firstn_app_exact in Q' by apply enc_length. apply (enc_inj 32) in Q'; auto. subst. congruence.
Qed.
Lemma told_picture : forall v C r, small_v v ->
  (forall w t, 0 <= w < 2 ^ 32 -> rbits r = enc 32 w ++ t -> is_slice w = false -> exists c1 c2, C ++ enc 32 w = c1 ++ c2 /\ tells ErrUnexpectedStartCode c2 t) ->
  toldr C (picture_data v) r.
Proof.
  intros v C r F H. destruct (size v) as [w h] eqn:E.
  apply told_ext with (m' := se <- deref (v_se v) ;; frame <- (fun r => slices (S (length (rbits r))) v (create_frame_buffer w h (se_chroma se)) r) ;; next_start_code ;; ret frame).
  { unfold picture_data. rewrite E. destruct (v_se v); reflexivity. }
  destruct (v_se v) as [se|]; [|intros _; exact Logic.I]. unfold deref. eapply told_ext; [apply bind_ret|].
  apply told_bind; [exact (told_slices (S (length (rbits r))) v _ C r F H)|]. intros. apply told_any. hon_tac.
Qed.

(** * Frames *)
Lemma other_and : forall a b l, other_than a l -> other_than b l -> other_than (a ++ b) l.
Proof.
  intros a b l (v & t & -> & B & P) H. apply next_enc in H; [|exact B]. exists v, t. split; [reflexivity|]. split; [exact B|]. intros x Hx. apply in_app_or in Hx. destruct Hx; auto.
Qed.
Lemma gap_nil_app : forall (D K : list bool), D ++ K ++ [] = D ++ K.
Proof. intros. now rewrite app_nil_r. Qed.
Lemma pce_small : forall s, wf_pce s -> forall a b, f_code (pce_of s) a b <= 15.
Proof. intros s W a b. unfold wf_pce in W. change (2 ^ 4) with 16 in W. unfold f_code, pce_of. destruct (e_comp s); destruct a, b; cbn; lia. Qed.
Lemma told_frame : forall (tr ty : Z) C v r, small_v v ->
  (forall w t, 0 <= w < 2 ^ 32 -> rbits r = enc 32 w ++ t -> is_slice w = false -> exists c1 c2, C ++ enc 32 w = c1 ++ c2 /\ tells ErrUnexpectedStartCode c2 t) ->
  tolds C (upd (fun v => set_fs (fs_set tr (v_fs v)) v) ;; v <- own ;; frame <- onr (picture_data v) ;;
    (if (ty =? IFrame) || (ty =? PFrame) then upd (fun v => set_fs (fs_add frame tr (v_fs v)) v) else ret tt) ;; ret frame) (v, r).
Proof.
  intros tr ty C v r F H. apply told_bind; [apply told_any, hon_upd|]. intros u [v1 r1] c E A _. unfold upd in E. cbn [fst snd] in E. injection E as _ <- <-. cbn [snd] in A. pose proof (after_same _ _ _ _ A (after_nil _)) as ->. rewrite app_nil_r. clear A.
  eapply told_ext; [apply bind_own|]. cbn [fst snd]. apply told_bind; [apply told_onr; cbn [snd]; apply told_picture; [|exact H]|].
  - intros e Q. apply F. exact Q.
  - intros. apply told_any. apply hon_bind; [|intro; apply hon_ret]. apply hon_if; [apply hon_upd | apply hon_ret].
Qed.
Lemma told_coded : forall C v r, (other_than [picture_code] (rbits r) -> exists c1 c2, C = c1 ++ c2 /\ tells ErrUnexpectedStartCode c2 (rbits r)) ->
  tolds C (vs_picture_header ;; vs_picture_coding_extension ;; extension_and_user_data 2 ;; v <- own ;; ph <- deref (v_ph v) ;;
    upd (fun v => set_fs (fs_set (ph_tr ph) (v_fs v)) v) ;; v <- own ;; frame <- onr (picture_data v) ;;
    (if (ph_type ph =? IFrame) || (ph_type ph =? PFrame) then upd (fun v => set_fs (fs_add frame (ph_tr ph) (v_fs v)) v) else ret tt) ;; ret frame) (v, r).
Proof.
  intros C v r H. apply told_bind; [apply told_assign; cbn [snd]; now apply told_pic|]. clear H. intros u [v1 r1] c1 E A R1. cbn [snd] in A, R1.
  apply assign_after in E. destruct E as (x & r0 & g & E & Ev & G & Ag & Rd). apply pic_after in E. destruct E as (s & W & As & _). pose proof (after_app _ _ _ _ _ As Ag) as Ax. pose proof (after_same _ _ _ _ A Ax) as ->. clear A As Ag r0 x Ax Ev.
  apply told_bind.
  { apply told_assign. cbn [snd]. apply told_pce.
    - intro X. exists C, (enc_pic s ++ g). split; [reflexivity|]. now apply tell_coding.
    - intros t Q X. exists C, (enc_pic s ++ g ++ code extension_code). split; [now rewrite <- !app_assoc|]. now apply tell_coding_id. }
  intros u2 [v2 r2] c2 E A R2. cbn [snd] in A, R2. generalize (C ++ enc_pic s ++ g). clear C s g W G. intro C.
  apply assign_after in E. destruct E as (x & r0 & g & E & Ev & G & Ag & Rd2). apply pce_after in E. destruct E as (s & W & As & Ex). pose proof (after_app _ _ _ _ _ As Ag) as Ax. pose proof (after_same _ _ _ _ A Ax) as ->. clear A As Ag r0 Ax.
  assert (F2 : small_v v2).
  { subst v2. intros e Q. cbn in Q. injection Q as <-. subst x. intros a b. pose proof W as W'. pose proof (pce_small s W a b). assumption. }
  clear Ev.
  apply told_bind.
  { rewrite <- (gap_nil_app C). apply (told_ext_user (S (length (rbits r2)))); [|exact Rd2|apply xitems_nil]. right. split; [now right|]. intros c l Hc X. rewrite <- app_assoc. now apply tell_after_coding. }
  intros u3 [v3 r3] c3 E A R3. cbn [snd] in A, R3. pose proof E as El. apply ext_user_else in El. cbn [snd] in El.
  apply extension_and_user_data_after in E; [|exact R2|exact Rd2|auto]. destruct E as (Hh & (c & Hc & Ac) & Rd3). pose proof (after_same _ _ _ _ A Ac) as ->.
  eapply told_ext; [apply bind_own|]. cbn [fst snd]. destruct (v_ph v3) as [ph|]; [|intros _; exact Logic.I]. unfold deref. eapply told_ext; [apply bind_ret|].
  apply told_frame.
  - intros e Q. apply F2. unfold headers in Hh. congruence.
  - intros w t B Q Hs. exists C, (enc_pce s ++ g ++ c ++ enc 32 w). split; [now rewrite <- !app_assoc|]. rewrite Q in El. apply next_enc in El; [|exact B]. apply tell_no_slice; auto.
    + intro Hw. unfold is_slice in Hs. change MinSliceStartCode with 257 in Hs. change MaxSliceStartCode with 431 in Hs. apply andb_false_iff in Hs. destruct Hs as [Hs|Hs]; apply Z.leb_gt in Hs; lia.
    + apply El. now left.
    + apply El. now right; left.
Qed.

Lemma told_more_frames : forall C v r, (other_than [picture_code; group_code] (rbits r) -> exists c1 c2, C = c1 ++ c2 /\ tells ErrUnexpectedStartCode c2 (rbits r)) -> tolds C more_frames (v, r).
Proof.
  intros C v r H. unfold more_frames. apply told_peeks; [lia|]. intros b t B Q.
  destruct (Z.eqb_spec b GroupStartCode) as [->|Nb].
  - change (enc 32 GroupStartCode) with (code group_code) in Q. eapply told_ext; [apply bind_assoc|]. apply told_bind; [apply told_onr; cbn [snd]; eapply told_gop; exact Q|]. intros h [v1 r1] c1 E A R1. cbn [snd] in A, R1.
    apply onr_inv in E. destruct E as (_ & E). cbn [fst snd] in E. apply gop_after in E. destruct E as (s & g & t1 & W & G & As & Q1 & M1 & _). pose proof (after_same _ _ _ _ A As) as ->. assert (Rd1 : ready r1) by (exists t1; auto). clear A As Q1 M1 t1 H.
    eapply told_ext; [apply bind_assoc|]. apply told_bind; [apply told_any, hon_upd|]. intros u [v2 r2] c2 E A _. unfold upd in E. cbn [fst snd] in E. injection E as _ <- <-. cbn [snd] in A. pose proof (after_same _ _ _ _ A (after_nil _)) as ->. rewrite app_nil_r. clear A.
    apply told_bind.
    { rewrite <- (gap_nil_app C). apply (told_ext_user (S (length (rbits r1)))); [now left|exact Rd1|apply xitems_nil]. }
    intros u3 [v3 r3] c3 E A R3. cbn [snd] in A, R3. pose proof E as El. apply ext_user_else in El. cbn [snd] in El.
    apply extension_and_user_data_after in E; [|exact R1|exact Rd1|auto]. destruct E as (Hh & (c & Hc & Ac) & Rd3). pose proof (after_same _ _ _ _ A Ac) as ->.
    apply told_coded. intro X. exists C, (enc_gop s ++ g ++ c). split; [now rewrite <- !app_assoc|]. apply tell_no_picture; auto. exact (other_and _ _ _ X El).
  - eapply told_ext; [apply bind_ret|]. apply told_coded. intro X. apply H. rewrite Q in *. apply next_enc in X; [|exact B]. exists b, t. split; [reflexivity|]. split; [exact B|]. intros x [<-|[<-|[]]]; [apply X; now left | exact Nb].
Qed.
(** The extension of a sequence and what follows *)
Lemma told_extended : forall C v r, (other_than [extension_code] (rbits r) -> exists c1 c2, C = c1 ++ c2 /\ tells ErrUnexpectedStartCode c2 (rbits r)) ->
  (forall t, rbits r = code extension_code ++ t -> next_bits 4 (fun v => v <> 1) t -> exists c1 c2, C ++ code extension_code = c1 ++ c2 /\ tells ErrUnexpectedExtensionID c2 t) ->
  tolds C (vs_sequence_extension ;; continue_frames) (v, r).
Proof.
  intros C v r H H2. apply told_bind; [apply told_assign; now apply told_sext|]. intros u [v1 r1] c1 E A R1. cbn [snd] in A, R1.
  apply assign_after in E. destruct E as (x & r0 & g & E & Ev & G & Ag & Rd). apply sext_after in E. destruct E as (s & W & As & Ex). pose proof (after_app _ _ _ _ _ As Ag) as Ax. pose proof (after_same _ _ _ _ A Ax) as ->. clear A As Ag r0 Ax.
  unfold continue_frames. apply told_bind.
  { rewrite <- (gap_nil_app C). apply (told_ext_user (S (length (rbits r1)))); [|exact Rd|apply xitems_nil]. right. split; [now left|]. intros c l Hc X. rewrite <- app_assoc. now apply tell_after_sequence. }
  intros u3 [v3 r3] c3 E A R3. cbn [snd] in A, R3. pose proof E as El. apply ext_user_else in El. cbn [snd] in El.
  apply extension_and_user_data_after in E; [|exact R1|exact Rd|auto]. destruct E as (Hh & (c & Hc & Ac) & Rd3). pose proof (after_same _ _ _ _ A Ac) as ->.
  apply told_more_frames. intro X. exists C, (enc_sext s ++ g ++ c). split; [now rewrite <- !app_assoc|]. apply tell_no_group; auto. exact (other_and _ _ _ X El).
Qed.
Lemma told_header : forall C v r, (other_than [sequence_header_code] (rbits r) -> exists c1 c2, C = c1 ++ c2 /\ tells ErrUnexpectedStartCode c2 (rbits r)) -> tolds C vs_sequence_header (v, r).
Proof.
  intros C v r H. unfold vs_sequence_header. apply told_bind; [|intros; apply told_any, hon_upd]. apply told_onr. cbn [snd]. unfold read_sequence_header. apply told_bind; [now apply told_seq|]. intros. apply told_any. hon_tac.
Qed.
Lemma hon_step : hons step.
Proof.
  intros [v r]. unfold step. eapply told_ext; [apply bind_own|]. cbn [fst snd]. destruct (v_sh v) as [sh|].
  - apply told_peeks; [lia|]. intros b t B Q. destruct ((b =? PictureStartCode) || (b =? GroupStartCode)) eqn:Eb.
    + apply told_more_frames. rewrite Q. intro X. exfalso. apply next_enc in X; [|exact B]. apply orb_true_iff in Eb. destruct Eb as [Eb|Eb]; apply Z.eqb_eq in Eb; subst b; [apply (X picture_code); [now left | reflexivity] | apply (X group_code); [now right; left | reflexivity] ].
    + apply orb_false_iff in Eb. destruct Eb as (E1 & E2). apply Z.eqb_neq in E1, E2. apply told_peeks; [lia|]. intros b' t' B' Q'.
      assert (b' = b) as ->. { rewrite Q in Q'. apply (f_equal (firstn 32)) in Q'. rewrite !firstn_app_exact in Q' by apply enc_length. apply (enc_inj 32) in Q'; auto. } clear Q'.
      destruct (Z.eqb_spec b SequenceEndStartCode) as [->|E3].
      * change (enc 32 SequenceEndStartCode) with (code sequence_end_code) in Q. apply told_bind; [apply told_any; hon_tac|]. intros u [v1 r1] c E A _. apply onr_inv in E. destruct E as (_ & E). cbn [fst snd] in E, A.
        rewrite (skip32_after r sequence_end_code t ltac:(unfold sequence_end_code; lia) Q) in E. assert (r1 = setb r t) as -> by congruence.
        assert (c = code sequence_end_code) as ->. { apply after_bits in A. rewrite Q, rbits_setb in A. now apply app_inv_tail in A. }
        eapply told_fail; [reflexivity | apply tell_end].
      * apply told_bind.
        { apply told_header. intro X. exists [], []. split; [reflexivity|]. apply tell_between. rewrite Q in *. apply next_enc in X; [|exact B]. exists b, t. split; [reflexivity|]. split; [exact B|].
          intros x [<-|[<-|[<-|[<-|[]]]]]; [exact E1 | exact E2 | apply X; now left | exact E3]. }
        intros u [v1 r1] c E A R1. cbn [snd] in A, R1. apply header_after in E. destruct E as (s & g & W & G & A2 & _). pose proof (after_same _ _ _ _ A A2) as ->. apply told_extended.
        -- intro X. exists [], (enc_seq s ++ g). split; [reflexivity|]. now apply tell_sequence.
        -- intros t0 Q0 X. exists [], (enc_seq s ++ g ++ code extension_code). split; [cbn [app]; now rewrite <- !app_assoc|]. now apply tell_sequence_id.
  - apply told_bind; [apply told_any; apply hon_onr, hon_nsc|]. intros u [v0 r0] c0 E A0 R0. apply onr_inv in E. destruct E as (_ & E). cbn [fst snd] in *. apply gap_after in E. destruct E as (g0 & t0 & G0 & Ag0 & _). pose proof (after_same _ _ _ _ A0 Ag0) as ->.
    apply told_bind.
    { apply told_header. intro X. exists [], g0. split; [reflexivity|]. now apply tell_begin. }
    intros u1 [v1 r1] c E A R1. cbn [snd] in A, R1. apply header_after in E. destruct E as (s & g & W & G & A2 & _). pose proof (after_same _ _ _ _ A A2) as ->. cbn [app]. clear A A2.
    apply told_peeks; [lia|]. intros b t B Q. destruct (Z.eqb_spec b ExtensionStartCode) as [->|Eb]; cbn [negb].
    + change (enc 32 ExtensionStartCode) with (code extension_code) in Q. apply told_extended.
      * intro X. exfalso. revert X. eapply not_other; [|exact Q|now left]. unfold extension_code. lia.
      * intros t1 Q0 X. exists g0, (enc_seq s ++ g ++ code extension_code). split; [now rewrite <- !app_assoc|]. now apply tell_sequence_id.
    + apply told_fail with (c1 := g0) (c2 := enc_seq s ++ g); [reflexivity|]. apply tell_mpeg1; auto. cbn [snd]. exists b, t. split; [exact Q|]. split; [exact B|]. intros x [<-|[]]. exact Eb.
Qed.
Lemma hon_loop : forall n, hons (next_loop n).
Proof.
  induction n as [|n IH]; cbn [next_loop]; [apply hon_nofuel|].
  apply hon_bind; [apply hon_step|]. intro. apply hon_bind; [apply hon_own|]. intro. apply hon_bind; [apply hon_deref|]. intro. apply hon_if; [|exact IH]. apply hon_bind; [apply hon_upd|]. intro. apply hon_ret.
Qed.
Lemma hon_next : hons next.
Proof.
  unfold next. apply hon_bind; [apply hon_own|]. intro v. destruct (fs_tryget _ _).
  - apply hon_bind; [apply hon_upd|]. intro. apply hon_ret.
  - apply (hon_fun _ _ _ (fun s : vidseq * reader => S (length (rbits (snd s)))) next_loop). exact hon_loop.
Qed.
