(** PropertiesCause: C102 - what a stream must hold for Next to panic. *)
From Coq Require Import Lia.
From Verif Require Import Base BitReader VidModel SpecVid VidProofs VidStream EndProofs2 SpecVlc SpecBlock SpecPicture BlockModel MbModel NextProofs SpecSyntax SyntaxProofs SpecPanic CauseProofs PropertiesPanic PropertiesBlock ExampleStream.

(** If some calls of Next have returned frames and the next one panics, then the stream is pieces that follow the syntax and
    then: an extension that is not supported; or a picture with a slice or macroblock outside of the sample arrays, or with a
    block of more than 64 coefficients; or a slice of a picture other than an I picture without concealment vectors in 4:2:0. *)
Theorem C102_causes : forall n r imgs s s', rlater r = [] ->
  nexts n (new_vidseq, r) = (Ok imgs, s) -> next s = (Panic, s') -> bad_stream None (rbits r).
Proof.
  intros n r imgs [v r1] s' Hr E H. apply (nexts_panics n None new_vidseq r imgs v r1 s'); [exact Hr | reflexivity | exact I | intro C; now elim C | exact E | exact H].
Qed.
(** The calls of C87_refuted and C87_later_refuted meet the hypotheses: in the first call, and in the second. *)
Example C102_hyp : forall rd, exists s, nexts 0 (new_vidseq, setb rd (pn_stream 1 xs_pce (pn_slice 2 i_bits))) = (Ok [], (new_vidseq, setb rd (pn_stream 1 xs_pce (pn_slice 2 i_bits)))) /\
  next (new_vidseq, setb rd (pn_stream 1 xs_pce (pn_slice 2 i_bits))) = (Panic, s).
Proof. intro rd. destruct C87_refuted as (_ & P & _). destruct (P rd) as (s & E). exists s. split; [reflexivity | exact E]. Qed.

(** Said the other way: a loop over Next on a stream that is not like this never panics. *)
Corollary C102_no_panic : forall r, rlater r = [] -> ~ bad_stream None (rbits r) ->
  forall n, fst (nexts n (new_vidseq, r)) <> Panic.
Proof.
  intros r Hr B n H.
  assert (G : forall n (s0 : vidseq * reader), fst (nexts n s0) = Panic -> exists k imgs s s', nexts k s0 = (Ok imgs, s) /\ next s = (Panic, s')).
  { clear. induction n as [|n IH]; intros s0 H; cbn [nexts] in H; [discriminate|]. unfold bind in H. destruct (next s0) as [ [i|e| |] s1] eqn:E; try discriminate.
    - assert (Q : fst (nexts n s1) = Panic) by (destruct (nexts n s1) as [ [?|?| |] ?]; try discriminate; reflexivity).
      destruct (IH s1 Q) as (k & imgs & s & s' & E2 & P). exists (S k), (i :: imgs), s, s'. split; [|exact P]. cbn [nexts]. unfold bind. now rewrite E, E2.
    - exists 0%nat, [], s0, s1. split; [reflexivity | exact E]. }
  destruct (G _ _ H) as (k & imgs & s & s' & E & P). apply B. eapply C102_causes; eauto.
Qed.
(** The headers of C87_headers_hyp: bits in which there is no slice and no such extension are not bad. *)
Definition bad_at (d : list bool) (k : nat) : bool :=
  (dec (firstn 24 (skipn k d)) =? 1) &&
  let b := dec (firstn 8 (skipn (24 + k) d)) in ((1 <=? b) && (b <=? 175)) || ((b =? 181) && existsb (Z.eqb (dec (firstn 4 (skipn (32 + k) d)))) [4; 5; 7; 9]).
Lemma skip_exact : forall n (a t : list bool) w, n = length a -> w = a ++ t -> skipn n w = t.
Proof. intros n a t w -> ->. now rewrite skipn_app, skipn_all, Nat.sub_diag. Qed.
Lemma take_exact : forall n (a t : list bool), n = length a -> firstn n (a ++ t) = a.
Proof. intros n a t ->. rewrite firstn_app, firstn_all, Nat.sub_diag. apply app_nil_r. Qed.
Lemma bad_found : forall o d, bad_stream o d -> existsb (bad_at d) (seq 0 (length d)) = true.
Proof.
  assert (Code : forall d a b t, 0 <= b < 256 -> d = a ++ code b ++ t -> ((1 <=? b) && (b <=? 175)) || ((b =? 181) && existsb (Z.eqb (dec (firstn 4 t))) [4; 5; 7; 9]) = true -> existsb (bad_at d) (seq 0 (length d)) = true).
  { intros d a b t Hb E X. apply existsb_exists. exists (length a). split; [apply in_seq; rewrite E, !app_length, code_length; lia|]. unfold bad_at. rewrite E, (skipn_app (length a)), skipn_all, Nat.sub_diag.
    change (code b) with (enc 24 1 ++ enc 8 b). rewrite <- app_assoc.
    rewrite (skip_exact (24 + length a) (a ++ enc 24 1) (enc 8 b ++ t)), (skip_exact (32 + length a) (a ++ enc 24 1 ++ enc 8 b) t) by (first [rewrite !app_length, !enc_length; lia | rewrite <- !app_assoc; reflexivity]).
    cbn [app skipn]. rewrite (take_exact 24 (enc 24 1)), (take_exact 8 (enc 8 b)), !dec_enc by (first [now rewrite enc_length | cbn; lia]). cbn [andb Z.eqb Pos.eqb]. exact X. }
  assert (Uns : forall d a p t, d = a ++ t -> unsupported p t -> existsb (bad_at d) (seq 0 (length d)) = true).
  { intros d a p t E (id & u & -> & U). assert (Hi : In id [4; 5; 7; 9]) by (destruct p; [cbn in *; tauto | destruct U as (-> & _); cbn; auto]).
    apply (Code d a extension_code (enc 4 id ++ u)); [unfold extension_code; lia | exact E|]. rewrite (take_exact 4 (enc 4 id)), dec_enc by (first [now rewrite enc_length | cbn in *; lia]).
    apply orb_true_iff. right. apply andb_true_iff. split; [reflexivity|]. apply existsb_exists. exists id. split; [exact Hi | apply Z.eqb_refl]. }
  assert (Pic : forall h d a t, d = a ++ t -> bad_coded_picture h t -> existsb (bad_at d) (seq 0 (length d)) = true).
  { intros h d a t E (c2 & p & e & g1 & g2 & c3 & d1 & _ & _ & _ & _ & _ & _ & Q & [U | (ss & row & u & Q2 & R & _)]); rewrite Q in E; repeat rewrite app_assoc in E.
    - eapply Uns; [exact E | exact U].
    - rewrite Q2, app_assoc in E. eapply Code; [|exact E|]; [lia|]. apply orb_true_iff. left. apply andb_true_iff. split; apply Z.leb_le; lia. }
  intros o d (o' & c & d1 & -> & _ & (c0 & h & c1 & d2 & -> & _ & [(_ & [U|P]) | (_ & _ & P)])); rewrite !app_assoc; [eapply Uns | eapply Pic | eapply Pic]; eauto.
Qed.
Example C102_no_panic_hyp : forall rd, ~ bad_stream None (rbits (setb rd (bb pn_headers))).
Proof. intros rd B. apply bad_found in B. revert B. lazy. discriminate. Qed.
Print Assumptions C102_causes.
Print Assumptions C102_no_panic.
