(** PropertiesRefuse: C81 (MPEG-1 streams are refused). *)
From Coq Require Import Lia.
From Verif Require Import Base BitReader Exec Local TsRobust Mono PesModel PesLocal VidModel SpecVid VidProofs VidStream VidExt VidLocal PropertiesVidHeaders MbModel NextProofs SpecEnd EndProofs EndProofs2.

(** ** C81: MPEG-1 video (ISO/IEC 11172-2) is refused.
    MPEG-1 video has no extension start code.  A stream that begins with a sequence header followed by another
    start code: the first Next reads the header and returns the error that says so. *)
Lemma code_at_code : forall b t, (length t mod 8 = 0)%nat -> at_code (code b ++ t).
Proof. intros b t H. exists (enc 8 b ++ t). split; [unfold code; now rewrite <- app_assoc|]. rewrite app_length, enc_length. rewrite Nat.add_comm. change 8%nat with (1 * 8)%nat at 1. now rewrite Nat.mod_add by lia. Qed.
Theorem C81_refused : forall k s k1 b t r, wf_seq s -> 0 <= b < 256 -> b <> extension_code -> (length t mod 8 = 0)%nat ->
  exists v', next (new_vidseq, setb r (bb (repeat 0 k) ++ stuffed (enc_seq s) k1 ++ code b ++ t)) = (Err ErrUnsupported, (v', setb r (code b ++ t))) /\
    v_sh v' = Some (seq_of s).
Proof.
  intros k s k1 b t r W Hb Nb Ht. pose proof (code_at_code b t Ht) as A.
  assert (A0 : at_code (stuffed (enc_seq s) k1 ++ code b ++ t)) by (apply stuffed_at_code; exact A).
  eexists. split.
  - unfold next. unfold own at 1, bind at 1. change (fs_tryget _ _) with (@None image). cbv iota. cbn [snd]. rewrite rbits_setb.
    cbn [next_loop]. unfold bind at 1, step at 1. unfold own at 1, bind at 1. cbn [fst]. change (v_sh new_vidseq) with (@None seqheader). cbv iota.
    assert (R0 : next_start_code (setb r (bb (repeat 0 k) ++ stuffed (enc_seq s) k1 ++ code b ++ t)) = (Ok tt, setb r (stuffed (enc_seq s) k1 ++ code b ++ t))).
    { destruct A0 as (u & E & U). rewrite E. apply (next_start_code_run [] k); [cbn; lia | exact U]. }
    erewrite bind_onr_ok by exact R0. erewrite bind_ok by (apply vs_seq_run; auto).
    erewrite bind_onr_ok by (apply peek_code; lia). assert (Q : (256 + b =? ExtensionStartCode) = false) by (apply Z.eqb_neq; change ExtensionStartCode with 437; change extension_code with 181 in Nb; lia). rewrite Q.
    reflexivity.
  - reflexivity.
Qed.

(** Whatever the stream is: as long as it holds no extension start code, no call of Next ever returns a frame,
    panics or does not return; each returns an error. *)
Definition holds_code (b : Z) (bs : list Z) : Prop := exists p t, bs = p ++ [0; 0; 1; b] ++ t.
Fixpoint calls (n : nat) (s : vidseq * reader) : list (res image) :=
  match n with
  | O => []
  | S k => let '(o, s') := next s in o :: calls k s'
  end.

(** No extension start code at a byte boundary, counted from the end *)
Definition no_ext (l : list bool) : Prop := forall a t, (length t mod 8 = 0)%nat -> l <> a ++ code extension_code ++ t.
Lemma no_ext_app : forall a l, no_ext (a ++ l) -> no_ext l.
Proof. intros a l H b t Ht ->. apply (H (a ++ b) t Ht). now rewrite app_assoc. Qed.
Lemma app_inv_length : forall A (a b c d : list A), length a = length b -> a ++ c = b ++ d -> a = b /\ c = d.
Proof. induction a as [|x a IH]; intros [|y b] c d L E; cbn in *; try discriminate; auto. injection E as -> E. destruct (IH b c d ltac:(lia) E) as (-> & ->). auto. Qed.
Lemma bb_inj : forall a b, bytes a -> bytes b -> bb a = bb b -> a = b.
Proof.
  induction a as [|x a IH]; intros [|y b] Ha Hb E; auto; try (apply (f_equal (@length _)) in E; rewrite !bb_length in E; cbn [length] in E; lia).
  rewrite !bb_cons in E. apply app_inv_length in E; [|now rewrite !enc_length]. destruct E as (E1 & E2). f_equal; [|apply IH; [exact (Forall_inv_tail Ha) | exact (Forall_inv_tail Hb) | exact E2] ].
  pose proof (Forall_inv Ha) as Bx. pose proof (Forall_inv Hb) as By. apply (f_equal dec) in E1. rewrite !dec_enc in E1; auto; cbn; unfold byte in *; lia.
Qed.
Lemma no_ext_bytes : forall bs, bytes bs -> ~ holds_code extension_code bs -> no_ext (bb bs).
Proof.
  intros bs B H a t Ht E. apply H.
  assert (Ha : (length a mod 8 = 0)%nat).
  { apply (f_equal (@length _)) in E. rewrite bb_length, !app_length, code_length in E. apply Nat.mod_divides in Ht as [q Q]; [|lia]. 
    apply Nat.mod_divides; [lia|]. exists (length bs - 4 - q)%nat. lia. }
  destruct (bytes_of _ Ha) as (p & -> & Bp). destruct (bytes_of _ Ht) as (q & -> & Bq).
  exists p, q. apply bb_inj; auto.
  - repeat (apply Forall_app; split); auto. repeat constructor; unfold byte, extension_code; lia.
  - rewrite !bb_app. exact E.
Qed.

Definition empty (fs : framestore) : Prop := rf_frame (fs_0 fs) = None /\ rf_frame (fs_1 fs) = None.
Definition inv (s : vidseq * reader) : Prop := rlater (snd s) = [] /\ no_ext (rbits (snd s)) /\ empty (v_fs (fst s)).
Definition inv8 (s : vidseq * reader) : Prop := inv s /\ (length (rbits (snd s)) mod 8 = 0)%nat.
Definition runs {A} (I Q : vidseq * reader -> Prop) (m : V A) : Prop := forall s, I s -> match m s with (Ok _, s') => Q s' | (Err _, s') => inv s' | _ => False end.
Definition refuses {A} (I : vidseq * reader -> Prop) (m : V A) : Prop := runs I (fun _ => False) m.
Lemma runs_bind : forall A B (I J Q : vidseq * reader -> Prop) (m : V A) (k : A -> V B), runs I J m -> (forall a, runs J Q (k a)) -> runs I Q (bind m k).
Proof. intros A B I J Q m k Hm Hk s H. unfold bind. specialize (Hm s H). destruct (m s) as [ [a|e| |] s1]; auto. now apply (Hk a). Qed.
Lemma runs_if : forall A I Q (c : bool) (a b : V A), runs I Q a -> runs I Q b -> runs I Q (if c then a else b).
Proof. intros A I Q [] a b; auto. Qed.
Lemma runs_less : forall A (I I' Q Q' : vidseq * reader -> Prop) (m : V A), (forall s, I s -> I' s) -> (forall s, Q' s -> Q s) -> runs I' Q' m -> runs I Q m.
Proof. intros A I I' Q Q' m Hi Hq H s Hs. specialize (H s (Hi s Hs)). destruct (m s) as [ [a|e| |] s1]; auto. Qed.
Lemma runs_fail : forall A e, refuses inv (fail (A := A) e).
Proof. intros A e s H. exact H. Qed.
Lemma runs_ret : forall A I (a : A), runs I I (ret a).
Proof. intros A I a s H. exact H. Qed.
Lemma runs_own : forall I, runs I I (own (T := vidseq) (R := reader)).
Proof. intros I s H. exact H. Qed.
Lemma runs_onr : forall A (m : M reader A), sufr m -> safe m -> runs inv inv (onr m).
Proof.
  intros A m Hs Hn [v r] (Hr & Hx & He). cbn [fst snd] in *. unfold onr. cbn [fst snd]. specialize (Hn r). destruct (m r) as [o r1] eqn:E. cbn [fst] in Hn.
  destruct (Hs _ _ _ Hr E) as (R & a & Q). rewrite Q in Hx. apply no_ext_app in Hx. destruct o; try tauto; repeat split; auto; apply He.
Qed.
Lemma runs_upd : forall (I : vidseq * reader -> Prop) (f : vidseq -> vidseq), (forall v r, I (v, r) -> I (f v, r)) -> runs I I (upd f).
Proof. intros I f H [v r] Hs. cbn. auto. Qed.
Lemma runs_assign : forall A (set : option A -> vidseq -> vidseq) (m : M reader A), sufr m -> safe m -> (forall o v, v_fs (set o v) = v_fs v) -> runs inv inv8 (assign_header set m).
Proof.
  intros A set m Hs Hn Hf [v r] (Hr & Hx & He). cbn [fst snd] in *. unfold assign_header. cbn [fst snd]. specialize (Hn r). destruct (m r) as [o r1] eqn:E. cbn [fst] in Hn.
  destruct (Hs _ _ _ Hr E) as (R & a & Q). rewrite Q in Hx. apply no_ext_app in Hx. destruct o as [x|e| |]; try tauto.
  - pose proof (safe_nsc r1) as N. destruct (next_start_code r1) as [o2 r2] eqn:E2. cbn [fst] in N. destruct (suf_nsc _ _ _ R E2) as (R2 & a2 & Q2). rewrite Q2 in Hx. apply no_ext_app in Hx.
    assert (J : inv (set (Some x) v, r2)) by (split; [exact R2 | split; [exact Hx | cbn [fst]; now rewrite Hf] ]).
    destruct o2 as [ []|e| |]; try tauto. split; [exact J|]. cbn [snd]. destruct (nsc_ok_inv _ _ E2) as (al & k & t & _ & _ & -> & M). exact M.
  - split; [exact R | split; [exact Hx | cbn [fst]; now rewrite Hf] ].
Qed.
Lemma ext_missing : forall A (k : M reader A) r, no_ext (rbits r) -> rlater r = [] -> (length (rbits r) mod 8 = 0)%nat ->
  exists e r', (sc_assert ExtensionStartCode ;; k) r = (Err e, r') /\ rlater r' = [] /\ exists a, rbits r = a ++ rbits r'.
Proof.
  intros A k r Hx Hr Hm. unfold bind. pose proof (safe_sc_assert ExtensionStartCode r) as S. destruct (sc_assert ExtensionStartCode r) as [ [u|e| |] r'] eqn:E; cbn [fst] in S; try tauto.
  - exfalso. apply (sc_assert_inv extension_code) in E; [|unfold extension_code; lia]. destruct E as (E & _). apply (Hx [] (rbits r')); [|exact E].
    rewrite E, app_length, code_length in Hm. rewrite Nat.add_comm in Hm. change 32%nat with (4 * 8)%nat in Hm. now rewrite Nat.mod_add in Hm by lia.
  - destruct (suf_sc_assert _ _ _ _ Hr E) as (R & Q). eauto.
Qed.
Lemma assign_refuses : forall A (set : option A -> vidseq -> vidseq) (m : M reader A) k, (forall r, m r = (sc_assert ExtensionStartCode ;; k) r) -> (forall o v, v_fs (set o v) = v_fs v) ->
  refuses inv8 (assign_header set m).
Proof.
  intros A set m k Hm Hf [v r] ((Hr & Hx & He) & M). cbn [fst snd] in *. unfold assign_header. cbn [fst snd]. rewrite Hm.
  destruct (ext_missing _ k r Hx Hr M) as (e & r' & -> & R & a & Q). rewrite Q in Hx. apply no_ext_app in Hx. split; [exact R | split; [exact Hx | cbn [fst]; now rewrite Hf] ].
Qed.
Lemma sext_refuses : refuses inv8 vs_sequence_extension.
Proof. eapply assign_refuses; [intro; reflexivity | reflexivity]. Qed.
Lemma pce_refuses : refuses inv8 vs_picture_coding_extension.
Proof. eapply assign_refuses; [intro; reflexivity | reflexivity]. Qed.
Lemma pic_runs : runs inv inv8 vs_picture_header.
Proof. apply runs_assign; [suf_tac | apply safe_pic | reflexivity]. Qed.
Lemma seq_runs : runs inv inv8 vs_sequence_header.
Proof.
  intros [v r] (Hr & Hx & He). cbn [fst snd] in *. unfold vs_sequence_header, bind at 1, onr at 1. cbn [fst snd]. pose proof (safe_read_sequence_header r) as N.
  destruct (read_sequence_header r) as [o r1] eqn:E. cbn [fst] in N. destruct (suf_read_seq _ _ _ Hr E) as (R & a & Q). rewrite Q in Hx. apply no_ext_app in Hx.
  destruct o as [h|e| |]; try tauto.
  - cbn. split; [split; [exact R | split; [exact Hx | exact He] ]|]. cbn [snd]. unfold read_sequence_header in E.
    apply bind_ok_inv in E as (x & r2 & _ & E). apply bind_ok_inv in E as ([] & r3 & E & E3). inversion E3; subst. destruct (nsc_ok_inv _ _ E) as (al & k & t & _ & _ & -> & M). exact M.
  - split; [exact R | split; [exact Hx | exact He] ].
Qed.
Lemma users_len : forall us l, Forall bytes us -> (length (concat (map enc_user us) ++ l) mod 8 = 0)%nat -> (length l mod 8 = 0)%nat.
Proof.
  induction us as [|u us IH]; intros l B H; [exact H|]. cbn [map concat] in H. rewrite <- app_assoc in H. apply IH; [exact (Forall_inv_tail B)|].
  unfold enc_user in H at 1. rewrite !app_length, code_length, bb_length in H.
  rewrite app_length. replace (32 + 8 * length u + (length (concat (map enc_user us)) + length l))%nat with (length (concat (map enc_user us)) + length l + (4 + length u) * 8)%nat in H by lia.
  now rewrite Nat.mod_add in H by lia.
Qed.
Lemma user_loop_runs : forall f s, inv s -> match ext_user_loop f 1 s with (Ok _, s') | (Err _, s') => inv s' | (OutOfFuel, _) => True | (Panic, _) => False end.
Proof.
  induction f; intros s H; [exact I|]. cbn [ext_user_loop]. unfold bind at 1. pose proof (runs_onr _ (peek_n 32) ltac:(suf_tac) (safe_peek_n 32) s H) as P.
  destruct (onr (peek_n 32) s) as [ [b|e| |] s1]; auto. change (negb (1 =? 1)) with false. cbn [andb]. destruct (negb _ && _); [exact P|].
  destruct (b =? UserDataStartCode).
  - rewrite bind_assoc. unfold bind at 1. pose proof (runs_onr _ user_data ltac:(suf_tac) safe_user s1 P) as U. destruct (onr user_data s1) as [ [d|e| |] s2]; auto.
    rewrite bind_ret. now apply IHf.
  - rewrite bind_ret. now apply IHf.
Qed.
Lemma gop_runs : runs inv inv (gop <- onr read_gop_header ;; upd (start_gop gop) ;; extension_and_user_data 1).
Proof.
  intros [v r] H. unfold bind at 1. pose proof (runs_onr _ read_gop_header ltac:(suf_tac) safe_gop (v, r) H) as G. unfold onr in *. cbn [fst snd] in *.
  destruct (read_gop_header r) as [ [g|e| |] r1] eqn:E; auto. destruct (gop_inv _ _ _ E) as (g27 & al & k & _ & _ & _ & M).
  unfold bind, upd. cbn [fst snd]. unfold extension_and_user_data. cbn [snd].
  assert (G2 : inv (start_gop g v, r1)) by exact G.
  pose proof (user_loop_runs (S (length (rbits r1))) _ G2) as L. destruct (ext_user_loop (S (length (rbits r1))) 1 (start_gop g v, r1)) as [ [u|e| |] s1] eqn:Eu; auto.
  destruct G as (Hr & Hx & _). cbn [snd] in *. destruct (stuck_inv (S (length (rbits r1))) (start_gop g v) r1 M Hr ltac:(unfold left; lia)) as (us & t & B & _ & Q); [now rewrite Eu|].
  apply (Hx (concat (map enc_user us)) t); [|exact Q]. rewrite Q in M. apply users_len in M; [|exact B].
  rewrite app_length, code_length, Nat.add_comm in M. change 32%nat with (4 * 8)%nat in M. now rewrite Nat.mod_add in M by lia.
Qed.
Lemma more_refuses : refuses inv more_frames.
Proof.
  unfold more_frames. apply runs_bind with (J := inv); [apply runs_onr; [suf_tac | apply safe_peek_n]|]. intro b.
  apply runs_bind with (J := inv); [apply runs_if; [apply gop_runs | apply runs_ret]|]. intros _.
  apply runs_bind with (J := inv8); [apply pic_runs|]. intros _. apply runs_bind with (J := fun _ => False); [apply pce_refuses|]. intros _ s [].
Qed.
Lemma start_refuses : refuses inv8 (vs_sequence_extension ;; continue_frames).
Proof. apply runs_bind with (J := fun _ => False); [apply sext_refuses|]. intros _ s []. Qed.
Lemma step_refuses : refuses inv step.
Proof.
  unfold step. apply runs_bind with (J := inv); [apply runs_own|]. intro v. destruct (v_sh v).
  - apply runs_bind with (J := inv); [apply runs_onr; [suf_tac | apply safe_peek_n]|]. intro b. apply runs_if; [apply more_refuses|].
    apply runs_bind with (J := inv); [apply runs_onr; [suf_tac | apply safe_peek_n]|]. intro b2. apply runs_if.
    + apply runs_bind with (J := inv); [apply runs_onr; [suf_tac | apply safe_skip_n]|]. intro. apply runs_fail.
    + apply runs_bind with (J := inv8); [apply seq_runs|]. intro. apply start_refuses.
  - apply runs_bind with (J := inv); [apply runs_onr; [suf_tac | apply safe_nsc]|]. intro. apply runs_bind with (J := inv8); [apply seq_runs|]. intro.
    apply runs_bind with (J := inv8).
    { intros [v2 r] (H & M). pose proof (runs_onr _ (peek_n 32) ltac:(suf_tac) (safe_peek_n 32) (v2, r) H) as P. unfold onr in *. cbn [fst snd] in *.
      destruct (peek_n 32 r) as [ [x|e| |] r1] eqn:E; auto. destruct (peek_n_ok_inv _ _ _ _ E) as (_ & _ & ->). split; auto. }
    intro. apply runs_if; [eapply runs_less; [|intros s Q; exact Q | apply runs_fail]; intros s (Q & _); exact Q | apply start_refuses].
Qed.
Lemma next_refuses : refuses inv next.
Proof.
  intros s H. unfold next. unfold bind at 1, own. cbn [fst]. replace (fs_tryget _ _) with (@None image).
  - cbn [next_loop]. unfold bind at 1. pose proof (step_refuses s H) as S. destruct (step s) as [ [i|e| |] s1]; auto; destruct S.
  - destruct H as (_ & _ & E0 & E1). unfold fs_tryget, ref_get. now rewrite E0, E1.
Qed.
Theorem C81_never : forall r bs n, rlater r = [] -> rbits r = bb bs -> bytes bs -> ~ holds_code extension_code bs ->
  Forall (fun o => exists e, o = Err e) (calls n (new_vidseq, r)).
Proof.
  intros r bs n Hr Hb B N. assert (H : inv (new_vidseq, r)).
  { split; [exact Hr|]. split; [cbn [snd]; rewrite Hb; now apply no_ext_bytes | split; reflexivity]. }
  clear - H. revert H. generalize (new_vidseq, r). induction n; intros s H; [constructor|]. cbn [calls]. pose proof (next_refuses s H) as P.
  destruct (next s) as [ [i|e| |] s']; try contradiction. constructor; [eauto | now apply IHn].
Qed.
(** An MPEG-1 stream: a sequence header, a group of pictures and a picture header *)
Definition ex_mpeg1 : list Z := [0; 0; 1; 179; 22; 0; 240; 196; 2; 206; 224; 164; 0; 0; 1; 184; 0; 8; 0; 64; 0; 0; 1; 0; 0; 15; 255; 248; 0; 0; 1; 1; 18; 52].
Example C81_hyp : bytes ex_mpeg1 /\ ~ holds_code extension_code ex_mpeg1 /\
  fst (next (new_vidseq, mkR (bb ex_mpeg1) EEOF [] (fun _ _ => EUnexpectedEOF))) = Err ErrUnsupported.
Proof.
  split; [|split; [|lazy; reflexivity] ].
  - unfold ex_mpeg1. repeat (apply Forall_cons; [unfold byte; lia|]). apply Forall_nil.
  - intros (p & t & E). assert (I : In 181 ex_mpeg1) by (rewrite E; apply in_or_app; right; apply in_or_app; left; cbn; auto). unfold ex_mpeg1 in I. cbn [In] in I. lia.
Qed.
Example C81_refused_hyp : wf_seq ex_seq /\ 0 <= group_code < 256 /\ group_code <> extension_code.
Proof. split; [apply C36_hyp | unfold group_code, extension_code; lia]. Qed.
Print Assumptions C81_refused.
Print Assumptions C81_never.
