(** CutProofs: what the decoder makes of a stream that breaks off: as long as it reports no error, it does what
    it does on the whole stream; an error it reports is the source's, or it reports it on the whole stream, too. *)
From Coq Require Import Lia.
From Verif Require Import Base BitReader Exec Local TsRobust Mono PesModel PesLocal PsLocal Huffman VlcTables BlockModel SpecVlc VlcProofs BlockProofs PropertiesBlock
  VidModel SpecVid VidProofs VidStream VidExt VidLocal MbModel EndProofs EndProofs2.

(** * Cut computations *)
Definition wrr (r : reader) (l : list bool) : reader := setb r l.
Definition wrs {T} (s : T * reader) (l : list bool) : T * reader := (fst s, setb (snd s) l).
(** The source ends with an error in [P]. *)
Definition src (P : err -> Prop) (r : reader) : Prop := rlater r = [] /\ P (rfin r) /\ forall n k, P (rshort r n k).
Lemma src_later : forall P r, src P r -> rlater r = [].
Proof. intros P r H. apply H. Qed.
Lemma src_any : forall r, rlater r = [] -> src (fun _ => True) r.
Proof. intros r H. repeat split. exact H. Qed.
Lemma src_setb : forall P r l, src P (setb r l) <-> src P r.
Proof. reflexivity. Qed.
Lemma src_short : forall P A n r, src P r -> exists e, short (A := A) n r = (Err e, r) /\ P e.
Proof.
  intros P A n r (R & H1 & H2). unfold short. destruct (rbits r) eqn:E.
  - exists (rfin r). split; [|exact H1]. unfold advance. rewrite R. destruct r; cbn in *; subst; reflexivity.
  - eauto.
Qed.
Definition cut {S A} (wr : S -> list bool -> S) (rd : S -> reader) (n : nat) (m : M S A) : Prop :=
  forall P s l x, src P (rd s) -> (n <= length l)%nat -> lmod x = 0%nat ->
  match m (wr s l) with
  | (Ok a, s') => exists s2 l', src P (rd s2) /\ s' = wr s2 l' /\ m (wr s (l ++ x)) = (Ok a, wr s2 (l' ++ x))
  | (Err e, s') => P e \/ exists s2 l', s' = wr s2 l' /\ m (wr s (l ++ x)) = (Err e, wr s2 (l' ++ x))
  | (Panic, _) => fst (m (wr s (l ++ x))) = Panic
  | (OutOfFuel, _) => fst (m (wr s (l ++ x))) = OutOfFuel
  end.
Notation cutr m := (cut wrr (fun r : reader => r) 0 m).
Notation cutp m := (cut wrs snd 0 m).

Lemma cut_ret : forall S A wr rd n (a : A), cut (S := S) wr rd n (ret a).
Proof. intros S A wr rd n a P s l x Hr Hn Hx. cbn. exists s, l. auto. Qed.
Lemma cut_fail : forall S A wr rd n e, cut (S := S) (A := A) wr rd n (fail e).
Proof. intros S A wr rd n e P s l x Hr Hn Hx. right. exists s, l. auto. Qed.
Lemma cut_panic : forall S A wr rd n, cut (S := S) (A := A) wr rd n panic.
Proof. intros S A wr rd n P s l x Hr Hn Hx. reflexivity. Qed.
Lemma cut_nofuel : forall S A wr rd n, cut (S := S) (A := A) wr rd n nofuel.
Proof. intros S A wr rd n P s l x Hr Hn Hx. reflexivity. Qed.
Lemma cut_less : forall S A wr rd n (m : M S A), cut wr rd 0 m -> cut wr rd n m.
Proof. intros S A wr rd n m H P s l x Hr Hn Hx. apply (H P); auto. lia. Qed.
Lemma cut_bind : forall S A B wr rd n (m : M S A) (k : A -> M S B), cut wr rd n m -> (forall a, cut wr rd 0 (k a)) -> cut wr rd n (bind m k).
Proof.
  intros S A B wr rd n m k Hm Hk P s l x Hr Hn Hx. unfold bind. specialize (Hm P s l x Hr Hn Hx).
  destruct (m (wr s l)) as [ [a|e| |] s1]; auto.
  - destruct Hm as (s2 & l' & R & -> & ->). apply (Hk a P); auto. lia.
  - destruct Hm as [Hm | (s2 & l' & -> & ->)]; [now left | right; eauto].
  - destruct (m (wr s (l ++ x))) as [ [a|e| |] s2]; cbn [fst] in *; congruence.
  - destruct (m (wr s (l ++ x))) as [ [a|e| |] s2]; cbn [fst] in *; congruence.
Qed.
Lemma cut_if : forall S A wr rd n (c : bool) (a b : M S A), cut wr rd n a -> cut wr rd n b -> cut wr rd n (if c then a else b).
Proof. intros S A wr rd n [] a b; auto. Qed.
Lemma cut_ext : forall S A wr rd n (m m' : M S A), (forall s, m s = m' s) -> cut wr rd n m -> cut wr rd n m'.
Proof. intros S A wr rd n m m' E H P s l x Hr Hn Hx. rewrite <- !E. now apply (H P). Qed.
Lemma cut_read_n : forall n, cutr (read_n n).
Proof.
  intros n P r l x Hr _ Hx. unfold wrr, read_n. rewrite !rbits_setb, app_length. destruct (Nat.leb_spec n (length l)).
  - rewrite (proj2 (Nat.leb_le _ _)) by lia. exists r, (skipn n l). rewrite skipn_app, firstn_app. replace (n - length l)%nat with 0%nat by lia. rewrite firstn_O, app_nil_r. auto.
  - destruct (src_short P Z n (setb r l) Hr) as (e & -> & He). auto.
Qed.
Lemma cut_peek_n : forall n, cutr (peek_n n).
Proof.
  intros n P r l x Hr _ Hx. unfold wrr, peek_n. rewrite !rbits_setb, app_length. destruct (Nat.leb_spec n (length l)).
  - rewrite (proj2 (Nat.leb_le _ _)) by lia. exists r, l. rewrite firstn_app. replace (n - length l)%nat with 0%nat by lia. rewrite firstn_O, app_nil_r. auto.
  - destruct (src_short P Z n (setb r l) Hr) as (e & -> & He). auto.
Qed.
Lemma cut_read1 : cutr read1.
Proof. apply cut_bind; [apply cut_read_n | intro; apply cut_ret]. Qed.
Lemma cut_peek1 : cutr peek1.
Proof. apply cut_bind; [apply cut_peek_n | intro; apply cut_ret]. Qed.
Lemma cut_skip_n : forall n, cutr (skip_n n).
Proof. intro. apply cut_bind; [apply cut_read_n | intro; apply cut_ret]. Qed.
Lemma cut_onr : forall T A n (m : M reader A), cut wrr (fun r => r) n m -> cut (wrs (T := T)) snd n (onr m).
Proof.
  intros T A n m H P [t r] l x Hr Hn Hx. specialize (H P r l x Hr Hn Hx). unfold wrs, onr, wrr in *. cbn [fst snd] in *. destruct (m (setb r l)) as [ [a|e| |] r']; auto.
  - destruct H as (r2 & l' & R & -> & ->). exists (t, r2), l'. auto.
  - destruct H as [H | (r2 & l' & -> & ->)]; [now left | right]. exists (t, r2), l'. auto.
  - destruct (m (setb r (l ++ x))) as [o r2]. cbn [fst] in *. exact H.
  - destruct (m (setb r (l ++ x))) as [o r2]. cbn [fst] in *. exact H.
Qed.
Lemma cut_upd : forall T (f : T -> T), cutp (upd (R := reader) f).
Proof. intros T f P [t r] l x Hr _ Hx. cbn. exists (f t, r), l. auto. Qed.
Lemma cut_own : forall T, cutp (own (T := T) (R := reader)).
Proof. intros T P [t r] l x Hr _ Hx. cbn. exists (t, r), l. auto. Qed.
Lemma cut_deref : forall S A wr rd n (o : option A), cut (S := S) wr rd n (deref o).
Proof. intros. destruct o; [apply cut_ret | apply cut_panic]. Qed.
Lemma cut_when : forall S wr rd c (m : M S unit), cut wr rd 0 m -> cut wr rd 0 (when c m).
Proof. intros. unfold when. apply cut_if; auto. apply cut_ret. Qed.
(** Peeking tells that the bits are there. *)
Lemma cut_peek : forall A n (k : Z -> M reader A), (forall a, cut wrr (fun r => r) n (k a)) -> cutr (bind (peek_n n) k).
Proof.
  intros A n k Hk P r l x Hr _ Hx. unfold bind, wrr in *. destruct (Nat.leb_spec n (length l)) as [L|L].
  - unfold peek_n. rewrite !rbits_setb, app_length. rewrite !(proj2 (Nat.leb_le _ _)) by lia. rewrite firstn_app.
    replace (n - length l)%nat with 0%nat by lia. rewrite firstn_O, app_nil_r. now apply (Hk _ P).
  - unfold peek_n. rewrite !rbits_setb. rewrite (proj2 (Nat.leb_gt _ _)) by lia. destruct (src_short P Z n (setb r l) Hr) as (e & -> & He). now left.
Qed.
Lemma cut_peeks : forall T A n (k : Z -> M (T * reader) A), (forall a, cut wrs snd n (k a)) -> cutp (bind (onr (peek_n n)) k).
Proof.
  intros T A n k Hk P [t r] l x Hr _ Hx. unfold bind, onr, wrs in *. cbn [fst snd] in *. destruct (Nat.leb_spec n (length l)) as [L|L].
  - unfold peek_n. rewrite !rbits_setb, app_length. rewrite !(proj2 (Nat.leb_le _ _)) by lia. rewrite firstn_app.
    replace (n - length l)%nat with 0%nat by lia. rewrite firstn_O, app_nil_r. now apply (Hk _ P (t, r)).
  - unfold peek_n. rewrite !rbits_setb. rewrite (proj2 (Nat.leb_gt _ _)) by lia. destruct (src_short P Z n (setb r l) Hr) as (e & -> & He). now left.
Qed.
Lemma cut_ign_skip : forall n, cut wrr (fun r => r) n (ignore_err tt (skip_n n)).
Proof.
  intros n P r l x Hr Hn Hx. unfold ignore_err, skip_n, bind, read_n, wrr. rewrite !rbits_setb, app_length. rewrite !(proj2 (Nat.leb_le _ _)) by lia. cbn [ret].
  exists r, (skipn n l). rewrite skipn_app. replace (n - length l)%nat with 0%nat by lia. auto.
Qed.
Lemma cut_ign_skips : forall T n, cut (wrs (T := T)) snd n (ignore_err tt (onr (skip_n n))).
Proof.
  intros T n. apply cut_ext with (m := onr (ignore_err tt (skip_n n))); [|apply cut_onr, cut_ign_skip].
  intros [t r]. unfold onr, ignore_err. cbn [fst snd]. destruct (skip_n n r) as [ [a|e| |] r']; reflexivity.
Qed.

(** * More fuel *)
Definition refines {S A} (m m' : M S A) : Prop := forall s, fst (m s) <> OutOfFuel -> m' s = m s.
Lemma refines_refl : forall S A (m : M S A), refines m m.
Proof. intros S A m s _. reflexivity. Qed.
Lemma refines_bind : forall S A B (m m' : M S A) (k k' : A -> M S B), refines m m' -> (forall a, refines (k a) (k' a)) -> refines (bind m k) (bind m' k').
Proof.
  intros S A B m m' k k' Hm Hk s H. unfold bind in *. specialize (Hm s). destruct (m s) as [ [a|e| |] s1]; cbn [fst] in *; try (rewrite Hm by congruence); try congruence. now apply Hk.
Qed.
Lemma refines_if : forall S A (c : bool) (a b a' b' : M S A), refines a a' -> refines b b' -> refines (if c then a else b) (if c then a' else b').
Proof. intros S A [] a b a' b'; auto. Qed.
Lemma refines_no : forall S A (m : M S A), refines nofuel m.
Proof. intros S A m s H. now exfalso. Qed.
Definition grows {T A} (f : nat -> M T A) : Prop := forall n, refines (f n) (f (S n)).
Ltac grows_tac := repeat first [ apply refines_no | apply refines_refl | match goal with H : _ |- _ => solve [apply H] end | apply refines_bind | apply refines_if | match goal with |- forall _, _ => intro end ].
Lemma grows_add : forall T A (f : nat -> M T A), grows f -> forall k n, refines (f n) (f (n + k)%nat).
Proof.
  intros T A f H k. induction k; intros n s N; [now rewrite Nat.add_0_r|]. rewrite Nat.add_succ_r. rewrite H; rewrite (IHk n s N); auto.
Qed.
Lemma cut_fuel : forall A (f : nat -> M reader A), (forall n, cutr (f n)) -> grows f -> endr (fun r => f (S (length (rbits r))) r) -> cutr (fun r => f (S (length (rbits r))) r).
Proof.
  intros A f Hf Hg He P r l x Hr Hn Hx. unfold wrr. rewrite !rbits_setb. specialize (Hf (S (length l)) P r l x Hr Hn Hx). unfold wrr in Hf. specialize (He (setb r l) (src_later _ _ Hr)). cbv beta in He. rewrite rbits_setb in He.
  pose proof (grows_add _ _ f Hg (length x) (S (length l)) (setb r (l ++ x))) as G. replace (S (length l) + length x)%nat with (S (length (l ++ x))) in G by (rewrite app_length; lia).
  destruct (f (S (length l)) (setb r l)) as [ [a|e| |] r']; cbn [fst] in He; auto; [| | |congruence].
  - destruct Hf as (r2 & l' & R & -> & E). exists r2, l'. split; [auto|]. split; [auto|]. rewrite E in G. rewrite G; [reflexivity | discriminate].
  - destruct Hf as [Hf | (s2 & l' & -> & Hf)]; [now left | right]. exists s2, l'. rewrite Hf in G. rewrite G; [auto | discriminate].
  - rewrite G; [exact Hf | rewrite Hf; discriminate].
Qed.
Lemma cut_fuels : forall T A (f : nat -> M (T * reader) A), (forall n, cutp (f n)) -> grows f -> 
  (forall s l x, rlater (snd s) = [] -> lmod x = 0%nat -> fst (f (S (length l)) (wrs s l)) = OutOfFuel -> fst (f (S (length (l ++ x))) (wrs s (l ++ x))) = OutOfFuel) ->
  cutp (fun s => f (S (length (rbits (snd s)))) s).
Proof.
  intros T A f Hf Hg He P s l x Hr Hn Hx. unfold wrs. cbn [snd]. rewrite !rbits_setb. specialize (Hf (S (length l)) P s l x Hr Hn Hx). unfold wrs in Hf. specialize (He s l x (src_later _ _ Hr) Hx). unfold wrs in He.
  pose proof (grows_add _ _ f Hg (length x) (S (length l)) (fst s, setb (snd s) (l ++ x))) as G. replace (S (length l) + length x)%nat with (S (length (l ++ x))) in G by (rewrite app_length; lia).
  destruct (f (S (length l)) (fst s, setb (snd s) l)) as [ [a|e| |] s']; auto.
  - destruct Hf as (r2 & l' & R & -> & E). exists r2, l'. split; [auto|]. split; [auto|]. rewrite E in G. rewrite G; [reflexivity | discriminate].
  - destruct Hf as [Hf | (s2 & l' & -> & Hf)]; [now left | right]. exists s2, l'. rewrite Hf in G. rewrite G; [auto | discriminate].
  - rewrite G; [exact Hf | rewrite Hf; discriminate].
Qed.

Create HintDb cut.
Ltac cut_tac :=
  repeat first
    [ apply cut_ret | apply cut_fail | apply cut_panic | apply cut_nofuel
    | apply cut_read_n | apply cut_peek_n | apply cut_read1 | apply cut_peek1 | apply cut_skip_n
    | apply cut_own | apply cut_upd | apply cut_deref | solve [auto with cut]
    | apply cut_onr | apply cut_when | apply cut_bind | apply cut_if
    | match goal with
      | |- forall _, _ => intro
      | |- cut _ _ _ (let '_ := ?x in _) => destruct x
      | |- cut _ _ _ (match ?x with _ => _ end) => destruct x
      end ].

(** * Headers *)
Lemma lmod_app : forall l x, lmod x = 0%nat -> lmod (l ++ x) = lmod l.
Proof.
  intros l x H. unfold lmod in *. rewrite app_length. apply Nat.mod_divides in H as [q ->]; [|lia]. rewrite (Nat.mul_comm 8 q). apply Nat.mod_add. lia.
Qed.
Lemma cut_vid_align : cutr vid_align.
Proof.
  intros P r l x Hr _ Hx. unfold wrr. rewrite !vid_align_total, !rbits_setb. unfold aligned. exists r, (skipn (length l mod 8) l). split; [exact Hr|]. split; [reflexivity|].
  change (length (l ++ x) mod 8)%nat with (lmod (l ++ x)). rewrite lmod_app by assumption. rewrite skipn_app. unfold lmod.
  pose proof (Nat.mod_le (length l) 8 ltac:(lia)). replace (length l mod 8 - length l)%nat with 0%nat by lia. reflexivity.
Qed.
#[export] Hint Resolve cut_vid_align : cut.
Lemma nsc_loop_nf : forall f r, (left r < f)%nat -> fst (nsc_loop f r) <> OutOfFuel.
Proof.
  induction f; intros r H; [lia|]. cbn [nsc_loop]. unfold bind.
  pose proof (safe_peek_n 24 r) as S1. destruct (peek_n 24 r) as [ [v|e| |] r1] eqn:E1; cbn [fst] in *; try discriminate; try tauto.
  destruct (peek_n_ok_inv _ _ _ _ E1) as (_ & _ & ->). destruct (v =? StartCodePrefix); [discriminate|].
  pose proof (safe_read_n 8 r) as S2. destruct (read_n 8 r) as [ [b|e| |] r2] eqn:E2; cbn [fst] in *; try discriminate; try tauto.
  apply read_n_strict in E2. destruct (negb _); [discriminate|]. apply IHf. lia.
Qed.
Lemma cut_nsc : cutr next_start_code.
Proof.
  unfold next_start_code. apply cut_bind; [apply cut_vid_align|]. intro. apply (cut_fuel _ nsc_loop).
  - induction n; cbn [nsc_loop]; cut_tac.
  - intro n. induction n; cbn [nsc_loop]; grows_tac.
  - intros r _. apply nsc_loop_nf. unfold left. lia.
Qed.
#[export] Hint Resolve cut_nsc : cut.
Lemma cut_sc_assert : forall c, cutr (sc_assert c).
Proof. intro. unfold sc_assert, sc_check. cut_tac. Qed.
Lemma cut_id_assert : forall c, cutr (id_assert c).
Proof. intro. unfold id_assert, id_check. cut_tac. Qed.
Lemma cut_marker : cutr marker_bit.
Proof. unfold marker_bit. cut_tac. Qed.
Lemma cut_matrix : cutr read_matrix.
Proof. Transparent read_matrix. unfold read_matrix. generalize 64%nat. induction n; cbn [read_entries]; cut_tac. Qed.
Global Opaque read_matrix.
#[export] Hint Resolve cut_sc_assert cut_id_assert cut_marker cut_matrix : cut.
Lemma cut_user : cutr user_data.
Proof.
  unfold user_data. apply cut_bind; [auto with cut|]. intro. apply cut_bind; [|intro; cut_tac].
  apply (cut_fuel _ (fun n => user_loop n [])).
  - intro n. generalize (@nil Z). induction n; intro; cbn [user_loop]; cut_tac.
  - intro n. generalize (@nil Z). induction n; intro; cbn [user_loop]; grows_tac.
  - apply ends_safe, safe_user_bytes.
Qed.
#[export] Hint Resolve cut_user : cut.
Lemma cut_ign_read1 : forall A (k : bool -> M reader A), (forall a, cutr (k a)) -> (forall P r, src P r -> rbits r = [] -> exists e r', k false r = (Err e, r') /\ P e) ->
  cutr (bind (ignore_err false read1) k).
Proof.
  intros A k Hk He P r l x Hr Hn Hx. destruct l as [|b l].
  - unfold bind at 1, ignore_err, read1, bind at 1, read_n, wrr. rewrite rbits_setb. cbn [length Nat.leb]. unfold short. rewrite rbits_setb.
    assert (E : advance (setb r []) = setb r []) by (unfold advance; cbn [setb rlater]; rewrite (src_later _ _ Hr); reflexivity). rewrite E.
    destruct (He P (setb r []) Hr eq_refl) as (e & r' & -> & Pe). now left.
  - assert (E : forall t, ignore_err false read1 (wrr r ((b :: l) ++ t)) = (Ok (dec [b] =? 1), wrr r (l ++ t))) by (intro; reflexivity).
    unfold bind. rewrite E. specialize (E []). rewrite !app_nil_r in E. rewrite E. apply (Hk _ P); auto. lia.
Qed.
Lemma cut_disp : cutr sequence_display_extension.
Proof.
  unfold sequence_display_extension. apply cut_bind; [cut_tac|]. intro. apply cut_bind; [cut_tac|]. intro. apply cut_ign_read1; [cut_tac|].
  intros P r Hr E. destruct (src_short P Z 14 r Hr) as (e & Es & Pe). do 2 eexists. split; [|exact Pe].
  unfold bind at 1, ret at 1. unfold bind at 1. unfold read_n. rewrite E. cbn [length Nat.leb]. rewrite Es. reflexivity.
Qed.
Lemma cut_scalable : cutr sequence_scalable_extension.
Proof. unfold sequence_scalable_extension. cut_tac. Qed.
Lemma cut_temp : cutr picture_temporal_scalable_extension.
Proof. unfold picture_temporal_scalable_extension. cut_tac. Qed.
Lemma cut_seq_fields : cutr sequence_header_fields.
Proof. unfold sequence_header_fields. cut_tac. Qed.
Lemma cut_sext_fields : cutr sequence_extension_fields.
Proof. unfold sequence_extension_fields. cut_tac. Qed.
#[export] Hint Resolve cut_disp cut_scalable cut_temp cut_seq_fields cut_sext_fields : cut.
Lemma cut_extra : cutr (fun r => extra_loop (S (length (rbits r))) [] r).
Proof.
  apply (cut_fuel _ (fun n => extra_loop n [])).
  - intro n. generalize (@nil Z). induction n; intro; cbn [extra_loop]; cut_tac.
  - intro n. generalize (@nil Z). induction n; intro; cbn [extra_loop]; grows_tac.
  - apply ends_safe, safe_extra.
Qed.
#[export] Hint Resolve cut_extra : cut.
Lemma cut_pic_fields : cutr picture_header_fields.
Proof. unfold picture_header_fields. cut_tac. Qed.
Lemma cut_pce_fields : cutr picture_coding_extension_fields.
Proof. unfold picture_coding_extension_fields. cut_tac. Qed.
Lemma cut_gop : cutr read_gop_header.
Proof. unfold read_gop_header. cut_tac. Qed.
Lemma cut_read_seq : cutr read_sequence_header.
Proof. unfold read_sequence_header. cut_tac. Qed.
#[export] Hint Resolve cut_pic_fields cut_pce_fields cut_gop cut_read_seq : cut.
Lemma cut_vs_seq : cutp vs_sequence_header.
Proof. unfold vs_sequence_header. cut_tac. Qed.
Lemma cut_assign : forall A set (m : M reader A), cutr m -> cutp (assign_header set m).
Proof.
  intros A set m H P [v r] l x Hr Hn Hx. specialize (H P r l x Hr Hn Hx). unfold assign_header, wrs, wrr in *. cbn [fst snd] in *.
  destruct (m (setb r l)) as [ [a|e| |] r1]; auto.
  - destruct H as (r2 & l' & R & -> & ->). pose proof (cut_nsc P r2 l' x R ltac:(lia) Hx) as N. unfold wrr in N.
    destruct (next_start_code (setb r2 l')) as [ [u|e| |] r3]; auto.
    + destruct N as (r4 & l2 & R4 & -> & ->). exists (set (Some a) v, r4), l2. auto.
    + destruct N as [N | (r4 & l2 & -> & ->)]; [now left | right]. exists (set (Some a) v, r4), l2. auto.
    + destruct (next_start_code (setb r2 (l' ++ x))) as [o r4]. exact N.
    + destruct (next_start_code (setb r2 (l' ++ x))) as [o r4]. exact N.
  - destruct H as [H | (r2 & l' & -> & ->)]; [now left | right]. exists (set None v, r2), l'. auto.
  - destruct (m (setb r (l ++ x))) as [o r2]. cbn [fst] in H. now subst.
  - destruct (m (setb r (l ++ x))) as [o r2]. cbn [fst] in H. now subst.
Qed.
Lemma cut_vs_sext : cutp vs_sequence_extension.
Proof. apply cut_assign. auto with cut. Qed.
Lemma cut_vs_pic : cutp vs_picture_header.
Proof. apply cut_assign. auto with cut. Qed.
Lemma cut_vs_pce : cutp vs_picture_coding_extension.
Proof. apply cut_assign. auto with cut. Qed.
#[export] Hint Resolve cut_vs_seq cut_vs_sext cut_vs_pic cut_vs_pce : cut.

(** Where quant_matrix_extension is called, the identifier is there. *)
Definition quant_rest : V unit :=
  l <- onr read1 ;;
  (if l : bool then m <- onr read_matrix ;; upd (fun v => set_q m (v_q1 v) m (v_q3 v) v) else ret tt) ;;
  l <- onr read1 ;;
  (if l : bool then m <- onr read_matrix ;; upd (fun v => set_q (v_q0 v) m (v_q2 v) m v) else ret tt) ;;
  l <- onr read1 ;;
  (if l : bool then m <- onr read_matrix ;; upd (fun v => set_q (v_q0 v) (v_q1 v) m (v_q3 v) v) else ret tt) ;;
  l <- onr read1 ;;
  (if l : bool then m <- onr read_matrix ;; upd (fun v => set_q (v_q0 v) (v_q1 v) (v_q2 v) m v) else ret tt) ;;
  onr next_start_code.
Lemma quant_there : forall v r, fst (peek_n 4 r) = Ok QuantMatrixExtensionID -> quant_matrix_extension (v, r) = (onr (skip_n 4) ;; quant_rest) (v, r).
Proof.
  intros v r E. destruct (peek_n 4 r) as [o r1] eqn:E2. cbn [fst] in E. subst o. destruct (peek_n_ok_inv _ _ _ _ E2) as (L & D & ->).
  assert (I : ignore_err tt (onr (id_assert QuantMatrixExtensionID)) (v, r) = onr (skip_n 4) (v, r)).
  { unfold ignore_err, onr, id_assert, id_check. cbn [fst snd]. unfold bind at 1 2. rewrite E2. unfold ret at 1. rewrite Z.eqb_refl.
    unfold skip_n, bind, read_n. rewrite (proj2 (Nat.leb_le _ _)) by lia. reflexivity. }
  change quant_matrix_extension with (ignore_err tt (onr (id_assert QuantMatrixExtensionID)) ;; quant_rest). unfold bind at 1. rewrite I. reflexivity.
Qed.
Lemma cut_quant : cutp quant_rest.
Proof. unfold quant_rest. cut_tac. Qed.
#[export] Hint Resolve cut_quant : cut.
Lemma cut_body : forall i, cutp (extension_body i).
Proof.
  intro i. unfold extension_body. apply cut_if; [cut_tac|]. apply cut_if; [|cut_tac].
  apply cut_ext with (m := id <- onr (peek_n 4) ;;
    if id =? QuantMatrixExtensionID then onr (skip_n 4) ;; quant_rest
    else if id =? CopyrightExtensionID then panic
    else if id =? PictureDisplayExtensionID then panic
    else if id =? PictureSpatialScalableExtensionID then panic
    else onr picture_temporal_scalable_extension ;; ret tt); [|cut_tac].
  intros [v r]. set (q := onr (skip_n 4) ;; quant_rest). unfold bind at 1. symmetry. unfold bind at 1. unfold onr at 1 3. cbn [fst snd].
  destruct (peek_n 4 r) as [ [id|e| |] r1] eqn:E; auto. destruct (Z.eqb_spec id QuantMatrixExtensionID) as [->|]; auto.
  destruct (peek_n_ok_inv _ _ _ _ E) as (_ & _ & ->). unfold q. apply quant_there. now rewrite E.
Qed.
#[export] Hint Resolve cut_body : cut.
Lemma cut_ext_data : forall f i, cutp (extension_data f i).
Proof.
  induction f; intro; cbn [extension_data]; [cut_tac|]. apply cut_peeks. intro b. apply cut_if; [cut_tac|]. apply cut_bind; [apply cut_ign_skips | cut_tac].
Qed.
#[export] Hint Resolve cut_ext_data : cut.
Lemma grows_ext_data : forall i, grows (fun n => extension_data n i).
Proof. intros i n. revert i. induction n; intro; cbn [extension_data]; grows_tac. Qed.
Lemma cut_ext_user : forall f i, cutp (ext_user_loop f i).
Proof.
  induction f; intro; cbn [ext_user_loop]; cut_tac.
  apply (cut_fuels _ _ (fun n => extension_data n i)); [intro; apply cut_ext_data | apply grows_ext_data|].
  intros [v r] l x Hr Hx H. exfalso. revert H. unfold wrs. apply ext_data_nf; [exact Hr | unfold left; rewrite rbits_setb; lia].
Qed.
Lemma grows_ext_user : forall i, grows (fun n => ext_user_loop n i).
Proof. intros i n. revert i. induction n; intro; cbn [ext_user_loop]; grows_tac. Qed.
Lemma user_stuck : forall f v r l x, rlater r = [] -> lmod x = 0%nat -> (length l < f)%nat -> fst (ext_user_loop f 1 (v, setb r l)) = OutOfFuel ->
  forall g, fst (ext_user_loop g 1 (v, setb r (l ++ x))) = OutOfFuel.
Proof.
  induction f; intros v r l x Hr Hx Hf H g; [lia|]. destruct g; [reflexivity|]. cbn [ext_user_loop] in *. unfold bind at 1, onr at 1 in H. cbn [fst snd] in H.
  unfold bind at 1, onr at 1. cbn [fst snd]. pose proof (cut_peek_n 32 _ r l x (src_any _ Hr) ltac:(lia) Hx) as P. unfold wrr in P. pose proof (safe_peek_n 32 (setb r l)) as S1.
  destruct (peek_n 32 (setb r l)) as [ [b|e| |] r1] eqn:E; cbn [fst] in *; try discriminate; try tauto.
  destruct (peek_n_ok_inv _ _ _ _ E) as (L & Eb & ->). destruct P as (r2 & l2 & R2 & Q2 & ->). rewrite Z.eqb_refl in *. cbn [negb andb] in *.
  assert (E2 : l2 = l) by (apply (f_equal rbits) in Q2; now rewrite !rbits_setb in Q2). subst l2.
  assert (E3 : setb r2 (l ++ x) = setb r (l ++ x)) by (unfold setb in Q2 |- *; injection Q2; intros; congruence). rewrite E3. clear E3 Q2.
  destruct (Z.eqb_spec b ExtensionStartCode) as [Ex|Ex]; cbn [negb andb] in *.
  - assert (Q : l = code extension_code ++ skipn 32 l).
    { pose proof (code_inv extension_code (setb r l)) as C. rewrite rbits_setb in *. apply C; [unfold extension_code; lia | exact L | rewrite <- Eb, Ex; reflexivity]. }
    rewrite Ex. change (ExtensionStartCode =? UserDataStartCode) with false. cbv iota. rewrite bind_ret, Q, <- app_assoc, ext_user_stuck. reflexivity.
  - destruct (Z.eqb_spec b UserDataStartCode) as [Eu|Eu]; cbn [negb] in *; [|discriminate].
    rewrite bind_assoc in *. unfold bind at 1, onr at 1 in H. unfold bind at 1, onr at 1. cbn [fst snd] in *. pose proof (safe_user (setb r l)) as N.
    pose proof (cut_user _ r l x (src_any _ Hr) ltac:(lia) Hx) as U. unfold wrr in U.
    destruct (user_data (setb r l)) as [ [d|e| |] r3] eqn:U3; cbn [fst] in *; try discriminate; try tauto.
    destruct (user_strict (setb r l) _ _ Hr U3) as (L3 & R3). destruct U as (r4 & l4 & R4 & -> & ->). rewrite bind_ret in *. apply (IHf v r4 l4 x (src_later _ _ R4) Hx); [|exact H].
    unfold left in L3. rewrite !rbits_setb in L3. lia.
Qed.
Lemma cut_ext_user_data : forall i, cutp (extension_and_user_data i).
Proof.
  intro i. apply (cut_fuels _ _ (fun n => ext_user_loop n i)); [intro; apply cut_ext_user | apply grows_ext_user|].
  intros [v r] l x Hr Hx H. unfold wrs in *. cbn [fst snd] in *. destruct (Z.eq_dec i 1) as [->|N].
  - eapply user_stuck; eauto.
  - exfalso. revert H. apply ext_user_nf; [exact N | exact Hr | unfold left; rewrite rbits_setb; lia].
Qed.
#[export] Hint Resolve cut_ext_user_data : cut.

(** * Blocks and macroblocks *)
Lemma cut_hdecode : forall A (t : htable A), cutr (hdecode t).
Proof.
  intros A t. unfold hdecode. generalize (2 + maxlen (codes_of t))%nat. intro n. generalize (codes_of t). induction n; intro c; cbn [hwalk]; cut_tac.
Qed.
#[export] Hint Resolve cut_hdecode : cut.
(** With its errors: a missing code is missing on the whole stream; otherwise nothing is left. *)
Lemma hdecode_cut : forall A (t : htable A) P r l x, src P r -> 
  (exists l', snd (hdecode t (setb r l)) = setb r l' /\ hdecode t (setb r (l ++ x)) = (fst (hdecode t (setb r l)), setb r (l' ++ x))) \/
  (exists e, hdecode t (setb r l) = (Err e, setb r []) /\ P e).
Proof.
  intros A t P r l x Hr. unfold hdecode. generalize (2 + maxlen (codes_of t))%nat. intro n. generalize (codes_of t). revert l. induction n; intros l c; cbn [hwalk].
  - left. exists l. auto.
  - destruct (leaf c); [left; exists l; auto|]. destruct c; [left; exists l; auto|].
    destruct l as [|b l].
    + right. destruct (src_short P Z 1 (setb r []) Hr) as (e & E & Pe). exists e. split; [|exact Pe]. unfold bind, read1, bind, read_n. rewrite rbits_setb. cbn [length Nat.leb]. now rewrite E.
    + assert (E : forall t, read1 (setb r ((b :: l) ++ t)) = (Ok (dec [b] =? 1), setb r (l ++ t))) by (intro; reflexivity).
      unfold bind. rewrite E. specialize (E []). rewrite !app_nil_r in E. rewrite E. apply IHn.
Qed.
(** Computations that neither read nor change the state *)
Definition pure {S A} (m : M S A) : Prop := exists o, forall s, m s = (o, s).
Lemma pure_ret : forall S A (a : A), pure (S := S) (ret a).
Proof. intros. now exists (Ok a). Qed.
Lemma pure_panic : forall S A, pure (S := S) (A := A) panic.
Proof. intros. now exists Panic. Qed.
Lemma pure_bind : forall S A B (m : M S A) (k : A -> M S B), pure m -> (forall a, pure (k a)) -> pure (bind m k).
Proof.
  intros S A B m k (o & Hm) Hk. destruct o as [a|e| |].
  - destruct (Hk a) as (o & Ho). exists o. intro s. unfold bind. rewrite Hm. apply Ho.
  - exists (Err e). intro s. unfold bind. now rewrite Hm.
  - exists Panic. intro s. unfold bind. now rewrite Hm.
  - exists OutOfFuel. intro s. unfold bind. now rewrite Hm.
Qed.
Lemma pure_if : forall S A (c : bool) (a b : M S A), pure a -> pure b -> pure (if c then a else b).
Proof. intros S A [] a b; auto. Qed.
Lemma cut_pure : forall S A wr rd n (m : M S A), pure m -> cut wr rd n m.
Proof. intros S A wr rd n m (o & H) P s l x Hr Hn Hx. rewrite !H. destruct o; cbn; [exists s, l; auto | right; exists s, l; auto | reflexivity | reflexivity]. Qed.
Ltac pure_tac := repeat first [ apply pure_ret | apply pure_panic | solve [auto] | apply pure_bind | apply pure_if
  | match goal with |- forall _, _ => intro | |- pure (let '_ := ?x in _) => destruct x | |- pure (match ?x with _ => _ end) => destruct x end ].
Lemma pure_mapM : forall S A B (f : A -> M S B) l, (forall a, pure (f a)) -> pure (mapM f l).
Proof. intros S A B f l H. induction l; cbn [mapM]; pure_tac. Qed.
Lemma pure_get : forall S p i, pure (S := S) (pl_get p i).
Proof. intros. unfold pl_get. pure_tac. Qed.
Lemma pure_pel : forall S f i a b c d e g, pure (S := S) (mc_pel f i a b c d e g).
Proof. intros. pose proof (pure_get S) as G. unfold mc_pel, mc_sample. pure_tac. Qed.
Lemma pure_mc : forall S m i a b fs bl, pure (S := S) (motion_compensation m i a b fs bl).
Proof. intros. pose proof (pure_pel S) as G. unfold motion_compensation. apply pure_mapM. pure_tac. Qed.
Lemma pure_write : forall S p a b l, pure (S := S) (pl_write p a b l).
Proof. intros. unfold pl_write. pure_tac. Qed.
Lemma pure_rows : forall S rows p a b c d, pure (S := S) (write_rows p a b c d rows).
Proof. intros S rows. pose proof (pure_write S) as G. induction rows; intros; cbn [write_rows]; pure_tac. Qed.
Lemma pure_update : forall S a b c d f l, pure (S := S) (update_frame_slice a b c d f l).
Proof. intros. pose proof (pure_rows S) as G. unfold update_frame_slice. pure_tac. Qed.
Lemma pure_lines : forall S n v src dst a b c d e g, pure (S := S) (copy_lines n v src dst a b c d e g).
Proof.
  intros S n. pose proof (pure_write S) as G. assert (G2 : forall p a b, pure (S := S) (pl_slice p a b)) by (intros; unfold pl_slice; pure_tac).
  induction n; intros; cbn [copy_lines]; pure_tac.
Qed.
Lemma pure_pcopy : forall S a b c f g, pure (S := S) (pframe_copy_macroblocks a b c f g).
Proof. intros. pose proof (pure_lines S) as G. unfold pframe_copy_macroblocks. pure_tac. Qed.
Lemma pure_put : forall S m fs a b c d bl f, pure (S := S) (put_block m fs a b c d bl f).
Proof. intros. pose proof (pure_mc S) as G. pose proof (pure_update S) as G2. unfold put_block. pure_tac. Qed.
Lemma pure_bblocks : forall S m fs a b is f, pure (S := S) (bframe_blocks m fs a b is f).
Proof. intros S m fs a b is. pose proof (pure_put S) as G. induction is; intros; cbn [bframe_blocks]; pure_tac. Qed.
Lemma pure_bcopy : forall S n m fs a b f, pure (S := S) (bframe_copy_macroblocks n m fs a b f).
Proof. intros S n. pose proof (pure_bblocks S) as G. induction n; intros; cbn [bframe_copy_macroblocks]; pure_tac. Qed.
Lemma pure_info : forall S e mb, pure (S := S) (mv_info e mb).
Proof. intros. unfold mv_info. pure_tac. Qed.
Lemma pure_pattern : forall S a b c d, pure (S := S) (pattern_code a b c d).
Proof. intros. unfold pattern_code. pure_tac. Qed.
#[export] Hint Resolve cut_pure pure_put pure_pcopy pure_bcopy pure_info pure_pattern : cut.

Lemma cut_dct : forall one n, cutr (dct_of one n).
Proof. intros. unfold dct_of, dct_table_one, dct_table_zero, dct_decode. destruct one; cut_tac. Qed.
Lemma cut_bwrite : forall i v, cutp (bwrite i v).
Proof.
  intros i v P [b r] l x Hr Hn Hx. unfold bwrite, wrs. cbn [fst snd]. destruct (_ && _); [|reflexivity].
  exists (mkBS (set_nth (Z.to_nat i) v (bs_block b)) (bs_pred b), r), l. auto.
Qed.
#[export] Hint Resolve cut_bwrite cut_dct : cut.
Lemma cut_bzeros : forall k n, cutp (bzeros k n).
Proof. induction k; intro; cbn [bzeros]; cut_tac. Qed.
#[export] Hint Resolve cut_bzeros : cut.
Lemma cut_coeffs : forall f one n, cutp (block_coeffs f (dct_of one) n).
Proof. induction f; intros; cbn [block_coeffs]; cut_tac. Qed.
#[export] Hint Resolve cut_coeffs : cut.
Lemma cut_block_dc : forall cc, cutp (block_dc cc).
Proof.
  intro. unfold block_dc, dc_size_luma, dc_size_chroma. apply cut_bind; [cut_tac|]. intro z. apply cut_bind; [cut_tac|]. intros d P [b r] l x Hr Hn Hx. cbn.
  exists (mkBS (set_nth 0 (i32 (nth cc (bs_pred b) 0 + dct_diff z d)) (bs_block b)) (set_nth cc (i32 (nth cc (bs_pred b) 0 + dct_diff z d)) (bs_pred b)), r), l. auto.
Qed.
#[export] Hint Resolve cut_block_dc : cut.
Lemma cut_block_read : forall a cc i, cutp (block_read a cc i).
Proof. intros. unfold block_read. rewrite dct_choice. cut_tac. Qed.
Lemma cut_mb_block_read : forall a cc i b, cutp (mb_block_read a cc i b).
Proof.
  intros a cc i b P [m r] l x Hr Hn Hx. unfold mb_block_read, wrs. cbn [fst snd].
  pose proof (cut_block_read a cc i P (mkBS b (ms_dcp m), r) l x Hr Hn Hx) as X. unfold wrs in X. cbn [fst snd] in X.
  destruct (block_read a cc i (mkBS b (ms_dcp m), setb r l)) as [ [u|e| |] [bs r1] ]; auto.
  - destruct X as ((bs2 & r2) & l' & R & E & ->). cbn [fst snd] in *. injection E as -> ->. exists (ms_set_dcp (bs_pred bs2) m, r2), l'. auto.
  - destruct X as [X | ((bs2 & r2) & l' & E & ->)]; [now left | right]. cbn [fst snd] in *. injection E as -> ->. exists (ms_set_dcp (bs_pred bs2) m, r2), l'. auto.
  - destruct (block_read a cc i (mkBS b (ms_dcp m), setb r (l ++ x))) as [o [bs2 r2] ]. cbn [fst] in X. now subst.
  - destruct (block_read a cc i (mkBS b (ms_dcp m), setb r (l ++ x))) as [o [bs2 r2] ]. cbn [fst] in X. now subst.
Qed.
#[export] Hint Resolve cut_mb_block_read : cut.
Lemma cut_mb_blocks : forall v e se mb row addr coded i b, cutp (mb_blocks v e se mb row addr i coded b).
Proof. intros v e se mb row addr coded. induction coded; intros; cbn [mb_blocks]; cut_tac. Qed.
Lemma cut_escapes : forall n i, cutr (mba_escapes n i).
Proof. induction n; intro; cbn [mba_escapes]; [cut_tac|]. apply cut_peek. intro b. apply cut_if; [|cut_tac]. apply cut_bind; [apply cut_ign_skip | cut_tac]. Qed.
Lemma cut_mb_increment : cutr mb_increment.
Proof.
  apply (cut_fuel _ (fun n => e <- mba_escapes n 0 ;; i <- mba_decode ;; ret (e + i))).
  - intro n. pose proof cut_escapes. unfold mba_decode. cut_tac.
  - intro n. apply refines_bind; [|grows_tac]. generalize 0. induction n; intro; cbn [mba_escapes]; grows_tac.
  - exact ends_mb_increment.
Qed.
Lemma cut_mvs : forall e mb s, cutp (motion_vectors e mb s).
Proof. intros. unfold motion_vectors, motion_vector, motion_vector_part, motion_code_decode. cut_tac. Qed.
Lemma cut_mode : forall p e, cutr (macroblock_mode p e).
Proof. intros. unfold macroblock_mode, mbtype_decode_I, mbtype_decode_P, mbtype_decode_B. cut_tac. Qed.
#[export] Hint Resolve cut_mb_blocks cut_mb_increment cut_mvs cut_mode : cut.
Lemma cut_copy : forall v p a b c, cutp (copy_skipped v p a b c).
Proof. intros. unfold copy_skipped. cut_tac. Qed.
#[export] Hint Resolve cut_copy : cut.
(** A macroblock that drops an error has nothing left. *)
Definition cutd {T A} (m : M (T * reader) A) : Prop :=
  forall P s l x, src P (snd s) -> lmod x = 0%nat ->
  match m (wrs s l) with
  | (Ok a, s') => (exists s2 l', src P (snd s2) /\ s' = wrs s2 l' /\ m (wrs s (l ++ x)) = (Ok a, wrs s2 (l' ++ x))) \/ (rbits (snd s') = [] /\ src P (snd s'))
  | (Err e, s') => P e \/ exists s2 l', s' = wrs s2 l' /\ m (wrs s (l ++ x)) = (Err e, wrs s2 (l' ++ x))
  | (Panic, _) => fst (m (wrs s (l ++ x))) = Panic
  | (OutOfFuel, _) => fst (m (wrs s (l ++ x))) = OutOfFuel
  end.
Lemma cutd_bind : forall T A B (m : M (T * reader) A) (k : A -> M (T * reader) B), cutp m -> (forall a, cutd (k a)) -> cutd (bind m k).
Proof.
  intros T A B m k Hm Hk P s l x Hr Hx. unfold bind. specialize (Hm P s l x Hr ltac:(lia) Hx).
  destruct (m (wrs s l)) as [ [a|e| |] s1]; auto.
  - destruct Hm as (s2 & l' & R & -> & ->). now apply (Hk a P).
  - destruct Hm as [Hm | (s2 & l' & -> & ->)]; [now left | right; eauto].
  - destruct (m (wrs s (l ++ x))) as [ [a|e| |] s2]; cbn [fst] in *; congruence.
  - destruct (m (wrs s (l ++ x))) as [ [a|e| |] s2]; cbn [fst] in *; congruence.
Qed.
Lemma cutd_cut : forall T A (m : M (T * reader) A), cutp m -> cutd m.
Proof. intros T A m H P s l x Hr Hx. specialize (H P s l x Hr ltac:(lia) Hx). destruct (m (wrs s l)) as [ [a|e| |] s1]; auto. Qed.
Lemma cutd_cbp : forall c (k : Z -> MB Z), (forall a, cutp (k a)) ->
  cutd (cbp <- ignore_err None (c <- onr (coded_block_pattern c) ;; ret (Some c)) ;; match cbp with None => ret 0 | Some cbp => k cbp end).
Proof.
  intros c k Hk P [t r] l x Hr Hx. unfold bind, ignore_err, onr, wrs, coded_block_pattern, cbp_decode. cbn [fst snd] in *.
  pose proof (hdecode_cut _ cbp_table P r l x Hr) as H. destruct (hdecode cbp_table (setb r l)) as [o r1]. cbn [fst snd] in H. destruct H as [(l' & -> & ->) | (e & E & _)].
  - destruct (_ || _); [reflexivity|]. destruct o as [a|e| |]; auto; [|left; exists (t, r), l'; auto].
    specialize (Hk a P (t, r) l' x Hr ltac:(lia) Hx). unfold wrs in Hk. cbn [fst snd] in Hk. cbv [ret]. destruct (k a (t, setb r l')) as [ [b|e| |] s1]; [left; exact Hk | exact Hk | exact Hk | exact Hk].
  - injection E as -> ->. destruct (hdecode cbp_table (setb r (l ++ x))) as [o2 r2]. destruct (_ || _); [reflexivity|]. right. split; [reflexivity | exact Hr].
Qed.
Lemma cutd_macroblock : forall v row addr, cutd (macroblock v row addr).
Proof.
  intros. unfold macroblock, reset_dc, reset_mv. repeat first [ apply cutd_bind; [cut_tac; fail|intro] ].
  match goal with |- cutd (bind (if ?b then _ else _) _) => destruct b end.
  - apply (cutd_cbp _ (fun cbp => pc <- pattern_code cbp _ _ _ ;; mb_blocks _ _ _ _ _ _ 0 (firstn _ pc) block_zero ;; ret _)). intro. cut_tac.
  - apply cutd_cut. cut_tac.
Qed.
Lemma cut_then : forall T A B (m : M (T * reader) A) (k : A -> M (T * reader) B), cutd m -> (forall a, cutp (k a)) ->
  (forall P a s, src P (snd s) -> rbits (snd s) = [] -> exists e s', k a s = (Err e, s') /\ P e) -> cutp (bind m k).
Proof.
  intros T A B m k Hm Hk He P s l x Hr Hn Hx. specialize (Hm P s l x Hr Hx). unfold bind.
  destruct (m (wrs s l)) as [ [a|e| |] s1]; auto.
  - destruct Hm as [(s2 & l' & R & -> & ->) | (E & R)]; [apply (Hk a P); auto; lia|]. destruct (He P a _ R E) as (e & s' & -> & Pe). now left.
  - destruct Hm as [Hm | (s2 & l' & -> & ->)]; [now left | right; eauto].
  - destruct (m (wrs s (l ++ x))) as [ [a|e| |] s2]; cbn [fst] in *; congruence.
  - destruct (m (wrs s (l ++ x))) as [ [a|e| |] s2]; cbn [fst] in *; congruence.
Qed.
Lemma cut_slice_loop : forall f v row addr, cutp (slice_loop f v row addr).
Proof.
  induction f; intros; cbn [slice_loop]; [cut_tac|]. apply cut_then; [apply cutd_macroblock | cut_tac|].
  intros P a [t r] Hr E. destruct (src_short P Z 23 r Hr) as (e & Es & Pe). unfold bind, onr, peek_n. cbn [fst snd] in *. rewrite E. cbn [length Nat.leb]. rewrite Es. eauto.
Qed.
Lemma grows_slice_loop : forall v row addr, grows (fun n => slice_loop n v row addr).
Proof. intros v row addr n. revert addr. induction n; intro; cbn [slice_loop]; grows_tac. Qed.
Lemma slice_loop_stuck : forall v row s l x, rlater (snd s) = [] -> lmod x = 0%nat -> fst (slice_loop (S (length l)) v row (-1) (wrs s l)) = OutOfFuel ->
  fst (slice_loop (S (length (l ++ x))) v row (-1) (wrs s (l ++ x))) = OutOfFuel.
Proof. intros v row s l x Hr Hx H. exfalso. revert H. apply ends_slice_loop; [exact Hr | unfold wrs, left; cbn [snd]; rewrite rbits_setb; lia]. Qed.
Lemma cut_slice_flags : cutr slice_flags.
Proof.
  unfold slice_flags. cut_tac. apply (cut_fuel _ slice_extra); [induction n; cbn [slice_extra]; cut_tac | intro n; induction n; cbn [slice_extra]; grows_tac |].
  intros r _. apply nf_slice_extra. unfold left. lia.
Qed.
#[export] Hint Resolve cut_slice_flags : cut.
Lemma cut_slice : forall v frame, cutr (slice v frame).
Proof.
  intros v frame P r l x Hr Hn Hx. unfold slice, wrr.
  match goal with |- context [match ?m (setb r l) with _ => _ end] => set (head := m) end.
  assert (C : cutr head) by (unfold head; cut_tac). specialize (C P r l x Hr Hn Hx). unfold wrr in C.
  destruct (head (setb r l)) as [ [ [ [e row] q]|er| |] r1]; auto.
  - destruct C as (r2 & l' & R & -> & ->). 
    pose proof (cut_fuels _ _ (fun n => slice_loop n v row (-1)) (fun n => cut_slice_loop n v row (-1)) (grows_slice_loop v row (-1)) (slice_loop_stuck v row) P (mkMS (dc_reset (pc_dc e)) mv_zero q frame, r2) l' x R ltac:(lia) Hx) as L.
    unfold wrs in L. cbn [fst snd] in L. cbn [snd].
    destruct (slice_loop (S (length (rbits (setb r2 l')))) v row (-1) (mkMS (dc_reset (pc_dc e)) mv_zero q frame, setb r2 l')) as [ [u|er| |] [m1 r3] ]; auto.
    + destruct L as ((m4 & r4) & l4 & R4 & E & ->). cbn [fst snd] in *. injection E as -> ->.
      assert (C : cutr (next_start_code ;; ret (ms_frame m4))) by cut_tac. exact (C P r4 l4 x R4 ltac:(lia) Hx).
    + destruct L as [L | ((m4 & r4) & l4 & E & ->)]; [now left | right]. cbn [fst snd] in *. injection E as -> ->. exists r4, l4. auto.
    + destruct (slice_loop _ v row (-1) (mkMS (dc_reset (pc_dc e)) mv_zero q frame, setb r2 (l' ++ x))) as [o [m4 r4] ]. cbn [fst] in L. now subst.
    + destruct (slice_loop _ v row (-1) (mkMS (dc_reset (pc_dc e)) mv_zero q frame, setb r2 (l' ++ x))) as [o [m4 r4] ]. cbn [fst] in L. now subst.
  - destruct C as [C | (r2 & l' & -> & ->)]; [now left | right]. exists r2, l'. auto.
  - destruct (head (setb r (l ++ x))) as [o r2]. cbn [fst] in C. now subst.
  - destruct (head (setb r (l ++ x))) as [o r2]. cbn [fst] in C. now subst.
Qed.
#[export] Hint Resolve cut_slice : cut.
Lemma cut_slices : forall f v frame, cutr (slices f v frame).
Proof. induction f; intros; cbn [slices]; cut_tac. Qed.
Lemma cut_picture_data : forall v, cutr (picture_data v).
Proof.
  intro v. destruct (size v) as [w h] eqn:E.
  apply cut_ext with (m := se <- deref (v_se v) ;; frame <- (fun r => slices (S (length (rbits r))) v (create_frame_buffer w h (se_chroma se)) r) ;; next_start_code ;; ret frame).
  - intro r. unfold picture_data. rewrite E. destruct (v_se v); reflexivity.
  - apply cut_bind; [cut_tac|]. intro se. apply cut_bind; [|cut_tac].
    apply (cut_fuel _ (fun n => slices n v (create_frame_buffer w h (se_chroma se)))); [intro; apply cut_slices | |].
    2:{ intros r Hr. apply ends_slices; [exact Hr | unfold left; lia]. }
    intro n. generalize (create_frame_buffer w h (se_chroma se)). induction n; intro; cbn [slices]; grows_tac.
Qed.
#[export] Hint Resolve cut_picture_data : cut.

(** * Next *)
Lemma cut_more : cutp more_frames.
Proof. unfold more_frames. cut_tac. Qed.
#[export] Hint Resolve cut_more : cut.
Lemma cut_step : cutp step.
Proof. unfold step, continue_frames. cut_tac. Qed.
#[export] Hint Resolve cut_step : cut.
Lemma cut_next_loop : forall f, cutp (next_loop f).
Proof. induction f; cbn [next_loop]; cut_tac. Qed.
Lemma next_stuck : forall f s l x, rlater (snd s) = [] -> lmod x = 0%nat -> (length l < f)%nat -> fst (next_loop f (wrs s l)) = OutOfFuel ->
  forall g, fst (next_loop g (wrs s (l ++ x))) = OutOfFuel.
Proof.
  induction f; intros s l x Hr Hx Hf H g; [lia|]. destruct g; [reflexivity|]. cbn [next_loop] in *. unfold bind, own, upd in *.
  pose proof (cut_step _ s l x (src_any _ Hr) ltac:(lia) Hx) as C. destruct (step (wrs s l)) as [ [i|e| |] s1] eqn:E; cbn [fst] in *; try discriminate.
  - pose proof (eats_step (wrs s l) _ _ Hr E) as L. destruct C as (s2 & l' & R & -> & ->). unfold deref in *.
    cbn [wrs fst] in *. destruct (v_ph (fst s2)); [|discriminate]. unfold ret in *. destruct (_ =? _); [discriminate|]. apply IHf; auto; [exact (src_later _ _ R)|].
    unfold left in L. cbn [wrs snd] in L. rewrite !rbits_setb in L. lia.
  - destruct (step (wrs s (l ++ x))) as [o s2]. cbn [fst] in C. now subst.
Qed.
Theorem cut_next : cutp next.
Proof.
  unfold next. apply cut_bind; [cut_tac|]. intro v. destruct (fs_tryget _ _); [cut_tac|].
  apply (cut_fuels _ _ next_loop); [apply cut_next_loop | intro n; induction n; cbn [next_loop]; grows_tac |].
  intros s l x Hr Hx H. eapply next_stuck; eauto.
Qed.
