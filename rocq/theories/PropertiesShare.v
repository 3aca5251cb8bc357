(** PropertiesShare: C89 (the frames that Next returns are different objects and keep their pictures), C90 (drawing on a
    returned frame). *)
From Coq Require Import Lia.
From Verif Require Import Base BitReader VidModel BlockModel MbModel HeapModel Exec TsRobust SpecVid SpecNext SpecPicture VidProofs VidStream StoreProofs CountProofs NextProofs SliceProofs PropertiesNext ExampleStream HeapProofs.

(** ** C89: a returned frame is never written again, and no two calls return the same frame. *)

(** The calls of Next on a new decoder, with whatever stream, errors included; [ids] are the frames (pointers) returned so
    far, the latest first. *)
Inductive history : hseq * reader -> list nat -> Prop :=
| Opened : forall r, history (h_new, r) []
| Returned : forall s ids i s', history s ids -> h_next s = (Ok i, s') -> history s' (i :: ids)
| Refused : forall s ids e s', history s ids -> h_next s = (Err e, s') -> history s' ids.
(** More calls after that; a call that panics may still be the last one. *)
Inductive later : hseq * reader -> hseq * reader -> Prop :=
| Now : forall s, later s s
| Then : forall s o s1 s2, h_next s = (o, s1) -> later s1 s2 -> later s s2.

Lemma history_inv : forall s ids, history s ids -> inv ids (fst s).
Proof.
  intros s ids H. induction H as [r | s ids i s' H IH E | s ids e s' H IH E].
  - exact inv_new.
  - destruct s as [h r], s' as [h' r']. exact (proj1 (next_inv _ _ _ _ _ _ IH E)).
  - destruct s as [h r], s' as [h' r']. exact (proj1 (next_inv _ _ _ _ _ _ IH E)).
Qed.
Lemma next_wf : forall h r o h' r', wf h -> h_next (h, r) = (o, (h', r')) -> wf h'.
Proof. intros h r o h' r' W E. destruct (sim_next h r W) as (oh & o2 & h1 & r1 & E1 & _ & W1 & _). assert (h1 = h') as <- by congruence. exact W1. Qed.
Theorem C89_frames_stay : forall s ids s' i, history s ids -> later s s' -> In i ids ->
  exists img, nth_error (h_mem (fst s)) i = Some img /\ nth_error (h_mem (fst s')) i = Some img.
Proof.
  intros s ids s' i H L I.
  assert (G : forall given, inv given (fst s) -> exists l, h_mem (fst s') = h_mem (fst s) ++ l).
  { clear H I ids. induction L as [s | s o s1 s2 E L IH]; intros given K; [exists []; now rewrite app_nil_r|].
    destruct s as [h r], s1 as [h1 r1]. destruct (next_inv _ _ _ _ _ _ K E) as (K1 & (l & M) & _). destruct (IH _ K1) as (l2 & M2). exists (l ++ l2). cbn [fst] in *. rewrite M2, M. now rewrite app_assoc. }
  pose proof (history_inv _ _ H) as K. destruct (G _ K) as (l & M). destruct K as (_ & B & _). specialize (B i I). rewrite M, nth_error_app1 by exact B.
  destruct (nth_error (h_mem (fst s)) i) as [img|] eqn:N; [eauto | apply nth_error_None in N; lia].
Qed.
Theorem C89_all_different : forall s ids, history s ids -> NoDup ids.
Proof.
  intros s ids H. induction H as [r | s ids i s' H IH E | s ids e s' H IH E]; [constructor | | exact IH].
  constructor; [|exact IH]. destruct s as [h r], s' as [h' r']. exact (proj2 (proj2 (next_inv _ _ _ _ _ _ (history_inv _ _ H) E)) i eq_refl).
Qed.

(** Frames kept until the end: what [nexts] returns in MbModel, where frames are values, is what the caller sees in the frames
    it has collected, after the last call. *)
Fixpoint h_nexts (n : nat) : H (list nat) :=
  match n with
  | O => ret []
  | S n => x <- h_next ;; xs <- h_nexts n ;; ret (x :: xs)
  end.
Lemma collect : forall n given h r imgs v' r', inv given h -> nexts n (see h, r) = (Ok imgs, (v', r')) ->
  exists ids h', h_nexts n (h, r) = (Ok ids, (h', r')) /\ see h' = v' /\ inv (rev ids ++ given) h' /\ NoDup ids /\ (forall i, In i ids -> ~ In i given) /\
    (exists l, h_mem h' = h_mem h ++ l) /\ map (nth_error (h_mem h')) ids = map Some imgs.
Proof.
  induction n as [|n IH]; intros given h r imgs v' r' K E; cbn [nexts h_nexts] in *.
  { injection E as <- <- <-. exists [], h. split; [reflexivity|]. split; [reflexivity|]. split; [exact K|]. split; [constructor|]. split; [intros i []|]. split; [exists []; now rewrite app_nil_r | reflexivity]. }
  apply bind_ok_inv in E. destruct E as (img & (v1 & r1) & E1 & E). apply bind_ok_inv in E. destruct E as (xs & (v2 & r2) & E2 & E). injection E as <- <- <-.
  destruct (sim_next h r (proj1 K)) as (oh & o & h1 & r1' & N1 & N2 & W1 & O). rewrite E1 in N2. injection N2 as <- -> ->. destruct oh as [i|e| |]; try contradiction. cbn in O.
  destruct (next_inv _ _ _ _ _ _ K N1) as (K1 & (l1 & M1) & F1). cbn [given_after] in K1. destruct (IH _ _ _ _ _ _ K1 E2) as (ids & h2 & N3 & S3 & K3 & D3 & F3 & (l2 & M2) & P3).
  exists (i :: ids), h2. split; [rewrite (bind_val _ _ _ _ _ _ _ _ N1), (bind_val _ _ _ _ _ _ _ _ N3); reflexivity|]. split; [exact S3|].
  split; [cbn [rev]; rewrite <- app_assoc; exact K3|]. split; [constructor; [intro J; exact (F3 i J (or_introl eq_refl)) | exact D3]|].
  split; [intros j [<-|J] G; [exact (F1 i eq_refl G) | exact (F3 j J (or_intror G))]|]. split; [exists (l1 ++ l2); rewrite M2, M1; now rewrite app_assoc|].
  cbn [map]. f_equal; [|exact P3]. rewrite M2, nth_error_app1; [exact O|]. apply nth_error_Some. unfold points in O. congruence.
Qed.
Theorem C89_collected : forall n r imgs v' r', nexts n (new_vidseq, r) = (Ok imgs, (v', r')) ->
  exists ids h', h_nexts n (h_new, r) = (Ok ids, (h', r')) /\ NoDup ids /\ map (nth_error (h_mem h')) ids = map Some imgs.
Proof. intros n r imgs v' r' E. destruct (collect n [] h_new r imgs v' r' inv_new E) as (ids & h' & A & _ & _ & B & _ & _ & C). eauto. Qed.
(** So the frames of a coded sequence, looked at after the last call, show its pictures in display order. *)
Theorem C89_sequence : forall k g gs rd, sequence_of picture_coded (g :: gs) ->
  exists ids h' imgs, h_nexts (length (shown (g :: gs))) (h_new, setb rd (enc_sequence k (g :: gs))) = (Ok ids, (h', setb rd (code sequence_end_code))) /\
    NoDup ids /\ map (nth_error (h_mem h')) ids = map Some imgs /\ Forall2 looks imgs (shown (g :: gs)).
Proof.
  intros k g gs rd V. destruct (C73_sequences k g gs rd V) as (imgs & v' & N & L & _). destruct (C89_collected _ _ _ _ _ N) as (ids & h' & A & B & C). eauto 8.
Qed.
(** A call, whatever its result, does in this model what it does in MbModel. *)
Theorem C89_same_decoder : forall s ids, history s ids -> let '(o, (h', r')) := h_next s in
  exists o', next (see (fst s), snd s) = (o', (see h', r')) /\
    match o, o' with
    | Ok i, Ok img => nth_error (h_mem h') i = Some img
    | Err e, Err e' => e = e'
    | Panic, Panic | OutOfFuel, OutOfFuel => True
    | _, _ => False
    end.
Proof.
  intros [h r] ids H. destruct (sim_next h r (proj1 (history_inv _ _ H))) as (oh & o & h1 & r1 & E1 & E2 & _ & O). rewrite E1. exists o. split; [exact E2|]. destruct oh, o; exact O.
Qed.
Lemma f2_length : forall A B (R : A -> B -> Prop) l m, Forall2 R l m -> length l = length m.
Proof. intros A B R l m F. induction F; cbn [length]; congruence. Qed.
Example C89_hyp : forall rd, exists ids h', h_nexts 8 (h_new, setb rd (enc_sequence 2 xs_groups)) = (Ok ids, (h', setb rd (code sequence_end_code))) /\ length ids = 8%nat.
Proof.
  intro rd. destruct (C89_sequence 2 _ _ rd C73_hyp) as (ids & h' & imgs & A & _ & M & L). exists ids, h'. split; [exact A|].
  apply (f_equal (@length _)) in M. rewrite !map_length in M. rewrite M. exact (f2_length _ _ _ _ _ L).
Qed.

(** ** C90: the caller may draw on a frame that it was given, and the decoder goes on as if it had not. *)

(** What the next [n] calls give, with the pictures as they are when the calls return *)
Fixpoint watch (n : nat) (s : hseq * reader) : list (res (option image)) :=
  match n with
  | O => []
  | S n =>
      let '(o, s') := h_next s in
      match o with
      | Ok i => Ok (nth_error (h_mem (fst s')) i) :: watch n s'
      | Err e => Err e :: watch n s'
      | Panic => [Panic]
      | OutOfFuel => [OutOfFuel]
      end
  end.
(** It holds for the frames that the decoder does not keep as a reference. *)
Lemma watch_draw : forall n given i img h r, inv given h -> In i given -> ~ held i h -> watch n (draw i img h, r) = watch n (h, r).
Proof.
  induction n as [|n IH]; intros given i img h r K I N; [reflexivity|]. cbn [watch]. destruct (h_next (h, r)) as [o [h1 r1] ] eqn:E.
  destruct (next_inv _ _ _ _ _ _ K E) as (K1 & _ & F). assert (S : safe i h) by (destruct K as (W & B & _); split; [exact W|]; split; [exact N | now apply B]).
  destruct (blind_next i img h r o h1 r1 S E) as (E' & S1). rewrite E'. cbn [fst]. destruct o as [j|e| |]; try reflexivity.
  - f_equal; [|apply (IH (j :: given)); [exact K1 | now right | apply S1] ]. f_equal. cbn [draw h_mem]. apply put_other. intros <-. exact (F i eq_refl I).
  - f_equal. apply (IH given); [exact K1 | exact I | apply S1].
Qed.
(** A frame is not kept when it was decoded in the call that returned it - the reader has moved - and its picture header says
    that it is neither an I nor a P picture. *)
Lemma loop_free : forall n given h r i h' r', inv given h -> h_next_loop n (h, r) = (Ok i, (h', r')) ->
  forall ph, v_ph (h_v h') = Some ph -> ph_type ph <> IFrame -> ph_type ph <> PFrame -> ~ held i h'.
Proof.
  induction n as [|n IH]; intros given h r i h' r' K E ph P T1 T2; cbn [h_next_loop] in E; [discriminate E|].
  destruct (h_step (h, r)) as [o1 [h1 r1] ] eqn:E1. rewrite (bind_val _ _ _ _ _ _ _ _ E1) in E. destruct (step_inv _ _ _ _ _ _ K E1) as (K1 & _ & _). destruct o1 as [j|e| |]; try discriminate E.
  rewrite bind_own in E. cbn [fst] in E. unfold deref in E. destruct (v_ph (h_v h1)) as [ph1|] eqn:EP; [|discriminate E]. rewrite bind_ret in E. destruct (ph_tr ph1 =? v_fc (h_v h1)).
  2:{ eapply IH; eauto. }
  rewrite bind_upd in E. cbn [fst snd] in E. injection E as <- <- <-. cbn [h_count h_v v_ph set_fc] in P. assert (ph1 = ph) as -> by congruence.
  pose proof (shaped_step h r (proj1 K)) as SH. rewrite E1 in SH. intro HD. change (held j h1) in HD. unfold held in HD.
  assert (X : exists fs1, (forall i, In (Some i) (pointers fs1) -> (i < length (h_mem h))%nat) /\ j = length (h_mem h) /\ h_fs h1 = hs_set (ph_tr ph) fs1).
  { destruct SH as [ (_ & -> & _ & ph2 & EP2 & F) | (_ & -> & _ & ph2 & EP2 & F) ]; assert (ph2 = ph) as -> by congruence;
      rewrite (proj2 (Z.eqb_neq _ _) T1), (proj2 (Z.eqb_neq _ _) T2) in F; cbn [orb] in F; eexists; (split; [|split; [reflexivity | exact F] ]); exact (proj1 K). }
  destruct X as (fs1 & I & -> & F). rewrite F in HD. apply set_pointers in HD. specialize (I _ HD). lia.
Qed.
Theorem C90_b_pictures_partial : forall h r ids i h' r' ph img n, history (h, r) ids -> h_next (h, r) = (Ok i, (h', r')) ->
  r' <> r -> v_ph (h_v h') = Some ph -> ph_type ph <> 1 -> ph_type ph <> 2 ->
  watch n (draw i img h', r') = watch n (h', r').
Proof.
  intros h r ids i h' r' ph img n H E M P T1 T2. pose proof (history_inv _ _ H) as K. destruct (next_inv _ _ _ _ _ _ K E) as (K' & _).
  apply (watch_draw n (i :: ids)); [exact K' | now left|]. unfold h_next in E. rewrite bind_own in E. cbn [fst] in *. destruct (hs_tryget (v_fc (h_v h)) (h_fs h)).
  - rewrite bind_upd in E. cbn [fst snd] in E. injection E as _ _ E. congruence.
  - cbn [snd] in E. exact (loop_free _ _ _ _ _ _ _ K E ph P T1 T2).
Qed.
(** In general: any frame that is behind none of the four pointers of the frame store *)
Theorem C90_not_kept_partial : forall h r ids i img n, history (h, r) ids -> In i ids -> ~ In (Some i) [hr_frame (hs_0 (h_fs h)); hr_frame (hs_1 (h_fs h)); hs_past (h_fs h); hs_future (h_fs h)] ->
  watch n (draw i img h, r) = watch n (h, r).
Proof. intros h r ids i img n H I N. exact (watch_draw n ids i img h r (history_inv _ _ H) I N). Qed.
(** The second frame of the sequence I0 P3 B1 B2 is such a B picture. *)
Definition second_is_b (s : hseq * reader) : bool :=
  match h_next s with
  | (Ok _, s1) =>
      match h_next s1 with
      | (Ok _, s2) => match v_ph (h_v (fst s2)) with Some ph => (ph_type ph =? 3) && negb (Nat.eqb (length (rbits (snd s2))) (length (rbits (snd s1)))) | None => false end
      | _ => false
      end
  | _ => false
  end.
Lemma second_is_b_inv : forall r, second_is_b (h_new, r) = true -> exists h1 r1 ids i h2 r2 ph, history (h1, r1) ids /\ h_next (h1, r1) = (Ok i, (h2, r2)) /\ r2 <> r1 /\ v_ph (h_v h2) = Some ph /\ ph_type ph = 3.
Proof.
  intros r X. unfold second_is_b in X. destruct (h_next (h_new, r)) as [ [i| | |] [h1 r1] ] eqn:E1; try discriminate X. destruct (h_next (h1, r1)) as [ [j| | |] [h2 r2] ] eqn:E2; try discriminate X. cbn [fst snd] in X.
  destruct (v_ph (h_v h2)) as [ph|] eqn:EP; [|discriminate X]. apply andb_true_iff in X as (X1 & X2). apply Z.eqb_eq in X1. apply negb_true_iff, Nat.eqb_neq in X2.
  exists h1, r1, [i], j, h2, r2, ph. split; [eapply Returned; [apply Opened | exact E1]|]. split; [exact E2|]. split; [congruence|]. auto.
Qed.
Example C90_hyp : forall rd : reader, exists h r ids i h' r' ph, history (h, r) ids /\ h_next (h, r) = (Ok i, (h', r')) /\ r' <> r /\ v_ph (h_v h') = Some ph /\ ph_type ph = 3.
Proof. intro rd. apply (second_is_b_inv (setb rd (enc_sequence 2 xs_groups))). lazy. reflexivity. Qed.

(** It does not hold for the frames of I and P pictures: the sequence I0 P1, where the P picture repeats parts of the I
    picture.  Whoever paints the first frame black before asking for the second gets another second frame. *)
Definition ip_groups : list sgroup := [mkGroup (Some xs_start) (xs_gop true) 0 [] [i_pic 0; p_pic 1 f0]].
Definition black (img : image) : image := mkImage (zero_plane (pl_len (im_y img))) (zero_plane (pl_len (im_cb img))) (zero_plane (pl_len (im_cr img))) (im_ys img) (im_cs img) (im_w img) (im_h img).
Definition luma_at (k : Z) (o : res (option image)) : option Z := match o with Ok (Some img) => Some (pl_at (im_y img) k) | _ => None end.
Definition first_then (f : nat -> image -> hseq -> reader -> bool) (s : hseq * reader) : bool :=
  match h_next s with (Ok i, (h, r)) => match nth_error (h_mem h) i with Some img => f i img h r | None => false end | _ => false end.
Lemma first_then_inv : forall f s, first_then f s = true -> exists i img h r, h_next s = (Ok i, (h, r)) /\ nth_error (h_mem h) i = Some img /\ f i img h r = true.
Proof.
  intros f s X. unfold first_then in X. destruct (h_next s) as [ [i| | |] [h r] ]; try discriminate X. destruct (nth_error (h_mem h) i) as [img|] eqn:E; [|discriminate X]. eauto 8.
Qed.
Definition disturbed (i : nat) (img : image) (h : hseq) (r : reader) : bool :=
  match map (luma_at 16) (watch 1 (h, r)), map (luma_at 16) (watch 1 (draw i (black img) h, r)) with
  | [Some a], [Some b] => (a =? 131) && (b =? 0)
  | _, _ => false
  end.
Theorem C90_refuted : sequence_of picture_coded ip_groups /\
  forall rd, exists i img h r,
    h_next (h_new, setb rd (enc_sequence 0 ip_groups)) = (Ok i, (h, r)) /\ nth_error (h_mem h) i = Some img /\
    map (luma_at 16) (watch 1 (h, r)) = [Some 131] /\ map (luma_at 16) (watch 1 (draw i (black img) h, r)) = [Some 0].
Proof.
  split.
  - destruct sized_f as (S0 & S1 & _). split; [|split].
    + apply Forall_cons; [|apply Forall_nil]. split; [apply xs_start_wf|]. split; [repeat split; cbn; lia|]. split; [constructor|]. split; [constructor|].
      cbn [gr_pics]. apply Forall_cons; [apply i_wf; lia|]. apply Forall_cons; [apply p_wf; lia | apply Forall_nil].
    + apply Forall_cons; [|apply Forall_nil]. split; [reflexivity|]. eexists _, _. split; reflexivity.
    + unfold ip_groups. cbn [groups_all gr_start gr_pics]. split; [|exact I]. cbn [pictures_all]. change (ctx_start xs_start) with xs_ctx. unfold ctx_items. cbn [pi_items i_pic p_pic b_pic xs_pic fold_left].
      split; [apply i_coded|]. split; [apply (p_coded Unknown f0 1); assumption | exact I].
  - intro rd. assert (X : first_then disturbed (h_new, setb rd (enc_sequence 0 ip_groups)) = true) by (lazy; reflexivity).
    apply first_then_inv in X as (i & img & h & r & E & N & X). exists i, img, h, r. split; [exact E|]. split; [exact N|]. unfold disturbed in X.
    destruct (map (luma_at 16) (watch 1 (h, r))) as [|[a|] [|? ?] ]; try discriminate X. destruct (map (luma_at 16) (watch 1 (draw i (black img) h, r))) as [|[b|] [|? ?] ]; try discriminate X.
    apply andb_true_iff in X as (X1 & X2). apply Z.eqb_eq in X1. apply Z.eqb_eq in X2. subst. auto.
Qed.

Print Assumptions C89_frames_stay.
Print Assumptions C89_all_different.
Print Assumptions C89_collected.
Print Assumptions C89_sequence.
Print Assumptions C89_same_decoder.
Print Assumptions C90_b_pictures_partial.
Print Assumptions C90_not_kept_partial.
Print Assumptions C90_refuted.
