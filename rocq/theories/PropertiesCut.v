(** PropertiesCut: C77 (streams that break off), C78 (streams of several sequences). *)
From Coq Require Import Lia.
From Verif Require Import Base BitReader VidModel SpecVid SpecNext SpecPicture BlockModel MbModel Exec Local TsRobust VidProofs VidExt PropertiesVidHeaders NextProofs SliceProofs PropertiesNext ExampleStream
  SpecEnd EndProofs PropertiesEnd CutProofs.

(** ** C77: A stream that breaks off.
    [l] is what there is, [x] what is missing, a whole number of bytes.  A frame that Next returns is the frame
    it returns on the whole stream, with the same decoder and the same place in the stream after it; where it
    panics or runs on for ever it does so on the whole stream, too.  An error is one of the reader's own, or
    Next reports it on the whole stream, too, after the same bits and with the same decoder left. *)
Definition source_error (r : reader) (e : err) : Prop := e = rfin r \/ exists n k, e = rshort r n k.
Theorem C77_next : forall v r l x, rlater r = [] -> (length x mod 8 = 0)%nat ->
  match next (v, setb r l) with
  | (Ok img, (v', r')) => next (v, setb r (l ++ x)) = (Ok img, (v', setb r' (rbits r' ++ x)))
  | (Err e, (v', r')) => source_error r e \/ next (v, setb r (l ++ x)) = (Err e, (v', setb r' (rbits r' ++ x)))
  | (Panic, _) => fst (next (v, setb r (l ++ x))) = Panic
  | (OutOfFuel, _) => fst (next (v, setb r (l ++ x))) = OutOfFuel
  end.
Proof.
  intros v r l x Hr Hx. pose proof (cut_next (source_error r) (v, r) l x) as C. unfold wrs in C. cbn [fst snd] in C.
  specialize (C ltac:(split; [exact Hr | split; [now left | intros; right; eauto] ]) ltac:(lia) ltac:(unfold lmod; exact Hx)). destruct (next (v, setb r l)) as [ [i|e| |] [v' r'] ]; auto.
  - destruct C as ((v2 & r2) & l' & R & E & ->). cbn [fst snd] in *. injection E as -> ->. now rewrite rbits_setb.
  - destruct C as [C | ((v2 & r2) & l' & E & ->)]; [now left | right]. cbn [fst snd] in *. injection E as -> ->. now rewrite rbits_setb.
Qed.
Lemma next_src : forall P v r l img v' r', src P r -> next (v, setb r l) = (Ok img, (v', r')) -> exists r2 l', src P r2 /\ r' = setb r2 l'.
Proof.
  intros P v r l img v' r' Hr H. pose proof (cut_next P (v, r) l [] Hr ltac:(lia) eq_refl) as C. unfold wrs in C. cbn [fst snd] in C. rewrite H in C.
  destruct C as ((v2 & r2) & l' & R & E & _). cbn [fst snd] in *. injection E as -> ->. eauto.
Qed.
Lemma next_later : forall v r l img v' r', rlater r = [] -> next (v, setb r l) = (Ok img, (v', r')) -> exists r2 l', rlater r2 = [] /\ r' = setb r2 l'.
Proof. intros v r l img v' r' Hr H. destruct (next_src _ _ _ _ _ _ _ (src_any _ Hr) H) as (r2 & l' & R & ->). exists r2, l'. split; [exact (src_later _ _ R) | reflexivity]. Qed.
Lemma cut_nexts : forall n v r l x imgs v' r', rlater r = [] -> (length x mod 8 = 0)%nat -> nexts n (v, setb r l) = (Ok imgs, (v', r')) ->
  exists r2 l', rlater r2 = [] /\ r' = setb r2 l' /\ nexts n (v, setb r (l ++ x)) = (Ok imgs, (v', setb r2 (l' ++ x))).
Proof.
  induction n; intros v r l x imgs v' r' Hr Hx H; cbn [nexts] in *.
  - cbn in H. injection H as <- <- <-. exists r, l. auto.
  - apply bind_ok_inv in H. destruct H as (i & (v1 & r1) & H1 & H). apply bind_ok_inv in H. destruct H as (is & (v2 & r2) & H2 & H). cbn in H. injection H as <- <- <-.
    pose proof (C77_next v r l x Hr Hx) as C. rewrite H1 in C. destruct (next_later _ _ _ _ _ _ Hr H1) as (r3 & l3 & R3 & ->). rewrite rbits_setb in C.
    erewrite bind_ok by exact C. destruct (IHn _ _ _ x _ _ _ R3 Hx H2) as (r4 & l4 & R4 & -> & E). exists r4, l4. split; [auto|]. split; [auto|].
    change (setb (setb r3 l3) (l3 ++ x)) with (setb r3 (l3 ++ x)). erewrite bind_ok by exact E. reflexivity.
Qed.
(** Any number of frames *)
Theorem C77_frames : forall n v r l x imgs v' r', rlater r = [] -> (length x mod 8 = 0)%nat -> nexts n (v, setb r l) = (Ok imgs, (v', r')) ->
  nexts n (v, setb r (l ++ x)) = (Ok imgs, (v', setb r' (rbits r' ++ x))).
Proof. intros n v r l x imgs v' r' Hr Hx H. destruct (cut_nexts _ _ _ _ x _ _ _ Hr Hx H) as (r2 & l' & R & -> & E). now rewrite rbits_setb. Qed.

Lemma nexts_then : forall n s imgs s', nexts (S n) s = (Ok imgs, s') -> exists i s1 is, next s = (Ok i, s1) /\ nexts n s1 = (Ok is, s') /\ imgs = i :: is.
Proof.
  intros n s imgs s' H. cbn [nexts] in H. apply bind_ok_inv in H. destruct H as (i & s1 & H1 & H). apply bind_ok_inv in H. destruct H as (is & s2 & H2 & H). cbn in H. injection H as <- <-. eauto 10.
Qed.
Lemma cut_play : forall P N v r l x imgs s' e, src P r -> (length x mod 8 = 0)%nat ->
  nexts N (v, setb r (l ++ x)) = (Ok imgs, s') -> fst (next s') = Err e ->
  exists n s2 e2, (n <= N)%nat /\ nexts n (v, setb r l) = (Ok (firstn n imgs), s2) /\ fst (next s2) = Err e2 /\
    (P e2 \/ (n = N /\ e2 = e /\ exists v3 r3 l3, snd (next s') = (v3, setb r3 (l3 ++ x)))).
Proof.
  intros P. induction N; intros v r l x imgs s' e Hr Hx H He.
  - cbn in H. injection H as <- <-. pose proof (cut_next P (v, r) l x Hr ltac:(lia) Hx) as C. unfold wrs in C. cbn [fst snd] in C. exists 0%nat, (v, setb r l).
    destruct (next (v, setb r l)) as [ [i|e2| |] [v1 r1] ]; cbn [fst].
    + destruct C as (s2 & l' & _ & _ & C). rewrite C in He. discriminate He.
    + exists e2. split; [lia|]. split; [reflexivity|]. split; [reflexivity|]. destruct C as [C | ((v2 & r2) & l' & E & C)]; [now left | right].
      rewrite C in He |- *. cbn [fst snd] in *. split; [reflexivity|]. split; [congruence | eauto].
    + rewrite C in He. discriminate He.
    + rewrite C in He. discriminate He.
  - apply nexts_then in H. destruct H as (i & (v1 & r1) & is & H1 & H2 & ->). pose proof (cut_next P (v, r) l x Hr ltac:(lia) Hx) as C. unfold wrs in C. cbn [fst snd] in C.
    destruct (next (v, setb r l)) as [ [j|e2| |] [v2 r2] ] eqn:E.
    + destruct C as ((v3 & r3) & l3 & R3 & E3 & C). cbn [fst snd] in *. injection E3 as -> ->. rewrite H1 in C. injection C as -> -> ->.
      destruct (IHN v3 r3 l3 x is s' e R3 Hx H2 He) as (n & s2 & e2 & L & N2 & E2 & K). exists (S n), s2, e2. split; [lia|]. split; [|split; [exact E2|] ].
      * cbn [nexts firstn]. erewrite bind_ok by exact E. erewrite bind_ok by exact N2. reflexivity.
      * destruct K as [K | (-> & K)]; auto.
    + exists 0%nat, (v, setb r l), e2. rewrite E. split; [lia|]. split; [reflexivity|]. split; [reflexivity|]. destruct C as [C | (s2 & l' & _ & C)]; [now left|]. rewrite H1 in C. discriminate C.
    + rewrite H1 in C. discriminate C.
    + rewrite H1 in C. discriminate C.
Qed.
Lemma Forall2_firstn : forall A B (R : A -> B -> Prop) n l m, Forall2 R l m -> Forall2 R (firstn n l) (firstn n m).
Proof. intros A B R n l m H. revert n. induction H; intros [|n]; cbn; constructor; auto. Qed.
(** A sequence that breaks off after any number of bytes gives its first frames, undamaged, and then an error:
    no panic, no waiting, no frame that is not in the sequence.  The error is the reader's, never the end of the
    sequence or a complaint about the stream. *)
Theorem C77_truncated : forall k g gs r l x, sequence_of picture_coded (g :: gs) -> rlater r = [] ->
  enc_sequence k (g :: gs) = l ++ x -> (length x mod 8 = 0)%nat -> x <> [] ->
  exists n imgs s' e, nexts n (new_vidseq, setb r l) = (Ok imgs, s') /\ Forall2 looks imgs (firstn n (shown (g :: gs))) /\ fst (next s') = Err e /\ source_error r e.
Proof.
  intros k g gs r l x V Hr E Hx Nx. destruct (C73_sequences k g gs r V) as (imgs & v' & N & L & En). rewrite E in N.
  assert (Hs : src (source_error r) r) by (split; [exact Hr | split; [now left | intros; right; eauto] ]).
  destruct (cut_play _ _ _ _ _ _ _ _ EOS Hs Hx N) as (n & s2 & e & Ln & Nn & Ee & K); [now rewrite En|].
  exists n, (firstn n imgs), s2, e. split; [exact Nn|]. split; [now apply Forall2_firstn|]. split; [exact Ee|]. destruct K as [K | (_ & _ & v3 & r3 & l3 & K)]; [exact K|].
  exfalso. rewrite En in K. cbn [snd] in K. apply (f_equal (fun s => rbits (snd s))) in K. cbn [snd] in K. rewrite !rbits_setb in K. symmetry in K. apply app_eq_nil in K. tauto.
Qed.
Definition file (l : list bool) : reader := mkR l EEOF [] (fun _ _ => EUnexpectedEOF).
(** On a file, whose reader reports io.EOF or, inside a read, io.ErrUnexpectedEOF *)
Corollary C77_file : forall k g gs l x, sequence_of picture_coded (g :: gs) -> enc_sequence k (g :: gs) = l ++ x -> (length x mod 8 = 0)%nat -> x <> [] ->
  exists n imgs s' e, nexts n (new_vidseq, file l) = (Ok imgs, s') /\ Forall2 looks imgs (firstn n (shown (g :: gs))) /\ fst (next s') = Err e /\ (e = EEOF \/ e = EUnexpectedEOF).
Proof.
  intros k g gs l x V E Hx Nx. destruct (C77_truncated k g gs (file []) l x V eq_refl E Hx Nx) as (n & imgs & s' & e & N & L & Ee & K).
  exists n, imgs, s', e. split; [exact N|]. split; [exact L|]. split; [exact Ee|]. destruct K as [-> | (a & b & ->)]; cbn; auto.
Qed.
(** All frames of the groups that are there with the start code after them come out, whatever follows. *)
Theorem C77_complete_groups : forall k g gs r b t, sequence_of picture_coded (g :: gs) -> In b [sequence_header_code; group_code; sequence_end_code] -> (length t mod 8 = 0)%nat ->
  exists imgs v', nexts (length (shown (g :: gs))) (new_vidseq, setb r (bb (repeat 0 k) ++ flat_map enc_group (g :: gs) ++ code b ++ t)) = (Ok imgs, (v', setb r (code b ++ t))) /\
    Forall2 looks imgs (shown (g :: gs)).
Proof.
  intros k g gs r b t V Hb Ht. destruct (sequence_rest k g gs r (code b ++ t)) as (imgs & v' & _ & _ & _ & _ & N & L & _).
  - apply coded_valid, V.
  - exists b, t. split; [reflexivity|]. split; [exact Ht | right; exact Hb].
  - eauto.
Qed.
(** The hypotheses: a sequence of which the last hundred bytes are missing *)
Example C77_hyp : sequence_of picture_coded xs_groups /\ exists l x, enc_sequence 2 xs_groups = l ++ x /\ length x = 800%nat.
Proof.
  split; [exact C73_hyp|]. exists (firstn (length (enc_sequence 2 xs_groups) - 800) (enc_sequence 2 xs_groups)), (skipn (length (enc_sequence 2 xs_groups) - 800) (enc_sequence 2 xs_groups)).
  split; [now rewrite firstn_skipn|]. lazy. reflexivity.
Qed.

(** ** C78: Several sequences one after the other.
    Each of them is closed by a sequence end code: Next returns the frames of the first, then EOS, then those
    of the second, and so on.  What comes after the last end code is left unread. *)
Definition enc_sequences (qs : list (list sgroup)) : list bool := flat_map (fun gs => flat_map enc_group gs ++ code sequence_end_code) qs.
(** The frames of successive calls of Next, each list closed by EOS *)
Inductive plays : vidseq * reader -> list (list image) -> vidseq * reader -> Prop :=
| plays_nil : forall s, plays s [] s
| plays_seq : forall n s imgs s1 s2 rest s3, nexts n s = (Ok imgs, s1) -> next s1 = (Err EOS, s2) -> plays s2 rest s3 -> plays s (imgs :: rest) s3.
Lemma unit_len : forall l, at_unit l -> (length l mod 8 = 0)%nat.
Proof. intros l (b & t & -> & H & _). rewrite app_length, code_length. change (32 + length t)%nat with (4 * 8 + length t)%nat. rewrite Nat.add_comm, Nat.mod_add; lia. Qed.
Lemma sequences_len : forall qs t, Forall wf_group (concat qs) -> (length t mod 8 = 0)%nat -> (length (enc_sequences qs ++ t) mod 8 = 0)%nat.
Proof.
  induction qs as [|q qs IH]; intros t W Ht; [exact Ht|]. cbn [concat] in W. apply Forall_app in W. destruct W as (W1 & W2).
  cbn [enc_sequences flat_map]. fold (enc_sequences qs). rewrite <- !app_assoc. apply unit_len, groups_unit; auto.
  exists sequence_end_code, (enc_sequences qs ++ t). split; [reflexivity|]. split; [now apply IH | cbn; auto].
Qed.
Lemma groups_all_app : forall D gs gs' c o l, groups_all D c o l (gs ++ gs') -> groups_all D c o l gs.
Proof.
  induction gs as [|g gs IH]; intros gs' c o l H; [exact I|]. cbn [app groups_all] in *. destruct (match gr_start g with Some s => Some (ctx_start s) | None => c end); [|exact H].
  destruct H as (H1 & H2). split; [exact H1|]. destruct (after_pictures c0 o l (gr_pics g)) as ((c1 & o1) & l1). eapply IH, H2.
Qed.
Lemma plays_after : forall qs c o l fc v r t, between c o l None [] fc v -> Forall wf_group (concat qs) -> Forall valid_group (concat qs) ->
  groups_all picture_decodes (Some c) o l (concat qs) -> (length t mod 8 = 0)%nat ->
  exists imgss v', plays (v, setb r (enc_sequences qs ++ t)) imgss (v', setb r t) /\ Forall2 (Forall2 looks) imgss (map shown qs).
Proof.
  induction qs as [|q qs IH]; intros c o l fc v r t B W V D Ht; [exists [], v; split; constructor|].
  cbn [concat] in *. apply Forall_app in W. apply Forall_app in V. destruct W as (W1 & W2), V as (V1 & V2).
  assert (A : at_unit (code sequence_end_code ++ enc_sequences qs ++ t)).
  { exists sequence_end_code, (enc_sequences qs ++ t). split; [reflexivity|]. split; [now apply sequences_len | cbn; auto]. }
  destruct (groups_nexts q c o l fc v r (code sequence_end_code ++ enc_sequences qs ++ t) B W1 V1 (groups_all_app _ _ _ _ _ _ D) A) as (imgs & v1 & c1 & o1 & l1 & fc1 & N & L & B1 & K).
  destruct (IH _ _ _ _ _ r t B1 W2 V2 (K _ D) Ht) as (imgss & v2 & P & L2). exists (imgs :: imgss), v2. split.
  - cbn [enc_sequences flat_map]. fold (enc_sequences qs). rewrite <- !app_assoc. eapply plays_seq; [exact N | eapply next_end; exact B1 | exact P].
  - cbn [map]. constructor; auto. now rewrite shown_frames.
Qed.
(** The sequences need not know of each other: each of them decodes by itself. *)
Definition fewer (a b : known) : Prop := a = Unknown \/ a = b.
Lemma fewer_decodes : forall c o l o' l' p, fewer o o' -> fewer l l' -> picture_decodes c o l p -> picture_decodes c o' l' p.
Proof.
  intros c o l o' l' p Ho Hl D v rd rest F1 F2 F3 (R1 & R2) A. apply D; auto.
  assert (S : forall f a b, fewer a b -> serves f b -> serves f a) by (intros f a b [-> | ->] H; [exact I | exact H]).
  split; intro T; [eapply S; eauto | split; eapply S; eauto; now apply R2].
Qed.
Lemma fewer_pictures : forall ps c o l o' l', fewer o o' -> fewer l l' -> pictures_all picture_decodes c o l ps -> pictures_all picture_decodes c o' l' ps.
Proof.
  induction ps as [|p ps IH]; intros c o l o' l' Ho Hl H; [exact I|]. cbn [pictures_all] in *. destruct H as (H1 & H2). split; [eapply fewer_decodes; eauto|].
  eapply IH; [| |exact H2]; unfold older, latest; destruct (is_ref p); auto. now right.
Qed.
Lemma fewer_after : forall ps c o l o' l', fewer o o' -> fewer l l' ->
  let '(c1, o1, l1) := after_pictures c o l ps in let '(c2, o2, l2) := after_pictures c o' l' ps in c1 = c2 /\ fewer o1 o2 /\ fewer l1 l2.
Proof.
  induction ps as [|p ps IH]; intros c o l o' l' Ho Hl; [cbn; auto|]. cbn [after_pictures]. apply IH; unfold older, latest; destruct (is_ref p); auto. now right.
Qed.
Lemma fewer_groups : forall gs c o l o' l', fewer o o' -> fewer l l' -> groups_all picture_decodes c o l gs -> groups_all picture_decodes c o' l' gs.
Proof.
  induction gs as [|g gs IH]; intros c o l o' l' Ho Hl H; [exact I|]. cbn [groups_all] in *. destruct (match gr_start g with Some s => Some (ctx_start s) | None => c end) as [c0|]; [|exact H].
  destruct H as (H1 & H2). split; [eapply fewer_pictures; eauto|]. pose proof (fewer_after (gr_pics g) c0 o l o' l' Ho Hl) as F.
  destruct (after_pictures c0 o l (gr_pics g)) as ((c1 & o1) & l1), (after_pictures c0 o' l' (gr_pics g)) as ((c2 & o2) & l2). destruct F as (-> & F1 & F2). eapply IH; eauto.
Qed.
Lemma groups_join : forall gs gs' c o l, groups_all picture_decodes c o l gs -> groups_all picture_decodes None Unknown Unknown gs' -> groups_all picture_decodes c o l (gs ++ gs').
Proof.
  induction gs as [|g gs IH]; intros gs' c o l H H'.
  - cbn [app]. apply (fewer_groups gs' c Unknown Unknown); [now left | now left|]. destruct gs' as [|g' gs']; [exact I|]. cbn [groups_all] in *. now destruct (gr_start g').
  - cbn [app groups_all] in *. destruct (match gr_start g with Some s => Some (ctx_start s) | None => c end) as [c0|]; [|exact H].
    destruct H as (H1 & H2). split; [exact H1|]. destruct (after_pictures c0 o l (gr_pics g)) as ((c1 & o1) & l1). now apply IH.
Qed.
Lemma valid_concat : forall qs, Forall valid_sequence qs -> valid_sequence (concat qs).
Proof.
  induction qs as [|q qs IH]; intro H; [repeat split; constructor|]. pose proof (Forall_inv H) as (W & V & D). destruct (IH (Forall_inv_tail H)) as (W2 & V2 & D2).
  cbn [concat]. split; [apply Forall_app; auto|]. split; [apply Forall_app; auto | now apply groups_join].
Qed.
Lemma plays_valid : forall k g gs qs r t, valid_sequence (concat ((g :: gs) :: qs)) -> (length t mod 8 = 0)%nat ->
  exists imgss v', plays (new_vidseq, setb r (bb (repeat 0 k) ++ enc_sequences ((g :: gs) :: qs) ++ t)) imgss (v', setb r t) /\
    Forall2 (Forall2 looks) imgss (map shown ((g :: gs) :: qs)).
Proof.
  intros k g gs qs r t (W & V & D) Ht. pose proof D as D0. cbn [concat] in W, V, D. apply Forall_app in W. apply Forall_app in V. destruct W as (W1 & W2), V as (V1 & V2).
  assert (A : at_unit (code sequence_end_code ++ enc_sequences qs ++ t)).
  { exists sequence_end_code, (enc_sequences qs ++ t). split; [reflexivity|]. split; [now apply sequences_len | cbn; auto]. }
  destruct (sequence_rest k g gs r _ (conj W1 (conj V1 (groups_all_app _ _ _ _ _ _ D))) A) as (imgs & v1 & c1 & o1 & l1 & fc1 & N & L & B1 & K).
  destruct (plays_after qs _ _ _ _ _ r t B1 W2 V2 (K _ D) Ht) as (imgss & v2 & P & L2). exists (imgs :: imgss), v2. split.
  - change (enc_sequences ((g :: gs) :: qs)) with ((flat_map enc_group (g :: gs) ++ code sequence_end_code) ++ enc_sequences qs). rewrite <- !app_assoc.
    eapply plays_seq; [exact N | eapply next_end; exact B1 | exact P].
  - constructor; auto.
Qed.
Theorem C78_sequences : forall k q qs r t, Forall (sequence_of picture_coded) (q :: qs) -> q <> [] -> (length t mod 8 = 0)%nat ->
  exists imgss v', plays (new_vidseq, setb r (bb (repeat 0 k) ++ enc_sequences (q :: qs) ++ t)) imgss (v', setb r t) /\
    Forall2 (Forall2 looks) imgss (map shown (q :: qs)).
Proof.
  intros k [|g gs] qs r t C Hq Ht; [congruence|]. apply plays_valid; [|exact Ht]. apply valid_concat. revert C. apply Forall_impl. exact coded_valid.
Qed.
(** The same if a later sequence goes on where the one before it ended: it may use its references, and its headers
    and matrices hold until it gives its own. *)
Theorem C78_continued : forall k g gs qs r t, sequence_of picture_coded (concat ((g :: gs) :: qs)) -> (length t mod 8 = 0)%nat ->
  exists imgss v', plays (new_vidseq, setb r (bb (repeat 0 k) ++ enc_sequences ((g :: gs) :: qs) ++ t)) imgss (v', setb r t) /\
    Forall2 (Forall2 looks) imgss (map shown ((g :: gs) :: qs)).
Proof. intros k g gs qs r t C Ht. apply plays_valid; [|exact Ht]. now apply coded_valid. Qed.
(** Two sequences, each with its sequence header and a closed group *)
Definition one_group : sgroup := mkGroup (Some xs_start) (xs_gop true) 0 [XUser [7] ] [i_pic 0; p_pic 3 f0; b_pic 1 f0 f1; b_pic 2 f0 f1].
Example C78_continued_hyp : sequence_of picture_coded (concat [ [one_group]; [one_group] ]).
Proof.
  destruct sized_f as (S0 & S1 & S2 & S3).
  assert (W : wf_group one_group) by exact (Forall_inv (proj1 xs_groups_coded)).
  assert (V : valid_group one_group) by exact (Forall_inv (proj1 (proj2 xs_groups_coded))).
  split; [|split]; cbn [concat app].
  - auto.
  - auto.
  - cbn [groups_all one_group gr_start gr_pics]. split; [|split; [|exact I] ].
    + exact (proj1 (proj2 (proj2 xs_groups_coded))).
    + cbn [pictures_all]. change (ctx_start xs_start) with xs_ctx. unfold ctx_items. cbn [pi_items i_pic p_pic b_pic xs_pic fold_left].
      split; [apply i_coded|]. split; [apply (p_coded (Is f1) f0 3); assumption|]. split; [apply (b_coded f0 f1 1); assumption|]. split; [apply (b_coded f0 f1 2); assumption | exact I].
Qed.
Example C78_hyp : Forall (sequence_of picture_coded) [xs_groups; [one_group]; xs_groups] /\ xs_groups <> [].
Proof.
  split; [|discriminate]. apply Forall_cons; [apply xs_groups_coded|]. apply Forall_cons; [|apply Forall_cons; [apply xs_groups_coded | apply Forall_nil] ].
  destruct C78_continued_hyp as (W & V & D). split; [exact (Forall_cons _ (Forall_inv W) (Forall_nil _))|]. split; [exact (Forall_cons _ (Forall_inv V) (Forall_nil _))|].
  apply (groups_all_app _ [one_group] [one_group]). exact D.
Qed.
Print Assumptions C77_next.
Print Assumptions C77_frames.
Print Assumptions C77_truncated.
Print Assumptions C77_file.
Print Assumptions C77_complete_groups.
Print Assumptions C78_sequences.
Print Assumptions C78_continued.
