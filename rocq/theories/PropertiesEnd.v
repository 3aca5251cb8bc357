(** PropertiesEnd: C54 (Next comes to an end), C76 (a stream gives no more frames than it has pictures). *)
From Coq Require Import Lia.
From Verif Require Import Base BitReader VidModel SpecVid SpecNext BlockModel MbModel Exec VidProofs VidExt PropertiesVidHeaders NextProofs PropertiesNext ExampleStream
  SpecEnd Mono EndProofs EndProofs2 CountProofs.

(** ** C54: Next comes to an end.
    For every state of the decoder and every finite stream in which no extension start code follows a group of
    pictures header (with nothing but user data between).  What is missing are the streams with such an
    extension, on which Next does not end: [C54_next_refuted], [C54_group_extension_refuted]. *)
Theorem C54_next_ends_partial : forall v r, rlater r = [] -> ~ extension_after_group (rbits r) -> fst (next (v, r)) <> OutOfFuel.
Proof. intros v r Hr X H. apply X. destruct (next (v, r)) as [o s'] eqn:E. cbn [fst] in H. subst. eapply next_ends; eauto. Qed.
(** So does the loop that calls Next until it gets an error, from a new decoder. *)
Theorem C54_play_ends_partial : forall r, rlater r = [] -> ~ extension_after_group (rbits r) ->
  exists n imgs s', nexts n (new_vidseq, r) = (Ok imgs, s') /\ (fst (next s') = Panic \/ exists e, fst (next s') = Err e).
Proof.
  intros r Hr X. destruct (play_ends (S (length (rbits r))) new_vidseq r Hr new_fine X) as (n & imgs & s' & H1 & _ & H2); eauto.
  change (pending new_vidseq) with 0%nat. unfold left. lia.
Qed.

(** A decidable condition for the hypothesis *)
Fixpoint starts (p l : list bool) : bool :=
  match p, l with [], _ => true | a :: p, b :: l => Bool.eqb a b && starts p l | _, _ => false end.
Fixpoint zeros_then (f : nat) (l : list bool) : bool :=
  match f with
  | O => false
  | S f => starts (code extension_code) l || starts (code user_data_code) l || (starts (repeat false 8) l && zeros_then f (skipn 8 l))
  end.
Definition suspicious (l : list bool) : bool :=
  starts (code group_code) l && existsb (fun a => zeros_then (S (length l)) (skipn (59 + a) l)) (seq 0 8).
Fixpoint suspect (l : list bool) : bool := suspicious l || match l with [] => false | _ :: l => suspect l end.
Lemma starts_app : forall p l, starts p (p ++ l) = true.
Proof. induction p as [|a p IH]; intro l; [reflexivity|]. cbn. now rewrite Bool.eqb_reflx, IH. Qed.
Lemma zeros_then_ok : forall k f l, (k < f)%nat -> starts (code extension_code) l || starts (code user_data_code) l = true -> zeros_then f (bb (repeat 0 k) ++ l) = true.
Proof.
  induction k as [|k IH]; intros [|f] l Hf H; try lia.
  - cbn [repeat bb flat_map app zeros_then]. now rewrite H.
  - cbn [repeat]. change (bb (0 :: repeat 0 k)) with (repeat false 8 ++ bb (repeat 0 k)). rewrite <- app_assoc. cbn [zeros_then].
    rewrite starts_app. change (skipn 8 (repeat false 8 ++ bb (repeat 0 k) ++ l)) with (bb (repeat 0 k) ++ l). rewrite IH by (auto; lia). now rewrite !Bool.orb_true_r.
Qed.
Lemma suspect_app : forall a l, suspect l = true -> suspect (a ++ l) = true.
Proof. induction a as [|x a IH]; intros l H; [exact H|]. cbn [app suspect]. rewrite (IH l H). apply Bool.orb_true_r. Qed.
Lemma suspicious_ok : forall l, suspicious l = true -> suspect l = true.
Proof. intros [|x l] H; cbn [suspect]; now rewrite H. Qed.
Lemma suspect_ok : forall l, extension_after_group l -> suspect l = true.
Proof.
  intros l (a & g & al & k & us & t & G & A & B & N & ->). apply suspect_app, suspicious_ok. unfold suspicious. change 184 with group_code. rewrite starts_app. cbn [andb].
  apply existsb_exists. exists (length al). split; [apply in_seq; lia|].
  set (rest := bb (repeat 0 k) ++ concat (map enc_user us) ++ code extension_code ++ t).
  replace (skipn (59 + length al) (code group_code ++ g ++ al ++ rest)) with rest.
  - apply zeros_then_ok.
    + unfold rest. rewrite !app_length, bb_length, repeat_length. lia.
    + destruct us as [|u us]; cbn [map concat app]; [now rewrite starts_app|]. unfold enc_user. rewrite <- !app_assoc, starts_app. apply Bool.orb_true_r.
  - rewrite !app_assoc, skipn_app. rewrite skipn_all2 by (rewrite !app_length, code_length; lia). rewrite !app_length, code_length.
    replace (59 + length al - (32 + length g + length al))%nat with 0%nat by lia. reflexivity.
Qed.

(** The hypothesis holds of a sequence of an I, a P and two B pictures. *)
Definition calm_groups : list sgroup := [mkGroup (Some xs_start) (xs_gop true) 0 [] [i_pic 0; p_pic 3 f0; b_pic 1 f0 f1; b_pic 2 f0 f1]].
Example C54_next_hyp : ~ extension_after_group (enc_sequence 2 calm_groups).
Proof.
  intro H. apply suspect_ok in H. assert (E : suspect (enc_sequence 2 calm_groups) = false) by (lazy; reflexivity). rewrite E in H. discriminate H.
Qed.

(** A stream on which Next does not end: a sequence header with its extension, a group of pictures header, and an
    extension.  The decoder gets to the extension and stays there, whatever the number [f] of turns. *)
Definition endless : list bool := enc_start xs_start ++ stuffed (enc_gop (xs_gop true)) 0 ++ code extension_code.
Theorem C54_next_refuted : forall r, rlater r = [] -> extension_after_group endless /\
  exists v', next (new_vidseq, setb r endless) = (OutOfFuel, (v', setb r (code extension_code))) /\
    forall f, ext_user_loop f 1 (v', setb r (code extension_code)) = (OutOfFuel, (v', setb r (code extension_code))).
Proof.
  intros r Hr. split.
  - exists (enc_start xs_start), (skipn 32 (enc_gop (xs_gop true))), (repeat false 5), 0%nat, [], [].
    split; [reflexivity|]. split; [cbn; lia|]. split; [constructor|]. split; [constructor|]. vm_compute. reflexivity.
  - exists (fst (snd (next (new_vidseq, setb r endless)))). split; [vm_compute; reflexivity|].
    intro f. pose proof (ext_user_stuck f (fst (snd (next (new_vidseq, setb r endless)))) r []) as K. rewrite app_nil_r in K. exact K.
Qed.

Lemma Forall2_same : forall A B (R : A -> B -> Prop) l m, Forall2 R l m -> length l = length m.
Proof. induction 1; cbn; congruence. Qed.
(** ** C76: no frame is shown twice, so a stream of [b] bytes gives at most [b / 4] frames. *)
Theorem C76_bound : forall n r imgs v' r', rlater r = [] -> nexts n (new_vidseq, r) = (Ok imgs, (v', r')) ->
  (32 * n + length (rbits r') <= length (rbits r))%nat.
Proof. intros n r imgs v' r' Hr H. pose proof (frames_bound _ _ _ _ _ Hr H). unfold left in *. lia. Qed.
(** The eight frames of a valid sequence *)
Example C76_hyp : forall r, exists imgs v' r', nexts 8 (new_vidseq, setb r (enc_sequence 2 xs_groups)) = (Ok imgs, (v', r')) /\ length imgs = 8%nat.
Proof.
  intro r. destruct (C73_sequences 2 _ _ r C73_hyp) as (imgs & v' & H & L & _). exists imgs, v', (setb r (code sequence_end_code)).
  split; [exact H|]. apply Forall2_same in L. exact L.
Qed.
Print Assumptions C54_next_ends_partial.
Print Assumptions C54_play_ends_partial.
Print Assumptions C54_next_refuted.
Print Assumptions C76_bound.
