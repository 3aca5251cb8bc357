(** PropertiesSamples: C46 - every sample of every frame that Next returns is in 0..255, over every stream. *)
From Coq Require Import Lia.
From Verif Require Import Base BitReader VidModel BlockModel MbModel SampleProofs SpecVid SpecNext NextProofs PropertiesNext ExampleStream PropertiesEnd PropertiesCut.

(** The calls of Next on a new decoder, with whatever stream, errors included; [imgs] are the frames returned so far,
    the latest first. *)
Inductive called : vidseq * reader -> list image -> Prop :=
| Opened : forall r, called (new_vidseq, r) []
| Returned : forall s imgs img s', called s imgs -> next s = (Ok img, s') -> called s' (img :: imgs)
| Refused : forall s imgs e s', called s imgs -> next s = (Err e, s') -> called s' imgs.

(** ** C46: whatever bits the stream consists of - valid or not, ending anywhere, however its bytes arrive - and
    whatever errors come between, every sample of the three planes of every frame returned is in 0..255. *)
Theorem C46_frames : forall s imgs, called s imgs ->
  forall img p, In img imgs -> p = im_y img \/ p = im_cb img \/ p = im_cr img -> forall k, 0 <= k < pl_len p -> 0 <= pl_at p k <= 255.
Proof.
  intros s imgs H img p I P k _.
  assert (G : byte_store (v_fs (fst s)) /\ Forall byte_frame imgs).
  { clear I. induction H as [r | s imgs f s' H IH E | s imgs e s' H IH E].
    - split; [|constructor]. intros f F. cbn in F. destruct F as [F|[F|[F|F] ] ]; discriminate.
    - destruct IH as (B & F). destruct s as [v r], s' as [v' r']. destruct (next_byte _ _ _ _ _ B E) as (X & B'). split; [exact B' | now constructor].
    - destruct IH as (B & F). split; [|exact F]. pose proof (guards_next s B) as K. rewrite E in K. exact K. }
  destruct G as (_ & G). rewrite Forall_forall in G. destruct (G _ I) as (A & B & C). destruct P as [->|[->| ->] ]; [apply A | apply B | apply C].
Qed.
(** The eight frames of a sequence with I, P and B pictures, and the error at its end *)
Example C46_frames_hyp : forall r : reader, exists imgs s s', called s imgs /\ length imgs = 8%nat /\ next s = (Err EOS, s') /\ called s' imgs.
Proof.
  intro r. assert (G : forall n s l imgs s', called s l -> nexts n s = (Ok imgs, s') -> called s' (rev imgs ++ l)).
  { induction n as [|n IH]; intros s l imgs s' C H; cbn [nexts] in H; [inversion H; subst; exact C|].
    apply TsRobust.bind_ok_inv in H. destruct H as (x & s1 & E1 & H). apply TsRobust.bind_ok_inv in H. destruct H as (xs & s2 & E2 & H). inversion H; subst. cbn [rev]. rewrite <- app_assoc. eapply IH; [|exact E2]. eapply Returned; eauto. }
  destruct (C73_sequences 2 _ _ r C73_hyp) as (imgs & v' & H & L & E).
  pose proof (G _ _ _ _ _ (Opened _) H) as C. pose proof (Refused _ _ _ _ C E) as C'. eexists _, _, _. split; [exact C|]. split; [|split; [exact E | exact C'] ].
  rewrite app_nil_r, rev_length. apply Forall2_same in L. exact L.
Qed.
Print Assumptions C46_frames.
