(** PropertiesSplice: C120 - groups cut out of a sequence. *)
From Coq Require Import Lia.
From Verif Require Import Base BitReader VidModel SpecVid SpecVlc SpecBlock SpecMotion SpecNext SpecPicture SpecSplice BlockModel MbModel NextProofs SliceProofs ExampleStream PropertiesPes PropertiesVidHeaders PropertiesNext.

Lemma i_coded : forall c o l o' l' p, p_type (pi_hdr p) = 1 -> picture_coded c o l p -> picture_coded c o' l' p.
Proof. intros c o l o' l' p T H. unfold picture_coded, params_of in *. rewrite T in *. exact H. Qed.
Lemma p_coded : forall c o o' l p, p_type (pi_hdr p) <> 3 -> picture_coded c o l p -> picture_coded c o' l p.
Proof.
  intros c o o' l p T H. unfold picture_coded, params_of in *. apply Z.eqb_neq in T. rewrite T in *. exact H.
Qed.
Lemma rest_coded : forall ps c o o' l, (o = o' \/ match ps with q :: _ => p_type (pi_hdr q) <> 3 | [] => True end) -> pictures_all picture_coded c o l ps ->
  pictures_all picture_coded c o' l ps /\
  fst (fst (after_pictures c o' l ps)) = fst (fst (after_pictures c o l ps)) /\ snd (after_pictures c o' l ps) = snd (after_pictures c o l ps).
Proof.
  intros [|q qs] c o o' l H P; [split; [exact I|]; split; reflexivity|].
  destruct H as [<- | T]; [split; [exact P|]; split; reflexivity|].
  cbn [pictures_all after_pictures] in *. destruct P as (P1 & P2).
  assert (R : is_ref q = true) by (unfold is_ref; apply Z.eqb_neq in T; now rewrite T). unfold older, latest in *. rewrite R in *.
  split; [split; [exact (p_coded _ _ _ _ _ T P1) | exact P2] | split; reflexivity].
Qed.
Lemma group_coded : forall g c o l o' l', valid_group g -> (l = l' \/ closed g) -> pictures_all picture_coded c o l (gr_pics g) ->
  pictures_all picture_coded c o' l' (gr_pics g) /\
  fst (fst (after_pictures c o' l' (gr_pics g))) = fst (fst (after_pictures c o l (gr_pics g))) /\ snd (after_pictures c o' l' (gr_pics g)) = snd (after_pictures c o l (gr_pics g)).
Proof.
  intros g c o l o' l' (_ & p & ps & EP & T) H P. unfold closed in H. rewrite EP in *. cbn [pictures_all after_pictures] in *. destruct P as (P1 & P2).
  assert (R : is_ref p = true) by (unfold is_ref; now rewrite T). unfold older, latest in *. rewrite R in *.
  destruct (rest_coded ps (ctx_items c (pi_items p)) l l' (Is (pi_frame p))) as (Q1 & Q2 & Q3); [destruct H; auto | exact P2|].
  split; [split; [exact (i_coded _ _ _ _ _ _ T P1) | exact Q1] | split; assumption].
Qed.
Lemma unassuming_ctx : forall ps c o l, forallb (fun p => match pi_items p with [] => true | _ => false end) ps = true -> fst (fst (after_pictures c o l ps)) = c.
Proof.
  induction ps as [|p ps IH]; intros c o l H; [reflexivity|]. cbn [forallb] in H. apply andb_prop in H. destruct H as (H1 & H2). cbn [after_pictures].
  destruct (pi_items p); [|discriminate H1]. rewrite IH by exact H2. reflexivity.
Qed.
Lemma kept_coded : forall gs (cx rf : bool) c o l c' o' l', may_cut cx rf gs -> (cx = true -> c = c') -> (rf = true -> l = l') -> Forall valid_group (map snd gs) ->
  groups_all picture_coded c o l (map snd gs) -> groups_all picture_coded c' o' l' (kept gs).
Proof.
  induction gs as [|[b g] gs IH]; intros cx rf c o l c' o' l' M HC HR V G; [exact I|]. cbn [map] in V. pose proof (Forall_inv V) as Vg. apply Forall_inv_tail in V. cbn [snd] in Vg.
  cbn [map groups_all snd] in G. destruct b; cbn [may_cut] in M.
  - destruct M as (M1 & M2 & M3). unfold kept. cbn [filter fst map snd groups_all].
    assert (EC : match gr_start g with Some s => Some (ctx_start s) | None => c' end = match gr_start g with Some s => Some (ctx_start s) | None => c end).
    { destruct (gr_start g) as [s|]; [reflexivity|]. destruct M1 as [M1 | M1]; [now rewrite HC | congruence]. }
    rewrite EC. destruct (match gr_start g with Some s => Some (ctx_start s) | None => c end) as [c0|]; [|exact G]. destruct G as (G1 & G2).
    destruct (group_coded g c0 o l o' l' Vg) as (Q1 & Q2 & Q3); [destruct M2 as [-> | M2]; [left; now apply HR | right; exact M2] | exact G1|].
    split; [exact Q1|]. destruct (after_pictures c0 o l (gr_pics g)) as ((c1 & o1) & l1). destruct (after_pictures c0 o' l' (gr_pics g)) as ((c2 & o2) & l2).
    cbn [fst snd] in Q2, Q3. subst c2 l2. eapply (IH true true); eauto.
  - unfold kept. cbn [filter fst]. fold (kept gs). destruct (match gr_start g with Some s => Some (ctx_start s) | None => c end) as [c0|] eqn:E; [|contradiction]. destruct G as (G1 & G2).
    destruct (after_pictures c0 o l (gr_pics g)) as ((c1 & o1) & l1) eqn:EA. eapply IH; [exact M | | discriminate | exact V | exact G2].
    intro K. apply andb_prop in K. destruct K as (K1 & K2). unfold unassuming in K2. destruct (gr_start g); [discriminate K2|].
    pose proof (unassuming_ctx _ c0 o l K2) as EU. rewrite EA in EU. cbn [fst] in EU. rewrite <- (HC K1). congruence.
Qed.

(** What is left of a coded sequence when groups are cut out of it is a coded sequence, of the same pictures. *)
Theorem C120_still_coded : forall l, sequence_of picture_coded (map snd l) -> may_cut true true l -> sequence_of picture_coded (kept l).
Proof.
  intros l (W & V & G) M. split; [|split].
  - rewrite Forall_forall in *. intros g I. unfold kept in I. apply in_map_iff in I. destruct I as (x & <- & I). apply filter_In in I. apply W. apply in_map, I.
  - rewrite Forall_forall in *. intros g I. unfold kept in I. apply in_map_iff in I. destruct I as (x & <- & I). apply filter_In in I. apply V. apply in_map, I.
  - exact (kept_coded l true true None Unknown Unknown None Unknown Unknown M (fun _ => eq_refl) (fun _ => eq_refl) V G).
Qed.
(** It plays: Next returns the frames of the groups that are left, the same as in the whole sequence. *)
Theorem C120_cut : forall k l rd, sequence_of picture_coded (map snd l) -> may_cut true true l -> kept l <> [] ->
  exists imgs v',
    nexts (length (shown (kept l))) (new_vidseq, setb rd (enc_sequence k (kept l))) = (Ok imgs, (v', setb rd (code sequence_end_code))) /\
    Forall2 looks imgs (shown (kept l)) /\
    next (v', setb rd (code sequence_end_code)) = (Err EOS, (v', setb rd [])).
Proof.
  intros k l rd C M N. pose proof (C120_still_coded l C M) as H. destruct (kept l) as [|g gs]; [congruence|]. now apply C73_sequences.
Qed.

(** ** An example: the first group of [xs_groups], I P B B, three times; the second is cut out. *)
Definition sp_group (s : option sstart) : sgroup := mkGroup s (xs_gop true) 0 [XUser [7] ] [i_pic 0; p_pic 3 f0; b_pic 1 f0 f1; b_pic 2 f0 f1].
Definition sp_groups : list choice := [(true, sp_group (Some xs_start)); (false, sp_group None); (true, sp_group None)].
Example C120_hyp : sequence_of picture_coded (map snd sp_groups) /\ may_cut true true sp_groups /\ length (shown (kept sp_groups)) = 8%nat.
Proof.
  pose proof xs_groups_coded as (W & V & G).
  assert (W1 : wf_group (sp_group (Some xs_start))) by exact (Forall_inv W).
  assert (W2 : wf_group (sp_group None)) by (destruct W1 as (_ & W1); split; [exact I | exact W1]).
  assert (V1 : valid_group (sp_group (Some xs_start))) by exact (Forall_inv V).
  assert (V2 : valid_group (sp_group None)) by exact V1.
  assert (CL : closed (sp_group None)) by (cbn; lia).
  assert (P : forall o l, pictures_all picture_coded (ctx_start xs_start) o l (gr_pics (sp_group None))).
  { intros o l. apply (group_coded (sp_group None) (ctx_start xs_start) Unknown Unknown o l V2 (or_intror CL)). exact (proj1 G). }
  assert (A : forall o l, fst (fst (after_pictures (ctx_start xs_start) o l (gr_pics (sp_group None)))) = ctx_start xs_start) by (intros; apply unassuming_ctx; reflexivity).
  split; [|split].
  - split; [repeat (apply Forall_cons; [assumption|]); apply Forall_nil|]. split; [repeat (apply Forall_cons; [assumption|]); apply Forall_nil|].
    cbn [map snd sp_groups groups_all]. change (gr_start (sp_group (Some xs_start))) with (Some xs_start). change (gr_start (sp_group None)) with (@None sstart). cbv iota.
    change (gr_pics (sp_group (Some xs_start))) with (gr_pics (sp_group None)).
    split; [apply P|]. pose proof (A Unknown Unknown) as A1. destruct (after_pictures (ctx_start xs_start) Unknown Unknown (gr_pics (sp_group None))) as ((c1 & o1) & l1). cbn [fst] in A1. subst c1.
    split; [apply P|]. pose proof (A o1 l1) as A1. destruct (after_pictures (ctx_start xs_start) o1 l1 (gr_pics (sp_group None))) as ((c1 & o2) & l2). cbn [fst] in A1. subst c1.
    split; [apply P|]. destruct (after_pictures (ctx_start xs_start) o2 l2 (gr_pics (sp_group None))) as ((c1 & o3) & l3). exact I.
  - split; [now left|]. split; [now left|]. split; [now left|]. split; [right; exact CL | exact I].
  - reflexivity.
Qed.
Print Assumptions C120_cut.
