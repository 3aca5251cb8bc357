(** PropertiesEdit: C122 - sequences joined; C123 - sequence headers repeated. *)
From Coq Require Import Lia.
From Verif Require Import Base BitReader VidModel SpecVid SpecVlc SpecBlock SpecMotion SpecNext SpecPicture SpecSplice SpecEdit BlockModel MbModel NextProofs SliceProofs ExampleStream PropertiesPes PropertiesVidHeaders PropertiesNext PropertiesJoin PropertiesSplice.

(** * C122 *)

(** A coded sequence is coded after anything else, if it starts with a closed group. *)
Lemma groups_any_older : forall gs c o o' l, Forall valid_group gs -> groups_all picture_coded c o l gs -> groups_all picture_coded c o' l gs.
Proof.
  intros [|g gs] c o o' l V G; [exact Logic.I|]. cbn [groups_all] in *. destruct (match gr_start g with Some s => Some (ctx_start s) | None => c end) as [c0|]; [|exact G]. destruct G as (G1 & G2).
  pose proof (Forall_inv V) as (_ & p & ps & EP & TY). rewrite EP in *. assert (R : is_ref p = true) by (unfold is_ref; now rewrite TY).
  cbn [pictures_all after_pictures] in *. unfold older, latest in *. rewrite R in *. destruct G1 as (G0 & G1).
  split; [split; [exact (i_coded _ _ _ _ _ _ TY G0) | exact G1] | exact G2].
Qed.
Lemma joined_after : forall gs c o l, starts_closed gs -> Forall valid_group gs -> groups_all picture_coded None Unknown Unknown gs -> groups_all picture_coded c o l gs.
Proof.
  intros [|g gs] c o l C V G; [exact Logic.I|]. cbn [groups_all] in *. destruct (gr_start g) as [s|]; [|contradiction]. destruct G as (G1 & G2).
  destruct (group_coded g (ctx_start s) Unknown Unknown o l (Forall_inv V) (or_intror C) G1) as (Q1 & Q2 & Q3). split; [exact Q1|].
  destruct (after_pictures (ctx_start s) Unknown Unknown (gr_pics g)) as ((c1 & o1) & l1). destruct (after_pictures (ctx_start s) o l (gr_pics g)) as ((c2 & o2) & l2).
  cbn [fst snd] in Q2, Q3. subst c2 l2. exact (groups_any_older _ _ o1 _ _ (Forall_inv_tail V) G2).
Qed.
Lemma joined_all : forall a b c o l, starts_closed b -> Forall valid_group b -> groups_all picture_coded c o l a -> groups_all picture_coded None Unknown Unknown b -> groups_all picture_coded c o l (a ++ b).
Proof.
  induction a as [|g a IH]; intros b c o l C V GA GB; [now apply joined_after|]. cbn [app groups_all] in *.
  destruct (match gr_start g with Some s => Some (ctx_start s) | None => c end) as [c0|]; [|exact GA]. destruct GA as (G1 & G2). split; [exact G1|].
  destruct (after_pictures c0 o l (gr_pics g)) as ((c1 & o1) & l1). now apply IH.
Qed.
Theorem C122_still_coded : forall ss, Forall (fun gs => sequence_of picture_coded gs /\ starts_closed gs) ss -> sequence_of picture_coded (concat ss).
Proof.
  induction 1 as [|gs ss ((W & V & G) & C) H (W1 & V1 & G1)]; [repeat split; constructor|]. cbn [concat].
  split; [apply Forall_app; auto|]. split; [apply Forall_app; auto|]. apply joined_all; auto.
  clear - H. induction H as [|gs1 ss (_ & C) H IH]; [exact Logic.I|]. cbn [concat]. destruct gs1; [exact IH | exact C].
Qed.
(** Coded sequences that start with a closed group, of whatever sizes, can be put one after the other without a
    sequence_end_code between them: Next returns the frames of all of them, in order. *)
Theorem C122_joined : forall k ss rd, Forall (fun gs => sequence_of picture_coded gs /\ starts_closed gs) ss -> concat ss <> [] ->
  exists imgs v',
    nexts (length (flat_map shown ss)) (new_vidseq, setb rd (enc_sequence k (concat ss))) = (Ok imgs, (v', setb rd (code sequence_end_code))) /\
    Forall2 looks imgs (flat_map shown ss) /\
    next (v', setb rd (code sequence_end_code)) = (Err EOS, (v', setb rd [])).
Proof.
  intros k ss rd H N. assert (E : flat_map shown ss = shown (concat ss)).
  { clear. induction ss as [|gs ss IH]; [reflexivity|]. cbn [flat_map concat]. rewrite IH. unfold shown. now rewrite flat_map_app, map_app. }
  rewrite E. apply C122_still_coded in H. destruct (concat ss) as [|g gs]; [congruence|]. now apply C73_sequences.
Qed.

(** * C123 *)

Lemma no_matrices_ctx : forall g c o l, no_matrices g -> fst (fst (after_pictures c o l (gr_pics g))) = c.
Proof.
  intros g c o l H. apply unassuming_ctx. unfold no_matrices in H. induction H as [|p ps E H IH]; [reflexivity|]. cbn. rewrite E. exact IH.
Qed.
Lemma headers_all : forall s l l', map snd l = map snd l' -> Forall (fun x : choice => no_matrices (snd x)) l -> forall o lt,
  groups_all picture_coded (Some (ctx_start s)) o lt (map (fun x : choice => with_start (if fst x then Some s else None) (snd x)) l) ->
  groups_all picture_coded (Some (ctx_start s)) o lt (map (fun x : choice => with_start (if fst x then Some s else None) (snd x)) l').
Proof.
  intros s. induction l as [|[b h] l IH]; intros [|[b' h'] l'] E N o lt G; try discriminate E; [exact G|]. cbn [map snd] in E. injection E as <- E.
  pose proof (Forall_inv N) as N1. apply Forall_inv_tail in N. cbn [snd] in N1.
  cbn [map groups_all with_start gr_start gr_pics fst snd] in *.
  assert (X : forall x : bool, match (if x then Some s else None) with Some s0 => Some (ctx_start s0) | None => Some (ctx_start s) end = Some (ctx_start s)) by (now intros []).
  rewrite X in *. destruct G as (G1 & G2). split; [exact G1|]. pose proof (no_matrices_ctx h (ctx_start s) o lt N1) as EC.
  destruct (after_pictures (ctx_start s) o lt (gr_pics h)) as ((c1 & o1) & l1). cbn [fst] in EC. subst c1. now apply (IH l').
Qed.
Lemma headers_shown : forall s g l l', map snd l = map snd l' -> shown (with_headers s g l) = shown (with_headers s g l').
Proof.
  intros s g l l' E. unfold with_headers, shown. cbn [flat_map with_start gr_pics]. f_equal. f_equal. revert l' E.
  induction l as [|[b h] l IH]; intros [|[b' h'] l'] E; try discriminate E; [reflexivity|]. cbn [map snd] in E. injection E as <- E. cbn [map flat_map with_start gr_pics fst snd]. now rewrite (IH l' E).
Qed.
Theorem C123_still_coded : forall s g l l', map snd l = map snd l' -> Forall (fun x : choice => no_matrices (snd x)) l -> no_matrices g ->
  sequence_of picture_coded (with_headers s g l) -> sequence_of picture_coded (with_headers s g l').
Proof.
  intros s g l l' E N Ng (W & V & G). unfold with_headers in *.
  pose proof (Forall_inv W) as W0. apply Forall_inv_tail in W. pose proof (Forall_inv V) as V0. apply Forall_inv_tail in V.
  split; [|split].
  - apply Forall_cons; [exact W0|]. clear G N V. revert l' E W. induction l as [|[b h] l IH]; intros [|[b' h'] l'] E W; try discriminate E; [constructor|]. cbn [map snd] in E. injection E as <- E.
    cbn [map] in *. pose proof (Forall_inv W) as W1. apply Forall_inv_tail in W. apply Forall_cons; [|now apply IH].
    destruct W1 as (_ & W1). split; [|exact W1]. destruct W0 as (W0 & _). destruct b'; [exact W0 | exact Logic.I].
  - apply Forall_cons; [exact V0|]. clear G N W. revert l' E V. induction l as [|[b h] l IH]; intros [|[b' h'] l'] E V; try discriminate E; [constructor|]. cbn [map snd] in E. injection E as <- E.
    cbn [map] in *. pose proof (Forall_inv V) as V1. apply Forall_inv_tail in V. apply Forall_cons; [exact V1 | now apply IH].
  - cbn [groups_all with_start gr_start gr_pics] in *. destruct G as (G1 & G2). split; [exact G1|]. pose proof (no_matrices_ctx g (ctx_start s) Unknown Unknown Ng) as EC.
    destruct (after_pictures (ctx_start s) Unknown Unknown (gr_pics g)) as ((c1 & o1) & l1). cbn [fst] in EC. subst c1. now apply (headers_all s l l').
Qed.
(** If no picture brings matrices of its own, the sequence header can be repeated before any of the groups, or left out
    before any but the first: the frames are the same. *)
Theorem C123_headers : forall k s g l l' rd, map snd l = map snd l' -> Forall (fun x : choice => no_matrices (snd x)) l -> no_matrices g ->
  sequence_of picture_coded (with_headers s g l) ->
  exists imgs v',
    nexts (length (shown (with_headers s g l))) (new_vidseq, setb rd (enc_sequence k (with_headers s g l'))) = (Ok imgs, (v', setb rd (code sequence_end_code))) /\
    Forall2 looks imgs (shown (with_headers s g l)) /\
    next (v', setb rd (code sequence_end_code)) = (Err EOS, (v', setb rd [])).
Proof.
  intros k s g l l' rd E N Ng H. rewrite (headers_shown s g l l' E). pose proof (C123_still_coded s g l l' E N Ng H) as H'. unfold with_headers in *. now apply C73_sequences.
Qed.

(** ** Examples: a sequence twice; and a header repeated before its second, open group *)
Example C122_hyp : Forall (fun gs => sequence_of picture_coded gs /\ starts_closed gs) [xs_groups; xs_groups; [join_first] ] /\ length (flat_map shown [xs_groups; xs_groups; [join_first] ]) = 18%nat.
Proof.
  assert (A : sequence_of picture_coded xs_groups /\ starts_closed xs_groups) by (split; [exact xs_groups_coded | cbn; lia]).
  destruct join_coded as (W & V & G). cbn [app] in *. split; [|reflexivity]. apply Forall_cons; [exact A|]. apply Forall_cons; [exact A|]. apply Forall_cons; [|apply Forall_nil].
  split; [|cbn; lia]. split; [apply Forall_cons; [exact (Forall_inv W) | apply Forall_nil]|]. split; [apply Forall_cons; [exact (Forall_inv V) | apply Forall_nil]|].
  destruct G as (G1 & _). split; [exact G1 | exact Logic.I].
Qed.
Definition ed_first : sgroup := mkGroup None (xs_gop true) 0 [XUser [7]] [i_pic 0; p_pic 3 f0; b_pic 1 f0 f1; b_pic 2 f0 f1].
Definition ed_second : sgroup := mkGroup None (xs_gop false) 2 [] [i_pic 2; b_pic 0 f1 f2; b_pic 1 f1 f2; p_pic 3 f2].
Example C123_hyp : sequence_of picture_coded (with_headers xs_start ed_first [(false, ed_second)]) /\ no_matrices ed_first /\ no_matrices ed_second /\
  map snd [(false, ed_second)] = map snd [(true, ed_second)] /\ with_headers xs_start ed_first [(false, ed_second)] <> with_headers xs_start ed_first [(true, ed_second)].
Proof.
  split; [exact xs_groups_coded|]. split; [repeat (apply Forall_cons; [reflexivity|]); apply Forall_nil|]. split; [repeat (apply Forall_cons; [reflexivity|]); apply Forall_nil|].
  split; [reflexivity|]. intro E. apply (f_equal (map gr_start)) in E. discriminate E.
Qed.
Print Assumptions C122_joined.
Print Assumptions C123_headers.
