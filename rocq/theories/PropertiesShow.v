(** PropertiesShow: C104 - the frames that Next returns from any stream are those that are due, in their order. *)
From Coq Require Import Lia.
From Verif Require Import Base BitReader VidModel SpecVid VidProofs VidStream MbModel SpecNext SpecStore NextProofs After SpecRules RulesProofs ContextProofs SpecShow ShowProofs ExampleStream PropertiesEnd.

(** Whatever the stream: calls of Next that return frames decode pictures and show frames so that a frame is shown when it
    is due, and a picture is decoded only when no frame is.  The pictures are those in what was read, each of them decoded
    right (C103), the frames shown are the ones returned, and nothing is decoded after the last of them. *)
Theorem C104_show : forall n r imgs v' r', rlater r = [] -> nexts n (new_vidseq, r) = (Ok imgs, (v', r')) ->
  exists es c, rbits r = c ++ rbits r' /\ shots_bits None (pics es) c /\ shows es = imgs /\ timely es /\
    (es = [] \/ exists es' f, es = es' ++ [Show f]) /\
    forall before sh later, pics es = before ++ sh :: later -> right before sh.
Proof.
  intros n r imgs v' r' Hr H. destruct (nexts_shows n None [] new_vidseq r imgs v' r' Hr eq_refl ltac:(congruence)) as (es & (c & S & A & _ & _ & _ & R) & (_ & _ & T) & L & F);
    [split; [reflexivity | split; [reflexivity | intros [|? ?] ? ? E; discriminate] ]|now left|exact H|].
  exists es, c. split; [exact (after_bits _ _ _ A)|]. split; [exact S|]. split; [exact F|]. split; [exact T|]. split; [exact L|].
  intros before sh later E. exact (rights_split [] _ R (shots_ok _ _ _ S Logic.I) before sh later E).
Qed.

(** So a frame shown belongs to the group of pictures that was last begun, and its temporal reference is the number of
    frames shown before it since then: within a group frames come in the order 0, 1, 2, ... with none left out or twice. *)
Theorem C104_order : forall es a f b, timely es -> es = a ++ Show f :: b -> exists sh, In sh (this_group (pics a)) /\ s_frame sh = f /\ p_tr (s_hdr sh) = turn a.
Proof.
  intros es a f b T E. destruct (T a (Show f) b E) as (sh & F & Tr & W). exists sh. split; [|auto]. destruct W as [(a' & ->)|W].
  - rewrite pics_app. cbn [pics flat_map app]. unfold this_group. rewrite fold_left_app. cbn [fold_left]. destruct (s_group sh); [now left | apply in_or_app; right; now left].
  - unfold kept, last_two in W. assert (I : In sh (filter is_reference (this_group (pics a)))) by (rewrite <- (firstn_skipn (length (filter is_reference (this_group (pics a))) - 2)); apply in_or_app; now right). apply filter_In in I. apply I.
Qed.

(** Two groups, of an I, a P and two B pictures, and of an I picture: the B pictures are shown as they are decoded, the P
    picture when its turn has come.  And a B picture that comes before its turn is never shown. *)
Definition tx (g : bool) (tr t : Z) (f : image) : shot := mkShot g xs_ctx (mkSpic tr t 65535 (false, 7) (false, 7) []) xs_pce [] f.
Example C104_hyp :
  (forall r, exists imgs v' r', nexts 8 (new_vidseq, setb r (enc_sequence 2 xs_groups)) = (Ok imgs, (v', r')) /\ length imgs = 8%nat) /\
  (forall i p b1 b2 j, timely [Pic (tx true 0 1 i); Show i; Pic (tx false 3 2 p); Pic (tx false 1 3 b1); Show b1; Pic (tx false 2 3 b2); Show b2; Show p; Pic (tx true 0 1 j); Show j]) /\
  (forall i p b f, ~ due [Pic (tx true 0 1 i); Show i; Pic (tx false 2 3 b); Pic (tx false 1 2 p); Show p] f).
Proof.
  split; [exact C76_hyp|]. split.
  - intros i p b1 b2 j.
    assert (ND : forall es, (forall x, In x (kept (pics es)) -> p_tr (s_hdr x) <> turn es) -> (forall es' x, es = es' ++ [Pic x] -> p_tr (s_hdr x) <> turn es) -> forall f, ~ due es f) by (intros es A B f (x & _ & X & [(es' & E)|W]); [exact (B es' x E X) | exact (A x W X)]).
    assert (LP : forall (l : list event) es' x y, l ++ [y] = es' ++ [Pic x] -> y = Pic x) by (intros l es' x y E; apply app_inj_tail in E; apply E).
    assert (D1 : forall es sh, p_tr (s_hdr sh) = turn (es ++ [Pic sh]) -> due (es ++ [Pic sh]) (s_frame sh)) by (intros es sh E; exists sh; split; [reflexivity|]; split; [exact E|]; left; eauto).
    assert (T0 : timely []) by (intros [|? ?] ? ? E; discriminate).
    assert (T1 : timely ([] ++ [Pic (tx true 0 1 i)])) by (apply timely_add; [exact T0|]; apply (ND []); [intros x [] | intros [|? ?] ? E; discriminate]).
    apply (timely_add _ (Show i)) in T1; [|apply (D1 [] (tx true 0 1 i)); reflexivity].
    apply (timely_add _ (Pic (tx false 3 2 p))) in T1; [|apply (ND _); [intros x [<-|[] ]; cbn; lia | intros es' x E; apply LP in E; discriminate]].
    apply (timely_add _ (Pic (tx false 1 3 b1))) in T1; [|apply (ND _); [intros x [<-|[<-|[] ] ]; cbn; lia | intros es' x E; apply LP in E; injection E as <-; cbn; lia]].
    apply (timely_add _ (Show b1)) in T1; [|apply (D1 _ (tx false 1 3 b1)); reflexivity].
    apply (timely_add _ (Pic (tx false 2 3 b2))) in T1; [|apply (ND _); [intros x [<-|[<-|[] ] ]; cbn; lia | intros es' x E; apply LP in E; discriminate]].
    apply (timely_add _ (Show b2)) in T1; [|apply (D1 _ (tx false 2 3 b2)); reflexivity].
    apply (timely_add _ (Show p)) in T1; [|exists (tx false 3 2 p); split; [reflexivity|]; split; [reflexivity|]; right; right; now left].
    apply (timely_add _ (Pic (tx true 0 1 j))) in T1; [|apply (ND _); [intros x [<-|[<-|[] ] ]; cbn; lia | intros es' x E; apply LP in E; discriminate]].
    apply (timely_add _ (Show j)) in T1; [exact T1|]. apply (D1 _ (tx true 0 1 j)); reflexivity.
  - intros i p b f (x & _ & X & [(es' & E)|[<-|[<-|[] ] ] ]); [|cbn in X; lia..].
    change [Pic (tx true 0 1 i); Show i; Pic (tx false 2 3 b); Pic (tx false 1 2 p); Show p] with ([Pic (tx true 0 1 i); Show i; Pic (tx false 2 3 b); Pic (tx false 1 2 p)] ++ [Show p]) in E. apply app_inj_tail in E. destruct E; discriminate.
Qed.
Print Assumptions C104_show.
Print Assumptions C104_order.
