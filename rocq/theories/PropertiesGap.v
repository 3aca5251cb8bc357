(** PropertiesGap: C119 - pictures that do not arrive. *)
From Coq Require Import Lia.
From Verif Require Import Base BitReader VidModel SpecVid SpecVlc SpecBlock SpecMotion SpecNext SpecPicture SpecGap BlockModel MbModel NextProofs SliceProofs GapProofs ExampleStream PropertiesPes PropertiesVidHeaders.

(** A sequence whose numbers have gaps: of each group, the frames before its first gap are shown, in display order; then
    the frames of the next group; and after the last the end of the sequence. *)
Theorem C119_gaps : forall k g gs rd, gap_sequence picture_coded (g :: gs) ->
  exists imgs s, nexts (length (shown_upto (g :: gs))) (new_vidseq, setb rd (enc_sequence k (g :: gs))) = (Ok imgs, s) /\
    Forall2 looks imgs (shown_upto (g :: gs)) /\ exists v', next s = (Err EOS, (v', setb rd [])).
Proof.
  intros k g gs rd (W & V & D). apply gaps_play. split; [exact W|]. split; [exact V|]. exact (groups_mono _ _ coded_decodes (g :: gs) None Unknown Unknown D).
Qed.

Lemma reorder_filter : forall f cs held, (forall p, In p cs -> f p = false -> is_ref p = false) -> (forall r, held = Some r -> f r = true) ->
  reorder held (filter f cs) = filter f (reorder held cs).
Proof.
  induction cs as [|p cs IH]; intros held H HH.
  - cbn. destruct held as [r|]; [|reflexivity]. cbn. now rewrite (HH r eq_refl).
  - assert (H' : forall q, In q cs -> f q = false -> is_ref q = false) by (intros q I; apply H; now right).
    cbn [filter reorder]. destruct (f p) eqn:FP.
    + cbn [reorder]. destruct (is_ref p) eqn:RP.
      * rewrite filter_app, IH; [|exact H' | intros r E; injection E as <-; exact FP]. destruct held as [r|]; [|reflexivity]. cbn. now rewrite (HH r eq_refl).
      * cbn [filter]. rewrite FP. now rewrite IH.
    + rewrite (H p (or_introl eq_refl) FP). cbn [filter]. rewrite FP. now apply IH.
Qed.
Lemma rising_filter : forall f l, rising l -> rising (filter f l).
Proof.
  induction l as [|p l IH]; intros H; [exact I|]. destruct H as (H1 & H2). cbn [filter]. destruct (f p); [|auto]. cbn [rising]. split; [|auto].
  intros q Q. apply filter_In in Q. apply H1, Q.
Qed.
Lemma rising_seq : forall l k, map tref l = map Z.of_nat (seq k (length l)) -> rising l.
Proof.
  induction l as [|p l IH]; intros k H; [exact I|]. cbn in H. injection H as H1 H2. cbn [rising]. split; [|exact (IH _ H2)].
  intros q Q. apply (in_map tref) in Q. rewrite H2 in Q. apply in_map_iff in Q. destruct Q as (j & <- & J). apply in_seq in J. lia.
Qed.
Lemma upto_filter : forall (lost : Z -> bool) l k, map tref l = map Z.of_nat (seq k (length l)) ->
  upto (Z.of_nat k) (filter (fun p => negb (lost (tref p))) l) = before_first (fun p => lost (tref p)) l.
Proof.
  induction l as [|p l IH]; intros k H; [reflexivity|]. cbn in H. injection H as H1 H2. cbn [filter before_first]. destruct (lost (tref p)) eqn:LP; cbn [negb].
  - destruct (filter (fun q => negb (lost (tref q))) l) as [|q qs] eqn:E; [reflexivity|]. cbn [upto]. replace (tref q =? Z.of_nat k) with false; [reflexivity|].
    symmetry. apply Z.eqb_neq. assert (Q : In q l) by (apply (proj1 (filter_In (fun q => negb (lost (tref q))) q l)); rewrite E; now left).
    apply (in_map tref) in Q. rewrite H2 in Q. apply in_map_iff in Q. destruct Q as (j & EJ & J). apply in_seq in J. lia.
  - cbn [upto]. rewrite H1, Z.eqb_refl. f_equal. replace (Z.of_nat k + 1) with (Z.of_nat (S k)) by lia. now apply IH.
Qed.
Lemma display_length : forall cs held, length (reorder held cs) = (length cs + match held with Some _ => 1 | None => 0 end)%nat.
Proof. induction cs as [|p cs IH]; intros [r|]; cbn [reorder length]; auto; destruct (is_ref p); cbn [app length]; rewrite IH; cbn; lia. Qed.
Lemma filter_all : forall f ps D c o l, (forall p, In p ps -> f p = false -> p_type (pi_hdr p) = 3 /\ pi_items p = []) -> pictures_all D c o l ps ->
  pictures_all D c o l (filter f ps) /\ after_pictures c o l (filter f ps) = after_pictures c o l ps.
Proof.
  induction ps as [|p ps IH]; intros D c o l H P; [split; [exact I | reflexivity]|]. cbn [pictures_all] in P. destruct P as (P1 & P2).
  assert (H' : forall q, In q ps -> f q = false -> p_type (pi_hdr q) = 3 /\ pi_items q = []) by (intros q Q; apply H; now right).
  cbn [filter]. destruct (f p) eqn:FP.
  - cbn [pictures_all after_pictures]. destruct (IH D _ _ _ H' P2) as (Q1 & Q2). split; [split; assumption | exact Q2].
  - destruct (H p (or_introl eq_refl) FP) as (T & EI). assert (NR : is_ref p = false) by (unfold is_ref; rewrite T; reflexivity).
    cbn [after_pictures]. unfold older, latest in *. rewrite NR in *. rewrite EI in *. now apply IH.
Qed.
Lemma arriving_all : forall D hs c o l, Forall may_miss hs -> groups_all D c o l (map fst hs) -> groups_all D c o l (map arriving hs).
Proof.
  induction hs as [|h hs IH]; intros c o l M G; [exact I|]. cbn [map groups_all] in *. unfold arriving at 1 2 3. cbn [gr_start gr_pics].
  destruct (match gr_start (fst h) with Some s => Some (ctx_start s) | None => c end) as [c0|]; [|exact G]. destruct G as (G1 & G2).
  destruct (filter_all (fun p => negb (snd h (tref p))) (gr_pics (fst h)) D c0 o l) as (P1 & P2); [|exact G1|].
  - intros p Ip F. apply (Forall_inv M p Ip). now apply Bool.negb_false_iff.
  - split; [exact P1|]. rewrite P2. destruct (after_pictures c0 o l (gr_pics (fst h))) as ((c1 & o1) & l1). apply IH; [exact (Forall_inv_tail M) | exact G2].
Qed.
Lemma arriving_group : forall h, may_miss h -> wf_group (fst h) -> valid_group (fst h) ->
  wf_group (arriving h) /\ gap_group (arriving h) /\
  upto 0 (display (gr_pics (arriving h))) = before_first (fun p => snd h (tref p)) (display (gr_pics (fst h))).
Proof.
  intros h M (W1 & W2 & W3 & W4 & W5) (V & p & ps & EP & TP).
  assert (L : length (gr_pics (fst h)) = length (display (gr_pics (fst h)))) by (unfold display; rewrite display_length; lia). rewrite L in V.
  assert (RF : display (filter (fun p => negb (snd h (tref p))) (gr_pics (fst h))) = filter (fun p => negb (snd h (tref p))) (display (gr_pics (fst h)))).
  { apply reorder_filter; [|discriminate]. intros q Q F. apply Bool.negb_false_iff in F. destruct (M q Q F) as (T & _). unfold is_ref. now rewrite T. }
  split; [|split].
  - split; [exact W1|]. split; [exact W2|]. split; [exact W3|]. split; [exact W4|]. cbn [arriving gr_pics]. rewrite Forall_forall in *. intros q Q. apply filter_In in Q. apply W5, Q.
  - split; cbn [arriving gr_pics]; [rewrite RF; apply rising_filter; exact (rising_seq _ 0 V)|]. rewrite EP. cbn [filter].
    destruct (snd h (tref p)) eqn:LP; [|cbn [negb]; eauto].
    assert (Ip : In p (gr_pics (fst h))) by (rewrite EP; now left). destruct (M p Ip LP). congruence.
  - cbn [arriving gr_pics]. rewrite RF. exact (upto_filter (snd h) _ 0 V).
Qed.

(** A coded sequence of which B pictures are missing, any number in any groups *)
Theorem C119_lost_pictures : forall k h hs rd, sequence_of picture_coded (map fst (h :: hs)) -> Forall may_miss (h :: hs) ->
  exists imgs s, nexts (length (left_to_show (h :: hs))) (new_vidseq, setb rd (enc_sequence k (map arriving (h :: hs)))) = (Ok imgs, s) /\
    Forall2 looks imgs (left_to_show (h :: hs)) /\ exists v', next s = (Err EOS, (v', setb rd [])).
Proof.
  intros k h hs rd (W & V & G) M.
  assert (X : Forall wf_group (map arriving (h :: hs)) /\ Forall gap_group (map arriving (h :: hs)) /\ shown_upto (map arriving (h :: hs)) = left_to_show (h :: hs)).
  { clear G. revert W V M. generalize (h :: hs). clear h hs. intros hs W V M. unfold shown_upto, left_to_show. induction hs as [|h hs IH]; [split; [constructor|]; split; [constructor | reflexivity]|].
    cbn [map] in *. destruct (IH (Forall_inv_tail W) (Forall_inv_tail V) (Forall_inv_tail M)) as (I1 & I2 & I3).
    destruct (arriving_group h (Forall_inv M) (Forall_inv W) (Forall_inv V)) as (A1 & A2 & A3). split; [constructor; auto|]. split; [constructor; auto|].
    cbn [flat_map]. now rewrite !map_app, A3, I3. }
  destruct X as (X1 & X2 & X3). rewrite <- X3. apply C119_gaps. split; [exact X1|]. split; [exact X2|]. exact (arriving_all _ _ _ _ _ M G).
Qed.

(** ** An example: the two groups of [xs_groups], I P B B and I B B P; each has lost its picture 1. *)
Definition gp_groups : list holed := map (fun g => (g, fun n => n =? 1)) xs_groups.
Example C119_hyp : sequence_of picture_coded (map fst gp_groups) /\ Forall may_miss gp_groups /\
  map (fun h => length (gr_pics (arriving h))) gp_groups = [3; 3]%nat /\ length (left_to_show gp_groups) = 2%nat.
Proof.
  split; [exact xs_groups_coded|]. split; [|split; reflexivity].
  repeat (apply Forall_cons; [intros p Ip L; cbn [fst snd gr_pics] in *; repeat (destruct Ip as [<- | Ip]; [first [discriminate L | split; reflexivity]|]); destruct Ip|]). apply Forall_nil.
Qed.
