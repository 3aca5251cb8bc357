(** ShowProofs: Next shows the frames that are due (C104). *)
From Coq Require Import Lia.
From Verif Require Import Base BitReader Exec Local TsRobust PesLocal After Huffman VlcTables BlockModel SpecVlc SpecBlock VlcProofs BlockProofs
  VidModel SpecVid VidProofs VidStream VidLocal MbModel SpecMotion MotionProofs SpecPicture EndProofs2 ShapeProofs SpecNext NextProofs MacroblockProofs SliceProofs
  PropertiesVidHeaders SpecStore StoreProofs SpecSyntax SyntaxProofs SpecRules RulesProofs ContextProofs SpecShow.

Lemma skipn_twice : forall A n m (l : list A), skipn n (skipn m l) = skipn (m + n) l.
Proof. intros A n m. induction m as [|m IH]; intros [|x l]; cbn [skipn Nat.add]; auto. now destruct n. Qed.
Lemma last_two_add : forall A (l : list A) x, last_two (l ++ [x]) = skipn (length (last_two l) - 1) (last_two l) ++ [x].
Proof.
  intros A l x. unfold last_two. rewrite app_length, skipn_length. cbn [length]. rewrite skipn_app, skipn_twice.
  replace (length l + 1 - 2 - length l)%nat with 0%nat by lia. cbn [skipn]. f_equal. f_equal. lia.
Qed.
(** ** The store holds the pictures that are kept. *)
Definition slot (x : refframe) (o : option shot) : Prop :=
  match o with Some sh => x = mkRef (Some (s_frame sh)) (p_tr (s_hdr sh)) false | None => rf_frame x = None \/ rf_prev x = true end.
Definition store_of (fs : framestore) (l : list shot) : Prop :=
  match l with
  | [] => slot (fs_0 fs) None /\ slot (fs_1 fs) None
  | [b] => slot (fs_0 fs) None /\ slot (fs_1 fs) (Some b)
  | [a; b] => slot (fs_0 fs) (Some a) /\ slot (fs_1 fs) (Some b)
  | _ => False
  end.
Lemma store_add : forall fs l sh, store_of fs l -> store_of (fs_add (s_frame sh) (p_tr (s_hdr sh)) (fs_set (p_tr (s_hdr sh)) fs)) (skipn (length l - 1) l ++ [sh]).
Proof.
  intros fs l sh H. destruct (fs_set_refs (p_tr (s_hdr sh)) fs) as (F0 & F1). unfold fs_add. cbn. destruct l as [|a [|b [|? ?]]]; cbn [length Nat.sub skipn app store_of fs_0 fs_1] in *; rewrite F1; try contradiction; destruct H as (H0 & H1); split; first [exact H1 | reflexivity].
Qed.
Lemma store_kept : forall shs, store_of (fs_run (history shs)) (kept shs).
Proof.
  intro shs. induction shs as [|sh shs IH] using rev_ind; [split; left; reflexivity|].
  unfold history. rewrite flat_map_app. cbn [flat_map]. rewrite app_nil_r. fold (history shs). unfold happened. rewrite app_assoc. unfold fs_run. rewrite fold_left_app. cbn [fold_left]. fold (fs_run (history shs ++ opening sh)).
  unfold kept, this_group. rewrite fold_left_app. cbn [fold_left]. fold (this_group shs).
  set (l := filter is_reference (if s_group sh then [] else this_group shs)).
  assert (X : store_of (fs_run (history shs ++ opening sh)) (last_two l)).
  { unfold l, opening. destruct (s_group sh); [|rewrite app_nil_r; exact IH]. unfold fs_run. rewrite fold_left_app. cbn [fold_left fs_do]. cbn. split; right; reflexivity. }
  assert (E : filter is_reference (if s_group sh then [sh] else this_group shs ++ [sh]) = l ++ filter is_reference [sh]) by (unfold l; destruct (s_group sh); [reflexivity | apply filter_app]).
  rewrite E. clear E IH. clearbody l. cbn [filter]. unfold is_reference. destruct ((s_type sh =? 1) || (s_type sh =? 2)); cbn [fs_do].
  - rewrite last_two_add. apply store_add, X.
  - rewrite app_nil_r. destruct (fs_set_refs (p_tr (s_hdr sh)) (fs_run (history shs ++ opening sh))) as (F0 & F1). unfold store_of in *. rewrite F0, F1. exact X.
Qed.
Lemma slot_get : forall x o n f, slot x o -> ref_get n x = Some f -> exists sh, o = Some sh /\ p_tr (s_hdr sh) = n /\ s_frame sh = f.
Proof.
  intros x [sh|] n f H G; cbn [slot] in H; unfold ref_get in G.
  - subst x. cbn [rf_frame rf_prev rf_tr negb andb] in G. destruct (Z.eqb_spec (p_tr (s_hdr sh)) n) as [E|E]; [|discriminate]. injection G as G. eauto.
  - destruct H as [H|H]; rewrite H in G; [discriminate|]. cbn [negb andb] in G. destruct (rf_frame x); discriminate.
Qed.
Lemma slot_none : forall x sh n, slot x (Some sh) -> ref_get n x = None -> p_tr (s_hdr sh) <> n.
Proof. intros x sh n -> G E. unfold ref_get in G. cbn [rf_frame rf_prev rf_tr negb andb] in G. rewrite E, Z.eqb_refl in G. discriminate. Qed.
Lemma get_kept : forall shs n f, fs_tryget n (fs_run (history shs)) = Some f -> exists sh, In sh (kept shs) /\ p_tr (s_hdr sh) = n /\ s_frame sh = f.
Proof.
  intros shs n f G. pose proof (store_kept shs) as S. unfold fs_tryget in G. destruct (ref_get n (fs_0 (fs_run (history shs)))) as [f0|] eqn:E0; [injection G as ->|];
    unfold store_of in S; destruct (kept shs) as [|a [|b [|? ?]]]; try contradiction; destruct S as (S0 & S1);
    first [destruct (slot_get _ _ _ _ S0 E0) as (sh & Q & R) | destruct (slot_get _ _ _ _ S1 G) as (sh & Q & R)]; try discriminate Q; injection Q as ->; exists sh; (split; [|exact R]); cbn; auto.
Qed.
Lemma none_kept : forall shs n sh, fs_tryget n (fs_run (history shs)) = None -> In sh (kept shs) -> p_tr (s_hdr sh) <> n.
Proof.
  intros shs n sh G I. pose proof (store_kept shs) as S. unfold fs_tryget in G. destruct (ref_get n (fs_0 (fs_run (history shs)))) as [f0|] eqn:E0; [discriminate|].
  unfold store_of in S. destruct (kept shs) as [|a [|b [|? ?]]]; try contradiction; destruct S as (S0 & S1); cbn [In] in I.
  - destruct I as [->|[]]. eapply slot_none; eauto.
  - destruct I as [->|[->|[]]]; eapply slot_none; eauto.
Qed.
(** ** Events *)
Lemma pics_app : forall a b, pics (a ++ b) = pics a ++ pics b.
Proof. intros. apply flat_map_app. Qed.
Lemma shows_app : forall a b, shows (a ++ b) = shows a ++ shows b.
Proof. intros. apply flat_map_app. Qed.
Lemma turn_pic : forall es sh, turn (es ++ [Pic sh]) = if s_group sh then 0 else turn es.
Proof. intros. unfold turn. now rewrite fold_left_app. Qed.
Lemma turn_show : forall es f, turn (es ++ [Show f]) = (turn es + 1) mod 2 ^ 32.
Proof. intros. unfold turn. now rewrite fold_left_app. Qed.
Lemma timely_add : forall es e, timely es -> match e with Show f => due es f | Pic _ => forall f, ~ due es f end -> timely (es ++ [e]).
Proof.
  intros es e T H a x b E. destruct b as [|y b] using rev_ind.
  - apply app_inj_tail in E. destruct E as (-> & ->). exact H.
  - rewrite app_comm_cons, app_assoc in E. apply app_inj_tail in E. destruct E as (-> & _). exact (T a x b eq_refl).
Qed.
Lemma kept_after : forall shs sh x, In x (kept (shs ++ [sh])) -> x = sh \/ (s_group sh = false /\ In x (kept shs)).
Proof.
  intros shs sh x H. unfold kept, this_group in H. rewrite fold_left_app in H. cbn [fold_left] in H. fold (this_group shs) in H.
  assert (L : forall A (l : list A) y, In y (last_two l) -> In y l) by (intros A l y I; unfold last_two in I; rewrite <- (firstn_skipn (length l - 2) l); apply in_or_app; now right).
  destruct (s_group sh).
  - apply L, filter_In in H. destruct H as ([->|[]] & _). now left.
  - rewrite filter_app in H. cbn [filter] in H. destruct (is_reference sh).
    + rewrite last_two_add in H. apply in_app_or in H. destruct H as [H|[->|[]]]; [|now left]. right. split; [reflexivity|]. unfold kept. rewrite <- (firstn_skipn (length (last_two (filter is_reference (this_group shs))) - 1) (last_two _)). apply in_or_app. now right.
    + rewrite app_nil_r in H. right. split; [reflexivity | exact H].
Qed.
(** No picture that is kept is due. *)
Definition none_due (es : list event) : Prop := forall sh, In sh (kept (pics es)) -> p_tr (s_hdr sh) <> turn es.
Definition shown_last (es : list event) : Prop := es = [] \/ exists es' f, es = es' ++ [Show f].
(** A run of events *)
Definition played (v : vidseq) (es : list event) : Prop := v_fs v = fs_run (history (pics es)) /\ v_fc v = turn es /\ timely es.
Lemma loop_shows : forall f o es v r img v' r', rlater r = [] -> in_opt o v -> (o <> None -> ready r) -> played v es -> (forall f, ~ due es f) -> next_loop f (v, r) = (Ok img, (v', r')) ->
  exists es2, decodes (history (pics es)) o r (pics es2) v' r' /\ played v' (es ++ es2 ++ [Show img]) /\ shows es2 = [].
Proof.
  induction f as [|f IH]; intros o es v r img v' r' Hr K Rd (FS & FC & T) ND H; cbn [next_loop] in H; [discriminate|].
  apply bind_ok_inv in H. destruct H as (im & [v1 r1] & E & H). destruct (step_shot o (history (pics es)) _ _ _ _ _ Hr K Rd FS E) as (sh & c & Sb & Sf & A & Rd1 & I1 & F1 & (Tp & Tf) & R1).
  rewrite bind_own in H. cbn [fst snd] in H. rewrite Tp in H. apply bind_ok_inv in H. destruct H as (ph & s2 & E2 & H). inversion E2; subst ph s2. clear E2.
  assert (T1 : turn (es ++ [Pic sh]) = v_fc v1) by (rewrite turn_pic, Tf, FC; reflexivity).
  assert (TM : timely (es ++ [Pic sh])) by (apply timely_add; assumption).
  assert (D1 : decodes (history (pics es)) o r [sh] v1 r1) by (eapply decodes_one; eauto).
  assert (HH : history (pics es) ++ happened sh = history (pics (es ++ [Pic sh]))) by (rewrite pics_app, history_app; change (history (pics [Pic sh])) with (happened sh ++ []); now rewrite app_nil_r).
  cbn [pic_of ph_tr] in H. destruct (Z.eqb_spec (p_tr (s_hdr sh)) (v_fc v1)) as [Eq|Nq].
  - rewrite bind_upd in H. cbn [fst snd] in H. unfold ret in H. injection H as <- <- <-. exists [Pic sh]. split; [exact (decodes_one _ o r sh _ r1 c Sb A Rd1 (in_opt_fc _ _ _ I1) F1 R1)|]. split; [|reflexivity].
    rewrite app_assoc. split; [|split].
    + rewrite pics_app. cbn [pics flat_map]. rewrite app_nil_r, <- HH. exact F1.
    + rewrite turn_show, T1. reflexivity.
    + apply timely_add; [exact TM|]. exists sh. split; [exact Sf|]. split; [congruence|]. left. eauto.
  - assert (ND2 : forall g, ~ due (es ++ [Pic sh]) g).
    { intros g (x & Xf & Xt & X). rewrite T1 in Xt. destruct X as [(es' & Q)|X].
      - apply app_inj_tail in Q. destruct Q as (_ & Q). injection Q as <-. contradiction.
      - rewrite pics_app in X. cbn [pics flat_map app] in X. apply kept_after in X. destruct X as [->|(G & X)]; [contradiction|]. rewrite G in Tf. apply (ND g). exists x. split; [exact Xf|]. split; [congruence|]. now right. }
    apply (IH (Some (s_ctx sh)) (es ++ [Pic sh])) in H; [|rewrite (after_later _ _ _ A); exact Hr|exact I1|auto|split; [rewrite <- HH; exact F1 | auto]|exact ND2].
    destruct H as (es2 & D & P & S). exists (Pic sh :: es2). split; [|split; [|exact S]].
    + change (pics (Pic sh :: es2)) with ([sh] ++ pics es2). eapply decodes_app; [exact D1|]. rewrite <- HH in D. cbn [history flat_map last_ctx]. rewrite app_nil_r. exact D.
    + rewrite <- app_assoc in P. exact P.
Qed.
Lemma no_step : forall es v, shown_last es -> v_fs v = fs_run (history (pics es)) -> v_fc v = turn es -> fs_tryget (v_fc v) (v_fs v) = None -> forall f, ~ due es f.
Proof.
  intros es v SL FS FC G f (sh & Sf & St & [(es' & E)|I]).
  - destruct SL as [->|(es2 & g & ->)]; [destruct es'; discriminate E|]. apply app_inj_tail in E. destruct E; discriminate.
  - rewrite FS, FC in G. exact (none_kept _ _ _ G I St).
Qed.
Lemma nexts_shows : forall n o es v r imgs v' r', rlater r = [] -> in_opt o v -> (o <> None -> ready r) -> played v es -> shown_last es -> nexts n (v, r) = (Ok imgs, (v', r')) ->
  exists es2, decodes (history (pics es)) o r (pics es2) v' r' /\ played v' (es ++ es2) /\ shown_last (es ++ es2) /\ shows es2 = imgs.
Proof.
  induction n as [|n IH]; intros o es v r imgs v' r' Hr K Rd Pl SL H; cbn [nexts] in H.
  - inversion H; subst. exists []. rewrite app_nil_r. split; [|auto]. exists []. split; [constructor|]. split; [apply after_nil|]. split; [exact K|]. split; [exact Rd|]. split; [cbn [pics history flat_map]; rewrite app_nil_r; apply Pl | constructor].
  - apply bind_ok_inv in H. destruct H as (im & [v1 r1] & E & H). apply bind_ok_inv in H. destruct H as (ims & [v2 r2] & E2 & H). unfold ret in H. injection H as <- <- <-.
    assert (X : exists a, decodes (history (pics es)) o r (pics a) v1 r1 /\ played v1 (es ++ a ++ [Show im]) /\ shows a = []).
    { pose proof Pl as (FS & FC & T). unfold next in E. rewrite bind_own in E. cbn [fst snd] in E. destruct (fs_tryget (v_fc v) (v_fs v)) as [f|] eqn:G.
      - rewrite bind_upd in E. cbn [fst snd] in E. unfold ret in E. injection E as <- <- <-. exists []. split; [|split; [|reflexivity]].
        + exists []. split; [constructor|]. split; [apply after_nil|]. split; [exact (in_opt_fc _ _ _ K)|]. split; [exact Rd|]. split; [cbn [pics history flat_map]; rewrite app_nil_r; exact FS | constructor].
        + cbn [app]. split; [rewrite pics_app; cbn [pics flat_map]; rewrite app_nil_r; exact FS|]. split; [rewrite turn_show, <- FC; reflexivity|]. apply timely_add; [exact T|].
          rewrite FS in G. apply get_kept in G. destruct G as (sh & I & Tr & Sf). exists sh. split; [exact Sf|]. split; [congruence | now right].
      - apply (loop_shows _ o es) in E; [|assumption..|exact (no_step es v SL FS FC G)]. exact E. }
    destruct X as (a & D & P1 & Sa). pose proof D as (c & _ & A & I1 & Rd1 & F1 & _).
    assert (HP : pics (a ++ [Show im]) = pics a) by (rewrite pics_app; cbn [pics flat_map]; now rewrite app_nil_r).
    destruct (IH (last_ctx o (pics a)) (es ++ a ++ [Show im]) v1 r1 ims v2 r2) as (b & D2 & P2 & SL2 & S2); [rewrite (after_later _ _ _ A); exact Hr|exact I1|exact Rd1|exact P1|right; exists (es ++ a), im; now rewrite app_assoc|exact E2|].
    exists ((a ++ [Show im]) ++ b). rewrite !app_assoc in *. split; [|split; [exact P2|split; [exact SL2|]]].
    + rewrite pics_app, HP. rewrite <- (app_assoc es), pics_app, HP, history_app in D2. eapply decodes_app; eauto.
    + rewrite !shows_app, Sa, S2. reflexivity.
Qed.
