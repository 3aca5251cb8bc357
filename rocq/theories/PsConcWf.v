(** PsConcWf: the decoder's goroutines over a well formed program stream. *)
From Verif Require Import Base BitReader Exec Local TsLocal TsRobust Mono PesModel SpecPes PesProofs PesLocal PsModel SpecPs PsProofs Conc PsConc.

Lemma look_code : forall v r l, 256 <= v < 512 -> look (setb r (enc 32 v ++ l)) =
  if (v =? PackStartCode) || (v =? ProgramEndCode) then (Ok None, setb r (enc 32 v ++ l)) else
  match new_pes (setb r (enc 32 v ++ l)) with
  | (Ok _, (p, r3)) => (Ok (Some p), r3)
  | (Err _, (_, r3)) => (Ok None, r3)
  | (Panic, (_, r3)) => (Panic, r3)
  | (OutOfFuel, (_, r3)) => (OutOfFuel, r3)
  end.
Proof.
  intros v r l H. unfold look.
  assert (E : peek_n 24 (setb r (enc 32 v ++ l)) = (Ok 1, setb r (enc 32 v ++ l))).
  { change 32%nat with (24 + 8)%nat. rewrite (enc_app 24 8 v). change (2 ^ Z.of_nat 8) with 256.
    replace (v / 256) with 1 by (apply (Z.div_unique v 256 1 (v - 256)); lia).
    rewrite <- app_assoc. apply peek_enc. cbn. lia. }
  rewrite E. cbn [Z.eqb Pos.eqb negb]. rewrite peek_enc by (change (2 ^ Z.of_nat 32) with 4294967296; lia). reflexivity.
Qed.
Lemma look_item : forall i r l, wf_psitem i -> look (setb r (enc_psitem i ++ l)) = (Ok (Some (go_item i)), setb r l).
Proof.
  intros i r l H. pose proof (item_id_range i H). destruct (item_code i l H) as [l' E]. rewrite E.
  rewrite look_code by lia. unfold PackStartCode, ProgramEndCode.
  rewrite (proj2 (Z.eqb_neq _ 441)), (proj2 (Z.eqb_neq _ 442)) by lia. cbn [orb].
  rewrite <- E. rewrite new_pes_item by auto. reflexivity.
Qed.

Lemma skipn_tail : forall {A} n (l : list A) x t, skipn n l = x :: t -> skipn (S n) l = t.
Proof. induction n; destruct l; intros y t H; cbn in *; try discriminate; [congruence|]. now apply IHn in H. Qed.

Section Wf.
  Variables (r : reader) (PS : list pack) (v0 : Z) (A : list bool).
  Hypothesis WF : Forall wf_pack PS.
  Hypothesis NE : PS <> [].
  (** What follows the packs: the end code, or something that begins neither a pack nor a packet. *)
  Hypothesis V0 : 0 <= v0 < 2 ^ 31 /\ v0 <> 442 /\ v0 <> 443 /\ (v0 = 441 \/ v0 / 256 <> 1).
  Definition verr : option err := if v0 =? 441 then None else Some ErrProgramEndCodeNotFound.

  Definition rest (n : nat) : list bool := enc_packs (skipn n PS) ++ enc 32 v0 ++ A.

  Lemma rest_code : forall n, exists l, rest n = enc 32 (if Nat.ltb n (length PS) then 442 else v0) ++ l.
  Proof.
    intro n. unfold rest. destruct (Nat.ltb_spec n (length PS)) as [L|L].
    - destruct (skipn n PS) as [|[h it] t] eqn:E.
      + apply (f_equal (@length _)) in E. rewrite skipn_length in E. cbn in E. lia.
      + unfold enc_packs. cbn [flat_map]. unfold enc_pack at 1, enc_packhead. cbn [fst snd]. rewrite <- !app_assoc.
        eexists. reflexivity.
    - rewrite skipn_all2 by lia. unfold enc_packs. cbn [flat_map app]. eexists. reflexivity.
  Qed.
  Lemma peek_rest : forall n, peek_n 32 (setb r (rest n)) = (Ok (if Nat.ltb n (length PS) then 442 else v0), setb r (rest n)).
  Proof. intro n. destruct (rest_code n) as [l ->]. apply peek_enc. change (2 ^ Z.of_nat 32) with (2 ^ 32). destruct (Nat.ltb _ _); lia. Qed.
  Lemma look_rest : forall n, look (setb r (rest n)) = (Ok None, setb r (rest n)).
  Proof.
    intro n. destruct (rest_code n) as [l ->]. destruct (Nat.ltb _ _); [rewrite look_code by lia; reflexivity|]. destruct V0 as (Vr & _ & _ & [->|Vp]); [rewrite look_code by lia; reflexivity|].
    unfold look. change 32%nat with (24 + 8)%nat. rewrite (enc_app 24 8 v0), <- app_assoc. change (2 ^ Z.of_nat 8) with 256.
    rewrite peek_enc by (change (2 ^ Z.of_nat 24) with 16777216; split; [apply Z.div_pos; lia | apply Z.div_lt_upper_bound; lia]). rewrite (proj2 (Z.eqb_neq _ 1)) by exact Vp. reflexivity.
  Qed.

  Lemma head_rest : forall n, (n < length PS)%nat -> exists hd its, nth_error PS n = Some (hd, its) /\
    new_pack_header (setb r (rest n)) = (Ok (go_pack hd), setb r (flat_map enc_psitem its ++ rest (S n))).
  Proof.
    intros n LT. destruct (skipn n PS) as [|[hd its] t] eqn:ES.
    { apply (f_equal (@length _)) in ES. rewrite skipn_length in ES. cbn in ES. lia. }
    assert (HN : nth_error PS n = Some (hd, its)).
    { rewrite <- (firstn_skipn n PS), ES. rewrite nth_error_app2; rewrite firstn_length_le by lia; auto.
      now rewrite Nat.sub_diag. }
    assert (HT : skipn (S n) PS = t) by (eapply skipn_tail; eauto).
    assert (HW : wf_pack (hd, its)). { rewrite Forall_forall in WF. apply WF. eapply nth_error_In; eauto. }
    destruct HW as [HWh HWi]. cbn [fst snd] in *. exists hd, its. split; auto.
    unfold rest at 1. rewrite ES. unfold enc_packs. cbn [flat_map]. fold (enc_packs t). unfold enc_pack. cbn [fst snd].
    rewrite <- !app_assoc. assert (ER : enc_packs t ++ enc 32 v0 ++ A = rest (S n)) by (unfold rest; now rewrite HT). rewrite ER.
    destruct its as [|i its].
    - cbn [flat_map app]. destruct (rest_code (S n)) as [l El]. rewrite El.
      apply pack_header_enc; auto; destruct (Nat.ltb _ _); try lia; apply V0.
    - cbn [flat_map]. rewrite <- app_assoc. pose proof (Forall_inv HWi) as Hi. pose proof (item_id_range i Hi).
      destruct (item_code i (flat_map enc_psitem its ++ rest (S n)) Hi) as [l El]. rewrite El.
      apply pack_header_enc; auto; lia.
  Qed.

  (** The packet goroutine of a pack with packets [items]; [n] packs have been begun. *)
  Definition working (br : reader) (n : nat) (items : list psitem) (q : pproc) : Prop :=
    exists done todo, items = done ++ todo /\ q_log q = map go_item done /\
    match q_pc q with
    | PLook => br = setb r (flat_map enc_psitem todo ++ rest n)
    | PSendPkt p => exists i t, todo = i :: t /\ p = go_item i /\ br = setb r (flat_map enc_psitem t ++ rest n)
    | PClosePkts | PComplete => todo = [] /\ br = setb r (rest n)
    | _ => False
    end.

  Record wInv (s : gstate) : Prop := {
    w_len : (length (g_procs s) <= length PS)%nat;
    w_head : forall j q P, nth_error (g_procs s) j = Some q -> nth_error PS j = Some P ->
               q_head q = go_pack (fst P) /\ q_panic q = false;
    w_old : forall j q P, nth_error (g_procs s) j = Some q -> nth_error PS j = Some P -> ~ inside s j ->
               q_log q = map go_item (snd P);
    w_cur : forall j q P, nth_error (g_procs s) j = Some q -> nth_error PS j = Some P -> inside s j ->
               working (g_br s) (length (g_procs s)) (snd P) q;
    w_pc : match g_pc s with
           | DHead => g_br s = setb r (rest (length (g_procs s))) /\ (length (g_procs s) < length PS)%nat
           | DPeek => g_br s = setb r (rest (length (g_procs s)))
           | DPeekEnd => g_br s = setb r (rest (length (g_procs s))) /\ length (g_procs s) = length PS
           | DSend _ | DWait _ => True
           | _ => length (g_procs s) = length PS /\ g_err s = verr
           end;
    w_crash : g_crash s = false
  }.

  Lemma wInv_init : wInv (g_init (setb r (enc_packs PS ++ enc 32 v0 ++ A))).
  Proof.
    constructor; cbn.
    - lia.
    - intros [|j] q P H; discriminate.
    - intros [|j] q P H; discriminate.
    - intros [|j] q P H; discriminate.
    - split; [reflexivity|]. destruct PS; [tauto | cbn; lia].
    - reflexivity.
  Qed.

  Lemma in_spec : forall s j q, gInv s -> wInv s -> nth_error (g_procs s) j = Some q -> exists P, nth_error PS j = Some P.
  Proof.
    intros s j q G W H. destruct (nth_error PS j) eqn:E; eauto. exfalso.
    apply nth_error_None in E. pose proof (w_len s W). assert (j < length (g_procs s))%nat by (apply nth_error_Some; congruence). lia.
  Qed.

  (** A step of the pack goroutine the decoder is waiting for. *)
  Lemma wInv_proc : forall s j q q' br', gInv s -> wInv s -> nth_error (g_procs s) j = Some q -> inside s j ->
    q_head q' = q_head q -> q_panic q' = q_panic q ->
    (forall P, nth_error PS j = Some P -> working br' (length (g_procs s)) (snd P) q') ->
    wInv (g_at s (g_pc s) br' (g_err s) (set_nth (g_procs s) j q')).
  Proof.
    intros s j q q' br' G [W1 W2 W3 W4 W5 W6] Hq HI HH HP HW.
    constructor; cbn [g_at g_pc g_procs g_err g_br g_crash]; rewrite ?set_nth_length; auto.
    - intros i p P Hp HPS. apply nth_set in Hp as [[-> ->]|[N Hp]]; [|eauto].
      destruct (W2 i q P Hq HPS). rewrite HH, HP. auto.
    - intros i p P Hp HPS NI. apply nth_set in Hp as [[-> ->]|[N Hp]]; [destruct (NI HI)|]. eapply W3; eauto.
    - intros i p P Hp HPS HI'. apply nth_set in Hp as [[-> ->]|[N Hp]]; [eauto|].
      exfalso. apply N. pose proof (i_last s G j HI) as A1. pose proof (i_last s G i HI') as A2. lia.
    - destruct HI as [K|K]; rewrite K; exact I.
  Qed.

  Lemma wInv_env : forall s s', gInv s -> wInv s -> genv s s' -> wInv s'.
  Proof.
    intros s s' G W E. inversion E as [| |j q Kq]; subst; clear E.
    - destruct W. constructor; auto.
    - destruct W. constructor; auto.
    - destruct W as [W1 W2 W3 W4 W5 W6].
      constructor; cbn [g_at g_pc g_procs g_err g_br g_crash]; rewrite ?set_nth_length; auto.
      + intros i p P Hp HPS. apply nth_set in Hp as [[-> ->]|[N Hp]]; [|eauto]. cbn. eauto.
      + intros i p P Hp HPS NI. apply nth_set in Hp as [[-> ->]|[N Hp]]; cbn; eapply W3; eauto.
      + intros i p P Hp HPS HI'. apply nth_set in Hp as [[-> ->]|[N Hp]]; [|eapply W4; eauto].
        specialize (W4 i q P Kq HPS HI'). exact W4.
  Qed.

  Lemma wInv_goto : forall s pc br e, wInv s ->
    match g_pc s with DHead | DPeek | DPeekEnd => True | _ => False end ->
    match pc with
    | DHead => br = setb r (rest (length (g_procs s))) /\ (length (g_procs s) < length PS)%nat
    | DPeekEnd => br = setb r (rest (length (g_procs s))) /\ length (g_procs s) = length PS
    | DClose => length (g_procs s) = length PS /\ e = verr
    | _ => False
    end ->
    wInv (g_at s pc br e (g_procs s)).
  Proof.
    intros s pc br e [W1 W2 W3 W4 W5 W6] HF HT.
    assert (N : forall i, ~ inside s i) by (intros i [K|K]; rewrite K in HF; exact HF).
    assert (N' : forall i, ~ inside (g_at s pc br e (g_procs s)) i).
    { intros i [K|K]; cbn in K; subst pc; exact HT. }
    constructor; cbn [g_at g_pc g_procs g_err g_br g_crash]; auto.
    - intros j q P Hq HP _. eapply W3; eauto.
    - intros j q P Hq HP K. destruct (N' j K).
    - destruct pc; tauto || exact HT.
  Qed.

  Lemma wInv_own : forall s s', gInv s -> wInv s -> gown s s' -> wInv s'.
  Proof.
    intros s s' G W E. pose proof W as [W1 W2 W3 W4 W5 W6]. pose proof G as [H1 H2 H3 H4 H5 H5' H6].
    inversion E as [h r' K Kn|e r' K Kn|i K Kw|i q K Kq Kp|e r' K Kn|v r' K Kn Kv|v r' K Kn Kv|e r' K Kn|v r' K Kn Kv|v r' K Kn Kv
      |K|K Kw|K|j q p r' Kq Kp Kl|j q r' Kq Kp Kl|j q r' Kq Kp Kl|j q p Kq Kp Kw|j q Kq Kp|j q Kq Kp]; subst s'; clear E.
    - (* head *)
      rewrite K in *. destruct W5 as [EB LT]. set (n := length (g_procs s)) in *.
      destruct (head_rest n LT) as (hd & its & HN & EQ). rewrite <- EB in EQ.
      rewrite EQ in Kn. injection Kn as <- <-.
      constructor; cbn [g_at g_pc g_procs g_err g_br g_crash]; auto.
      + rewrite app_length. cbn. lia.
      + intros j q P Hq HP. apply nth_snoc in Hq as [[-> ->]|[L Hq]]; [|eauto].
        cbn. fold n in HP. rewrite HN in HP. injection HP as <-. auto.
      + intros j q P Hq HP NI. apply nth_snoc in Hq as [[-> ->]|[L Hq]].
        * exfalso. apply NI. left. reflexivity.
        * eapply W3; eauto. intros [Q|Q]; congruence.
      + intros j q P Hq HP HI. apply nth_snoc in Hq as [[-> ->]|[L Hq]].
        * fold n in HP. rewrite HN in HP. injection HP as <-. exists [], its. cbn. repeat split; auto.
          rewrite app_length. cbn. fold n. rewrite Nat.add_1_r. reflexivity.
        * destruct HI as [Q|Q]; cbn in Q; inversion Q. lia.
    - (* head error: impossible *)
      exfalso. rewrite K in *. destruct W5 as [EB LT]. set (n := length (g_procs s)) in *.
      destruct (head_rest n LT) as (hd & its & HN & EQ). rewrite <- EB in EQ.
      rewrite EQ in Kn. discriminate.
    - (* send *)
      constructor; cbn [g_at g_pc g_procs g_err g_br g_crash]; auto.
      + intros j q P Hq HP NI. eapply W3; eauto. intros [Q|Q]; rewrite K in Q; inversion Q; subst. apply NI. right. reflexivity.
      + intros j q P Hq HP HI. eapply W4; eauto. destruct HI as [Q|Q]; cbn in Q; inversion Q; subst. left. exact K.
    - (* complete *)
      assert (HI : inside s i) by (right; exact K). destruct (in_spec s i q G W Kq) as [P HP].
      destruct (W4 i q P Kq HP HI) as (dn & todo & EI & EL & M). rewrite Kp in M. destruct M as [-> EB].
      rewrite app_nil_r in EI. subst dn.
      constructor; cbn [g_at g_pc g_procs g_err g_br g_crash]; rewrite ?set_nth_length; auto.
      + intros j p P' Hp HP'. apply nth_set in Hp as [[-> ->]|[N Hp]]; [|eauto]. cbn. eauto.
      + intros j p P' Hp HP' _. apply nth_set in Hp as [[-> ->]|[N Hp]].
        * cbn. congruence.
        * eapply W3; eauto. intros [Q|Q]; rewrite K in Q; congruence.
      + intros j p P' _ _ [Q|Q]; discriminate.
    - (* peek: never an error *)
      rewrite K in W5. rewrite W5, peek_rest in Kn. discriminate.
    - rewrite K in W5. rewrite W5, peek_rest in Kn. injection Kn as Ev <-.
      apply wInv_goto; auto. { now rewrite K. } split; auto.
      destruct (Nat.ltb_spec (length (g_procs s)) (length PS)); auto. exfalso. unfold PackStartCode in Kv. destruct V0 as (_ & V & _). congruence.
    - rewrite K in W5. rewrite W5, peek_rest in Kn. injection Kn as Ev <-.
      apply wInv_goto; auto. { now rewrite K. } split; auto.
      destruct (Nat.ltb_spec (length (g_procs s)) (length PS)); [|lia]. exfalso. apply Kv. now subst v.
    - rewrite K in W5. destruct W5 as [W5 _]. rewrite W5, peek_rest in Kn. discriminate.
    - rewrite K in W5, H6. destruct W5 as [W5 EL]. rewrite W5, peek_rest in Kn. injection Kn as Ev <-. rewrite EL, Nat.ltb_irrefl in Ev. apply wInv_goto; auto; [now rewrite K|]. split; [exact EL|].
      rewrite H6. unfold verr. unfold ProgramEndCode in Kv. rewrite Ev, Kv. reflexivity.
    - rewrite K in W5. destruct W5 as [W5 EL]. rewrite W5, peek_rest in Kn. injection Kn as Ev <-. rewrite EL, Nat.ltb_irrefl in Ev. apply wInv_goto; auto; [now rewrite K|]. split; [exact EL|].
      unfold verr. unfold ProgramEndCode in Kv. rewrite (proj2 (Z.eqb_neq v0 441)) by congruence. reflexivity.
    - (* close *) rewrite K in *.
      constructor; cbn [g_at g_pc g_procs g_err g_br g_crash]; auto.
      + intros j q P Hq HP _. eapply W3; eauto. intros [Q|Q]; congruence.
      + intros j q P _ _ [Q|Q]; discriminate.
    - rewrite K in *.
      constructor; cbn [g_at g_pc g_procs g_err g_br g_crash]; auto.
      + intros j q P Hq HP _. eapply W3; eauto. intros [Q|Q]; congruence.
      + intros j q P _ _ [Q|Q]; discriminate.
    - rewrite K in *.
      constructor; cbn [g_at g_pc g_procs g_err g_br g_crash]; auto.
      + intros j q P Hq HP _. eapply W3; eauto. intros [Q|Q]; congruence.
      + intros j q P _ _ [Q|Q]; discriminate.
    - (* packet *)
      assert (HI : inside s j) by (eapply active_inside; eauto; unfold active; now rewrite Kp).
      eapply wInv_proc; eauto. intros P HP.
      destruct (W4 j q P Kq HP HI) as (dn & todo & EI & EL & M). rewrite Kp in M. rewrite M in Kl.
      assert (HW : Forall wf_psitem (snd P)). { rewrite Forall_forall in WF. apply (WF P). eapply nth_error_In; eauto. }
      destruct todo as [|i t].
      + cbn [flat_map app] in Kl. rewrite look_rest in Kl. discriminate.
      + rewrite EI in HW. apply Forall_app in HW as [_ HW]. cbn [flat_map] in Kl. rewrite <- app_assoc in Kl.
        rewrite look_item in Kl by (now apply Forall_inv in HW). injection Kl as <- <-.
        exists dn, (i :: t). cbn. repeat split; auto. exists i, t. auto.
    - (* leave *)
      assert (HI : inside s j) by (eapply active_inside; eauto; unfold active; now rewrite Kp).
      eapply wInv_proc; eauto. intros P HP.
      destruct (W4 j q P Kq HP HI) as (dn & todo & EI & EL & M). rewrite Kp in M. rewrite M in Kl.
      assert (HW : Forall wf_psitem (snd P)). { rewrite Forall_forall in WF. apply (WF P). eapply nth_error_In; eauto. }
      destruct todo as [|i t].
      + cbn [flat_map app] in Kl. rewrite look_rest in Kl. injection Kl as <-.
        exists dn, []. cbn. repeat split; auto.
      + rewrite EI in HW. apply Forall_app in HW as [_ HW]. cbn [flat_map] in Kl. rewrite <- app_assoc in Kl.
        rewrite look_item in Kl by (now apply Forall_inv in HW). discriminate.
    - (* panic *)
      exfalso.
      assert (HI : inside s j) by (eapply active_inside; eauto; unfold active; now rewrite Kp).
      destruct (in_spec s j q G W Kq) as [P HP].
      destruct (W4 j q P Kq HP HI) as (dn & todo & EI & EL & M). rewrite Kp in M. rewrite M in Kl.
      assert (HW : Forall wf_psitem (snd P)). { rewrite Forall_forall in WF. apply (WF P). eapply nth_error_In; eauto. }
      destruct todo as [|i t].
      + cbn [flat_map app] in Kl. rewrite look_rest in Kl. discriminate.
      + rewrite EI in HW. apply Forall_app in HW as [_ HW]. cbn [flat_map] in Kl. rewrite <- app_assoc in Kl.
        rewrite look_item in Kl by (now apply Forall_inv in HW). discriminate.
    - (* send packet *)
      assert (HI : inside s j) by (eapply active_inside; eauto; unfold active; now rewrite Kp).
      eapply wInv_proc; eauto. intros P HP.
      destruct (W4 j q P Kq HP HI) as (dn & todo & EI & EL & M). rewrite Kp in M. destruct M as (i & t & -> & -> & EB).
      exists (dn ++ [i]), t. cbn. repeat split; auto.
      + rewrite EI, <- app_assoc. reflexivity.
      + rewrite EL, map_app. reflexivity.
    - (* close packets *)
      assert (HI : inside s j) by (eapply active_inside; eauto; unfold active; now rewrite Kp).
      eapply wInv_proc; eauto. intros P HP.
      destruct (W4 j q P Kq HP HI) as (dn & todo & EI & EL & M). rewrite Kp in M.
      destruct M as [-> EB]. exists dn, []. cbn. repeat split; auto.
    - (* end *)
      assert (NI : ~ inside s j).
      { intro HI. pose proof (i_cur s G j q HI Kq) as AA. unfold active in AA. now rewrite Kp in AA. }
      constructor; cbn [g_at g_pc g_procs g_err g_br g_crash]; rewrite ?set_nth_length; auto.
      + intros i p P Hp HPS. apply nth_set in Hp as [[-> ->]|[N Hp]]; [|eauto]. cbn. eauto.
      + intros i p P Hp HPS NI'. apply nth_set in Hp as [[-> ->]|[N Hp]]; cbn; eapply W3; eauto.
      + intros i p P Hp HPS HI'. apply nth_set in Hp as [[-> ->]|[N Hp]]; [destruct (NI HI')|eapply W4; eauto].
      + destruct (in_spec s j q G W Kq) as [P HP]. destruct (W2 j q P Kq HP) as [_ ->]. now rewrite W6.
  Qed.

  Lemma wInv_reach : forall s, star gstep (g_init (setb r (enc_packs PS ++ enc 32 v0 ++ A))) s -> gInv s /\ wInv s.
  Proof.
    intros s H. remember (g_init _) as s0. induction H; subst.
    - split; [apply gInv_init | apply wInv_init].
    - destruct (IHstar eq_refl) as [G W]. destruct H0 as [_ [O|V]].
      + split; [eapply gInv_own | eapply wInv_own]; eauto.
      + split; [eapply gInv_env | eapply wInv_env]; eauto.
  Qed.
End Wf.
