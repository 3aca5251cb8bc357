(** PipeProofs: the PES payload reader over the payload unit reader. *)
From Verif Require Import Base BitReader Exec SpecIO SpecPipe SpecPes PesModel PesProofs PesReaders.

(** A bit reader on which Next yields packets with the payloads [ds], then [e] for ever *)
Inductive yields (e : err) : reader -> list (list Z) -> Prop :=
| y_end : forall r, (forall p, exists p', pes_next (p, r) = (Err e, (p', r))) -> yields e r []
| y_next : forall r r' d ds, (forall p, exists p', pes_next (p, r) = (Ok tt, (p', r')) /\ pp_payload p' = d) ->
    yields e r' ds -> yields e r (d :: ds).

Lemma fill_0 : forall fuel p r a b, es_fill fuel p r 0 a b = (Ok (a, None), mkES r p b).
Proof. destruct fuel; reflexivity. Qed.
Lemma fill_yields : forall e r ds, yields e r ds -> forall fuel p want acc rem, (0 < want)%nat -> (length ds < fuel)%nat ->
  let C := concat ds in
  exists s' ds', es_fill fuel p r want acc rem = (Ok (acc ++ firstn want C, if Nat.leb want (length C) then None else Some e), s') /\
    yields e (es_br s') ds' /\ es_rem s' ++ concat ds' = skipn want C /\ (length ds' <= length ds)%nat.
Proof.
  intros e r ds Y. induction Y as [r H | r r' d ds H Y IH]; intros fuel p want acc rem Hw Hf C.
  - subst C. destruct want as [|want]; [lia|]. destruct fuel as [|fuel]; [cbn in Hf; lia|].
    cbn [es_fill concat]. destruct (H p) as (p' & ->). cbn [length Nat.leb firstn skipn]. rewrite app_nil_r.
    exists (mkES r p' []), []. cbn [es_br es_rem concat app length]. split; [reflexivity|]. split; [now constructor|]. split; [reflexivity | lia].
  - subst C. destruct want as [|want]; [lia|]. destruct fuel as [|fuel]; [cbn in Hf; lia|].
    cbn [es_fill concat]. destruct (H p) as (p' & -> & HP). rewrite HP. set (n := S want).
    destruct (Nat.le_gt_cases n (length d)) as [L|L].
    + rewrite firstn_length_le by auto. rewrite Nat.sub_diag, fill_0. rewrite app_length, (proj2 (Nat.leb_le _ _)) by lia.
      exists (mkES r' p' (skipn n d)), ds. cbn [es_br es_rem]. split.
      { rewrite firstn_app. replace (n - length d)%nat with 0%nat by lia. rewrite firstn_O, app_nil_r. reflexivity. }
      split; [exact Y|]. split; [|cbn [length]; lia]. rewrite skipn_app. replace (n - length d)%nat with 0%nat by lia. reflexivity.
    + rewrite firstn_all2 by lia. rewrite skipn_all.
      destruct (IH fuel p' (n - length d)%nat (acc ++ d) []) as (s' & ds' & E & Y' & R & Q); [lia | cbn in Hf; lia |].
      exists s', ds'. rewrite E. split; [|split; [exact Y'|split] ].
      * f_equal. f_equal. rewrite firstn_app, (firstn_all2 (n := n) d), app_assoc by lia. f_equal. rewrite app_length.
        destruct (Nat.leb_spec (n - length d) (length (concat ds))); destruct (Nat.leb_spec n (length d + length (concat ds))); auto; lia.
      * rewrite R, skipn_app, (skipn_all2 d) by lia. reflexivity.
      * cbn [length]. lia.
Qed.
Lemma read_yields : forall e k fuel s ds want, yields e (es_br s) ds -> (length ds < k)%nat -> (k <= fuel)%nat ->
  let c := es_rem s ++ concat ds in
  exists s' ds', es_read fuel want s = (Ok (fst (ideal_read e want c)), s') /\
    yields e (es_br s') ds' /\ es_rem s' ++ concat ds' = snd (ideal_read e want c) /\ (length ds' < k)%nat.
Proof.
  intros e k fuel s ds want Y Hl Hk c. subst c. unfold es_read, ideal_read. rewrite app_length.
  destruct (Nat.le_gt_cases want (length (es_rem s))) as [L|L].
  - rewrite firstn_length_le by auto. rewrite Nat.sub_diag, fill_0, (proj2 (Nat.leb_le _ _)) by lia. cbn [fst snd].
    exists (mkES (es_br s) (es_cur s) (skipn want (es_rem s))), ds. cbn [es_br es_rem]. split.
    { rewrite firstn_app. replace (want - length (es_rem s))%nat with 0%nat by lia. rewrite firstn_O, app_nil_r. reflexivity. }
    split; [exact Y|]. split; [|exact Hl]. rewrite skipn_app. replace (want - length (es_rem s))%nat with 0%nat by lia. reflexivity.
  - rewrite (firstn_all2 (es_rem s)) by lia. rewrite skipn_all.
    destruct (fill_yields e (es_br s) ds Y fuel (es_cur s) (want - length (es_rem s)) (es_rem s) []) as (s' & ds' & E & Y' & R & Q); [lia | lia |].
    exists s', ds'. rewrite E. destruct (Nat.leb_spec want (length (es_rem s) + length (concat ds))).
    + rewrite (proj2 (Nat.leb_le _ _)) by lia. cbn [fst snd]. split; [|split; [exact Y'|split; [|lia] ] ].
      * f_equal. f_equal. f_equal. rewrite firstn_app. rewrite (firstn_all2 (es_rem s)) by lia. reflexivity.
      * rewrite R, skipn_app, (skipn_all2 (es_rem s)) by lia. reflexivity.
    + rewrite (proj2 (Nat.leb_gt _ _)) by lia. cbn [fst snd]. split; [|split; [exact Y'|split; [|lia] ] ].
      * f_equal. f_equal. f_equal. rewrite firstn_all2 by lia. reflexivity.
      * rewrite R. apply skipn_all2. lia.
Qed.
Lemma reads_yields : forall e k fuel sizes s ds, yields e (es_br s) ds -> (length ds < k)%nat -> (k <= fuel)%nat ->
  es_reads fuel sizes s = map Ok (ideal_reads e sizes (es_rem s ++ concat ds)).
Proof.
  intros e k fuel. induction sizes as [|n sizes IH]; intros s ds Y Hl Hk; [reflexivity|].
  cbn [es_reads ideal_reads]. destruct (read_yields e k fuel s ds n Y Hl Hk) as (s' & ds' & E & Y' & R & Q).
  rewrite E. destruct (ideal_read e n (es_rem s ++ concat ds)) as [out c'] eqn:EI. cbn [fst snd map] in *.
  f_equal. rewrite <- R. now apply IH.
Qed.

(** Units that are one packet of length 0 each *)
Definition open_unit (id : Z) (u : shead * list Z) (bs : list Z) : Prop :=
  wf_head (fst u) /\ bytes (snd u) /\ bb bs = enc_open id (fst u) (snd u).
Lemma pes_next_nothing : forall p e sh, pes_next (p, mkR [] e [] sh) = (Err e, (p, mkR [] e [] sh)).
Proof. intros. exact (pes_next_end p (mkR [] e [] sh) eq_refl). Qed.
Lemma units_yield : forall id e sh us bss, carries_header id -> Forall2 (open_unit id) us bss ->
  yields e (unit_source e sh bss) (map snd us).
Proof.
  intros id e sh us bss Hid H. induction H as [|[h d] bs us bss (H1 & H2 & H3) H IH].
  - cbn [unit_source map]. constructor. intro p. exists p. apply pes_next_nothing.
  - cbn [unit_source map snd fst] in *. apply (y_next _ _ (unit_source e sh bss)).
    + intro p. rewrite H3. eexists. split.
      * pose proof (pes_next_open id h d p (mkR [] EOP (map (fun u => (bb u, EOP)) bss ++ [([], e)]) sh) Hid H1 H2) as E.
        unfold setb in E. cbn [rfin rlater rshort] in E. rewrite E. unfold advance. cbn [rlater rshort setb].
        destruct bss as [|b bss]; reflexivity.
      * reflexivity.
    + exact IH.
Qed.
Theorem es_open_units : forall id e sh us bss sizes fuel, carries_header id -> Forall2 (open_unit id) us bss -> (length us < fuel)%nat ->
  es_reads fuel sizes (new_esreader (unit_source e sh bss)) = map Ok (ideal_reads e sizes (concat (map snd us))).
Proof.
  intros id e sh us bss sizes fuel Hid H Hf. pose proof (units_yield id e sh us bss Hid H) as Y.
  rewrite (reads_yields e (S (length us)) fuel sizes (new_esreader (unit_source e sh bss)) (map snd us)); [reflexivity | exact Y | rewrite map_length; lia | lia].
Qed.

(** Units that are one packet with a length each: EOP comes after every packet. *)
Definition bounded_unit (s : spes) (bs : list Z) : Prop := wf_pes s /\ bb bs = enc_pes s.
Definition between (e : err) (sh : nat -> nat -> err) (bss : list (list Z)) : reader :=
  mkR [] EOP (map (fun u => (bb u, EOP)) bss ++ [([], e)]) sh.
Lemma next_between : forall p e sh bss, pes_next (p, between e sh bss) = (Err EOP, (p, unit_source e sh bss)).
Proof.
  intros p e sh bss. unfold pes_next. erewrite bind_onr_err; [reflexivity|]. unfold peek_n, between. cbn [rbits length Nat.leb]. unfold short. cbn [rbits rfin].
  unfold advance. cbn [rlater rshort]. destruct bss; reflexivity.
Qed.
Definition at_units (e : err) (sh : nat -> nat -> err) (s : esreader) (cur : option (list Z)) (ss : list spes) : Prop :=
  exists bss, Forall2 bounded_unit ss bss /\
    match cur with
    | None => es_rem s = [] /\ es_br s = unit_source e sh bss
    | Some b => es_rem s = b /\ es_br s = between e sh bss
    end.
Lemma read_units : forall e sh fuel s cur ss n, at_units e sh s cur ss -> (0 < n)%nat -> (2 <= fuel)%nat ->
  exists s' cur' ss', es_read fuel n s = (Ok (fst (unit_read e n cur (map se_payload ss))), s') /\
    snd (unit_read e n cur (map se_payload ss)) = (cur', map se_payload ss') /\ at_units e sh s' cur' ss'.
Proof.
  intros e sh fuel s cur ss n (bss & U & A) Hn Hf. unfold es_read, unit_read.
  destruct fuel as [|[|fuel] ]; [lia | lia |].
  assert (K : forall f p b ss bss w, Forall2 bounded_unit ss bss -> (0 < w)%nat ->
    exists s', es_fill (S f) p (between e sh bss) w b [] = (Ok (b, Some EOP), s') /\ at_units e sh s' None ss).
  { intros f p b ss0 bss0 w U0 Hw. destruct w as [|w]; [lia|]. cbn [es_fill]. rewrite next_between. eexists. split; [reflexivity|]. exists bss0. cbn. auto. }
  destruct cur as [b|]; destruct A as (A1 & A2); rewrite A1, A2.
  - destruct (Nat.leb_spec n (length b)) as [L|L].
    + rewrite firstn_length_le by auto. rewrite Nat.sub_diag, fill_0. cbn [fst snd]. eexists _, _, ss. split; [reflexivity|]. split; [reflexivity|]. exists bss. cbn. auto.
    + rewrite (firstn_all2 b) by lia. rewrite skipn_all. cbn [fst snd].
      destruct (K (S fuel) (es_cur s) b ss bss (n - length b)%nat U ltac:(lia)) as (s' & -> & Q). eexists _, _, ss. split; [reflexivity|]. split; [reflexivity | exact Q].
  - replace (skipn (length (firstn n (@nil Z))) (@nil Z)) with (@nil Z) by now rewrite skipn_nil.
    rewrite firstn_nil. cbn [length app]. rewrite Nat.sub_0_r.
    destruct U as [|x bs ss bss (W & B) U]; cbn [map].
    + destruct n as [|n]; [lia|]. cbn [es_fill unit_source]. rewrite pes_next_nothing. cbn [fst snd]. eexists _, _, []. split; [reflexivity|]. split; [reflexivity|]. exists []. cbn. auto.
    + destruct n as [|n']; [lia|]. set (n := S n') in *.
      assert (E : exists p', pes_next (es_cur s, unit_source e sh (bs :: bss)) = (Ok tt, (p', between e sh bss)) /\ pp_payload p' = se_payload x).
      { eexists. pose proof (pes_next_enc x (es_cur s) (between e sh bss) [] W) as E. rewrite app_nil_r, <- B in E. split; [exact E | reflexivity]. }
      destruct E as (p' & E & HP). 
      assert (F : es_fill (S (S fuel)) (es_cur s) (unit_source e sh (bs :: bss)) n [] [] =
        es_fill (S fuel) p' (between e sh bss) (n - length (firstn n (se_payload x))) (firstn n (se_payload x)) (skipn (length (firstn n (se_payload x))) (se_payload x))).
      { unfold n at 1. cbn [es_fill]. rewrite E, HP. reflexivity. }
      rewrite F. destruct (Nat.leb_spec n (length (se_payload x))) as [L|L].
      * rewrite firstn_length_le by auto. rewrite Nat.sub_diag, fill_0. cbn [fst snd]. eexists _, _, ss. split; [reflexivity|]. split; [reflexivity|]. exists bss. cbn. auto.
      * rewrite (firstn_all2 (se_payload x)) by lia. rewrite skipn_all. cbn [fst snd].
        destruct (K fuel p' (se_payload x) ss bss (n - length (se_payload x))%nat U ltac:(lia)) as (s' & -> & Q). eexists _, _, ss. split; [reflexivity|]. split; [reflexivity | exact Q].
Qed.
Theorem es_bounded_units : forall e sh ss bss sizes fuel, Forall2 bounded_unit ss bss -> positive sizes -> (2 <= fuel)%nat ->
  es_reads fuel sizes (new_esreader (unit_source e sh bss)) = map Ok (unit_reads e sizes None (map se_payload ss)).
Proof.
  intros e sh ss bss sizes fuel U P Hf.
  assert (G : forall sizes s cur ss, positive sizes -> at_units e sh s cur ss -> es_reads fuel sizes s = map Ok (unit_reads e sizes cur (map se_payload ss))).
  { clear - Hf. induction sizes as [|n sizes IH]; intros s cur ss P A; [reflexivity|]. apply Forall_cons_iff in P. destruct P as (P1 & P2).
    cbn [es_reads unit_reads]. destruct (read_units e sh fuel s cur ss n A P1 Hf) as (s' & cur' & ss' & E & R & A').
    rewrite E. destruct (unit_read e n cur (map se_payload ss)) as [out st]. cbn [fst snd] in *. subst st. cbn [map]. f_equal. now apply IH. }
  apply G; [exact P|]. exists bss. cbn. auto.
Qed.
