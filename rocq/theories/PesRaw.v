(** PesRaw: headers with wrong markers or stuffing; truncated packets; panics. *)
From Verif Require Import Base BitReader Exec Local TsLocal PesModel SpecPes PesProofs.

Lemma expect_enc : forall n v w e r l, 0 <= v < 2 ^ Z.of_nat n ->
  expect n w e (setb r (enc n v ++ l)) = (if v =? w then Ok tt else Err e, setb r l).
Proof. intros. unfold expect. rewrite read_enc by auto. destruct (v =? w); reflexivity. Qed.
Lemma expect_flag : forall b e r l,
  expect 1 1 e (setb r (bit b ++ l)) = (if b then Ok tt else Err e, setb r l).
Proof. intros. destruct b; reflexivity. Qed.

Lemma raw_stamp_good : forall m s r l, wf_rstamp s -> good_stamp m s ->
  exists t, read_time_stamp m (setb r (enc_rstamp s ++ l)) = (Ok (t, 5), setb r l).
Proof.
  intros m s r l H (<- & H1 & H2 & H3). unfold read_time_stamp, enc_rstamp. rewrite <- !app_assoc.
  rewrite H1, H2, H3.
  erewrite bind_ok by (apply expect_ok; exact H).
  erewrite bind_ok by apply read_enc_mod.
  erewrite bind_ok by apply expect_bit.
  erewrite bind_ok by apply read_enc_mod.
  erewrite bind_ok by apply expect_bit.
  erewrite bind_ok by apply read_enc_mod.
  erewrite bind_ok by apply expect_bit.
  eexists. reflexivity.
Qed.

Lemma raw_stamp_bad : forall m s r l, wf_rstamp s -> ~ good_stamp m s ->
  exists r', read_time_stamp m (setb r (enc_rstamp s ++ l)) = (Err ErrMarkerNotFound, r').
Proof.
  intros m s r l H N. unfold read_time_stamp, enc_rstamp. rewrite <- !app_assoc.
  unfold good_stamp in N.
  destruct (Z.eqb_spec (rs_marker s) m) as [E|E].
  2:{ erewrite bind_err; [eauto|]. rewrite expect_enc by exact H.
      rewrite (proj2 (Z.eqb_neq _ _)) by auto. reflexivity. }
  erewrite bind_ok by (rewrite <- E; apply expect_ok; exact H).
  erewrite bind_ok by apply read_enc_mod.
  destruct (rs_b1 s).
  2:{ erewrite bind_err; [eauto|]. apply expect_flag. }
  erewrite bind_ok by apply expect_bit.
  erewrite bind_ok by apply read_enc_mod.
  destruct (rs_b2 s).
  2:{ erewrite bind_err; [eauto|]. apply expect_flag. }
  erewrite bind_ok by apply expect_bit.
  erewrite bind_ok by apply read_enc_mod.
  destruct (rs_b3 s).
  2:{ erewrite bind_err; [eauto|]. apply expect_flag. }
  exfalso. apply N. auto.
Qed.

Definition xt_marker_right (x : rxt) : Prop := match rx_pstd x with Some (m, _, _) => m = 1 | None => True end.
Definition wf_rxt (x : rxt) : Prop :=
  match rx_private x with Some d => bytes d /\ blen d = 16 | None => True end /\
  match rx_pstd x with Some (m, _, _) => 0 <= m < 2 ^ 2 | None => True end.

Lemma raw_xt_private : forall x r l B (k : list Z * Z -> M reader B), wf_rxt x ->
  bind (if present (rx_private x) then d <- read_bytes 16 ;; ret (d, 1 + 16) else ret ([], 1)) k
    (setb r ((match rx_private x with Some d => bb d | None => [] end) ++ l)) =
  k (match rx_private x with Some d => d | None => [] end, 1 + (if present (rx_private x) then 16 else 0)) (setb r l).
Proof.
  intros x r l B k (H1 & _). destruct (rx_private x) as [d|]; cbn [present].
  - destruct H1 as [Hb Hl]. rewrite bind_assoc. erewrite bind_ok. 2:{ rewrite <- Hl. apply read_bytes_bb. exact Hb. } reflexivity.
  - reflexivity.
Qed.

Lemma raw_xt_good : forall x r l, wf_rxt x -> xt_marker_right x ->
  exists y, read_extension (setb r (enc_rxt x ++ l)) = (Ok (y, rxt_len x), setb r l).
Proof.
  intros x r l H HM.
  exists (mkPExt (present (rx_private x)) false false (present (rx_pstd x)) false
    (match rx_private x with Some d => d | None => [] end)
    (match rx_pstd x with Some (_, sc, sz) => Some (Z.b2z sc, sz mod 2 ^ Z.of_nat 13) | None => None end)).
  unfold read_extension, enc_rxt, rxt_len, xt_marker_right in *. rewrite <- !app_assoc.
  xrun. rewrite raw_xt_private by auto. cbv beta iota. xrun.
  destruct H as [_ H3]. destruct (rx_pstd x) as [[[m sc] sz]|]; cbn [present].
  - rewrite <- !app_assoc. rewrite !bind_assoc. rewrite HM in *.
    erewrite bind_ok by (apply expect_ok; exact H3).
    rewrite !bind_assoc. rewrite bind_ok with (a := Z.b2z sc) (s' := setb r (enc 13 sz ++ l)) by (destruct sc; reflexivity).
    rewrite !bind_assoc. erewrite bind_ok by apply read_enc_mod. xrun. reflexivity.
  - xrun. rewrite Z.add_0_r. reflexivity.
Qed.

Lemma raw_xt_bad : forall x r l, wf_rxt x -> ~ xt_marker_right x ->
  exists r', read_extension (setb r (enc_rxt x ++ l)) = (Err ErrMarkerNotFound, r').
Proof.
  intros x r l H HM.
  exists (setb r ((match rx_pstd x with Some (_, sc, sz) => bit sc ++ enc 13 sz | None => [] end) ++ l)).
  unfold read_extension, enc_rxt, rxt_len, xt_marker_right in *. rewrite <- !app_assoc.
  xrun. rewrite raw_xt_private by auto. cbv beta iota. xrun.
  destruct H as [_ H3]. destruct (rx_pstd x) as [[[m sc] sz]|]; cbn [present]; [|tauto].
  rewrite <- !app_assoc. rewrite !bind_assoc.
  erewrite bind_err; [reflexivity|]. rewrite expect_enc by exact H3.
  rewrite (proj2 (Z.eqb_neq _ _)) by auto. reflexivity.
Qed.

Lemma rxt_len_range : forall x, 1 <= rxt_len x <= 19.
Proof. intro x. unfold rxt_len. destruct (present (rx_private x)), (present (rx_pstd x)); lia. Qed.

Lemma enc4_bits : forall v, enc 4 v = bit (Z.testbit v 3) ++ bit (Z.testbit v 2) ++ bit (Z.testbit v 1) ++ bit (Z.testbit v 0).
Proof. reflexivity. Qed.

(** The header parser behind its fixed part, when no unsupported part is announced. *)
Definition hstamps (pd : Z) : M reader (Z * Z * Z) :=
  '(pts, n1) <-
    (if pd =? 2 then '(t, l) <- read_time_stamp 2 ;; ret (t, u32 (3 + l)) else ret (0, 3)) ;;
  (if pd =? 3 then
     '(t, l) <- read_time_stamp 3 ;;
     '(t', l') <- read_time_stamp 1 ;;
     ret (t, t', u32 (u32 (n1 + l) + l'))
   else ret (pts, 0, n1)).
Definition hext (extf : bool) (n2 : Z) : M reader (option pext * Z) :=
  if extf then '(x, l) <- read_extension ;; ret (Some x, u32 (n2 + l)) else ret (None, n2).
Definition hstuff (hdl n3 : Z) (g : pheader) : M reader (pheader * Z) :=
  st <- read_stuffing (u32 (hdl - u32 (n3 - 3))) ;; ret (g, u32 (n3 + st)).
Definition hrest (pd : Z) (extf : bool) (hdl : Z) (g : Z -> Z -> option pext -> pheader)
  : M reader (pheader * Z) :=
  '(pts, dts, n2) <- hstamps pd ;;
  '(ext, n3) <- hext extf n2 ;;
  hstuff hdl n3 (g pts dts ext).

Lemma read_header_fixed : forall sc fl pd extf hdl r l, 0 <= pd < 2 ^ 2 -> 0 <= hdl < 2 ^ 8 ->
  exists g, read_header (setb r (enc 2 2 ++ enc 2 sc ++ enc 4 fl ++ enc 2 pd ++
    bit false ++ bit false ++ bit false ++ bit false ++ bit false ++ bit extf ++ enc 8 hdl ++ l)) =
  hrest pd extf hdl g (setb r l).
Proof.
  intros sc fl pd extf hdl r l H1 H2. rewrite enc4_bits. rewrite <- !app_assoc.
  exists (fun pts dts ext => mkPH (sc mod 2 ^ 2) (Z.testbit fl 3) (Z.testbit fl 2) (Z.testbit fl 1) (Z.testbit fl 0)
    pd false false false false false extf hdl pts dts ext).
  unfold read_header.
  erewrite bind_ok by (apply expect_ok; cbn; lia).
  erewrite bind_ok by apply read_enc_mod. xrun.
  unfold hrest, hstamps. unfold minimumHeaderSize.
  unfold bind.
  destruct (pd =? 2) eqn:E2; destruct (pd =? 3) eqn:E3; cbv beta iota delta [ret].
  - lia.
  - destruct (read_time_stamp 2 (setb r l)) as [[[t n]|e| |] r']; cbv beta iota; try reflexivity.
  - destruct (read_time_stamp 3 (setb r l)) as [[[t n]|e| |] r']; cbv beta iota; try reflexivity.
  - reflexivity.
Qed.

Lemma good_stamp_dec : forall m s, {good_stamp m s} + {~ good_stamp m s}.
Proof.
  intros m s. unfold good_stamp.
  destruct (Z.eq_dec (rs_marker s) m); [|right; tauto].
  destruct (rs_b1 s), (rs_b2 s), (rs_b3 s); try (left; tauto); right; intuition discriminate.
Qed.

Definition stamps_right (s : rstamps) : Prop :=
  match s with RNone => True | RPts p => good_stamp 2 p | RPtsDts p d => good_stamp 3 p /\ good_stamp 1 d end.
Definition wf_rstamps (s : rstamps) : Prop :=
  match s with RNone => True | RPts p => wf_rstamp p | RPtsDts p d => wf_rstamp p /\ wf_rstamp d end.

Lemma raw_stamps : forall s r l, wf_rstamps s ->
  (stamps_right s -> exists p d, hstamps (rstamps_flags s) (setb r (enc_rstamps s ++ l)) = (Ok (p, d, 3 + rstamps_len s), setb r l)) /\
  (~ stamps_right s -> exists r', hstamps (rstamps_flags s) (setb r (enc_rstamps s ++ l)) = (Err ErrMarkerNotFound, r')).
Proof.
  intros [|p|p d] r l H; cbn [stamps_right rstamps_flags rstamps_len enc_rstamps wf_rstamps] in *; unfold hstamps;
    cbn [Z.eqb Pos.eqb].
  - split; [|tauto]. intros _. exists 0, 0. reflexivity.
  - split; intro G.
    + destruct (raw_stamp_good 2 p r l H G) as [t E]. exists t, 0. rewrite bind_assoc. erewrite bind_ok by exact E. reflexivity.
    + destruct (raw_stamp_bad 2 p r l H G) as [r' E]. exists r'. rewrite bind_assoc. now erewrite bind_err by exact E.
  - destruct H as [H H']. rewrite <- app_assoc. rewrite bind_ret.
    destruct (good_stamp_dec 3 p) as [G|G].
    + destruct (raw_stamp_good 3 p r (enc_rstamp d ++ l) H G) as [t E].
      erewrite !(bind_ok _ _ _ _ _ _ _ _ E). cbv beta iota.
      destruct (good_stamp_dec 1 d) as [G'|G'].
      * split; [|tauto]. intros _. destruct (raw_stamp_good 1 d r l H' G') as [t' E']. exists t, t'. erewrite bind_ok by exact E'. reflexivity.
      * split; [tauto|]. intros _. destruct (raw_stamp_bad 1 d r l H' G') as [r' E']. exists r'. now erewrite bind_err by exact E'.
    + split; [tauto|]. intros _. destruct (raw_stamp_bad 3 p r (enc_rstamp d ++ l) H G) as [r' E]. exists r'. now erewrite bind_err by exact E.
Qed.

Definition ext_right (x : option rxt) : Prop := match x with None => True | Some x => xt_marker_right x end.
Definition oxt_len (x : option rxt) : Z := match x with Some x => rxt_len x | None => 0 end.

Lemma raw_ext : forall x n r l, match x with None => True | Some x => wf_rxt x end -> 0 <= n <= 100 ->
  (ext_right x -> exists y, hext (present x) n (setb r ((match x with Some x => enc_rxt x | None => [] end) ++ l)) =
     (Ok (y, n + oxt_len x), setb r l)) /\
  (~ ext_right x -> exists r', hext (present x) n (setb r ((match x with Some x => enc_rxt x | None => [] end) ++ l)) =
     (Err ErrMarkerNotFound, r')).
Proof.
  intros [x|] n r l H Hn; cbn [ext_right oxt_len present hext].
  - pose proof (rxt_len_range x). pose proof (raw_xt_good x r l H) as A. pose proof (raw_xt_bad x r l H) as B. split; intro G.
    + destruct (A G) as [y E]. exists (Some y). erewrite bind_ok by exact E. cbv beta iota.
      rewrite u32_small by lia. reflexivity.
    + destruct (B G) as [r' E]. exists r'. now erewrite bind_err by exact E.
  - split; [|tauto]. intros _. exists None. unfold ret. now rewrite Z.add_0_r.
Qed.

Lemma rparts_eq : forall h, rparts_len h = rstamps_len (rh_stamps h) + oxt_len (rh_ext h).
Proof. reflexivity. Qed.
Lemma rparts_range : forall h, 0 <= rparts_len h <= 29.
Proof.
  intro h. rewrite rparts_eq. unfold oxt_len, rstamps_len. destruct (rh_stamps h), (rh_ext h) as [x|];
  try pose proof (rxt_len_range x); lia.
Qed.

Lemma raw_header : forall h r l, wf_rhead h ->
  (markers_right h -> exists g, read_header (setb r (enc_rhead h ++ l)) =
     hstuff (rdata_len h) (3 + rparts_len h) g (setb r (bb (rh_stuffing h) ++ l))) /\
  (~ markers_right h -> exists r', read_header (setb r (enc_rhead h ++ l)) = (Err ErrMarkerNotFound, r')).
Proof.
  intros h r l (H1 & H2 & H3 & H4 & H5). unfold enc_rhead.
  pose proof (rparts_range h) as HP.
  assert (HD : 0 <= rdata_len h) by (unfold rdata_len, blen; lia).
  destruct (Z.eqb_spec (rh_marker h) 2) as [E|E].
  2:{ unfold markers_right. split; [tauto|]. intros _. rewrite <- !app_assoc. unfold read_header.
      erewrite bind_err; [eauto|]. rewrite expect_enc by exact H1.
      rewrite (proj2 (Z.eqb_neq _ _)) by auto. reflexivity. }
  rewrite E. rewrite <- !app_assoc.
  edestruct (read_header_fixed (rh_scrambling h) (rh_flags h) (rstamps_flags (rh_stamps h)) (present (rh_ext h)) (rdata_len h) r)
    as [g ->]; [destruct (rh_stamps h); cbn; lia | cbn; lia |].
  unfold hrest. rewrite rparts_eq in *.
  set (tl := match rh_ext h with Some x => enc_rxt x | None => [] end ++ bb (rh_stuffing h) ++ l).
  assert (MR : markers_right h <-> stamps_right (rh_stamps h) /\ ext_right (rh_ext h)).
  { unfold markers_right. change (match rh_stamps h with RNone => True | RPts p => good_stamp 2 p | RPtsDts p d => good_stamp 3 p /\ good_stamp 1 d end)
      with (stamps_right (rh_stamps h)).
    change (match rh_ext h with None => True | Some x => match rx_pstd x with Some (m, _, _) => m = 1 | None => True end end) with (ext_right (rh_ext h)). tauto. }
  rewrite MR.
  destruct (raw_stamps (rh_stamps h) r tl H2) as [A B].
  assert (D1 : stamps_right (rh_stamps h) \/ ~ stamps_right (rh_stamps h)).
  { destruct (rh_stamps h) as [|p|p d]; cbn; [tauto | destruct (good_stamp_dec 2 p); tauto|].
    destruct (good_stamp_dec 3 p), (good_stamp_dec 1 d); tauto. }
  assert (D2 : ext_right (rh_ext h) \/ ~ ext_right (rh_ext h)).
  { destruct (rh_ext h) as [x|]; cbn; [|tauto]. unfold xt_marker_right.
    destruct (rx_pstd x) as [[[m ?] ?]|]; [|tauto]. destruct (Z.eq_dec m 1); tauto. }
  destruct D1 as [D1|D1].
  2:{ split; [tauto|]. intros _. destruct (B D1) as [r' Er]. exists r'. now erewrite bind_err by exact Er. }
  destruct (A D1) as (p & d & Er). erewrite !(bind_ok _ _ _ _ _ _ _ _ Er). cbv beta iota.
  destruct (raw_ext (rh_ext h) (3 + rstamps_len (rh_stamps h)) r (bb (rh_stuffing h) ++ l)) as [C D].
  { exact H3. } { destruct (rh_stamps h); cbn; lia. }
  destruct D2 as [D2|D2].
  - split; [|tauto]. intros _. destruct (C D2) as [y Ey]. eexists. unfold tl. erewrite bind_ok by exact Ey.
    cbv beta iota. rewrite Z.add_assoc. reflexivity.
  - split; [tauto|]. intros _. destruct (D D2) as [r' Ey]. exists r'. unfold tl. now erewrite bind_err by exact Ey.
Qed.

(** All markers right: the stuffing decides. *)
Lemma first_bad : forall l : list Z, Forall (fun b => b = 255) l \/
  exists k b t, l = repeat 255 k ++ b :: t /\ b <> 255.
Proof.
  induction l as [|b l IH]; [left; constructor|].
  destruct (Z.eq_dec b 255) as [->|N].
  - destruct IH as [F|(k & c & t & -> & Hc)]; [left; constructor; auto|].
    right. exists (S k), c, t. auto.
  - right. exists 0%nat, b, l. auto.
Qed.

Lemma hstuff_bad : forall h g r l, wf_rhead h -> ~ Forall (fun b => b = 255) (rh_stuffing h) ->
  exists r', hstuff (rdata_len h) (3 + rparts_len h) g (setb r (bb (rh_stuffing h) ++ l)) = (Err ErrInvalidStuffingByte, r').
Proof.
  intros h g r l (_ & _ & _ & H4 & H5) N. pose proof (rparts_range h) as HP.
  unfold hstuff, read_stuffing.
  replace (3 + rparts_len h - 3) with (rparts_len h) by lia. rewrite (u32_small (rparts_len h)) by lia.
  unfold rdata_len in *. replace (rparts_len h + blen (rh_stuffing h) - rparts_len h) with (blen (rh_stuffing h)) by lia.
  unfold blen in *. rewrite u32_small by lia. rewrite Nat2Z.id.
  destruct (first_bad (rh_stuffing h)) as [F|(k & b & t & E & Hb)]; [tauto|].
  rewrite E in *. assert (HB : byte b) by (apply Forall_app in H4 as [_ H4]; now apply Forall_inv in H4).
  rewrite bind_assoc.
  replace (repeat 255 k ++ b :: t) with ((repeat 255 k ++ [b]) ++ t) by (rewrite <- app_assoc; reflexivity).
  rewrite bb_app, <- (app_assoc (bb _)).
  erewrite bind_err; [eauto|]. apply stuffing_bad; auto.
  rewrite !app_length, repeat_length. cbn [length]. lia.
Qed.

Lemma hstuff_good : forall h g r l, wf_rhead h -> Forall (fun b => b = 255) (rh_stuffing h) ->
  hstuff (rdata_len h) (3 + rparts_len h) g (setb r (bb (rh_stuffing h) ++ l)) = (Ok (g, 3 + rdata_len h), setb r l).
Proof.
  intros h g r l (_ & _ & _ & H4 & H5) N. pose proof (rparts_range h) as HP.
  unfold hstuff, read_stuffing.
  replace (3 + rparts_len h - 3) with (rparts_len h) by lia. rewrite (u32_small (rparts_len h)) by lia.
  unfold rdata_len in *. replace (rparts_len h + blen (rh_stuffing h) - rparts_len h) with (blen (rh_stuffing h)) by lia.
  unfold blen in *. rewrite u32_small by lia. rewrite Nat2Z.id.
  assert (E : rh_stuffing h = repeat 255 (length (rh_stuffing h))).
  { clear -N. induction N; [reflexivity|]. cbn [length repeat]. now subst; f_equal. }
  rewrite bind_assoc. erewrite bind_ok by (rewrite E at 2; apply stuffing_ok).
  cbv beta iota. rewrite bind_ret. unfold ret. rewrite u32_small by lia. do 3 f_equal. lia.
Qed.
