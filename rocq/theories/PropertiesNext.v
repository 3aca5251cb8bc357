(** PropertiesNext: C38 (frames), C52, C53, C59, C73 - the frame store, the order of frames, whole sequences. *)
From Coq Require Import Lia Permutation.
From Verif Require Import Base BitReader VidModel SpecVid SpecVlc VlcTables SpecMotion SpecNext SpecPicture SpecStore BlockModel MbModel Exec TsRobust VidProofs VlcProofs PropertiesVidHeaders SliceProofs.
From Verif Require StoreProofs ShapeProofs LongProofs.
From Verif Require Import NextProofs ExampleStream PatternProofs.

(** ** C38: the frame covers the picture in whole macroblocks. *)

(** For every input: if a picture is decoded, the frame has the size in force, rounded up to whole macroblocks. *)
Theorem C38_frame : forall s img v' r' w h, step s = (Ok img, (v', r')) -> size v' = (w, h) -> 0 <= w -> 0 <= h ->
  w <= im_w img < w + 16 /\ im_w img mod 16 = 0 /\ h <= im_h img < h + 16 /\ im_h img mod 16 = 0 /\
  im_ys img = im_w img /\ pl_len (im_y img) = im_w img * im_h img.
Proof.
  intros s img v' r' w h H E W0 H0. apply ShapeProofs.step_decoded in H. destruct H as (v2 & r2 & r3 & H & SZ & _).
  apply ShapeProofs.picture_shape in H. destruct H as (se & _ & H). rewrite SZ, E in H. cbn [fst snd] in H.
  assert (R : forall n, 0 <= n -> n <= whole n < n + 16 /\ whole n mod 16 = 0).
  { intros n Hn. unfold whole. pose proof (Z.div_mod (n + 15) 16 ltac:(lia)). pose proof (Z.mod_pos_bound (n + 15) 16 ltac:(lia)).
    rewrite (Z.mul_comm 16 ((n + 15) / 16)) at 3. rewrite Z.mod_mul by lia. lia. }
  assert (X : im_w img = whole w /\ im_h img = whole h /\ im_ys img = whole w /\ pl_len (im_y img) = whole w * whole h).
  { unfold ShapeProofs.shape in H. injection H as E1 E2 E3 E4 E5 E6 E7. unfold create_frame_buffer in *. rewrite !whole_eq in * by assumption.
    destruct (_ =? _); [|destruct (_ =? _)]; cbn in E1, E2, E3, E5; auto. }
  destruct X as (-> & -> & -> & ->). pose proof (R w W0). pose proof (R h H0). tauto.
Qed.

(** ** C52: the reference frames *)

(** The frame store after a history: [fs_run h] is obtained from the empty store by the operations of
    frame_store.go, one after the other. *)

(** When a picture is decoded after history [h], its past frame is the reference next to it in display order
    before it, and its future frame the one after it. *)
Theorem C52_neighbours : forall h tr f, coding_order h (group_after h, tr) ->
  (nearest_before (refs h) (group_after h, tr) f -> fs_past (fs_set tr (StoreProofs.fs_run h)) = Some f) /\
  (nearest_after (refs h) (group_after h, tr) f -> fs_future (fs_set tr (StoreProofs.fs_run h)) = Some f).
Proof.
  intros h tr f C. split; intro N.
  - exact (proj1 (StoreProofs.store_neighbours h tr C) f N).
  - exact (proj2 (StoreProofs.store_neighbours h tr C) f N).
Qed.

(** Every state between two calls of Next has such a history. *)
Theorem C52_histories : forall n r imgs v' r', nexts n (new_vidseq, r) = (Ok imgs, (v', r')) -> exists h, v_fs v' = StoreProofs.fs_run h.
Proof.
  intros n r imgs v' r' H.
  assert (G : forall n h v r imgs v' r', v_fs v = StoreProofs.fs_run h -> nexts n (v, r) = (Ok imgs, (v', r')) -> exists h', v_fs v' = StoreProofs.fs_run h').
  { clear. induction n as [|n IH]; intros h v r imgs v' r' E H; cbn [nexts] in H.
    - inversion H; subst. eauto.
    - apply bind_ok_inv in H. destruct H as (x & (v1 & r1) & E1 & H). apply bind_ok_inv in H. destruct H as (xs & (v2 & r2) & E2 & H). inversion H; subst.
      destruct (StoreProofs.next_extends _ _ _ _ _ _ E E1) as (h1 & K). exact (IH _ _ _ _ _ _ K E2). }
  apply (G n [] new_vidseq r imgs v' r'); [reflexivity | exact H].
Qed.

(** What the decoder does with one picture, perhaps after a group header [g]: the slices are decoded with the
    neighbours in display order as past and future frame, and the history goes on. *)
Theorem C52_decoding : forall h v r img v' r', v_fs v = StoreProofs.fs_run h -> step (v, r) = (Ok img, (v', r')) ->
  exists g ph v2 r2 r3,
    (g = [] /\ v_gop v' = v_gop v \/ g = [NewGroup] /\ exists header, v_gop v' = Some header) /\
    v_ph v' = Some ph /\ v_ph v2 = Some ph /\ picture_data v2 r2 = (Ok img, r3) /\
    (let x := (group_after (h ++ g), ph_tr ph) in
     coding_order (h ++ g) x ->
     (forall f, nearest_before (refs (h ++ g)) x f -> fs_past (v_fs v2) = Some f) /\
     (forall f, nearest_after (refs (h ++ g)) x f -> fs_future (v_fs v2) = Some f)) /\
    v_fs v' = StoreProofs.fs_run ((h ++ g) ++
      [if (ph_type ph =? 1) || (ph_type ph =? 2) then Reference img (ph_tr ph) else Bidirectional (ph_tr ph)]).
Proof.
  intros h v r img v' r' E H. apply StoreProofs.step_history in H.
  destruct H as [ ((ph & v2 & r2 & r3 & P1 & P2 & F & D & K) & C) | ((ph & v2 & r2 & r3 & P1 & P2 & F & D & K) & gh & C) ].
  - exists [], ph, v2, r2, r3. rewrite app_nil_r. split; [left; split; [reflexivity | injection C as _ C; exact C]|]. split; [exact P1|]. split; [exact P2|]. split; [exact D|]. rewrite E in F, K. split.
    + intros x CO. rewrite F. exact (StoreProofs.store_neighbours h (ph_tr ph) CO).
    + rewrite K. unfold StoreProofs.fs_run. now rewrite fold_left_app.
  - exists [NewGroup], ph, v2, r2, r3. split; [right; split; [reflexivity | exists gh; injection C as _ C; exact C]|]. split; [exact P1|]. split; [exact P2|]. split; [exact D|]. rewrite E in F, K.
    assert (R : StoreProofs.fs_run (h ++ [NewGroup]) = fs_gop (StoreProofs.fs_run h)) by (unfold StoreProofs.fs_run; now rewrite fold_left_app).
    split.
    + intros x CO. rewrite F, <- R. exact (StoreProofs.store_neighbours (h ++ [NewGroup]) (ph_tr ph) CO).
    + rewrite K, <- R. unfold StoreProofs.fs_run. now rewrite (fold_left_app _ (h ++ [NewGroup]) [_]).
Qed.

(** A P picture, which comes after all references so far in display order, has the latest reference as its past frame. *)
Theorem C52_latest : forall h tr l p f, coding_order h (group_after h, tr) -> refs h = l ++ [(p, f)] -> shown_before p (group_after h, tr) ->
  fs_past (fs_set tr (StoreProofs.fs_run h)) = Some f.
Proof.
  intros h tr l p f C E B. apply C52_neighbours; [exact C|]. exists p. rewrite E. split; [apply in_or_app; right; left; reflexivity|]. split; [exact B|].
  intros q g I _. apply in_app_or in I. destruct I as [I | [I | [] ] ]; [right | left; congruence].
  destruct C as (O & _). rewrite E, map_app in O. cbn [map fst] in O. clear - O I.
  induction l as [|[a b] l IH]; [destruct I|]. cbn [map fst app in_order] in O. destruct O as (O1 & O2). destruct I as [I | I].
  - injection I as <- <-. rewrite Forall_forall in O1. apply O1. apply in_or_app. right. left. reflexivity.
  - now apply IH.
Qed.

(** A closed group I0 P3 B1 B2 and the start of an open one, I2; its leading picture B0 lies between P3 and I2. *)
Definition ex_img (n : Z) : image := mkImage nil_plane nil_plane nil_plane n 0 0 0.
Definition ex_history : list happening :=
  [NewGroup; Reference (ex_img 0) 0; Reference (ex_img 1) 3; Bidirectional 1; Bidirectional 2; NewGroup; Reference (ex_img 2) 2].
Example C52_hyp_open : coding_order ex_history (group_after ex_history, 0) /\
  nearest_before (refs ex_history) (group_after ex_history, 0) (ex_img 1) /\ nearest_after (refs ex_history) (group_after ex_history, 0) (ex_img 2).
Proof.
  assert (L : refs ex_history = [((1, 0), ex_img 0); ((1, 3), ex_img 1); ((2, 2), ex_img 2)]) by reflexivity.
  change (group_after ex_history) with 2. unfold coding_order, nearest_before, nearest_after. rewrite L. split; [split|split].
  - cbn [map fst in_order]. unfold shown_before. repeat first [split | apply Forall_cons | apply Forall_nil | exact I]; cbn [fst snd]; lia.
  - intros l p f E. assert (E' : [((1, 0), ex_img 0); ((1, 3), ex_img 1)] ++ [((2, 2), ex_img 2)] = l ++ [(p, f)]) by exact E.
    apply app_inj_tail in E'. destruct E' as (<- & E'). injection E' as <- <-. unfold shown_before.
    split; [repeat first [apply Forall_cons | apply Forall_nil]|]; cbn [fst snd]; lia.
  - exists (1, 3). unfold shown_before. cbn [In fst snd]. split; [auto|]. split; [lia|]. intros q g [K|[K|[K|[] ] ] ]; injection K as <- <-; cbn [fst snd]; intro; [right; lia | left; reflexivity | exfalso; lia].
  - exists (2, 2). unfold shown_before. cbn [In fst snd]. split; [auto|]. split; [lia|]. intros q g [K|[K|[K|[] ] ] ]; injection K as <- <-; cbn [fst snd]; intro; [exfalso; lia | exfalso; lia | left; reflexivity].
Qed.

(** ** C53: Next returns every picture once, in display order. *)

(** Display order loses and repeats no picture. *)
Theorem C53_each_once : forall l, Permutation (display l) l.
Proof.
  intro l. unfold display.
  assert (G : forall l held, Permutation (reorder held l) (match held with Some r => [r] | None => [] end ++ l)).
  { clear. induction l as [|p l IH]; intro held; cbn [reorder].
    - rewrite app_nil_r. reflexivity.
    - destruct (is_ref p).
      + apply Permutation_app_head. apply (IH (Some p)).
      + rewrite (IH held). apply Permutation_cons_app. reflexivity. }
  apply (G l None).
Qed.

(** For every sequence of groups whose pictures decode (with the right headers, matrices and references, see
    [picture_decodes]): the calls of Next return the pictures' frames in display order - group after group, in
    the order of temporal_reference - and then the end of the sequence.  A group may have 1024 pictures at most. *)
Theorem C53_display_order_partial : forall k g gs rd, valid_sequence (g :: gs) ->
  exists imgs v',
    nexts (length (shown (g :: gs))) (new_vidseq, setb rd (enc_sequence k (g :: gs))) = (Ok imgs, (v', setb rd (code sequence_end_code))) /\
    Forall2 looks imgs (shown (g :: gs)) /\
    next (v', setb rd (code sequence_end_code)) = (Err EOS, (v', setb rd [])) /\
    Forall (fun g => map tref (display (gr_pics g)) = numbers (length (gr_pics g)) /\ Permutation (display (gr_pics g)) (gr_pics g)) (g :: gs).
Proof.
  intros k g gs rd V. destruct (sequence_nexts k g gs rd V) as (imgs & v' & H1 & H2 & H3). exists imgs, v'. split; [exact H1|]. split; [exact H2|]. split; [exact H3|].
  destruct V as (_ & V & _). eapply Forall_impl; [|exact V]. intros g0 (N & _). split; [exact N | apply C53_each_once].
Qed.
Example C53_hyp : valid_sequence xs_groups.
Proof. apply coded_valid, xs_groups_coded. Qed.
(** closed I0 P3 B1 B2, open I2 B0 B1 P3: the order of display *)
Example C53_hyp_order : map (fun g => map tref (gr_pics g)) xs_groups = [[0; 3; 1; 2]; [2; 0; 1; 3]] /\
  map (fun g => map tref (display (gr_pics g))) xs_groups = [[0; 1; 2; 3]; [0; 1; 2; 3]].
Proof. split; reflexivity. Qed.

(** A group of 1025 pictures, all of them I pictures in display order; temporal_reference counts modulo 1024.
    Next returns 1024 frames and then the end: the last picture is lost. *)
Theorem C53_long_group_refuted : exists pics, length pics = 1025%nat /\ display pics = pics /\
  map tref pics = map (fun k => Z.of_nat k mod 1024) (seq 0 1025) /\
  (forall o l, pictures_all picture_coded xs_ctx o l pics) /\
  forall rd, exists imgs v' s v2,
    nexts 1024 (new_vidseq, setb rd (enc_sequence 0 [mkGroup (Some xs_start) (xs_gop true) 0 [] pics])) = (Ok imgs, (v', s)) /\
    length imgs = 1024%nat /\ next (v', s) = (Err EOS, (v2, setb rd [])).
Proof.
  exists (LongProofs.intra_pictures 1025). split; [unfold LongProofs.intra_pictures; rewrite map_length; apply seq_length|]. split; [|split; [|split] ].
  - unfold display. rewrite LongProofs.display_refs by apply LongProofs.intra_refs. reflexivity.
  - unfold LongProofs.intra_pictures. rewrite map_map. apply map_ext. intro k. reflexivity.
  - unfold LongProofs.intra_pictures. generalize (seq 0 1025). induction l as [|k l IH]; intros o lt; cbn [map pictures_all]; [exact I|].
    split; [apply i_coded | apply IH].
  - intro rd. destruct (LongProofs.long_nexts rd) as (imgs & v' & v2 & N & L & E). exists imgs, v', (setb rd (enc_picture (i_pic 0) ++ code sequence_end_code)), v2.
    split; [exact N|]. split; [|exact E]. assert (LL : length imgs = length (map pi_frame (LongProofs.intra_pictures 1024))) by (clear - L; induction L; cbn [length]; congruence). rewrite LL. unfold LongProofs.intra_pictures. rewrite !map_length. apply seq_length.
Qed.

(** ** C59: an undecodable coded block pattern is not reported. *)

(** No code of coded_block_pattern begins these bits. *)
Definition no_cbp (l : list bool) : Prop := forall c cbp t, cbp_code c cbp -> l <> c ++ t.
Lemma zeros_no_cbp : forall l, no_cbp (repeat false 9 ++ l).
Proof.
  intros l c cbp t C E. pose proof (cbp_zeros ex_r l) as Z. rewrite E in Z. destruct cbp_exact as (D & _). rewrite (D c cbp ex_r t C) in Z. discriminate Z.
Qed.

(** A P picture with one slice and one macroblock: after the slice's header, macroblock_address_increment 1 and
    macroblock_type "not motion compensated, coded" come bits that are no coded_block_pattern. *)
Definition undecodable (p : spicture) : Prop := exists header increment type rest,
  pi_data p = header ++ increment ++ type ++ rest /\ header = code 1 ++ enc 5 5 ++ [false] /\
  p_type (pi_hdr p) = 2 /\ e_fpfd (pi_pce p) = true /\
  mba_code increment 1 /\ mbt_code b3 type (false, false, false, true, false) /\ forall l, no_cbp (rest ++ l).
Theorem C59_refuted : exists gs p, In p (flat_map gr_pics gs) /\ undecodable p /\
  forall rd, exists imgs v' s v2, nexts 3 (new_vidseq, setb rd (enc_sequence 0 gs)) = (Ok imgs, (v', s)) /\
    length (flat_map gr_pics gs) = 3%nat /\ next (v', s) = (Err EOS, (v2, setb rd [])).
Proof.
  exists bad_groups, (bad_pic 1). split; [cbn; auto|]. split.
  - exists (code 1 ++ enc 5 5 ++ [false]), (enc 1 1), (enc 2 1), (repeat false 23). split; [reflexivity|]. split; [reflexivity|]. split; [reflexivity|]. split; [reflexivity|].
    split; [|split].
    + split; [lia | has_tac].
    + exists 1, 2. split; [cbn; auto | reflexivity].
    + intros l. exact (zeros_no_cbp (repeat false 14 ++ l)).
  - intro rd. destruct (sequence_nexts 0 _ _ rd bad_valid) as (imgs & v' & N & _ & E). exists imgs, v', (setb rd (code sequence_end_code)), v'. split; [exact N|]. split; [reflexivity | exact E].
Qed.

(** ** C73: whole sequences *)

(** For every sequence whose pictures are coded with macroblocks of [SpecPicture] ([picture_coded]: intra, P and
    B pictures, frame prediction, 4:2:0), Next returns the pictures that the specification reconstructs, every
    sample of them, in display order, and then the end of the sequence. *)
Theorem C73_sequences : forall k g gs rd, sequence_of picture_coded (g :: gs) ->
  exists imgs v',
    nexts (length (shown (g :: gs))) (new_vidseq, setb rd (enc_sequence k (g :: gs))) = (Ok imgs, (v', setb rd (code sequence_end_code))) /\
    Forall2 looks imgs (shown (g :: gs)) /\
    next (v', setb rd (code sequence_end_code)) = (Err EOS, (v', setb rd [])).
Proof. intros k g gs rd H. apply sequence_nexts, coded_valid, H. Qed.
Example C73_hyp : sequence_of picture_coded xs_groups.
Proof. exact xs_groups_coded. Qed.
(** The slices of one picture, wherever it stands *)
Theorem C73_pictures : forall c o l p, picture_coded c o l p -> picture_decodes c o l p.
Proof. exact coded_decodes. Qed.

Print Assumptions C38_frame.
Print Assumptions C52_neighbours.
Print Assumptions C52_histories.
Print Assumptions C52_decoding.
Print Assumptions C52_latest.
Print Assumptions C53_each_once.
Print Assumptions C53_display_order_partial.
Print Assumptions C53_long_group_refuted.
Print Assumptions C59_refuted.
Print Assumptions C73_sequences.
Print Assumptions C73_pictures.
