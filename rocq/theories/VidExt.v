(** VidExt: extension_and_user_data on encoded items; termination. *)
From Verif Require Import Base BitReader Exec Local TsRobust Mono PesLocal PsLocal VidModel SpecVid VidProofs VidStream.

Lemma other_at_code : forall l, at_other_code l -> at_code l.
Proof.
  intros l (b & t & -> & H & _ & _ & T). exists (enc 8 b ++ t). split; [unfold code; now rewrite <- app_assoc|].
  apply app_mod8; auto.
Qed.
Lemma alignment_sum : forall n, ((n + alignment n) mod 8 = 0)%nat.
Proof.
  intro n. unfold alignment. pose proof (Nat.mod_upper_bound n 8 ltac:(lia)) as U.
  rewrite Nat.add_mod by lia. rewrite Nat.mod_mod by lia. rewrite <- Nat.add_mod by lia.
  rewrite Nat.add_mod by lia.
  destruct (n mod 8)%nat as [|[|[|[|[|[|[|[|]]]]]]]]; try reflexivity. lia.
Qed.
Lemma stuffed_mod8 : forall n k l, length l = n -> (length (l ++ stuffing n k) mod 8 = 0)%nat.
Proof.
  intros n k l H. unfold stuffing. rewrite app_assoc. apply app_mod8; [|apply bb_mod8].
  rewrite app_length, repeat_length, H. apply alignment_sum.
Qed.
Lemma enc_extension_mod8 : forall b k, (length (enc_extension b k) mod 8 = 0)%nat.
Proof.
  intros. unfold enc_extension. rewrite app_assoc. apply stuffed_mod8. rewrite app_length, code_length. reflexivity.
Qed.
Lemma enc_xitem_mod8 : forall x, (length (enc_xitem x) mod 8 = 0)%nat.
Proof.
  destruct x; cbn [enc_xitem]; [apply enc_extension_mod8 .. |]. unfold enc_user. apply app_mod8; [now rewrite code_length | apply bb_mod8].
Qed.
Lemma enc_xitem_prefix : forall x, exists t, enc_xitem x = prefix ++ t.
Proof. destruct x; cbn [enc_xitem]; unfold enc_extension, enc_user, code; rewrite <- ?app_assoc; eauto. Qed.
Lemma xitems_at_code : forall xs l, at_code l -> at_code (enc_xitems xs ++ l).
Proof.
  intros xs l H. induction xs as [|x xs IH]; [exact H|]. cbn [enc_xitems flat_map]. rewrite <- app_assoc.
  destruct (enc_xitem_prefix x) as (t & E).
  assert (M : (length t mod 8 = 0)%nat).
  { pose proof (enc_xitem_mod8 x) as M. rewrite E, app_length in M. unfold prefix in M. rewrite enc_length in M.
    rewrite Nat.add_mod in M by lia. change (24 mod 8)%nat with 0%nat in M. rewrite Nat.add_0_l, Nat.mod_mod in M by lia. exact M. }
  destruct IH as (u & IH & U). rewrite E, <- app_assoc. fold (enc_xitems xs). rewrite IH. exists (t ++ prefix ++ u). split; [reflexivity|].
  apply app_mod8; auto. now apply prefix_app_mod8.
Qed.

(** Effect of an item. *)
Definition item_effect (x : xitem) (v : vidseq) : vidseq := match x with XQuant s _ => quant_update s v | _ => v end.
Definition items_effect (xs : list xitem) (v : vidseq) : vidseq := fold_left (fun v x => item_effect x v) xs v.
Definition is_ext (x : xitem) : bool := match x with XUser _ => false | _ => true end.
Definition ext_bits (x : xitem) : list bool :=
  match x with
  | XDisplay s k => enc_disp s ++ stuffing (32 + length (enc_disp s)) k
  | XQuant s k => enc_quant s ++ stuffing (32 + length (enc_quant s)) k
  | XTemporal s k => enc_temp s ++ stuffing (32 + length (enc_temp s)) k
  | XUser _ => []
  end.
Lemma enc_ext_bits : forall x, is_ext x = true -> enc_xitem x = code extension_code ++ ext_bits x.
Proof. destruct x; try discriminate; intros _; reflexivity. Qed.
Lemma onr_run : forall T A B (m : M reader A) (k : A -> M (T * reader) B) t r a r',
  m r = (Ok a, r') -> bind (onr m) k (t, r) = k a (t, r').
Proof. intros. now erewrite bind_onr_ok by eauto. Qed.
Lemma body_run : forall x i v r l, is_ext x = true -> allowed i x -> wf_xitem x -> at_code l ->
  extension_body i (v, setb r (ext_bits x ++ l)) = (Ok tt, (item_effect x v, setb r l)).
Proof.
  intros x i v r l E Ai W Hl. unfold extension_body. destruct x; try discriminate E; cbn [allowed] in Ai; subst i; cbn [Z.eqb Pos.eqb ext_bits item_effect].
  - assert (P : forall t, peek_n 4 (setb r (enc_disp s ++ t)) = (Ok 2, setb r (enc_disp s ++ t))).
    { intro t. unfold enc_disp, enc_disp_with. rewrite <- app_assoc. apply peek_enc. cbn; lia. }
    rewrite <- app_assoc. erewrite bind_onr_ok by apply P. cbn [Z.eqb Pos.eqb SequenceDisplayExtensionID].
    erewrite bind_onr_ok by (now apply disp_run). reflexivity.
  - assert (P : forall t, peek_n 4 (setb r (enc_quant s ++ t)) = (Ok 3, setb r (enc_quant s ++ t))).
    { intro t. unfold enc_quant. rewrite <- app_assoc. apply peek_enc. cbn; lia. }
    rewrite <- app_assoc. erewrite bind_onr_ok by apply P. cbn [Z.eqb Pos.eqb QuantMatrixExtensionID]. now apply quant_run.
  - assert (P : forall t, peek_n 4 (setb r (enc_temp s ++ t)) = (Ok 10, setb r (enc_temp s ++ t))).
    { intro t. unfold enc_temp, enc_temp_with. rewrite <- app_assoc. apply peek_enc. cbn; lia. }
    rewrite <- app_assoc. erewrite bind_onr_ok by apply P.
    cbn [Z.eqb Pos.eqb QuantMatrixExtensionID CopyrightExtensionID PictureDisplayExtensionID PictureSpatialScalableExtensionID].
    erewrite bind_onr_ok by (now apply temp_run). reflexivity.
Qed.
Lemma skip_code_run : forall (v : vidseq) r b t,
  ignore_err tt (onr (skip_n 32)) (v, setb r (code b ++ t)) = (Ok tt, (v, setb r t)).
Proof.
  intros. unfold ignore_err, onr. cbn [fst snd]. rewrite (skip_app 32 r (code b) t) by apply code_length. reflexivity.
Qed.
(** [split_ext xs]: the extensions at the head of the list, and the rest. *)
Fixpoint split_ext (xs : list xitem) : list xitem * list xitem :=
  match xs with
  | x :: t => if is_ext x then (x :: fst (split_ext t), snd (split_ext t)) else ([], xs)
  | [] => ([], [])
  end.
Lemma ext_data_run : forall xs i f v r l, (length xs < f)%nat -> Forall (allowed i) xs -> Forall wf_xitem xs -> at_other_code l ->
  extension_data f i (v, setb r (enc_xitems xs ++ l)) =
  (Ok tt, (items_effect (fst (split_ext xs)) v, setb r (enc_xitems (snd (split_ext xs)) ++ l))).
Proof.
  induction xs as [|x xs IH]; intros i f v r l Hf HA HW Hl; (destruct f; [lia|]); cbn [extension_data].
  - destruct Hl as (b & t & -> & Hb & N1 & N2 & T). cbn [enc_xitems flat_map app].
    erewrite bind_onr_ok by (now apply peek_code). rewrite (proj2 (Z.eqb_neq _ _)); [reflexivity|].
    change ExtensionStartCode with (256 + extension_code). unfold extension_code in *. lia.
  - cbn [enc_xitems flat_map split_ext]. rewrite <- app_assoc. fold (enc_xitems xs).
    destruct (is_ext x) eqn:E.
    + rewrite enc_ext_bits by auto. rewrite <- app_assoc.
      erewrite bind_onr_ok by (apply peek_code; unfold extension_code; lia).
      change (256 + extension_code =? ExtensionStartCode) with true. cbn [negb].
      rewrite (bind_ok _ _ _ _ _ _ _ _ (skip_code_run _ _ _ _)).
      erewrite bind_ok; [|apply body_run; auto; [exact (Forall_inv HA) | exact (Forall_inv HW) | apply xitems_at_code; now apply other_at_code]].
      cbn [fst snd]. rewrite IH; [reflexivity | cbn in Hf; lia | exact (Forall_inv_tail HA) | exact (Forall_inv_tail HW) | auto].
    + destruct x; try discriminate E. cbn [enc_xitem fst snd]. unfold enc_user. rewrite <- app_assoc.
      erewrite bind_onr_ok by (apply peek_code; unfold user_data_code; lia).
      change (256 + user_data_code =? ExtensionStartCode) with false. cbn [negb enc_xitems flat_map enc_xitem]. unfold enc_user.
      rewrite <- !app_assoc. reflexivity.
Qed.
Lemma split_ext_parts : forall xs, fst (split_ext xs) ++ snd (split_ext xs) = xs.
Proof. induction xs as [|x xs IH]; [reflexivity|]. cbn [split_ext]. destruct (is_ext x); [|reflexivity]. cbn [fst snd app]. now rewrite IH. Qed.
Lemma items_effect_app : forall a b v, items_effect (a ++ b) v = items_effect b (items_effect a v).
Proof. intros. unfold items_effect. apply fold_left_app. Qed.
Lemma ext_user_run : forall n xs i f v r l, length xs = n -> (n < f)%nat -> Forall (allowed i) xs -> Forall wf_xitem xs -> at_other_code l ->
  ext_user_loop f i (v, setb r (enc_xitems xs ++ l)) = (Ok tt, (items_effect xs v, setb r l)).
Proof.
  induction n as [n IH] using lt_wf_ind. intros xs i f v r l Hn Hf HA HW Hl. destruct f; [lia|]. cbn [ext_user_loop].
  destruct xs as [|x xs].
  - pose proof Hl as (b & t & E & Hb & N1 & N2 & T). cbn [enc_xitems flat_map app]. rewrite E.
    erewrite bind_onr_ok by (now apply peek_code).
    change UserDataStartCode with (256 + user_data_code). change ExtensionStartCode with (256 + extension_code).
    rewrite !(proj2 (Z.eqb_neq (256 + b) _)) by (unfold user_data_code, extension_code in *; lia). reflexivity.
  - destruct (is_ext x) eqn:E.
    + assert (I1 : (i =? 1) = false).
      { pose proof (Forall_inv HA) as A1. destruct x; try discriminate E; cbn [allowed] in A1; subst i; reflexivity. }
      assert (P : peek_n 32 (setb r (enc_xitems (x :: xs) ++ l)) = (Ok (256 + extension_code), setb r (enc_xitems (x :: xs) ++ l))).
      { cbn [enc_xitems flat_map]. rewrite enc_ext_bits by auto. rewrite <- !app_assoc. apply peek_code. unfold extension_code. lia. }
      erewrite bind_onr_ok by exact P. change (256 + extension_code =? ExtensionStartCode) with true. rewrite I1. cbn [negb andb].
      erewrite bind_ok; [|apply ext_data_run; auto].
      2:{ cbn [snd]. rewrite rbits_setb, app_length. 
          assert (L : forall ys, (length ys <= length (enc_xitems ys))%nat).
          { induction ys; [cbn; lia|]. cbn [enc_xitems flat_map length]. rewrite app_length. fold (enc_xitems ys).
            destruct (enc_xitem_prefix a) as (t & ->). rewrite app_length. unfold prefix. rewrite enc_length. lia. }
          specialize (L (x :: xs)). lia. }
      pose proof (split_ext_parts (x :: xs)) as SP. cbn [split_ext] in *. rewrite E in *. cbn [fst snd] in *.
      set (a := fst (split_ext xs)) in *. set (b := snd (split_ext xs)) in *.
      assert (Lb : (length b < length (x :: xs))%nat).
      { rewrite <- SP. cbn [app length]. rewrite app_length. lia. }
      rewrite (IH (length b)); [|lia|reflexivity|lia| | |auto].
      * rewrite <- items_effect_app, SP. reflexivity.
      * rewrite <- SP in HA. apply Forall_app in HA. tauto.
      * rewrite <- SP in HW. apply Forall_app in HW. tauto.
    + destruct x; try discriminate E. cbn [enc_xitems flat_map enc_xitem].
      assert (P : peek_n 32 (setb r ((enc_user d ++ flat_map enc_xitem xs) ++ l)) = (Ok (256 + user_data_code), setb r ((enc_user d ++ flat_map enc_xitem xs) ++ l))).
      { unfold enc_user. rewrite <- !app_assoc. apply peek_code. unfold user_data_code. lia. }
      erewrite bind_onr_ok by exact P. change (256 + user_data_code =? ExtensionStartCode) with false.
      change (256 + user_data_code =? UserDataStartCode) with true. cbn [negb andb]. rewrite andb_false_r.
      destruct (Forall_inv HW) as [B N]. rewrite <- app_assoc. fold (enc_xitems xs).
      destruct (xitems_at_code xs l (other_at_code l Hl)) as (t & Et & T). rewrite Et.
      rewrite bind_assoc. erewrite bind_onr_ok by (now apply user_data_run). rewrite bind_ret.
      rewrite <- Et. rewrite (IH (length xs)); [reflexivity | cbn in Hn; lia | reflexivity | cbn in Hn; lia
        | exact (Forall_inv_tail HA) | exact (Forall_inv_tail HW) | auto].
Qed.
Lemma ext_user_data_run : forall xs i v r l, Forall (allowed i) xs -> Forall wf_xitem xs -> at_other_code l ->
  extension_and_user_data i (v, setb r (enc_xitems xs ++ l)) = (Ok tt, (items_effect xs v, setb r l)).
Proof.
  intros xs i v r l HA HW Hl. unfold extension_and_user_data. apply (ext_user_run (length xs)); auto.
  cbn [snd]. rewrite rbits_setb, app_length.
  assert (L : forall ys, (length ys <= length (enc_xitems ys))%nat).
  { induction ys; [cbn; lia|]. cbn [enc_xitems flat_map length]. rewrite app_length. fold (enc_xitems ys).
    destruct (enc_xitem_prefix a) as (t & ->). rewrite app_length. unfold prefix. rewrite enc_length. lia. }
  specialize (L xs). lia.
Qed.

(** * Termination *)
Lemma nsc_nf : nf next_start_code.
Proof.
  intro r. destruct (bytes_of _ (aligned_mod8 (rbits r))) as (bs & E & B).
  destruct (next_start_code_total r bs E B) as [(o & y & A & ->) | (_ & e & r' & -> & _)]; [|discriminate].
  cbn [fst]. clear - A. remember (o, y) as x eqn:E. revert E. induction A; intro E; try (injection E as <- <-; discriminate). auto.
Qed.
Lemma mono_loop_nsc : forall f, mono (nsc_loop f).
Proof. induction f; cbn [nsc_loop]; mono_tac. Qed.
Lemma mono_vid_align : mono vid_align.
Proof. intros r x r' Hr H. unfold vid_align in H. destruct (is_aligned r); [inversion H; subst; auto | now apply mono_align in H]. Qed.
Lemma mono_fuel : forall A (f : nat -> M reader A), (forall n, mono (f n)) -> mono (fun r => f (S (length (rbits r))) r).
Proof. intros A f H r x r' Hr E. eapply H; eauto. Qed.
Lemma mono_nsc : mono next_start_code.
Proof. unfold next_start_code. apply mono_bind; [apply mono_vid_align|]. intro. apply (mono_fuel _ nsc_loop). apply mono_loop_nsc. Qed.
Lemma mono_sc_assert : forall c, mono (sc_assert c).
Proof. intro. unfold sc_assert, sc_check. mono_tac. Qed.
Lemma mono_id_assert : forall c, mono (id_assert c).
Proof. intro. unfold id_assert, id_check. mono_tac. Qed.
Lemma mono_marker : mono marker_bit.
Proof. unfold marker_bit. mono_tac. Qed.
Lemma mono_matrix : mono read_matrix.
Proof. Transparent read_matrix. unfold read_matrix. generalize 64%nat. induction n; cbn [read_entries]; mono_tac. Qed.
Global Opaque read_matrix.
Global Hint Resolve mono_nsc mono_sc_assert mono_id_assert mono_marker mono_matrix : mono.
Lemma mono_user_loop : forall f acc, mono (user_loop f acc).
Proof. induction f; intro; cbn [user_loop]; mono_tac. Qed.
Lemma mono_user : mono user_data.
Proof.
  unfold user_data. apply mono_bind; [auto with mono|]. intro. apply mono_bind; [|intro; mono_tac].
  apply (mono_fuel _ (fun n => user_loop n [])). intro. apply mono_user_loop.
Qed.
Lemma mono_extra_loop : forall f acc, mono (extra_loop f acc).
Proof. induction f; intro; cbn [extra_loop]; mono_tac. Qed.
Lemma mono_extra : mono (fun r => extra_loop (S (length (rbits r))) [] r).
Proof. apply (mono_fuel _ (fun n => extra_loop n [])). intro. apply mono_extra_loop. Qed.
Lemma mono_disp : mono sequence_display_extension.
Proof. unfold sequence_display_extension. mono_tac. Qed.
Lemma mono_scalable : mono sequence_scalable_extension.
Proof. unfold sequence_scalable_extension. mono_tac. Qed.
Lemma mono_temp : mono picture_temporal_scalable_extension.
Proof. unfold picture_temporal_scalable_extension. mono_tac. Qed.
Lemma mono_seq_fields : mono sequence_header_fields.
Proof. unfold sequence_header_fields. mono_tac. Qed.
Lemma mono_sext_fields : mono sequence_extension_fields.
Proof. unfold sequence_extension_fields. mono_tac. Qed.
Global Hint Resolve mono_user mono_extra mono_disp mono_scalable mono_temp mono_seq_fields mono_sext_fields : mono.
Lemma mono_pic_fields : mono picture_header_fields.
Proof. unfold picture_header_fields. mono_tac. Qed.
Lemma mono_pce_fields : mono picture_coding_extension_fields.
Proof. unfold picture_coding_extension_fields. mono_tac. Qed.
Lemma mono_gop : mono read_gop_header.
Proof. unfold read_gop_header. mono_tac. Qed.
Lemma mono_read_seq : mono read_sequence_header.
Proof. unfold read_sequence_header. mono_tac. Qed.
Global Hint Resolve mono_pic_fields mono_pce_fields mono_gop mono_read_seq : mono.
Lemma monop_quant : monop quant_matrix_extension.
Proof. unfold quant_matrix_extension. monop_tac. Qed.
Global Hint Resolve monop_quant : mono.
Lemma monop_body : forall i, monop (extension_body i).
Proof. intro. unfold extension_body. monop_tac. Qed.
Global Hint Resolve monop_body : mono.
Lemma monop_ext_data : forall f i, monop (extension_data f i).
Proof. induction f; intro; cbn [extension_data]; monop_tac. Qed.
Global Hint Resolve monop_ext_data : mono.
Lemma monop_ext_user : forall f i, monop (ext_user_loop f i).
Proof.
  induction f; intro; cbn [ext_user_loop]; monop_tac.
  intros s x s' Hr E. eapply monop_ext_data; eauto.
Qed.
Lemma monop_ext_user_data : forall i, monop (extension_and_user_data i).
Proof. intros i s x s' Hr E. eapply monop_ext_user; eauto. Qed.
Lemma monop_assign : forall A set (m : M reader A), mono m -> monop (assign_header set m).
Proof.
  intros A set m Hm [v r] x [v' r'] Hr E. unfold assign_header in E. cbn [fst snd] in *.
  destruct (m r) as [[a|e| |] r1] eqn:Em; destruct (Hm _ _ _ Hr Em) as (X & Y & Z).
  - destruct (next_start_code r1) as [o r2] eqn:En. destruct (mono_nsc _ _ _ X En) as (X2 & Y2 & Z2). inversion E; subst.
    repeat split; auto; [congruence | lia].
  - inversion E; subst. auto.
  - inversion E; subst. auto.
  - inversion E; subst. auto.
Qed.
Lemma monop_vs_seq : monop vs_sequence_header.
Proof. unfold vs_sequence_header. monop_tac. Qed.
Global Hint Resolve monop_ext_user_data monop_vs_seq : mono.

(** * Headers neither panic nor loop, on any source *)
Lemma safe_nsc : safe next_start_code.
Proof.
  intro r. destruct (bytes_of _ (aligned_mod8 (rbits r))) as (bs & E & B).
  destruct (next_start_code_total r bs E B) as [(o & y & A & ->) | (_ & e & r' & -> & _)]; [|exact I].
  cbn [fst]. clear - A. remember (o, y) as x eqn:E. revert E. induction A; intro E; try (injection E as <- <-; exact I). exact (IHA E).
Qed.
Lemma safe_user_loop : forall f acc r, (left r < f)%nat -> match fst (user_loop f acc r) with Ok _ | Err _ => True | _ => False end.
Proof.
  induction f; intros acc r H; [lia|]. cbn [user_loop]. unfold bind.
  pose proof (safe_peek_n 24 r) as S1. destruct (peek_n 24 r) as [[v|e| |] r1] eqn:E1; cbn [fst] in *; try exact I; try tauto.
  destruct (peek_n_ok_inv _ _ _ _ E1) as [_ [_ ->]]. destruct (v =? StartCodePrefix); [exact I|].
  pose proof (safe_read_n 8 r) as S2. destruct (read_n 8 r) as [[b|e| |] r2] eqn:E2; cbn [fst] in *; try exact I; try tauto.
  apply read_n_strict in E2. apply IHf. lia.
Qed.
Lemma safe_extra_loop : forall f acc r, (left r < f)%nat -> match fst (extra_loop f acc r) with Ok _ | Err _ => True | _ => False end.
Proof.
  induction f; intros acc r H; [lia|]. cbn [extra_loop]. unfold bind at 1.
  unfold peek1, bind at 1. pose proof (safe_peek_n 1 r) as S1.
  destruct (peek_n 1 r) as [[v|e| |] r1] eqn:E1; cbn [fst ret] in *; try exact I; try tauto.
  destruct (peek_n_ok_inv _ _ _ _ E1) as [_ [_ ->]]. unfold ret at 1. cbn [fst]. destruct (negb _); [exact I|].
  unfold bind at 1, skip_n, bind at 1. pose proof (safe_read_n 1 r) as S2.
  destruct (read_n 1 r) as [[b|e| |] r2] eqn:E2; cbn [fst ret] in *; try exact I; try tauto. apply read_n_strict in E2.
  unfold bind at 1. pose proof (safe_read_n 8 r2) as S3.
  destruct (read_n 8 r2) as [[d|e| |] r3] eqn:E3; cbn [fst] in *; try exact I; try tauto.
  apply read_n_strict in E3. apply IHf. lia.
Qed.
Lemma safe_extra : safe (fun r => extra_loop (S (length (rbits r))) [] r).
Proof. intro r. apply safe_extra_loop. unfold left. lia. Qed.
Lemma safe_user_bytes : safe (fun r => user_loop (S (length (rbits r))) [] r).
Proof. intro r. apply safe_user_loop. unfold left. lia. Qed.
Lemma safe_matrix : safe read_matrix.
Proof. Transparent read_matrix. unfold read_matrix. generalize 64%nat. induction n; cbn [read_entries]; safe_tac. auto. Qed.
Global Opaque read_matrix.
Lemma safe_sc_assert : forall c, safe (sc_assert c).
Proof. intro. unfold sc_assert, sc_check. safe_tac. Qed.
Lemma safe_id_assert : forall c, safe (id_assert c).
Proof. intro. unfold id_assert, id_check. safe_tac. Qed.
Lemma safe_marker : safe marker_bit.
Proof. unfold marker_bit. safe_tac. Qed.
Ltac vsafe := repeat first
  [ apply safe_ret | apply safe_fail | apply safe_read_n | apply safe_peek_n | apply safe_read1 | apply safe_peek1 | apply safe_skip_n
  | apply safe_sc_assert | apply safe_id_assert | apply safe_marker | apply safe_nsc | apply safe_matrix | apply safe_extra
  | apply safe_user_bytes | apply safe_upd | apply safe_ignore | apply safe_if | apply safe_onr | apply safe_bind; [|intro]
  | match goal with
    | |- safe (match ?x with (_, _) => _ end) => destruct x
    end ].
Lemma safe_read_sequence_header : safe read_sequence_header.
Proof. unfold read_sequence_header, sequence_header_fields. vsafe. Qed.
Lemma safe_sext : safe sequence_extension_fields.
Proof. unfold sequence_extension_fields. vsafe. Qed.
Lemma safe_disp : safe sequence_display_extension.
Proof. unfold sequence_display_extension. vsafe. Qed.
Lemma safe_pic : safe picture_header_fields.
Proof. unfold picture_header_fields. vsafe. Qed.
Lemma safe_pce : safe picture_coding_extension_fields.
Proof. unfold picture_coding_extension_fields. vsafe. Qed.
Lemma safe_gop : safe read_gop_header.
Proof. unfold read_gop_header. vsafe. Qed.
Lemma safe_temp : safe picture_temporal_scalable_extension.
Proof. unfold picture_temporal_scalable_extension. vsafe. Qed.
Lemma safe_user : safe user_data.
Proof. unfold user_data. vsafe. Qed.
Lemma safe_quant : safe quant_matrix_extension.
Proof. unfold quant_matrix_extension. vsafe. Qed.
Lemma safe_assign : forall A set (m : M reader A), safe m -> safe (assign_header set m).
Proof.
  intros A set m H [v r]. unfold assign_header. cbn [fst snd]. specialize (H r). destruct (m r) as [[a|e| |] r1]; cbn [fst] in *; auto.
  pose proof (safe_nsc r1). destruct (next_start_code r1). exact H0.
Qed.
Lemma safe_vs_seq : safe vs_sequence_header.
Proof. unfold vs_sequence_header. apply safe_bind; [apply safe_onr, safe_read_sequence_header|]. intro. vsafe. Qed.
Lemma safe_vs_sext : safe vs_sequence_extension.
Proof. apply safe_assign, safe_sext. Qed.
Lemma safe_vs_pic : safe vs_picture_header.
Proof. apply safe_assign, safe_pic. Qed.
Lemma safe_vs_pce : safe vs_picture_coding_extension.
Proof. apply safe_assign, safe_pce. Qed.

(** * The extension loops end on a finite source, except for i = 1 *)
Lemma nf_body : forall i, nf (extension_body i).
Proof.
  intro i. unfold extension_body. apply nf_if; [|apply nf_if].
  - apply nf_bind; [nf_tac|]. intro. apply nf_if.
    + apply nf_bind; [apply nf_onr, nf_safe, safe_disp | intro; nf_tac].
    + apply nf_onr. unfold sequence_scalable_extension. apply nf_bind; [apply nf_safe, safe_id_assert | intro; nf_tac].
  - apply nf_bind; [nf_tac|]. intro. repeat apply nf_if; try apply nf_panic; [apply nf_safe, safe_quant|].
    apply nf_bind; [apply nf_onr, nf_safe, safe_temp | intro; nf_tac].
  - nf_tac.
Qed.
Lemma skip32_peeked : forall (v v' : vidseq) r r' b, peek_n 32 r = (Ok b, r') ->
  exists r2, ignore_err tt (onr (skip_n 32)) (v, r') = (Ok tt, (v, r2)) /\ (left r = left r2 + 32)%nat /\ rlater r2 = rlater r.
Proof.
  intros v v' r r' b H. destruct (peek_n_ok_inv _ _ _ _ H) as (L & _ & ->).
  exists (setb r (skipn 32 (rbits r))). unfold ignore_err, onr. cbn [fst snd]. unfold skip_n, bind.
  rewrite read_n_enough by auto. split; [reflexivity|]. split; [|reflexivity]. unfold left. cbn [rbits setb]. rewrite skipn_length. lia.
Qed.
Lemma ext_data_nf : forall f i v r, rlater r = [] -> (left r < f)%nat -> fst (extension_data f i (v, r)) <> OutOfFuel.
Proof.
  induction f; intros i v r Hr Hf; [lia|]. cbn [extension_data]. unfold bind at 1, onr at 1. cbn [fst snd].
  pose proof (safe_peek_n 32 r) as S1. destruct (peek_n 32 r) as [[b|e| |] r1] eqn:E; cbn [fst] in *; try discriminate; try tauto.
  destruct (peek_n_ok_inv _ _ _ _ E) as (_ & _ & ->).
  destruct (negb _); [discriminate|]. destruct (skip32_peeked v v _ _ _ E) as (r2 & E2 & L & R).
  unfold bind at 1. rewrite E2. unfold bind at 1. pose proof (nf_body i (v, r2)) as N.
  destruct (extension_body i (v, r2)) as [[[]|e| |] [v3 r3]] eqn:E3; cbn [fst] in *; try discriminate; auto.
  destruct (monop_body i (v, r2) _ _ ltac:(cbn [snd]; congruence) E3) as (X & _ & Y). cbn [snd] in *. apply IHf; auto. lia.
Qed.
(** A turn of the inner loop over an extension consumes its start code. *)
Lemma ext_data_strict : forall f i v r b r' v' rr, rlater r = [] -> peek_n 32 r = (Ok b, r') -> b = ExtensionStartCode ->
  extension_data (S f) i (v, r) = (Ok tt, (v', rr)) -> (left rr < left r)%nat /\ rlater rr = [].
Proof.
  intros f i v r b r' v' rr Hr E Hb H. cbn [extension_data] in H. unfold bind at 1, onr at 1 in H. cbn [fst snd] in H. rewrite E in H.
  subst b. rewrite Z.eqb_refl in H. cbn [negb] in H. destruct (skip32_peeked v v _ _ _ E) as (r2 & E2 & L & R).
  unfold bind at 1 in H. rewrite E2 in H.
  destruct ((extension_body i;; extension_data f i) (v, r2)) as [o s] eqn:E4.
  assert (MM : monop (extension_body i;; extension_data f i)).
  { apply monop_bind; [apply monop_body | intro; apply monop_ext_data]. }
  destruct (MM (v, r2) _ _ ltac:(cbn [snd]; congruence) E4) as (X & _ & Y). inversion H; subst. cbn [snd] in *. split; auto. lia.
Qed.
Lemma user_strict : forall r x r', rlater r = [] -> user_data r = (Ok x, r') -> (left r' < left r)%nat /\ rlater r' = [].
Proof.
  intros r x r' Hr H. unfold user_data in H. apply bind_ok_inv in H as (u & r1 & H1 & H2).
  assert (S1 : (left r = left r1 + 32)%nat).
  { unfold sc_assert, sc_check in H1. apply bind_ok_inv in H1 as (b & r0 & A & B). apply bind_ok_inv in A as (v & r00 & A1 & A2).
    destruct (peek_n_ok_inv _ _ _ _ A1) as (L & _ & ->). inversion A2; subst.
    destruct (_ =? _); [|inversion B]. unfold skip_n in B. apply bind_ok_inv in B as (w & r3 & B1 & B2). apply read_n_strict in B1.
    inversion B2; subst. exact B1. }
  assert (R1 : rlater r1 = []) by (eapply mono_sc_assert in H1; [|auto]; tauto).
  assert (MM : mono (d <- (fun r => user_loop (S (length (rbits r))) [] r) ;; next_start_code ;; ret d)).
  { apply mono_bind; [apply (mono_fuel _ (fun n => user_loop n [])); intro; apply mono_user_loop | intro; mono_tac]. }
  destruct (MM _ _ _ R1 H2) as (X & _ & Y). split; auto. lia.
Qed.
Lemma ext_user_nf : forall f i v r, i <> 1 -> rlater r = [] -> (left r < f)%nat -> fst (ext_user_loop f i (v, r)) <> OutOfFuel.
Proof.
  induction f; intros i v r Hi Hr Hf; [lia|]. cbn [ext_user_loop]. unfold bind at 1, onr at 1. cbn [fst snd].
  pose proof (safe_peek_n 32 r) as S1. destruct (peek_n 32 r) as [[b|e| |] r1] eqn:E; cbn [fst] in *; try discriminate; try tauto.
  destruct (peek_n_ok_inv _ _ _ _ E) as (_ & _ & ->). rewrite (proj2 (Z.eqb_neq i 1)) by auto. cbn [negb andb].
  destruct (Z.eqb_spec b ExtensionStartCode) as [Eb|Eb]; cbn [negb andb].
  - unfold bind at 1. pose proof (ext_data_nf (S (length (rbits r))) i v r Hr ltac:(unfold left; lia)) as N. cbn [snd].
    destruct (extension_data (S (length (rbits r))) i (v, r)) as [[[]|e| |] [v3 r3]] eqn:E3; cbn [fst] in *; try discriminate; auto.
    destruct (ext_data_strict _ _ _ _ _ _ _ _ Hr E Eb E3) as (L & R). apply IHf; auto. lia.
  - destruct (Z.eqb_spec b UserDataStartCode) as [Eu|Eu]; cbn [negb]; [|discriminate].
    rewrite bind_assoc. unfold bind at 1, onr at 1. cbn [fst snd]. pose proof (safe_user r) as N.
    destruct (user_data r) as [[d|e| |] r3] eqn:E3; cbn [fst] in *; try discriminate; try tauto.
    destruct (user_strict _ _ _ Hr E3) as (L & R). rewrite bind_ret. apply IHf; auto. lia.
Qed.
Lemma ext_user_data_nf : forall i v r, i <> 1 -> rlater r = [] -> fst (extension_and_user_data i (v, r)) <> OutOfFuel.
Proof. intros. apply ext_user_nf; auto. Qed.
(** After a group of pictures header an extension start code stops all progress. *)
Lemma ext_user_stuck : forall f v r t, ext_user_loop f 1 (v, setb r (code extension_code ++ t)) = (OutOfFuel, (v, setb r (code extension_code ++ t))).
Proof.
  induction f; intros; [reflexivity|]. cbn [ext_user_loop]. erewrite bind_onr_ok by (apply peek_code; unfold extension_code; lia).
  change (256 + extension_code =? ExtensionStartCode) with true. change (256 + extension_code =? UserDataStartCode) with false.
  cbn [negb andb Z.eqb Pos.eqb]. rewrite bind_ret. apply IHf.
Qed.
