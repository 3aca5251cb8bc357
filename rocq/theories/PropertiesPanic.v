(** PropertiesPanic: C87 - no stream makes Next panic. *)
From Coq Require Import Lia.
From Verif Require Import Base BitReader VidModel SpecVid VidProofs VidStream EndProofs2 SpecVlc SpecBlock SpecNext SpecPicture BlockModel MbModel Exec TsRobust NextProofs PropertiesNext PropertiesBlock PropertiesCut ExampleStream SpecEnd PropertiesRefuse PanicProofs.

(** A valid sequence, whole or broken off anywhere: the loop that calls Next until it gets an error ends with one. *)
Theorem C87_valid_partial : forall k g gs r l x, sequence_of picture_coded (g :: gs) -> rlater r = [] ->
  enc_sequence k (g :: gs) = l ++ x -> (length x mod 8 = 0)%nat ->
  exists n imgs s' e, nexts n (new_vidseq, setb r l) = (Ok imgs, s') /\ fst (next s') = Err e.
Proof.
  intros k g gs r l x V Hr E Hx. destruct x as [|b x].
  - rewrite app_nil_r in E. subst l. destruct (C73_sequences k g gs r V) as (imgs & v' & N & _ & En). eexists _, imgs, _, EOS. split; [exact N | now rewrite En].
  - destruct (C77_truncated k g gs r l (b :: x) V Hr E Hx) as (n & imgs & s' & e & N & _ & Ee & _); [discriminate|]. eauto 10.
Qed.
Example C87_hyp : sequence_of picture_coded xs_groups.
Proof. exact xs_groups_coded. Qed.

(** Any bytes, valid or not, without slices and without the four extensions of which the decoder says that it does not support
    them (copyright, sequence scalable, picture display, picture spatial scalable), in any state with no sequence header or
    with a sequence extension too: Next returns an error, or the frame it has kept, unless the stream is one of those of C54. *)
Lemma calm_bytes : forall bs, bytes bs -> (forall b, 1 <= b <= 175 -> ~ holds_code b bs) ->
  (forall p id x t, In id [4; 5; 7; 9] -> 0 <= x < 16 -> bs <> p ++ [0; 0; 1; extension_code; 16 * id + x] ++ t) -> calm (bb bs).
Proof.
  intros bs B H1 H2.
  assert (Split : forall a w, (length w mod 8 = 0)%nat -> bb bs = a ++ w -> exists p q, bs = p ++ q /\ bytes q /\ w = bb q).
  { intros a w Hw E. assert (Ha : (length a mod 8 = 0)%nat).
    { apply (f_equal (@length _)) in E. rewrite bb_length, app_length in E. apply Nat.mod_divides in Hw as [q Q]; [|lia]. apply Nat.mod_divides; [lia|]. exists (length bs - q)%nat. lia. }
    destruct (bytes_of _ Ha) as (p & -> & Bp). destruct (bytes_of _ Hw) as (q & -> & Bq). exists p, q. split; [|auto].
    apply bb_inj; auto; [now apply Forall_app | now rewrite bb_app]. }
  assert (Codes : forall b t q, 0 <= b < 256 -> bytes q -> code b ++ t = bb q -> exists q', q = [0; 0; 1; b] ++ q' /\ bytes q' /\ t = bb q').
  { intros b t q Hb Bq E. destruct q as [|c0 [|c1 [|c2 [|c3 q] ] ] ]; try (apply (f_equal (@length _)) in E; rewrite app_length, code_length, bb_length in E; cbn [length] in E; lia).
    change (c0 :: c1 :: c2 :: c3 :: q) with ([c0; c1; c2; c3] ++ q) in E. rewrite bb_app in E. apply app_inv_length in E; [|now rewrite code_length, bb_length].
    destruct E as (E & ->). change (code b) with (bb [0; 0; 1; b]) in E. apply bb_inj in E; [|repeat (apply Forall_cons; [unfold byte; lia|]); apply Forall_nil | exact (proj1 (proj1 (Forall_app _ [c0; c1; c2; c3] q) Bq))].
    injection E as <- <- <- <-. exists q. split; [reflexivity|]. split; [exact (proj2 (proj1 (Forall_app _ [0; 0; 1; b] q) Bq)) | reflexivity]. }
  split.
  - intros a b t Hb Ht E. destruct (Split a (code b ++ t)) as (p & q & -> & Bq & Eq); [|exact E|].
    { rewrite app_length, code_length, Nat.add_comm. change 32%nat with (4 * 8)%nat. now rewrite Nat.mod_add by lia. }
    destruct (Codes b t q ltac:(lia) Bq Eq) as (q' & -> & _). apply (H1 b Hb). now exists p, q'.
  - intros a id t Hi Ht E. destruct (Split a (code extension_code ++ enc 4 id ++ t)) as (p & q & -> & Bq & Eq); [|exact E|].
    { rewrite app_length, code_length, Nat.add_comm. change 32%nat with (4 * 8)%nat. now rewrite Nat.mod_add by lia. }
    destruct (Codes extension_code _ q ltac:(unfold extension_code; lia) Bq Eq) as (q' & -> & Bq' & Eq').
    destruct q' as [|c q']; [apply (f_equal (@length _)) in Eq'; rewrite app_length, enc_length in Eq'; cbn in Eq'; lia|].
    rewrite bb_cons in Eq'. assert (R : 0 <= id < 16) by (cbn in Hi; lia). pose proof (Forall_inv Bq') as Bc. unfold byte in Bc.
    pose proof (enc_app 4 4 c : enc 8 c = enc 4 (c / 16) ++ enc 4 c) as Ec.
    rewrite Ec, <- app_assoc in Eq'. apply app_inv_length in Eq'; [|now rewrite !enc_length]. destruct Eq' as (E4 & _).
    apply (f_equal dec) in E4. rewrite !dec_enc in E4 by (change (2 ^ Z.of_nat 4) with 16; pose proof (Z_div_mod_eq_full c 16); pose proof (Z.mod_pos_bound c 16); lia).
    apply (H2 p id (c mod 16) q' Hi); [apply Z.mod_pos_bound; lia|]. cbn [app]. do 5 f_equal. pose proof (Z_div_mod_eq_full c 16). f_equal. lia.
Qed.
Theorem C87_headers_partial : forall bs v r, rlater r = [] -> rbits r = bb bs -> bytes bs ->
  (forall b, 1 <= b <= 175 -> ~ holds_code b bs) ->
  (forall p id x t, In id [4; 5; 7; 9] -> 0 <= x < 16 -> bs <> p ++ [0; 0; 1; extension_code; 16 * id + x] ++ t) ->
  v_sh v = None \/ v_se v <> None ->
  (exists img, fs_tryget (v_fc v) (v_fs v) = Some img /\ fst (next (v, r)) = Ok img) \/ (exists e, fst (next (v, r)) = Err e) \/ extension_after_group (bb bs).
Proof.
  intros bs v r Hr Hb B H1 H2 K. rewrite <- Hb. apply next_calm; auto; rewrite Hb; [now apply calm_bytes|]. unfold whole. rewrite bb_length, Nat.mul_comm. apply Nat.mod_mul. lia.
Qed.
(** Sequence header and extension, group and picture headers, and then another sequence's end instead of slices *)
Definition pn_headers : list Z :=
  [0; 0; 1; 179; 22; 0; 240; 196; 2; 206; 224; 164; 0; 0; 1; 181; 20; 138; 0; 1; 0; 0; 0; 0; 1; 184; 0; 8; 0; 64;
   0; 0; 1; 0; 0; 15; 255; 248; 0; 0; 1; 181; 143; 255; 243; 65; 128; 0; 0; 1; 183].
Example C87_headers_hyp : bytes pn_headers /\ (forall b, 1 <= b <= 175 -> ~ holds_code b pn_headers) /\
  (forall p id x t, In id [4; 5; 7; 9] -> 0 <= x < 16 -> pn_headers <> p ++ [0; 0; 1; extension_code; 16 * id + x] ++ t) /\
  v_sh new_vidseq = None /\ (forall rd, exists s, next (new_vidseq, setb rd (bb pn_headers)) = (Err ErrUnexpectedStartCode, s)).
Proof.
  split; [unfold pn_headers; repeat (apply Forall_cons; [unfold byte; lia|]); apply Forall_nil|]. split; [|split; [|split; [reflexivity|intro rd; eexists; lazy; reflexivity] ] ].
  - intros b Hb (p & t & E). unfold pn_headers in E. do 51 (destruct p as [|? p]; [injection E; intros; first [lia | congruence] | injection E as _ E]). now destruct p.
  - intros p id x t Hi Hx E. remember (16 * id + x) as y eqn:Hy. unfold pn_headers, extension_code in E.
    cbn [In] in Hi. do 51 (destruct p as [|? p]; [cbn [app] in E; first [discriminate E | injection E; intros; lia] | injection E as _ E]). now destruct p.
Qed.

(** Streams of one picture of type [t], with [data] for its slices *)
Definition pn_stream (t : Z) (pce : spce) (data : list bool) : list bool :=
  enc_sequence 0 [mkGroup (Some xs_start) (xs_gop true) 0 [] [mkPicture (mkSpic 0 t 65535 (false, 7) (false, 7) []) 0 pce 0 [] data i_frame]].
Definition pn_slice (row : Z) (bits : list bool) : list bool := slice_bits (mkSlice row 5 None [] 1) bits.
Definition panics (l : list bool) : Prop := forall rd, exists s, next (new_vidseq, setb rd l) = (Panic, s).
Definition pn_frame_motion : spce := mkSpce 1 1 1 1 0 3 true false false false false false false true true None.
Theorem C87_refuted :
  (* slices below the picture *)
  panics (pn_stream 1 xs_pce (pn_slice 1 i_bits)) /\ panics (pn_stream 1 xs_pce (pn_slice 2 i_bits)) /\
  (* more macroblocks than the last row has *)
  panics (pn_stream 1 xs_pce (pn_slice 0 (i_bits ++ enc 1 1 ++ enc 1 1 ++ flat_bits))) /\
  (* more than 64 coefficients in a block *)
  panics (pn_stream 1 xs_pce (pn_slice 0 (enc 1 1 ++ enc 1 1 ++ dc0l ++ overrun_bits))) /\
  (* a P picture with a skipped macroblock, without a picture before it *)
  panics (pn_stream 2 xs_pce (pn_slice 0 p_bits)) /\
  (* picture coding type 4 *)
  panics (pn_stream 4 xs_pce (pn_slice 0 i_bits)) /\
  (* dual prime prediction *)
  panics (pn_stream 2 pn_frame_motion (pn_slice 0 (enc 1 1 ++ enc 3 1 ++ enc 2 3 ++ enc 1 1 ++ [false] ++ enc 1 1 ++ [false]))) /\
  (* the reserved frame_motion_type 0 *)
  panics (pn_stream 2 pn_frame_motion (pn_slice 0 (enc 1 1 ++ enc 3 1 ++ enc 2 0 ++ enc 1 1 ++ enc 1 1))) /\
  (* a picture display extension, a copyright extension *)
  panics (pn_stream 1 xs_pce (stuffed (code extension_code ++ enc 4 7 ++ enc 16 5 ++ [true] ++ enc 16 3 ++ [true]) 0 ++ pn_slice 0 i_bits)) /\
  panics (pn_stream 1 xs_pce (stuffed (code extension_code ++ enc 4 4 ++ [true] ++ enc 8 1 ++ [true] ++ enc 7 0 ++ [true] ++ enc 20 0 ++ [true] ++ enc 22 0 ++ [true] ++ enc 22 0) 0 ++ pn_slice 0 i_bits)).
Proof. repeat split; intro rd; eexists; lazy; reflexivity. Qed.

(** In the second call: a vector that points out of the reference picture; and a sequence extension with a wrong marker bit,
    which the first call reports, but after which there is no extension to decode with. *)
Definition pn_vector : list bool :=
  enc_sequence 0 [mkGroup (Some xs_start) (xs_gop true) 0 []
    [i_pic 0; mkPicture (mkSpic 1 2 65535 (false, 7) (false, 7) []) 0 xs_pce 0 [] (pn_slice 0 (enc 1 1 ++ enc 3 1 ++ (enc 3 1 ++ [true]) ++ enc 1 1)) i_frame]].
Definition pn_marker : list bool :=
  stuffed (enc_seq xs_seq) 0 ++ (code extension_code ++ enc 4 1 ++ enc 8 72 ++ [true] ++ enc 2 1 ++ enc 2 0 ++ enc 2 0 ++ enc 12 0 ++ [false]) ++
  enc_group (mkGroup None (xs_gop true) 0 [] [i_pic 0]).
Definition error_then_panic (s : vidseq * reader) : bool :=
  match next s with (Err _, s1) => match fst (next s1) with Panic => true | _ => false end | _ => false end.
Lemma error_then_panic_inv : forall s0, error_then_panic s0 = true -> exists e s s', next s0 = (Err e, s) /\ next s = (Panic, s').
Proof.
  intros s0 H. unfold error_then_panic in H. destruct (next s0) as [[|e| |] s]; try discriminate. destruct (next s) as [[| | |] s'] eqn:E; try discriminate. eauto.
Qed.
Theorem C87_later_refuted : forall rd,
  (exists s, nexts 2 (new_vidseq, setb rd pn_vector) = (Panic, s)) /\
  (exists e s s', next (new_vidseq, setb rd pn_marker) = (Err e, s) /\ next s = (Panic, s')).
Proof.
  intro rd. split.
  - assert (H : fst (nexts 2 (new_vidseq, setb rd pn_vector)) = Panic) by (lazy; reflexivity). revert H. generalize (nexts 2 (new_vidseq, setb rd pn_vector)). intros [o s] H. cbn [fst] in H. subst. eauto.
  - apply error_then_panic_inv. lazy. reflexivity.
Qed.

Print Assumptions C87_valid_partial.
Print Assumptions C87_headers_partial.
Print Assumptions C87_refuted.
Print Assumptions C87_later_refuted.
