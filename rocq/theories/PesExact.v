(** PesExact: the runs of pes.Packet.Next on headers of any form. *)
From Verif Require Import Base BitReader Exec Local TsRobust PesModel SpecPes PesProofs PesLocal After SpecAccept AcceptProofs SpecExactPes.

(** What is left of the header reader behind the time stamps *)
Definition front_tail (f : sfront) : M reader (pheader * Z) :=
  (if sf_escr f then panic else ret tt) ;;
  (if sf_esrate f then panic else ret tt) ;;
  (if sf_dsm f then panic else ret tt) ;;
  (if sf_copyinfo f then panic else ret tt) ;;
  (if sf_crc f then panic else ret tt) ;;
  '(ext, n3) <-
    (if sf_ext f then '(x, l) <- read_extension ;; ret (Some x, u32 (3 + stamps_len (sf_stamps f) + l)) else ret (None, 3 + stamps_len (sf_stamps f))) ;;
  st <- read_stuffing (u32 (sf_datalen f - u32 (n3 - minimumHeaderSize))) ;;
  ret (mkPH (sf_scrambling f) (sf_priority f) (sf_alignment f) (sf_copyright f) (sf_original f) (sf_ptsdts f) (sf_escr f) (sf_esrate f) (sf_dsm f) (sf_copyinfo f) (sf_crc f) (sf_ext f) (sf_datalen f)
    (match sf_stamps f with NoStamp => 0 | Pts p => low32 p | PtsDts p _ => low32 p end)
    (match sf_stamps f with PtsDts _ d => low32 d | _ => 0 end) ext, u32 (n3 + st)).
Lemma front_run : forall f r l, wf_front f -> read_header (setb r (enc_front f ++ l)) = front_tail f (setb r l).
Proof.
  intros f r l (H1 & H2 & H3 & H4). unfold read_header, enc_front. rewrite <- !app_assoc.
  erewrite bind_ok by (apply expect_ok; cbn; lia). change (2 ^ 2) with (2 ^ Z.of_nat 2) in H1. change (2 ^ 8) with (2 ^ Z.of_nat 8) in H2.
  xrun. erewrite bind_ok; cycle 1.
  { apply read_enc. destruct H4 as [->|(-> & _)]; [destruct (sf_stamps f)|]; cbn; lia. }
  xrun. unfold minimumHeaderSize, front_tail. change minimumHeaderSize with 3.
  destruct H4 as [->|(-> & ES)].
  - destruct (sf_stamps f) as [|p|p d] eqn:ES; cbn [stamp_flags Z.eqb Pos.eqb enc_stamps app stamps_len].
    + xrun. reflexivity.
    + xrun. erewrite bind_ok by (apply read_stamp_enc; [lia|exact H3]). xrun. reflexivity.
    + destruct H3 as [H3 H4]. rewrite <- !app_assoc. xrun. erewrite bind_ok by (apply read_stamp_enc; [lia|exact H3]). xrun. erewrite bind_ok by (apply read_stamp_enc; [lia|exact H4]). xrun. reflexivity.
  - rewrite ES. cbn [Z.eqb Pos.eqb enc_stamps app stamps_len]. xrun. reflexivity.
Qed.

(** ** The forbidden flags *)
Lemma read_header_01 : forall h r l, wf_head h -> sh_stamps h = NoStamp ->
  read_header (setb r (enc_head_01 h ++ l)) = (Ok (go_head_01 h, 3 + data_len h), setb r l).
Proof.
  intros h r l ((W1 & _ & W3) & WL) ES.
  assert (D0 : 0 <= data_len h) by (pose proof (parts_len_range h); unfold data_len; lia).
  set (f := mkSfront (sh_scrambling h) (sh_priority h) (sh_alignment h) (sh_copyright h) (sh_original h) 1 false false false false false (present (sh_ext h)) (data_len h) NoStamp).
  assert (Q : enc_head_01 h ++ l = enc_front f ++ (match sh_ext h with Some x => enc_xt x | None => [] end) ++ bb (repeat 255 (sh_stuffing h)) ++ l).
  { unfold enc_head_01, enc_front, f. cbn [sf_scrambling sf_priority sf_alignment sf_copyright sf_original sf_ptsdts sf_escr sf_esrate sf_dsm sf_copyinfo sf_crc sf_ext sf_datalen sf_stamps enc_stamps]. rewrite <- !app_assoc. reflexivity. }
  rewrite Q, front_run by (split; [exact W1|]; split; [cbn; lia|]; split; [exact I | right; split; reflexivity]). clear Q.
  assert (P : parts_len h = match sh_ext h with Some x => xt_len x | None => 0 end) by (unfold parts_len; rewrite ES; reflexivity).
  unfold front_tail, f. cbn [sf_scrambling sf_priority sf_alignment sf_copyright sf_original sf_ptsdts sf_escr sf_esrate sf_dsm sf_copyinfo sf_crc sf_ext sf_datalen sf_stamps stamps_len]. xrun.
  unfold go_head_01, read_stuffing, minimumHeaderSize. unfold data_len in *. rewrite P in *. destruct (sh_ext h) as [x|]; cbn [present app].
  - pose proof (xt_len_range x). xrun. erewrite bind_ok by (apply read_xt_enc; exact W3). xrun. rewrite (u32_small (3 + 0 + xt_len x)) by lia. rewrite (u32_small (3 + 0 + xt_len x - 3)) by lia.
    replace (xt_len x + Z.of_nat (sh_stuffing h) - (3 + 0 + xt_len x - 3)) with (Z.of_nat (sh_stuffing h)) by lia. rewrite (u32_small (Z.of_nat _)) by lia. rewrite Nat2Z.id.
    erewrite bind_ok by apply stuffing_ok. xrun. unfold ret. rewrite u32_small by lia. do 3 f_equal. lia.
  - xrun. change (u32 (3 + 0 - 3)) with 0. rewrite Z.sub_0_r, Z.add_0_l. rewrite (u32_small (Z.of_nat _)) by lia. rewrite Nat2Z.id.
    erewrite bind_ok by apply stuffing_ok. xrun. unfold ret. rewrite u32_small by lia. do 3 f_equal.
Qed.

(** ** Panics *)
Lemma safe_read_stuffing : forall n, safe (read_stuffing n).
Proof. intro n. unfold read_stuffing. apply safe_bind; [apply safe_stuffing|]. intro. apply safe_ret. Qed.
Lemma ext_panic_run : forall r l, unsupported_extension l -> exists r', read_extension (setb r l) = (Panic, r').
Proof.
  intros r l (pr & pk & sq & ps & rs & se & Br & d & t & Bd & Ld & -> & H). unfold read_extension. change (2 ^ 3) with (2 ^ Z.of_nat 3) in Br.
  assert (X : exists n1, bind (if pr then d <- read_bytes 16 ;; ret (d, 1 + 16) else ret ([], 1)) (fun '(data, n1) =>
     (if pk then panic else ret tt) ;; (if sq then panic else ret tt) ;;
     '(buf, n2) <- (if ps then expect 2 1 ErrMarkerNotFound ;; scale <- read_n 1 ;; size <- read_n 13 ;; ret (Some (scale, size), n1 + 2) else ret (None, n1)) ;;
     (if se then panic else ret tt) ;; ret (mkPExt pr pk sq ps se data buf, n2)) (setb r (bb d ++ t)) =
     ((if pk then panic else ret tt) ;; (if sq then panic else ret tt) ;;
     '(buf, n2) <- (if ps then expect 2 1 ErrMarkerNotFound ;; scale <- read_n 1 ;; size <- read_n 13 ;; ret (Some (scale, size), n1 + 2) else ret (None, n1)) ;;
     (if se then panic else ret tt) ;; ret (mkPExt pr pk sq ps se d buf, n2)) (setb r t)).
  { destruct pr.
    - exists (1 + blen d). rewrite bind_assoc. rewrite <- Ld. erewrite bind_ok by (apply read_bytes_bb; exact Bd). xrun. reflexivity.
    - exists 1. assert (d = []) as -> by (destruct d; [reflexivity | unfold blen in Ld; cbn [length] in Ld; lia]). xrun. reflexivity. }
  destruct X as (n1 & X). destruct pk; [eexists; xrun; rewrite X; reflexivity|]. destruct sq; [eexists; xrun; rewrite X; reflexivity|]. destruct H as [H|[H|(-> & H)]]; try discriminate.
  destruct ps.
  - destruct (H eq_refl) as (sc & sz & t' & Bs & ->). eexists. xrun. rewrite X. xrun. change (2 ^ 13) with (2 ^ Z.of_nat 13) in Bs. erewrite bind_ok by (apply expect_ok; cbn; lia). rewrite bind_assoc. erewrite bind_ok; cycle 1.
    { instantiate (2 := Z.b2z sc). destruct sc; reflexivity. }
    xrun. reflexivity.
  - eexists. xrun. rewrite X. xrun. reflexivity.
Qed.
Lemma header_panic_run : forall f t r, wf_front f ->
  (sf_escr f = true \/ sf_esrate f = true \/ sf_dsm f = true \/ sf_copyinfo f = true \/ sf_crc f = true \/ sf_ext f = true /\ unsupported_extension t) ->
  exists r', read_header (setb r (enc_front f ++ t)) = (Panic, r').
Proof.
  intros f t r W H. rewrite front_run by exact W. unfold front_tail. destruct (sf_escr f); [eexists; reflexivity|]. destruct (sf_esrate f); [eexists; reflexivity|]. destruct (sf_dsm f); [eexists; reflexivity|]. destruct (sf_copyinfo f); [eexists; reflexivity|]. destruct (sf_crc f); [eexists; reflexivity|].
  destruct H as [H|[H|[H|[H|[H|(-> & H)]]]]]; try discriminate. destruct (ext_panic_run r t H) as (r1 & P). exists r1. xrun. unfold bind. rewrite P. reflexivity.
Qed.

(** Inversion *)
Tactic Notation "ptake" hyp(H) ident(x) ident(r1) tactic(t) :=
  let E := fresh "E" in apply bind_panic_inv in H; [|t]; destruct H as (x & r1 & E & H);
  lazymatch type of E with
  | read_n 1 _ = _ => idtac
  | read_n _ _ = _ => let B := fresh "B" in apply read_after in E; destruct E as (B & E)
  | read1 _ = _ => apply read1_after in E
  | expect _ _ _ _ = _ => apply expect_after in E
  | _ => idtac
  end.
Lemma ext_panic_inv : forall r r', read_extension r = (Panic, r') -> unsupported_extension (rbits r).
Proof.
  intros r r' H. unfold read_extension in H. ptake H f1 r1 (apply safe_read1). ptake H f2 r2 (apply safe_read1). ptake H f3 r3 (apply safe_read1). ptake H f4 r4 (apply safe_read1). ptake H u5 r5 (apply safe_skip_n). apply skip_after in E3. destruct E3 as (rs & Brs & E3). ptake H f5 r6 (apply safe_read1).
  assert (A6 : after r (bit f1 ++ bit f2 ++ bit f3 ++ bit f4 ++ enc 3 rs ++ bit f5) r6) by chain. clear E E0 E1 E2 E3 E4.
  ptake H dn r7 (apply safe_if; [apply safe_bind; [apply safe_read_bytes | intro; apply safe_ret] | apply safe_ret]). destruct dn as [data n1].
  assert (exists d, bytes d /\ blen d = (if f1 then 16 else 0) /\ after r6 (bb d) r7) as (d & Bd & Ld & A7).
  { destruct f1.
    - take E d r12. apply bytes_after in E0; [|lia]. destruct E0 as (L & Bd & A). assert (r12 = r7) as -> by (unfold ret in E; congruence). exists d. auto.
    - assert (r6 = r7) as -> by (unfold ret in E; congruence). exists []. split; [constructor|]. split; [reflexivity | apply after_nil]. }
  clear E. exists f1, f2, f3, f4, rs, f5. split; [exact Brs|]. exists d, (rbits r7). split; [exact Bd|]. split; [exact Ld|].
  split; [rewrite (after_bits _ _ _ A6), (after_bits _ _ _ A7), <- !app_assoc; reflexivity|].
  destruct f2; [auto|]. rewrite bind_ret in H. destruct f3; [auto|]. rewrite bind_ret in H. right; right.
  ptake H bn r10 (apply safe_if; [repeat first [apply safe_expect | progress safe_tac] | apply safe_ret]). destruct bn as [buf n2].
  destruct f5; [|rewrite bind_ret in H; discriminate H]. split; [reflexivity|]. intros ->.
  take E ue r12. take E sc r13. take E sz r14. apply read_bit_after in E1. destruct E1 as (b & -> & E1). exists b, sz, (rbits r14). split; [exact B|].
  assert (A14 : after r7 (enc 2 1 ++ bit b ++ enc 13 sz) r14) by chain. rewrite (after_bits _ _ _ A14), <- !app_assoc. reflexivity.
Qed.
Lemma header_panic_inv : forall r r', read_header r = (Panic, r') -> exists f t, wf_front f /\ rbits r = enc_front f ++ t /\
  (sf_escr f = true \/ sf_esrate f = true \/ sf_dsm f = true \/ sf_copyinfo f = true \/ sf_crc f = true \/ sf_ext f = true /\ unsupported_extension t).
Proof.
  intros r r' H. unfold read_header in H.
  ptake H u r1 (apply safe_expect). ptake H sc r2 (apply safe_read_n). ptake H prio r3 (apply safe_read1). ptake H dai r4 (apply safe_read1). ptake H copr r5 (apply safe_read1). ptake H orig r6 (apply safe_read1). ptake H pd r7 (apply safe_read_n).
  ptake H escr r8 (apply safe_read1). ptake H esr r9 (apply safe_read1). ptake H dsm r10 (apply safe_read1). ptake H aci r11 (apply safe_read1). ptake H crc r12 (apply safe_read1). ptake H extf r13 (apply safe_read1). ptake H hdl r14 (apply safe_read_n).
  cbv zeta in H.
  ptake H pn r15 (apply safe_if; [apply safe_bind; [apply safe_time_stamp | intros []; apply safe_ret] | apply safe_ret]). destruct pn as [pts n1].
  ptake H qn r16 (apply safe_if; [apply safe_bind; [apply safe_time_stamp | intros []; apply safe_bind; [apply safe_time_stamp | intros []; apply safe_ret] ] | apply safe_ret]). destruct qn as [[pts2 dts] n2].
  assert (PS : exists s, wf_stamps s /\ (pd = stamp_flags s \/ (pd = 1 /\ s = NoStamp)) /\ after r14 (enc_stamps s) r16).
  { destruct (Z.eqb_spec pd 2) as [->|N2].
    - take E13 tl r24. destruct tl as [t l]. apply stamp_after in E15. destruct E15 as (s & W & A & -> & ->). cbn [Z.eqb Pos.eqb] in E14. unfold ret in E13, E14.
      assert (r24 = r15) as -> by congruence. assert (r15 = r16) as -> by congruence. exists (Pts s). split; [exact W|]. split; [left; reflexivity | exact A].
    - unfold ret in E13. assert (r14 = r15) as -> by congruence. destruct (Z.eqb_spec pd 3) as [->|N3].
      + take E14 tl r24. destruct tl as [t l]. apply stamp_after in E15. destruct E15 as (s & W & A & -> & ->). take E14 tl r25. destruct tl as [t l]. apply stamp_after in E15. destruct E15 as (s2 & W2 & A2 & -> & ->).
        unfold ret in E14. assert (r25 = r16) as -> by congruence. exists (PtsDts s s2). split; [split; assumption|]. split; [left; reflexivity|]. cbn [enc_stamps]. chain.
      + unfold ret in E14. assert (r15 = r16) as -> by congruence. exists NoStamp.
        split; [exact I|]. split; [change (2 ^ Z.of_nat 2) with 4 in B0; cbn [stamp_flags]; destruct (Z.eq_dec pd 1); [right; auto | left; lia]|]. apply after_nil. }
  destruct PS as (s & Ws & Fs & As).
  exists (mkSfront sc prio dai copr orig pd escr esr dsm aci crc extf hdl s), (rbits r16). split; [split; [exact B|]; split; [exact B1|]; split; [exact Ws | exact Fs]|].
  split.
  { assert (A : after r (enc_front (mkSfront sc prio dai copr orig pd escr esr dsm aci crc extf hdl s)) r16) by (unfold enc_front; cbn [sf_scrambling sf_priority sf_alignment sf_copyright sf_original sf_ptsdts sf_escr sf_esrate sf_dsm sf_copyinfo sf_crc sf_ext sf_datalen sf_stamps]; chain).
    exact (after_bits _ _ _ A). }
  cbn [sf_escr sf_esrate sf_dsm sf_copyinfo sf_crc sf_ext]. destruct escr; [auto|]. destruct esr; [auto|]. destruct dsm; [auto|]. destruct aci; [auto|]. destruct crc; [auto 6|]. rewrite !bind_ret in H. do 5 right.
  destruct extf.
  - split; [reflexivity|]. unfold bind in H. destruct (read_extension r16) as [[ [x l]|e| |] rx] eqn:EX; try discriminate; [exfalso|exact (ext_panic_inv _ _ EX)].
    cbn beta iota in H. unfold ret in H. cbn beta iota in H. pose proof (safe_read_stuffing (u32 (hdl - u32 (u32 (n2 + l) - minimumHeaderSize))) rx) as S. destruct (read_stuffing _ rx) as [[]]; try discriminate; exact S.
  - exfalso. rewrite bind_ret in H. ptake H st r23 (apply safe_read_stuffing). discriminate H.
Qed.
