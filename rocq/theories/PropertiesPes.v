(** PropertiesPes: the properties C19 - C27, C61 - C63 of package pes, as theorems. *)
From Verif Require Import Base BitReader Exec Local TsLocal Mono PesModel SpecPes SpecIO PesProofs PesRaw PesLocal PesReaders.

(** ** How the Go structs hold an encoded packet *)
Definition xt_holds (x : sxt) (e : pext) : Prop :=
  px_priv e = present (xt_private x) /\ px_pstd e = present (xt_pstd x) /\
  px_pack e = false /\ px_seq e = false /\ px_ext2 e = false /\
  match xt_private x with Some d => px_data e = d | None => px_data e = [] end /\
  match xt_pstd x with
  | Some (scale, size) => px_buffer e = Some (Z.b2z scale, size)
  | None => px_buffer e = None
  end.
(** All fields but the two time stamps. *)
Definition head_holds (h : shead) (g : pheader) : Prop :=
  ph_scrambling g = sh_scrambling h /\ ph_priority g = sh_priority h /\ ph_alignment g = sh_alignment h /\
  ph_copyright g = sh_copyright h /\ ph_original g = sh_original h /\
  ph_ptsdts g = stamp_flags (sh_stamps h) /\
  ph_escr g = false /\ ph_esrate g = false /\ ph_dsm g = false /\ ph_copyinfo g = false /\ ph_crc g = false /\
  ph_extflag g = present (sh_ext h) /\ ph_datalen g = data_len h /\
  match sh_ext h with
  | Some x => exists e, ph_ext g = Some e /\ xt_holds x e
  | None => ph_ext g = None
  end.
(** The time stamps, through [f]. *)
Definition stamps_hold (f : Z -> Z) (s : stamps) (g : pheader) : Prop :=
  match s with
  | NoStamp => ph_pts g = 0 /\ ph_dts g = 0
  | Pts p => ph_pts g = f p /\ ph_dts g = 0
  | PtsDts p d => ph_pts g = f p /\ ph_dts g = f d
  end.
Definition small_stamps (s : stamps) : Prop :=
  match s with NoStamp => True | Pts p => p < 2 ^ 32 | PtsDts p d => p < 2 ^ 32 /\ d < 2 ^ 32 end.

Lemma go_xt_holds : forall x, xt_holds x (go_xt x).
Proof.
  intro x. unfold xt_holds, go_xt. cbn. repeat split.
  - destruct (xt_private x); reflexivity.
  - destruct (xt_pstd x) as [[]|]; reflexivity.
Qed.
Lemma go_head_holds : forall h, head_holds h (go_head h (data_len h)).
Proof.
  intro h. unfold head_holds, go_head. cbn. repeat split.
  destruct (sh_ext h) as [x|]; [|reflexivity]. eexists. split; [reflexivity|]. apply go_xt_holds.
Qed.
Lemma go_stamps_hold : forall h n, stamps_hold (fun t => t mod 2 ^ 32) (sh_stamps h) (go_head h n).
Proof. intros h n. unfold stamps_hold, go_head, low32. destruct (sh_stamps h); cbn; auto. Qed.
Lemma small_stamps_hold : forall h n, wf_stamps (sh_stamps h) -> small_stamps (sh_stamps h) ->
  stamps_hold (fun t => t) (sh_stamps h) (go_head h n).
Proof.
  intros h n H1 H2. unfold stamps_hold, go_head, low32, wf_stamps, wf_stamp, small_stamps in *.
  destruct (sh_stamps h); cbn [ph_pts ph_dts]; rewrite ?Z.mod_small by lia; auto.
Qed.

(** ** Concrete packets used to show that the hypotheses can be met *)
Definition ex_head : shead :=
  mkShead 0 true false true false (PtsDts 8589934591 90000)
    (Some (mkSxt (Some (repeat 9 16)) 7 (Some (true, 4000)))) 3.
Definition ex_head0 : shead := mkShead 1 false true false true (Pts 3600) None 0.
Definition ex_pes1 : spes := mkSpes 224 ex_head [1; 2; 3; 4; 5].
Definition ex_pes2 : spes := mkSpes 192 ex_head0 [6; 7].
Definition ex_reader : reader := mkR [] EEOF [] (fun _ _ => EUnexpectedEOF).

Ltac byte_list := repeat (apply Forall_cons; [unfold byte; lia|]); apply Forall_nil.
Lemma ex_wf1 : wf_pes ex_pes1.
Proof.
  split; [|split; [|split]].
  - split; [cbn; lia|]. cbn. intuition lia.
  - split; [|cbn; lia]. split; [cbn; lia|]. split; [cbn; unfold wf_stamp; lia|].
    unfold wf_xt. cbn [xt_private xt_reserved xt_pstd sh_ext se_head ex_pes1 ex_head].
    split; [split; [byte_list | reflexivity]|]. lia.
  - byte_list.
  - vm_compute. reflexivity.
Qed.
Lemma ex_wf2 : wf_pes ex_pes2.
Proof.
  split; [|split; [|split]].
  - split; [cbn; lia|]. cbn. intuition lia.
  - split; [|cbn; lia]. split; [cbn; lia|]. split; [cbn; unfold wf_stamp; lia|exact I].
  - byte_list.
  - vm_compute. reflexivity.
Qed.

(** ** C19: refuted; what is delivered is the time stamp modulo 2^32 *)
Theorem C19_time_stamps_partial : forall s p r l, wf_pes s ->
  exists g p', pes_next (p, setb r (enc_pes s ++ l)) = (Ok tt, (p', setb r l)) /\
    pp_header p' = Some g /\ stamps_hold (fun t => t mod 2 ^ 32) (sh_stamps (se_head s)) g.
Proof.
  intros. rewrite pes_next_enc by auto. eexists _, _. split; [reflexivity|]. split; [reflexivity|].
  apply go_stamps_hold.
Qed.
Theorem C19_small_time_stamps : forall s p r l, wf_pes s -> small_stamps (sh_stamps (se_head s)) ->
  exists g p', pes_next (p, setb r (enc_pes s ++ l)) = (Ok tt, (p', setb r l)) /\
    pp_header p' = Some g /\ stamps_hold (fun t => t) (sh_stamps (se_head s)) g.
Proof.
  intros s p r l H Hs. rewrite pes_next_enc by auto. eexists _, _. split; [reflexivity|]. split; [reflexivity|].
  apply small_stamps_hold; auto. apply H.
Qed.
Theorem C19_refuted : exists s p', wf_pes s /\ 
  pes_next (zero_pp, setb ex_reader (enc_pes s)) = (Ok tt, (p', setb ex_reader [])) /\
  exists g, pp_header p' = Some g /\ ~ stamps_hold (fun t => t) (sh_stamps (se_head s)) g.
Proof.
  exists ex_pes1. eexists. split; [apply ex_wf1|]. split.
  - rewrite <- (app_nil_r (enc_pes ex_pes1)) at 1. apply pes_next_enc. apply ex_wf1.
  - eexists. split; [reflexivity|]. cbn. intros [H _]. revert H. unfold low32. vm_compute. discriminate.
Qed.
Example C19_hyp : wf_pes ex_pes1 /\ wf_pes ex_pes2 /\ small_stamps (sh_stamps (se_head ex_pes2)).
Proof. split; [apply ex_wf1|]. split; [apply ex_wf2|]. cbn. lia. Qed.

(** ** C20 *)
Theorem C20_packet : forall s p r l, wf_pes s ->
  exists p' g, pes_next (p, setb r (enc_pes s ++ l)) = (Ok tt, (p', setb r l)) /\
    pp_id p' = se_id s /\ pp_length p' = se_len s /\ pp_payload p' = se_payload s /\
    pp_header p' = Some g /\ head_holds (se_head s) g /\
    stamps_hold (fun t => t mod 2 ^ 32) (sh_stamps (se_head s)) g.
Proof.
  intros s p r l H. rewrite pes_next_enc by auto. eexists _, _. split; [reflexivity|].
  repeat (split; [reflexivity|]). split; [apply go_head_holds | apply go_stamps_hold].
Qed.
(** Exactly 6 + PacketLength bytes. *)
Theorem C20_size : forall s, wf_pes s -> length (enc_pes s) = (8 * Z.to_nat (6 + se_len s))%nat.
Proof. exact enc_pes_length. Qed.
Example C20_hyp : wf_pes ex_pes1 /\ se_len ex_pes1 = 40.
Proof. split; [apply ex_wf1|reflexivity]. Qed.

(** ** C21 *)
(** The source ends with io.EOF or with the EOP of the unit reader; what follows is the next segment. *)
Theorem C21_length_zero : forall id h d p r, carries_header id -> wf_head h -> bytes d ->
  rfin r = EEOF \/ rfin r = EOP ->
  exists p' g, pes_next (p, setb r (enc_open id h d)) = (Ok tt, (p', advance (setb r []))) /\
    pp_id p' = id /\ pp_length p' = 0 /\ pp_payload p' = d /\ pp_header p' = Some g /\ head_holds h g.
Proof.
  intros id h d p r H1 H2 H3 Hf. rewrite pes_next_open by auto. eexists _, _. split.
  { destruct Hf as [-> | ->]; reflexivity. }
  repeat (split; [reflexivity|]). apply go_head_holds.
Qed.
(** The next packet is read from the next unit. *)
Theorem C21_next_unit : forall id h d p r s l e t, carries_header id -> wf_head h -> bytes d -> wf_pes s ->
  rfin r = EOP -> rlater r = (enc_pes s ++ l, e) :: t ->
  exists p' r' p'', pes_next (p, setb r (enc_open id h d)) = (Ok tt, (p', r')) /\ pp_payload p' = d /\
    pes_next (p', r') = (Ok tt, (p'', mkR l e t (rshort r))) /\ pp_payload p'' = se_payload s.
Proof.
  intros id h d p r s l e t H1 H2 H3 H4 Hf Hl. rewrite pes_next_open by auto. rewrite Hf.
  eexists _, _, _. split; [reflexivity|]. split; [reflexivity|].
  unfold advance. cbn [rlater setb]. rewrite Hl. cbn [rshort].
  pose proof (pes_next_enc s (mkPP id 0 (Some (go_head h (data_len h))) d) (mkR [] e t (rshort r)) l H4) as E.
  split; [exact E | reflexivity].
Qed.
Theorem C21_other_error : forall id h d p r, carries_header id -> wf_head h -> bytes d ->
  rfin r <> EEOF -> rfin r <> EOP ->
  exists s', pes_next (p, setb r (enc_open id h d)) = (Err (rfin r), s').
Proof.
  intros id h d p r H1 H2 H3 Hf Hf'. rewrite pes_next_open by auto. eexists.
  destruct (rfin r); try congruence; reflexivity.
Qed.
Example C21_hyp : carries_header 224 /\ wf_head ex_head /\ bytes [1; 2; 3].
Proof. split; [apply ex_wf1|]. split; [apply ex_wf1|byte_list]. Qed.

(** ** C22 *)
Theorem C22_padding : forall d p r l, bytes d -> blen d < 2 ^ 16 ->
  exists p', pes_next (p, setb r (enc_padding d ++ l)) = (Ok tt, (p', setb r l)) /\
    pp_id p' = 190 /\ pp_length p' = blen d.
Proof. intros. rewrite pes_next_padding by auto. eexists. split; [reflexivity|]. auto. Qed.
Theorem C22_size : forall d, length (enc_padding d) = (8 * (6 + length d))%nat.
Proof. intro d. unfold enc_padding. rewrite app_length, enc_start_length, bb_length. lia. Qed.
Theorem C22_cut : forall d p r k, rlater r = [] -> blen d < 2 ^ 16 -> (k < 6 + length d)%nat ->
  exists e s', pes_next (p, setb r (firstn (8 * k) (enc_padding d))) = (Err e, s').
Proof.
  intros d p r k Hr Hd Hk. destruct (Nat.le_gt_cases 6 k) as [L|L].
  - unfold enc_padding. rewrite firstn_app, enc_start_length.
    rewrite firstn_all2 by (rewrite enc_start_length; lia).
    unfold blen in *. apply pes_next_padding_cut; [lia|].
    rewrite firstn_length, bb_length. apply Z.div_lt_upper_bound; lia.
  - apply pes_short; [|exact Hr]. rewrite rbits_setb, firstn_length, C22_size. lia.
Qed.
Example C22_hyp : bytes [255; 255; 0] /\ blen [255; 255; 0] < 2 ^ 16.
Proof. split; [byte_list | cbn; lia]. Qed.

(** ** C23: refuted for the ids without header other than padding *)
Theorem C23_header_ids : forall s p r l, wf_pes s ->
  exists p', pes_next (p, setb r (enc_pes s ++ l)) = (Ok tt, (p', setb r l)).
Proof. intros. rewrite pes_next_enc by auto. eauto. Qed.
(** For these ids Next stands at the first byte of the body, whatever the body. *)
Theorem C23_refuted : forall id body p r l, In id headerless -> id <> 190 -> blen body < 2 ^ 16 ->
  exists p', pes_next (p, setb r (enc_start id (blen body) ++ bb body ++ l)) =
    (Ok tt, (p', setb r (bb body ++ l))).
Proof. intros. rewrite pes_next_skipped; auto; [eauto|]. unfold blen in *; lia. Qed.
Example C23_hyp : In 240 headerless /\ 240 <> 190 /\ bb [1; 2] ++ [] <> [].
Proof. split; [cbn; tauto|]. split; [lia | discriminate]. Qed.

(** ** C24 *)
Theorem C24_prefix : forall v p r l, 0 <= v < 2 ^ 24 -> v <> 1 ->
  pes_next (p, setb r (enc 24 v ++ l)) =
  (Err ErrStartCodePrefixNotFound, (p, setb r (enc 24 v ++ l))).
Proof. exact pes_no_prefix. Qed.
(** Any header as received ([rhead]: arbitrary markers, arbitrary stuffing). *)
Theorem C24_markers : forall id len h p r l, carries_header id -> 0 <= len < 2 ^ 16 -> wf_rhead h ->
  ~ markers_right h ->
  exists s', pes_next (p, setb r (enc_start id len ++ enc_rhead h ++ l)) = (Err ErrMarkerNotFound, s').
Proof.
  intros id len h p r l H1 H2 H3 H4. destruct (raw_header h r l H3) as [_ B].
  destruct (B H4) as [r' E]. erewrite pes_header_err by eauto. eauto.
Qed.
Theorem C24_stuffing : forall id len h p r l, carries_header id -> 0 <= len < 2 ^ 16 -> wf_rhead h ->
  markers_right h -> ~ Forall (fun b => b = 255) (rh_stuffing h) ->
  exists s', pes_next (p, setb r (enc_start id len ++ enc_rhead h ++ l)) = (Err ErrInvalidStuffingByte, s').
Proof.
  intros id len h p r l H1 H2 H3 H4 H5. destruct (raw_header h r l H3) as [A _].
  destruct (A H4) as [g E]. destruct (hstuff_bad h g r l H3 H5) as [r' E'].
  erewrite pes_header_err; [eauto | auto | auto | rewrite E; exact E'].
Qed.
(** And nothing else in such a header is rejected: with the right markers and stuffing the body follows. *)
Theorem C24_accepts : forall id len h d p r l, carries_header id -> wf_rhead h ->
  markers_right h -> Forall (fun b => b = 255) (rh_stuffing h) -> bytes d ->
  len = 3 + rdata_len h + blen d -> len < 2 ^ 16 ->
  exists p', pes_next (p, setb r (enc_start id len ++ enc_rhead h ++ bb d ++ l)) = (Ok tt, (p', setb r l)) /\
    pp_payload p' = d.
Proof.
  intros id len h d p r l H1 H3 H4 H5 H6 -> H7. pose proof (rparts_range h). unfold blen, rdata_len in *.
  rewrite pes_start by (try apply H1; unfold blen in *; lia). unfold pes_rest.
  rewrite (proj2 (has_header_spec _ (proj1 H1)) H1).
  destruct (raw_header h r (bb d ++ l) H3) as [A _]. destruct (A H4) as [g E].
  rewrite hstuff_good in E by auto.
  unfold bind, pes_header. cbn [fst snd]. rewrite E.
  rewrite (proj2 (Z.ltb_lt 0 _)) by (unfold rdata_len, blen; lia).
  unfold pes_bounded. cbn [fst snd].
  match goal with |- context [u32 ?e] => replace e with (blen d) by (unfold rdata_len, blen; lia) end.
  rewrite u32_small by (unfold blen in *; lia). rewrite read_full_bb by auto.
  rewrite copy_exact by reflexivity. eexists. split; reflexivity.
Qed.
Definition ex_raw (m : Z) (b : bool) (stuff : list Z) : rhead :=
  mkRhead m 0 5 (RPtsDts (mkRS 3 1 true 7 b 9 true) (mkRS 1 0 true 0 true 5 true)) (Some (mkRxt None 7 (Some (1, true, 12)))) stuff.
Lemma ex_raw_wf : forall m b stuff, 0 <= m < 4 -> bytes stuff -> blen stuff < 100 -> wf_rhead (ex_raw m b stuff).
Proof.
  intros m b stuff Hm Hs Hl. unfold wf_rhead, ex_raw. cbn [rh_marker rh_stamps rh_ext rh_stuffing rx_private rx_pstd].
  unfold wf_rstamp. cbn [rs_marker]. unfold rdata_len, rparts_len. cbn [rh_stamps rh_ext rh_stuffing rstamps_len].
  unfold rxt_len. cbn [rx_private rx_pstd present]. repeat split; auto; lia.
Qed.
Example C24_hyp : 
  wf_rhead (ex_raw 2 false [255]) /\ ~ markers_right (ex_raw 2 false [255]) /\
  wf_rhead (ex_raw 2 true [255; 254]) /\ markers_right (ex_raw 2 true [255; 254]) /\
  ~ Forall (fun b => b = 255) [255; 254].
Proof.
  split; [apply ex_raw_wf; [lia | byte_list | cbn; lia]|].
  split; [unfold markers_right, good_stamp; cbn; intuition discriminate|].
  split; [apply ex_raw_wf; [lia | byte_list | cbn; lia]|].
  split; [unfold markers_right, good_stamp; cbn; intuition|].
  intro H. apply Forall_inv_tail, Forall_inv in H. discriminate.
Qed.

(** ** C25 *)
(** [enc_parts h hdl]: the header with PES_header_data_length [hdl] smaller than its parts; [l] is all that follows. *)
Theorem C25_overrun : forall id len h hdl p r l, carries_header id -> 0 <= len < 2 ^ 16 -> wf_parts h ->
  0 <= hdl < parts_len h -> Z.of_nat (length l) < 8 * (2 ^ 32 - 256) ->
  exists e p' r', pes_next (p, setb r (enc_start id len ++ enc_parts h hdl ++ l)) = (Err e, (p', r')) /\
    pp_header p' = None.
Proof.
  intros id len h hdl p r l H1 H2 H3 H4 H5. destruct (read_header_overrun h hdl r l H3 H4 H5) as (e & r' & E).
  erewrite pes_header_err by eauto. eexists _, _, _. split; [reflexivity | reflexivity].
Qed.
Example C25_hyp : wf_parts ex_head /\ parts_len ex_head = 29.
Proof. split; [apply ex_wf1 | reflexivity]. Qed.

(** ** C26 *)
Theorem C26_payload_reader : forall r ps sizes fuel, rlater r = [] -> Forall wf_pes ps ->
  (length ps < fuel)%nat ->
  es_reads fuel sizes (new_esreader (setb r (enc_pess ps))) =
  map Ok (ideal_reads (rfin r) sizes (concat (map se_payload ps))).
Proof.
  intros r ps sizes fuel Hr H Hf. rewrite <- enc_packets. rewrite es_ideal; auto.
  - now rewrite stale_packets.
  - apply Forall_map. exact H.
  - now rewrite map_length.
Qed.
(** What that means: the bytes are the first bytes of the payloads, an error comes at the end only. *)
Theorem C26_prefix : forall r ps sizes fuel, rlater r = [] -> Forall wf_pes ps -> (length ps < fuel)%nat ->
  exists outs, es_reads fuel sizes (new_esreader (setb r (enc_pess ps))) = map Ok outs /\
    delivered outs = firstn (asked sizes) (concat (map se_payload ps)) /\
    forall i n out, nth_error sizes i = Some n -> nth_error outs i = Some out ->
      (snd out = None -> length (fst out) = n) /\
      (snd out <> None -> snd out = Some (rfin r) /\
         (length (concat (map se_payload ps)) < asked (firstn (S i) sizes))%nat).
Proof.
  intros r ps sizes fuel Hr H Hf. eexists. split; [now apply C26_payload_reader|].
  split; [apply ideal_delivered|]. intros i n out Hs Ho.
  destruct (ideal_full _ _ _ _ _ _ Hs Ho) as [A B]. split; [exact A|].
  intro N. destruct (B N) as (B1 & B2 & B3). auto.
Qed.
Example C26_hyp : Forall wf_pes [ex_pes1; ex_pes2; ex_pes1].
Proof. repeat (apply Forall_cons; [first [apply ex_wf1 | apply ex_wf2]|]). apply Forall_nil. Qed.

(** ** C27: refuted *)
(** What is delivered, for every stream: each padding packet repeats the payload before it. *)
Theorem C27_stale_partial : forall r items sizes fuel, rlater r = [] -> Forall wf_item items ->
  (length items < fuel)%nat ->
  es_reads fuel sizes (new_esreader (setb r (enc_items items))) =
  map Ok (ideal_reads (rfin r) sizes (stale_content [] items)).
Proof. exact es_ideal. Qed.
Theorem C27_refuted : exists items, Forall wf_item items /\
  true_content items = [6; 7] /\
  es_reads 5 [4%nat] (new_esreader (setb ex_reader (enc_items items))) = [Ok ([6; 7; 6; 7], None)].
Proof.
  exists [Pkt ex_pes2; Pad [255; 255]]. 
  assert (W : Forall wf_item [Pkt ex_pes2; Pad [255; 255]]).
  { apply Forall_cons; [apply ex_wf2|]. apply Forall_cons; [|apply Forall_nil].
    split; [byte_list | cbn; lia]. }
  split; [exact W|]. split; [reflexivity|]. rewrite es_ideal; [reflexivity | reflexivity | exact W | cbn; lia].
Qed.
(** The property holds while no padding packet follows a payload. *)
Theorem C27_leading_padding : forall r ds ps sizes fuel, rlater r = [] ->
  Forall (fun d => bytes d /\ blen d < 2 ^ 16) ds -> Forall wf_pes ps -> (length ds + length ps < fuel)%nat ->
  es_reads fuel sizes (new_esreader (setb r (enc_items (map Pad ds ++ map Pkt ps)))) =
  map Ok (ideal_reads (rfin r) sizes (concat (map se_payload ps))).
Proof.
  intros r ds ps sizes fuel Hr Hd Hp Hf. rewrite es_ideal; auto.
  - f_equal. f_equal. induction ds as [|d ds IH]; cbn [map app stale_content].
    + apply stale_packets.
    + apply IH; [now apply Forall_inv_tail in Hd | cbn in Hf; lia].
  - apply Forall_app. split; apply Forall_map; [exact Hd | exact Hp].
  - rewrite app_length, !map_length. exact Hf.
Qed.

(** ** C61: panics *)
(** Next panics only if one of the flags ESCR, ES rate, DSM trick mode, additional copy info, CRC, extension
    (bits 58 to 63 of the packet) is set. *)
Theorem C61_no_panic_partial : forall p r, 
  (forall i, (58 <= i <= 63)%nat -> nth i (rbits r) false = false) ->
  forall s', pes_next (p, r) <> (Panic, s').
Proof.
  intros p r H s' E. apply pes_next_panic in E as (i & Hi & HB). unfold bitat in HB. rewrite H in HB by auto. discriminate.
Qed.
Theorem C61_refuted : exists l s', (length l = 72)%nat /\ pes_next (zero_pp, setb ex_reader l) = (Panic, s').
Proof.
  exists (enc_start 224 3 ++ enc 2 2 ++ enc 2 0 ++ enc 4 0 ++ enc 2 0 ++ [true; false; false; false; false; false] ++ enc 8 0).
  eexists. split; [reflexivity|]. vm_compute. reflexivity.
Qed.

(** ** C62: truncation *)
Theorem C62_truncated : forall s p r k, wf_pes s -> rlater r = [] -> (k < Z.to_nat (6 + se_len s))%nat ->
  exists e s', pes_next (p, setb r (firstn (8 * k) (enc_pes s))) = (Err e, s').
Proof. exact pes_truncated. Qed.
Example C62_hyp : wf_pes ex_pes1 /\ Z.to_nat (6 + se_len ex_pes1) = 46%nat.
Proof. split; [apply ex_wf1 | reflexivity]. Qed.

(** ** C63: Next and Read end on every finite source *)
Theorem C63_next_ends : forall p r, fst (pes_next (p, r)) <> OutOfFuel.
Proof. intros p r. apply pes_next_fuel. Qed.
Theorem C63_read_ends : forall s want, rlater (es_br s) = [] ->
  fst (es_read (S (length (rbits (es_br s)))) want s) <> OutOfFuel.
Proof. intros s want H. apply es_fill_ends; [exact H|]. unfold left. lia. Qed.

Print Assumptions C19_time_stamps_partial.
Print Assumptions C20_packet.
Print Assumptions C21_next_unit.
Print Assumptions C22_cut.
Print Assumptions C23_refuted.
Print Assumptions C24_markers.
Print Assumptions C24_stuffing.
Print Assumptions C25_overrun.
Print Assumptions C26_prefix.
Print Assumptions C27_stale_partial.
Print Assumptions C61_no_panic_partial.
Print Assumptions C62_truncated.
Print Assumptions C63_read_ends.
