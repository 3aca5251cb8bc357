(** PropertiesExactPes: C98 (exactly what pes.Packet.Next does with any bytes). *)
From Verif Require Import Base BitReader Exec Local TsRobust After PesModel SpecPes PesProofs PesLocal PropertiesPes SpecAccept AcceptProofs PropertiesAccept SpecExactPes PesExact.

(** ** C98 *)

(** The Go header of the header [h]; the time stamps modulo 2^32 *)
Definition read_head_is (forbidden : bool) (h : shead) (g : pheader) : Prop :=
  if forbidden then sh_stamps h = NoStamp /\ head_holds_01 h g
  else head_holds h g /\ stamps_hold (fun t => t mod 2 ^ 32) (sh_stamps h) g.

(** From the source [r] and the Packet [p], Next reads a packet into [p'] and leaves [r']:
    a packet with a header and a length; one without a length, up to the end of the unit; a padding packet; the six first
    bytes of any other packet whose id has no header. *)
Inductive reads_pes (p : ppacket) (r : reader) : ppacket -> reader -> Prop :=
| reads_packet : forall id forbidden h g d rest, carries_header id -> wf_head h -> read_head_is forbidden h g -> bytes d -> 3 + data_len h + blen d < 2 ^ 16 ->
    rbits r = enc_start id (3 + data_len h + blen d) ++ enc_read_head forbidden h ++ bb d ++ rest ->
    reads_pes p r (mkPP id (3 + data_len h + blen d) (Some g) d) (setb r rest)
| reads_open : forall id forbidden h g d t, carries_header id -> wf_head h -> read_head_is forbidden h g -> bytes d -> (length t < 8)%nat ->
    rbits r = enc_start id 0 ++ enc_read_head forbidden h ++ bb d ++ t -> rfin r = EEOF \/ rfin r = EOP ->
    reads_pes p r (mkPP id 0 (Some g) d) (advance r)
| reads_padding : forall d rest, bytes d -> blen d < 2 ^ 16 -> rbits r = enc_padding d ++ rest ->
    reads_pes p r (mkPP 190 (blen d) (pp_header p) (pp_payload p)) (setb r rest)
| reads_bare : forall id len rest, In id headerless -> id <> 190 -> 0 <= len < 2 ^ 16 -> rbits r = enc_start id len ++ rest ->
    reads_pes p r (mkPP id len (pp_header p) (pp_payload p)) (setb r rest).

Lemma reads_length : forall p r p' r', reads_pes p r p' r' -> (48 <= length (rbits r))%nat.
Proof. intros p r p' r' H. destruct H as [? ? ? ? ? ? _ _ _ _ _ Q|? ? ? ? ? ? _ _ _ _ _ Q _|? ? _ _ Q|? ? ? _ _ _ Q]; rewrite Q; unfold enc_padding, enc_start; rewrite !app_length, !enc_length; lia. Qed.

(** *** The Go header is determined *)
Lemma xt_unique : forall x e, xt_holds x e -> e = go_xt x.
Proof.
  intros x [a b c d e f g] (H1 & H2 & H3 & H4 & H5 & H6 & H7). cbn [px_priv px_pack px_seq px_pstd px_ext2 px_data px_buffer] in *. unfold go_xt. subst. f_equal; [destruct (xt_private x) | destruct (xt_pstd x) as [[]|] ]; assumption.
Qed.
Lemma head_unique : forall h g, head_holds h g -> stamps_hold (fun t => t mod 2 ^ 32) (sh_stamps h) g -> g = go_head h (data_len h).
Proof.
  intros h g H S. destruct g. unfold head_holds in H. cbn in H. destruct H as (H1 & H2 & H3 & H4 & H5 & H6 & H7 & H8 & H9 & H10 & H11 & H12 & H13 & H14). unfold go_head, low32. subst. unfold stamps_hold in S. cbn in S.
  assert (X : ph_ext = match sh_ext h with Some x => Some (go_xt x) | None => None end) by (destruct (sh_ext h) as [x|]; [destruct H14 as (e & -> & E); apply xt_unique in E; congruence | exact H14]). rewrite X.
  destruct (sh_stamps h); destruct S as (-> & ->); reflexivity.
Qed.
Lemma head_01_unique : forall h g, head_holds_01 h g -> g = go_head_01 h.
Proof.
  intros h g H. destruct g. unfold head_holds_01 in H. cbn in H. destruct H as (H1 & H2 & H3 & H4 & H5 & H6 & H7 & H8 & H9 & H10 & H11 & H12 & H13 & H14 & H15 & H16). unfold go_head_01. subst. f_equal.
  destruct (sh_ext h) as [x|]; [destruct H16 as (e & -> & E); apply xt_unique in E; congruence | exact H16].
Qed.
Lemma read_head_run : forall z h g r l, wf_head h -> read_head_is z h g -> read_header (setb r (enc_read_head z h ++ l)) = (Ok (g, 3 + data_len h), setb r l).
Proof.
  intros z h g r l W H. destruct z; cbn [enc_read_head read_head_is] in *.
  - destruct H as (S & H). rewrite (head_01_unique h g H). now apply read_header_01.
  - destruct H as (H & S). rewrite (head_unique h g H S). now apply read_header_enc.
Qed.

(** *** Whatever is of the form is read. *)
Lemma all_bb_tail : forall r d t, bytes d -> (length t < 8)%nat -> read_all (setb r (bb d ++ t)) = ((d, match rfin r with EEOF => None | e => Some e end), advance r).
Proof.
  intros r d t H L. unfold read_all. rewrite rbits_setb. assert (Q : Z.to_nat (avail (setb r (bb d ++ t))) = length d).
  { rewrite avail_setb, app_length, bb_length. rewrite Nat2Z.inj_add, Nat2Z.inj_mul, Z.mul_comm, Z.div_add_l by lia. rewrite (Z.div_small (Z.of_nat (length t))) by lia. lia. }
  rewrite Q, get_bytes_bb by exact H. unfold advance. cbn [setb rlater rfin rshort]. destruct (rlater r); reflexivity.
Qed.
Theorem C98_reads : forall p r p' r', reads_pes p r p' r' -> pes_next (p, r) = (Ok tt, (p', r')).
Proof.
  intros p r p' r' H. rewrite <- (setb_rbits r) at 1. destruct H as [id z h g d rest C W G B L Q | id z h g d t C W G B L Q F | d rest B L Q | id len rest HI N L Q]; rewrite Q.
  - pose proof (data_len_range h). pose proof (proj1 C) as Bi. rewrite pes_start by (unfold blen in *; lia). unfold pes_rest. rewrite (proj2 (has_header_spec _ Bi) C).
    erewrite bind_ok by (unfold pes_header; cbn [fst snd]; rewrite (read_head_run z h g r _ W G); reflexivity).
    rewrite (proj2 (Z.ltb_lt 0 _)) by (unfold blen; lia). replace (3 + data_len h + blen d - (3 + data_len h)) with (blen d) by lia. change (2 ^ 16) with 65536 in L. rewrite u32_small by (unfold blen in *; lia).
    unfold pes_bounded. cbn [fst snd]. rewrite read_full_bb by exact B. rewrite copy_exact by reflexivity. reflexivity.
  - pose proof (proj1 C) as Bi. rewrite pes_start by lia. unfold pes_rest. rewrite (proj2 (has_header_spec _ Bi) C).
    erewrite bind_ok by (unfold pes_header; cbn [fst snd]; rewrite (read_head_run z h g r _ W G); reflexivity).
    cbn [Z.ltb Z.compare]. unfold pes_unbounded. cbn [fst snd]. rewrite all_bb_tail by assumption. destruct F as [-> | ->]; reflexivity.
  - rewrite pes_next_padding by assumption. reflexivity.
  - assert (Bi : 0 <= id < 2 ^ 8) by (unfold headerless in HI; cbn [In] in HI; lia). rewrite pes_start by assumption. unfold pes_rest.
    assert (has_pes_header id = false) as ->. { destruct (has_pes_header id) eqn:E; [|reflexivity]. apply has_header_spec in E; [|exact Bi]. destruct E as (_ & E). contradiction. }
    unfold padding_stream. rewrite (proj2 (Z.eqb_neq id 190)) by exact N. reflexivity.
Qed.

(** *** Nothing else is read. *)
Theorem C98_only : forall p r u p' r', Z.of_nat (length (rbits r)) < 8 * (2 ^ 32 - 65536) -> pes_next (p, r) = (Ok u, (p', r')) -> reads_pes p r p' r'.
Proof.
  intros p r u p' r' HL H. apply pes_after in H; [|exact HL]. destruct H as (id & len & Bi & Bl & Hi & Hn & H). destruct p' as [i l hd pl]. cbn [pp_id pp_length pp_header pp_payload] in *. subst i l.
  destruct H as [(C & h & c & g & Wh & Hb & Hg & Bp & H)|[(Hp & d & Bd & Ld & A & K1 & K2)|(Hh & Np & A & K1 & K2)]].
  - assert (exists z, read_head_is z h g /\ c = enc_read_head z h) as (z & Hz & ->).
    { destruct Hb as [(-> & ->)|(Es & -> & ->)]; [exists false | exists true]; (split; [|reflexivity]); cbn [read_head_is]; [split; [apply go_head_holds | apply go_stamps_hold] | split; [exact Es | apply go_head_01_holds] ]. }
    subst hd. destruct H as [(Lp & Ql & A)|(Lz & F & Ra & t & Lt & Q)].
    + rewrite (after_left _ _ _ A). subst len. apply (reads_packet p r id z); try assumption; [lia|]. rewrite (after_bits _ _ _ A), <- !app_assoc. reflexivity.
    + subst len r'. apply (reads_open p r id z h g pl t); assumption.
  - rewrite (after_left _ _ _ A). subst id len hd pl. apply (reads_padding p r d); [exact Bd | lia | exact (after_bits _ _ _ A)].
  - rewrite (after_left _ _ _ A). subst hd pl. apply reads_bare; try assumption. exact (after_bits _ _ _ A).
Qed.

(** *** It panics exactly on packets that announce a part it does not know. *)
Lemma start_panic : forall p r s', pes_next (p, r) = (Panic, s') -> exists id len r1, 0 <= id < 2 ^ 8 /\ 0 <= len < 2 ^ 16 /\ after r (enc_start id len) r1 /\
  pes_rest id len (pset_length len (pset_id id p), r1) = (Panic, s').
Proof.
  intros p r u H. unfold pes_next in H. apply bind_panic_inv in H; [|apply safe_onr; apply safe_peek_n]. destruct H as (v & s1 & E1 & H). apply onr_ok_inv in E1. destruct E1 as (r1 & E1 & ->). apply peek_after in E1. destruct E1 as (-> & _ & t & Q).
  apply bind_panic_inv in H; [|apply safe_if; [apply safe_ret | apply safe_fail] ]. destruct H as (u1 & s1 & E1 & H). destruct (Z.eqb_spec v StartCodePrefix) as [->|]; [|discriminate]. change StartCodePrefix with 1 in Q. assert (s1 = (p, r)) as -> by (unfold ret in E1; congruence). clear E1 u1.
  apply bind_panic_inv in H; [|apply safe_onr; apply safe_ignore; apply safe_skip_n]. destruct H as (u1 & s1 & E1 & H). apply onr_ok_inv in E1. destruct E1 as (r1 & E1 & ->).
  assert (A1 : after r (enc 24 1) r1).
  { assert (X : skip_n 24 r = (Ok tt, setb r t)) by (rewrite <- (setb_rbits r), Q at 1; apply skip_enc). unfold ignore_err in E1. rewrite X in E1. assert (r1 = setb r t) as -> by congruence.
    apply after_intro; [rewrite rbits_setb; exact Q | reflexivity]. }
  apply bind_panic_inv in H; [|apply safe_onrz; apply safe_read_n]. destruct H as (id & s1 & E2 & H). apply onrz_ok_inv in E2. destruct E2 as (r2 & E2 & ->). apply read_after in E2. destruct E2 as (B2 & A2).
  apply bind_panic_inv in H; [|apply safe_upd]. destruct H as (u2 & s1 & E2 & H). apply upd_ok_inv in E2. subst s1.
  apply bind_panic_inv in H; [|apply safe_onrz; apply safe_read_n]. destruct H as (len & s1 & E3 & H). apply onrz_ok_inv in E3. destruct E3 as (r3 & E3 & ->). apply read_after in E3. destruct E3 as (B3 & A3).
  apply bind_panic_inv in H; [|apply safe_upd]. destruct H as (u3 & s1 & E3 & H). apply upd_ok_inv in E3. subst s1.
  exists id, len, r3. split; [exact B2|]. split; [exact B3|]. split; [unfold enc_start; chain | exact H].
Qed.
Theorem C98_panics : forall p r, fst (pes_next (p, r)) = Panic <-> unsupported_packet (rbits r).
Proof.
  intros p r. split.
  - intro H. destruct (pes_next (p, r)) as [x s'] eqn:E. cbn [fst] in H. subst x. apply start_panic in E. destruct E as (id & len & r1 & Bi & Bl & A & T). unfold pes_rest in T.
    destruct (has_pes_header id) eqn:Hh.
    + apply has_header_spec in Hh; [|exact Bi]. unfold bind in T. unfold pes_header in T. cbn [fst snd] in T. destruct (read_header r1) as [[ [g n]|e| |] r2] eqn:ER; try discriminate.
      * exfalso. destruct (0 <? len).
        -- unfold pes_bounded in T. destruct (read_full _ _) as [[bs [e|] ] r5]; discriminate.
        -- unfold pes_unbounded, read_all in T. cbn [fst snd] in T. destruct (rfin r2); discriminate.
      * apply header_panic_inv in ER. destruct ER as (f & t & W & Q & K). exists id, len, f, t. split; [exact Hh|]. split; [exact Bl|]. split; [exact W|]. split; [rewrite (after_bits _ _ _ A), Q; reflexivity | exact K].
    + exfalso. destruct (id =? padding_stream); [|discriminate]. apply bind_panic_inv in T; [|apply safe_onr; apply safe_read_bytes]. destruct T as (? & ? & _ & T). discriminate.
  - intros (id & len & f & t & C & Bl & W & Q & K). rewrite <- (setb_rbits r), Q. pose proof (proj1 C) as Bi. rewrite pes_start by assumption. unfold pes_rest. rewrite (proj2 (has_header_spec _ Bi) C).
    destruct (header_panic_run f t r W K) as (r1 & E). unfold bind, pes_header. cbn [fst snd]. rewrite E. reflexivity.
Qed.

(** *** In all other cases it returns an error. *)
Theorem C98_otherwise : forall p r, Z.of_nat (length (rbits r)) < 8 * (2 ^ 32 - 65536) ->
  (forall p' r', ~ reads_pes p r p' r') -> ~ unsupported_packet (rbits r) -> exists e, fst (pes_next (p, r)) = Err e.
Proof.
  intros p r HL N U. destruct (pes_next (p, r)) as [[u|e| |] [p' r']] eqn:E.
  - exfalso. exact (N p' r' (C98_only p r u p' r' HL E)).
  - exists e. reflexivity.
  - exfalso. apply U. apply (C98_panics p r). rewrite E. reflexivity.
  - exfalso. apply (pes_next_fuel (p, r)). rewrite E. reflexivity.
Qed.

(** A packet with the forbidden flags, a packet that announces a second extension behind private data and a P-STD buffer, and
    two bytes that are neither *)
Definition ex_forbidden : shead := mkShead 2 false true false false NoStamp (Some (mkSxt None 3 (Some (false, 77)))) 2.
Definition ex_front : sfront := mkSfront 1 false true false true 2 false false false false false true 40 (Pts 8589934591).
Definition ex_unknown : list bool :=
  bit true ++ bit false ++ bit false ++ bit true ++ enc 3 5 ++ bit true ++ bb (repeat 3 16) ++ enc 2 1 ++ bit true ++ enc 13 99 ++ [].
Example C98_hyp :
  reads_pes zero_pp (setb PropertiesPes.ex_reader (enc_start 224 10 ++ enc_read_head true ex_forbidden ++ bb [8; 9] ++ bb [1])) (mkPP 224 10 (Some (go_head_01 ex_forbidden)) [8; 9]) (setb PropertiesPes.ex_reader (bb [1])) /\
  unsupported_packet (enc_start 224 0 ++ enc_front ex_front ++ ex_unknown) /\
  (forall p' r', ~ reads_pes zero_pp (setb PropertiesPes.ex_reader (bb [0; 0])) p' r') /\ ~ unsupported_packet (bb [0; 0]).
Proof.
  assert (C : carries_header 224) by (split; [lia|]; unfold headerless; cbn [In]; lia).
  split; [|split; [|split] ].
  - pose proof (fun l => reads_packet zero_pp (setb PropertiesPes.ex_reader l) 224 true ex_forbidden (go_head_01 ex_forbidden) [8; 9] (bb [1])) as X.
    specialize (X (enc_start 224 10 ++ enc_read_head true ex_forbidden ++ bb [8; 9] ++ bb [1])). rewrite setb_setb in X. apply X; clear X.
    + exact C.
    + split; [|cbn; lia]. split; [cbn; lia|]. split; [exact Logic.I|]. cbn [ex_forbidden sh_ext]. split; [exact Logic.I|]. split; cbn; lia.
    + split; [reflexivity | apply go_head_01_holds].
    + repeat constructor; unfold byte; lia.
    + cbn. lia.
    + reflexivity.
  - exists 224, 0, ex_front, ex_unknown. split; [exact C|]. split; [lia|]. split; [split; [cbn; lia|]; split; [cbn; lia|]; split; [cbn; unfold wf_stamp; lia | left; reflexivity]|]. split; [reflexivity|].
    do 5 right. split; [reflexivity|]. exists true, false, false, true, 5, true. split; [cbn; lia|]. exists (repeat 3 16), (enc 2 1 ++ bit true ++ enc 13 99 ++ []). split; [repeat constructor; unfold byte; lia|]. split; [reflexivity|]. split; [reflexivity|].
    right; right. split; [reflexivity|]. intros _. exists true, 99, []. split; [cbn; lia | reflexivity].
  - intros p' r' H. apply reads_length in H. rewrite rbits_setb, bb_length in H. cbn [length] in H. lia.
  - intros (id & len & f & t & _ & _ & _ & Q & _). apply (f_equal (@length bool)) in Q. unfold enc_start in Q. rewrite !app_length, !enc_length, ?bb_length in Q. cbn [length] in Q. lia.
Qed.
Print Assumptions C98_reads.
Print Assumptions C98_only.
Print Assumptions C98_panics.
Print Assumptions C98_otherwise.
