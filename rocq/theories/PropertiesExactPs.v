(** PropertiesExactPs: C99 (exactly what NewPackHeader does with any bytes). *)
From Verif Require Import Base BitReader Exec Local TsRobust After PesModel SpecPes PesProofs PsModel SpecPs PsProofs PsConc PropertiesPs SpecAccept AcceptProofs PropertiesAccept.

(** ** C99 *)

(** The Go system header of [s] with header_length [len].  The bounds are those of C29: the second, the number of video
    streams, is stored in place of the first, and the field for it stays 0. *)
Definition read_sys_is (len : Z) (s : ssys) (g : sysheader) : Prop :=
  sy_length g = len /\ sys_fields s g /\ sy_audio g = sm_video s /\ sy_video g = 0.
(** The values that fit into the fields *)
Definition fits_sys (len : Z) (s : ssys) : Prop :=
  0 <= len < 2 ^ 16 /\ 0 <= sm_rate s < 2 ^ 22 /\ 0 <= sm_audio s < 2 ^ 6 /\ 0 <= sm_video s < 2 ^ 5 /\ Forall wf_sstream (sm_streams s).
Definition fits_pack (p : spack) : Prop :=
  0 <= sk_base p < 2 ^ 33 /\ 0 <= sk_ext p < 2 ^ 9 /\ 0 <= sk_rate p < 2 ^ 22 /\ bytes (sk_stuffing p) /\ blen (sk_stuffing p) < 8.

(** From the bits [l], NewPackHeader reads the header [g] and leaves [rest]: a pack header without system header, followed by at
    least 32 bits that are no system header start code; or one with a system header of any header_length, whose list of
    streams ends at a bit 0. *)
Inductive reads_pack (l : list bool) : packheader -> list bool -> Prop :=
| reads_plain : forall p g v t, fits_pack p -> pk_base g = sk_base p mod 2 ^ 32 -> pk_ext g = sk_ext p -> pk_rate g = sk_rate p -> pk_system g = None ->
    0 <= v < 2 ^ 32 -> v <> 443 -> l = enc_pack_start p ++ enc 32 v ++ t -> reads_pack l g (enc 32 v ++ t)
| reads_system : forall p len s h g t, fits_pack p -> fits_sys len s -> pk_base g = sk_base p mod 2 ^ 32 -> pk_ext g = sk_ext p -> pk_rate g = sk_rate p ->
    pk_system g = Some h -> read_sys_is len s h -> l = enc_pack_start p ++ enc_sys_len len s ++ false :: t -> reads_pack l g (false :: t).

Lemma sys_unique : forall len s h, read_sys_is len s h -> h = go_sys_len len s.
Proof.
  intros len s [] (H1 & (F1 & F2 & F3 & F4 & F5 & F6 & F7) & H2 & H3). cbn in *. unfold go_sys_len. subst. f_equal. clear - F7. induction F7 as [|x y a b H]; [reflexivity|]. cbn [map]. f_equal; [|assumption].
  destruct y. unfold stream_holds in H. cbn in H. destruct H as (-> & -> & ->). reflexivity.
Qed.
Lemma read_sys_len : forall len s r l, fits_sys len s -> read_system_header (setb r (enc_sys_len len s ++ false :: l)) = (Ok (go_sys_len len s), setb r (false :: l)).
Proof.
  intros len s r l (H0 & H1 & H2 & H3 & H4). unfold read_system_header, enc_sys_len. rewrite <- !app_assoc.
  xrun. mk. xrun. mk. xrun. mk. xrun.
  erewrite bind_ok; cycle 1.
  { rewrite rbits_setb. apply streams_loop_enc; [exact H4|]. rewrite app_length, enc_sstreams_length. lia. }
  reflexivity.
Qed.
(** The reader behind the stuffing *)
Lemma pack_start_run : forall p r l, fits_pack p -> new_pack_header (setb r (enc_pack_start p ++ l)) =
  (b <- ps_check SystemHeaderStartCode ;; sys <- (if b then h <- read_system_header ;; ret (Some h) else ret None) ;; ret (mkPKH (sk_base p mod 2 ^ 32) (sk_ext p) (sk_rate p) sys)) (setb r l).
Proof.
  intros p r l (H1 & H2 & H3 & H4 & H5). unfold new_pack_header, enc_pack_start. rewrite <- !app_assoc.
  assert (HB : 0 <= blen (sk_stuffing p)) by (unfold blen; lia).
  erewrite bind_ok by (apply ps_assert_enc; cbn; lia).
  mk. erewrite bind_ok by apply read_enc_mod. cbv zeta.
  mk. erewrite bind_ok by apply read_enc_mod.
  mk. erewrite bind_ok by apply read_enc_mod.
  mk. xrun. mk. xrun. mk. mk. xrun.
  unfold blen at 1. rewrite Nat2Z.id. erewrite bind_ok by apply stuffing_skip_bb.
  match goal with |- context [Z.lor ?a ?b] => replace (Z.lor a b) with (sk_base p mod 2 ^ 32) by (symmetry; apply lor_parts; exact H1) end. reflexivity.
Qed.

Theorem C99_reads : forall r g rest, reads_pack (rbits r) g rest -> new_pack_header r = (Ok g, setb r rest).
Proof.
  intros r g rest H. rewrite <- (setb_rbits r) at 1. destruct H as [p g v t W G1 G2 G3 G4 Bv N Q|p len s h g t W Ws G1 G2 G3 G4 Hs Q]; rewrite Q, pack_start_run by exact W; destruct g as [ga gb gc gd]; cbn [pk_base pk_ext pk_rate pk_system] in *; subst.
  - erewrite bind_ok by (apply ps_check_enc; exact Bv). change SystemHeaderStartCode with 443. rewrite (proj2 (Z.eqb_neq v 443)) by exact N. xrun. reflexivity.
  - assert (X : exists m, enc_sys_len len s ++ false :: t = enc 32 443 ++ m) by (eexists; unfold enc_sys_len; rewrite <- !app_assoc; reflexivity). destruct X as (m & X).
    erewrite bind_ok by (rewrite X; apply ps_check_enc; cbn; lia). cbn [Z.eqb Pos.eqb SystemHeaderStartCode]. rewrite <- X. rewrite bind_assoc. erewrite bind_ok by (apply read_sys_len; exact Ws). xrun. rewrite (sys_unique _ _ _ Hs). reflexivity.
Qed.
Theorem C99_only : forall r g r', rlater r = [] -> new_pack_header r = (Ok g, r') -> reads_pack (rbits r) g (rbits r') /\ r' = setb r (rbits r').
Proof.
  intros r g r' Hr H. apply pack_after in H; [|exact Hr]. destruct H as (p & W & G1 & G2 & G3 & M). destruct (sk_sys p) as [s|].
  - destruct M as (len & Bl & (V1 & V2 & V3 & V4) & A & Gs & t & T). split; [|exact (after_left _ _ _ A)]. rewrite T. apply (reads_system _ p len s (go_sys_len len s)); try assumption.
    + split; [exact Bl|]. auto.
    + split; [reflexivity|]. split; [apply go_sys_fields|]. split; reflexivity.
    + rewrite (after_bits _ _ _ A), T, <- app_assoc. reflexivity.
  - destruct M as (A & Gs & v & t & N & Bv & Q). split; [|exact (after_left _ _ _ A)]. rewrite Q. apply (reads_plain _ p); try assumption. rewrite (after_bits _ _ _ A), Q. reflexivity.
Qed.
(** Otherwise an error: it never panics. *)
Theorem C99_otherwise : forall r, rlater r = [] -> (forall g rest, ~ reads_pack (rbits r) g rest) -> exists e, fst (new_pack_header r) = Err e.
Proof.
  intros r Hr N. pose proof (pack_header_total r) as T. destruct (new_pack_header r) as [[g|e| |] r'] eqn:E; cbn [fst] in T; try contradiction.
  - exfalso. destruct (C99_only r g r' Hr E) as (H & _). exact (N _ _ H).
  - exists e. reflexivity.
Qed.

(** A header with a system header whose header_length is wrong, one without, and one that breaks off behind the stuffing *)
Example C99_hyp :
  reads_pack (enc_pack_start (fst ex_pack1) ++ enc_sys_len 0 ex_sys ++ false :: enc 31 448) (mkPKH (8589934591 mod 2 ^ 32) 299 25200 (Some (go_sys_len 0 ex_sys))) (false :: enc 31 448) /\
  reads_pack (enc_pack_start (fst ex_pack1) ++ enc 32 480 ++ []) (mkPKH (8589934591 mod 2 ^ 32) 299 25200 None) (enc 32 480 ++ []) /\
  forall g rest, ~ reads_pack (enc_pack_start (mkSpack 7 8 9 31 [] None)) g rest.
Proof.
  assert (W : fits_pack (fst ex_pack1)) by (unfold fits_pack; cbn; repeat split; try lia; repeat constructor; unfold byte; lia).
  assert (S : fits_sys 0 ex_sys) by (unfold fits_sys; cbn; repeat split; try lia; repeat constructor; cbn; lia).
  split; [|split].
  - apply (reads_system _ (fst ex_pack1) 0 ex_sys (go_sys_len 0 ex_sys)); try assumption; try reflexivity. split; [reflexivity|]. split; [apply go_sys_fields|]. split; reflexivity.
  - apply (reads_plain _ (fst ex_pack1)); try assumption; try reflexivity; lia.
  - intros g rest H. assert (L : (112 < length (enc_pack_start (mkSpack 7 8 9 31 [] None)))%nat); [|vm_compute in L; lia].
    remember (enc_pack_start (mkSpack 7 8 9 31 [] None)) as l eqn:El. clear El. destruct H as [p g v t _ _ _ _ _ _ _ Q|p len s h g t _ _ _ _ _ _ _ Q]; rewrite Q; unfold enc_pack_start, enc_sys_len; rewrite !app_length, !enc_length; cbn [length]; lia.
Qed.
Print Assumptions C99_reads.
Print Assumptions C99_only.
Print Assumptions C99_otherwise.
