(** SpecPs: the program stream syntax of ISO/IEC 13818-1, 2.5.3, as an encoder.
    Written from the standard, without reference to the model of the decoder. *)
From Verif Require Import Base SpecPes.

(** ** System header (2.5.3.5) *)
Record sstream : Type := mkSstream { st_id : Z; st_scale : bool; st_size : Z }.
Definition enc_sstream (s : sstream) : list bool :=
  enc 8 (st_id s) ++ enc 2 3 ++ bit (st_scale s) ++ enc 13 (st_size s).
Definition wf_sstream (s : sstream) : Prop := 128 <= st_id s < 2 ^ 8 /\ 0 <= st_size s < 2 ^ 13.

Record ssys : Type := mkSsys {
  sm_rate : Z; sm_audio : Z; sm_fixed : bool; sm_csps : bool; sm_alock : bool; sm_vlock : bool;
  sm_video : Z; sm_restrict : bool; sm_reserved : Z; sm_streams : list sstream }.
Definition sm_length (s : ssys) : Z := 6 + 3 * Z.of_nat (length (sm_streams s)).
Definition enc_sys (s : ssys) : list bool :=
  enc 32 443 ++ enc 16 (sm_length s) ++ bit true ++ enc 22 (sm_rate s) ++ bit true ++
  enc 6 (sm_audio s) ++ bit (sm_fixed s) ++ bit (sm_csps s) ++ bit (sm_alock s) ++ bit (sm_vlock s) ++
  bit true ++ enc 5 (sm_video s) ++ bit (sm_restrict s) ++ enc 7 (sm_reserved s) ++
  flat_map enc_sstream (sm_streams s).
Definition wf_sys (s : ssys) : Prop :=
  0 <= sm_rate s < 2 ^ 22 /\ 0 <= sm_audio s < 2 ^ 6 /\ 0 <= sm_video s < 2 ^ 5 /\
  Forall wf_sstream (sm_streams s) /\ sm_length s < 2 ^ 16.

(** ** Pack header (2.5.3.3) *)
Record spack : Type := mkSpack {
  sk_base : Z; sk_ext : Z; sk_rate : Z; sk_reserved : Z; sk_stuffing : list Z; sk_sys : option ssys }.
Definition enc_packhead (p : spack) : list bool :=
  enc 32 442 ++ enc 2 1 ++
  enc 3 (sk_base p / 2 ^ 30) ++ bit true ++ enc 15 (sk_base p / 2 ^ 15) ++ bit true ++
  enc 15 (sk_base p) ++ bit true ++ enc 9 (sk_ext p) ++ bit true ++
  enc 22 (sk_rate p) ++ bit true ++ bit true ++ enc 5 (sk_reserved p) ++
  enc 3 (blen (sk_stuffing p)) ++ bb (sk_stuffing p) ++
  match sk_sys p with Some s => enc_sys s | None => [] end.
Definition wf_packhead (p : spack) : Prop :=
  0 <= sk_base p < 2 ^ 33 /\ 0 <= sk_ext p < 2 ^ 9 /\ 0 <= sk_rate p < 2 ^ 22 /\
  blen (sk_stuffing p) < 8 /\ match sk_sys p with Some s => wf_sys s | None => True end.

(** A pack header as received: all markers are arbitrary. *)
Record rpack : Type := mkRpack {
  rk_01 : Z; rk_b1 : Z; rk_m1 : bool; rk_b2 : Z; rk_m2 : bool; rk_b3 : Z; rk_m3 : bool; rk_ext : Z; rk_m4 : bool;
  rk_rate : Z; rk_m5 : bool; rk_m6 : bool }.
Definition enc_rpack (p : rpack) : list bool :=
  enc 32 442 ++ enc 2 (rk_01 p) ++ enc 3 (rk_b1 p) ++ bit (rk_m1 p) ++ enc 15 (rk_b2 p) ++ bit (rk_m2 p) ++
  enc 15 (rk_b3 p) ++ bit (rk_m3 p) ++ enc 9 (rk_ext p) ++ bit (rk_m4 p) ++
  enc 22 (rk_rate p) ++ bit (rk_m5 p) ++ bit (rk_m6 p).
Definition rpack_markers (p : rpack) : Prop :=
  rk_01 p = 1 /\ rk_m1 p = true /\ rk_m2 p = true /\ rk_m3 p = true /\ rk_m4 p = true /\ rk_m5 p = true /\ rk_m6 p = true.

(** ** Packs and program streams (2.5.3.1, 2.5.3.2) *)
(** A packet of a program stream: stream ids begin at 0xBC. *)
Inductive psitem : Type := PsPes (s : spes) | PsPadding (d : list Z).
Definition enc_psitem (i : psitem) : list bool :=
  match i with PsPes s => enc_pes s | PsPadding d => enc_padding d end.
Definition wf_psitem (i : psitem) : Prop :=
  match i with PsPes s => wf_pes s /\ 188 <= se_id s | PsPadding d => bytes d /\ blen d < 2 ^ 16 end.
Definition psitem_payload (i : psitem) : list Z := match i with PsPes s => se_payload s | PsPadding _ => [] end.

Definition pack : Type := spack * list psitem.
Definition enc_pack (p : pack) : list bool := enc_packhead (fst p) ++ flat_map enc_psitem (snd p).
Definition wf_pack (p : pack) : Prop := wf_packhead (fst p) /\ Forall wf_psitem (snd p).
Definition enc_packs (l : list pack) : list bool := flat_map enc_pack l.
Definition enc_end : list bool := enc 32 441.
(** The bytes the program stream carries. *)
Definition pack_content (p : pack) : list Z := flat_map psitem_payload (snd p).
Definition packs_content (l : list pack) : list Z := flat_map pack_content l.
