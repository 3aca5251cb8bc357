(** SpecTs: transport stream packets as ISO/IEC 13818-1 2.4.3.2 - 2.4.3.5 lay them out.
    Written from the syntax tables, without reference to the parser. *)
From Verif Require Import Base.

(** ** Adaptation field extension, 2.4.3.4 *)
Record sext : Type := mkSExt {
  sx_ltw : option (bool * Z);        (* ltw_valid_flag, ltw_offset (15) *)
  sx_pwr : option (Z * Z);           (* reserved (2), piecewise_rate (22) *)
  sx_seamless : option (Z * Z);      (* splice_type (4), DTS_next_AU (33) *)
  sx_reserved5 : Z;                  (* 5 reserved bits after the flags *)
  sx_reserved : list Z               (* reserved bytes up to the declared length *)
}.

Definition is_some {A} (o : option A) : bool := match o with Some _ => true | None => false end.
Definition olen {A} (o : option A) (n : Z) : Z := match o with Some _ => n | None => 0 end.

(** adaptation_field_extension_length *)
Definition sext_len (x : sext) : Z :=
  1 + olen (sx_ltw x) 2 + olen (sx_pwr x) 3 + olen (sx_seamless x) 5 + blen (sx_reserved x).

(** DTS_next_AU with its three marker bits *)
Definition enc_dts_next (d : Z) : list bool :=
  enc 3 (d / 2 ^ 30) ++ bit true ++ enc 15 (d / 2 ^ 15) ++ bit true ++ enc 15 d ++ bit true.

Definition enc_sext (x : sext) : list bool :=
  enc 8 (sext_len x) ++
  bit (is_some (sx_ltw x)) ++ bit (is_some (sx_pwr x)) ++ bit (is_some (sx_seamless x)) ++
  enc 5 (sx_reserved5 x) ++
  (match sx_ltw x with Some (v, o) => bit v ++ enc 15 o | None => [] end) ++
  (match sx_pwr x with Some (r, v) => enc 2 r ++ enc 22 v | None => [] end) ++
  (match sx_seamless x with Some (t, d) => enc 4 t ++ enc_dts_next d | None => [] end) ++
  bb (sx_reserved x).

Definition wf_sext (x : sext) : Prop :=
  match sx_ltw x with Some (_, o) => 0 <= o < 2 ^ 15 | None => True end /\
  match sx_pwr x with Some (r, v) => 0 <= r < 2 ^ 2 /\ 0 <= v < 2 ^ 22 | None => True end /\
  match sx_seamless x with Some (t, d) => 0 <= t < 2 ^ 4 /\ 0 <= d < 2 ^ 33 | None => True end /\
  0 <= sx_reserved5 x < 2 ^ 5 /\ bytes (sx_reserved x).

(** ** Adaptation field, 2.4.3.4 *)
Record pcr : Type := mkPcr { pcr_base : Z; pcr_reserved : Z; pcr_ext : Z }.
Definition wf_pcr (p : pcr) : Prop :=
  0 <= pcr_base p < 2 ^ 33 /\ 0 <= pcr_reserved p < 2 ^ 6 /\ 0 <= pcr_ext p < 2 ^ 9.
Definition enc_pcr (p : pcr) : list bool :=
  enc 33 (pcr_base p) ++ enc 6 (pcr_reserved p) ++ enc 9 (pcr_ext p).
(** 2-1: PCR(i) = PCR_base(i) x 300 + PCR_ext(i) *)
Definition pcr_value (p : pcr) : Z := pcr_base p * 300 + pcr_ext p.

Record sbody : Type := mkSBody {
  sa_disc : bool; sa_random : bool; sa_esprio : bool;
  sa_pcr : option pcr; sa_opcr : option pcr; sa_splice : option Z;
  sa_private : option (list Z); sa_ext : option sext;
  sa_stuffing : list Z }.

(** An adaptation field is a single zero byte, or has the flags byte. *)
Inductive saf : Type := AFEmpty | AFBody (b : sbody).

Definition priv_len (o : option (list Z)) : Z := match o with Some d => 1 + blen d | None => 0 end.
Definition extn_len (o : option sext) : Z := match o with Some x => 1 + sext_len x | None => 0 end.

(** adaptation_field_length *)
Definition saf_len (a : saf) : Z :=
  match a with
  | AFEmpty => 0
  | AFBody b => 1 + olen (sa_pcr b) 6 + olen (sa_opcr b) 6 + olen (sa_splice b) 1 +
                priv_len (sa_private b) + extn_len (sa_ext b) + blen (sa_stuffing b)
  end.

Definition enc_saf (a : saf) : list bool :=
  enc 8 (saf_len a) ++
  match a with
  | AFEmpty => []
  | AFBody b =>
      bit (sa_disc b) ++ bit (sa_random b) ++ bit (sa_esprio b) ++
      bit (is_some (sa_pcr b)) ++ bit (is_some (sa_opcr b)) ++ bit (is_some (sa_splice b)) ++
      bit (is_some (sa_private b)) ++ bit (is_some (sa_ext b)) ++
      (match sa_pcr b with Some p => enc_pcr p | None => [] end) ++
      (match sa_opcr b with Some p => enc_pcr p | None => [] end) ++
      (match sa_splice b with Some v => enc 8 v | None => [] end) ++
      (match sa_private b with Some d => enc 8 (blen d) ++ bb d | None => [] end) ++
      (match sa_ext b with Some x => enc_sext x | None => [] end) ++
      bb (sa_stuffing b)
  end.

Definition wf_saf (a : saf) : Prop :=
  match a with
  | AFEmpty => True
  | AFBody b =>
      match sa_pcr b with Some p => wf_pcr p | None => True end /\
      match sa_opcr b with Some p => wf_pcr p | None => True end /\
      match sa_splice b with Some v => 0 <= v < 256 | None => True end /\
      match sa_private b with Some d => bytes d | None => True end /\
      match sa_ext b with Some x => wf_sext x | None => True end /\
      bytes (sa_stuffing b) /\ saf_len a < 256
  end.

(** Extensions the parser supports: no seamless splice, no reserved bytes (see C06). *)
Definition plain_ext (a : saf) : Prop :=
  match a with
  | AFBody b => match sa_ext b with
                | Some x => sx_seamless x = None /\ sx_reserved x = []
                | None => True
                end
  | AFEmpty => True
  end.

(** ** Transport packet, 2.4.3.2 *)
Inductive scontent : Type :=
| SPayload (d : list Z)              (* adaptation_field_control 01 *)
| SField (a : saf)                   (* 10 *)
| SFieldPayload (a : saf) (d : list Z). (* 11 *)

Record spacket : Type := mkSP {
  sp_tei : bool; sp_pusi : bool; sp_prio : bool;
  sp_pid : Z; sp_tsc : Z; sp_cc : Z; sp_content : scontent }.

Definition sp_afc (p : spacket) : Z :=
  match sp_content p with SPayload _ => 1 | SField _ => 2 | SFieldPayload _ _ => 3 end.

Definition enc_sp (p : spacket) : list bool :=
  enc 8 71 ++                                   (* sync_byte 0x47 *)
  bit (sp_tei p) ++ bit (sp_pusi p) ++ bit (sp_prio p) ++ enc 13 (sp_pid p) ++
  enc 2 (sp_tsc p) ++ enc 2 (sp_afc p) ++ enc 4 (sp_cc p) ++
  match sp_content p with
  | SPayload d => bb d
  | SField a => enc_saf a
  | SFieldPayload a d => enc_saf a ++ bb d
  end.

(** A well formed 188 byte packet. *)
Definition wf_sp (p : spacket) : Prop :=
  0 <= sp_pid p < 2 ^ 13 /\ 0 <= sp_tsc p < 2 ^ 2 /\ 0 <= sp_cc p < 2 ^ 4 /\
  match sp_content p with
  | SPayload d => bytes d /\ blen d = 184
  | SField a => wf_saf a /\ plain_ext a /\ saf_len a = 183
  | SFieldPayload a d => wf_saf a /\ plain_ext a /\ bytes d /\ saf_len a + 1 + blen d = 184
  end.

Definition sp_payload (p : spacket) : list Z :=
  match sp_content p with SPayload d => d | SField _ => [] | SFieldPayload _ d => d end.
Definition sp_field (p : spacket) : option saf :=
  match sp_content p with SPayload _ => None | SField a => Some a | SFieldPayload a _ => Some a end.
Definition has_payload (p : spacket) : bool :=
  match sp_content p with SField _ => false | _ => true end.

(** A stream of packets. *)
Definition enc_sps (l : list spacket) : list bool := flat_map enc_sp l.
