(** SpecExact: the packets that ts.Packet.Next takes, in any of the four forms of adaptation_field_control. *)
From Verif Require Import Base SpecTs SpecAcceptTs.

(** What follows the header: nothing ('00', reserved), payload ('01'), an adaptation field ('10'), both ('11') *)
Inductive rcontent : Type := RNothing | RPayload (d : list Z) | RField (f : rfield) | RFieldPayload (f : rfield) (d : list Z).
Record rpacket : Type := mkRP {
  rp_tei : bool; rp_pusi : bool; rp_prio : bool; rp_pid : Z; rp_tsc : Z; rp_cc : Z; rp_content : rcontent }.
Definition rp_afc (s : rpacket) : Z := match rp_content s with RNothing => 0 | RPayload _ => 1 | RField _ => 2 | RFieldPayload _ _ => 3 end.
Definition enc_rheader (s : rpacket) : list bool :=
  enc 8 71 ++ bit (rp_tei s) ++ bit (rp_pusi s) ++ bit (rp_prio s) ++ enc 13 (rp_pid s) ++ enc 2 (rp_tsc s) ++ enc 2 (rp_afc s) ++ enc 4 (rp_cc s).
Definition enc_rpacket (s : rpacket) : list bool :=
  enc_rheader s ++
  match rp_content s with RNothing => [] | RPayload d => bb d | RField f => enc_rfield f | RFieldPayload f d => enc_rfield f ++ bb d end.
Definition wf_rheader (s : rpacket) : Prop := 0 <= rp_pid s < 2 ^ 13 /\ 0 <= rp_tsc s < 2 ^ 2 /\ 0 <= rp_cc s < 2 ^ 4.
(** The packet that is accepted: 188 bytes, but for an adaptation field without payload, whose length may be any, and for '00' *)
Definition wf_rpacket (s : rpacket) : Prop :=
  wf_rheader s /\
  match rp_content s with
  | RNothing => True
  | RPayload d => bytes d /\ blen d = 184
  | RField f => wf_rfield f
  | RFieldPayload f d => wf_rfield f /\ bytes d /\ rf_length f + 1 + blen d = 184
  end.
(** The packet with an adaptation field that is longer than a packet, before the payload *)
Definition long_rpacket (s : rpacket) : Prop :=
  wf_rheader s /\ match rp_content s with RFieldPayload f d => wf_rfield f /\ d = [] /\ 184 <= rf_length f | _ => False end.

(** The source, from where it stands: the rest of a byte, fewer than 188 bytes that are not 0x47, then the packet. *)
Definition comes (bits : list bool) (s : rpacket) (rest : list bool) : Prop :=
  exists al junk, length al = (length bits mod 8)%nat /\ bytes junk /\ (length junk < 188)%nat /\ ~ In 71 junk /\
    bits = al ++ bb junk ++ enc_rpacket s ++ rest.
