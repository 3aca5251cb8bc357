(** SpecExactPes: the beginnings of PES packets on which pes.Packet.Next does not return. *)
From Verif Require Import Base SpecPes SpecAccept.

(** A header as it is read: with the time stamps its flags announce, or with the forbidden flags '01' and none *)
Definition enc_read_head (forbidden : bool) (h : shead) : list bool := if forbidden then enc_head_01 h else enc_head h.

(** The fixed part of a PES header (2.4.3.6) with any flags and any length, and the time stamps: PTS_DTS_flags, ESCR_flag,
    ES_rate_flag, DSM_trick_mode_flag, additional_copy_info_flag, PES_CRC_flag, PES_extension_flag *)
Record sfront : Type := mkSfront {
  sf_scrambling : Z; sf_priority : bool; sf_alignment : bool; sf_copyright : bool; sf_original : bool;
  sf_ptsdts : Z; sf_escr : bool; sf_esrate : bool; sf_dsm : bool; sf_copyinfo : bool; sf_crc : bool; sf_ext : bool;
  sf_datalen : Z; sf_stamps : stamps }.
Definition enc_front (f : sfront) : list bool :=
  enc 2 2 ++ enc 2 (sf_scrambling f) ++ bit (sf_priority f) ++ bit (sf_alignment f) ++ bit (sf_copyright f) ++ bit (sf_original f) ++
  enc 2 (sf_ptsdts f) ++ bit (sf_escr f) ++ bit (sf_esrate f) ++ bit (sf_dsm f) ++ bit (sf_copyinfo f) ++ bit (sf_crc f) ++ bit (sf_ext f) ++
  enc 8 (sf_datalen f) ++ enc_stamps (sf_stamps f).
Definition wf_front (f : sfront) : Prop :=
  0 <= sf_scrambling f < 2 ^ 2 /\ 0 <= sf_datalen f < 2 ^ 8 /\ wf_stamps (sf_stamps f) /\
  (sf_ptsdts f = stamp_flags (sf_stamps f) \/ sf_ptsdts f = 1 /\ sf_stamps f = NoStamp).

(** An extension (2.4.3.6) that announces a pack header field or a program packet sequence counter (behind the private data), or
    a second extension (behind the private data and the P-STD buffer) *)
Definition unsupported_extension (l : list bool) : Prop :=
  exists (private pack sequence pstd : bool) (reserved : Z) (second : bool), 0 <= reserved < 2 ^ 3 /\
  exists (d : list Z) (t : list bool), bytes d /\ blen d = (if private then 16 else 0) /\
    l = bit private ++ bit pack ++ bit sequence ++ bit pstd ++ enc 3 reserved ++ bit second ++ bb d ++ t /\
    (pack = true \/ sequence = true \/
     second = true /\ (pstd = true -> exists (scale : bool) (size : Z) (t' : list bool), 0 <= size < 2 ^ 13 /\ t = enc 2 1 ++ bit scale ++ enc 13 size ++ t')).

(** A packet that announces, in its header, a part this package does not know *)
Definition unsupported_packet (l : list bool) : Prop :=
  exists id len f t, carries_header id /\ 0 <= len < 2 ^ 16 /\ wf_front f /\ l = enc_start id len ++ enc_front f ++ t /\
    (sf_escr f = true \/ sf_esrate f = true \/ sf_dsm f = true \/ sf_copyinfo f = true \/ sf_crc f = true \/
     sf_ext f = true /\ unsupported_extension t).
