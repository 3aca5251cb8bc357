(** SpecPes: the PES packet syntax of ISO/IEC 13818-1, 2.4.3.6 and 2.4.3.7, as an encoder.
    Written from the standard, without reference to the model of the decoder. *)
From Verif Require Import Base.

(** A 33 bit time stamp with its 4 bit marker: 4 + 3+1 + 15+1 + 15+1 = 40 bits. *)
Definition enc_stamp (marker t : Z) : list bool :=
  enc 4 marker ++ enc 3 (t / 2 ^ 30) ++ bit true ++ enc 15 (t / 2 ^ 15) ++ bit true ++
  enc 15 t ++ bit true.

Inductive stamps : Type := NoStamp | Pts (p : Z) | PtsDts (p d : Z).
Definition stamp_flags (s : stamps) : Z := match s with NoStamp => 0 | Pts _ => 2 | PtsDts _ _ => 3 end.
Definition enc_stamps (s : stamps) : list bool :=
  match s with
  | NoStamp => []
  | Pts p => enc_stamp 2 p
  | PtsDts p d => enc_stamp 3 p ++ enc_stamp 1 d
  end.
Definition stamps_len (s : stamps) : Z := match s with NoStamp => 0 | Pts _ => 5 | PtsDts _ _ => 10 end.
Definition wf_stamp (t : Z) : Prop := 0 <= t < 2 ^ 33.
Definition wf_stamps (s : stamps) : Prop :=
  match s with NoStamp => True | Pts p => wf_stamp p | PtsDts p d => wf_stamp p /\ wf_stamp d end.

(** PES extension: private data (16 bytes) and P-STD buffer (scale, size). *)
Record sxt : Type := mkSxt {
  xt_private : option (list Z); xt_reserved : Z; xt_pstd : option (bool * Z) }.
Definition present {A} (o : option A) : bool := match o with Some _ => true | None => false end.
Definition enc_xt (x : sxt) : list bool :=
  bit (present (xt_private x)) ++ bit false ++ bit false ++ bit (present (xt_pstd x)) ++
  enc 3 (xt_reserved x) ++ bit false ++
  (match xt_private x with Some d => bb d | None => [] end) ++
  (match xt_pstd x with
   | Some (scale, size) => enc 2 1 ++ bit scale ++ enc 13 size
   | None => []
   end).
Definition xt_len (x : sxt) : Z :=
  1 + (if present (xt_private x) then 16 else 0) + (if present (xt_pstd x) then 2 else 0).
Definition wf_xt (x : sxt) : Prop :=
  match xt_private x with Some d => bytes d /\ blen d = 16 | None => True end /\
  0 <= xt_reserved x < 2 ^ 3 /\
  match xt_pstd x with Some (_, size) => 0 <= size < 2 ^ 13 | None => True end.

(** The header of a PES packet: fields, optional parts and stuffing. *)
Record shead : Type := mkShead {
  sh_scrambling : Z; sh_priority : bool; sh_alignment : bool; sh_copyright : bool; sh_original : bool;
  sh_stamps : stamps; sh_ext : option sxt; sh_stuffing : nat }.
(** Bytes taken by the optional parts. *)
Definition parts_len (h : shead) : Z :=
  stamps_len (sh_stamps h) + match sh_ext h with Some x => xt_len x | None => 0 end.
(** PES_header_data_length of a well formed header *)
Definition data_len (h : shead) : Z := parts_len h + Z.of_nat (sh_stuffing h).
(** The header with an arbitrary PES_header_data_length [hdl], without the stuffing. *)
Definition enc_parts (h : shead) (hdl : Z) : list bool :=
  enc 2 2 ++ enc 2 (sh_scrambling h) ++ bit (sh_priority h) ++ bit (sh_alignment h) ++
  bit (sh_copyright h) ++ bit (sh_original h) ++
  enc 2 (stamp_flags (sh_stamps h)) ++
  bit false ++ bit false ++ bit false ++ bit false ++ bit false ++ bit (present (sh_ext h)) ++
  enc 8 hdl ++ enc_stamps (sh_stamps h) ++
  (match sh_ext h with Some x => enc_xt x | None => [] end).
Definition enc_head (h : shead) : list bool :=
  enc_parts h (data_len h) ++ bb (repeat 255 (sh_stuffing h)).
Definition wf_parts (h : shead) : Prop :=
  0 <= sh_scrambling h < 2 ^ 2 /\ wf_stamps (sh_stamps h) /\
  match sh_ext h with Some x => wf_xt x | None => True end.
Definition wf_head (h : shead) : Prop := wf_parts h /\ data_len h < 256.

(** Stream ids whose packets have no PES header (2.4.3.7, table 2-18): program stream map, padding,
    private stream 2, ECM, EMM, DSM-CC, H.222.1 type E, program stream directory. *)
Definition headerless : list Z := [188; 190; 191; 240; 241; 242; 248; 255].
Definition carries_header (id : Z) : Prop := 0 <= id < 2 ^ 8 /\ ~ In id headerless.

(** The first six bytes. *)
Definition enc_start (id len : Z) : list bool := enc 24 1 ++ enc 8 id ++ enc 16 len.

(** A packet with a header and a length: 6 + 3 + data length + payload. *)
Record spes : Type := mkSpes { se_id : Z; se_head : shead; se_payload : list Z }.
Definition se_len (s : spes) : Z := 3 + data_len (se_head s) + blen (se_payload s).
Definition enc_pes (s : spes) : list bool :=
  enc_start (se_id s) (se_len s) ++ enc_head (se_head s) ++ bb (se_payload s).
Definition wf_pes (s : spes) : Prop :=
  carries_header (se_id s) /\ wf_head (se_head s) /\ bytes (se_payload s) /\ se_len s < 2 ^ 16.
Definition enc_pess (l : list spes) : list bool := flat_map enc_pes l.

(** A packet of length 0 (it extends to the end of what the source delivers). *)
Definition enc_open (id : Z) (h : shead) (payload : list Z) : list bool :=
  enc_start id 0 ++ enc_head h ++ bb payload.

(** A padding packet. *)
Definition enc_padding (d : list Z) : list bool := enc_start 190 (blen d) ++ bb d.

(** ** Headers as received: every marker may be wrong, stuffing bytes are arbitrary. *)
Record rstamp : Type := mkRS {
  rs_marker : Z; rs_high : Z; rs_b1 : bool; rs_mid : Z; rs_b2 : bool; rs_low : Z; rs_b3 : bool }.
Definition enc_rstamp (s : rstamp) : list bool :=
  enc 4 (rs_marker s) ++ enc 3 (rs_high s) ++ bit (rs_b1 s) ++ enc 15 (rs_mid s) ++ bit (rs_b2 s) ++
  enc 15 (rs_low s) ++ bit (rs_b3 s).
Definition wf_rstamp (s : rstamp) : Prop := 0 <= rs_marker s < 2 ^ 4.
Definition good_stamp (marker : Z) (s : rstamp) : Prop :=
  rs_marker s = marker /\ rs_b1 s = true /\ rs_b2 s = true /\ rs_b3 s = true.
Inductive rstamps : Type := RNone | RPts (p : rstamp) | RPtsDts (p d : rstamp).
Record rxt : Type := mkRxt {
  rx_private : option (list Z); rx_reserved : Z; rx_pstd : option (Z * bool * Z) }.
Record rhead : Type := mkRhead {
  rh_marker : Z; rh_scrambling : Z; rh_flags : Z; rh_stamps : rstamps; rh_ext : option rxt;
  rh_stuffing : list Z }.

Definition rstamps_flags (s : rstamps) : Z := match s with RNone => 0 | RPts _ => 2 | RPtsDts _ _ => 3 end.
Definition rstamps_len (s : rstamps) : Z := match s with RNone => 0 | RPts _ => 5 | RPtsDts _ _ => 10 end.
Definition enc_rstamps (s : rstamps) : list bool :=
  match s with RNone => [] | RPts p => enc_rstamp p | RPtsDts p d => enc_rstamp p ++ enc_rstamp d end.
Definition rxt_len (x : rxt) : Z :=
  1 + (if present (rx_private x) then 16 else 0) + (if present (rx_pstd x) then 2 else 0).
Definition enc_rxt (x : rxt) : list bool :=
  bit (present (rx_private x)) ++ bit false ++ bit false ++ bit (present (rx_pstd x)) ++
  enc 3 (rx_reserved x) ++ bit false ++
  (match rx_private x with Some d => bb d | None => [] end) ++
  (match rx_pstd x with
   | Some (m, scale, size) => enc 2 m ++ bit scale ++ enc 13 size
   | None => []
   end).
Definition rparts_len (h : rhead) : Z :=
  rstamps_len (rh_stamps h) + match rh_ext h with Some x => rxt_len x | None => 0 end.
Definition rdata_len (h : rhead) : Z := rparts_len h + blen (rh_stuffing h).
Definition enc_rhead (h : rhead) : list bool :=
  enc 2 (rh_marker h) ++ enc 2 (rh_scrambling h) ++ enc 4 (rh_flags h) ++
  enc 2 (rstamps_flags (rh_stamps h)) ++
  bit false ++ bit false ++ bit false ++ bit false ++ bit false ++ bit (present (rh_ext h)) ++
  enc 8 (rdata_len h) ++ enc_rstamps (rh_stamps h) ++
  (match rh_ext h with Some x => enc_rxt x | None => [] end) ++ bb (rh_stuffing h).
Definition wf_rhead (h : rhead) : Prop :=
  0 <= rh_marker h < 2 ^ 2 /\
  match rh_stamps h with
  | RNone => True | RPts p => wf_rstamp p | RPtsDts p d => wf_rstamp p /\ wf_rstamp d
  end /\
  match rh_ext h with
  | None => True
  | Some x => match rx_private x with Some d => bytes d /\ blen d = 16 | None => True end /\
              match rx_pstd x with Some (m, _, _) => 0 <= m < 2 ^ 2 | None => True end
  end /\
  bytes (rh_stuffing h) /\ rdata_len h < 256.
(** Every marker has the value that the standard prescribes. *)
Definition markers_right (h : rhead) : Prop :=
  rh_marker h = 2 /\
  match rh_stamps h with
  | RNone => True | RPts p => good_stamp 2 p | RPtsDts p d => good_stamp 3 p /\ good_stamp 1 d
  end /\
  match rh_ext h with
  | None => True
  | Some x => match rx_pstd x with Some (m, _, _) => m = 1 | None => True end
  end.
