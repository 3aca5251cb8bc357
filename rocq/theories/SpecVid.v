(** SpecVid: the syntax of ISO/IEC 13818-2, 6.2, above the slice, as an encoder.
    Written from the standard, without reference to the model of the decoder. *)
From Verif Require Import Base.

(** ** Start codes (6.2.1): three bytes 00 00 01 and one more *)
Definition prefix : list bool := enc 24 1.
Definition code (b : Z) : list bool := prefix ++ enc 8 b.
(** Byte values of the start codes, table 6-1. *)
Definition picture_code : Z := 0.
Definition user_data_code : Z := 178.
Definition sequence_header_code : Z := 179.
Definition extension_code : Z := 181.
Definition sequence_end_code : Z := 183.
Definition group_code : Z := 184.
Definition slice_codes (b : Z) : Prop := 1 <= b <= 175.

(** A stream standing byte aligned at a start code. *)
Definition at_code (l : list bool) : Prop := exists t, l = prefix ++ t /\ (length t mod 8 = 0)%nat.

(** next_start_code() (5.2.3): zero bits up to alignment, then any number of zero bytes.
    [stuff p n]: [n] bits of structure have been written, [p] are the alignment bits and [k] bytes follow. *)
Definition alignment (n : nat) : nat := ((8 - n mod 8) mod 8)%nat.
Definition stuffing (n k : nat) : list bool := repeat false (alignment n) ++ bb (repeat 0 k).
(** A structure [l] followed by stuffing. *)
Definition stuffed (l : list bool) (k : nat) : list bool := l ++ stuffing (length l) k.

(** ** Quantiser matrices: 64 bytes, or absent *)
Definition wf_matrix (m : option (list Z)) : Prop :=
  match m with None => True | Some l => length l = 64%nat /\ bytes l end.
Definition enc_matrix (m : option (list Z)) : list bool :=
  match m with None => bit false | Some l => bit true ++ bb l end.

(** ** sequence_header() (6.2.2.1) *)
Record sseq : Type := mkSseq {
  q_horizontal : Z; q_vertical : Z; q_aspect : Z; q_frame_rate : Z; q_bit_rate : Z; q_vbv : Z;
  q_constrained : bool; q_intra : option (list Z); q_non_intra : option (list Z) }.
(** With the marker bit [m] (1 in a valid stream). *)
Definition enc_seq_with (m : bool) (s : sseq) : list bool :=
  code sequence_header_code ++
  enc 12 (q_horizontal s) ++ enc 12 (q_vertical s) ++ enc 4 (q_aspect s) ++ enc 4 (q_frame_rate s) ++
  enc 18 (q_bit_rate s) ++ bit m ++ enc 10 (q_vbv s) ++ bit (q_constrained s) ++
  enc_matrix (q_intra s) ++ enc_matrix (q_non_intra s).
Definition enc_seq : sseq -> list bool := enc_seq_with true.
Definition wf_seq (s : sseq) : Prop :=
  0 <= q_horizontal s < 2 ^ 12 /\ 0 <= q_vertical s < 2 ^ 12 /\ 0 <= q_aspect s < 2 ^ 4 /\
  0 <= q_frame_rate s < 2 ^ 4 /\ 0 <= q_bit_rate s < 2 ^ 18 /\ 0 <= q_vbv s < 2 ^ 10 /\
  wf_matrix (q_intra s) /\ wf_matrix (q_non_intra s).

(** ** sequence_extension() (6.2.2.3) *)
Record ssext : Type := mkSsext {
  x_profile : Z; x_progressive : bool; x_chroma : Z; x_h : Z; x_v : Z; x_bit_rate : Z; x_vbv : Z;
  x_low_delay : bool; x_n : Z; x_d : Z }.
Definition enc_sext_with (m : bool) (s : ssext) : list bool :=
  code extension_code ++ enc 4 1 ++
  enc 8 (x_profile s) ++ bit (x_progressive s) ++ enc 2 (x_chroma s) ++ enc 2 (x_h s) ++ enc 2 (x_v s) ++
  enc 12 (x_bit_rate s) ++ bit m ++ enc 8 (x_vbv s) ++ bit (x_low_delay s) ++ enc 2 (x_n s) ++ enc 5 (x_d s).
Definition enc_sext : ssext -> list bool := enc_sext_with true.
Definition wf_sext (s : ssext) : Prop :=
  0 <= x_profile s < 2 ^ 8 /\ 0 <= x_chroma s < 2 ^ 2 /\ 0 <= x_h s < 2 ^ 2 /\ 0 <= x_v s < 2 ^ 2 /\
  0 <= x_bit_rate s < 2 ^ 12 /\ 0 <= x_vbv s < 2 ^ 8 /\ 0 <= x_n s < 2 ^ 2 /\ 0 <= x_d s < 2 ^ 5.

(** ** sequence_display_extension() (6.2.2.4) *)
Record sdisp : Type := mkSdisp { d_format : Z; d_colour : option (Z * Z * Z); d_h : Z; d_v : Z }.
(** Without the start code, which the caller of the structure reads. *)
Definition enc_disp_with (m : bool) (s : sdisp) : list bool :=
  enc 4 2 ++ enc 3 (d_format s) ++
  match d_colour s with
  | None => bit false
  | Some (p, t, c) => bit true ++ enc 8 p ++ enc 8 t ++ enc 8 c
  end ++ enc 14 (d_h s) ++ bit m ++ enc 14 (d_v s).
Definition enc_disp : sdisp -> list bool := enc_disp_with true.
Definition wf_disp (s : sdisp) : Prop :=
  0 <= d_format s < 2 ^ 3 /\ 0 <= d_h s < 2 ^ 14 /\ 0 <= d_v s < 2 ^ 14 /\
  match d_colour s with None => True | Some (p, t, c) => byte p /\ byte t /\ byte c end.

(** ** group_of_pictures_header() (6.2.2.6) with time_code (6.3.8, table 6-11) *)
Record sgop : Type := mkSgop {
  g_drop : bool; g_hours : Z; g_minutes : Z; g_marker : bool; g_seconds : Z; g_pictures : Z;
  g_closed : bool; g_broken : bool }.
Definition enc_time (s : sgop) : list bool :=
  bit (g_drop s) ++ enc 5 (g_hours s) ++ enc 6 (g_minutes s) ++ bit (g_marker s) ++ enc 6 (g_seconds s) ++
  enc 6 (g_pictures s).
Definition enc_gop (s : sgop) : list bool :=
  code group_code ++ enc_time s ++ bit (g_closed s) ++ bit (g_broken s).
Definition wf_gop (s : sgop) : Prop :=
  0 <= g_hours s < 2 ^ 5 /\ 0 <= g_minutes s < 2 ^ 6 /\ 0 <= g_seconds s < 2 ^ 6 /\ 0 <= g_pictures s < 2 ^ 6.

(** ** picture_header() (6.2.3) *)
Record spic : Type := mkSpic {
  p_tr : Z; p_type : Z; p_vbv : Z; p_forward : bool * Z; p_backward : bool * Z; p_extra : list Z }.
Definition enc_fpel (v : bool * Z) : list bool := bit (fst v) ++ enc 3 (snd v).
Definition enc_extra (l : list Z) : list bool := flat_map (fun b => bit true ++ enc 8 b) l ++ bit false.
Definition enc_pic (s : spic) : list bool :=
  code picture_code ++ enc 10 (p_tr s) ++ enc 3 (p_type s) ++ enc 16 (p_vbv s) ++
  (if (p_type s =? 2) || (p_type s =? 3) then enc_fpel (p_forward s) else []) ++
  (if p_type s =? 3 then enc_fpel (p_backward s) else []) ++
  enc_extra (p_extra s).
Definition wf_pic (s : spic) : Prop :=
  0 <= p_tr s < 2 ^ 10 /\ 0 <= p_type s < 2 ^ 3 /\ 0 <= p_vbv s < 2 ^ 16 /\
  0 <= snd (p_forward s) < 2 ^ 3 /\ 0 <= snd (p_backward s) < 2 ^ 3 /\ bytes (p_extra s).

(** ** picture_coding_extension() (6.2.3.1) *)
Record scomposite : Type := mkScomp { c_v_axis : bool; c_field : Z; c_sub : bool; c_burst : Z; c_phase : Z }.
Record spce : Type := mkSpce {
  e_f00 : Z; e_f01 : Z; e_f10 : Z; e_f11 : Z; e_dc : Z; e_struct : Z; e_tff : bool; e_fpfd : bool;
  e_conceal : bool; e_qtype : bool; e_vlc : bool; e_alt : bool; e_rff : bool; e_c420 : bool; e_prog : bool;
  e_comp : option scomposite }.
Definition enc_pce (s : spce) : list bool :=
  code extension_code ++ enc 4 8 ++
  enc 4 (e_f00 s) ++ enc 4 (e_f01 s) ++ enc 4 (e_f10 s) ++ enc 4 (e_f11 s) ++
  enc 2 (e_dc s) ++ enc 2 (e_struct s) ++ bit (e_tff s) ++ bit (e_fpfd s) ++ bit (e_conceal s) ++
  bit (e_qtype s) ++ bit (e_vlc s) ++ bit (e_alt s) ++ bit (e_rff s) ++ bit (e_c420 s) ++ bit (e_prog s) ++
  match e_comp s with
  | None => bit false
  | Some c => bit true ++ bit (c_v_axis c) ++ enc 3 (c_field c) ++ bit (c_sub c) ++ enc 7 (c_burst c) ++
              enc 8 (c_phase c)
  end.
Definition wf_pce (s : spce) : Prop :=
  0 <= e_f00 s < 2 ^ 4 /\ 0 <= e_f01 s < 2 ^ 4 /\ 0 <= e_f10 s < 2 ^ 4 /\ 0 <= e_f11 s < 2 ^ 4 /\
  0 <= e_dc s < 2 ^ 2 /\ 0 <= e_struct s < 2 ^ 2 /\
  match e_comp s with
  | None => True
  | Some c => 0 <= c_field c < 2 ^ 3 /\ 0 <= c_burst c < 2 ^ 7 /\ 0 <= c_phase c < 2 ^ 8
  end.

(** ** quant_matrix_extension() (6.2.3.2), after the start code *)
Record squant : Type := mkSquant {
  m_intra : option (list Z); m_non_intra : option (list Z); m_chroma_intra : option (list Z);
  m_chroma_non_intra : option (list Z) }.
Definition enc_quant (s : squant) : list bool :=
  enc 4 3 ++ enc_matrix (m_intra s) ++ enc_matrix (m_non_intra s) ++ enc_matrix (m_chroma_intra s) ++
  enc_matrix (m_chroma_non_intra s).
Definition wf_quant (s : squant) : Prop :=
  wf_matrix (m_intra s) /\ wf_matrix (m_non_intra s) /\ wf_matrix (m_chroma_intra s) /\
  wf_matrix (m_chroma_non_intra s).

(** ** picture_temporal_scalable_extension() (6.2.3.4), after the start code *)
Record stemp : Type := mkStemp { t_select : Z; t_forward : Z; t_backward : Z }.
Definition enc_temp_with (m : bool) (s : stemp) : list bool :=
  enc 4 10 ++ enc 2 (t_select s) ++ enc 10 (t_forward s) ++ bit m ++ enc 10 (t_backward s).
Definition enc_temp : stemp -> list bool := enc_temp_with true.
Definition wf_temp (s : stemp) : Prop :=
  0 <= t_select s < 2 ^ 2 /\ 0 <= t_forward s < 2 ^ 10 /\ 0 <= t_backward s < 2 ^ 10.

(** ** user_data() (6.2.2.2.2): bytes without 23 consecutive zero bits at a byte boundary *)
(** [d] followed by a start code prefix contains no earlier prefix, at a byte boundary. *)
Definition no_prefix (d : list Z) : Prop :=
  forall a b c x y, d ++ [0; 0; 1] = x ++ a :: b :: c :: y -> a = 0 -> b = 0 -> c = 1 -> y = [].
Definition enc_user (d : list Z) : list bool := code user_data_code ++ bb d.

(** ** extension_and_user_data(i) (6.2.2.2) *)
Inductive xitem : Type :=
| XDisplay (s : sdisp) (k : nat)
| XQuant (s : squant) (k : nat)
| XTemporal (s : stemp) (k : nat)
| XUser (d : list Z).
(** An extension is its start code, its structure, and stuffing. *)
Definition enc_extension (b : list bool) (k : nat) : list bool := code extension_code ++ b ++ stuffing (32 + length b) k.
Definition enc_xitem (x : xitem) : list bool :=
  match x with
  | XDisplay s k => enc_extension (enc_disp s) k
  | XQuant s k => enc_extension (enc_quant s) k
  | XTemporal s k => enc_extension (enc_temp s) k
  | XUser d => enc_user d
  end.
Definition enc_xitems (l : list xitem) : list bool := flat_map enc_xitem l.
Definition wf_xitem (x : xitem) : Prop :=
  match x with
  | XDisplay s _ => wf_disp s
  | XQuant s _ => wf_quant s
  | XTemporal s _ => wf_temp s
  | XUser d => bytes d /\ no_prefix d
  end.
(** What may follow a sequence extension (0), a group of pictures header (1), a picture coding extension (2). *)
Definition allowed (i : Z) (x : xitem) : Prop :=
  match x with XDisplay _ _ => i = 0 | XQuant _ _ => i = 2 | XTemporal _ _ => i = 2 | XUser _ => True end.
(** A stream at a start code other than those of extensions and user data. *)
Definition at_other_code (l : list bool) : Prop :=
  exists b t, l = code b ++ t /\ 0 <= b < 256 /\ b <> extension_code /\ b <> user_data_code /\ (length t mod 8 = 0)%nat.

(** ** Quantiser matrices (6.3.11): default values, in raster order (row [v], column [u]) *)
Definition std_intra_matrix : list Z :=
  [8; 16; 19; 22; 26; 27; 29; 34;  16; 16; 22; 24; 27; 29; 34; 37;
   19; 22; 26; 27; 29; 34; 34; 38;  22; 22; 26; 27; 29; 34; 37; 40;
   22; 26; 27; 29; 32; 35; 40; 48;  26; 27; 29; 32; 35; 40; 48; 58;
   26; 27; 29; 34; 38; 46; 56; 69;  27; 29; 35; 38; 46; 56; 69; 83].
Definition std_non_intra_matrix : list Z := repeat 16 64.

(** ** The zigzag order (7.3.1): the anti-diagonals of the 8 by 8 block, walked alternately down and up,
    beginning (0,0), (0,1), (1,0).  Positions are [8 * v + u]. *)
Definition diagonal (d : nat) : list (nat * nat) :=
  filter (fun p => Nat.ltb (fst p) 8 && Nat.ltb (snd p) 8) (map (fun v => (v, d - v)%nat) (seq 0 (S d))).
Definition zigzag : list nat :=
  map (fun p => 8 * fst p + snd p)%nat
    (flat_map (fun d => if Nat.odd d then diagonal d else rev (diagonal d)) (seq 0 15)).
(** A transmitted matrix is in zigzag order: entry number [k] belongs at position [zigzag k]. *)
Definition in_zigzag (transmitted m : list Z) : Prop :=
  forall k, (k < 64)%nat -> nth (nth k zigzag 0%nat) m 0 = nth k transmitted 0.
