(** StrModel: the String methods of ts.Packet, video.ChromaFormat, video.PictureCodingType and video.PictureHeader.
    A string is the list of its character codes. *)
From Verif Require Import Base BitReader TsModel VidModel.

(** ts/packet.go:175 (fmt.Sprintf): strconv's digits of a non-negative number in lower-case hexadecimal; eight digits hold a uint32 *)
Fixpoint hexdigits (fuel : nat) (z : Z) (acc : list Z) : list Z :=
  match fuel with
  | O => acc
  | S f => let d := z mod 16 in let a := (if d <? 10 then 48 + d else 87 + d) :: acc in
           if z / 16 =? 0 then a else hexdigits f (z / 16) a
  end.
(** ts/packet.go:175: fmt's %1x and %02x of a uint32: at least one digit, at least two *)
Definition fmt_1x (z : Z) : list Z := hexdigits 8 z [].
Definition fmt_02x (z : Z) : list Z := let s := fmt_1x z in if (length s <? 2)%nat then 48 :: s else s.

(** ts/packet.go:174-176 Packet.String: "{ PID: 0x%02x, Counter: %1x }" *)
Definition packet_string (p : packet) : list Z :=
  [123; 32; 80; 73; 68; 58; 32; 48; 120] ++ fmt_02x (pk_pid p) ++
  [44; 32; 67; 111; 117; 110; 116; 101; 114; 58; 32] ++ fmt_1x (pk_cc p) ++ [32; 125].

(** video/chroma_format.go:47-57 ChromaFormat.String: "4:2:0", "4:2:2", "4:4:4", "[Invalid]" *)
Definition chroma_string (c : Z) : list Z :=
  if c =? 1 then [52; 58; 50; 58; 48] else if c =? 2 then [52; 58; 50; 58; 50] else if c =? 3 then [52; 58; 52; 58; 52]
  else [91; 73; 110; 118; 97; 108; 105; 100; 93].

(** video/picture_coding_type.go:65-77 PictureCodingType.String: "I", "P", "B", "D", or the number ("%v?") *)
Definition type_string (t : Z) : list Z :=
  if t =? 1 then [73] else if t =? 2 then [80] else if t =? 3 then [66] else if t =? 4 then [68] else fmt_d t ++ [63].

(** video/picture_header.go:18-20 PictureHeader.String: "[%s%d]" of the coding type and the temporal reference *)
Definition picture_string (ph : pichdr) : list Z := [91] ++ type_string (ph_type ph) ++ fmt_d (ph_tr ph) ++ [93].
