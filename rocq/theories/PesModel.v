(** PesModel: package pes - headers, extensions, packets and the payload reader. *)
From Verif Require Import Base BitReader.

(** extension.go:69, header.go:34, 201, 213, 225, 237: [if v, err := r.Read32(n); v != want || err != nil { return e }]: the error of
    the read itself is replaced by [e]. *)
Definition expect (n : nat) (want : Z) (e : err) : M reader unit := fun r =>
  match read_n n r with
  | (Ok v, r') => if v =? want then (Ok tt, r') else (Err e, r')
  | (Err _, r') => (Err e, r')
  | (Panic, r') => (Panic, r')
  | (OutOfFuel, r') => (OutOfFuel, r')
  end.

(** * extension.go *)

(** extension.go:7-21 Extension; the embedded *P_STD_Buffer is an optional pair scale, size *)
Record pext : Type := mkPExt {
  px_priv : bool; px_pack : bool; px_seq : bool; px_pstd : bool; px_ext2 : bool;
  px_data : list Z; px_buffer : option (Z * Z) }.

(** extension.go:23-90 readExtension *)
Definition read_extension : M reader (pext * Z) :=
  f1 <- read1 ;; f2 <- read1 ;; f3 <- read1 ;; f4 <- read1 ;;
  skip_n 3 ;;
  f5 <- read1 ;;
  '(data, n1) <- (if f1 then d <- read_bytes 16 ;; ret (d, 1 + 16) else ret ([], 1)) ;;
  (if f2 then panic else ret tt) ;;
  (if f3 then panic else ret tt) ;;
  '(buf, n2) <-
    (if f4 then
       expect 2 1 ErrMarkerNotFound ;;
       scale <- read_n 1 ;; size <- read_n 13 ;; ret (Some (scale, size), n1 + 2)
     else ret (None, n1)) ;;
  (if f5 then panic else ret tt) ;;
  ret (mkPExt f1 f2 f3 f4 f5 data buf, n2).

(** * header.go *)

(** header.go:10-29 Header *)
Record pheader : Type := mkPH {
  ph_scrambling : Z; ph_priority : bool; ph_alignment : bool; ph_copyright : bool;
  ph_original : bool; ph_ptsdts : Z; ph_escr : bool; ph_esrate : bool; ph_dsm : bool;
  ph_copyinfo : bool; ph_crc : bool; ph_extflag : bool; ph_datalen : Z;
  ph_pts : Z; ph_dts : Z; ph_ext : option pext }.

(** header.go:192-242 readTimeStamp.  The shifts are shifts of a uint32. *)
Definition read_time_stamp (marker : Z) : M reader (Z * Z) :=
  expect 4 marker ErrMarkerNotFound ;;
  v <- read_n 3 ;;
  let t := Z.lor 0 (u32 (Z.shiftl v 30)) in
  expect 1 1 ErrMarkerNotFound ;;
  v <- read_n 15 ;;
  let t := Z.lor t (u32 (Z.shiftl v 15)) in
  expect 1 1 ErrMarkerNotFound ;;
  v <- read_n 15 ;;
  let t := Z.lor t v in
  expect 1 1 ErrMarkerNotFound ;;
  ret (t, 5).

(** header.go:179-190 readStuffingBytes *)
Fixpoint stuffing_loop (k : nat) : M reader unit :=
  match k with
  | O => ret tt
  | S k' => v <- read_n 8 ;; if v =? 255 then stuffing_loop k' else fail ErrInvalidStuffingByte
  end.
Definition read_stuffing (length : Z) : M reader Z :=
  stuffing_loop (Z.to_nat length) ;; ret length.

(** header.go:5-7 *)
Definition minimumHeaderSize : Z := 3.

(** header.go:31-177 readHeader.  [bytesRead] and the length on line 169 are uint32. *)
Definition read_header : M reader (pheader * Z) :=
  expect 2 2 ErrMarkerNotFound ;;
  sc <- read_n 2 ;;
  prio <- read1 ;; dai <- read1 ;; copr <- read1 ;; orig <- read1 ;;
  pd <- read_n 2 ;;
  escr <- read1 ;; esr <- read1 ;; dsm <- read1 ;; aci <- read1 ;; crc <- read1 ;; extf <- read1 ;;
  hdl <- read_n 8 ;;
  let n0 := minimumHeaderSize in
  '(pts, n1) <-
    (if pd =? 2 then '(t, l) <- read_time_stamp 2 ;; ret (t, u32 (n0 + l)) else ret (0, n0)) ;;
  '(pts, dts, n2) <-
    (if pd =? 3 then
       '(t, l) <- read_time_stamp 3 ;;
       '(t', l') <- read_time_stamp 1 ;;
       ret (t, t', u32 (u32 (n1 + l) + l'))
     else ret (pts, 0, n1)) ;;
  (if escr then panic else ret tt) ;;
  (if esr then panic else ret tt) ;;
  (if dsm then panic else ret tt) ;;
  (if aci then panic else ret tt) ;;
  (if crc then panic else ret tt) ;;
  '(ext, n3) <-
    (if extf then '(x, l) <- read_extension ;; ret (Some x, u32 (n2 + l)) else ret (None, n2)) ;;
  st <- read_stuffing (u32 (hdl - u32 (n3 - minimumHeaderSize))) ;;
  ret (mkPH sc prio dai copr orig pd escr esr dsm aci crc extf hdl pts dts ext, u32 (n3 + st)).

(** * stream_assigments.go *)

(** stream_assigments.go:3-22 (the ids that [hasPESHeader] uses) *)
Definition program_stream_map : Z := 188.        (* 0xbc *)
Definition padding_stream : Z := 190.            (* 0xbe *)
Definition private_stream_2 : Z := 191.          (* 0xbf *)
Definition ecm_stream : Z := 240.                (* 0xf0 *)
Definition emm_stream : Z := 241.                (* 0xf1 *)
Definition dsmcc_stream : Z := 242.              (* 0xf2 *)
Definition type_e : Z := 248.                    (* 0xf8 *)
Definition program_stream_directory : Z := 255.  (* 0xff *)

(** stream_assigments.go:24-33 hasPESHeader *)
Definition has_pes_header (id : Z) : bool :=
  negb (id =? program_stream_map) && negb (id =? padding_stream) && negb (id =? private_stream_2) &&
  negb (id =? ecm_stream) && negb (id =? emm_stream) && negb (id =? program_stream_directory) &&
  negb (id =? dsmcc_stream) && negb (id =? type_e).

(** * packet.go *)

(** packet.go:35-40 Packet *)
Record ppacket : Type := mkPP {
  pp_id : Z; pp_length : Z; pp_header : option pheader; pp_payload : list Z }.

(** packet.go:44 new(Packet) *)
Definition zero_pp : ppacket := mkPP 0 0 None [].

(** packet.go:69, 74, 82, 89-97: assignments to the fields *)
Definition pset_id v p := mkPP v (pp_length p) (pp_header p) (pp_payload p).
Definition pset_length v p := mkPP (pp_id p) v (pp_header p) (pp_payload p).
Definition pset_header v p := mkPP (pp_id p) (pp_length p) v (pp_payload p).
Definition pset_payload v p := mkPP (pp_id p) (pp_length p) (pp_header p) v.

(** packet.go:10 *)
Definition StartCodePrefix : Z := 1.

(** packet.go:82-85: the header pointer is assigned (nil on an error) before the test *)
Definition pes_header : M (ppacket * reader) Z := fun s =>
  match read_header (snd s) with
  | (Ok (h, n), r') => (Ok n, (pset_header (Some h) (fst s), r'))
  | (Err e, r') => (Err e, (pset_header None (fst s), r'))
  | (Panic, r') => (Panic, (fst s, r'))
  | (OutOfFuel, r') => (OutOfFuel, (fst s, r'))
  end.

(** packet.go:88-93: a new slice of [n] bytes, then io.ReadAtLeast (= io.ReadFull) into it.
    A huge [make] is taken to succeed. *)
Definition pes_bounded (n : Z) : M (ppacket * reader) unit := fun s =>
  let '((bs, e), r') := read_full n (snd s) in
  let p' := pset_payload (copy_into (repeat 0 (Z.to_nat n)) bs) (fst s) in
  match e with
  | None => (Ok tt, (p', r'))
  | Some e => (Err e, (p', r'))
  end.

(** packet.go:97-100: ioutil.ReadAll, ts.EOP counts as the end *)
Definition pes_unbounded : M (ppacket * reader) unit := fun s =>
  let '((bs, e), r') := read_all (snd s) in
  let p' := pset_payload bs (fst s) in
  match e with
  | None => (Ok tt, (p', r'))
  | Some EOP => (Ok tt, (p', r'))
  | Some e => (Err e, (p', r'))
  end.

(** packet.go:50-112 Packet.Next.  StreamID and PacketLength are assigned before the error is
    tested, hence [onrz]. *)
Definition pes_next : M (ppacket * reader) unit :=
  val <- onr (peek_n 24) ;;
  (if val =? StartCodePrefix then ret tt else fail ErrStartCodePrefixNotFound) ;;
  onr (ignore_err tt (skip_n 24)) ;;
  id <- onrz (pset_id 0) (read_n 8) ;; upd (pset_id id) ;;
  len <- onrz (pset_length 0) (read_n 16) ;; upd (pset_length len) ;;
  if has_pes_header id then
    hl <- pes_header ;;
    if 0 <? len then pes_bounded (u32 (len - hl)) else pes_unbounded
  else if id =? padding_stream then onr (read_bytes len) ;; ret tt
  else ret tt.

(** packet.go:43-47 NewPacket *)
Definition new_pes (r : reader) : res unit * (ppacket * reader) := pes_next (zero_pp, r).

(** * payload_reader.go *)

(** payload_reader.go:15-19 payloadReader *)
Record esreader : Type := mkES { es_br : reader; es_cur : ppacket; es_rem : list Z }.

(** payload_reader.go:8-13 NewPayloadReader *)
Definition new_esreader (r : reader) : esreader := mkES r zero_pp [].

(** payload_reader.go:38-48: fill from the packet stream; [rem] is the Go local [remainder].  Each
    iteration that ends without error reads at least the 24 bits of the prefix, so fuel above the
    number of bits left is never used up. *)
Fixpoint es_fill (fuel : nat) (p : ppacket) (r : reader) (want : nat) (acc rem : list Z)
  : res (list Z * option err) * esreader :=
  match want with
  | O => (Ok (acc, None), mkES r p rem)
  | S _ =>
    match fuel with
    | O => (OutOfFuel, mkES r p [])
    | S f =>
      match pes_next (p, r) with
      | (Ok _, (p', r')) =>
          let c := firstn want (pp_payload p') in
          es_fill f p' r' (want - length c) (acc ++ c) (skipn (length c) (pp_payload p'))
      | (Err e, (p', r')) => (Ok (acc, Some e), mkES r' p' [])
      | (Panic, (p', r')) => (Panic, mkES r' p' [])
      | (OutOfFuel, (p', r')) => (OutOfFuel, mkES r' p' [])
      end
    end
  end.

(** payload_reader.go:21-54 Read, with len(p) = [want].  When the remainder fills the buffer nothing
    is added to it (line 51 writes a nil slice); otherwise it is empty when the loop begins. *)
Definition es_read (fuel : nat) (want : nat) (s : esreader) : res (list Z * option err) * esreader :=
  let c := firstn want (es_rem s) in
  es_fill fuel (es_cur s) (es_br s) (want - length c) c (skipn (length c) (es_rem s)).
