(** TsModel: package ts - packets, adaptation fields, packet testers and the two payload readers. *)
From Verif Require Import Base BitReader.

(** * adaptation_field.go *)

(** adaptation_field.go:21-25 TransportPrivateData *)
Record tpdata : Type := mkTpd { tpd_length : Z; tpd_data : list Z }.

(** adaptation_field.go:27-43 newTransportPrivateData.
    The pair of pointer and length is a pair; [make] of at most 255 bytes never fails. *)
Definition new_tpd : M reader (tpdata * Z) :=
  len <- read_n 8 ;;
  if 0 <? len then
    fun r => match read_bytes len r with
             | (Err EEOF, r') => (Err EUnexpectedEOF, r')
             | (Ok d, r') => (Ok (mkTpd len d, len), r')
             | (Err e, r') => (Err e, r')
             | (Panic, r') => (Panic, r')
             | (OutOfFuel, r') => (OutOfFuel, r')
             end
  else ret (mkTpd len [], len).

(** adaptation_field.go:45-59 AdaptationExt *)
Record aext : Type := mkExt {
  ae_ltw_flag : bool; ae_pwr_flag : bool; ae_splice_flag : bool;
  ae_ltw_valid : bool; ae_ltw_offset : Z; ae_pwr : Z;
  ae_splice_type : Z; ae_dts_next : Z; ae_length : Z }.

(** adaptation_field.go:61-123 newAdaptationExt.
    The errors of br.Skip are discarded there, hence [ignore_err]. *)
Definition new_ext : M reader (aext * Z) :=
  len <- read_n 8 ;;
  '(f1, f2, f3, rem1) <-
    (if 1 <=? len then
       a <- read1 ;; b <- read1 ;; c <- read1 ;;
       ignore_err tt (skip_n 5) ;; ret (a, b, c, len - 1)
     else ret (false, false, false, len)) ;;
  '(v, o, rem2) <-
    (if (2 <=? rem1) && f1 then
       v <- read1 ;; o <- read_n 15 ;; ret (v, o, rem1 - 2)
     else ret (false, 0, rem1)) ;;
  '(pw, rem3) <-
    (if (3 <=? rem2) && f2 then
       ignore_err tt (skip_n 2) ;; x <- read_n 22 ;; ret (x, rem2 - 3)
     else ret (0, rem2)) ;;
  '(st, dts) <-
    (if (5 <=? rem3) && f3 then
       st <- read_n 4 ;;
       v1 <- read_n 3 ;; ignore_err tt (skip_n 1) ;;
       v2 <- read_n 15 ;; ignore_err tt (skip_n 1) ;;
       v3 <- read_n 15 ;;
       ret (st, v1 * 2 ^ 30 + v2 * 2 ^ 15 + v3)
     else ret (0, 0)) ;;
  ret (mkExt f1 f2 f3 v o pw st dts len, len).

(** adaptation_field.go:126-146 AdaptationField *)
Record afield : Type := mkAF {
  af_disc : bool; af_random : bool; af_esprio : bool; af_pcr_flag : bool;
  af_opcr_flag : bool; af_splice_flag : bool; af_tpd_flag : bool; af_ext_flag : bool;
  af_pcr : Z; af_opcr : Z; af_splice : Z;
  af_tpd : option tpdata; af_ext : option aext;
  af_length : Z; af_junk : list Z }.

(** adaptation_field.go:185-198 readPcr (a 64 bit sum that cannot wrap: 2^33*300+2^9 < 2^64) *)
Definition read_pcr : M reader Z :=
  base <- read_n 33 ;; read_n 6 ;; ext <- read_n 9 ;; ret (base * 300 + ext).

(** adaptation_field.go:148-249 newAdaptationField.
    [remainLength] is a uint32, so the subtractions on lines 226 and 234 wrap.
    A huge [make] on line 239 is taken to succeed. *)
Definition new_af : M reader (afield * Z) :=
  len <- read_n 8 ;;
  '(d, ra, ep, pf, of, sf, tf, ef, rem0) <-
    (if 1 <=? len then
       d <- read1 ;; ra <- read1 ;; ep <- read1 ;; pf <- read1 ;;
       of <- read1 ;; sf <- read1 ;; tf <- read1 ;; ef <- read1 ;;
       ret (d, ra, ep, pf, of, sf, tf, ef, len - 1)
     else ret (false, false, false, false, false, false, false, false, len)) ;;
  '(pcr, rem1) <-
    (if (6 <=? rem0) && pf then x <- read_pcr ;; ret (x, rem0 - 6) else ret (0, rem0)) ;;
  '(opcr, rem2) <-
    (if (6 <=? rem1) && of then x <- read_pcr ;; ret (x, rem1 - 6) else ret (0, rem1)) ;;
  '(sc, rem3) <-
    (if (1 <=? rem2) && sf then x <- read_n 8 ;; ret (x, rem2 - 1) else ret (0, rem2)) ;;
  '(tpd, rem4) <-
    (if (1 <=? rem3) && tf then
       '(t, l) <- new_tpd ;; ret (Some t, u32 (rem3 - u32 (l + 1)))
     else ret (None, rem3)) ;;
  '(ext, rem5) <-
    (if (2 <=? rem4) && ef then
       '(x, l) <- new_ext ;; ret (Some x, u32 (rem4 - u32 (l + 1)))
     else ret (None, rem4)) ;;
  junk <-
    (if 0 <? rem5 then
       fun r => match read_bytes rem5 r with
                | (Err EEOF, r') => (Err EUnexpectedEOF, r')
                | x => x
                end
     else ret []) ;;
  ret (mkAF d ra ep pf of sf tf ef pcr opcr sc tpd ext len junk, len).

(** * packet.go *)

(** packet.go:39-51 Packet. [Payload] is always a slice of [payloadBuffer] starting at 0
    (or nil), so it is the length [pk_len] and the buffer. *)
Record packet : Type := mkPk {
  pk_tei : bool; pk_pusi : bool; pk_prio : bool;
  pk_pid : Z; pk_tsc : Z; pk_afc : Z; pk_cc : Z;
  pk_af : option afield; pk_buf : list Z; pk_len : Z }.

(** packet.go:48: the field [Payload]. *)
Definition pk_payload (p : packet) : list Z := firstn (Z.to_nat (pk_len p)) (pk_buf p).

(** packet.go:55, payload_reader.go:44, payload_unit_reader.go:70 new(Packet); demuxer.go:60 &Packet{} *)
Definition zero_packet : packet :=
  mkPk false false false 0 0 0 0 None (repeat 0 184) 0.

(** packet.go:78-128: assignments to the fields *)
Definition set_tei b p := mkPk b (pk_pusi p) (pk_prio p) (pk_pid p) (pk_tsc p) (pk_afc p) (pk_cc p) (pk_af p) (pk_buf p) (pk_len p).
Definition set_pusi b p := mkPk (pk_tei p) b (pk_prio p) (pk_pid p) (pk_tsc p) (pk_afc p) (pk_cc p) (pk_af p) (pk_buf p) (pk_len p).
Definition set_prio b p := mkPk (pk_tei p) (pk_pusi p) b (pk_pid p) (pk_tsc p) (pk_afc p) (pk_cc p) (pk_af p) (pk_buf p) (pk_len p).
Definition set_pid v p := mkPk (pk_tei p) (pk_pusi p) (pk_prio p) v (pk_tsc p) (pk_afc p) (pk_cc p) (pk_af p) (pk_buf p) (pk_len p).
Definition set_tsc v p := mkPk (pk_tei p) (pk_pusi p) (pk_prio p) (pk_pid p) v (pk_afc p) (pk_cc p) (pk_af p) (pk_buf p) (pk_len p).
Definition set_afc v p := mkPk (pk_tei p) (pk_pusi p) (pk_prio p) (pk_pid p) (pk_tsc p) v (pk_cc p) (pk_af p) (pk_buf p) (pk_len p).
Definition set_cc v p := mkPk (pk_tei p) (pk_pusi p) (pk_prio p) (pk_pid p) (pk_tsc p) (pk_afc p) v (pk_af p) (pk_buf p) (pk_len p).
Definition set_af v p := mkPk (pk_tei p) (pk_pusi p) (pk_prio p) (pk_pid p) (pk_tsc p) (pk_afc p) (pk_cc p) v (pk_buf p) (pk_len p).
Definition set_buf v p := mkPk (pk_tei p) (pk_pusi p) (pk_prio p) (pk_pid p) (pk_tsc p) (pk_afc p) (pk_cc p) (pk_af p) v (pk_len p).
Definition set_len v p := mkPk (pk_tei p) (pk_pusi p) (pk_prio p) (pk_pid p) (pk_tsc p) (pk_afc p) (pk_cc p) (pk_af p) (pk_buf p) v.

(** packet.go:9,13; adaptation_field.go:14-19 *)
Definition SyncByte : Z := 71.
Definition MaxPayloadSize : Z := 184.
Definition PayloadOnly : Z := 1.
Definition FieldOnly : Z := 2.
Definition FieldThenPayload : Z := 3.

(** packet.go:141-152 isAligned *)
Definition ts_is_aligned : M reader bool := fun r =>
  if negb (is_aligned r) then (Ok false, r)
  else (v <- peek_n 8 ;; ret (v =? SyncByte)) r.

(** packet.go:159-171: the loop of realign, [k] iterations to go *)
Fixpoint realign_loop (k : nat) : M reader unit :=
  match k with
  | O => fail ErrNoSyncByte
  | S k' =>
      v <- peek_n 8 ;;
      if v =? SyncByte then ret tt
      else skip_n 8 ;; realign_loop k'
  end.

(** packet.go:154-172 realign *)
Definition realign : M reader unit := fun r =>
  realign_loop 188 (if negb (is_aligned r) then align r else r).

(** packet.go:128-135: slice payloadBuffer, read into it.  A slice bound above the
    capacity 184 panics. *)
Definition read_payload (size : Z) : M (packet * reader) unit := fun s =>
  if MaxPayloadSize <? size then (Panic, s)
  else
    let p := set_len size (fst s) in
    let '((bs, e), r') := read_full size (snd s) in
    let p' := set_buf (copy_into (pk_buf p) bs) p in
    match e with
    | None => (Ok tt, (p', r'))
    | Some EEOF => (Err EUnexpectedEOF, (p', r'))
    | Some e => (Err e, (p', r'))
    end.

(** packet.go:61-139 Packet.Next.  On an error of newAdaptationField the field is set to nil
    (line 119 assigns before the test).  The fields read on lines 78-98 and 110 are assigned
    before the test of the error as well, hence [onrz]; adaptation_field_control (line 103) goes
    through a local variable and is only stored on success. *)
Definition packet_next : M (packet * reader) unit :=
  aligned <- onr ts_is_aligned ;;
  (if negb aligned then onr realign else ret tt) ;;
  onr (skip_n 8) ;;
  b <- onrz (set_tei false) read1 ;; upd (set_tei b) ;;
  b <- onrz (set_pusi false) read1 ;; upd (set_pusi b) ;;
  b <- onrz (set_prio false) read1 ;; upd (set_prio b) ;;
  v <- onrz (set_pid 0) (read_n 13) ;; upd (set_pid v) ;;
  v <- onrz (set_tsc 0) (read_n 2) ;; upd (set_tsc v) ;;
  afc <- onr (read_n 2) ;; upd (set_afc afc) ;;
  v <- onrz (set_cc 0) (read_n 4) ;; upd (set_cc v) ;;
  size <-
    (if (afc =? FieldOnly) || (afc =? FieldThenPayload) then
       fun s => match new_af (snd s) with
                | (Ok (a, l), r') => (Ok (u32 (MaxPayloadSize - u32 (l + 1))), (set_af (Some a) (fst s), r'))
                | (Err e, r') => (Err e, (set_af None (fst s), r'))
                | (Panic, r') => (Panic, (fst s, r'))
                | (OutOfFuel, r') => (OutOfFuel, (fst s, r'))
                end
     else ret MaxPayloadSize) ;;
  if (afc =? PayloadOnly) || (afc =? FieldThenPayload) then read_payload size
  else ret tt.

(** packet.go:54-58 NewPacket *)
Definition new_packet (r : reader) : res unit * (packet * reader) := packet_next (zero_packet, r).

(** * packet_tester.go *)
Definition tester : Type := packet -> bool.
Definition always_true : tester := fun _ => true.                 (* packet_tester.go:6 *)
Definition t_not (t : tester) : tester := fun p => negb (t p).      (* packet_tester.go:9-11 *)
Definition t_and (t u : tester) : tester := fun p => t p && u p.    (* packet_tester.go:14-16 *)
Definition t_or (t u : tester) : tester := fun p => t p || u p.     (* packet_tester.go:19-21 *)
Definition IsPID (pid : Z) : tester := fun p => pk_pid p =? pid.    (* packet_tester.go:25-27 *)
Definition IsPayloadUnitStart : tester := fun p => pk_pusi p.     (* packet_tester.go:32 *)

(** * payload_reader.go *)

(** payload_reader.go:19-27 payloadReader *)
Record preader : Type := mkPR {
  pr_cur : option packet; pr_br : reader;
  pr_where : tester; pr_skip : option tester; pr_take : tester;
  pr_rem : list Z; pr_closed : bool }.

(** payload_reader.go:9-17 NewPayloadReader *)
Definition new_preader (r : reader) (w : tester) : preader :=
  mkPR None r w None always_true [] false.
(** payload_reader.go:29-35 SkipUntil, TakeWhile *)
Definition pr_skip_until (t : tester) (s : preader) : preader :=
  mkPR (pr_cur s) (pr_br s) (pr_where s) (Some t) (pr_take s) (pr_rem s) (pr_closed s).
Definition pr_take_while (t : tester) (s : preader) : preader :=
  mkPR (pr_cur s) (pr_br s) (pr_where s) (pr_skip s) t (pr_rem s) (pr_closed s).

(** payload_reader.go:44, 84, 89, 94, 105: assignments to the fields (and what next() does to packet and reader) *)
Definition pr_set (s : preader) (p : packet) (r : reader) (rem : list Z) (closed : bool) : preader :=
  mkPR (Some p) r (pr_where s) (pr_skip s) (pr_take s) rem closed.

(** payload_reader.go:37, payload_unit_reader.go:41: the result of [Read(p)]: the bytes put in [p] (their number is [n]) and the error. *)
Definition ioresult : Type := list Z * option err.

(** payload_reader.go:97-109 realign: the error of next() is dropped (line 99), so the loop only
    ends when skipUntil accepts the current packet. *)
Fixpoint pr_realign (fuel : nat) (skip : tester) (p : packet) (r : reader)
  : res (list Z) * (packet * reader) :=
  match fuel with
  | O => (OutOfFuel, (p, r))
  | S f =>
      match packet_next (p, r) with
      | (Panic, st) => (Panic, st)
      | (OutOfFuel, st) => (OutOfFuel, st)
      | (_, (p', r')) =>
          if skip p' then (Ok (pk_payload p'), (p', r'))
          else pr_realign f skip p' r'
      end
  end.

(** payload_reader.go:69-87: fill from the packet stream. [want] bytes are still to be
    filled, [acc] were copied; [rem] is the Go local [remainder]. *)
Fixpoint pr_fill (fuel : nat) (s : preader) (p : packet) (r : reader)
  (want : nat) (acc rem : list Z) : res ioresult * preader :=
  match want with
  | O => (Ok (acc, None), pr_set s p r (pr_rem s ++ rem) false)
  | S _ =>
    match fuel with
    | O => (OutOfFuel, pr_set s p r (pr_rem s) false)
    | S f =>
      match packet_next (p, r) with
      | (Err e, (p', r')) => (Ok (acc, Some e), pr_set s p' r' (pr_rem s) false)
      | (Panic, (p', r')) => (Panic, pr_set s p' r' (pr_rem s) false)
      | (OutOfFuel, (p', r')) => (OutOfFuel, pr_set s p' r' (pr_rem s) false)
      | (Ok _, (p', r')) =>
          let '(want', acc', rem') :=
            if pr_where s p' then
              let c := firstn want (pk_payload p') in
              ((want - length c)%nat, acc ++ c, skipn (length c) (pk_payload p'))
            else (want, acc, rem) in
          if pr_take s p' then pr_fill f s p' r' want' acc' rem'
          else (Ok (acc', Some EEOF), pr_set s p' r' (pr_rem s) true)
      end
    end
  end.

(** payload_reader.go:37-91 Read, with len(p) = [want].  Lines 57-66 drain the bytes.Buffer. *)
Definition pr_read (fuel : nat) (want : nat) (s : preader) : res ioresult * preader :=
  if pr_closed s then (Ok ([], Some EEOF), s)
  else
    let go (s : preader) (p : packet) :=
      let c := firstn want (pr_rem s) in
      let s' := pr_set s p (pr_br s) (skipn (length c) (pr_rem s)) false in
      pr_fill fuel s' p (pr_br s) (want - length c) c [] in
    match pr_cur s with
    | Some p => go s p
    | None =>
        match pr_skip s with
        | None => go s zero_packet
        | Some t =>
            match pr_realign fuel t zero_packet (pr_br s) with
            | (Ok d, (p, r)) => go (pr_set s p r (pr_rem s ++ d) false) p
            | (Err e, (p, r)) => (Ok ([], Some e), pr_set s p r (pr_rem s) false)
            | (Panic, (p, r)) => (Panic, pr_set s p r (pr_rem s) false)
            | (OutOfFuel, (p, r)) => (OutOfFuel, pr_set s p r (pr_rem s) false)
            end
        end
    end.

(** * payload_unit_reader.go *)

(** payload_unit_reader.go:32-39 payloadUnitBuffer; [ur_ready] is state == ready *)
Record ureader : Type := mkUR {
  ur_cur : option packet; ur_buf : list Z; ur_br : reader;
  ur_where : tester; ur_ready : bool }.

(** payload_unit_reader.go:23-30 NewPayloadUnitReader *)
Definition new_ureader (r : reader) (w : tester) : ureader := mkUR None [] r w false.

(** payload_unit_reader.go:27 startIndicator *)
Definition ur_start (s : ureader) : tester := t_and (ur_where s) IsPayloadUnitStart.

(** payload_unit_reader.go:47, 56, 70, 88, 109: assignments to the fields *)
Definition ur_set (s : ureader) (p : packet) (r : reader) (buf : list Z) (ready : bool) : ureader :=
  mkUR (Some p) buf r (ur_where s) ready.

(** payload_unit_reader.go:73-82: step to the first start indicator *)
Fixpoint ur_seek (fuel : nat) (s : ureader) (p : packet) (r : reader)
  : res unit * (packet * reader) :=
  if ur_start s p then (Ok tt, (p, r)) else
  match fuel with
  | O => (OutOfFuel, (p, r))
  | S f =>
      match packet_next (p, r) with
      | (Ok _, (p', r')) => ur_seek f s p' r'
      | x => x
      end
  end.

(** payload_unit_reader.go:86-103: read to the next start indicator.
    Writing to a bytes.Buffer never fails. *)
Fixpoint ur_collect (fuel : nat) (s : ureader) (p : packet) (r : reader) (buf : list Z)
  : res (option err) * ureader :=
  match fuel with
  | O => (OutOfFuel, ur_set s p r buf false)
  | S f =>
      let buf' := if ur_where s p then buf ++ pk_payload p else buf in
      match packet_next (p, r) with
      | (Ok _, (p', r')) =>
          if ur_start s p' then (Ok None, ur_set s p' r' buf' false)
          else ur_collect f s p' r' buf'
      | (Err e, (p', r')) => (Ok (Some e), ur_set s p' r' buf' false)
      | (Panic, (p', r')) => (Panic, ur_set s p' r' buf' false)
      | (OutOfFuel, (p', r')) => (OutOfFuel, ur_set s p' r' buf' false)
      end
  end.

(** payload_unit_reader.go:66-106 fill *)
Definition ur_fill (fuel : nat) (s : ureader) : res (option err) * ureader :=
  match ur_cur s with
  | Some p => ur_collect fuel s p (ur_br s) (ur_buf s)
  | None =>
      match ur_seek fuel s zero_packet (ur_br s) with
      | (Ok _, (p, r)) => ur_collect fuel s p r (ur_buf s)
      | (Err e, (p, r)) => (Ok (Some e), ur_set s p r (ur_buf s) false)
      | (Panic, (p, r)) => (Panic, ur_set s p r (ur_buf s) false)
      | (OutOfFuel, (p, r)) => (OutOfFuel, ur_set s p r (ur_buf s) false)
      end
  end.

(** payload_unit_reader.go:50-64: drain the buffer; when it is empty before [p] is full the state
    becomes drained and EOP is returned. *)
Definition ur_drain (want : nat) (s : ureader) : res ioresult * ureader :=
  let c := firstn want (ur_buf s) in
  let rest := skipn (length c) (ur_buf s) in
  if Nat.ltb (length c) want
  then (Ok (c, Some EOP), mkUR (ur_cur s) rest (ur_br s) (ur_where s) false)
  else (Ok (c, None), mkUR (ur_cur s) rest (ur_br s) (ur_where s) true).

(** payload_unit_reader.go:41-64 Read, with len(p) = [want] *)
Definition ur_read (fuel : nat) (want : nat) (s : ureader) : res ioresult * ureader :=
  if ur_ready s then ur_drain want s
  else
    match ur_fill fuel s with
    | (Ok None, s') => ur_drain want s'
    | (Ok (Some e), s') => (Ok ([], Some e), s')
    | (Err e, s') => (Ok ([], Some e), s')
    | (Panic, s') => (Panic, s')
    | (OutOfFuel, s') => (OutOfFuel, s')
    end.
