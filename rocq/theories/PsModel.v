(** PsModel: package ps - start codes, pack and system headers, the pack reader. *)
From Verif Require Import Base BitReader PesModel.

(** * start_code.go *)

(** start_code.go:11-17 *)
Definition PackStartCode : Z := 442.          (* 0x000001ba *)
Definition ProgramEndCode : Z := 441.         (* 0x000001b9 *)
Definition SystemHeaderStartCode : Z := 443.  (* 0x000001bb *)

(** start_code.go:22-28 Check *)
Definition ps_check (c : Z) : M reader bool := v <- peek_n 32 ;; ret (v =? c).
(** start_code.go:32-42 Assert *)
Definition ps_assert (c : Z) : M reader unit :=
  t <- ps_check c ;; if t then skip_n 32 else fail ErrPsUnexpectedStartCode.

(** * system_header.go *)

(** system_header.go:18-22 SystemHeaderStream *)
Record shstream : Type := mkSHS { ss_id : Z; ss_scale : bool; ss_size : Z }.
(** system_header.go:5-16 SystemHeader *)
Record sysheader : Type := mkSH {
  sy_length : Z; sy_rate : Z; sy_audio : Z; sy_fixed : bool; sy_csps : bool; sy_alock : bool;
  sy_vlock : bool; sy_video : Z; sy_restrict : bool; sy_streams : list shstream }.

(** The Go idiom [v, err := r.Read32(n); if err ... else if v != want { return ErrMarkerNotFound }]
    (e.g. system_header.go:38-42). *)
Definition marker (n : nat) (want : Z) : M reader unit :=
  v <- read_n n ;; if v =? want then ret tt else fail ErrMarkerNotFound.

(** system_header.go:108-142: the loop over the streams.  Each iteration reads 24 bits, so fuel above the
    number of bits left is never used up. *)
Fixpoint streams_loop (fuel : nat) (acc : list shstream) : M reader (list shstream) :=
  match fuel with
  | O => nofuel
  | S f =>
    b <- peek_n 1 ;;
    if negb (b =? 1) then ret acc else
    sid <- read_n 8 ;;
    marker 2 3 ;;
    scale <- read1 ;;
    size <- read_n 13 ;;
    streams_loop f (acc ++ [mkSHS sid scale size])
  end.

(** system_header.go:24-145 readSystemHeader.  Line 95 stores the second, 5 bit, bound in AudioBound too;
    VideoBound is never assigned. *)
Definition read_system_header : M reader sysheader :=
  skip_n 32 ;;
  hl <- read_n 16 ;;
  marker 1 1 ;;
  rb <- read_n 22 ;;
  marker 1 1 ;;
  ab <- read_n 6 ;;
  fixed <- read1 ;; csps <- read1 ;; sal <- read1 ;; svl <- read1 ;;
  marker 1 1 ;;
  ab <- read_n 5 ;;
  prr <- read1 ;;
  skip_n 7 ;;
  streams <- (fun r => streams_loop (S (length (rbits r))) [] r) ;;
  ret (mkSH hl rb ab fixed csps sal svl 0 prr streams).

(** * pack_header.go *)

(** pack_header.go:5-10 PackHeader *)
Record packheader : Type := mkPKH {
  pk_base : Z; pk_ext : Z; pk_rate : Z; pk_system : option sysheader }.

(** pack_header.go:99-102: the error of Skip is dropped *)
Fixpoint stuffing_skip (k : nat) : M reader unit :=
  match k with O => ret tt | S k' => ignore_err tt (skip_n 8) ;; stuffing_skip k' end.

(** pack_header.go:12-115 NewPackHeader.  The shifts are shifts of a uint32. *)
Definition new_pack_header : M reader packheader :=
  ps_assert PackStartCode ;;
  marker 2 1 ;;
  v <- read_n 3 ;;
  let t := Z.lor 0 (u32 (Z.shiftl v 30)) in
  marker 1 1 ;;
  v <- read_n 15 ;;
  let t := Z.lor t (u32 (Z.shiftl v 15)) in
  marker 1 1 ;;
  v <- read_n 15 ;;
  let t := Z.lor t v in
  marker 1 1 ;;
  scre <- read_n 9 ;;
  marker 1 1 ;;
  pmr <- read_n 22 ;;
  marker 1 1 ;;
  marker 1 1 ;;
  skip_n 5 ;;
  st <- read_n 3 ;;
  stuffing_skip (Z.to_nat st) ;;
  b <- ps_check SystemHeaderStartCode ;;
  sys <- (if b then h <- read_system_header ;; ret (Some h) else ret None) ;;
  ret (mkPKH t scre pmr sys).

(** * pack_reader.go *)

(** pack_reader.go:13-16 packreader *)
Record packreader : Type := mkPR { pr_br : reader; pr_rem : list Z }.
(** pack_reader.go:18-23 NewPackReader *)
Definition new_packreader (r : reader) : packreader := mkPR r [].

(** pack_reader.go:60-73: one packet into the buffer: [Some] on return *)
Definition pr_packet (r : reader) (want : nat) (acc : list Z)
  : res (option (list Z * option err) * (nat * list Z)) * packreader :=
  match new_pes r with
  | (Ok _, (p, r')) =>
      let c := firstn want (pp_payload p) in
      match (want - length c)%nat with
      | O => (Ok (Some (acc ++ c, None), (O, [])), mkPR r' (skipn (length c) (pp_payload p)))
      | S k => (Ok (None, (S k, acc ++ c)), mkPR r' [])
      end
  | (Err e, (p, r')) => (Ok (Some ([], None), (O, [])), mkPR r' [])   (* return 0, nil *)
  | (Panic, (p, r')) => (Panic, mkPR r' [])
  | (OutOfFuel, (p, r')) => (OutOfFuel, mkPR r' [])
  end.

(** pack_reader.go:42-80: [want] bytes of the buffer are free ([want] > 0), [acc] is what was copied.  The
    remainder is empty here.  Each iteration reads at least the prefix of a packet. *)
Fixpoint pr_step (fuel : nat) (r : reader) (want : nat) (acc : list Z)
  : res (list Z * option err) * packreader :=
  match fuel with
  | O => (OutOfFuel, mkPR r [])
  | S f =>
    match peek_n 32 r with
    | (Ok v, r1) =>
        if v =? ProgramEndCode then
          (Ok (acc, Some EEOF), mkPR (snd (skip_n 32 r1)) [])
        else
          let '(h, r2) :=
            (if v =? PackStartCode then
               match new_pack_header r1 with (Ok _, r2) => (Ok tt, r2) | (Err e, r2) => (Err e, r2)
               | (Panic, r2) => (Panic, r2) | (OutOfFuel, r2) => (OutOfFuel, r2) end
             else (Ok tt, r1)) in
          match h with
          | Ok _ =>
              match pr_packet r2 want acc with
              | (Ok (Some out, _), s) => (Ok out, s)
              | (Ok (None, (want', acc')), s) => pr_step f (pr_br s) want' acc'
              | (Err e, s) => (Err e, s)
              | (Panic, s) => (Panic, s)
              | (OutOfFuel, s) => (OutOfFuel, s)
              end
          | Err e => (Ok ([], Some e), mkPR r2 [])
          | Panic => (Panic, mkPR r2 [])
          | OutOfFuel => (OutOfFuel, mkPR r2 [])
          end
    | (Err _, r1) => (Ok ([], None), mkPR r1 [])     (* return 0, nil *)
    | (Panic, r1) => (Panic, mkPR r1 [])
    | (OutOfFuel, r1) => (OutOfFuel, mkPR r1 [])
    end
  end.

(** pack_reader.go:25-81 Read, with len(d) = [want].  The bytes of the result are those the returned count
    covers. *)
Definition pr_read (fuel : nat) (want : nat) (s : packreader) : res (list Z * option err) * packreader :=
  let c := firstn want (pr_rem s) in
  match (want - length c)%nat with
  | O => (Ok (c, None), mkPR (pr_br s) (skipn (length c) (pr_rem s)))
  | S k => pr_step fuel (pr_br s) (S k) c
  end.
