(** SpecLeft: what the packet structs of ts and pes hold after a Next that ran out of input inside
    a packet.  Only the structs, the packets of the standard and the number of bytes that came. *)
From Verif Require Import Base TsModel SpecTs PropertiesTs.
From Verif Require PesModel SpecPes PropertiesPes.

(** A field whose reading starts once [from] bytes have come and needs [upto] bytes: before, it is
    as it was; while its reading fails it is [failed]; then it is the one of the packet. *)
Definition held {A} (k from upto : nat) (old failed new : A) : A :=
  if (k <? from)%nat then old else if (k <? upto)%nat then failed else new.

(** ** Transport packets *)
(** The bytes before the payload: 4, and the adaptation field if there is one. *)
Definition sp_head (s : spacket) : nat := 188 - length (sp_payload s).

(** [p] before, [p'] after the first [k] bytes of [s] and the end of the source. *)
Definition left_in (s : spacket) (k : nat) (p p' : packet) : Prop :=
  pk_tei p' = held k 1 2 (pk_tei p) false (sp_tei s) /\
  pk_pusi p' = held k 2 2 (pk_pusi p) false (sp_pusi s) /\
  pk_prio p' = held k 2 2 (pk_prio p) false (sp_prio s) /\
  pk_pid p' = held k 2 3 (pk_pid p) 0 (sp_pid s) /\
  pk_tsc p' = held k 3 4 (pk_tsc p) 0 (sp_tsc s) /\
  pk_afc p' = held k 4 4 (pk_afc p) 0 (sp_afc s) /\
  pk_cc p' = held k 4 4 (pk_cc p) 0 (sp_cc s) /\
  (match sp_field s with
   | None => pk_af p' = pk_af p
   | Some a => exists f, field_is a f /\ pk_af p' = held k 4 (Z.to_nat (5 + saf_len a)) (pk_af p) None (Some f)
   end) /\
  (if has_payload s && (sp_head s <=? k)%nat
   then pk_payload p' = firstn (k - sp_head s) (sp_payload s) ++ firstn (188 - k) (skipn (k - sp_head s) (pk_buf p))
   else pk_payload p' = pk_payload p).

(** The error, outside the adaptation field: the source's own, but in the middle of PID (5 of 13
    bits are there) the one of the bit reader, and in a payload io.EOF is io.ErrUnexpectedEOF. *)
Definition left_error (s : spacket) (k : nat) (fin : err) (short : nat -> nat -> err) (e : err) : Prop :=
  (k < 4 -> e = if k =? 2 then short 13 5 else fin)%nat /\
  ((sp_head s <= k)%nat -> e = match fin with EEOF => EUnexpectedEOF | x => x end).

(** ** PES packets *)
Import PesModel SpecPes PropertiesPes.
(** The bytes before the payload. *)
Definition se_before (s : spes) : nat := Z.to_nat (9 + data_len (se_head s)).
Definition left_in_pes (s : spes) (k : nat) (p p' : ppacket) : Prop :=
  pp_id p' = held k 3 4 (pp_id p) 0 (se_id s) /\
  pp_length p' = held k 4 6 (pp_length p) 0 (se_len s) /\
  (exists g, head_holds (se_head s) g /\ stamps_hold (fun t => t mod 2 ^ 32) (sh_stamps (se_head s)) g /\
     pp_header p' = held k 6 (se_before s) (pp_header p) None (Some g)) /\
  pp_payload p' = (if (k <? se_before s)%nat then pp_payload p
                   else firstn (k - se_before s) (se_payload s) ++ repeat 0 (se_before s + length (se_payload s) - k)).
