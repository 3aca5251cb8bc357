(** SpecVlc: the variable length codes of ISO/IEC 13818-2 Annex B.

    A code of [n] bits with value [v] (most significant bit first) is written [(v, n)]; each
    table is a list indexed by the value the code stands for.  The tables are written from the
    standard, not from the source. *)
From Verif Require Import Base BitReader.

Notation vlc := (list (Z * Z)).

(** [has t i c]: [c] is the code of entry [i] of the table. *)
Definition has (t : vlc) (i : nat) (c : list bool) : Prop :=
  exists v n, nth_error t i = Some (v, n) /\ c = enc (Z.to_nat n) v.

(** Table B-1: macroblock_address_increment 1, 2, ... 33 *)
Definition b1 : vlc :=
  [(1, 1); (3, 3); (2, 3); (3, 4); (2, 4); (3, 5); (2, 5); (7, 7); (6, 7); (11, 8); (10, 8); (9, 8); 
   (8, 8); (7, 8); (6, 8); (23, 10); (22, 10); (21, 10); (20, 10); (19, 10); (18, 10); (35, 11); 
   (34, 11); (33, 11); (32, 11); (31, 11); (30, 11); (29, 11); (28, 11); (27, 11); (26, 11); (25, 11); 
   (24, 11)].

(** Table B-9: coded_block_pattern 0, 1, ... 63 *)
Definition b9 : vlc :=
  [(1, 9); (11, 5); (9, 5); (13, 6); (13, 4); (23, 7); (19, 7); (31, 8); (12, 4); (22, 7); (18, 7); 
   (30, 8); (19, 5); (27, 8); (23, 8); (19, 8); (11, 4); (21, 7); (17, 7); (29, 8); (17, 5); (25, 8); 
   (21, 8); (17, 8); (15, 6); (15, 8); (13, 8); (3, 9); (15, 5); (11, 8); (7, 8); (7, 9); (10, 4); 
   (20, 7); (16, 7); (28, 8); (14, 6); (14, 8); (12, 8); (2, 9); (16, 5); (24, 8); (20, 8); (16, 8); 
   (14, 5); (10, 8); (6, 8); (6, 9); (18, 5); (26, 8); (22, 8); (18, 8); (13, 5); (9, 8); (5, 8); 
   (5, 9); (12, 5); (8, 8); (4, 8); (4, 9); (7, 3); (10, 5); (8, 5); (12, 6)].

(** Table B-10: magnitude 0, 1, ... 16 of motion_code; a sign bit follows unless it is 0 *)
Definition b10 : vlc :=
  [(1, 1); (1, 2); (1, 3); (1, 4); (3, 6); (5, 7); (4, 7); (3, 7); (11, 9); (10, 9); (9, 9); (17, 10); 
   (16, 10); (15, 10); (14, 10); (13, 10); (12, 10)].

(** Table B-12: dct_dc_size_luminance 0, 1, ... 11 *)
Definition b12 : vlc :=
  [(4, 3); (0, 2); (1, 2); (5, 3); (6, 3); (14, 4); (30, 5); (62, 6); (126, 7); (254, 8); (510, 9); 
   (511, 9)].

(** Table B-13: dct_dc_size_chrominance 0, 1, ... 11 *)
Definition b13 : vlc :=
  [(0, 2); (1, 2); (2, 2); (6, 3); (14, 4); (30, 5); (62, 6); (126, 7); (254, 8); (510, 9); 
   (1022, 10); (1023, 10)].

(** Table B-14: DCT coefficients table zero; for run 0, 1, ... 31 the codes of level 1, 2, ...
    (without the sign bit; run 0 level 1 as in the rest of a block) *)
Definition b14 : list vlc := [
  [(3, 2); (4, 4); (5, 5); (6, 7); (38, 8); (33, 8); (10, 10); (29, 12); (24, 12); (19, 12); (16, 12); 
   (26, 13); (25, 13); (24, 13); (23, 13); (31, 14); (30, 14); (29, 14); (28, 14); (27, 14); (26, 14); 
   (25, 14); (24, 14); (23, 14); (22, 14); (21, 14); (20, 14); (19, 14); (18, 14); (17, 14); (16, 14); 
   (24, 15); (23, 15); (22, 15); (21, 15); (20, 15); (19, 15); (18, 15); (17, 15); (16, 15)];
  [(3, 3); (6, 6); (37, 8); (12, 10); (27, 12); (22, 13); (21, 13); (31, 15); (30, 15); (29, 15); 
   (28, 15); (27, 15); (26, 15); (25, 15); (19, 16); (18, 16); (17, 16); (16, 16)];
  [(5, 4); (4, 7); (11, 10); (20, 12); (20, 13)];
  [(7, 5); (36, 8); (28, 12); (19, 13)];
  [(6, 5); (15, 10); (18, 12)];
  [(7, 6); (9, 10); (18, 13)];
  [(5, 6); (30, 12); (20, 16)];
  [(4, 6); (21, 12)];
  [(7, 7); (17, 12)];
  [(5, 7); (17, 13)];
  [(39, 8); (16, 13)];
  [(35, 8); (26, 16)];
  [(34, 8); (25, 16)];
  [(32, 8); (24, 16)];
  [(14, 10); (23, 16)];
  [(13, 10); (22, 16)];
  [(8, 10); (21, 16)];
  [(31, 12)];
  [(26, 12)];
  [(25, 12)];
  [(23, 12)];
  [(22, 12)];
  [(31, 13)];
  [(30, 13)];
  [(29, 13)];
  [(28, 13)];
  [(27, 13)];
  [(31, 16)];
  [(30, 16)];
  [(29, 16)];
  [(28, 16)];
  [(27, 16)]
].

(** Table B-15: DCT coefficients table one *)
Definition b15 : list vlc := [
  [(2, 2); (6, 3); (7, 4); (28, 5); (29, 5); (5, 6); (4, 6); (123, 7); (124, 7); (35, 8); (34, 8); 
   (250, 8); (251, 8); (254, 8); (255, 8); (31, 14); (30, 14); (29, 14); (28, 14); (27, 14); (26, 14); 
   (25, 14); (24, 14); (23, 14); (22, 14); (21, 14); (20, 14); (19, 14); (18, 14); (17, 14); (16, 14); 
   (24, 15); (23, 15); (22, 15); (21, 15); (20, 15); (19, 15); (18, 15); (17, 15); (16, 15)];
  [(2, 3); (6, 5); (121, 7); (39, 8); (32, 8); (22, 13); (21, 13); (31, 15); (30, 15); (29, 15); 
   (28, 15); (27, 15); (26, 15); (25, 15); (19, 16); (18, 16); (17, 16); (16, 16)];
  [(5, 5); (7, 7); (252, 8); (12, 10); (20, 13)];
  [(7, 5); (38, 8); (28, 12); (19, 13)];
  [(6, 6); (253, 8); (18, 12)];
  [(7, 6); (4, 9); (18, 13)];
  [(6, 7); (30, 12); (20, 16)];
  [(4, 7); (21, 12)];
  [(5, 7); (17, 12)];
  [(120, 7); (17, 13)];
  [(122, 7); (16, 13)];
  [(33, 8); (26, 16)];
  [(37, 8); (25, 16)];
  [(36, 8); (24, 16)];
  [(5, 9); (23, 16)];
  [(7, 9); (22, 16)];
  [(13, 10); (21, 16)];
  [(31, 12)];
  [(26, 12)];
  [(25, 12)];
  [(23, 12)];
  [(22, 12)];
  [(31, 13)];
  [(30, 13)];
  [(29, 13)];
  [(28, 13)];
  [(27, 13)];
  [(31, 16)];
  [(30, 16)];
  [(29, 16)];
  [(28, 16)];
  [(27, 16)]
].

(** End of block, and the escape prefix. *)
Definition b14_eob : list bool := enc 2 2.
Definition b15_eob : list bool := enc 4 6.
Definition dct_escape_prefix : list bool := enc 6 1.

(** macroblock_type, tables B-2, B-3, B-4: code, then macroblock_quant, motion_forward,
    motion_backward, pattern, intra. *)
Definition mbt_row : Type := ((Z * Z) * (bool * bool * bool * bool * bool))%type.
Definition b2 : list mbt_row := [
  ((1, 1), (false, false, false, false, true));      (* Intra *)
  ((1, 2), (true, false, false, false, true))        (* Intra, Quant *)
].
Definition b3 : list mbt_row := [
  ((1, 1), (false, true, false, true, false));       (* MC, Coded *)
  ((1, 2), (false, false, false, true, false));      (* No MC, Coded *)
  ((1, 3), (false, true, false, false, false));      (* MC, Not Coded *)
  ((3, 5), (false, false, false, false, true));      (* Intra *)
  ((2, 5), (true, true, false, true, false));        (* MC, Coded, Quant *)
  ((1, 5), (true, false, false, true, false));       (* No MC, Coded, Quant *)
  ((1, 6), (true, false, false, false, true))        (* Intra, Quant *)
].
Definition b4 : list mbt_row := [
  ((2, 2), (false, true, true, false, false));       (* Interp, Not Coded *)
  ((3, 2), (false, true, true, true, false));        (* Interp, Coded *)
  ((2, 3), (false, false, true, false, false));      (* Bwd, Not Coded *)
  ((3, 3), (false, false, true, true, false));       (* Bwd, Coded *)
  ((2, 4), (false, true, false, false, false));      (* Fwd, Not Coded *)
  ((3, 4), (false, true, false, true, false));       (* Fwd, Coded *)
  ((3, 5), (false, false, false, false, true));      (* Intra *)
  ((2, 5), (true, true, true, true, false));         (* Interp, Coded, Quant *)
  ((3, 6), (true, true, false, true, false));        (* Fwd, Coded, Quant *)
  ((2, 6), (true, false, true, true, false));        (* Bwd, Coded, Quant *)
  ((1, 6), (true, false, false, false, true))        (* Intra, Quant *)
].

(** What it means for a decoder to decode exactly the code [T]: whenever a code word comes next
    in the stream it returns its value and consumes that word and nothing else; and when no code
    word comes next it reports an error. *)
Definition decodes_exactly {A} (m : M reader A) (T : list bool -> A -> Prop) : Prop :=
  (forall c a r l, T c a -> m (setb r (c ++ l)) = (Ok a, setb r l)) /\
  (forall r, (forall c a l, T c a -> rbits r <> c ++ l) -> exists e r', m r = (Err e, r')).

(** The codes as relations between bits and values. *)
Definition mba_code (c : list bool) (inc : Z) : Prop := 1 <= inc /\ has b1 (Z.to_nat (inc - 1)) c.
Definition cbp_code (c : list bool) (cbp : Z) : Prop := 0 <= cbp /\ has b9 (Z.to_nat cbp) c.
Definition dc_size_luma_code (c : list bool) (n : Z) : Prop := 0 <= n /\ has b12 (Z.to_nat n) c.
Definition dc_size_chroma_code (c : list bool) (n : Z) : Prop := 0 <= n /\ has b13 (Z.to_nat n) c.

Definition motion_code_code (c : list bool) (m : Z) : Prop :=
  (m = 0 /\ has b10 0 c) \/
  (m <> 0 /\ exists d, has b10 (Z.to_nat (Z.abs m)) d /\ c = d ++ [m <? 0]).

Definition mbt_code (t : list mbt_row) (c : list bool) (ty : bool * bool * bool * bool * bool) : Prop :=
  exists v n, In ((v, n), ty) t /\ c = enc (Z.to_nat n) v.

(** A DCT symbol: a run of zeros and a level, or end of block. *)
Inductive dct_symbol : Type := RunLevel (run level : Z) | EndOfBlock.

(** The variable length code of a run and the magnitude of a level.  In table zero the first
    coefficient of a block (which cannot be an end of block) has the shorter code 1 for run 0,
    level 1. *)
Definition dct_vlc (one first : bool) (c : list bool) (run mag : Z) : Prop :=
  0 <= run /\ 1 <= mag /\
  if negb one && first && (run =? 0) && (mag =? 1) then c = [true]
  else exists t, nth_error (if one then b15 else b14) (Z.to_nat run) = Some t /\
                 has t (Z.to_nat (mag - 1)) c.

(** The three forms of a symbol (7.2.2): end of block, a code followed by the sign, or the
    escape followed by 6 bits of run and 12 bits of level in two's complement. *)
Inductive dct_code (one first : bool) : list bool -> dct_symbol -> Prop :=
| code_eob : first = false ->
    dct_code one first (if one then b15_eob else b14_eob) EndOfBlock
| code_vlc : forall c run level, dct_vlc one first c run (Z.abs level) ->
    dct_code one first (c ++ [level <? 0]) (RunLevel run level)
| code_escape : forall run level, 0 <= run < 64 -> -2048 <= level < 2048 ->
    dct_code one first (dct_escape_prefix ++ enc 6 run ++ enc 12 (level mod 4096)) (RunLevel run level).
