(** VlcTables: the variable length code tables of package video.

    The entries are the literals of /repo/video in their order, code strings included
    (generated by a script from the source; a Go map has no order, so the order is immaterial). *)
From Coq Require Import String.
From Verif Require Import Base BitReader Huffman.
Open Scope string_scope.

(** dtc_coefficients.go:6-12: dctCoefficient, dctEndOfBlock, dctEscape *)
Inductive dctval : Type :=
| DctCoef (run level : Z)
| DctEndOfBlock
| DctEscape.

(** macroblock_type.go:32-40: MacroblockType.  The fields spatial_temporal_weight_code_flag and
    spatial_temporal_weight_classes are false and class 0 in every entry and left out. *)
Record mbtype : Type := mkMBT {
  mb_quant : bool;
  mb_motion_forward : bool;
  mb_motion_backward : bool;
  mb_pattern : bool;
  mb_intra : bool
}.

(** macroblock_addressing.go:10-44 *)
Definition mba_table : htable Z := [
  ("1", 1);
  ("011", 2);
  ("010", 3);
  ("0011", 4);
  ("0010", 5);
  ("0001 1", 6);
  ("0001 0", 7);
  ("0000 111", 8);
  ("0000 110", 9);
  ("0000 1011", 10);
  ("0000 1010", 11);
  ("0000 1001", 12);
  ("0000 1000", 13);
  ("0000 0111", 14);
  ("0000 0110", 15);
  ("0000 0101 11", 16);
  ("0000 0101 10", 17);
  ("0000 0101 01", 18);
  ("0000 0101 00", 19);
  ("0000 0100 11", 20);
  ("0000 0100 10", 21);
  ("0000 0100 011", 22);
  ("0000 0100 010", 23);
  ("0000 0100 001", 24);
  ("0000 0100 000", 25);
  ("0000 0011 111", 26);
  ("0000 0011 110", 27);
  ("0000 0011 101", 28);
  ("0000 0011 100", 29);
  ("0000 0011 011", 30);
  ("0000 0011 010", 31);
  ("0000 0011 001", 32);
  ("0000 0011 000", 33)
].

(** macroblock_type.go:42-45 *)
Definition mbtype_table_I : htable mbtype := [
  ("1", mkMBT false false false false true);
  ("01", mkMBT true false false false true)
].

(** macroblock_type.go:47-55 *)
Definition mbtype_table_P : htable mbtype := [
  ("1", mkMBT false true false true false);
  ("01", mkMBT false false false true false);
  ("001", mkMBT false true false false false);
  ("0001 1", mkMBT false false false false true);
  ("0001 0", mkMBT true true false true false);
  ("0000 1", mkMBT true false false true false);
  ("0000 01", mkMBT true false false false true)
].

(** macroblock_type.go:57-69 *)
Definition mbtype_table_B : htable mbtype := [
  ("10", mkMBT false true true false false);
  ("11", mkMBT false true true true false);
  ("010", mkMBT false false true false false);
  ("011", mkMBT false false true true false);
  ("0010", mkMBT false true false false false);
  ("0011", mkMBT false true false true false);
  ("0001 1", mkMBT false false false false true);
  ("0001 0", mkMBT true true true true false);
  ("0000 11", mkMBT true true false true false);
  ("0000 10", mkMBT true false true true false);
  ("0000 01", mkMBT true false false false true)
].

(** coding_block_pattern.go:46-111 *)
Definition cbp_table : htable Z := [
  ("111", 60);
  ("1101", 4);
  ("1100", 8);
  ("1011", 16);
  ("1010", 32);
  ("1001 1", 12);
  ("1001 0", 48);
  ("1000 1", 20);
  ("1000 0", 40);
  ("0111 1", 28);
  ("0111 0", 44);
  ("0110 1", 52);
  ("0110 0", 56);
  ("0101 1", 1);
  ("0101 0", 61);
  ("0100 1", 2);
  ("0100 0", 62);
  ("0011 11", 24);
  ("0011 10", 36);
  ("0011 01", 3);
  ("0011 00", 63);
  ("0010 111", 5);
  ("0010 110", 9);
  ("0010 101", 17);
  ("0010 100", 33);
  ("0010 011", 6);
  ("0010 010", 10);
  ("0010 001", 18);
  ("0010 000", 34);
  ("0001 1111", 7);
  ("0001 1110", 11);
  ("0001 1101", 19);
  ("0001 1100", 35);
  ("0001 1011", 13);
  ("0001 1010", 49);
  ("0001 1001", 21);
  ("0001 1000", 41);
  ("0001 0111", 14);
  ("0001 0110", 50);
  ("0001 0101", 22);
  ("0001 0100", 42);
  ("0001 0011", 15);
  ("0001 0010", 51);
  ("0001 0001", 23);
  ("0001 0000", 43);
  ("0000 1111", 25);
  ("0000 1110", 37);
  ("0000 1101", 26);
  ("0000 1100", 38);
  ("0000 1011", 29);
  ("0000 1010", 45);
  ("0000 1001", 53);
  ("0000 1000", 57);
  ("0000 0111", 30);
  ("0000 0110", 46);
  ("0000 0101", 54);
  ("0000 0100", 58);
  ("0000 0011 1", 31);
  ("0000 0011 0", 47);
  ("0000 0010 1", 55);
  ("0000 0010 0", 59);
  ("0000 0001 1", 27);
  ("0000 0001 0", 39);
  ("0000 0000 1", 0)
].

(** motion_vectors.go:204-238 *)
Definition motion_code_table : htable Z := [
  ("0000 0011 001 ", (-16));
  ("0000 0011 011 ", (-15));
  ("0000 0011 101 ", (-14));
  ("0000 0011 111 ", (-13));
  ("0000 0100 001 ", (-12));
  ("0000 0100 011 ", (-11));
  ("0000 0100 11 ", (-10));
  ("0000 0101 01 ", (-9));
  ("0000 0101 11 ", (-8));
  ("0000 0111 ", (-7));
  ("0000 1001 ", (-6));
  ("0000 1011 ", (-5));
  ("0000 111 ", (-4));
  ("0001 1 ", (-3));
  ("0011 ", (-2));
  ("011 ", (-1));
  ("1", 0);
  ("010", 1);
  ("0010", 2);
  ("0001 0", 3);
  ("0000 110", 4);
  ("0000 1010", 5);
  ("0000 1000", 6);
  ("0000 0110", 7);
  ("0000 0101 10", 8);
  ("0000 0101 00", 9);
  ("0000 0100 10", 10);
  ("0000 0100 010", 11);
  ("0000 0100 000", 12);
  ("0000 0011 110", 13);
  ("0000 0011 100", 14);
  ("0000 0011 010", 15);
  ("0000 0011 000", 16)
].

(** dtc_coefficients.go:69-184 *)
Definition dct_table_0_first : htable dctval := [
  ("1", DctCoef 0 1);
  ("011", DctCoef 1 1);
  ("0100", DctCoef 0 2);
  ("0101", DctCoef 2 1);
  ("0010 1", DctCoef 0 3);
  ("0011 1", DctCoef 3 1);
  ("0011 0", DctCoef 4 1);
  ("0001 10", DctCoef 1 2);
  ("0001 11", DctCoef 5 1);
  ("0001 01", DctCoef 6 1);
  ("0001 00", DctCoef 7 1);
  ("0000 110", DctCoef 0 4);
  ("0000 100", DctCoef 2 2);
  ("0000 111", DctCoef 8 1);
  ("0000 101", DctCoef 9 1);
  ("0000 01", DctEscape);
  ("0010 0110", DctCoef 0 5);
  ("0010 0001", DctCoef 0 6);
  ("0010 0101", DctCoef 1 3);
  ("0010 0100", DctCoef 3 2);
  ("0010 0111", DctCoef 10 1);
  ("0010 0011", DctCoef 11 1);
  ("0010 0010", DctCoef 12 1);
  ("0010 0000", DctCoef 13 1);
  ("0000 0010 10", DctCoef 0 7);
  ("0000 0011 00", DctCoef 1 4);
  ("0000 0010 11", DctCoef 2 3);
  ("0000 0011 11", DctCoef 4 2);
  ("0000 0010 01", DctCoef 5 2);
  ("0000 0011 10", DctCoef 14 1);
  ("0000 0011 01", DctCoef 15 1);
  ("0000 0010 00", DctCoef 16 1);
  ("0000 0001 1101", DctCoef 0 8);
  ("0000 0001 1000", DctCoef 0 9);
  ("0000 0001 0011", DctCoef 0 10);
  ("0000 0001 0000", DctCoef 0 11);
  ("0000 0001 1011", DctCoef 1 5);
  ("0000 0001 0100", DctCoef 2 4);
  ("0000 0001 1100", DctCoef 3 3);
  ("0000 0001 0010", DctCoef 4 3);
  ("0000 0001 1110", DctCoef 6 2);
  ("0000 0001 0101", DctCoef 7 2);
  ("0000 0001 0001", DctCoef 8 2);
  ("0000 0001 1111", DctCoef 17 1);
  ("0000 0001 1010", DctCoef 18 1);
  ("0000 0001 1001", DctCoef 19 1);
  ("0000 0001 0111", DctCoef 20 1);
  ("0000 0001 0110", DctCoef 21 1);
  ("0000 0000 1101 0", DctCoef 0 12);
  ("0000 0000 1100 1", DctCoef 0 13);
  ("0000 0000 1100 0", DctCoef 0 14);
  ("0000 0000 1011 1", DctCoef 0 15);
  ("0000 0000 1011 0", DctCoef 1 6);
  ("0000 0000 1010 1", DctCoef 1 7);
  ("0000 0000 1010 0", DctCoef 2 5);
  ("0000 0000 1001 1", DctCoef 3 4);
  ("0000 0000 1001 0", DctCoef 5 3);
  ("0000 0000 1000 1", DctCoef 9 2);
  ("0000 0000 1000 0", DctCoef 10 2);
  ("0000 0000 1111 1", DctCoef 22 1);
  ("0000 0000 1111 0", DctCoef 23 1);
  ("0000 0000 1110 1", DctCoef 24 1);
  ("0000 0000 1110 0", DctCoef 25 1);
  ("0000 0000 1101 1", DctCoef 26 1);
  ("0000 0000 0111 11", DctCoef 0 16);
  ("0000 0000 0111 10", DctCoef 0 17);
  ("0000 0000 0111 01", DctCoef 0 18);
  ("0000 0000 0111 00", DctCoef 0 19);
  ("0000 0000 0110 11", DctCoef 0 20);
  ("0000 0000 0110 10", DctCoef 0 21);
  ("0000 0000 0110 01", DctCoef 0 22);
  ("0000 0000 0110 00", DctCoef 0 23);
  ("0000 0000 0101 11", DctCoef 0 24);
  ("0000 0000 0101 10", DctCoef 0 25);
  ("0000 0000 0101 01", DctCoef 0 26);
  ("0000 0000 0101 00", DctCoef 0 27);
  ("0000 0000 0100 11", DctCoef 0 28);
  ("0000 0000 0100 10", DctCoef 0 29);
  ("0000 0000 0100 01", DctCoef 0 30);
  ("0000 0000 0100 00", DctCoef 0 31);
  ("0000 0000 0011 000", DctCoef 0 32);
  ("0000 0000 0010 111", DctCoef 0 33);
  ("0000 0000 0010 110", DctCoef 0 34);
  ("0000 0000 0010 101", DctCoef 0 35);
  ("0000 0000 0010 100", DctCoef 0 36);
  ("0000 0000 0010 011", DctCoef 0 37);
  ("0000 0000 0010 010", DctCoef 0 38);
  ("0000 0000 0010 001", DctCoef 0 39);
  ("0000 0000 0010 000", DctCoef 0 40);
  ("0000 0000 0011 111", DctCoef 1 8);
  ("0000 0000 0011 110", DctCoef 1 9);
  ("0000 0000 0011 101", DctCoef 1 10);
  ("0000 0000 0011 100", DctCoef 1 11);
  ("0000 0000 0011 011", DctCoef 1 12);
  ("0000 0000 0011 010", DctCoef 1 13);
  ("0000 0000 0011 001", DctCoef 1 14);
  ("0000 0000 0001 0011", DctCoef 1 15);
  ("0000 0000 0001 0010", DctCoef 1 16);
  ("0000 0000 0001 0001", DctCoef 1 17);
  ("0000 0000 0001 0000", DctCoef 1 18);
  ("0000 0000 0001 0100", DctCoef 6 3);
  ("0000 0000 0001 1010", DctCoef 11 2);
  ("0000 0000 0001 1001", DctCoef 12 2);
  ("0000 0000 0001 1000", DctCoef 13 2);
  ("0000 0000 0001 0111", DctCoef 14 2);
  ("0000 0000 0001 0110", DctCoef 15 2);
  ("0000 0000 0001 0101", DctCoef 16 2);
  ("0000 0000 0001 1111", DctCoef 27 1);
  ("0000 0000 0001 1110", DctCoef 28 1);
  ("0000 0000 0001 1101", DctCoef 29 1);
  ("0000 0000 0001 1100", DctCoef 30 1);
  ("0000 0000 0001 1011", DctCoef 31 1)
].

(** dtc_coefficients.go:185-302 *)
Definition dct_table_0_rest : htable dctval := [
  ("10", DctEndOfBlock);
  ("11", DctCoef 0 1);
  ("011", DctCoef 1 1);
  ("0100", DctCoef 0 2);
  ("0101", DctCoef 2 1);
  ("0010 1", DctCoef 0 3);
  ("0011 1", DctCoef 3 1);
  ("0011 0", DctCoef 4 1);
  ("0001 10", DctCoef 1 2);
  ("0001 11", DctCoef 5 1);
  ("0001 01", DctCoef 6 1);
  ("0001 00", DctCoef 7 1);
  ("0000 110", DctCoef 0 4);
  ("0000 100", DctCoef 2 2);
  ("0000 111", DctCoef 8 1);
  ("0000 101", DctCoef 9 1);
  ("0000 01", DctEscape);
  ("0010 0110", DctCoef 0 5);
  ("0010 0001", DctCoef 0 6);
  ("0010 0101", DctCoef 1 3);
  ("0010 0100", DctCoef 3 2);
  ("0010 0111", DctCoef 10 1);
  ("0010 0011", DctCoef 11 1);
  ("0010 0010", DctCoef 12 1);
  ("0010 0000", DctCoef 13 1);
  ("0000 0010 10", DctCoef 0 7);
  ("0000 0011 00", DctCoef 1 4);
  ("0000 0010 11", DctCoef 2 3);
  ("0000 0011 11", DctCoef 4 2);
  ("0000 0010 01", DctCoef 5 2);
  ("0000 0011 10", DctCoef 14 1);
  ("0000 0011 01", DctCoef 15 1);
  ("0000 0010 00", DctCoef 16 1);
  ("0000 0001 1101", DctCoef 0 8);
  ("0000 0001 1000", DctCoef 0 9);
  ("0000 0001 0011", DctCoef 0 10);
  ("0000 0001 0000", DctCoef 0 11);
  ("0000 0001 1011", DctCoef 1 5);
  ("0000 0001 0100", DctCoef 2 4);
  ("0000 0001 1100", DctCoef 3 3);
  ("0000 0001 0010", DctCoef 4 3);
  ("0000 0001 1110", DctCoef 6 2);
  ("0000 0001 0101", DctCoef 7 2);
  ("0000 0001 0001", DctCoef 8 2);
  ("0000 0001 1111", DctCoef 17 1);
  ("0000 0001 1010", DctCoef 18 1);
  ("0000 0001 1001", DctCoef 19 1);
  ("0000 0001 0111", DctCoef 20 1);
  ("0000 0001 0110", DctCoef 21 1);
  ("0000 0000 1101 0", DctCoef 0 12);
  ("0000 0000 1100 1", DctCoef 0 13);
  ("0000 0000 1100 0", DctCoef 0 14);
  ("0000 0000 1011 1", DctCoef 0 15);
  ("0000 0000 1011 0", DctCoef 1 6);
  ("0000 0000 1010 1", DctCoef 1 7);
  ("0000 0000 1010 0", DctCoef 2 5);
  ("0000 0000 1001 1", DctCoef 3 4);
  ("0000 0000 1001 0", DctCoef 5 3);
  ("0000 0000 1000 1", DctCoef 9 2);
  ("0000 0000 1000 0", DctCoef 10 2);
  ("0000 0000 1111 1", DctCoef 22 1);
  ("0000 0000 1111 0", DctCoef 23 1);
  ("0000 0000 1110 1", DctCoef 24 1);
  ("0000 0000 1110 0", DctCoef 25 1);
  ("0000 0000 1101 1", DctCoef 26 1);
  ("0000 0000 0111 11", DctCoef 0 16);
  ("0000 0000 0111 10", DctCoef 0 17);
  ("0000 0000 0111 01", DctCoef 0 18);
  ("0000 0000 0111 00", DctCoef 0 19);
  ("0000 0000 0110 11", DctCoef 0 20);
  ("0000 0000 0110 10", DctCoef 0 21);
  ("0000 0000 0110 01", DctCoef 0 22);
  ("0000 0000 0110 00", DctCoef 0 23);
  ("0000 0000 0101 11", DctCoef 0 24);
  ("0000 0000 0101 10", DctCoef 0 25);
  ("0000 0000 0101 01", DctCoef 0 26);
  ("0000 0000 0101 00", DctCoef 0 27);
  ("0000 0000 0100 11", DctCoef 0 28);
  ("0000 0000 0100 10", DctCoef 0 29);
  ("0000 0000 0100 01", DctCoef 0 30);
  ("0000 0000 0100 00", DctCoef 0 31);
  ("0000 0000 0011 000", DctCoef 0 32);
  ("0000 0000 0010 111", DctCoef 0 33);
  ("0000 0000 0010 110", DctCoef 0 34);
  ("0000 0000 0010 101", DctCoef 0 35);
  ("0000 0000 0010 100", DctCoef 0 36);
  ("0000 0000 0010 011", DctCoef 0 37);
  ("0000 0000 0010 010", DctCoef 0 38);
  ("0000 0000 0010 001", DctCoef 0 39);
  ("0000 0000 0010 000", DctCoef 0 40);
  ("0000 0000 0011 111", DctCoef 1 8);
  ("0000 0000 0011 110", DctCoef 1 9);
  ("0000 0000 0011 101", DctCoef 1 10);
  ("0000 0000 0011 100", DctCoef 1 11);
  ("0000 0000 0011 011", DctCoef 1 12);
  ("0000 0000 0011 010", DctCoef 1 13);
  ("0000 0000 0011 001", DctCoef 1 14);
  ("0000 0000 0001 0011", DctCoef 1 15);
  ("0000 0000 0001 0010", DctCoef 1 16);
  ("0000 0000 0001 0001", DctCoef 1 17);
  ("0000 0000 0001 0000", DctCoef 1 18);
  ("0000 0000 0001 0100", DctCoef 6 3);
  ("0000 0000 0001 1010", DctCoef 11 2);
  ("0000 0000 0001 1001", DctCoef 12 2);
  ("0000 0000 0001 1000", DctCoef 13 2);
  ("0000 0000 0001 0111", DctCoef 14 2);
  ("0000 0000 0001 0110", DctCoef 15 2);
  ("0000 0000 0001 0101", DctCoef 16 2);
  ("0000 0000 0001 1111", DctCoef 27 1);
  ("0000 0000 0001 1110", DctCoef 28 1);
  ("0000 0000 0001 1101", DctCoef 29 1);
  ("0000 0000 0001 1100", DctCoef 30 1);
  ("0000 0000 0001 1011", DctCoef 31 1)
].

(** dtc_coefficients.go:304-420 *)
Definition dct_table_1_first : htable dctval := [
  ("10", DctCoef 0 1);
  ("010", DctCoef 1 1);
  ("110", DctCoef 0 2);
  ("0010 1", DctCoef 2 1);
  ("0111", DctCoef 0 3);
  ("0011 1", DctCoef 3 1);
  ("0001 10", DctCoef 4 1);
  ("0011 0", DctCoef 1 2);
  ("0001 11", DctCoef 5 1);
  ("0000 110", DctCoef 6 1);
  ("0000 100", DctCoef 7 1);
  ("1110 0", DctCoef 0 4);
  ("0000 111", DctCoef 2 2);
  ("0000 101", DctCoef 8 1);
  ("1111 000", DctCoef 9 1);
  ("0000 01", DctEscape);
  ("1110 1", DctCoef 0 5);
  ("0001 01", DctCoef 0 6);
  ("1111 001", DctCoef 1 3);
  ("0010 0110", DctCoef 3 2);
  ("1111 010", DctCoef 10 1);
  ("0010 0001", DctCoef 11 1);
  ("0010 0101", DctCoef 12 1);
  ("0010 0100", DctCoef 13 1);
  ("0001 00", DctCoef 0 7);
  ("0010 0111", DctCoef 1 4);
  ("1111 1100", DctCoef 2 3);
  ("1111 1101", DctCoef 4 2);
  ("0000 0010 0", DctCoef 5 2);
  ("0000 0010 1", DctCoef 14 1);
  ("0000 0011 1", DctCoef 15 1);
  ("0000 0011 01", DctCoef 16 1);
  ("1111 011", DctCoef 0 8);
  ("1111 100", DctCoef 0 9);
  ("0010 0011", DctCoef 0 10);
  ("0010 0010", DctCoef 0 11);
  ("0010 0000", DctCoef 1 5);
  ("0000 0011 00", DctCoef 2 4);
  ("0000 0001 1100", DctCoef 3 3);
  ("0000 0001 0010", DctCoef 4 3);
  ("0000 0001 1110", DctCoef 6 2);
  ("0000 0001 0101", DctCoef 7 2);
  ("0000 0001 0001", DctCoef 8 2);
  ("0000 0001 1111", DctCoef 17 1);
  ("0000 0001 1010", DctCoef 18 1);
  ("0000 0001 1001", DctCoef 19 1);
  ("0000 0001 0111", DctCoef 20 1);
  ("0000 0001 0110", DctCoef 21 1);
  ("1111 1010", DctCoef 0 12);
  ("1111 1011", DctCoef 0 13);
  ("1111 1110", DctCoef 0 14);
  ("1111 1111", DctCoef 0 15);
  ("0000 0000 1011 0", DctCoef 1 6);
  ("0000 0000 1010 1", DctCoef 1 7);
  ("0000 0000 1010 0", DctCoef 2 5);
  ("0000 0000 1001 1", DctCoef 3 4);
  ("0000 0000 1001 0", DctCoef 5 3);
  ("0000 0000 1000 1", DctCoef 9 2);
  ("0000 0000 1000 0", DctCoef 10 2);
  ("0000 0000 1111 1", DctCoef 22 1);
  ("0000 0000 1111 0", DctCoef 23 1);
  ("0000 0000 1110 1", DctCoef 24 1);
  ("0000 0000 1110 0", DctCoef 25 1);
  ("0000 0000 1101 1", DctCoef 26 1);
  ("0000 0000 0111 11", DctCoef 0 16);
  ("0000 0000 0111 10", DctCoef 0 17);
  ("0000 0000 0111 01", DctCoef 0 18);
  ("0000 0000 0111 00", DctCoef 0 19);
  ("0000 0000 0110 11", DctCoef 0 20);
  ("0000 0000 0110 10", DctCoef 0 21);
  ("0000 0000 0110 01", DctCoef 0 22);
  ("0000 0000 0110 00", DctCoef 0 23);
  ("0000 0000 0101 11", DctCoef 0 24);
  ("0000 0000 0101 10", DctCoef 0 25);
  ("0000 0000 0101 01", DctCoef 0 26);
  ("0000 0000 0101 00", DctCoef 0 27);
  ("0000 0000 0100 11", DctCoef 0 28);
  ("0000 0000 0100 10", DctCoef 0 29);
  ("0000 0000 0100 01", DctCoef 0 30);
  ("0000 0000 0100 00", DctCoef 0 31);
  ("0000 0000 0011 000", DctCoef 0 32);
  ("0000 0000 0010 111", DctCoef 0 33);
  ("0000 0000 0010 110", DctCoef 0 34);
  ("0000 0000 0010 101", DctCoef 0 35);
  ("0000 0000 0010 100", DctCoef 0 36);
  ("0000 0000 0010 011", DctCoef 0 37);
  ("0000 0000 0010 010", DctCoef 0 38);
  ("0000 0000 0010 001", DctCoef 0 39);
  ("0000 0000 0010 000", DctCoef 0 40);
  ("0000 0000 0011 111", DctCoef 1 8);
  ("0000 0000 0011 110", DctCoef 1 9);
  ("0000 0000 0011 101", DctCoef 1 10);
  ("0000 0000 0011 100", DctCoef 1 11);
  ("0000 0000 0011 011", DctCoef 1 12);
  ("0000 0000 0011 010", DctCoef 1 13);
  ("0000 0000 0011 001", DctCoef 1 14);
  ("0000 0000 0001 0011", DctCoef 1 15);
  ("0000 0000 0001 0010", DctCoef 1 16);
  ("0000 0000 0001 0001", DctCoef 1 17);
  ("0000 0000 0001 0000", DctCoef 1 18);
  ("0000 0000 0001 0100", DctCoef 6 3);
  ("0000 0000 0001 1010", DctCoef 11 2);
  ("0000 0000 0001 1001", DctCoef 12 2);
  ("0000 0000 0001 1000", DctCoef 13 2);
  ("0000 0000 0001 0111", DctCoef 14 2);
  ("0000 0000 0001 0110", DctCoef 15 2);
  ("0000 0000 0001 0101", DctCoef 16 2);
  ("0000 0000 0001 1111", DctCoef 27 1);
  ("0000 0000 0001 1110", DctCoef 28 1);
  ("0000 0000 0001 1101", DctCoef 29 1);
  ("0000 0000 0001 1100", DctCoef 30 1);
  ("0000 0000 0001 1011", DctCoef 31 1)
].

(** dtc_coefficients.go:421-538 *)
Definition dct_table_1_rest : htable dctval := [
  ("0110", DctEndOfBlock);
  ("10", DctCoef 0 1);
  ("010", DctCoef 1 1);
  ("110", DctCoef 0 2);
  ("0010 1", DctCoef 2 1);
  ("0111", DctCoef 0 3);
  ("0011 1", DctCoef 3 1);
  ("0001 10", DctCoef 4 1);
  ("0011 0", DctCoef 1 2);
  ("0001 11", DctCoef 5 1);
  ("0000 110", DctCoef 6 1);
  ("0000 100", DctCoef 7 1);
  ("1110 0", DctCoef 0 4);
  ("0000 111", DctCoef 2 2);
  ("0000 101", DctCoef 8 1);
  ("1111 000", DctCoef 9 1);
  ("0000 01", DctEscape);
  ("1110 1", DctCoef 0 5);
  ("0001 01", DctCoef 0 6);
  ("1111 001", DctCoef 1 3);
  ("0010 0110", DctCoef 3 2);
  ("1111 010", DctCoef 10 1);
  ("0010 0001", DctCoef 11 1);
  ("0010 0101", DctCoef 12 1);
  ("0010 0100", DctCoef 13 1);
  ("0001 00", DctCoef 0 7);
  ("0010 0111", DctCoef 1 4);
  ("1111 1100", DctCoef 2 3);
  ("1111 1101", DctCoef 4 2);
  ("0000 0010 0", DctCoef 5 2);
  ("0000 0010 1", DctCoef 14 1);
  ("0000 0011 1", DctCoef 15 1);
  ("0000 0011 01", DctCoef 16 1);
  ("1111 011", DctCoef 0 8);
  ("1111 100", DctCoef 0 9);
  ("0010 0011", DctCoef 0 10);
  ("0010 0010", DctCoef 0 11);
  ("0010 0000", DctCoef 1 5);
  ("0000 0011 00", DctCoef 2 4);
  ("0000 0001 1100", DctCoef 3 3);
  ("0000 0001 0010", DctCoef 4 3);
  ("0000 0001 1110", DctCoef 6 2);
  ("0000 0001 0101", DctCoef 7 2);
  ("0000 0001 0001", DctCoef 8 2);
  ("0000 0001 1111", DctCoef 17 1);
  ("0000 0001 1010", DctCoef 18 1);
  ("0000 0001 1001", DctCoef 19 1);
  ("0000 0001 0111", DctCoef 20 1);
  ("0000 0001 0110", DctCoef 21 1);
  ("1111 1010", DctCoef 0 12);
  ("1111 1011", DctCoef 0 13);
  ("1111 1110", DctCoef 0 14);
  ("1111 1111", DctCoef 0 15);
  ("0000 0000 1011 0", DctCoef 1 6);
  ("0000 0000 1010 1", DctCoef 1 7);
  ("0000 0000 1010 0", DctCoef 2 5);
  ("0000 0000 1001 1", DctCoef 3 4);
  ("0000 0000 1001 0", DctCoef 5 3);
  ("0000 0000 1000 1", DctCoef 9 2);
  ("0000 0000 1000 0", DctCoef 10 2);
  ("0000 0000 1111 1", DctCoef 22 1);
  ("0000 0000 1111 0", DctCoef 23 1);
  ("0000 0000 1110 1", DctCoef 24 1);
  ("0000 0000 1110 0", DctCoef 25 1);
  ("0000 0000 1101 1", DctCoef 26 1);
  ("0000 0000 0111 11", DctCoef 0 16);
  ("0000 0000 0111 10", DctCoef 0 17);
  ("0000 0000 0111 01", DctCoef 0 18);
  ("0000 0000 0111 00", DctCoef 0 19);
  ("0000 0000 0110 11", DctCoef 0 20);
  ("0000 0000 0110 10", DctCoef 0 21);
  ("0000 0000 0110 01", DctCoef 0 22);
  ("0000 0000 0110 00", DctCoef 0 23);
  ("0000 0000 0101 11", DctCoef 0 24);
  ("0000 0000 0101 10", DctCoef 0 25);
  ("0000 0000 0101 01", DctCoef 0 26);
  ("0000 0000 0101 00", DctCoef 0 27);
  ("0000 0000 0100 11", DctCoef 0 28);
  ("0000 0000 0100 10", DctCoef 0 29);
  ("0000 0000 0100 01", DctCoef 0 30);
  ("0000 0000 0100 00", DctCoef 0 31);
  ("0000 0000 0011 000", DctCoef 0 32);
  ("0000 0000 0010 111", DctCoef 0 33);
  ("0000 0000 0010 110", DctCoef 0 34);
  ("0000 0000 0010 101", DctCoef 0 35);
  ("0000 0000 0010 100", DctCoef 0 36);
  ("0000 0000 0010 011", DctCoef 0 37);
  ("0000 0000 0010 010", DctCoef 0 38);
  ("0000 0000 0010 001", DctCoef 0 39);
  ("0000 0000 0010 000", DctCoef 0 40);
  ("0000 0000 0011 111", DctCoef 1 8);
  ("0000 0000 0011 110", DctCoef 1 9);
  ("0000 0000 0011 101", DctCoef 1 10);
  ("0000 0000 0011 100", DctCoef 1 11);
  ("0000 0000 0011 011", DctCoef 1 12);
  ("0000 0000 0011 010", DctCoef 1 13);
  ("0000 0000 0011 001", DctCoef 1 14);
  ("0000 0000 0001 0011", DctCoef 1 15);
  ("0000 0000 0001 0010", DctCoef 1 16);
  ("0000 0000 0001 0001", DctCoef 1 17);
  ("0000 0000 0001 0000", DctCoef 1 18);
  ("0000 0000 0001 0100", DctCoef 6 3);
  ("0000 0000 0001 1010", DctCoef 11 2);
  ("0000 0000 0001 1001", DctCoef 12 2);
  ("0000 0000 0001 1000", DctCoef 13 2);
  ("0000 0000 0001 0111", DctCoef 14 2);
  ("0000 0000 0001 0110", DctCoef 15 2);
  ("0000 0000 0001 0101", DctCoef 16 2);
  ("0000 0000 0001 1111", DctCoef 27 1);
  ("0000 0000 0001 1110", DctCoef 28 1);
  ("0000 0000 0001 1101", DctCoef 29 1);
  ("0000 0000 0001 1100", DctCoef 30 1);
  ("0000 0000 0001 1011", DctCoef 31 1)
].

(** dtc_coefficients.go:559-572 *)
Definition dc_size_luma_table : htable Z := [
  ("100", 0);
  ("00", 1);
  ("01", 2);
  ("101", 3);
  ("110", 4);
  ("1110", 5);
  ("1111 0", 6);
  ("1111 10", 7);
  ("1111 110", 8);
  ("1111 1110", 9);
  ("1111 1111 0", 10);
  ("1111 1111 1", 11)
].

(** dtc_coefficients.go:575-588 *)
Definition dc_size_chroma_table : htable Z := [
  ("00", 0);
  ("01", 1);
  ("10", 2);
  ("110", 3);
  ("1110", 4);
  ("1111 0", 5);
  ("1111 10", 6);
  ("1111 110", 7);
  ("1111 1110", 8);
  ("1111 1111 0", 9);
  ("1111 1111 10", 10);
  ("1111 1111 11", 11)
].
