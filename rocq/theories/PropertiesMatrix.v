(** PropertiesMatrix: C43 - which matrix weights the coefficients of a block. *)
From Coq Require Import Lia.
From Verif Require Import Base SpecVid VidModel VidProofs BlockModel MbModel SpecNext ExampleStream.

(** ISO/IEC 13818-2 7.4.2.1, table 7-5: luma blocks, and all blocks in 4:2:0, use the matrices for luma; chroma blocks in 4:2:2
    and 4:4:4 have matrices of their own. *)
Definition weights (c : context) (luma intra : bool) : list Z :=
  match luma || (x_chroma (c_ext c) =? 1), intra with
  | true, true => c_m0 c
  | true, false => c_m1 c
  | false, true => c_m2 c
  | false, false => c_m3 c
  end.
(** Blocks are weighted by the matrix in force for them (macroblock.go:160, decode_block.go:67-88). *)
Theorem C43_matrices : forall c v se cc intra, in_force c v -> v_se v = Some se ->
  qmat v (matrix_index cc (se_chroma se =? ChromaFormat420) intra) = weights c (Nat.eqb cc 0) intra.
Proof.
  intros c v se cc intra (_ & (h & H1 & H2) & Q0 & Q1 & Q2 & Q3) E. rewrite H1 in E. injection E as <-.
  destruct H2 as (_ & _ & HC & _). unfold weights, matrix_index. change ChromaFormat420 with 1. rewrite HC.
  destruct (Nat.eqb cc 0 || (x_chroma (c_ext c) =? 1)), intra; cbn [qmat]; congruence.
Qed.
(** A 4:2:2 sequence with four different matrices *)
Definition mx_ctx : context := mkCtx xs_seq (mkSsext 72 true 2 0 0 0 0 false 0 0) [1] [2] [3] [4].
Example C43_matrices_hyp : exists v se, in_force mx_ctx v /\ v_se v = Some se /\ weights mx_ctx false true = [3] /\ weights mx_ctx true true = [1].
Proof.
  exists (mkVS (Some (seq_of xs_seq)) (Some (sext_of (c_ext mx_ctx))) None None None [1] [2] [3] [4] (v_fs new_vidseq) 0). eexists.
  split; [|split; [reflexivity|split; reflexivity] ]. split; [|split; [|repeat split] ]; (eexists; split; [reflexivity|]); [apply seq_of_holds | apply sext_of_holds].
Qed.
Print Assumptions C43_matrices.
