(** PropertiesCodes: C47 - motion vectors with the f_codes of the coded picture coding extension. *)
From Coq Require Import Lia.
From Verif Require Import Base BitReader VidModel SpecVid VidProofs BlockModel MbModel SpecMotion MbProofs PropertiesMotion.

(** ISO/IEC 13818-2 6.3.10: f_code[s][t], s = 0 for forward and 1 for backward vectors, t = 0 horizontal and 1 vertical, in
    the order in which the extension carries them *)
Definition vector_codes (x : spce) (s : nat) : Z * Z := match s with O => (e_f00 x, e_f01 x) | _ => (e_f10 x, e_f11 x) end.
Definition codes_given (x : spce) : Prop := 1 <= e_f00 x /\ 1 <= e_f01 x /\ 1 <= e_f10 x /\ 1 <= e_f11 x.
(** The predictions of the vectors fit (they always do: C47_range). *)
Definition predictions_fit (x : spce) (m : mvdata) : Prop :=
  forall r s, (r < 2)%nat -> (s < 2)%nat ->
    - 32 * mv_f (fst (vector_codes x s)) <= pmv m r s 0 < 32 * mv_f (fst (vector_codes x s)) /\
    - 32 * mv_f (snd (vector_codes x s)) <= pmv m r s 1 < 32 * mv_f (snd (vector_codes x s)).
Theorem C47_coded_vectors : forall x e mb s vs m rd rest p c,
  pce_holds x e -> e_fpfd x = true \/ mo_frame_motion mb = 2 -> codes_given x -> mv_wf (ms_mvd m) -> predictions_fit x (ms_mvd m) -> (s < 2)%nat ->
  p = (pmv (ms_mvd m) 0 s 0, pmv (ms_mvd m) 0 s 1) ->
  pairs_code (fst (vector_codes x s)) (snd (vector_codes x s)) p vs c ->
  exists m', decode_vectors (length vs) e mb s (m, setb rd (c ++ rest)) = (Ok vs, (m', setb rd rest)).
Proof.
  intros x e mb s vs m rd rest p c H FF CG W PF Hs EP C. destruct H as (F00 & F01 & F10 & F11 & _ & _ & _ & FP & _).
  assert (C0 : forall s, (s < 2)%nat -> f_code e s 0 = fst (vector_codes x s)) by (intros [|[|s0] ] L; [exact F00 | exact F10 | lia]).
  assert (C1 : forall s, (s < 2)%nat -> f_code e s 1 = snd (vector_codes x s)) by (intros [|[|s0] ] L; [exact F01 | exact F11 | lia]).
  eapply C47_vectors; eauto.
  - destruct FF as [FF | FF]; [left; rewrite FP, FF; reflexivity | right; exact FF].
  - intros s0 t0 L0 L1. destruct CG as (G1 & G2 & G3 & G4). destruct t0 as [|[|t0] ]; [rewrite C0 by exact L0 | rewrite C1 by exact L0 | lia]; destruct s0; assumption.
  - intros r s0 t0 L L0 L1. destruct (PF r s0 L L0) as (P0 & P1). destruct t0 as [|[|t0] ]; [now rewrite C0 | now rewrite C1 | lia].
  - rewrite C0, C1 by exact Hs. exact C.
Qed.
Definition cx_pce : spce := mkSpce 3 2 4 1 0 3 true true false false false false false true true None.
Example C47_coded_hyp : pce_holds cx_pce (pce_of cx_pce) /\ codes_given cx_pce /\ mv_wf (ms_mvd ex_ms) /\ predictions_fit cx_pce (ms_mvd ex_ms) /\
  exists c, pairs_code (fst (vector_codes cx_pce 0)) (snd (vector_codes cx_pce 0)) (0, 0) [(-64, 31); (63, -32); (5, 0)] c /\ (20 <= length c)%nat.
Proof.
  split; [apply pce_of_holds|]. split; [repeat split; cbn; lia|]. split; [split; reflexivity|]. split; [|exact (proj2 (proj2 (proj2 C47_hyp)))].
  intros r s Lr Ls. destruct r as [|[|r] ]; [| |lia]; destruct s as [|[|s] ]; try lia; vm_compute; repeat split; discriminate.
Qed.
Print Assumptions C47_coded_vectors.
