(** SpecIdct: the inverse DCT of ISO/IEC 13818-2 Annex A, on real numbers. *)
From Coq Require Import Reals List ZArith.
Open Scope R_scope.

(** The sum of f 0, ..., f (n-1) *)
Fixpoint rsum (n : nat) (f : nat -> R) : R := match n with O => 0 | S n => rsum n f + f n end.
Definition scale (u : nat) : R := match u with O => / sqrt 2 | _ => 1 end.
Definition basis (x u : nat) : R := cos ((2 * INR x + 1) * INR u * PI / 16).
(** The coefficient of horizontal frequency u and vertical frequency v *)
Definition coefficient (b : list Z) (u v : nat) : R := IZR (nth (8 * v + u) b 0%Z).
(** The exact sample at column x of row y *)
Definition iso_idct (b : list Z) (x y : nat) : R :=
  / 4 * rsum 8 (fun u => rsum 8 (fun v => scale u * scale v * coefficient b u v * basis x u * basis y v)).
