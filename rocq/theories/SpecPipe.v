(** SpecPipe: what a bit reader made with bitreader.NewReader sees of the io.Reader under it. *)
From Verif Require Import Base BitReader SpecIO.

(** The answers of an io.Reader to reads of the given sizes *)
Definition answers : Type := list nat -> list (res (list Z * option err)).

(** A source of separate units, each ended by EOP; after the last comes [e]. *)
Definition unit_source (e : err) (sh : nat -> nat -> err) (us : list (list Z)) : reader :=
  match us with
  | [] => mkR [] e [] sh
  | u :: us => mkR (bb u) EOP (map (fun u => (bb u, EOP)) us ++ [([], e)]) sh
  end.

(** [over a r]: an io.Reader that answers [a] gives the bit reader [r]. If it behaves like a reader over some
    bytes (SpecIO) then [r] has the bits of those bytes, if it behaves like a reader over units then
    [r] has their bits one after the other, each followed by EOP. (A bit reader reads at least one byte at a time.) *)
Definition positive (sizes : list nat) : Prop := Forall (fun n => (0 < n)%nat) sizes.
Inductive over (a : answers) : reader -> Prop :=
| over_bytes : forall content e sh, (forall sizes, positive sizes -> a sizes = map Ok (ideal_reads e sizes content)) ->
    over a (mkR (bb content) e [] sh)
| over_units : forall us e sh, (forall sizes, positive sizes -> a sizes = map Ok (unit_reads e sizes None us)) ->
    over a (unit_source e sh us).
