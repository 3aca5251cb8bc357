(** SpecRemux: transport streams that carry the same packets of one stream among others.  Packets are those of SpecTs. *)
From Verif Require Import Base SpecTs.

(** The packets of PID [b] in the second stream are those of PID [a] in the first: they begin payload units alike and have
    the same payload.  Continuity counters, priority, scrambling control, error indicator and adaptation fields may
    differ, and packets of other PIDs may come and go anywhere, as when a stream is multiplexed anew. *)
Inductive remuxed (a b : Z) : list spacket -> list spacket -> Prop :=
| remuxed_nil : remuxed a b [] []
| remuxed_out : forall p ps qs, sp_pid p <> a -> remuxed a b ps qs -> remuxed a b (p :: ps) qs
| remuxed_in : forall q ps qs, sp_pid q <> b -> remuxed a b ps qs -> remuxed a b ps (q :: qs)
| remuxed_packet : forall p q ps qs, sp_pid p = a -> sp_pid q = b -> sp_pusi q = sp_pusi p -> sp_payload q = sp_payload p ->
    remuxed a b ps qs -> remuxed a b (p :: ps) (q :: qs).

(** Packets of PID [a] that all have payload *)
Definition with_payload (a : Z) (ps : list spacket) : Prop := Forall wf_sp ps /\ Forall (fun s => sp_pid s = a -> has_payload s = true) ps.
