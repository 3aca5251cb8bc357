(** Conc: the goroutines of packages ts and pes - the demuxer and the channel adapters - as transition
    systems.  One transition per operation on a channel; calls without channel operation are atomic with the
    step that follows.  Channels are unbuffered: a send and a receive happen together. *)
From Verif Require Import Base BitReader TsModel.

(** Reflexive transitive closure: the runs of a transition system (not code). *)
Inductive star {S : Type} (R : S -> S -> Prop) : S -> S -> Prop :=
| star_refl : forall s, star R s s
| star_step : forall s t u, star R s t -> R t u -> star R s u.

(** * ts/demuxer.go *)

(** Where the goroutine of Go (demuxer.go:62-97) is. *)
Inductive dpc : Type :=
| PNext            (* line 72: about to call p.Next *)
| PSend (i : nat)  (* lines 91-92: about to look at registered channel i *)
| PClose (i : nat) (* line 66: about to close registered channel i (deferred) *)
| PDone            (* line 68: about to send on done (deferred) *)
| PEnd.            (* ended *)

(** demuxer.go:25-31 Demuxer and the variables of Go (54-60), and the channels with those who wait on them *)
Record dstate : Type := mkD {
  d_pc : dpc;
  d_pkt : packet;                  (* *p, demuxer.go:60: one packet for the whole life of the demuxer *)
  d_br : reader;
  d_skipping : bool;               (* demuxer.go:57 *)
  d_err : option err;              (* lastErr *)
  d_panic : bool;                  (* the goroutine is panicking (deferred calls run, then it crashes) *)
  d_closed : nat;                  (* channels 0 .. d_closed-1 are closed *)
  d_wait : nat -> nat;             (* receivers waiting on channel i *)
  d_waitdone : nat;                (* receivers waiting on done *)
  d_log : list (nat * packet);     (* receives so far: channel, content of the packet at that moment *)
  d_eofs : list nat;               (* receives so far that found channel i closed *)
  d_dones : nat                    (* number of true received from done *)
}.

(** NewDemuxer, Go: demuxer.go:7-13, 54-60 *)
Definition d_init (r : reader) : dstate :=
  mkD PNext zero_packet r true None false 0 (fun _ => 0%nat) 0 [] [] 0.

(** Counting the receivers that wait on a channel (demuxer.go:36) *)
Definition bump (w : nat -> nat) (i : nat) : nat -> nat := fun j => if Nat.eqb i j then S (w j) else w j.
Definition drop1 (w : nat -> nat) (i : nat) : nat -> nat := fun j => if Nat.eqb i j then pred (w j) else w j.

(** The effects of the steps of demuxer.go:62-97 below: d_goto moves on, d_at sets packet, reader, skipping and error (72-88),
    d_recv hands over the packet (93), d_close closes a channel (66), d_finish sends on done (68); receivers: d_arrive, d_arrive_done, d_eof *)
Definition d_goto (s : dstate) (pc : dpc) : dstate :=
  mkD pc (d_pkt s) (d_br s) (d_skipping s) (d_err s) (d_panic s) (d_closed s) (d_wait s) (d_waitdone s)
    (d_log s) (d_eofs s) (d_dones s).
Definition d_at (s : dstate) (pc : dpc) (p : packet) (r : reader) (sk : bool) (e : option err) (pn : bool) : dstate :=
  mkD pc p r sk e pn (d_closed s) (d_wait s) (d_waitdone s) (d_log s) (d_eofs s) (d_dones s).
Definition d_recv (s : dstate) (pc : dpc) (i : nat) : dstate :=
  mkD pc (d_pkt s) (d_br s) (d_skipping s) (d_err s) (d_panic s) (d_closed s) (drop1 (d_wait s) i) (d_waitdone s)
    (d_log s ++ [(i, d_pkt s)]) (d_eofs s) (d_dones s).
Definition d_close (s : dstate) (i : nat) : dstate :=
  mkD (PClose (S i)) (d_pkt s) (d_br s) (d_skipping s) (d_err s) (d_panic s) (S i) (d_wait s) (d_waitdone s)
    (d_log s) (d_eofs s) (d_dones s).
Definition d_finish (s : dstate) : dstate :=
  mkD PEnd (d_pkt s) (d_br s) (d_skipping s) (d_err s) (d_panic s) (d_closed s) (d_wait s) (pred (d_waitdone s))
    (d_log s) (d_eofs s) (S (d_dones s)).
Definition d_arrive (s : dstate) (i : nat) : dstate :=
  mkD (d_pc s) (d_pkt s) (d_br s) (d_skipping s) (d_err s) (d_panic s) (d_closed s) (bump (d_wait s) i) (d_waitdone s)
    (d_log s) (d_eofs s) (d_dones s).
Definition d_arrive_done (s : dstate) : dstate :=
  mkD (d_pc s) (d_pkt s) (d_br s) (d_skipping s) (d_err s) (d_panic s) (d_closed s) (d_wait s) (S (d_waitdone s))
    (d_log s) (d_eofs s) (d_dones s).
Definition d_eof (s : dstate) (i : nat) : dstate :=
  mkD (d_pc s) (d_pkt s) (d_br s) (d_skipping s) (d_err s) (d_panic s) (d_closed s) (drop1 (d_wait s) i) (d_waitdone s)
    (d_log s) (d_eofs s ++ [i]) (d_dones s).

(** demuxer.go:72-89: one call of Next and the tests on the packet. *)
Definition d_next (skip take : tester) (s : dstate) : dstate :=
  match packet_next (d_pkt s, d_br s) with
  | (Ok _, (p, r)) =>
      if d_skipping s then
        if skip p then d_at s (PSend 0) p r false (d_err s) (d_panic s)
        else d_at s PNext p r true (d_err s) (d_panic s)
      else
        if take p then d_at s (PSend 0) p r false (d_err s) (d_panic s)
        else d_at s (PClose 0) p r false (d_err s) (d_panic s)
  | (Err e, (p, r)) => d_at s (PClose 0) p r (d_skipping s) (Some e) (d_panic s)
  | (Panic, (p, r)) => d_at s (PClose 0) p r (d_skipping s) (d_err s) true
  | (OutOfFuel, (p, r)) => s
  end.

(** demuxer.go:62-97: steps of the demuxer's goroutine. [ts] are the testers given to Where, in order; all calls of Where come
    before Go. A send takes place when a receiver waits. *)
Inductive down (ts : list tester) (skip take : tester) (s : dstate) : dstate -> Prop :=
| st_next : d_pc s = PNext -> down ts skip take s (d_next skip take s)
| st_skip : forall i t, d_pc s = PSend i -> nth_error ts i = Some t -> t (d_pkt s) = false ->
    down ts skip take s (d_goto s (PSend (S i)))                       (* line 92, tester false *)
| st_send : forall i t, d_pc s = PSend i -> nth_error ts i = Some t -> t (d_pkt s) = true ->
    (0 < d_wait s i)%nat -> down ts skip take s (d_recv s (PSend (S i)) i) (* line 93 *)
| st_loop : forall i, d_pc s = PSend i -> nth_error ts i = None -> down ts skip take s (d_goto s PNext)
| st_close : forall i t, d_pc s = PClose i -> nth_error ts i = Some t -> down ts skip take s (d_close s i)
| st_closed : forall i, d_pc s = PClose i -> nth_error ts i = None -> down ts skip take s (d_goto s PDone)
| st_done : d_pc s = PDone -> (0 < d_waitdone s)%nat -> down ts skip take s (d_finish s). (* line 68 *)

(** The receivers on the channels that Where (demuxer.go:35-39) and Go (54-56) return: steps of its environment. *)
Inductive denv (s : dstate) : dstate -> Prop :=
| st_arrive : forall i, denv s (d_arrive s i)                (* a receiver starts to wait on channel i *)
| st_arrive_done : denv s (d_arrive_done s)                  (* ... on done *)
| st_eof : forall i, (i < d_closed s)%nat -> (0 < d_wait s i)%nat -> denv s (d_eof s i). (* receive on a closed channel *)

(** demuxer.go:62-97 with its environment *)
Definition dstep (ts : list tester) (skip take : tester) (s s' : dstate) : Prop :=
  down ts skip take s s' \/ denv s s'.

(** A run with [k] steps of the goroutine of demuxer.go:62-97. *)
Inductive drun (ts : list tester) (skip take : tester) : nat -> dstate -> dstate -> Prop :=
| run_refl : forall s, drun ts skip take 0 s s
| run_own : forall k s t u, drun ts skip take k s t -> down ts skip take t u -> drun ts skip take (S k) s u
| run_env : forall k s t u, drun ts skip take k s t -> denv t u -> drun ts skip take k s u.

(** * ts/packet_channel.go, pes/packet_channel.go *)

(** ts/packet_channel.go:12-17, 25-41, pes/packet_channel.go:9-14: an adapter's goroutine. [A] is what goes in (packets), [B] what comes out. *)
Inductive apc (B : Type) : Type :=
| ARecv          (* range input: about to receive *)
| ASend (b : B)  (* about to send b *)
| AClose         (* input closed: deferred close(output) *)
| AEnd.
Arguments ARecv {B}. Arguments ASend {B}. Arguments AClose {B}. Arguments AEnd {B}.

(** ts/packet_channel.go:22-24. [T]: the adapter's own variables. *)
Record astate (T A B : Type) : Type := mkA {
  a_pc : apc B;
  a_own : T;
  a_todo : list A;       (* what the sender has still to send before it closes its channel *)
  a_closed : bool;       (* output closed *)
  a_wait : nat;          (* receivers waiting on the output *)
  a_log : list B;        (* values received from the output *)
  a_eofs : nat           (* receives that found the output closed *)
}.
Arguments mkA {T A B}. Arguments a_pc {T A B}. Arguments a_own {T A B}. Arguments a_todo {T A B}.
Arguments a_closed {T A B}. Arguments a_wait {T A B}. Arguments a_log {T A B}. Arguments a_eofs {T A B}.

(** ts/packet_channel.go:14-16, 27-40, pes/packet_channel.go:11-13. [f own x]: what the loop body does with [x]: new variables and the value to send, if any. *)
Inductive astep {T A B} (f : T -> A -> T * option B) (s : astate T A B) : astate T A B -> Prop :=
| as_recv : forall x t own' b, a_pc s = ARecv -> a_todo s = x :: t -> f (a_own s) x = (own', Some b) ->
    astep f s (mkA (ASend b) own' t (a_closed s) (a_wait s) (a_log s) (a_eofs s))
| as_quiet : forall x t own', a_pc s = ARecv -> a_todo s = x :: t -> f (a_own s) x = (own', None) ->
    astep f s (mkA ARecv own' t (a_closed s) (a_wait s) (a_log s) (a_eofs s))
| as_inclosed : a_pc s = ARecv -> a_todo s = [] ->
    astep f s (mkA AClose (a_own s) [] (a_closed s) (a_wait s) (a_log s) (a_eofs s))
| as_send : forall b, a_pc s = ASend b -> (0 < a_wait s)%nat ->
    astep f s (mkA ARecv (a_own s) (a_todo s) (a_closed s) (pred (a_wait s)) (a_log s ++ [b]) (a_eofs s))
| as_close : a_pc s = AClose ->
    astep f s (mkA AEnd (a_own s) (a_todo s) true (a_wait s) (a_log s) (a_eofs s))
| as_arrive : astep f s (mkA (a_pc s) (a_own s) (a_todo s) (a_closed s) (S (a_wait s)) (a_log s) (a_eofs s))
| as_eof : a_closed s = true -> (0 < a_wait s)%nat ->
    astep f s (mkA (a_pc s) (a_own s) (a_todo s) (a_closed s) (pred (a_wait s)) (a_log s) (S (a_eofs s))).

(** ts/packet_channel.go:10-12, 21-25, pes/packet_channel.go:7-9: the start *)
Definition a_init {T A B} (own : T) (input : list A) : astate T A B := mkA ARecv own input false 0 [] 0.

(** ts/packet_channel.go:10-19, pes/packet_channel.go:7-16 PayloadOnly.  The payload is a slice of the
    packet's own buffer; it is modelled by its content when the packet is received (a sender that
    reuses the packet, like the demuxer, is the subject of C16). *)
Definition payload_only {A} (payload : A -> list Z) : unit -> A -> unit * option (list Z) :=
  fun _ x => (tt, Some (payload x)).

(** ts/packet_channel.go:21-43 PayloadUnit.  Variables: the bytes.Buffer and [started].
    ioutil.ReadAll on a bytes.Buffer takes its whole content and returns a nil error;
    line 33 sends only when the error is not nil. *)
Definition read_all_buffer (buf : list Z) : (list Z * option err) * list Z := ((buf, None), []).
Definition payload_unit : list Z * bool -> packet -> (list Z * bool) * option (list Z) :=
  fun '(buf, started) p =>
    let buf := buf ++ pk_payload p in
    if pk_pusi p then
      if started then
        let '((data, e), buf') := read_all_buffer buf in
        match e with
        | Some _ => ((buf', started), Some data)
        | None => ((buf', started), None)
        end
      else ((buf, true), None)
    else ((buf, started), None).
