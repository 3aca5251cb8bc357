(** ChainModel: Demuxer.Where(t) and PacketChannel.PayloadOnly chained, as the package documentation suggests: the goroutine of
    ts/demuxer.go and that of ts/packet_channel.go run at the same time, and the packet handed over is a pointer. *)
From Verif Require Import Base BitReader TsModel Conc.

(** ts/packet_channel.go:14-16: where the goroutine of PayloadOnly is *)
Inductive cpc : Type :=
| CIdle              (* line 14: about to receive *)
| CWait              (* line 14: waits on the input channel *)
| CGot               (* line 15: has the packet's address, packet.Payload not yet evaluated *)
| CSend (n : Z)      (* line 15: about to send packet.Payload, the first n bytes of the packet's buffer *)
| CClose             (* line 13: about to close the output *)
| CEnd.

(** ts/demuxer.go:25-31, ts/packet_channel.go:11-18: both goroutines, the output channel and those who receive from it *)
Record cstate : Type := mkC {
  c_d : dstate;
  c_a : cpc;
  c_closed : bool;         (* output closed *)
  c_wait : nat;            (* receivers waiting on the output *)
  c_log : list (list Z);   (* what was received from the output: the bytes at that moment *)
  c_eofs : nat             (* receives that found the output closed *)
}.
(** ts/demuxer.go:54-60, ts/packet_channel.go:10-12: the start *)
Definition c_init (r : reader) : cstate := mkC (d_init r) CIdle false 0 [] 0.
(** Effects of the steps below: [c_demux] a step of the demuxer's side, [c_goto] of the adapter's (ts/packet_channel.go:12-17) *)
Definition c_demux (s : cstate) (d : dstate) (a : cpc) : cstate := mkC d a (c_closed s) (c_wait s) (c_log s) (c_eofs s).
Definition c_goto (s : cstate) (a : cpc) : cstate := c_demux s (c_d s) a.

(** ts/demuxer.go:62-97 and ts/packet_channel.go:12-17 together. [i] is the number of the channel, in the order of the calls of Where,
    on which PayloadOnly was called; [ts] are the testers. Simplified: a call of Packet.Next is one step, so finer races are not shown. *)
Inductive cstep (ts : list tester) (skip take : tester) (i : nat) (s : cstate) : cstate -> Prop :=
| cs_own : forall d, down ts skip take (c_d s) d ->
    (forall t, d_pc (c_d s) = PSend i -> nth_error ts i = Some t -> t (d_pkt (c_d s)) = false) ->
    cstep ts skip take i s (c_demux s d (c_a s))                               (* the demuxer goes on *)
| cs_hand : forall t, d_pc (c_d s) = PSend i -> nth_error ts i = Some t -> t (d_pkt (c_d s)) = true ->
    c_a s = CWait -> (0 < d_wait (c_d s) i)%nat ->
    cstep ts skip take i s (c_demux s (d_recv (c_d s) (PSend (S i)) i) CGot)   (* demuxer.go:93 meets packet_channel.go:14 *)
| cs_arrive : forall j, j <> i -> cstep ts skip take i s (c_demux s (d_arrive (c_d s) j) (c_a s))       (* receivers of other channels *)
| cs_eof : forall j, j <> i -> (j < d_closed (c_d s))%nat -> (0 < d_wait (c_d s) j)%nat ->
    cstep ts skip take i s (c_demux s (d_eof (c_d s) j) (c_a s))
| cs_arrive_done : cstep ts skip take i s (c_demux s (d_arrive_done (c_d s)) (c_a s))
| cs_wants : c_a s = CIdle -> cstep ts skip take i s (c_demux s (d_arrive (c_d s) i) CWait)             (* packet_channel.go:14 *)
| cs_inclosed : c_a s = CWait -> (i < d_closed (c_d s))%nat -> (0 < d_wait (c_d s) i)%nat ->
    cstep ts skip take i s (c_demux s (d_eof (c_d s) i) CClose)                (* packet_channel.go:14: the range ends *)
| cs_reads : c_a s = CGot -> cstep ts skip take i s (c_goto s (CSend (pk_len (d_pkt (c_d s)))))         (* line 15: packet.Payload *)
| cs_sends : forall n, c_a s = CSend n -> (0 < c_wait s)%nat ->
    cstep ts skip take i s (mkC (c_d s) CIdle (c_closed s) (pred (c_wait s))
      (c_log s ++ [firstn (Z.to_nat n) (pk_buf (d_pkt (c_d s)))]) (c_eofs s))  (* line 15: output <- *)
| cs_close : c_a s = CClose -> cstep ts skip take i s (mkC (c_d s) CEnd true (c_wait s) (c_log s) (c_eofs s)) (* line 13 *)
| cs_out : cstep ts skip take i s (mkC (c_d s) (c_a s) (c_closed s) (S (c_wait s)) (c_log s) (c_eofs s))   (* a receiver on the output *)
| cs_outeof : c_closed s = true -> (0 < c_wait s)%nat ->
    cstep ts skip take i s (mkC (c_d s) (c_a s) (c_closed s) (pred (c_wait s)) (c_log s) (S (c_eofs s))).
