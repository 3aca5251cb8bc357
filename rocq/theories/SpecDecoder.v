(** SpecDecoder: what ps.Decoder delivers over any bytes, as one goroutine would read it that calls Peek32, NewPackHeader and
    pes.NewPacket in turn. *)
From Verif Require Import Base BitReader PesModel PsModel.

(** The packets of a pack end where there is no start code prefix, before a pack (442, 00 00 01 BA), before the end code (441,
    00 00 01 B9), and at what is not a packet; no error is reported for it. *)
Inductive stops : reader -> reader -> Prop :=
| stops_short : forall r e r', peek_n 24 r = (Err e, r') -> stops r r'
| stops_prefix : forall r v, peek_n 24 r = (Ok v, r) -> v <> 1 -> stops r r
| stops_short2 : forall r e r', peek_n 24 r = (Ok 1, r) -> peek_n 32 r = (Err e, r') -> stops r r'
| stops_code : forall r v, peek_n 24 r = (Ok 1, r) -> peek_n 32 r = (Ok v, r) -> v = 441 \/ v = 442 -> stops r r
| stops_packet : forall r v e p r', peek_n 24 r = (Ok 1, r) -> peek_n 32 r = (Ok v, r) -> v <> 441 -> v <> 442 ->
    new_pes r = (Err e, (p, r')) -> stops r r'.
Definition at_packet (r : reader) : Prop := peek_n 24 r = (Ok 1, r) /\ exists v, peek_n 32 r = (Ok v, r) /\ v <> 441 /\ v <> 442.
(** The packets of a pack, from [r] on, and the source that is left *)
Inductive body : reader -> list ppacket -> reader -> Prop :=
| body_end : forall r r', stops r r' -> body r [] r'
| body_more : forall r p r1 ps r', at_packet r -> new_pes r = (Ok tt, (p, r1)) -> body r1 ps r' -> body r (p :: ps) r'.
(** Packets, and then one at which NewPacket panics *)
Inductive body_dies : reader -> list ppacket -> Prop :=
| dies_here : forall r p r', at_packet r -> new_pes r = (Panic, (p, r')) -> body_dies r []
| dies_later : forall r p r1 ps, at_packet r -> new_pes r = (Ok tt, (p, r1)) -> body_dies r1 ps -> body_dies r (p :: ps).

(** The packs from [r] on, and the error: none before the end code *)
Inductive program : reader -> list (packheader * list ppacket) -> option err -> Prop :=
| no_header : forall r e r', new_pack_header r = (Err e, r') -> program r [] (Some e)
| a_pack : forall r h r1 ps r2 packs e, new_pack_header r = (Ok h, r1) -> body r1 ps r2 -> then_packs r2 packs e ->
    program r ((h, ps) :: packs) e
with then_packs : reader -> list (packheader * list ppacket) -> option err -> Prop :=
| then_short : forall r e r', peek_n 32 r = (Err e, r') -> then_packs r [] (Some e)
| then_pack : forall r packs e, peek_n 32 r = (Ok 442, r) -> program r packs e -> then_packs r packs e
| then_end : forall r, peek_n 32 r = (Ok 441, r) -> then_packs r [] None
| then_other : forall r v, peek_n 32 r = (Ok v, r) -> v <> 441 -> v <> 442 -> then_packs r [] (Some ErrProgramEndCodeNotFound).
(** Packs, and then one in which there is a packet at which NewPacket panics, after the packets [ps] *)
Inductive program_dies : reader -> list (packheader * list ppacket) -> packheader -> list ppacket -> Prop :=
| in_this : forall r h r1 ps, new_pack_header r = (Ok h, r1) -> body_dies r1 ps -> program_dies r [] h ps
| in_later : forall r h1 r1 ps1 r2 packs h ps, new_pack_header r = (Ok h1, r1) -> body r1 ps1 r2 ->
    peek_n 32 r2 = (Ok 442, r2) -> program_dies r2 packs h ps -> program_dies r ((h1, ps1) :: packs) h ps.
