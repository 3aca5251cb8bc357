# A Rocq model of 32bitkid/mpeg

The model is written function by function from the Go source in /repo (packages
`ts`, `pes`, `ps`, `video`). Every definition cites the file and lines it models.

## Shape of the model

* **Numbers.** Go integers are `Z`; every place where Go wraps (`uint32`, `int32`,
  `uint8` arithmetic) has an explicit `mod 2^n` or signed wrap in the model.
* **Bits and bytes.** The input is a list of bits, most significant first. `enc n v`
  (specification side) writes `v` in `n` bits; the model's reader reads `n` bits.
* **Outcomes.** A call ends as `Ok v`, `Err e` (a Go error value), `Panic` (a Go run time
  panic) or `OutOfFuel` (a loop has run more iterations than the fuel given). The state
  after the call is kept in every case, so what a failing call has
  already consumed or changed is visible.
* **Loops.** Unbounded Go loops take fuel. For each such loop we prove either that a stated amount
  of fuel always suffices, or (for the non-terminating ones) that no amount does.
* **Goroutines.** Demuxer, channel adapters and the program stream decoder are transition
  systems with one transition per channel operation; theorems quantify over all
  reachable states, i.e. over all schedules.
* **Specification.** Encoders (`Spec*.v`) are written from ISO 13818-1/2 syntax, not from
  the parser. VLC tables in the specification are numeric (code, length) tables indexed by symbol, as
  in Annex B; the model builds its tables from the bit strings in the source.


## Plan per property

- **C01** TS packet without adaptation field decodes to exactly what was encoded. Encoder in the specification; round trip theorem by symbolic execution of the parser.
- **C02** TS resynchronisation finds the first sync byte within 188 bytes, or reports ErrNoSyncByte. Induction on the garbage prefix.
- **C03** Adaptation field decodes to exactly what was encoded and its declared length is what is consumed. Encoder in the specification; round trip theorem by symbolic execution of the parser.
- **C04** TS packet with adaptation field and payload is exactly 188 bytes and its payload is what follows the field. Encoder in the specification; round trip theorem by symbolic execution of the parser.
- **C05** A TS packet cut short is always reported as an error. Case analysis on the cut point; every field read fails when bits are missing.
- **C06** Adaptation field extension is consumed as declared (seamless splice, reserved bytes). The claim is refuted by a witness family; the strongest true variant is proved.
- **C07** Reading into an existing TS Packet leaves nothing of the previous packet behind. The claim is refuted by a witness family; the strongest true variant is proved.
- **C08** No input makes ts.Packet.Next panic. The claim is refuted by a witness family; the strongest true variant is proved.
- **C09** Packet testers form a boolean algebra over packets. Pointwise reasoning over arbitrary testers.
- **C10** ts.NewPayloadReader delivers exactly the payload bytes of the matching packets whatever the sizes of the reads. Invariant over all sequences of calls.
- **C11** TakeWhile on a payload reader ends the stream at the first packet that fails the tester, for good. Invariant over all sequences of calls.
- **C12** SkipUntil on a payload reader delivers from the first matching packet on, and terminates. Invariant over all sequences of calls.
- **C13** ts.NewPayloadUnitReader delivers each payload unit whole, ended by EOP, whatever the sizes of the reads. Invariant over all sequences of calls.
- **C14** ts.NewPayloadUnitReader delivers every payload unit including the last. The claim is refuted by a witness family; the strongest true variant is proved.
- **C15** Demuxer delivers to each channel exactly the matching packets of the SkipUntil/TakeWhile window, in stream order, under every schedule. Transition system; invariant over all reachable states.
- **C16** A packet received from a demuxer channel keeps its content. The claim is refuted by a witness family; the strongest true variant is proved.
- **C17** PayloadOnly channel adapters preserve order, content and number of payloads and close with their input. Transition system; invariant over all reachable states.
- **C18** ts.PacketChannel.PayloadUnit delivers the completed payload units. The claim is refuted by a witness family; the strongest true variant is proved.
- **C19** PES time stamps decode to the encoded 33 bit value. Encoder in the specification; round trip theorem by symbolic execution of the parser. Exact modulo 2^32; loss of bit 32 refuted by witness.
- **C20** PES packet with header and non-zero length decodes to exactly what was encoded. Encoder in the specification; round trip theorem by symbolic execution of the parser.
- **C21** PES packet of length 0 extends to the end of the payload unit. Encoder in the specification; round trip theorem by symbolic execution of the parser.
- **C22** PES padding packets are skipped exactly. Encoder in the specification; round trip theorem by symbolic execution of the parser.
- **C23** pes.Packet.Next consumes a whole packet for every stream id. The claim is refuted by a witness family; the strongest true variant is proved.
- **C24** Malformed PES headers are rejected with the documented error. Direct from the model, for all malformed headers.
- **C25** PES header whose parts exceed PES_header_data_length is not accepted. Arithmetic of the wrapped difference against the number of bytes left.
- **C26** pes.NewPayloadReader delivers exactly the payload bytes whatever the sizes of the reads. Invariant over all sequences of calls.
- **C27** Padding contributes nothing to the PES payload stream. The claim is refuted by a witness family; the strongest true variant is proved.
- **C28** Program stream pack header decodes to exactly what was encoded. Encoder in the specification; round trip theorem by symbolic execution of the parser.
- **C29** Program stream system header decodes to exactly what was encoded. Encoder in the specification; round trip theorem by symbolic execution of the parser.
- **C30** ps.NewPackReader delivers exactly the PES payloads of the program stream whatever the sizes of the reads. Invariant over all sequences of calls.
- **C31** ps.NewPackReader reports the end or an error on a truncated stream. The claim is refuted by a witness family; the strongest true variant is proved.
- **C32** ps.Decoder: the bit reader is never used by two goroutines at once and packs come in order, under every schedule. Transition system; invariant over all reachable states.
- **C33** Start code Check never consumes, Assert consumes exactly the code and only on a match. Direct, for all streams.
- **C34** AlignTo stops at the first byte-aligned occurrence of the start code. Induction on the stream; fuel = length suffices.
- **C35** next_start_code skips only zero stuffing. Induction on the zero bytes.
- **C36** Sequence header decodes to exactly what was encoded. Encoder in the specification; round trip theorem by symbolic execution of the parser.
- **C37** Sequence extension, picture header, picture coding extension, GOP header, display and temporal scalable extensions decode to exactly what was encoded. Encoder in the specification; round trip theorem by symbolic execution of the parser.
- **C38** Size() is the 14 bit picture size and the frame buffer covers it in whole macroblocks. Arithmetic.
- **C39** Every VLC table decodes exactly the ISO 13818-2 Annex B code. Generic prefix-code theorem plus table equality with the numeric Annex B tables.
- **C40** DC coefficient prediction reconstructs the encoded DC values. Invariant over all sequences of calls.
- **C41** Block coefficient decoding reproduces the encoded run/level sequence. Induction on the run/level list, generic in the table.
- **C42** No bit stream makes block decoding panic. The claim is refuted by a witness family; the strongest true variant is proved.
- **C43** Inverse quantisation computes the ISO 13818-2 7.4 formula, saturates, applies mismatch control and never overflows. Arithmetic for all values; sum parity by induction over the block.
- **C44** The inverse scans are the standard zig-zag and alternate permutations. Finite computation on the tables lifted to all blocks.
- **C45** The IDCT of a DC-only block is flat and correctly rounded; the IDCT does not overflow on bounded input. Symbolic evaluation; interval propagation proved once per stage.
- **C46** Decoded samples are always 0..255 and clamping is exact. Clamping: arithmetic. Frames: an invariant of every computation in a picture (all samples of the frame in 0..255 if those of the references are) and of the frame store across Next calls.
- **C47** Motion vectors decode to exactly the encoded vectors. Invariant over all sequences of calls.
- **C48** Motion compensated prediction samples are the half-sample interpolation of the reference at the displaced position. Arithmetic over arbitrary frames (functions from index to sample).
- **C49** Macroblock blocks tile the frame exactly. Index arithmetic over arbitrary frames.
- **C50** Skipped macroblocks in P pictures repeat the reference samples at the same place. Index arithmetic over arbitrary frames.
- **C51** Macroblock address increment is 33 per escape plus the decoded increment. Induction on the number of escapes.
- **C52** Reference frames: past and future are the neighbouring references in display order. Invariant of the frame store over all histories, tied to the steps of the decoder.
- **C53** Next() returns every picture exactly once in display order. Invariant between pictures (held reference, counter), induction on the groups; refuted for groups of more than 1024 pictures.
- **C54** Extension data after a GOP header does not hang the decoder. Every parser leaves a suffix of its input (suf) and every loop's bound is reached by no input (ends); the only way out of fuel is traced back to the bits of a group header followed by an extension; refuted there. Whole play loops end by the measure of C76.
- **C55** User data is delivered byte for byte up to the next start code. Encoder in the specification; round trip theorem by symbolic execution of the parser.
- **C56** GOP time code fields are extracted exactly. Encoder in the specification; round trip theorem by symbolic execution of the parser.
- **C57** ExtensionID.IsReserved is true exactly of the ids declared reserved. The claim is refuted by a witness family; the strongest true variant is proved.
- **C58** Coded block pattern selects exactly the coded blocks. Case analysis on i, bit arithmetic for all cbp.
- **C59** A bit stream error is reported: frames come only from data that follows the syntax. SpecSyntax.v describes the bits of a stream alone. Inversion of every reading function of the decoder, from the code words up to Next: what it accepted is what the description says (induction over blocks, macroblocks, slices, pictures, calls). One deviation remains, in P and B pictures: nine zero bits in place of a coded block pattern (refuted by a sequence that decodes to its end without an error).
- **C60** Quantiser matrices: defaults after every sequence header, replaced only by those transmitted. Invariant over all sequences of calls.
- **C61** Reading a PES packet never panics. The claim is refuted by a witness family; the strongest true variant is proved.
- **C62** A truncated PES packet is an error. Locality of the parser: it reads no further than the packet and depends on every bit of its length.
- **C63** Reading PES packets and payloads always ends. Measure: bits left in the source.
- **C64** ps.NewPackReader skips packs without packets. The claim is refuted by a witness family; the strongest true variant is proved.
- **C65** Reading packs never panics in the header, always ends, and rejects truncated headers. Measure: bits left in the source; locality of the parser.
- **C66** Downloaded quantiser matrices are placed in zigzag order. The claim is refuted by a witness family; the strongest true variant is proved.
- **C67** Video header parsers never panic nor hang, and reject truncated headers. Totality by structure; locality of the parsers for truncation.
- **C68** TimeCode.String has the documented SMPTE format. Arithmetic on digits; refuted below ten hours.
- **C69** Field based prediction predicts each field with its own vector from the selected field. The claim is refuted by a witness family; the strongest true variant is proved.
- **C70** Interpolation and averaging round as the standard demands. The claim is refuted by a witness family; the strongest true variant is proved.
- **C71** A predicted macroblock is its prediction plus its residual, clamped. The claim is refuted by a witness family; the strongest true variant is proved.
- **C72** Skipped macroblocks in B pictures repeat the previous prediction. Induction on the number of macroblocks.
- **C73** A whole sequence decodes to the pictures its syntax elements describe. Specification of the syntax elements of macroblocks, slices and pictures and of the samples they stand for; the model is run symbolically on every encoding (induction on blocks, macroblocks, slices, pictures and groups).
- **C74** The inverse DCT is within a stated distance of the exact transform. The exact transform is specified with Coq's real numbers. The fixed-point constants are compared with 2048*sqrt(2)*cos(n*pi/16) by squaring; each one-dimensional pass gets an error bound; orthogonality of the cosines turns a bound on the exact samples into bounds on all intermediate values, which excludes overflow.
- **C75** The README's program gets the frames out of a transport stream. Composition of the reader theorems (C10, C13, C26) with C34 and C73; each bit reader over an io.Reader is related to that reader's answers by the specification SpecPipe; refuted for PES packets with a length in payload units.
- **C76** A stream gives no more frames than it has pictures. Measure: bits left plus 32 for every stored reference not yet shown; every Ok of Next lowers it by 32.
- **C77** A stream that breaks off gives its first frames undamaged and then an error. A relation between a parser's run on l and on l ++ x (cut): Ok on l is Ok on l ++ x with the same value and x more bits left; shown for every parser up to Next, where dropped errors are shown to surface in the next read; the error on l is the reader's or the same as on l ++ x. With C73 for valid sequences.
- **C78** Several sequences in one stream decode one after the other. C73's invariant between two groups (between) is kept by the sequence end code; induction on the list of sequences.
- **C79** A program stream's video plays. C30 (the pack reader delivers the payloads of all packets) composed with C73 as in C75; a counterexample with an audio packet between two video packets, run through the chain.
- **C80** Decoding goes on after damage. C73's run starts from any decoder state without a frame kept for the next call (sequence_from); at most two calls use up kept frames; C34 for AlignTo.
- **C81** A stream without sequence extensions is refused. The first call is computed on the coded header; for later calls an invariant (no sequence extension read, no frame kept, no extension code left in the bits) kept by every parser that runs before the extension.
- **C82** Pictures of more than 2800 lines. The run of a slice (C73) with the three extra bits, which are read and dropped: Next returns frames with every slice in its row modulo 128; right for rows below 128, refuted by a grey picture of 2816 lines whose line 2064 stays 0.
- **C83** Decoding may start at any sequence header. References are known, unknown or missing in the specification; a slice of a B picture stays decodable when its past picture is missing (prediction leaves it out), and after the next reference nothing differs. Refuted for leading B pictures by an open group whose B pictures copy the past: they come out black.
- **C84** Concealment motion vectors do no harm. Concealment vectors are part of the specification of macroblocks (SpecPicture); the run of a macroblock (C73) reads them and the marker bit. For I pictures the painted samples are shown not to depend on them. Without frame_pred_frame_dct no intra macroblock with a vector is ever decoded; a coded picture on which Next panics refutes the rest.
- **C85** A sequence that is not 4:2:0 is refused, not decoded as if it were. A picture that is decoded has a first macroblock that is; with more than six blocks the seventh is written to no plane. So a step that returns a frame has another chroma format in force, and so has every state after a frame. Panics instead of errors, and the reserved format, by computation.
- **C86** One coded frame is one returned frame, whether it is one frame picture or two field pictures. Frame pictures: from C73 and C53. Refuted by a frame of two I fields, both of the specification's macroblocks: one frame comes out, the first field in its upper half.
- **C87** No stream makes Next() panic. Valid sequences and their beginnings: from C73 and C77. Arbitrary bytes without slices and unsupported extensions: an invariant of the reader's position (at a byte, rest without them) through every header. Refuted by twelve streams, each for another cause, by computation.
- **C88** Printed packets, pictures and chroma formats. The strings are lists of character codes, fmt's verbs modelled by repeated division; proved against a specification of numerals by their value. A numeral followed by a non-digit is unique, which gives the two injectivity theorems.
- **C89** Frames keep their pictures and are all different. A second model of the decoder (HeapModel.v), with a memory of image objects and a frame store of pointers; a simulation proof that it behaves as the first, and an invariant: pointers of the store lie in the memory, a frame that could still be returned has not been returned.
- **C90** A caller may draw on the frames it was given. In the model with a memory, writing to an object that no pointer of the store names commutes with Next; a B picture decoded in the call that returns it is such an object. Refuted for I and P pictures by a stream of two pictures, by computation.
- **C91** The frames stay close to those of the standard. SpecDrift.v reconstructs the same coded pictures with the arithmetic of the standard. Induction over macroblocks, slices, pictures and groups: the two reconstructions of every plane stay within a distance that grows by one per P picture (C73 says that Next returns the first). A concrete sequence shows that the bound is reached, by computation in the specification.
- **C92** A demuxer channel turned into a channel of payloads delivers the payloads. Both goroutines in one transition system (ChainModel.v) that shares the packet and its buffer; every run projects to one of the demuxer (C15). An invariant counts what the adapter holds: the number of payloads and the closing are right. The content is refuted for every pair of packets: a schedule delivers the second payload twice.
- **C93** A header is accepted only if it is one, and then its fields are those in the stream. Inversion of the readers of headers (VidModel.v): from a result without error to the structure of SpecVid.v whose encoding was read.
- **C94** A PES packet is accepted only if it is one. Inversion of pes.Packet.Next (PesModel.v), part by part: from a result without error to the packet of SpecPes.v whose encoding was read. One deviation remains, the forbidden PTS_DTS_flags '01' (SpecAccept.v; refuted by a packet).
- **C95** A pack header is accepted only if it is one. Inversion of NewPackHeader (PsModel.v) to SpecPs.v. header_length of the system header is not compared with its content (SpecAccept.v; refuted).
- **C96** A transport packet is accepted only if it is one. Inversion of ts.Packet.Next (TsModel.v). SpecAcceptTs.v writes down the fields that are read from any bytes (a part that is announced and does not fit is absent); regular ones are shown to be adaptation fields of SpecTs.v. Refuted by a field of three bytes that announces a PCR.
- **C97** Exactly which data ts.Packet.Next accepts, with which result, and on which it panics. Forward runs of ts.Packet.Next on every form of SpecExact.v/SpecAcceptTs.v (TsExact.v), the inversion of C96, and an analysis of the calls that panic or fail: success iff the form comes, panic iff the long form comes, an error otherwise.
- **C98** Exactly which data pes.Packet.Next accepts, with which result, and on which it panics. Forward runs of pes.Packet.Next on headers with any flags (PesExact.v), the inversion of C94, and the inversion of the calls that panic (SpecExactPes.v describes the bits).
- **C99** Exactly which data NewPackHeader accepts, with which result. Forward runs of NewPackHeader on every form, the inversion of C95, and that it always returns (C65).
- **C100** The payload readers of ts and pes deliver what a loop over Next would see, errors included. SpecFaults.v: a tape of bytes and errors, reads from a tape, and the tape that calls of Next write. FaultProofs.v shows that both readers are one generic loop and that this loop reads the tape (both directions), by induction on the calls.
- **C101** Damage in the source costs the payload unit reader no more than the unit it falls into. False of the code: after an error the reader appends its current packet again, and an error before the first start ends the search for it; two concrete sources refute the statement. Proved: up to and including the first Read that returns an error of Next, the Reads give exactly the complete units, for every source (UnitFaults.v).
- **C102** What a stream must hold for Next to panic. SpecPanic.v describes, on bits alone, the streams with such a cause. CauseProofs.v shows for each computation of the decoder that it never panics or that a panic has one of the causes, from the block up to Next, and puts the pieces that were decoded before in front of it.
- **C103** Every frame returned is the one its bits stand for, or they break a listed rule. SpecRules.v lists the rules, and describes a stream as a list of pictures with the headers and matrices in force (on bits alone). RulesProofs.v turns each successful computation of the decoder on a macroblock, a slice and a picture back into the macroblocks of SpecPicture (the inverse of the forward proofs of C71-C73) and then uses the forward proofs for the samples; ContextProofs.v carries matrices, headers and the frame store through all calls of Next by induction. ClearProofs.v shows that the syntax is unambiguous, so that data which keep the rules stand for one list of slices and are not among the data that break one.
- **C104** From any stream, Next shows the frame that is due, in the order of temporal references. SpecShow.v defines when a frame is due, on the list of pictures decoded and frames shown alone. ShowProofs.v relates the two slots of the frame store to the pictures kept (by induction on the pictures decoded) and carries the order through all calls of Next; the pictures themselves are those of C103.
- **C105** An error of Next says what is wrong with the stream, and where. SpecError.v lists what each error says about the bits before and after the place where it was returned. ErrorProofs.v proves, function by function, that every failure of the decoder is one of them, carrying the bits just read as a context (headers and extensions already accepted), by induction on the loops; PropertiesError.v states it for Next and draws corollaries (kinds of errors, EOS, MPEG-1).
- **C106** An error of a TS, PES or PS packet says what is wrong with the bytes, and where. SpecFail.v lists what each error says about the bits before and after the place where it was returned. FailProofs.v proves it for the packets of the three packages, function by function; PropertiesFail.v carries it through the readers (by induction on their loops) and the goroutines (invariants over all schedules).
- **C107** Exactly what Read of ps.NewPackReader returns over any bytes. SpecPackTape.v: the tape of a source, and what reads of given sizes take from a tape. One turn of the loop is one part of the tape; induction over the parts, in both directions.
- **C108** Exactly what Read of ts.NewPayloadUnitReader returns over any bytes. SpecUnitTape.v: the log of the calls of Next and the pieces (units, errors) made of it. Seeking and collecting are inductions over the log, in both directions; undamaged units by computing the pieces of a log that ends in one.
- **C109** Every unsupported extension makes Next panic. SpecUnsupported.v: headers followed by an unsupported extension. Induction over the extensions and user data before it, then the steps of Next as in C53.
- **C110** Exactly what Read of ts.NewPayloadReader with SkipUntil and TakeWhile returns over any bytes. SpecWindow.v: the log of the calls of Next, the events made of it, and Read as a machine over the events. Induction over the log in both directions; SkipUntil after the first Read by a simulation.
- **C111** What a Next that runs out of input leaves in the packet. SpecLeft.v: each field as a function of the number of bytes that came, the old and the new value. Cuts inside the four header bytes by running the model; inside the adaptation field and the PES header by locality; inside the payload from io.ReadFull.
- **C112** When Next must panic, and streams of proper syntax are decoded to their end. SpecCertain.v: the streams, by their bits alone. Forward simulation: each reading function, on bits of the syntax, consumes exactly those bits or panics (gets), by induction over codes, blocks, macroblocks, slices and pictures; the loop of Next over pictures by an invariant.
- **C113** Exactly what ps.Decoder delivers over any bytes, under every schedule. SpecDecoder.v: the reading of one goroutine, as an inductive relation over the source. An invariant of the transition system of PsConc.v ties the packs begun, the packets received and the reader of each state to that reading; an inductive argument over the bits left shows that every source has one.
- **C114** Streams that break the syntax, or end too soon, must be refused. SpecReject.v: the faults as an inductive predicate over bits, after pictures of proper syntax. For each, the decoder is run up to the fault with the lemmas of C112, and there the read or the comparison that fails is found; the loop is an induction over the pieces before. For cut streams, C77 (what Next does on a prefix) and C112 on the whole stream.
- **C115** A panic of Next in an I, P or B picture has one of a few causes in the stream, and proper pictures have none. SpecStray.v: the causes as an inductive predicate over the bits of a macroblock, in the terms of SpecPicture. A panic of the macroblock is traced back through the binds of the model to the read, the address check or the copy that panics, with the lemmas of C103 for what was done before; the loops are inductions. Exclusivity: the codes are prefix-free, so that the head of a macroblock determines address, vectors and coded blocks (StrayClear.v).
- **C116** A prediction from above the first or below the last line of the reference makes Next panic; no such picture is ever shown. SpecSpill.v: the blocks beyond the reference, as a predicate over the bits of slices in the terms of SpecPicture. Forward runs: right slices and macroblocks decode (C60), and in the macroblock each plane access is in bounds or panics, the one before or after the plane's samples must panic (C117 has the index arithmetic); induction over macroblocks and slices (SpillProofs.v). The state after the frames so far comes from the invariant of C103; at most two frames are left in the store (SpillStream.v).
- **C117** A prediction across the left or right edge of the reference takes its samples from the neighbouring lines; across the first or last line it panics. SpecAround.v: the samples needed by a block for any vector, and the plane as one line after the other. Index arithmetic: the flat index of (x, y) is that of (x mod w, y + x / w); in bounds gives the mean as in C48, out of bounds gives a panic in the sample concerned, and a finite search decides between the two (AroundProofs.v).
- **C118** Lost slices damage only their rows of the picture, and pictures predicted from it, until the next group. SpecLoss.v: sequences as in C73 with a flag for every slice, and the rows that may differ. Coding of a slice does not depend on what the references show, so what arrives is again a coded sequence, to which C73 applies; painting a slice changes its own row only and in the same way if the references are the same, so rows that lost nothing agree, by induction over slices, pictures and groups (LossProofs.v).
- **C119** A missing B picture ends what is shown of its group, and nothing else. SpecGap.v: sequences whose numbers rise with gaps, the pictures before the first gap, and groups with the set of numbers that do not arrive. An invariant of the two stored references that does not mention the frame counter shows that every picture decodes to its frame; a call of Next that decodes a picture that is not due does what it would do after that picture, so the pictures after a gap are passed over until the next group resets the counter; induction over pictures and groups (GapProofs.v). Removing B pictures from a coded sequence gives such a sequence.
- **C120** Groups may be cut out of a stream: the frames of the others are the same. SpecSplice.v: a sequence with a choice for each group, closed groups, and what may be cut out. The pictures of a closed group are coded independently of the references before it, and those of any group depend only on the last one; by induction over the groups what is left is a coded sequence, and C73 applies (PropertiesSplice.v).
- **C121** Groups may be cut out before open groups: only the leading B frames can be wrong. SpecOpenCut.v: what may be cut out before open groups, and the frames that are left, with None for those that lost a reference. The leading B pictures are the coding of other pictures, painted from the reference that is left, which has the same size; all other pictures are coded as before; C73 applies to the sequence with the leading pictures replaced (PropertiesOpenCut.v). C121_leading_refuted shows that the exception is needed.
- **C122** Sequences may be joined without an end code between them. SpecEdit.v: sequences that start with a closed group. Such a sequence is coded after any references and context; by induction over the list their concatenation is a coded sequence, and C73 applies (PropertiesEdit.v).
- **C123** The sequence header may be repeated before any group, or left out before any but the first. SpecEdit.v: the groups of a sequence with a choice of those that have the header. The context in force before each group is that of the header; by induction all choices are coded sequences with the same pictures, and C73 applies (PropertiesEdit.v).
- **C124** Stuffing, user data and descriptive header fields do not change the frames. SpecCore.v: when two headers, pictures and groups are the same but for parts that do not matter. The two contexts in force stay related through the sequence, slices and what they paint do not depend on the other fields of the picture coding extension, so the second sequence is coded with the same pictures, and C73 applies (PropertiesCore.v).
- **C125** Slices of a picture may arrive in any order, and more than once. SpecOrder.v: the macroblocks a slice covers; exchanges of neighbouring slices with no macroblock in common and repetitions, closed under composition. A slice paints the macroblocks it covers only, and what it paints there does not depend on what was there, so exchanged slices paint the same and a repeated slice paints nothing new; the simulation of C118 between the two sequences carries over (OrderProofs.v, PropertiesOrder.v).
- **C126** Multiplexing a transport stream anew does not change what is read of one PID. SpecRemux.v: when two packet streams carry the same packets of one PID. Their accepted payloads and payload units are the same lists, so C10 and C13 give the same reads (PropertiesRemux.v). For the demuxer through C15 (PropertiesRemuxDemux.v).
- **C127** A transport packet that is sent twice is delivered once. False of the code, which does not look at continuity counters: for every stream and every packet of the PID with payload there are reads that differ if the packet is sent twice. Proved instead: the payload is delivered exactly twice (PropertiesRemux.v). For the demuxer likewise (PropertiesRemuxDemux.v).
- **C128** A transport packet without payload adds nothing to what is read. False of the code: the packet that is read keeps the payload of the one before (C07), so the reader delivers that payload again, also if it belongs to another PID. SpecBare.v states for all streams what is delivered; proved by induction on the packets through the calls of Next (C100). The property holds before the first packet with payload (PropertiesBare.v). The same for the unit reader through C108 (SpecBareUnits.v, PropertiesBareUnits.v). For the demuxer through C15 (PropertiesBareDemux.v).
- **C129** How a stream is cut into packets does not matter. Two streams with the same content are compared through C10, C26 and C30, which give what is read as a function of the content alone (PropertiesRecut.v). PES packets inside transport packets: both cuts at once.
- **C130** Demuxer and NewPayloadReader agree. Both are compared with the packets that calls of Next give: the demuxer by the invariant of C15, the reader by C100; proved for every input without SkipUntil and TakeWhile (PropertiesAgree.v). With TakeWhile it is false: the reader delivers the packet that fails the tester too (C11), the demuxer does not.
- **C131** ps.Decoder and ps.NewPackReader agree. Both are compared with the content of the packs: the decoder by C32, the reader by C30 (PropertiesAgreePs.v). False if the last pack has no packets, where the reader stops without an error (C64).
- **C132** The payload units, joined, are the payload. Through C10 and C13, by induction on the packets (PropertiesAgreeUnits.v). That the last unit is missing is C14.

## Trusted base

### Kernel and axioms

Coq 8.16.1's kernel, and `coqchk` over every module. No axioms are added, no check is
switched off, no plugin is used. `Print Assumptions` was run on each of the theorems named in
MANIFEST.json (the commands are also at the end of every `Properties*.v`):

* `C74_accuracy`, `C74_adjacent`, `C74_small_coefficients` and `C45_no_overflow_in_range` speak
  about real numbers or are proved through them. They list the standard library's
  `ClassicalDedekindReals.sig_forall_dec`, `ClassicalDedekindReals.sig_not_dec` and
  `FunctionalExtensionality.functional_extensionality_dep`, nothing else.
* Every other theorem is "Closed under the global context".

### What a reader of a theorem must trust besides

1. The model says what the Go code does (the comments give file and lines).
2. The specifications `Spec*.v` say what the English property says. They are short and do not
   use the model's parsers. Where a theorem needs the *type* of a result (a packet, a header,
   an image) it uses the record of the model, which mirrors the Go struct field by field.
3. The assumptions on the environment listed next.

### Assumptions on code that is not in /repo

* `github.com/32bitkid/bitreader` (`BitReader.v`). The reader is a list of bits, the error at its end,
  what the source delivers after that error, and a function for the error of a read that is cut
  short (left arbitrary: every theorem holds for all such functions). `ReadN/PeekN(n)` return the
  next `n` bits or fail; a failing read or peek consumes no bits; `Skip`, `Align`, `IsAligned`,
  `Read` (through `io.ReadFull` and `ioutil.ReadAll`) as their names say. When a source goes on after
  an error (the payload unit reader does, after EOP), the bit reader goes on with it.
  The value returned beside an error by `Read1` or `Read32` is taken to be `false` or 0. It is visible where a field is
  assigned before the error is tested (`x.f, err = br.Read32(n); if err != nil`), which the model keeps (`onrz` in `Base.v`).
* A bit reader made over an `io.Reader` of this code base, as in the README, sees the bytes and errors that reader
  answers (`SpecPipe.v`, relation `over`; `PropertiesPsPipe.v`, relation `over_until`, up to the first error only). Used by C75 and C79 only.
* `github.com/32bitkid/huffman` (`Huffman.v`): `NewHuffmanDecoder` builds the tree of the codes of its
  table, `Decode` walks it bit by bit.
* `Read32(n)` with an `n` that has wrapped to 2^32-1 (a `f_code` of 0) is taken to panic.
* Go: unbuffered channels, goroutine interleaving at channel operations; sequentially consistent
  memory; slices, integers and panics as the language specification says. `int` has 64 bits.
* `image.YCbCr`: three planes with strides and `image.YCbCrSubsampleRatio` semantics, as created by
  `createFrameBuffer`.

### Modelled

| Go | Rocq | notes |
|---|---|---|
| ts/packet.go, adaptation_field.go, packet_tester.go | TsModel.v | whole; `Packet.String` is in StrModel.v |
| ts/payload_reader.go, payload_unit_reader.go | TsModel.v | whole |
| ts/demuxer.go, packet_channel.go | Conc.v | `Go` and the adapters as transition systems; `Where`, `SkipUntil`, `TakeWhile` before `Go` are the parameters of the system |
| pes/header.go, extension.go, packet.go, payload_reader.go, stream_assigments.go | PesModel.v | whole |
| pes/packet_channel.go | Conc.v | transition system |
| ps/start_code.go, pack_header.go, system_header.go, pack_reader.go | PsModel.v | whole |
| ps/decoder.go, pack.go | PsConc.v | transition system; `Packs`, `Packets`, `Err` are projections of its state |
| video/start_codes.go, next_start_code.go, sequence_header.go, \*extension\*.go, group_of_pictures_header.go, picture_header.go, user_data.go, chroma_format.go, extension_id.go | VidModel.v | whole; `String` methods of types other than the time code are in StrModel.v |
| video/\*tables: macroblock_addressing.go, macroblock_type.go, coding_block_pattern.go, dtc_coefficients.go, block.go, motion_vectors.go | VlcTables.v | every entry |
| video/block.go, decode_block.go, idct.go, dc_dct_predictors.go | BlockModel.v | whole |
| video/motion_vectors.go, motion_vector_info.go, motion_compensation.go, copy_macroblocks.go, macroblock.go, slice.go, picture_data.go, frame_store.go, frame_provider.go, video_sequence.go | MbModel.v | whole; `AlignTo` and `Size` in VidModel.v. frame_store.go, picture_data.go, frame_provider.go, video_sequence.go again in HeapModel.v, with pointers |

Not modelled: `video/log.go` and the log output, the
test files, the commented-out code after the panic in
`sequence_scalable_extension`, garbage collection and memory limits, data races (beyond the sharing of one
`Packet` by demuxer and receivers, which is modelled: C16).

### Simplifications (also in the comments)

* In MbModel.v images are values: a frame buffer is copied where Go shares a pointer. HeapModel.v models the pointers, and
  `C89_same_decoder` proves that the two agree as long as the caller does not write to returned images; what happens
  when it does is C90. HeapModel.v shares at the level of slices: within a slice the references are read as they were at its
  start, which is the same because the frame being written is never one of them.
* Fuel replaces unbounded loops. Theorems give enough fuel or, where the loop does not end, state
  it for every fuel.
* The inverse DCT of the reconstruction formulas in C73 is the decoder's integer one (`SpecBlock`,
  written as one-dimensional passes without wrap-around); its distance from the exact transform is C74.
* The means of C73 are rounded down, as the code does; that this is not what the standard demands is C70, and how far it may lead away from the standard's pictures is C91.

## Defects found

Each is a theorem ending in `_refuted` or a `_partial` one:

* ts: the last marker bit of a seamless splice and reserved extension bytes are left unread (C06); a reused packet keeps the fields of the one
  before (C07); an adaptation field length above 183 with payload panics (C08); SkipUntil does not apply the filter to its first match and
  does not return at the end of the stream (C12); the last payload unit is never delivered (C14); the demuxer overwrites the packet it sent (C16);
  `PayloadUnit` never sends anything (C18); packets sent twice are delivered twice (C127); a packet without payload delivers the payload of the
  packet before it again, also if that has another PID (C128); with the same TakeWhile tester the demuxer and
  the payload reader end at different packets (C130).
* pes: 33 bit time stamps lose their top bit (C19); the body of headerless stream ids is left unread (C23); padding after a payload
  repeats that payload (C27); unsupported optional header parts panic (C61).
* ps: AudioBound and VideoBound do not hold the encoded values (C29); a stream without end code is reported as `0, nil` forever and bytes are lost (C31);
  so is an empty pack (C64).
* video: an extension after a group header stops all progress (C54); `IsReserved` is wrong for 11 (C57); matrices are stored in raster
  instead of zigzag order (C66); the time code string below ten hours (C68); coefficient runs beyond the block panic (C42); field vectors
  are used as frame vectors (C69); means are rounded down and chroma vectors floored (C70); prediction in field DCT order (C71);
  temporal references that wrap (C53); an undecodable coded block pattern goes unreported (C59);
  slices from row 128 on are painted in their row modulo 128 (C82); the leading B pictures of an open group are returned
  wrong and without an error when decoding starts there (C83); concealment vectors outside of frame_pred_frame_dct
  panic (C84); 4:2:2 and 4:4:4 panic, reserved chroma formats give black frames (C85); field pictures are squeezed into the upper half of a frame,
  the second one is lost (C86); slices below the picture, macroblocks beyond its last row, skipped macroblocks without a reference,
  vectors out of the reference, picture types above 3, dual prime, picture display and copyright extensions, and pictures after a failed sequence extension panic (C87);
  drawing on a returned I or P picture changes the pictures after it (C90).
* README: PES packets that state their length break the chain (C75).
* ps: `NewPackReader` mixes the payloads of all streams (C79).

Not stated as properties, noticed on the way: `quant_matrix_extension` ignores the error of its identifier check.

## Tests of the theorems

`seeded/LOG.jsonl` lists wrong programs: edits of the model that make a claim false, and the theorems that then fail to prove. A lemma
that fails is replaced by `Admitted` in the scratch copy so that the whole development is tried; a
theorem counts as failed if its own proof fails or if it then depends on such a lemma.

## Checks of the model against the code

The code is not run here, so nothing checks mechanically that the model is the program. Two checks reduce the risk:

* `Conformance.v` replays every test of /repo (`*_test.go`) on the model, with the test data copied verbatim, and gets the results the tests expect.
* The first four slices of the real 720x480 picture in `pes/data_test.go`, computed in Coq by the model (all 46080 luma and 2 x 11520 chroma samples),
  are equal to those of a separate transliteration of the Go text to Python, with the tables parsed from the Go files.
* 1500 random streams (sequence, group and picture headers, I, P and B pictures, about half of them damaged by flipped, lost or repeated bits),
  seven calls of Next each, were decoded by the model, in Coq, and by that transliteration: the results, the errors, the bits left over and hashes of all
  planes were the same for all but those with an f_code of 0, for which the two assume different things about the bit reader's reaction to a read of 2^32 - 1 bits.
