{"id": "C01", "title": "TS packet without adaptation field decodes to exactly what was encoded", "statement": "ts.Packet.Next (and ts.NewPacket) on a byte-aligned stream that begins with a 188-byte ISO 13818-1 packet whose adaptation_field_control is 01 returns nil, sets TransportErrorIndicator, PayloadUnitStartIndicator, TransportPriority, PID, TransportScramblingControl, AdaptationFieldControl, ContinuityCounter and the 184-byte Payload to exactly the encoded values, and leaves the stream at the first byte after the packet.", "quantifier": "every value of every header field, every 184-byte payload, every following stream, every previous content of the Packet", "why_tests_cant": "2^24 headers times 256^184 payloads; the unit tests use one null packet.", "anchors": ["ts/packet.go: Packet.Next, NewPacket, isAligned"]}
{"id": "C02", "title": "TS resynchronisation finds the first sync byte within 188 bytes, or reports ErrNoSyncByte", "statement": "When the stream is not at a sync byte, Next discards bytes (and the partial byte, if the stream is not byte aligned) up to the first byte 0x47 among the next 188 and then behaves as if it had started there; if none of the next 188 bytes is 0x47 it returns ErrNoSyncByte after discarding exactly 188 bytes, and if the stream ends first it returns the stream's own error.", "quantifier": "every garbage prefix, every stream, every bit alignment", "why_tests_cant": "Garbage content and length are unbounded.", "anchors": ["ts/packet.go: isAligned, realign, Packet.Next"]}
{"id": "C03", "title": "Adaptation field decodes to exactly what was encoded and its declared length is what is consumed", "statement": "For every adaptation field laid out as in ISO 13818-1 2.4.3.4 (any combination of PCR, OPCR, splice countdown, private data, extension without seamless splice, stuffing), the packet's AdaptationField holds the encoded flags and values, PCR/OPCR equal base*300+extension, and exactly adaptation_field_length+1 bytes are consumed.", "quantifier": "every combination of optional parts, every field value, every private data and stuffing content of any length that fits", "why_tests_cant": "256 flag combinations times unbounded private data and stuffing.", "anchors": ["ts/adaptation_field.go: newAdaptationField, newAdaptationExt, newTransportPrivateData"]}
{"id": "C04", "title": "TS packet with adaptation field and payload is exactly 188 bytes and its payload is what follows the field", "statement": "For adaptation_field_control 11 and a well formed adaptation field of length L <= 183, Next returns nil, Payload is the 183-L bytes after the field and 188 bytes are consumed; for 10 with L = 183 exactly 188 bytes are consumed.", "quantifier": "every header, every well formed adaptation field, every payload", "why_tests_cant": "Unbounded combinations of field layouts and payload lengths.", "anchors": ["ts/packet.go: Packet.Next", "ts/adaptation_field.go"]}
{"id": "C05", "title": "A TS packet cut short is always reported as an error", "statement": "If the source ends before the 188 bytes of a packet are available, Next returns a non-nil error at every cut point, and io.ErrUnexpectedEOF when the cut is inside the payload; it never returns nil and never panics.", "quantifier": "every packet and every cut point 0..187", "why_tests_cant": "All cut points of all packets; the test uses one.", "anchors": ["ts/packet.go: Packet.Next"]}
{"id": "C06", "title": "Adaptation field extension is consumed as declared (seamless splice, reserved bytes)", "statement": "After an adaptation field with an extension the stream is byte aligned at the first byte after the adaptation field, also when the extension carries a seamless splice or reserved bytes.", "quantifier": "every extension", "why_tests_cant": "Needs all extension layouts. (Expected to be violated by the code: the last marker bit of the seamless splice is not read and reserved bytes are not skipped.)", "anchors": ["ts/adaptation_field.go: newAdaptationExt"]}
{"id": "C07", "title": "Reading into an existing TS Packet leaves nothing of the previous packet behind", "statement": "After Next returns nil on an existing Packet, Payload and AdaptationField describe the packet just read only: no payload when it has none, no adaptation field when it has none.", "quantifier": "every pair of consecutive packets", "why_tests_cant": "Depends on the history of the Packet value. (Expected to be violated.)", "anchors": ["ts/packet.go: Packet.Next"]}
{"id": "C08", "title": "No input makes ts.Packet.Next panic", "statement": "For every byte stream, Next returns a result or an error and does not panic.", "quantifier": "every byte stream", "why_tests_cant": "Universal over inputs. (Expected to be violated: adaptation_field_length > 183 with payload.)", "anchors": ["ts/packet.go: Packet.Next"]}
{"id": "C09", "title": "Packet testers form a boolean algebra over packets", "statement": "Not, And, Or of PacketTesters are pointwise negation, conjunction and disjunction; IsPID(p) holds exactly of packets with PID p; IsPayloadUnitStart exactly of packets with the indicator; De Morgan, double negation and distributivity hold for composed testers.", "quantifier": "all testers (functions), all packets", "why_tests_cant": "Testers are arbitrary functions.", "anchors": ["ts/packet_tester.go"]}
{"id": "C10", "title": "ts.NewPayloadReader delivers exactly the payload bytes of the matching packets whatever the sizes of the reads", "statement": "Over a stream of well formed payload-carrying packets followed by end of input, for every sequence of buffer sizes passed to Read, the concatenation of the bytes returned is a prefix of the concatenation, in stream order, of the payloads of the packets accepted by the tester; a nil error means the buffer was filled; every byte is delivered before the end is reported; 0 <= n <= len(p).", "quantifier": "every packet sequence, every tester, every sequence of read sizes", "why_tests_cant": "Read-size schedules are unbounded histories.", "anchors": ["ts/payload_reader.go: payloadReader.Read, next"]}
{"id": "C11", "title": "TakeWhile on a payload reader ends the stream at the first packet that fails the tester, for good", "statement": "Once a packet makes the TakeWhile tester false, that Read returns io.EOF with the bytes copied so far and every later Read returns 0, io.EOF without touching the source.", "quantifier": "every packet sequence, every tester, every read schedule", "why_tests_cant": "Histories. (The inclusive delivery and the loss of what did not fit are recorded as findings.)", "anchors": ["ts/payload_reader.go: payloadReader.Read"]}
{"id": "C12", "title": "SkipUntil on a payload reader delivers from the first matching packet on, and terminates", "statement": "With SkipUntil(t), delivery starts at the first packet for which t is true; if the source ends before such a packet, Read returns the source's error; the bytes delivered still satisfy the payload reader's filter.", "quantifier": "every packet sequence, every tester", "why_tests_cant": "Needs non-termination analysis and all streams. (Expected to be violated in the last two clauses.)", "anchors": ["ts/payload_reader.go: realign"]}
{"id": "C13", "title": "ts.NewPayloadUnitReader delivers each payload unit whole, ended by EOP, whatever the sizes of the reads", "statement": "Over a stream of well formed payload-carrying packets, for every sequence of read sizes, the bytes returned between two EOP errors are exactly the payloads of the matching packets from one payload unit start to the next, in order; packets before the first start are dropped.", "quantifier": "every packet sequence, every tester, every read schedule", "why_tests_cant": "Histories of reads over unbounded streams.", "anchors": ["ts/payload_unit_reader.go: payloadUnitBuffer.Read, fill"]}
{"id": "C14", "title": "ts.NewPayloadUnitReader delivers every payload unit including the last", "statement": "Every payload unit started in the stream is delivered before the end of input is reported.", "quantifier": "every packet sequence", "why_tests_cant": "Universal over streams. (Expected to be violated: the unit in progress at end of input is never delivered.)", "anchors": ["ts/payload_unit_reader.go: fill"]}
{"id": "C15", "title": "Demuxer delivers to each channel exactly the matching packets of the SkipUntil/TakeWhile window, in stream order, under every schedule", "statement": "For every schedule of the demuxer goroutine and its receivers, the packets handed over on the channel of Where(t) are, in order, a prefix of those satisfying t in the window that starts at the first packet satisfying SkipUntil and ends before the first later packet failing TakeWhile; when the goroutine has finished they are all of them, every channel is closed, exactly one true is sent on done after that, and Err is the error that ended the stream (nil if TakeWhile ended it). Every receive started on a channel still waits, or got exactly one packet, or found the channel closed.", "quantifier": "every packet stream, every list of testers, every interleaving of receivers", "why_tests_cant": "Interleavings and unbounded streams.", "anchors": ["ts/demuxer.go: Demuxer.Go, Where, SkipUntil, TakeWhile, Err"]}
{"id": "C16", "title": "A packet received from a demuxer channel keeps its content", "statement": "The fields and payload of a *Packet received from a demuxer channel do not change while the receiver uses it.", "quantifier": "every schedule", "why_tests_cant": "A data race: depends on the schedule. (Expected to be violated: one Packet is reused.)", "anchors": ["ts/demuxer.go: Demuxer.Go"]}
{"id": "C17", "title": "PayloadOnly channel adapters preserve order, content and number of payloads and close with their input", "statement": "For both ts.PacketChannel.PayloadOnly and pes.PacketChannel.PayloadOnly, under every schedule the payloads received are, in order, those of the packets sent (by a sender that leaves them alone; for the demuxer see C92), and the output is closed only after every payload of a closed input was received.", "quantifier": "every packet sequence, every schedule", "why_tests_cant": "Interleavings.", "anchors": ["ts/packet_channel.go: PayloadOnly", "pes/packet_channel.go: PayloadOnly"]}
{"id": "C18", "title": "ts.PacketChannel.PayloadUnit delivers the completed payload units", "statement": "PayloadUnit sends the concatenated payloads of each payload unit when the next unit starts.", "quantifier": "every packet sequence", "why_tests_cant": "Universal. (Expected to be violated: nothing is ever sent.)", "anchors": ["ts/packet_channel.go: PayloadUnit"]}
{"id": "C19", "title": "PES time stamps decode to the encoded 33 bit value", "statement": "PresentationTimeStamp and DecodingTimeStamp equal the encoded 33 bit values, for PTS only and for PTS+DTS.", "quantifier": "every 33 bit time stamp", "why_tests_cant": "2^33 values per field. (Exact below 2^32; expected to be violated above: the field is 32 bits wide.)", "anchors": ["pes/header.go: readTimeStamp, readHeader"]}
{"id": "C20", "title": "PES packet with header and non-zero length decodes to exactly what was encoded", "statement": "For every stream id that carries a PES header, every combination of the supported header parts (PTS, DTS, extension with private data and P-STD buffer, stuffing) and every payload, pes.Packet.Next returns nil, all fields equal the encoded ones (the time stamps modulo 2^32, see C19), Payload is exactly the payload and exactly 6+PacketLength bytes are consumed.", "quantifier": "every field value, every supported header layout, every payload of any length up to 65535 - header", "why_tests_cant": "Unbounded payloads and 2^40 header values.", "anchors": ["pes/packet.go: Packet.Next", "pes/header.go", "pes/extension.go"]}
{"id": "C21", "title": "PES packet of length 0 extends to the end of the payload unit", "statement": "With PacketLength 0, Payload is everything up to the end of the source or the EOP of the unit reader, Next returns nil, and the next packet starts in the next unit; any other source error is returned.", "quantifier": "every header, every payload, every following unit", "why_tests_cant": "Unbounded payload.", "anchors": ["pes/packet.go: Packet.Next"]}
{"id": "C22", "title": "PES padding packets are skipped exactly", "statement": "For stream id 0xBE exactly 6+PacketLength bytes are consumed and Next returns nil; a truncated padding packet is an error.", "quantifier": "every length and padding content, every cut", "why_tests_cant": "Unbounded content.", "anchors": ["pes/packet.go: Packet.Next"]}
{"id": "C23", "title": "pes.Packet.Next consumes a whole packet for every stream id", "statement": "After Next returns nil the stream stands at the first byte after the packet, for every stream id.", "quantifier": "every stream id and length", "why_tests_cant": "Universal over stream ids. (Expected to be violated for the ids that have neither a header nor are padding.)", "anchors": ["pes/packet.go: Packet.Next", "pes/stream_assigments.go: hasPESHeader"]}
{"id": "C24", "title": "Malformed PES headers are rejected with the documented error", "statement": "A packet whose first 24 bits are not 0x000001 gives ErrStartCodePrefixNotFound and consumes nothing; a wrong header marker, time stamp marker or P-STD marker gives ErrMarkerNotFound; a stuffing byte other than 0xFF gives ErrInvalidStuffingByte.", "quantifier": "every malformed header", "why_tests_cant": "Universal over malformed inputs.", "anchors": ["pes/packet.go", "pes/header.go", "pes/extension.go"]}
{"id": "C25", "title": "PES header whose parts exceed PES_header_data_length is not accepted", "statement": "If the optional parts present take more bytes than PES_header_data_length, Next does not return nil with a header (for sources shorter than 4 GiB).", "quantifier": "every header, every stream shorter than 2^32-256 bytes", "why_tests_cant": "uint32 wrap-around: 2^32 steps.", "anchors": ["pes/header.go: readHeader, readStuffingBytes"]}
{"id": "C26", "title": "pes.NewPayloadReader delivers exactly the payload bytes whatever the sizes of the reads", "statement": "Over a stream of well formed PES packets that carry a header and a length, for every sequence of read sizes the bytes returned are a prefix of the concatenation of the payloads in order; nil error means the buffer was filled; all bytes are delivered before the end is reported.", "quantifier": "every packet sequence, every read schedule", "why_tests_cant": "Histories.", "anchors": ["pes/payload_reader.go: payloadReader.Read"]}
{"id": "C27", "title": "Padding contributes nothing to the PES payload stream", "statement": "A padding packet between two PES packets does not change the bytes delivered by pes.NewPayloadReader.", "quantifier": "every packet sequence", "why_tests_cant": "History dependent. (Expected to be violated: the previous payload is delivered again.)", "anchors": ["pes/payload_reader.go", "pes/packet.go"]}
{"id": "C28", "title": "Program stream pack header decodes to exactly what was encoded", "statement": "NewPackHeader on an ISO 13818-1 pack header returns the encoded SCR extension, program_mux_rate and the SCR base modulo 2^32, skips exactly the stuffing bytes, and leaves the stream after the header (and after the system header, if present); a missing marker gives ErrMarkerNotFound, another start code ErrUnexpectedStartCode without consuming anything.", "quantifier": "every SCR, mux rate, stuffing length and content, every following stream", "why_tests_cant": "2^64 header values.", "anchors": ["ps/pack_header.go: NewPackHeader", "ps/start_code.go"]}
{"id": "C29", "title": "Program stream system header decodes to exactly what was encoded", "statement": "SystemHeader fields and the stream table equal the encoded ones for any number of streams.", "quantifier": "every field value, every stream list", "why_tests_cant": "Unbounded stream list. (AudioBound and VideoBound expected to be violated.)", "anchors": ["ps/system_header.go: readSystemHeader"]}
{"id": "C30", "title": "ps.NewPackReader delivers exactly the PES payloads of the program stream whatever the sizes of the reads", "statement": "Over a well formed program stream in which every pack holds a packet, ended by program_end_code, for every sequence of non-empty read sizes the bytes returned are a prefix of the concatenation of the PES payloads; io.EOF is returned exactly when the end code is reached, with the last bytes.", "quantifier": "every program stream, every read schedule", "why_tests_cant": "Histories.", "anchors": ["ps/pack_reader.go: packreader.Read"]}
{"id": "C31", "title": "ps.NewPackReader reports the end or an error on a truncated stream", "statement": "When the source ends without program_end_code, Read returns a non-nil error, and does not lose bytes already copied.", "quantifier": "every truncated stream", "why_tests_cant": "Universal. (Expected to be violated: 0, nil forever, dropping what was copied.)", "anchors": ["ps/pack_reader.go: packreader.Read"]}
{"id": "C32", "title": "ps.Decoder: the bit reader is never used by two goroutines at once and packs come in order, under every schedule", "statement": "For every schedule of the decoder goroutine, the pack goroutines and the consumer, at most one goroutine uses the bit reader at a time, a pack's packets come in stream order, Packs() is closed before done fires, done carries true iff Err() is nil. Err() is nil only if the program end code follows the last pack; without it every packet is delivered all the same, and Err() says that it is missing.", "quantifier": "every schedule, every stream", "why_tests_cant": "Interleavings.", "anchors": ["ps/decoder.go: decoder.Go", "ps/pack.go: readPack"]}
{"id": "C33", "title": "Start code Check never consumes, Assert consumes exactly the code and only on a match", "statement": "For ps and video start codes and extension ids: Check leaves the stream unchanged and tells whether the next bits are the code; Assert consumes exactly the code when present and otherwise returns ErrUnexpectedStartCode / ErrUnexpectedExtensionID with the stream unchanged.", "quantifier": "every stream, every code", "why_tests_cant": "Universal over streams.", "anchors": ["ps/start_code.go", "video/start_codes.go", "video/extension_id.go"]}
{"id": "C34", "title": "AlignTo stops at the first byte-aligned occurrence of the start code", "statement": "AlignTo(c) returns nil iff c occurs byte aligned in the rest of the stream; then the stream stands at the first occurrence; otherwise it returns the source's error. It always terminates.", "quantifier": "every stream, every code, every bit alignment", "why_tests_cant": "Unbounded search.", "anchors": ["video/video_sequence.go: AlignTo"]}
{"id": "C35", "title": "next_start_code skips only zero stuffing", "statement": "Before each structure, any number of zero bytes after alignment is skipped up to the 0x000001 prefix; any other byte gives ErrUnexpectedNonZeroByte; end of stream gives the source's error; always terminates.", "quantifier": "every stream", "why_tests_cant": "Unbounded stuffing.", "anchors": ["video/next_start_code.go"]}
{"id": "C36", "title": "Sequence header decodes to exactly what was encoded", "statement": "ReadSequenceHeader on an ISO 13818-2 6.2.2.1 sequence header returns exactly the encoded fields and matrices entries in transmission order and leaves the stream at the next start code; a cleared marker bit gives ErrMissingMarkerBit.", "quantifier": "every field value, every matrix content, any stuffing", "why_tests_cant": "2^60 values and 2 x 64 byte matrices.", "anchors": ["video/sequence_header.go: ReadSequenceHeader"]}
{"id": "C37", "title": "Sequence extension, picture header, picture coding extension, GOP header, display and temporal scalable extensions decode to exactly what was encoded", "statement": "For each of these structures the fields returned equal the encoded ones for every field value and the stream is left at the next start code.", "quantifier": "every field value of each structure", "why_tests_cant": "Too many values.", "anchors": ["video/sequence_extension.go", "video/picture_header.go", "video/picture_coding_extension.go", "video/group_of_pictures_header.go", "video/sequence_display_extension.go", "video/picture_temporal_scalable_extension.go"]}
{"id": "C38", "title": "Size() is the 14 bit picture size and the frame buffer covers it in whole macroblocks", "statement": "Size() returns -1,-1 before a sequence header; afterwards horizontal/vertical size = extension*4096 + value; the frame is at least that large, less than 16 larger, and a multiple of 16 in both directions.", "quantifier": "every header pair", "why_tests_cant": "2^28 sizes.", "anchors": ["video/video_sequence.go: Size", "video/picture_data.go: createFrameBuffer"]}
{"id": "C39", "title": "Every VLC table decodes exactly the ISO 13818-2 Annex B code", "statement": "For macroblock address increment, macroblock type (I,P,B), coded block pattern, motion code, DC size (luma, chroma) and DCT coefficient tables zero and one: for every bit stream, the decoder returns a symbol and consumes a codeword iff that codeword of the Annex B table is a prefix of the stream; otherwise it reports an error.", "quantifier": "every bit stream, every table", "why_tests_cant": "All bit strings.", "anchors": ["video/macroblock_addressing.go", "video/macroblock_type.go", "video/coding_block_pattern.go", "video/motion_vectors.go", "video/dtc_coefficients.go"]}
{"id": "C40", "title": "DC coefficient prediction reconstructs the encoded DC values", "statement": "For every sequence of DC values per colour component whose differences are representable, decoding the differential codes with the predictor reproduces the values, and a reset returns the predictor to 2^(7+intra_dc_precision).", "quantifier": "every sequence of differences, every precision", "why_tests_cant": "Histories of predictors.", "anchors": ["video/block.go: read", "video/dc_dct_predictors.go"]}
{"id": "C41", "title": "Block coefficient decoding reproduces the encoded run/level sequence", "statement": "For every sequence of run/level pairs that fits in 64 coefficients, coded with the VLC table where possible or with escapes, block.read yields the block with each level at its position and zeros elsewhere, and consumes exactly the code including end of block.", "quantifier": "every run/level sequence, both tables, intra and non-intra, any mixture of escape and VLC coding", "why_tests_cant": "Unbounded choice of sequences.", "anchors": ["video/block.go: read", "video/dtc_coefficients.go"]}
{"id": "C42", "title": "No bit stream makes block decoding panic", "statement": "block.read returns a block or an error for every bit stream.", "quantifier": "every bit stream", "why_tests_cant": "Universal. (Expected to be violated: runs past coefficient 63 index out of range.)", "anchors": ["video/block.go: read"]}
{"id": "C43", "title": "Inverse quantisation computes the ISO 13818-2 7.4 formula, saturates, applies mismatch control and never overflows", "statement": "For every coefficient block in range, every matrix and quantiser scale code: each output is the saturated value of the 7.4.2 formula, outputs lie in [-2048,2047], their sum is odd, and 32 bit arithmetic does not wrap.", "quantifier": "every block, matrix, scale code, scan, precision, colour component", "why_tests_cant": "2^768 blocks.", "anchors": ["video/decode_block.go: decode_block", "video/quantiser_scale_table.go"]}
{"id": "C44", "title": "The inverse scans are the standard zig-zag and alternate permutations", "statement": "Both scan tables are permutations of 0..63; scan 0 is the zig-zag order defined by walking anti-diagonals; decode_block places coefficient n of the bit stream at the position whose scan number is n.", "quantifier": "every position, every block", "why_tests_cant": "Universal over blocks.", "anchors": ["video/decode_block.go: scan"]}
{"id": "C45", "title": "The IDCT of a DC-only block is flat and correctly rounded; the IDCT does not overflow on bounded input", "statement": "For every DC value, the output of a DC-only block is (dc+4)>>3 everywhere; for every block with a DC coefficient in -2048..2048 and AC coefficients whose absolute values sum to at most 2100, and for every block whose exact inverse transform stays within -500..500, 32 bit arithmetic does not wrap.", "quantifier": "every block", "why_tests_cant": "2^768 blocks.", "anchors": ["video/idct.go: idct"]}
{"id": "C46", "title": "Decoded samples are always 0..255 and clamping is exact", "statement": "Every sample of the three planes of every frame that any number of Next() calls return, over every stream - valid or not, ending anywhere, delivered in any pieces - and whatever errors come between, is in 0..255; clamp maps every value to the nearest of 0..255.", "quantifier": "every bit stream, every number of calls, every frame, plane and position", "why_tests_cant": "Universal over streams and histories of calls.", "anchors": ["video/block.go: clamp", "video/video_sequence.go: Next", "video/macroblock.go: updateFrameSlice"]}
{"id": "C47", "title": "Motion vectors decode to exactly the encoded vectors", "statement": "For every f_code 1..9, predictor and vector in [-16f,16f-1], decoding the code and residual that ISO 13818-2 7.6.3.1 assigns to their difference gives the vector; results are always in that range, for any history of vectors.", "quantifier": "every predictor history, vector, f_code", "why_tests_cant": "Histories of predictors.", "anchors": ["video/motion_vectors.go: update_actual, motion_vectors"]}
{"id": "C48", "title": "Motion compensated prediction samples are the half-sample interpolation of the reference at the displaced position", "statement": "For every in-bounds vector, prediction is the mean (rounded down) of the 1, 2 or 4 reference samples around position plus vector, averaged over directions, and lies in 0..255; intra blocks get no prediction.", "quantifier": "every vector, frame content, block position", "why_tests_cant": "Universal over frames and vectors. (Rounding and chroma vector rounding differ from the standard.)", "anchors": ["video/motion_compensation.go"]}
{"id": "C49", "title": "Macroblock blocks tile the frame exactly", "statement": "Writing the six blocks of a macroblock sets exactly the 16x16 luma and the two 8x8 chroma areas at its address, in frame and field DCT order, and changes no other sample.", "quantifier": "every macroblock address, frame content, block content, stride", "why_tests_cant": "Universal over frames.", "anchors": ["video/macroblock.go: updateFrameSlice"]}
{"id": "C50", "title": "Skipped macroblocks in P pictures repeat the reference samples at the same place", "statement": "Copying n skipped macroblocks sets exactly their luma and chroma samples to those of the past frame and changes nothing else.", "quantifier": "every frame, row, column, count in bounds", "why_tests_cant": "Universal over frames.", "anchors": ["video/copy_macroblocks.go: pframe_copy_macroblocks"]}
{"id": "C51", "title": "Macroblock address increment is 33 per escape plus the decoded increment", "statement": "For every number of escapes and every increment 1..33 the address advances by 33*escapes+increment.", "quantifier": "every number of escapes, every increment", "why_tests_cant": "Unbounded escapes.", "anchors": ["video/macroblock.go: macroblock"]}
{"id": "C52", "title": "Reference frames: past and future are the neighbouring references in display order", "statement": "When a B picture between two references is decoded, past is the reference before it and future the reference after it in display order; when a P picture is decoded past is the latest reference.", "quantifier": "every coding-order history of pictures and GOPs", "why_tests_cant": "Histories.", "anchors": ["video/frame_store.go"]}
{"id": "C53", "title": "Next() returns every picture exactly once in display order", "statement": "For every sequence of closed or open GOPs in valid coding order, successive Next() calls return the pictures of each GOP in temporal_reference order, GOP after GOP, none lost and none repeated.", "quantifier": "every sequence of GOPs of any length, any reference structure", "why_tests_cant": "Unbounded histories.", "anchors": ["video/video_sequence.go: Next", "video/frame_provider.go: step", "video/frame_store.go"]}
{"id": "C54", "title": "Extension data after a GOP header does not hang the decoder", "statement": "Next() terminates on every finite stream.", "quantifier": "every stream", "why_tests_cant": "Non-termination. (Expected to be violated: an extension start code after a GOP header loops forever.)", "anchors": ["video/extension_and_user_data.go"]}
{"id": "C55", "title": "User data is delivered byte for byte up to the next start code", "statement": "user_data consumes and returns exactly the bytes between its start code and the next start code prefix.", "quantifier": "every byte content without a start code prefix", "why_tests_cant": "Unbounded content.", "anchors": ["video/user_data.go"]}
{"id": "C56", "title": "GOP time code fields are extracted exactly", "statement": "TimeCode() returns the encoded drop frame flag, hours, minutes, seconds and pictures for every 25 bit code.", "quantifier": "every time code", "why_tests_cant": "2^25 values.", "anchors": ["video/group_of_pictures_header.go: TimeCode"]}
{"id": "C57", "title": "ExtensionID.IsReserved is true exactly of the ids declared reserved", "statement": "IsReserved holds of exactly the 4 bit ids that the package declares as reserved.", "quantifier": "all 16 ids", "why_tests_cant": "Finite but untested. (Expected to be violated for 11.)", "anchors": ["video/extension_id.go"]}
{"id": "C58", "title": "Coded block pattern selects exactly the coded blocks", "statement": "Block i is coded iff the macroblock is intra, or it has a pattern and bit 5-i of the cbp is set.", "quantifier": "every cbp, i", "why_tests_cant": "Universal.", "anchors": ["video/coding_block_pattern.go: decode"]}
{"id": "C59", "title": "A bit stream error is reported: frames come only from data that follows the syntax", "statement": "If Next returns a frame, everything it has read follows the syntax of ISO 13818-2 6.2: headers, extensions and user data in their order, every macroblock made of code words of the tables and fields of the right width, every block at most 64 coefficients; data that does not (a code that is in no table, for example a coded block pattern) makes Next return an error or panic, not a frame.", "quantifier": "every stream, damaged or not, every number of calls", "why_tests_cant": "Damaged data: there are more wrong streams than right ones. (Expected to be violated: the error of an undecodable coded block pattern is dropped.)", "anchors": ["video/macroblock.go: macroblock", "video/slice.go: slice", "video/picture_data.go: picture_data", "video/frame_provider.go: step", "video/video_sequence.go: Next"]}
{"id": "C60", "title": "Quantiser matrices: defaults after every sequence header, replaced only by those transmitted", "statement": "After a sequence header the luma and chroma intra/non-intra matrices are the transmitted ones or the defaults; a quant matrix extension replaces exactly those it carries.", "quantifier": "every header and extension history", "why_tests_cant": "Histories.", "anchors": ["video/sequence_header.go: sequence_header", "video/quant_matrix_extension.go"]}
{"id": "C61", "title": "Reading a PES packet never panics", "statement": "pes.Packet.Next returns nil or an error on every byte stream.", "quantifier": "every byte stream", "why_tests_cant": "All byte streams. (Expected to be violated: unsupported optional header parts panic.)", "anchors": ["pes/header.go: readHeader", "pes/extension.go", "pes/packet.go: Packet.Next"]}
{"id": "C62", "title": "A truncated PES packet is an error", "statement": "For every PES packet and every proper byte prefix of it that ends the source, Next returns an error, never a short payload.", "quantifier": "every packet, every cut point", "why_tests_cant": "Unbounded payloads times every cut.", "anchors": ["pes/packet.go: Packet.Next", "pes/header.go"]}
{"id": "C63", "title": "Reading PES packets and payloads always ends", "statement": "Packet.Next, and Read of the payload reader with any buffer, return after finitely many steps on every finite source, whatever its bytes.", "quantifier": "every finite source, every buffer size", "why_tests_cant": "Non-termination is not testable.", "anchors": ["pes/packet.go: Packet.Next", "pes/payload_reader.go"]}
{"id": "C64", "title": "ps.NewPackReader skips packs without packets", "statement": "A pack made of its header alone (allowed by ISO 13818-1) does not change what the pack reader delivers.", "quantifier": "every program stream, every read size", "why_tests_cant": "All streams. (Expected to be violated: 0, nil instead of the data and io.EOF.)", "anchors": ["ps/pack_reader.go: packreader.Read"]}
{"id": "C65", "title": "Reading packs never panics in the header, always ends, and rejects truncated headers", "statement": "NewPackHeader returns a header or an error on every byte stream; on every proper byte prefix of a pack header it returns an error; Read of the pack reader returns after finitely many steps on every finite source and every buffer size.", "quantifier": "every byte stream, every cut point, every buffer size", "why_tests_cant": "All byte streams; non-termination is not testable.", "anchors": ["ps/pack_header.go: NewPackHeader", "ps/system_header.go: readSystemHeader", "ps/pack_reader.go: packreader.Read"]}
{"id": "C66", "title": "Downloaded quantiser matrices are placed in zigzag order", "statement": "After a sequence header (or quant matrix extension) carrying a matrix, weight number k of the transmitted list is used for the coefficient whose zigzag scan number is k, as ISO 13818-2 6.3.11 requires.", "quantifier": "every transmitted matrix", "why_tests_cant": "All 2^512 matrices; test streams use default matrices. (Expected to be violated: stored in raster order.)", "anchors": ["video/sequence_header.go: ReadSequenceHeader", "video/quant_matrix_extension.go: quant_matrix_extension"]}
{"id": "C67", "title": "Video header parsers never panic nor hang, and reject truncated headers", "statement": "Every header and extension parser the decoder supports returns a value or an error on every byte stream; on every proper byte prefix of a sequence header, sequence extension, picture header or picture coding extension an error is returned.", "quantifier": "every byte stream, every cut point", "why_tests_cant": "All byte streams; non-termination is not testable.", "anchors": ["video/sequence_header.go", "video/sequence_extension.go", "video/picture_header.go", "video/picture_coding_extension.go", "video/group_of_pictures_header.go", "video/user_data.go", "video/next_start_code.go"]}
{"id": "C68", "title": "TimeCode.String has the documented SMPTE format", "statement": "String() is HH:MM:SS:FF with two digits for each field and ';' before the pictures in drop frame; different time codes have different strings.", "quantifier": "every time code with fields of at most two digits", "why_tests_cant": "All values of four fields. (Expected to be violated: hours below ten get one digit.)", "anchors": ["video/group_of_pictures_header.go: TimeCode.String"]}
{"id": "C69", "title": "Field based prediction predicts each field with its own vector from the selected field", "statement": "In a macroblock of a frame picture with field motion, the even lines are predicted with the first vector and the odd lines with the second, each from the lines of the reference of the parity that the field select bit names.", "quantifier": "every pair of vectors, selects, reference content", "why_tests_cant": "Universal over frames and vectors. (Expected to be violated: only the first vector is used, as a frame vector.)", "anchors": ["video/motion_vectors.go: motion_vectors", "video/motion_compensation.go"]}
{"id": "C70", "title": "Interpolation and averaging round as the standard demands", "statement": "Half-sample means and the mean of both directions are rounded to the nearest integer (halves up) and chroma vectors are halved towards zero, ISO 13818-2 7.6.3.7 and 7.6.4, so that decoded pictures do not drift from the encoder's.", "quantifier": "every vector, frame content, block position", "why_tests_cant": "Universal over frames and vectors. (Expected to be violated: means are rounded down.)", "anchors": ["video/motion_compensation.go"]}
{"id": "C71", "title": "A predicted macroblock is its prediction plus its residual, clamped", "statement": "After a non-intra macroblock every one of its samples is the clamped sum of the residual at its place and the prediction for its place, in frame and in field DCT order, and no other sample changes.", "quantifier": "every residual, reference content, vector, macroblock address, DCT order", "why_tests_cant": "Universal over frames. (Expected to be violated for field DCT order: prediction is added in frame order and then written in field order.)", "anchors": ["video/macroblock.go: macroblock, updateFrameSlice", "video/motion_compensation.go"]}
{"id": "C72", "title": "Skipped macroblocks in B pictures repeat the previous prediction", "statement": "Skipped macroblocks of a B picture become the prediction with the vectors and directions of the macroblock before them, and nothing else changes.", "quantifier": "every frame, row, address, count, vectors, directions", "why_tests_cant": "Universal over frames and vectors.", "anchors": ["video/copy_macroblocks.go: bframe_copy_macroblocks", "video/macroblock.go: macroblock"]}
{"id": "C73", "title": "A whole sequence decodes to the pictures its syntax elements describe", "statement": "For every MPEG-2 video sequence of I, P and B frame pictures (4:2:0, frame prediction, frame or field DCT order of intra macroblocks, any slices, skips, quantiser changes, vectors inside the references, concealment vectors under frame_pred_frame_dct, any matrices, extensions, user data and stuffing), successive Next() calls return the pictures reconstructed from the syntax elements by the formulas of ISO 13818-2 chapter 7 - with the decoder's own integer inverse DCT, and means rounded down (C70) -, every sample of them, in display order, and then the end of the sequence.", "quantifier": "every sequence of groups of pictures, of any length and size", "why_tests_cant": "Unbounded streams: the property composes every parser and every arithmetic step of the decoder.", "anchors": ["video/video_sequence.go: Next", "video/frame_provider.go: step", "video/picture_data.go", "video/slice.go", "video/macroblock.go", "video/block.go", "video/decode_block.go", "video/motion_vectors.go", "video/motion_compensation.go", "video/copy_macroblocks.go", "video/frame_store.go"]}
{"id": "C74", "title": "The inverse DCT is within a stated distance of the exact transform", "statement": "For every block of coefficients whose exact inverse transform (ISO 13818-2 Annex A, on real numbers) stays within -500..500, every sample the decoder's integer inverse transform produces differs from the exact one by at most 0.585 + S/11000, where S is the sum of the magnitudes of the AC coefficients; for S up to 4500 it is one of the two integers next to the exact value.", "quantifier": "every block, every sample position", "why_tests_cant": "2^768 blocks and real-valued cosines; a test compares samples on a few blocks.", "anchors": ["video/idct.go: idct"]}
{"id": "C75", "title": "The README's program gets the frames out of a transport stream", "statement": "Chaining NewPayloadUnitReader, the PES NewPayloadReader, NewVideoSequence, AlignTo(SequenceHeaderStartCode) and Next() over a transport stream that carries a video sequence in PES packets on one PID, next to other packets and after bytes that are not a sequence header, returns the frames of that sequence in display order and then its end.", "quantifier": "every transport stream, PID, division into packets, units and PES packets, leading bytes, sequence", "why_tests_cant": "Composition of three parsers and four buffering layers over unbounded streams. (Expected to be violated when the PES packets state their length, and for the last unit.)", "anchors": ["README.md", "ts/payload_unit_reader.go", "ts/payload_reader.go", "pes/payload_reader.go", "video/video_sequence.go: NewVideoSequence, AlignTo, Next"]}
{"id": "C76", "title": "A stream gives no more frames than it has pictures", "statement": "However often Next() is called, a coded picture is returned at most once: a stream of b bytes gives at most b/4 frames (a picture takes at least its start code), whether it is valid or not.", "quantifier": "every byte sequence, every number of calls", "why_tests_cant": "Unbounded streams and call histories; a frame kept in the store could be returned again for ever.", "anchors": ["video/video_sequence.go: Next", "video/frame_store.go: tryGet", "video/frame_provider.go: step"]}
{"id": "C77", "title": "A stream that breaks off gives its first frames undamaged and then an error", "statement": "If the bytes end anywhere - inside a header, a macroblock or a start code -, every frame that Next() does return is the frame it returns on the whole stream, a panic or a hang on what is there is one on the whole stream, and an error is the reader's own or is reported on the whole stream, too. A valid sequence cut after any number of bytes gives the first frames of the sequence, each complete, and then the error of the reader under the decoder (io.EOF, io.ErrUnexpectedEOF or whatever it reports), never EOS or another error: no half-decoded frame is ever returned, and a truncated stream can be told from a complete one. All frames of the groups that are there completely are returned.", "quantifier": "every stream, every point of truncation, every decoder state", "why_tests_cant": "Every byte position of every stream; parsers drop some errors, so that a truncation could go unnoticed.", "anchors": ["video/video_sequence.go: Next", "video/frame_provider.go: step", "video/macroblock.go: macroblock", "video/slice.go"]}
{"id": "C78", "title": "Several sequences in one stream decode one after the other", "statement": "On a stream of sequences, each closed by a sequence end code, successive Next() calls return the frames of the first in display order, then EOS, then the frames of the second, and so on; the bytes after the last end code are left unread.", "quantifier": "every list of sequences, every rest of the stream", "why_tests_cant": "Unbounded streams; frame counters and references of one sequence must not disturb the next.", "anchors": ["video/video_sequence.go: Next", "video/frame_provider.go: step", "video/frame_store.go"]}
{"id": "C79", "title": "A program stream's video plays", "statement": "Chaining NewPackReader, NewVideoSequence, AlignTo(SequenceHeaderStartCode) and Next() over a program stream, closed by its end code, whose packets of one stream id carry a video sequence, next to padding and packets of other streams, returns the frames of that sequence in display order and then its end.", "quantifier": "every program stream, division into packs and packets, leading bytes, sequence", "why_tests_cant": "Composition of three parsers over unbounded streams. (Expected to be violated when other streams are multiplexed with the video.)", "anchors": ["ps/pack_reader.go: NewPackReader, Read", "ps/decoder.go", "video/video_sequence.go: NewVideoSequence, AlignTo, Next"]}
{"id": "C80", "title": "Decoding goes on after damage", "statement": "Whatever the decoder has been through - errors, truncated or undecodable pictures -: once AlignTo has found the header of a sequence (or, with the headers still in force, a group of pictures that needs no earlier references), successive Next() calls return at most two frames that had been decoded before and then the frames of that sequence in display order, and its end.", "quantifier": "every state of the decoder, every position in the stream, every garbage before the header, every sequence", "why_tests_cant": "Every history of errors; counters, references, headers and matrices left over must not disturb what follows.", "anchors": ["video/video_sequence.go: AlignTo, Next", "video/frame_provider.go: step", "video/frame_store.go"]}
{"id": "C81", "title": "A stream without sequence extensions is refused", "statement": "When the sequence header is followed by anything other than its extension - as in every MPEG-1 stream - the first Next() returns ErrUnsupportedVideoStream_ISO_IEC_11172_2 and leaves the reader at the start code that was found instead. A stream that contains no extension start code never yields a frame, nor a panic: every Next() call returns an error.", "quantifier": "every sequence header, every following start code, every byte stream without an extension start code, any number of calls", "why_tests_cant": "All streams and all histories of calls on them; the later calls start from whatever headers the failed ones left behind.", "anchors": ["video/frame_provider.go: step, ErrUnsupportedVideoStream_ISO_IEC_11172_2", "video/video_sequence.go: Next"]}
{"id": "C82", "title": "Pictures of more than 2800 lines", "statement": "In a sequence of more than 2800 lines (by its 12-bit vertical_size_value) every slice of an I picture appears in the row that its start code and slice_vertical_position_extension name together (row = 128 * extension + code - 1).", "quantifier": "every sequence of such I pictures, every arrangement of slices, every sample", "why_tests_cant": "Only sequences taller than any test file use the extension; all rows, all contents.", "anchors": ["video/slice.go: slice", "video/picture_data.go: picture_data", "video/video_sequence.go: Next"]}
{"id": "C83", "title": "Decoding may start at any sequence header", "statement": "A decoder that joins a stream in the middle - NewVideoSequence on bytes that start anywhere, AlignTo(SequenceHeaderStartCode), Next() - returns, for the sequence from that header on, the same frames in the same order as a decoder that has seen everything before, and then its end; frames that cannot be decoded for want of a reference are not returned.", "quantifier": "every sequence, every repeated sequence header in it, every garbage before it", "why_tests_cant": "All streams and all starting points; what is missing shows only in the store's state.", "anchors": ["README.md", "video/video_sequence.go: AlignTo, Next", "video/frame_store.go: set", "video/motion_compensation.go: motion_compensation"]}
{"id": "C84", "title": "Concealment motion vectors do no harm", "statement": "A picture with concealment_motion_vectors = 1 decodes to the frame its syntax elements describe: the vectors of intra macroblocks are read, serve as predictions of later vectors, and change no sample; an I picture gives the frame it gives without them.", "quantifier": "every picture with concealment vectors, every sequence around it", "why_tests_cant": "All vectors, all positions; a stray bit shifts everything after it. (Expected to be violated when frame_pred_frame_dct = 0.)", "anchors": ["video/macroblock.go: macroblock", "video/motion_vector_info.go: mv_info", "video/motion_vectors.go"]}
{"id": "C85", "title": "A sequence that is not 4:2:0 is refused, not decoded as if it were", "statement": "No frame is ever returned from a sequence whose extension says 4:2:2 or 4:4:4, or gives the reserved chroma format; the caller gets an error.", "quantifier": "every byte stream, every number of Next() calls", "why_tests_cant": "All streams; the block count, buffers and matrices depend on the format in many places. (Expected to be violated: panics.)", "anchors": ["video/macroblock.go: macroblock, updateFrameSlice", "video/coding_block_pattern.go", "video/picture_data.go: createFrameBuffer"]}
{"id": "C86", "title": "One coded frame is one returned frame, whether it is one frame picture or two field pictures", "statement": "Next() returns one frame for every frame picture, and one frame for every pair of field pictures, with the lines of the two fields by turns.", "quantifier": "every sequence", "why_tests_cant": "Unbounded sequences. (Expected to be violated for field pictures.)", "anchors": ["video/frame_provider.go: step", "video/picture_data.go", "video/video_sequence.go: Next"]}
{"id": "C87", "title": "No stream makes Next() panic", "statement": "Whatever the bytes, Next() returns a frame or an error.", "quantifier": "every byte stream, every number of calls", "why_tests_cant": "All byte streams. (Expected to be violated: many malformed and some valid streams panic.)", "anchors": ["video/video_sequence.go: Next", "video/macroblock.go", "video/slice.go", "video/block.go", "video/motion_vectors.go", "video/extension_and_user_data.go"]}
{"id": "C88", "title": "Printed packets, pictures and chroma formats", "statement": "Packet.String shows the PID and the continuity counter in hexadecimal, PictureHeader.String the coding type (I, P, B, D, or the number and a question mark) and the temporal reference in decimal, ChromaFormat.String the sampling ratio or [Invalid]. Packets with different PIDs or counters, and pictures with different types or temporal references, print differently.", "quantifier": "every field value", "why_tests_cant": "All values of 32 bits, and pairs of them.", "anchors": ["ts/packet.go: Packet.String", "video/picture_header.go: PictureHeader.String", "video/picture_coding_type.go: PictureCodingType.String", "video/chroma_format.go: ChromaFormat.String"]}
{"id": "C89", "title": "Frames keep their pictures and are all different", "statement": "The image that a call of Next returns is an object of its own: no two calls, whatever the stream and whatever errors come between, return the same image, and no later call of Next changes a sample of an image returned before. A caller that collects the images of a whole sequence and looks at them after the last call sees the pictures of the sequence in display order.", "quantifier": "every byte stream, every number of calls of Next on a new decoder, calls that return errors included; every frame returned at any time and every later moment", "why_tests_cant": "The decoder keeps pointers to returned images as references for later pictures, so one write through a kept pointer at any later time would spoil an image in the caller's hands; a test looks at a few frames of a few streams.", "anchors": ["video/frame_store.go frameStore.add, frameStore.tryGet, frameStore.set", "video/picture_data.go createFrameBuffer, picture_data", "video/video_sequence.go VideoSequence.Next", "video/slice.go slice"]}
{"id": "C90", "title": "A caller may draw on the frames it was given", "statement": "What a caller writes into an image returned by Next has no influence on what later calls return, neither on their pictures nor on their errors.", "quantifier": "every byte stream, every history of calls, every frame returned, everything that could be written to it, every number of later calls", "why_tests_cant": "Whether an image is still shared with the decoder depends on the whole history of pictures and on what is decoded afterwards; a test that draws on one frame shows it for that frame.", "anchors": ["video/frame_store.go frameStore.add", "video/frame_provider.go step", "video/video_sequence.go VideoSequence.Next"]}
{"id": "C91", "title": "The frames stay close to those of the standard", "statement": "The decoder's means are rounded differently from those of the standard, and pictures are predicted from pictures, so differences accumulate. For every coded sequence, the frames Next returns equal, sample by sample, what the standard's arithmetic makes of the same data in I pictures; in a P picture they differ by at most the number of P pictures since the I picture, in a B picture by at most two more. For luma this holds whatever the vectors are, for chroma where no vector component is negative and odd. The bound is reached.", "quantifier": "every coded sequence of frame pictures, every reference structure, every vector, every length of a group, every sample", "why_tests_cant": "The difference depends on all pictures since the last I picture; a test compares one decoded clip with one reference decoder.", "anchors": ["video/motion_compensation.go block.motion_compensation", "video/macroblock.go macroblock", "video/video_sequence.go VideoSequence.Next"]}
{"id": "C92", "title": "A demuxer channel turned into a channel of payloads delivers the payloads", "statement": "What is received from demuxer.Where(t).PayloadOnly() are, in order, the payloads of the packets of the window that satisfy t, one for each, and the channel is closed after the last.", "quantifier": "every packet stream, every list of testers, every schedule of the two goroutines and of the receivers", "why_tests_cant": "The goroutines share one Packet and its buffer; which bytes a receiver sees depends on the schedule, and the race detector reports only the schedules that were run.", "anchors": ["ts/demuxer.go Demuxer.Go", "ts/demuxer.go Demuxer.Where", "ts/packet_channel.go PacketChannel.PayloadOnly"]}
{"id": "C93", "title": "A header is accepted only if it is one, and then its fields are those in the stream", "statement": "When the reader of a sequence header, sequence extension, group of pictures header, picture header, picture coding extension, display extension or temporal scalable extension returns no error, the stream began with the encoding of such a structure (start code, every field in its width, markers set, matrices complete), the result holds exactly its fields, and consumed are exactly these bits, the bits up to the byte boundary and zero bytes. Extensions and user data that are accepted are a sequence of the structures allowed at that place.", "quantifier": "every stream, damaged or not", "why_tests_cant": "The converse of decoding what was encoded: it is about all wrong headers, of which no test can list more than a few.", "anchors": ["video/sequence_header.go ReadSequenceHeader", "video/sequence_extension.go", "video/group_of_pictures_header.go", "video/picture_header.go", "video/picture_coding_extension.go", "video/sequence_display_extension.go", "video/picture_temporal_scalable_extension.go", "video/extension_and_user_data.go"]}
{"id": "C94", "title": "A PES packet is accepted only if it is one", "statement": "When pes.Packet.Next returns nil, the stream began with a PES packet of the syntax (prefix, id, length, header with its markers, time stamps, extension and stuffing as the flags and PES_header_data_length say), Packet holds its fields and payload, and consumed is exactly that packet; a packet without a length extends to the end of the unit.", "quantifier": "every stream, damaged or not, every earlier content of the Packet", "why_tests_cant": "The converse of decoding what was encoded: it is about all wrong packets, of which no test can list more than a few.", "anchors": ["pes/packet.go Packet.Next", "pes/header.go", "pes/extension.go"]}
{"id": "C95", "title": "A pack header is accepted only if it is one", "statement": "When NewPackHeader returns no error, the stream began with a pack header of the syntax, with a system header if and only if its start code follows, the result holds its fields, and consumed is exactly that header.", "quantifier": "every stream, damaged or not", "why_tests_cant": "The converse of decoding what was encoded: it is about all wrong headers, of which no test can list more than a few.", "anchors": ["ps/pack_header.go NewPackHeader", "ps/system_header.go"]}
{"id": "C96", "title": "A transport packet is accepted only if it is one", "statement": "When ts.Packet.Next returns nil, the stream continued, after the rest of a byte and at most 187 bytes none of which is the sync byte, with a transport packet of the syntax: sync byte, header, adaptation field with the parts its flags announce, payload up to 188 bytes; Packet holds its fields, adaptation field and payload, and consumed is exactly that packet.", "quantifier": "every stream, damaged or not, every earlier content of the Packet", "why_tests_cant": "The converse of decoding what was encoded: it is about all wrong packets, of which no test can list more than a few.", "anchors": ["ts/packet.go Packet.Next", "ts/adaptation_field.go newAdaptationField, newAdaptationExt, newTransportPrivateData"]}
{"id": "C97", "title": "Exactly which data ts.Packet.Next accepts, with which result, and on which it panics", "statement": "Next succeeds if and only if, after the rest of a byte and fewer than 188 bytes none of which is the sync byte, the data begins with a packet: header, adaptation field read part by part (an announced part that does not fit is absent), payload up to 184 bytes; the Packet then holds it (what is not in the packet keeps its value) and the source continues right behind it. It panics if and only if adaptation_field_control is 3 and the field is at least 184 bytes long. Otherwise it returns an error.", "quantifier": "every source of bytes, aligned or not, whole or damaged, every earlier content of the Packet", "why_tests_cant": "An equivalence over all sources: tests sample either side, neither exhausts the accepted nor the rejected ones.", "anchors": ["ts/packet.go Packet.Next", "ts/adaptation_field.go newAdaptationField, newAdaptationExt, newTransportPrivateData"]}
{"id": "C98", "title": "Exactly which data pes.Packet.Next accepts, with which result, and on which it panics", "statement": "Next succeeds if and only if the source begins with: a packet with a header (parts, stuffing and PES_header_data_length in agreement; also with the forbidden PTS_DTS_flags '01' and no time stamps) and a payload up to its length; one with length 0, then with everything up to the end of the unit; a padding packet; or the first six bytes of another packet whose id has no header. The Packet then holds it and the source continues right behind it. It panics if and only if the packet has a header whose fixed part and time stamps are in order and that announces ESCR, ES rate, trick mode, additional copy info, CRC, or an extension with a pack header, a sequence counter or a second extension. Otherwise it returns an error.", "quantifier": "every source of bytes, whole or damaged, every earlier content of the Packet", "why_tests_cant": "An equivalence over all sources: tests sample either side, neither exhausts the accepted nor the rejected ones.", "anchors": ["pes/packet.go Packet.Next", "pes/header.go", "pes/extension.go"]}
{"id": "C99", "title": "Exactly which data NewPackHeader accepts, with which result", "statement": "NewPackHeader succeeds if and only if the source begins with a pack header of the syntax, with up to seven stuffing bytes, that is followed by 32 bits other than the system header start code, or by a system header of any header_length whose list of streams ends at a bit 0; the result then holds its fields (with the bounds as in C29) and the source continues right behind it. It never panics, and otherwise returns an error.", "quantifier": "every source of bytes, whole or damaged", "why_tests_cant": "An equivalence over all sources: tests sample either side, neither exhausts the accepted nor the rejected ones.", "anchors": ["ps/pack_header.go NewPackHeader", "ps/system_header.go"]}
{"id": "C100", "title": "The payload readers of ts and pes deliver what a loop over Next would see, errors included", "statement": "Whatever the source - damaged, cut, or failing and then going on - the Reads of ts.NewPayloadReader(source, where) and of pes.NewPayloadReader(source) give, whatever the sizes of the buffers, the bytes and errors that calling Next again and again on the source gives: the payload of each packet returned without error (and accepted by where), and each error at its place, returned by one Read together with the bytes before it. Nothing is lost, repeated or reordered by an error, and over a source that ends every Read returns, unless Next panics.", "quantifier": "every source, every where, every sequence of buffer sizes, every number of errors", "why_tests_cant": "A statement about all sources with all faults, and all ways to cut the result into reads.", "anchors": ["ts/payload_reader.go payloadReader.Read", "pes/payload_reader.go payloadReader.Read"]}
{"id": "C101", "title": "Damage in the source costs the payload unit reader no more than the unit it falls into", "statement": "Every unit that ts.NewPayloadUnitReader returns begins with a packet with the start indicator and holds the payload of each of its packets once, also after a Read that returned an error.", "quantifier": "every source with damage between its packets, every where, every sequence of buffer sizes", "why_tests_cant": "Depends on where the damage falls and on what the reader kept when the error was returned.", "anchors": ["ts/payload_unit_reader.go Read, fill"]}
{"id": "C102", "title": "What a stream must hold for Next to panic", "statement": "If calls of video.VideoSequence.Next have returned frames and the next call panics, then the stream is headers and pictures that follow the syntax, and after them one of: an extension that the decoder does not support (sequence scalable, copyright, picture display, picture spatial scalable); in an I picture of a 4:2:0 stream without concealment vectors, a slice below the picture, a macroblock whose address is beyond the sample arrays, or a block with more than 64 coefficients; or a slice of any other kind of picture (P, B, D or a reserved type, with concealment vectors, or in 4:2:2 or 4:4:4). A loop over Next on any other bytes, valid or damaged, does not panic.", "quantifier": "every stream, valid or not, every number of calls before", "why_tests_cant": "A statement about all byte streams: each of these causes is one line of the decoder, and only a proof can say that there is no other.", "anchors": ["video/video_sequence.go Next", "video/slice.go slice", "video/macroblock.go macroblock", "video/block.go read", "video/extension_and_user_data.go", "video/sequence_scalable_extension.go"]}
{"id": "C103", "title": "Every frame returned is the one its bits stand for, or they break a listed rule", "statement": "Whatever the stream, valid or damaged: if calls of video.VideoSequence.Next have returned frames, then what was read are pictures with their headers, every returned frame is the frame of one of them, and the frame of each 4:2:0 frame picture (I, P or B, at most 2800 lines) shows exactly the samples its slices stand for - with the matrices in force for it, predicted from the frames next to it in display order - unless its data break one of a list of rules: quantiser scale 0, a slice or macroblock outside of the picture, a DC value out of range, a prediction with samples outside of the reference, macroblocks skipped in an I picture, field prediction or field DCT in a predicted macroblock, or a missing coded block pattern. So no picture is silently decoded wrongly for any other reason.", "quantifier": "every stream, valid or not, every number of calls", "why_tests_cant": "Tests compare decoded frames of some streams with expected ones. That there is no other way to get a wrong frame is a statement about all streams.", "anchors": ["video/video_sequence.go VideoSequence.Next", "video/slice.go slice", "video/macroblock.go macroblock", "video/block.go block", "video/motion_vectors.go", "video/frame_store.go"]}
{"id": "C104", "title": "From any stream, Next shows the frame that is due, in the order of temporal references", "statement": "Whatever the stream, valid or damaged: calls of video.VideoSequence.Next that return frames decode pictures and show frames so that a frame is shown exactly when it is due - its temporal_reference is the number of frames shown since the last group of pictures header, and its picture has just been decoded or is one of the last two I or P pictures decoded since that header - and another picture is decoded only when no frame is due. So within each group frames come in the order 0, 1, 2, ... with none left out and none twice, from the pictures of that group only, and no call reads more than it must.", "quantifier": "every stream, valid or not, every number of calls", "why_tests_cant": "Orders of temporal references and picture types in a stream are unlimited; tests show the order of some well-formed streams.", "anchors": ["video/video_sequence.go VideoSequence.Next", "video/frame_store.go set, add, tryGet, gop"]}
{"id": "C105", "title": "An error of Next says what is wrong with the stream, and where", "statement": "Whatever the stream and whatever calls were made before: when video.VideoSequence.Next returns an error, it is the error of a source that has come to its end (nothing left, or fewer bits than the at most 32 asked for), or the bits last read and the next ones are what the error stands for: EOS just after a sequence_end_code; the MPEG-1 error after a sequence header that no extension follows; a missing marker after a bit 0; reserved bits that are not 0 in a slice header; a byte that is not 0 where a start code must follow; bits that begin no code of the table in use; a start code that may not stand after what was read (before the first sequence header, between pictures, after a sequence extension, a group header, a picture header, a picture coding extension); an extension identifier that may not stand after the sequence or picture coding extension. No other error is ever returned.", "quantifier": "every stream, every state of the decoder, every error", "why_tests_cant": "A test can show an error for a damaged stream; that no error is ever returned for a stream without that fault is about all streams.", "anchors": ["video/video_sequence.go VideoSequence.Next", "video/frame_provider.go", "video/start_codes.go Assert", "video/next_start_code.go", "video/slice.go", "video/macroblock.go", "video/extension_id.go"]}
{"id": "C106", "title": "An error of a TS, PES or PS packet says what is wrong with the bytes, and where", "statement": "Whatever the bytes, the state of the reader and the schedule: an error returned by ts.Packet.Next, pes.Packet.Next or ps.NewPackHeader, by Read of ts.NewPayloadReader, ts.NewPayloadUnitReader, pes.NewPayloadReader or ps.NewPackReader, or by Err() of ts.Demuxer and ps.Decoder, is that of a source that has come to its end, or one of these: ErrNoSyncByte after 188 bytes of which none is 0x47; ErrStartCodePrefixNotFound in front of 24 bits other than 0x000001; ErrMarkerNotFound after a marker with another value (in pes also when the source ends in a marker); ErrInvalidStuffingByte after a byte other than 0xFF; the ps start code error in front of 32 bits other than 0x000001BA; ErrProgramEndCodeNotFound in front of 32 bits other than 0x000001B9. The only errors besides are the regular ends: io.EOF of a payload reader that TakeWhile has closed, ts.EOP when a unit has been read to its end, io.EOF of the pack reader after the program end code.", "quantifier": "every source, every state of packet and reader, every buffer size, every schedule", "why_tests_cant": "A test can show an error for damaged bytes; that no error is ever returned without that fault is about all bytes and schedules.", "anchors": ["ts/packet.go Packet.Next", "pes/packet.go Packet.Next", "ps/pack_header.go NewPackHeader", "ts/payload_reader.go", "ts/payload_unit_reader.go", "pes/payload_reader.go", "ps/pack_reader.go", "ts/demuxer.go Err", "ps/decoder.go Err"]}
{"id": "C107", "title": "Exactly what Read of ps.NewPackReader returns over any bytes", "statement": "Over any source - damaged, cut, or failing and going on - and for every sequence of buffer sizes, the answers of Read are those of a tape on which stand the payload bytes of the packets and, in their places, what else was met: fewer than 32 bits left or a packet that pes.NewPacket rejects (the Read in progress returns 0, nil, and what it had copied is lost), a pack header that NewPackHeader rejects (0 and that error, the same), a program end code (the bytes copied, with io.EOF; the next Read goes on behind it). A Read takes from the tape until its buffer is full or until it meets something that is no byte. What is delivered is therefore payload, in order, nothing twice; Reads of one byte lose nothing. Bytes that are no start code are never passed: every Read from there on returns 0, nil. Over a source that ends for good every Read returns, unless pes.NewPacket panics.", "quantifier": "every source, every sequence of buffer sizes", "why_tests_cant": "Which bytes are lost depends on how the sizes of the reads fall on the damage; a test tries a few of each.", "anchors": ["ps/pack_reader.go packreader.Read", "ps/pack_header.go NewPackHeader", "pes/packet.go NewPacket"]}
{"id": "C108", "title": "Exactly what Read of ts.NewPayloadUnitReader returns over any bytes", "statement": "Over any source - damaged, cut, or failing and going on - and for every sequence of buffer sizes, the answers of Read are determined by the packets and errors that calls of Packet.Next leave: units from one accepted packet with payload_unit_start_indicator to the next, each ended by EOP, and the errors in their places; after an error the unit goes on with the packet as the failed call has left it, and an error before the first unit starts one. A unit that arrives without an error, from its start to the start of the next unit, is always delivered intact, whatever came before it. Over a source that ends for good every Read returns, unless Next panics.", "quantifier": "every source, every tester, every sequence of buffer sizes", "why_tests_cant": "What is delivered after an error depends on where in which unit it happened; a test tries a few places.", "anchors": ["ts/payload_unit_reader.go payloadUnitBuffer.Read", "ts/payload_unit_reader.go fill", "ts/packet.go Packet.Next"]}
{"id": "C109", "title": "Every unsupported extension makes Next panic", "statement": "A sequence scalable extension after the headers of a sequence, and a copyright, picture display or picture spatial scalable extension after the headers of a picture, make Next panic: at the beginning of a stream and after any coded groups of pictures, which are shown first, whatever extensions and user data come before it and whatever comes after it. So the extensions named in C102 are not only possible causes of a panic, they always are.", "quantifier": "every well formed header, every list of extensions and user data, every coded sequence before it, every source", "why_tests_cant": "A test decodes a stream with one such extension in one place.", "anchors": ["video/extension_and_user_data.go extension_data", "video/sequence_scalable_extension.go sequence_scalable_extension", "video/video_sequence.go Next"]}
{"id": "C110", "title": "Exactly what Read of ts.NewPayloadReader with SkipUntil and TakeWhile returns over any bytes", "statement": "Over any source - damaged, cut, or failing and going on - and for every sequence of buffer sizes, the answers of Read are determined by the packets and errors that calls of Packet.Next leave. SkipUntil drops errors and goes to the first call that leaves a packet its tester accepts, also if that call failed, and delivers the payload of that packet whether or not the other testers accept it; after it come the payloads of the accepted packets and the errors in order; the first packet that TakeWhile does not accept closes the reader with EOF, and what of its payload does not fit into the buffer is lost. Over a source that ends for good every Read returns, unless Next panics; if no call leaves a packet that SkipUntil accepts the first Read never returns. SkipUntil after the first Read has no effect.", "quantifier": "every source, every tester, every sequence of buffer sizes", "why_tests_cant": "Errors during the search, in the closing packet and between the packets combine with any buffer sizes.", "anchors": ["ts/payload_reader.go payloadReader.Read", "ts/payload_reader.go realign", "ts/payload_reader.go SkipUntil", "ts/payload_reader.go TakeWhile", "ts/packet.go Packet.Next"]}
{"id": "C111", "title": "What a Next that runs out of input leaves in the packet", "statement": "If a source ends after k of the 188 bytes of a packet, ts Packet.Next fails, and what the caller's Packet then holds is known field by field: fields not reached keep their old values, fields read completely are the new ones, and the field that was being read is zero - transport_error_indicator after 1 byte, PID after 2 bytes, transport_scrambling_control after 3 - or nil for the adaptation field; a payload cut short has its full length, new bytes first and then what the buffer held before. The error is that of the source, io.ErrUnexpectedEOF for EOF inside a payload. In consequence a packet cut after two bytes passes the test IsPID(0) whatever its PID, and a payload reader with SkipUntil(IsPID(0)) then delivers the payload of the packet before, of another PID. Likewise for pes Packet.Next: stream_id is 0 if only the prefix came, packet_length 0 after 4 or 5 bytes, the header nil if it is cut, and a payload cut short is padded with zeros.", "quantifier": "every well formed packet, every place to cut it, every packet held before, every source error", "why_tests_cant": "Every byte of every packet is a place to cut, and the old contents of the struct matter.", "anchors": ["ts/packet.go Packet.Next", "ts/payload_reader.go realign", "pes/packet.go Packet.Next"]}
{"id": "C112", "title": "When Next must panic, and streams of proper syntax are decoded to their end", "statement": "If, after pictures of proper syntax, a stream has headers and then an unsupported extension, or - after proper slices - a slice that begins below the picture, or in which, after proper macroblocks, comes a macroblock beyond the picture, a macroblock in 4:2:2 or 4:4:4, a block with more than 64 coefficients, a macroblock in a picture of coding type other than 1, 2, 3, a reserved motion type, dual prime prediction, or concealment vectors without frame_pred_frame_dct, then the loop that calls Next until there is an error panics. If the stream is of pictures of proper syntax only, no call returns an error before all of them have been read; and if the end of the sequence follows, the loop panics or gets there, with EOS and exactly what comes after the end code left to read.", "quantifier": "every such stream, with any number of pictures, slices and macroblocks of any type and content before the fault, any number of leading zero bytes", "why_tests_cant": "The faults are rare and can be anywhere; the pictures before them are arbitrary.", "anchors": ["video/video_sequence.go Next", "video/picture_data.go picture_data", "video/slice.go slice", "video/macroblock.go macroblock", "video/motion_vectors.go motion_vectors"]}
{"id": "C113", "title": "Exactly what ps.Decoder delivers over any bytes, under every schedule", "statement": "Over any source, whatever the schedule of the goroutines and of the receivers, the decoder delivers what one goroutine would read that calls NewPackHeader, then, as long as a packet start code follows that is neither a pack nor the end code, NewPacket, then looks for the next pack: at every moment the packs begun, their headers and the packets received from each are a beginning of that; when the packets of a pack are closed all of them were received; when Packs() is closed all packs were received in order with all their packets, and Err() is that of the read that failed, or ErrProgramEndCodeNotFound, or nil in front of the end code; done is true exactly then. Every run can be completed. If the source has a packet at which NewPacket panics, what comes before it is delivered in the same way and no run can end but by that panic. Every source is one or the other.", "quantifier": "every source, well formed or not, every interleaving of the decoder, the goroutines of the packs and any number of receivers, at every moment", "why_tests_cant": "The goroutines share one bit reader; a schedule in which two use it, or an input that ends in an unusual place, need not come up in a test.", "anchors": ["ps/decoder.go Go, Packs, Err", "ps/pack.go readPack, Packets", "ps/pack_header.go NewPackHeader", "pes/packet.go NewPacket"]}
{"id": "C114", "title": "Streams that break the syntax, or end too soon, must be refused", "statement": "Over a stream of pictures that follow the syntax and then one of these faults, the loop that calls Next until it fails panics, or it ends with the error for that fault: another start code than the ones that may come there (between pictures, after the sequence header, after the sequence extension, after the group of pictures header, after the picture header, instead of the first slice) gives ErrUnexpectedStartCode, or ErrUnsupported if the first sequence header has no sequence extension; another extension identifier gives ErrUnexpectedExtensionID; a marker bit that is 0 gives ErrMissingMarkerBit; a byte other than 0 after a header gives ErrUnexpectedNonZeroByte; reserved bits of a slice give ErrInvalidReservedBits; bits that are no code for an address increment, a macroblock type or a run and level give ErrMissingHuffmanValue. If the fault is in the headers up to the first picture, the first Next returns that error, without a panic. If a stream of pictures that follow the syntax is cut after any byte, or lacks its sequence_end_code, the loop panics or ends with an error of the source.", "quantifier": "every stream of any length with the fault after any number of pictures, slices, macroblocks, blocks and coefficients, any number of zero bytes between structures, any source", "why_tests_cant": "A fault can be anywhere; a decoder that takes one kind of fault for something else after some particular beginning decodes all proper streams of a test suite, and refuses its few bad ones.", "anchors": ["video/video_sequence.go Next", "video/picture_data.go", "video/slice.go slice", "video/macroblock.go macroblock", "video/block.go", "video/sequence_header.go", "video/sequence_extension.go", "video/picture_coding_extension.go", "video/next_start_code.go"]}
{"id": "C115", "title": "A panic of Next in an I, P or B picture has one of a few causes in the stream, and proper pictures have none", "statement": "If a call of Next panics, after any number of calls that have returned frames, the stream begins with pictures and their headers of which the frames returned are the frames, each showing what the picture's bits stand for unless they break a rule (C103); and there follows an extension that the decoder does not support, or a picture in whose slices - predicted from the frames before and after it in display order, and after any number of right slices and macroblocks - there is a slice below the picture, a macroblock address beyond the row, motion type 0 or 3, a prediction (also of a skipped macroblock) from outside the reference frame or from one of another size, or a block of more than 64 coefficients; or the slices break a rule before, or it is not a 4:2:0 frame picture of type I, P or B. Slices that follow the syntax and keep the rules, with another start code or nothing after them, hold none of these causes and break no rule.", "quantifier": "every stream of any length, any number of calls, any slices, macroblocks, vectors and coefficients before the panic", "why_tests_cant": "A panic can come from any of the array accesses of the decoder, after any history of frames, predictors and quantisers; that there is no other cause is a statement on all streams.", "anchors": ["video/video_sequence.go Next", "video/picture_data.go", "video/slice.go slice", "video/macroblock.go macroblock", "video/motion_vectors.go", "video/motion_compensation.go", "video/block.go read", "video/picture_coding_extension.go"]}
{"id": "C116", "title": "A prediction from above the first or below the last line of the reference makes Next panic; no such picture is ever shown", "statement": "Whatever the stream, no frame that Next returns belongs to a 4:2:0 I, P or B frame picture in which a block of a macroblock - or of a skipped macroblock of a B picture - was to be predicted from samples above the first or below the last line of its reference frame (beyond the left or right edge, a line is continued by the one before or after it, so that only in the first and last line such samples are meant too). If, after any number of frames, the stream goes on with the headers of such a picture, right slices and macroblocks, and a macroblock with such a vector, then the frames already decoded are returned without reading on, and the call after them panics.", "quantifier": "every stream of any length, any number of calls, any slices and macroblocks before, any vectors and half-sample positions, past and future references", "why_tests_cant": "The bound on the vertical position is never checked by the code; that the flat index always leaves the plane depends on every combination of row, vector, half-sample rounding and plane size.", "anchors": ["video/video_sequence.go Next", "video/picture_data.go", "video/slice.go slice", "video/macroblock.go macroblock", "video/motion_compensation.go", "video/copy_macroblocks.go"]}
{"id": "C117", "title": "A prediction across the left or right edge of the reference takes its samples from the neighbouring lines; across the first or last line it panics", "statement": "For every motion vector of a block, also those that lead out of the reference frame: if all samples its 64 predicted samples are made of, counted on from line to line, are still on the lines of the reference, each predicted sample is the half-sample mean of them, where the sample to the right of the last of a line is the first of the next line and the one to the left of the first is the last of the line before; it is in 0..255, and the two predictions of a bidirectional block are averaged. Otherwise decoding the block panics. For vectors that stay inside the frame this is the prediction of C48.", "quantifier": "all vectors, blocks, positions, half-sample phases, sizes of the reference frame, contents of the references and residuals; forward, backward and bidirectional", "why_tests_cant": "No bound on the vector is checked by the code; whether it reads other samples or panics depends on every combination of position, vector, rounding and frame size.", "anchors": ["video/motion_compensation.go", "video/motion_vectors.go", "video/frame_store.go"]}
{"id": "C118", "title": "Lost slices damage only their rows of the picture, and pictures predicted from it, until the next group", "statement": "If from a coded sequence any slices are missing, in any pictures, but not all slices of a picture, a loop over video.VideoSequence.Next still returns a frame for every picture, in display order, and then EOS: no error, no panic, no frame more or less. In an I picture, and in a picture whose references are undamaged, every row of macroblocks that lost no slice shows exactly what it shows in the whole sequence; in every picture a row of which no slice arrives is 0 in all samples. After a group of pictures that lost nothing, all frames are those of the whole sequence again, as long as nothing else is lost.", "quantifier": "all coded 4:2:0 sequences of frame pictures (I, P, B, any slices, vectors, coefficients, sizes up to 2800 lines), all sets of lost slices that leave every picture at least one", "why_tests_cant": "Which slices are lost is one of exponentially many sets, and the decoder carries predictions, references and the macroblock address from slice to slice and picture to picture; no test covers every combination.", "anchors": ["video/slice.go", "video/picture_data.go", "video/frame_provider.go", "video/frame_store.go"]}
{"id": "C119", "title": "A missing B picture ends what is shown of its group, and nothing else", "statement": "If from a coded sequence any B pictures are missing, in any groups, a loop over video.VideoSequence.Next returns of every group, in display order and unchanged, exactly the frames before the first missing one; the other frames of that group are decoded but not returned; the next group is shown from its start; after the last group comes EOS. There is no error and no panic. The same holds of any coded sequence whose temporal references rise with gaps: every group is shown up to its first gap.", "quantifier": "all coded 4:2:0 sequences of frame pictures with any number of groups and pictures; all sets of missing B pictures (that carry no quantiser matrix); all sequences whose temporal references rise within each group", "why_tests_cant": "Which pictures are missing is one of exponentially many sets, and Next keeps a frame counter and two references across calls and groups; a test can lose one picture of one stream.", "anchors": ["video/video_sequence.go", "video/frame_store.go", "video/frame_provider.go"]}
{"id": "C120", "title": "Groups may be cut out of a stream: the frames of the others are the same", "statement": "If from a coded sequence groups of pictures are cut out, any number anywhere, so that every group that follows a cut is closed (the picture coded after its I picture is no B picture) and comes with a sequence header unless what was cut out had no sequence header and no quantiser matrix, then what is left is a coded sequence again, and a loop over video.VideoSequence.Next returns exactly the frames of the groups that are left, in display order and the same as in the whole sequence, and then EOS.", "quantifier": "all coded 4:2:0 sequences of frame pictures, all choices of groups to cut out within the rule", "why_tests_cant": "There are exponentially many ways to cut a stream of any length, and references, matrices and the frame counter survive from group to group; a test tries one cut.", "anchors": ["video/video_sequence.go", "video/frame_store.go", "video/frame_provider.go"]}
{"id": "C121", "title": "Groups may be cut out before open groups: only the leading B frames can be wrong", "statement": "If from a coded sequence groups of pictures are cut out and an open group follows (one that starts with B pictures predicted from the group before), and what was cut out had no sequence header and no quantiser matrix, then a loop over video.VideoSequence.Next still returns exactly as many frames as the groups that are left have, and then EOS; there is no error, and every frame is the same as in the whole sequence except those displayed before the I picture of a group that follows a cut. Those need not be right: they are predicted from the last picture that was left.", "quantifier": "all coded 4:2:0 sequences of frame pictures, all choices of groups to cut out within the rule", "why_tests_cant": "Vectors, slices and skipped macroblocks of the leading pictures must be decodable against a reference they were not coded for, for every such picture and every cut; a test tries one.", "anchors": ["video/video_sequence.go", "video/frame_store.go", "video/frame_provider.go", "video/motion_vectors.go"]}
{"id": "C122", "title": "Sequences may be joined without an end code between them", "statement": "If coded sequences that each start with a closed group, of whatever sizes and matrices, are put one after the other in one stream without sequence_end_codes between them, in any order and any of them any number of times, a loop over video.VideoSequence.Next returns the frames of all of them in order, each the same as when its sequence is played alone, and EOS only at the end.", "quantifier": "all lists of coded 4:2:0 sequences of frame pictures that start with a closed group", "why_tests_cant": "What is left in the decoder from one sequence (references, matrices, frame counter, size) must not touch the next, for every pair of sequences and any number of them; tests join two.", "anchors": ["video/video_sequence.go", "video/frame_store.go", "video/frame_provider.go", "video/sequence_header.go"]}
{"id": "C123", "title": "The sequence header may be repeated before any group, or left out before any but the first", "statement": "In a coded sequence in which all sequence headers (with their extensions) are the same and no picture brings quantiser matrices of its own, headers can be put before any groups, or taken away from any but the first, and a loop over video.VideoSequence.Next returns the same frames and then EOS.", "quantifier": "all coded 4:2:0 sequences of frame pictures without quant_matrix_extensions in their pictures, all choices of groups before which the header stands", "why_tests_cant": "There are exponentially many placements of headers, and a header resets matrices and sizes in the middle of a stream, also before open groups; a test tries a few.", "anchors": ["video/video_sequence.go", "video/sequence_header.go", "video/frame_provider.go"]}
{"id": "C124", "title": "Stuffing, user data and descriptive header fields do not change the frames", "statement": "If two streams of well-formed syntax differ only in stuffing, user data, sequence display and picture scalability extensions, aspect ratio, frame rate, bit rate, buffer size and constrained_parameters_flag, profile and level, progressive_sequence, low_delay, the time codes, closed_gop and broken_link of groups, vbv_delay, the MPEG-1 vector fields and extra information of picture headers, and top_field_first, repeat_first_field, chroma_420_type, progressive_frame and composite display of picture coding extensions, and one of them is a coded sequence, then so is the other, and a loop over video.VideoSequence.Next returns the same frames for both, and then EOS.", "quantifier": "all pairs of coded 4:2:0 sequences of frame pictures that differ in these parts only", "why_tests_cant": "The parts can take any values and lengths at every place of a stream of any length; a test compares a few variants.", "anchors": ["video/sequence_header.go", "video/sequence_extension.go", "video/group_of_pictures_header.go", "video/picture_header.go", "video/picture_coding_extension.go", "video/extension_and_user_data.go", "video/user_data.go", "video/next_start_code.go"]}
{"id": "C125", "title": "Slices of a picture may arrive in any order, and more than once", "statement": "If the slices of a picture arrive in another order, in which only slices with no macroblock in common have changed places, and slices are repeated, the frames of video.VideoSequence.Next are the same as for the stream in its order, and then EOS. If in addition slices are lost, though never all of a picture, the frames are as if the remaining slices had arrived in their order: as many as without losses, and different only in the rows that C118 lists.", "quantifier": "all coded 4:2:0 sequences of frame pictures, all losses of slices that leave one per picture, all orders of the slices of each picture that keep those with common macroblocks (a valid stream has none) in their order, all repetitions", "why_tests_cant": "The orders of the slices grow with the factorial of their number, and the effect of an order could show in any later picture that refers to the frame.", "anchors": ["video/picture_data.go:picture_data", "video/slice.go:slice", "video/macroblock_addressing.go", "video/motion_vectors.go"]}
{"id": "C126", "title": "Multiplexing a transport stream anew does not change what is read of one PID", "statement": "If the packets of one PID of a transport stream are carried by another - under another PID, with other continuity counters, priorities, scrambling controls, error indicators and adaptation fields, among other packets of other PIDs - with the same payloads and payload unit starts, then ts.NewPayloadReader and ts.NewPayloadUnitReader with IsPID deliver the same bytes and errors for both, whatever the sizes of the reads; and a Demuxer delivers packets with the same payloads and payload unit starts to the channel of the PID, whatever other channels there are and under every schedule.", "quantifier": "all pairs of well-formed packet streams with the same packets of one PID, all sequences of read sizes, all schedules of two demuxers", "why_tests_cant": "The foreign packets and header fields can take any values at any places; a test compares two multiplexes.", "anchors": ["ts/payload_reader.go", "ts/payload_unit_reader.go", "ts/demuxer.go:Go", "ts/packet.go:Next", "ts/packet_tester.go:IsPID"]}
{"id": "C127", "title": "A transport packet that is sent twice is delivered once", "statement": "ISO 13818-1 2.4.3.3 allows a packet to be sent twice in a row with the same continuity counter; its payload counts once. ts.NewPayloadReader delivers the same bytes whether or not packets are sent twice.", "quantifier": "all well-formed packet streams, all packets of the PID with payload, all sequences of read sizes", "why_tests_cant": "Any packet of a stream can be the one repeated.", "anchors": ["ts/payload_reader.go:Read", "ts/packet.go:ContinuityCounter"]}
{"id": "C128", "title": "A transport packet without payload adds nothing to what is read", "statement": "Packets with an adaptation field only, as are sent to carry clock references, add nothing to the bytes ts.NewPayloadReader and ts.NewPayloadUnitReader deliver, wherever they are in the stream, and come without payload from the channels of a Demuxer.", "quantifier": "all well-formed packet streams with and without payload, all sequences of read sizes, all schedules of the demuxer", "why_tests_cant": "What such a packet does depends on all the packets before it.", "anchors": ["ts/payload_reader.go:Read", "ts/payload_unit_reader.go:Read", "ts/demuxer.go:Go", "ts/packet.go:Next"]}
{"id": "C129", "title": "How a stream is cut into packets does not matter", "statement": "The same bytes sent in other transport packets, PES packets or packs - of other sizes, with other headers, adaptation fields and stuffing, among packets of other PIDs, or in a program stream instead of a sequence of PES packets - are read the same by the payload readers, whatever the sizes of the reads.", "quantifier": "all pairs of well-formed packet sequences that carry the same bytes, all sequences of read sizes", "why_tests_cant": "It compares any two cuts of any stream under any reads.", "anchors": ["ts/payload_reader.go:Read", "pes/payload_reader.go:Read", "ps/pack_reader.go:Read"]}
{"id": "C130", "title": "Demuxer and NewPayloadReader agree", "statement": "A Demuxer channel and NewPayloadReader with the same tester, and the same testers given to SkipUntil and TakeWhile, give the same payload bytes of the same input, and the same error.", "quantifier": "all inputs, well formed or not, all testers, any number of other channels, every schedule, all sequences of read sizes", "why_tests_cant": "It compares two implementations on every input and every schedule.", "anchors": ["ts/demuxer.go:Go", "ts/payload_reader.go:Read"]}
{"id": "C131", "title": "ps.Decoder and ps.NewPackReader agree", "statement": "The payloads of the packets received from a ps.Decoder, pack after pack, are the bytes that ps.NewPackReader delivers over the same program stream.", "quantifier": "all well-formed program streams, every schedule, all sequences of read sizes", "why_tests_cant": "It compares two implementations on every stream and every schedule.", "anchors": ["ps/decoder.go:Go", "ps/pack_reader.go:Read"]}
{"id": "C132", "title": "The payload units, joined, are the payload", "statement": "The units that NewPayloadUnitReader delivers, joined, are the bytes that NewPayloadReader delivers over the same packets, without those before the first start of a unit and those of the last unit, and every unit begins with the payload of a packet that has payload_unit_start_indicator and has no other start in it.", "quantifier": "all well-formed packet sequences, all testers, all sequences of read sizes of both readers", "why_tests_cant": "It compares two readers on every stream under any reads.", "anchors": ["ts/payload_unit_reader.go:Read", "ts/payload_reader.go:Read"]}
