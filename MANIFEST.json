{
 "claims": [
  {
   "property": "C01",
   "status": "proved",
   "theorems": [
    "C01_payload_packet",
    "C01_new_packet"
   ],
   "note": ""
  },
  {
   "property": "C02",
   "status": "proved",
   "theorems": [
    "C02_resync",
    "C02_no_sync",
    "C02_end"
   ],
   "note": ""
  },
  {
   "property": "C03",
   "status": "proved",
   "theorems": [
    "C03_adaptation_field",
    "C03_consumed",
    "C03_packet"
   ],
   "note": ""
  },
  {
   "property": "C04",
   "status": "proved",
   "theorems": [
    "C04_field_payload",
    "C04_field_only",
    "C04_188_bytes"
   ],
   "note": ""
  },
  {
   "property": "C05",
   "status": "proved",
   "theorems": [
    "C05_cut_is_error",
    "C05_cut_in_payload"
   ],
   "note": ""
  },
  {
   "property": "C06",
   "status": "partial",
   "theorems": [
    "C06_ext_consumed_partial",
    "C06_seamless_refuted",
    "C06_reserved_refuted"
   ],
   "note": "False of the code (refuted by two packets); what is left unread is stated for every extension."
  },
  {
   "property": "C07",
   "status": "partial",
   "theorems": [
    "C07_fresh_partial",
    "C07_stale_payload_refuted",
    "C07_stale_field_refuted",
    "C07_refuted"
   ],
   "note": "False of the code: for every packet the absent parts keep their old value; true for a fresh Packet."
  },
  {
   "property": "C08",
   "status": "partial",
   "theorems": [
    "C08_refuted",
    "C08_only_cause_partial",
    "C08_terminates"
   ],
   "note": "False of the code (refuted); the only cause of a panic is proved, and that Next always ends."
  },
  {
   "property": "C09",
   "status": "proved",
   "theorems": [
    "C09_pointwise",
    "C09_IsPID",
    "C09_IsPayloadUnitStart",
    "C09_composed",
    "C09_laws"
   ],
   "note": ""
  },
  {
   "property": "C10",
   "status": "proved",
   "theorems": [
    "C10_testers",
    "C10_payload_reader",
    "C10_delivered",
    "C10_full_or_end"
   ],
   "note": ""
  },
  {
   "property": "C11",
   "status": "proved",
   "theorems": [
    "C11_take_while",
    "C11_closed"
   ],
   "note": ""
  },
  {
   "property": "C12",
   "status": "partial",
   "theorems": [
    "C12_skip_until_partial",
    "C12_skip_until",
    "C12_filter_refuted",
    "C12_terminates_refuted"
   ],
   "note": "Delivery from the first match is proved; the filter is not applied to the first match and Read does not return without a match (both refuted)."
  },
  {
   "property": "C13",
   "status": "proved",
   "theorems": [
    "C13_unit_reader",
    "C13_between_eop",
    "C13_units_are"
   ],
   "note": ""
  },
  {
   "property": "C14",
   "status": "partial",
   "theorems": [
    "C14_last_unit_refuted",
    "C14_refuted"
   ],
   "note": "False of the code: for every stream the last unit is not delivered."
  },
  {
   "property": "C15",
   "status": "proved",
   "theorems": [
    "C15_runs",
    "C15_receivers",
    "C15_source",
    "C15_prefix",
    "C15_closed_complete",
    "C15_done",
    "C15_progress",
    "C15_bounded",
    "C15_encoded",
    "C15_can_end"
   ],
   "note": ""
  },
  {
   "property": "C16",
   "status": "partial",
   "theorems": [
    "C16_refuted",
    "C16_until_next_partial"
   ],
   "note": "False of the code (refuted by a schedule); the content is stable only until the demuxer's next call of Next."
  },
  {
   "property": "C17",
   "status": "proved",
   "theorems": [
    "C17_runs",
    "C17_receivers",
    "C17_order",
    "C17_closed",
    "C17_progress"
   ],
   "note": ""
  },
  {
   "property": "C18",
   "status": "partial",
   "theorems": [
    "C18_receivers_partial",
    "C18_refuted",
    "C18_never_blocks_partial"
   ],
   "note": "False of the code: under every schedule nothing is ever delivered. Every receive on its output waits or finds it closed (C18_receivers_partial)."
  },
  {
   "property": "C19",
   "status": "partial",
   "theorems": [
    "C19_time_stamps_partial",
    "C19_small_time_stamps",
    "C19_refuted"
   ],
   "note": "False of the code for time stamps of 2^32 and more (refuted); proved modulo 2^32 for all and exactly below 2^32."
  },
  {
   "property": "C20",
   "status": "proved",
   "theorems": [
    "C20_packet",
    "C20_size"
   ],
   "note": ""
  },
  {
   "property": "C21",
   "status": "proved",
   "theorems": [
    "C21_length_zero",
    "C21_next_unit",
    "C21_other_error"
   ],
   "note": ""
  },
  {
   "property": "C22",
   "status": "proved",
   "theorems": [
    "C22_padding",
    "C22_size",
    "C22_cut"
   ],
   "note": ""
  },
  {
   "property": "C23",
   "status": "partial",
   "theorems": [
    "C23_header_ids",
    "C23_refuted"
   ],
   "note": "False of the code: proved for ids with header and for padding; for every other id the body is left unread."
  },
  {
   "property": "C24",
   "status": "proved",
   "theorems": [
    "C24_prefix",
    "C24_markers",
    "C24_stuffing",
    "C24_accepts"
   ],
   "note": ""
  },
  {
   "property": "C25",
   "status": "proved",
   "theorems": [
    "C25_overrun"
   ],
   "note": ""
  },
  {
   "property": "C26",
   "status": "proved",
   "theorems": [
    "C26_payload_reader",
    "C26_prefix"
   ],
   "note": ""
  },
  {
   "property": "C27",
   "status": "partial",
   "theorems": [
    "C27_stale_partial",
    "C27_refuted",
    "C27_leading_padding"
   ],
   "note": "False of the code (refuted); what is delivered is stated for every stream, and the property holds while no padding follows a payload."
  },
  {
   "property": "C28",
   "status": "proved",
   "theorems": [
    "C28_pack_header",
    "C28_markers",
    "C28_start_code"
   ],
   "note": ""
  },
  {
   "property": "C29",
   "status": "partial",
   "theorems": [
    "C29_system_header_partial",
    "C29_refuted"
   ],
   "note": "False of the code for AudioBound and VideoBound (refuted; what they hold is stated for every header); all other fields and the stream table are proved."
  },
  {
   "property": "C30",
   "status": "proved",
   "theorems": [
    "C30_reads",
    "C30_prefix",
    "C30_full"
   ],
   "note": ""
  },
  {
   "property": "C31",
   "status": "partial",
   "theorems": [
    "C31_silent_refuted",
    "C31_eof_once_refuted"
   ],
   "note": "False of the code: for every stream without end code the reads are stated exactly: 0, nil forever, and the bytes copied are lost."
  },
  {
   "property": "C32",
   "status": "proved",
   "theorems": [
    "C32_one_user",
    "C32_order",
    "C32_done",
    "C32_verdict",
    "C32_bounded",
    "C32_no_deadlock",
    "C32_delivery",
    "C32_no_end_code",
    "C32_can_end"
   ],
   "note": ""
  },
  {
   "property": "C33",
   "status": "proved",
   "theorems": [
    "C33_check",
    "C33_assert",
    "C33_extension_id",
    "C33_codes"
   ],
   "note": ""
  },
  {
   "property": "C34",
   "status": "proved",
   "theorems": [
    "C34_align_to"
   ],
   "note": ""
  },
  {
   "property": "C35",
   "status": "proved",
   "theorems": [
    "C35_next_start_code"
   ],
   "note": ""
  },
  {
   "property": "C36",
   "status": "proved",
   "theorems": [
    "C36_sequence_header",
    "C36_marker"
   ],
   "note": ""
  },
  {
   "property": "C37",
   "status": "proved",
   "theorems": [
    "C37_sequence_extension",
    "C37_picture_header",
    "C37_picture_coding_extension",
    "C37_group_header",
    "C37_display_extension",
    "C37_temporal_extension",
    "C37_sequence_extension_marker",
    "C37_display_marker",
    "C37_temporal_marker"
   ],
   "note": ""
  },
  {
   "property": "C38",
   "status": "proved",
   "theorems": [
    "C38_frame",
    "C38_before",
    "C38_size",
    "C38_size_without_extension"
   ],
   "note": ""
  },
  {
   "property": "C39",
   "status": "proved",
   "theorems": [
    "C39_macroblock_address_increment",
    "C39_macroblock_type_I",
    "C39_macroblock_type_P",
    "C39_macroblock_type_B",
    "C39_coded_block_pattern",
    "C39_motion_code",
    "C39_dc_size_luminance",
    "C39_dc_size_chrominance",
    "C39_dct_table_zero",
    "C39_dct_table_one"
   ],
   "note": ""
  },
  {
   "property": "C40",
   "status": "proved",
   "theorems": [
    "C40_dc_values",
    "C40_every_difference_codable",
    "C40_reset"
   ],
   "note": ""
  },
  {
   "property": "C41",
   "status": "proved",
   "theorems": [
    "C41_non_intra",
    "C41_intra",
    "C41_places",
    "C41_every_pair_codable"
   ],
   "note": ""
  },
  {
   "property": "C42",
   "status": "partial",
   "theorems": [
    "C42_refuted",
    "C42_non_intra_partial",
    "C42_intra_partial"
   ],
   "note": "False of the code (refuted by a stream); exactly which streams panic is proved, for intra and non-intra blocks."
  },
  {
   "property": "C43",
   "status": "proved",
   "theorems": [
    "C43_inverse_quantisation",
    "C43_range_and_parity",
    "C43_matrices"
   ],
   "note": ""
  },
  {
   "property": "C44",
   "status": "proved",
   "theorems": [
    "C44_scan_permutation",
    "C44_zigzag",
    "C44_inverse_scan"
   ],
   "note": ""
  },
  {
   "property": "C45",
   "status": "proved",
   "theorems": [
    "C45_dc_only",
    "C45_no_overflow",
    "C45_overflow_outside_the_bound",
    "C45_no_overflow_in_range"
   ],
   "note": ""
  },
  {
   "property": "C46",
   "status": "proved",
   "theorems": [
    "C46_clamp",
    "C46_nearest",
    "C46_frames"
   ],
   "note": ""
  },
  {
   "property": "C47",
   "status": "proved",
   "theorems": [
    "C47_coded_vectors",
    "C47_vectors",
    "C47_vector",
    "C47_field_vectors",
    "C47_codable",
    "C47_all_codable",
    "C47_range",
    "C47_range_start"
   ],
   "note": ""
  },
  {
   "property": "C48",
   "status": "proved",
   "theorems": [
    "C48_prediction",
    "C48_references",
    "C48_intra"
   ],
   "note": ""
  },
  {
   "property": "C49",
   "status": "proved",
   "theorems": [
    "C49_tiling"
   ],
   "note": ""
  },
  {
   "property": "C50",
   "status": "proved",
   "theorems": [
    "C50_skipped_P",
    "C50_in_picture"
   ],
   "note": ""
  },
  {
   "property": "C51",
   "status": "proved",
   "theorems": [
    "C51_increment",
    "C51_every_increment"
   ],
   "note": ""
  },
  {
   "property": "C52",
   "status": "proved",
   "theorems": [
    "C52_neighbours",
    "C52_histories",
    "C52_decoding",
    "C52_latest"
   ],
   "note": ""
  },
  {
   "property": "C53",
   "status": "partial",
   "theorems": [
    "C53_each_once",
    "C53_display_order_partial",
    "C53_long_group_refuted"
   ],
   "note": "Proved for all sequences of groups of up to 1024 pictures; false of the code for longer groups, whose temporal references wrap around (refuted)."
  },
  {
   "property": "C54",
   "status": "partial",
   "theorems": [
    "C54_next_ends_partial",
    "C54_play_ends_partial",
    "C54_next_refuted",
    "C54_extensions_end",
    "C54_group_extension_refuted",
    "C54_extensions_run"
   ],
   "note": "False of the code: after a group of pictures header an extension start code stops all progress, for every bound on the number of turns (refuted, for Next itself on a concrete stream). Proved: on every finite stream without an extension after a group header (with only user data between) Next ends, and so does the loop that calls it until an error."
  },
  {
   "property": "C55",
   "status": "proved",
   "theorems": [
    "C55_user_data",
    "C55_only"
   ],
   "note": ""
  },
  {
   "property": "C56",
   "status": "proved",
   "theorems": [
    "C56_time_code"
   ],
   "note": ""
  },
  {
   "property": "C57",
   "status": "partial",
   "theorems": [
    "C57_is_reserved_partial",
    "C57_refuted"
   ],
   "note": "False of the code for id 11 (refuted); proved for all others."
  },
  {
   "property": "C58",
   "status": "proved",
   "theorems": [
    "C58_pattern",
    "C58_count"
   ],
   "note": ""
  },
  {
   "property": "C59",
   "status": "partial",
   "theorems": [
    "C59_refuted",
    "C59_partial",
    "C59_intra",
    "C59_start_codes"
   ],
   "note": "Literally false of the code (refuted: an undecodable coded block pattern is dropped, the sequence decodes to its end without an error). Proved: that is the only deviation from the syntax under which Next returns frames, and only in P and B pictures. Not claimed: that values have a meaning (e.g. an address beyond the row), nor bits up to a byte boundary being zero. The source ends where the stream ends."
  },
  {
   "property": "C60",
   "status": "proved",
   "theorems": [
    "C60_sequence_header",
    "C60_extension"
   ],
   "note": ""
  },
  {
   "property": "C61",
   "status": "partial",
   "theorems": [
    "C61_no_panic_partial",
    "C61_refuted"
   ],
   "note": "False of the code (refuted); the only causes of a panic are proved."
  },
  {
   "property": "C62",
   "status": "proved",
   "theorems": [
    "C62_truncated"
   ],
   "note": ""
  },
  {
   "property": "C63",
   "status": "proved",
   "theorems": [
    "C63_next_ends",
    "C63_read_ends"
   ],
   "note": ""
  },
  {
   "property": "C64",
   "status": "partial",
   "theorems": [
    "C64_empty_pack_refuted"
   ],
   "note": "False of the code: for every stream whose last pack is empty; without empty packs see C30."
  },
  {
   "property": "C65",
   "status": "proved",
   "theorems": [
    "C65_header_total",
    "C65_truncated",
    "C65_read_ends"
   ],
   "note": ""
  },
  {
   "property": "C66",
   "status": "partial",
   "theorems": [
    "C66_refuted",
    "C66_partial"
   ],
   "note": "False of the code: matrices are stored in raster order (refuted); holds for matrices that are equal in both orders."
  },
  {
   "property": "C67",
   "status": "proved",
   "theorems": [
    "C67_total",
    "C67_truncated_sequence_header",
    "C67_truncated_sequence_extension",
    "C67_truncated_picture_header",
    "C67_truncated_picture_coding_extension"
   ],
   "note": ""
  },
  {
   "property": "C68",
   "status": "partial",
   "theorems": [
    "C68_string_partial",
    "C68_refuted",
    "C68_injective"
   ],
   "note": "False of the code for every time code below ten hours (refuted); proved from ten hours on, and injectivity for all."
  },
  {
   "property": "C69",
   "status": "partial",
   "theorems": [
    "C69_field_prediction_refuted",
    "C69_second_vector_ignored"
   ],
   "note": "False of the code (refuted by a stream); proved that selects and the second vector make no difference, for all of them."
  },
  {
   "property": "C70",
   "status": "partial",
   "theorems": [
    "C70_rounding_refuted",
    "C70_average_refuted",
    "C70_chroma_vector_refuted",
    "C70_whole_samples_partial"
   ],
   "note": "False of the code for half samples, for the mean of both directions and for negative odd chroma vectors (refuted); proved where nothing has to be rounded."
  },
  {
   "property": "C71",
   "status": "partial",
   "theorems": [
    "C71_field_order",
    "C71_frame_order_partial",
    "C71_field_order_refuted"
   ],
   "note": "False of the code in field DCT order (refuted; which lines the prediction is taken from instead is stated for all frames, vectors and residuals in C71_field_order); proved in frame DCT order for all frames, vectors and residuals."
  },
  {
   "property": "C72",
   "status": "proved",
   "theorems": [
    "C72_skipped_B"
   ],
   "note": ""
  },
  {
   "property": "C73",
   "status": "proved",
   "theorems": [
    "C73_sequences",
    "C73_pictures"
   ],
   "note": ""
  },
  {
   "property": "C74",
   "status": "proved",
   "theorems": [
    "C74_accuracy",
    "C74_adjacent",
    "C74_small_coefficients"
   ],
   "note": ""
  },
  {
   "property": "C75",
   "status": "partial",
   "theorems": [
    "C75_units_partial",
    "C75_packets",
    "C75_bounded_units_refuted"
   ],
   "note": "Proved for the README's program when every unit is a PES packet of length 0 and the sequence is in all units but the last (the last one is never delivered, C14), and for NewPayloadReader with PES packets that state their length. Refuted for NewPayloadUnitReader with PES packets that state their length: the elementary stream reader reports EOP after each packet and Next fails in mid-sequence."
  },
  {
   "property": "C76",
   "status": "proved",
   "theorems": [
    "C76_bound"
   ],
   "note": ""
  },
  {
   "property": "C77",
   "status": "proved",
   "theorems": [
    "C77_next",
    "C77_frames",
    "C77_truncated",
    "C77_file",
    "C77_complete_groups"
   ],
   "note": ""
  },
  {
   "property": "C78",
   "status": "proved",
   "theorems": [
    "C78_sequences",
    "C78_continued"
   ],
   "note": ""
  },
  {
   "property": "C79",
   "status": "partial",
   "theorems": [
    "C79_video_only_partial",
    "C79_multiplex_refuted"
   ],
   "note": "Proved when all packets carry the video (padding packets allowed). Refuted with packets of another stream in between: NewPackReader hands over the payloads of all packets, whatever their stream id."
  },
  {
   "property": "C80",
   "status": "proved",
   "theorems": [
    "C80_sequence",
    "C80_group"
   ],
   "note": ""
  },
  {
   "property": "C81",
   "status": "proved",
   "theorems": [
    "C81_refused",
    "C81_never"
   ],
   "note": ""
  },
  {
   "property": "C82",
   "status": "partial",
   "theorems": [
    "C82_wrapped",
    "C82_tall_refuted",
    "C82_upper_rows_partial"
   ],
   "note": "Right for slices in rows below 128. False of the code from row 128 on: Next is shown to paint every slice in its row modulo 128, and a picture of 2816 lines comes out wrong."
  },
  {
   "property": "C83",
   "status": "partial",
   "theorems": [
    "C83_join_partial",
    "C83_leading_refuted"
   ],
   "note": "All frames from the first reference picture of the group on are right, and as many frames are returned as are left. False of the code for the leading B pictures of an open group: their missing past picture is silently left out of the prediction, and they are returned without an error (an example gives black frames)."
  },
  {
   "property": "C84",
   "status": "partial",
   "theorems": [
    "C84_concealment_partial",
    "C84_never",
    "C84_refuted"
   ],
   "note": "Proved for pictures with frame_pred_frame_dct = 1 (C73 covers concealment vectors there). False of the code with frame_pred_frame_dct = 0: no I picture with concealment vectors is ever decoded, on any input (C84_never), and a valid one makes Next panic."
  },
  {
   "property": "C85",
   "status": "partial",
   "theorems": [
    "C85_formats_partial",
    "C85_error_refuted",
    "C85_reserved_refuted"
   ],
   "note": "No frame is ever returned from a 4:2:2 or 4:4:4 sequence, on any input. False of the code: Next panics instead of returning an error, and the reserved format 0 gives a black frame."
  },
  {
   "property": "C86",
   "status": "partial",
   "theorems": [
    "C86_frames_partial",
    "C86_fields_refuted"
   ],
   "note": "Proved for frame pictures. False of the code for field pictures: of two fields one frame comes out, with the first field in its upper half and black below."
  },
  {
   "property": "C87",
   "status": "partial",
   "theorems": [
    "C87_valid_partial",
    "C87_headers_partial",
    "C87_refuted",
    "C87_later_refuted"
   ],
   "note": "Proved for valid sequences (of C73) and their beginnings. False of the code: twelve streams, among them valid ones with a picture display or copyright extension or dual prime prediction, make Next panic. C87_headers_partial: whatever the bytes, as long as they hold no slice and none of the four unsupported extensions, a call in a state without sequence header, or with header and extension, does not panic."
  },
  {
   "property": "C88",
   "status": "proved",
   "theorems": [
    "C88_picture",
    "C88_packet",
    "C88_chroma",
    "C88_picture_injective",
    "C88_packet_injective"
   ],
   "note": ""
  },
  {
   "property": "C89",
   "status": "proved",
   "theorems": [
    "C89_frames_stay",
    "C89_all_different",
    "C89_collected",
    "C89_sequence",
    "C89_same_decoder"
   ],
   "note": ""
  },
  {
   "property": "C90",
   "status": "partial",
   "theorems": [
    "C90_b_pictures_partial",
    "C90_not_kept_partial",
    "C90_refuted"
   ],
   "note": "Proved for B pictures that the returning call has decoded, and in general for frames behind none of the store's pointers. False of the code for I and P pictures: they are the references themselves."
  },
  {
   "property": "C91",
   "status": "proved",
   "theorems": [
    "C91_luma",
    "C91_chroma",
    "C91_standard_exists",
    "C91_reached"
   ],
   "note": ""
  },
  {
   "property": "C92",
   "status": "partial",
   "theorems": [
    "C92_number_partial",
    "C92_closed_partial",
    "C92_progress",
    "C92_refuted"
   ],
   "note": "The number of payloads, the closing and progress are proved for every schedule; the content is refuted: the demuxer reads the next packet into the same buffer while the adapter and its receiver still look at it."
  },
  {
   "property": "C93",
   "status": "proved",
   "theorems": [
    "C93_sequence_header",
    "C93_sequence_extension",
    "C93_picture_header",
    "C93_picture_coding_extension",
    "C93_group_header",
    "C93_display_extension",
    "C93_temporal_extension",
    "C93_extensions"
   ],
   "note": ""
  },
  {
   "property": "C94",
   "status": "partial",
   "theorems": [
    "C94_accepted_partial",
    "C94_refuted"
   ],
   "note": "Literally false of the code (refuted: a packet with the forbidden PTS_DTS_flags '01' is accepted as one without time stamps). Proved: that is the only deviation; of packets whose id has no header only the first six bytes are consumed (C23). Sources below 2^35 bits (a length that is too small makes the code ask for about 2^32 bytes)."
  },
  {
   "property": "C95",
   "status": "partial",
   "theorems": [
    "C95_accepted_partial",
    "C95_standard_partial",
    "C95_refuted"
   ],
   "note": "Literally false of the code (refuted: a system header with header_length 0 and two streams is accepted). Proved: apart from that number (and the bounds of C29, the stamps modulo 2^32) exactly the syntax, and with a right header_length exactly a pack header of the standard."
  },
  {
   "property": "C96",
   "status": "partial",
   "theorems": [
    "C96_accepted_partial",
    "C96_standard_partial",
    "C96_refuted"
   ],
   "note": "Literally false of the code (refuted: a PCR announced in a field of three bytes). Proved: the exact set of what is accepted, and that it is the syntax but for adaptation_field_control 0, parts that are announced and do not fit, seamless splices and reserved bytes in the extension, and fields without payload that are not 183 bytes long. Sources below 2^35 bits."
  },
  {
   "property": "C97",
   "status": "proved",
   "theorems": [
    "C97_reads",
    "C97_only",
    "C97_panics",
    "C97_otherwise"
   ],
   "note": "Sources below 2^35 bits."
  },
  {
   "property": "C98",
   "status": "proved",
   "theorems": [
    "C98_reads",
    "C98_only",
    "C98_panics",
    "C98_otherwise"
   ],
   "note": "Sources below 2^35 bits (for the direction that nothing else is accepted)."
  },
  {
   "property": "C99",
   "status": "proved",
   "theorems": [
    "C99_reads",
    "C99_only",
    "C99_otherwise"
   ],
   "note": "Sources of one unit (for the direction that nothing else is accepted)."
  },
  {
   "property": "C100",
   "status": "proved",
   "theorems": [
    "C100_ts_delivers",
    "C100_ts_only",
    "C100_ts_returns",
    "C100_pes_delivers",
    "C100_pes_only",
    "C100_pes_returns"
   ],
   "note": "Every source. That every Read returns is for sources that do not go on after their end. The windows set by TakeWhile and SkipUntil are in C11, C12."
  },
  {
   "property": "C101",
   "status": "partial",
   "theorems": [
    "C101_until_error_partial",
    "C101_duplicates_refuted",
    "C101_headless_refuted"
   ],
   "note": "Refuted: C101_duplicates_refuted (the payload of the last packet before the damage is returned twice) and C101_headless_refuted (a unit without its start is returned). C101_until_error_partial: up to the first Read that returns the error the units are right, whatever the source."
  },
  {
   "property": "C102",
   "status": "proved",
   "theorems": [
    "C102_causes",
    "C102_no_panic"
   ],
   "note": "For calls of Next after calls that returned frames: after an error a later call can panic for another reason (C87_later_refuted). For P and B pictures the cause is stated coarsely: that there is a slice of such a picture. That each cause does occur: C87_refuted."
  },
  {
   "property": "C103",
   "status": "proved",
   "theorems": [
    "C103_right",
    "C103_exclusive"
   ],
   "note": "Samples are those of SpecPicture: the inverse DCT is the function of the model, predictions round down (C70) and matrices are taken in the order of the decoder (C66). Pictures that SpecPicture does not describe (field pictures, other chroma formats, f_code 0) are only said to follow the syntax (C59)."
  },
  {
   "property": "C104",
   "status": "proved",
   "theorems": [
    "C104_show",
    "C104_order"
   ],
   "note": "C73 is the forward direction for well-formed sequences. Frames that are never shown - a B picture decoded before its turn, a third reference before the first was shown - are visible in the statement: they are not due."
  },
  {
   "property": "C105",
   "status": "proved",
   "theorems": [
    "C105_told",
    "C105_kinds",
    "C105_eos",
    "C105_mpeg1"
   ],
   "note": "For sources that do not go on after their end. An error in a coded block pattern is not reported by the code (C59), so it is not among the errors."
  },
  {
   "property": "C106",
   "status": "proved",
   "theorems": [
    "C106_ts",
    "C106_pes",
    "C106_ps",
    "C106_payload_reader",
    "C106_unit_reader",
    "C106_pes_reader",
    "C106_pack_reader",
    "C106_demuxer",
    "C106_decoder"
   ],
   "note": "For sources that do not go on after their end. The pack reader swallows the errors of packets and of looks at the source (C31): those are not errors it returns."
  },
  {
   "property": "C107",
   "status": "proved",
   "theorems": [
    "C107_delivers",
    "C107_only",
    "C107_returns",
    "C107_in_order",
    "C107_bytewise",
    "C107_stuck"
   ],
   "note": ""
  },
  {
   "property": "C108",
   "status": "proved",
   "theorems": [
    "C108_delivers",
    "C108_only",
    "C108_returns",
    "C108_undamaged"
   ],
   "note": "The exact account behind C101: duplicates and headless units come from the packet that a failed call leaves."
  },
  {
   "property": "C109",
   "status": "proved",
   "theorems": [
    "C109_first",
    "C109_later"
   ],
   "note": "The converse of C102 for extensions; found missing by an edit of sequence_scalable_extension that broke no theorem."
  },
  {
   "property": "C110",
   "status": "proved",
   "theorems": [
    "C110_delivers",
    "C110_only",
    "C110_returns",
    "C110_stuck",
    "C110_too_late"
   ],
   "note": "C11 and C12 are the case of an undamaged stream; C100 the case without SkipUntil and TakeWhile."
  },
  {
   "property": "C111",
   "status": "proved",
   "theorems": [
    "C111_ts",
    "C111_pes",
    "C111_pid_zero",
    "C111_skip"
   ],
   "note": "That the value beside an error of Read1 and Read32 is zero is an assumption on the bit reader (see the trusted base)."
  },
  {
   "property": "C112",
   "status": "proved",
   "theorems": [
    "C112_panics",
    "C112_no_error",
    "C112_to_end"
   ],
   "note": "Panics that depend on the pictures kept (a missing reference, a vector out of the picture) are not among the certain causes; C112_to_end allows for them."
  },
  {
   "property": "C113",
   "status": "proved",
   "theorems": [
    "C113_delivers",
    "C113_completes",
    "C113_panics",
    "C113_total"
   ],
   "note": ""
  },
  {
   "property": "C114",
   "status": "proved",
   "theorems": [
    "C114_rejects",
    "C114_first",
    "C114_cut"
   ],
   "note": ""
  },
  {
   "property": "C115",
   "status": "proved",
   "theorems": [
    "C115_panics",
    "C115_exclusive"
   ],
   "note": ""
  },
  {
   "property": "C116",
   "status": "proved",
   "theorems": [
    "C116_never",
    "C116_panics",
    "C116_vertical"
   ],
   "note": ""
  },
  {
   "property": "C117",
   "status": "proved",
   "theorems": [
    "C117_prediction",
    "C117_inside"
   ],
   "note": ""
  },
  {
   "property": "C118",
   "status": "proved",
   "theorems": [
    "C118_lost_slices",
    "C118_pictures",
    "C118_recovery"
   ],
   "note": ""
  },
  {
   "property": "C119",
   "status": "proved",
   "theorems": [
    "C119_gaps",
    "C119_lost_pictures"
   ],
   "note": ""
  },
  {
   "property": "C120",
   "status": "proved",
   "theorems": [
    "C120_still_coded",
    "C120_cut"
   ],
   "note": ""
  },
  {
   "property": "C121",
   "status": "proved",
   "theorems": [
    "C121_open_cut",
    "C121_leading_refuted"
   ],
   "note": "C121_leading_refuted: the leading frames after a cut can indeed be wrong."
  },
  {
   "property": "C122",
   "status": "proved",
   "theorems": [
    "C122_still_coded",
    "C122_joined"
   ],
   "note": ""
  },
  {
   "property": "C123",
   "status": "proved",
   "theorems": [
    "C123_still_coded",
    "C123_headers"
   ],
   "note": ""
  },
  {
   "property": "C124",
   "status": "proved",
   "theorems": [
    "C124_still_coded",
    "C124_same_frames"
   ],
   "note": ""
  },
  {
   "property": "C125",
   "status": "proved",
   "theorems": [
    "C125_lost_and_mixed",
    "C125_mixed",
    "C125_apart"
   ],
   "note": ""
  },
  {
   "property": "C126",
   "status": "proved",
   "theorems": [
    "C126_payload",
    "C126_units",
    "C126_demux"
   ],
   "note": ""
  },
  {
   "property": "C127",
   "status": "partial",
   "theorems": [
    "C127_delivered_partial",
    "C127_once_refuted",
    "C127_demux_refuted"
   ],
   "note": "False of the code: continuity counters are not looked at, so every packet sent twice is delivered twice (C127_once_refuted, for all streams). Proved: it is delivered exactly twice and nothing else changes. The same for the channels of a demuxer (C127_demux_refuted)."
  },
  {
   "property": "C128",
   "status": "partial",
   "theorems": [
    "C128_held_partial",
    "C128_leading",
    "C128_nothing_refuted",
    "C128_other_pid_refuted",
    "C128_demux_partial",
    "C128_demux_refuted",
    "C128_units_partial",
    "C128_units_leading",
    "C128_units_refuted"
   ],
   "note": "False of the code: after any packet with payload, of whatever PID, a packet of the PID without payload delivers that payload again (C128_nothing_refuted, for all such streams). Proved: exactly what is delivered of every well-formed stream, and that the property holds before the first packet with payload. The same for NewPayloadUnitReader (C128_units_partial, C128_units_leading, C128_units_refuted). The same for the channels of a demuxer (C128_demux_partial, C128_demux_refuted)."
  },
  {
   "property": "C129",
   "status": "proved",
   "theorems": [
    "C129_ts",
    "C129_pes",
    "C129_both",
    "C129_packs",
    "C129_packs_pes"
   ],
   "note": "For transport packets that carry payload (packets without: C128) and PES packets with a length; packs with at least one packet (C64)."
  },
  {
   "property": "C130",
   "status": "partial",
   "theorems": [
    "C130_agree_partial",
    "C130_take_refuted",
    "C130_skip_partial",
    "C130_skip_refuted"
   ],
   "note": "Proved for all inputs and schedules when neither SkipUntil nor TakeWhile is used, up to the first error, with payloads as they are when their packets are received (see C16, C92). With the same tester given to TakeWhile of both it is false: C130_take_refuted. With SkipUntil it holds of encoded packets when the first match passes the filter (C130_skip_partial) and never otherwise (C130_skip_refuted)."
  },
  {
   "property": "C131",
   "status": "partial",
   "theorems": [
    "C131_agree_partial",
    "C131_empty_refuted"
   ],
   "note": "Proved for program streams in which every pack has a packet. Where the last pack has none it is false: C131_empty_refuted."
  },
  {
   "property": "C132",
   "status": "proved",
   "theorems": [
    "C132_joined"
   ],
   "note": "For packets that carry payload (packets without: C128)."
  }
 ]
}