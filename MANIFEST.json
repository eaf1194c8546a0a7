{
 "claims": [
  {
   "property": "C01",
   "status": "proved",
   "theorems": [
    "C01_bool_coder_round_trip"
   ],
   "note": ""
  },
  {
   "property": "C02",
   "status": "proved",
   "theorems": [
    "C02_carry_stays_inside"
   ],
   "note": ""
  },
  {
   "property": "C03",
   "status": "proved",
   "theorems": [
    "C03_decoder_total"
   ],
   "note": ""
  },
  {
   "property": "C04",
   "status": "proved",
   "theorems": [
    "C04_tree_symbols_round_trip",
    "C04_tree_decode_total",
    "C04_tree_codes_injective"
   ],
   "note": ""
  },
  {
   "property": "C05",
   "status": "proved",
   "theorems": [
    "C05_key_frame_header_round_trip",
    "C05_parsed_header_is_encodable"
   ],
   "note": "Evaluation order of the operands in the Unsigned/Signed constructors is assumed left to right."
  },
  {
   "property": "C06",
   "status": "proved",
   "theorems": [
    "C06_inter_frame_header_round_trip",
    "C06_mv_probability_codes",
    "C06_parsed_header_is_encodable"
   ],
   "note": "Same evaluation-order assumption as C05."
  },
  {
   "property": "C07",
   "status": "proved",
   "theorems": [
    "C07_token_round_trip",
    "C07_too_large_rejected",
    "C07_decoded_block_is_encodable"
   ],
   "note": "Coefficients up to DCT_CAT6's limit 2114; larger ones make the serialiser throw."
  },
  {
   "property": "C08",
   "status": "proved",
   "theorems": [
    "C08_component_round_trip",
    "C08_odd_component_rounded",
    "C08_reader_range",
    "C08_vector_round_trip"
   ],
   "note": "Components of 2048 or more are written without an error and desynchronise the reader (Example C08_too_long_desynchronises)."
  },
  {
   "property": "C09",
   "status": "proved",
   "theorems": [
    "C09_key_frame_modes_round_trip",
    "C09_parsed_key_frame_modes_round_trip"
   ],
   "note": "Error concealment off."
  },
  {
   "property": "C10",
   "status": "proved",
   "theorems": [
    "C10_inter_frame_modes_round_trip",
    "C10_parsed_inter_frame_modes_round_trip",
    "C10_census_within_tables"
   ],
   "note": "Error concealment off."
  },
  {
   "property": "C11",
   "status": "proved",
   "theorems": [
    "C11_key_frame_round_trip",
    "C11_inter_frame_round_trip",
    "C11_parsed_key_frame_is_serialisable",
    "C11_parsed_inter_frame_is_serialisable"
   ],
   "note": "All frame sizes, 1/2/4/8 partitions, any coefficients the token alphabet can carry, below the container's length limits (C12 shows what happens beyond). Every frame the parser can produce satisfies the hypotheses."
  },
  {
   "property": "C12",
   "status": "proved",
   "theorems": [
    "C12_container_round_trip",
    "C12_long_first_partition_lost",
    "C12_long_dct_partition_lost",
    "C12_empty_partition_rejected"
   ],
   "note": "Round trip below the limits; beyond them the partition is provably never recovered. A frame whose only DCT partition is empty is rejected by the reader, so it is excluded."
  },
  {
   "property": "C13",
   "status": "proved",
   "theorems": [
    "C13_partitions_within_input",
    "C13_strict_acceptance",
    "C13_truncation_rejected"
   ],
   "note": "Exact characterisation of accepted inputs without concealment. With concealment dct_partitions may still throw out_of_range (example in PropContainer.v)."
  },
  {
   "property": "C14",
   "status": "partial",
   "theorems": [
    "C14_round_trip",
    "C14_offset",
    "C14_huge_frame_refuted"
   ],
   "note": "Proved for frames shorter than 2^32 - 12 bytes, any interleaving with settings of the hash. Refuted for frames between that and 2^32 bytes: the reader computes the next position in 32 bits."
  },
  {
   "property": "C15",
   "status": "proved",
   "theorems": [
    "C15_any_file"
   ],
   "note": "Memory exhaustion (the index reserves 16 bytes per announced frame) is not modelled."
  },
  {
   "property": "C16",
   "status": "proved",
   "theorems": [
    "C16_crash_points",
    "C16_creation",
    "C16_torn_count_refuted"
   ],
   "note": "The process stops, the kernel keeps what it was given; the four bytes of the count arrive together. The last theorem shows that this assumption is needed."
  },
  {
   "property": "C17",
   "status": "proved",
   "theorems": [
    "C17_merge",
    "C17_dimensions",
    "C17_only_valid_files",
    "C17_list"
   ],
   "note": "xc-merge takes two files; the list is merged one file after the other. Frames shorter than 2^32 - 12 bytes, fewer than 2^32 of them."
  },
  {
   "property": "C18",
   "status": "proved",
   "theorems": [
    "C18_round_trip",
    "C18_datagrams"
   ],
   "note": ""
  },
  {
   "property": "C19",
   "status": "proved",
   "theorems": [
    "C19_delivery",
    "C19_any_packet",
    "C19_first_packet",
    "C19_limits"
   ],
   "note": "Non-empty frames of at most 65535 fragments. The last theorem says what happens outside that range: undefined behaviour for the empty frame, a failed assertion for 65536 fragments, an endless loop for more."
  },
  {
   "property": "C20",
   "status": "proved",
   "theorems": [
    "C20_partial_frame"
   ],
   "note": "Same range of frames as C19."
  },
  {
   "property": "C21",
   "status": "proved",
   "theorems": [
    "C21_round_trip",
    "C21_datagrams"
   ],
   "note": "Memory for the announced states is reserved before the length is checked; running out of memory is not modelled."
  },
  {
   "property": "C22",
   "status": "proved",
   "theorems": [
    "C22_slice",
    "C22_tail",
    "C22_chain",
    "C22_slice_any_length_refuted",
    "C22_fixed_width",
    "C22_bit_field"
   ],
   "note": "The word-size condition is necessary (refutation included). bits() is covered for fields of up to 30 bits inside of the first 32; wider ones are undefined behaviour."
  },
  {
   "property": "C23",
   "status": "proved",
   "theorems": [
    "C23_references_after_inter_frame",
    "C23_references_after_key_frame",
    "C23_references_after_exception",
    "C23_simultaneous_copies_refuted"
   ],
   "note": "The golden copy sees the alternate picture after the alternate copy; the refutation shows that exchanging the two is therefore impossible."
  },
  {
   "property": "C24",
   "status": "proved",
   "theorems": [
    "C24_key_frame_erases_history"
   ],
   "note": "For a key frame that is decoded without an exception, decoders of 1 to 16383 pixels per side with the same error concealment flag. A key frame that throws may leave the old references with a new state."
  },
  {
   "property": "C25",
   "status": "proved",
   "theorems": [
    "C25_inter_frame_tables",
    "C25_key_frame_tables"
   ],
   "note": "Also when the rest of the frame throws: the tables have been replaced by then."
  },
  {
   "property": "C26",
   "status": "proved",
   "theorems": [
    "C26_import_export",
    "C26_lossless_iff",
    "C26_export_injective",
    "C26_exact_length"
   ],
   "note": "Frames of 1 to 16383 pixels per side: beyond that the 16-bit widths and 32-bit lengths in the file wrap. Also compared: the error-concealment switch, which is not exported."
  },
  {
   "property": "C27",
   "status": "proved",
   "theorems": [
    "C27_hand_over",
    "C27_terminated_video"
   ],
   "note": "Rewritten frames shorter than 2^19 bytes (the limit of the format for the first partition)."
  },
  {
   "property": "C28",
   "status": "proved",
   "theorems": [
    "C28_frame",
    "C28_sequence",
    "C28_continue",
    "C28_new",
    "C28_windows",
    "C28_inter_segmentation",
    "C28_written_segmentation_refuted",
    "C28_inherited_segmentation_refuted"
   ],
   "note": "For frames that fit the format (the hypotheses of C11) without segmentation header, of any content, whose partitions fit the length fields; the trial encodings before a frame are those the encoder makes. That the mode and motion search only produces such frames is not modelled. With a segmentation header, or continuing the stream of a decoder with segmentation, lockstep is lost (refutations)."
  },
  {
   "property": "C29",
   "status": "partial",
   "theorems": [
    "C29_mode_adjustments_refuted",
    "C29_fingerprint",
    "C29_decoder_fingerprint",
    "C29_zero_matches_everything"
   ],
   "note": "False as stated: the mode adjustments never reach the hash (refuted for a perfect hash). Every other component of the state does, and equal fingerprints mean equal components, a collision, or an input hashing to the seed 0."
  },
  {
   "property": "C30",
   "status": "proved",
   "theorems": [
    "C30_quantizer",
    "C30_header_indices_qualify",
    "C30_segment_index",
    "C30_negative_segment_index_refuted",
    "C30_delta_after_clamp_refuted",
    "C30_dequantize"
   ],
   "note": "All header and segment fields. A negative segment index sum is stored in a byte and becomes 127, which the refutations record as a departure from the format."
  },
  {
   "property": "C31",
   "status": "proved",
   "theorems": [
    "C31_iwht",
    "C31_idct",
    "C31_idct_add",
    "C31_dc_only"
   ],
   "note": "All 16-bit blocks; values equal the two-dimensional transforms. The portable branch is modelled, not the SSE2 assembly."
  },
  {
   "property": "C32",
   "status": "proved",
   "theorems": [
    "C32_inter_predict",
    "C32_unchecked_equals_checked",
    "C32_margin_needed_refuted",
    "C32_one_pass",
    "C32_flat_reference"
   ],
   "note": "All planes, positions and 16-bit vectors; the portable branch is modelled, not the SSE2 assembly. The reference picture and the output are different planes."
  },
  {
   "property": "C33",
   "status": "proved",
   "theorems": [
    "C33_subblock_edge",
    "C33_macroblock_edge",
    "C33_flat_edge",
    "C33_mb_edge_position",
    "C33_sb_edge_position",
    "C33_macroblock",
    "C33_macroblock_step",
    "C33_flat_picture"
   ],
   "note": "The portable branch is modelled, not the SSE2 assembly. The simple filter is refused by the code."
  },
  {
   "property": "C34",
   "status": "proved",
   "theorems": [
    "C34_limits",
    "C34_level",
    "C34_segment_level_limited_first_refuted",
    "C34_picture"
   ],
   "note": "The refutation records a departure from RFC 6386: a segment's level is not limited before the deltas are added."
  },
  {
   "property": "C35",
   "status": "partial",
   "theorems": [
    "C35_deltas_after_inter_frame",
    "C35_deltas_persist_refuted"
   ],
   "note": "The property as stated is false of the code and refuted: an update resets the deltas it does not mention to 0. What is proved instead: exactly which deltas hold after every inter frame; they persist when the header carries no delta update."
  },
  {
   "property": "C36",
   "status": "proved",
   "theorems": [
    "C36_fresh",
    "C36_exclusive",
    "C36_unchanged",
    "C36_hash",
    "C36_failures"
   ],
   "note": "Each operation runs alone (the mutexes are trusted); unique_ptr and shared_ptr behave as the standard says."
  },
  {
   "property": "C37",
   "status": "partial",
   "theorems": [
    "C37_order",
    "C37_release_times",
    "C37_due",
    "C37_not_early",
    "C37_progress",
    "C37_early_refuted"
   ],
   "note": "Order and contents are proved. A datagram may leave up to a millisecond before its release time, because the remaining time is rounded down (C37_early_refuted); C37_not_early gives this exact bound, for release times less than 24 days away."
  },
  {
   "property": "C38",
   "status": "proved",
   "theorems": [
    "C38_order",
    "C38_next",
    "C38_old_packet",
    "C38_memory"
   ],
   "note": "Frame numbers do not wrap (2^32 frames); the decoder is any partial function with a fingerprint."
  },
  {
   "property": "C39",
   "status": "partial",
   "theorems": [
    "C39_advertised",
    "C39_restored",
    "C39_kept",
    "C39_repeated_refuted"
   ],
   "note": "Proved when different frames have different target states; false otherwise (C39_repeated_refuted)."
  },
  {
   "property": "C40",
   "status": "partial",
   "theorems": [
    "C40_failures",
    "C40_connection_refuted",
    "C40_source_refuted",
    "C40_lost_fragment_refuted"
   ],
   "note": "As stated it is false: three kinds of witnesses, one of them with a correct sender and one lost fragment. C40_failures lists everything that can stop the receiver."
  },
  {
   "property": "C41",
   "status": "partial",
   "theorems": [
    "C41_failures",
    "C41_assumed",
    "C41_fifo_partial",
    "C41_reordering_refuted"
   ],
   "note": "Whatever acknowledgements arrive, the state the sender assumes is present (C41_assumed) and every way in which the sender can stop is characterised (C41_failures). With packets lost, repeated and reordered, and acknowledgements lost and repeated but in order, no encoder is ever missing (C41_fifo_partial), assuming that no target equals the initial fingerprint and that a target is acknowledged as current only together with its entry in the list. With reordered acknowledgements it is false: two fragments of one frame and their acknowledgements out of order make encoders.at() throw (C41_reordering_refuted)."
  },
  {
   "property": "C42",
   "status": "partial",
   "theorems": [
    "C42_discarded",
    "C42_selected",
    "C42_delayed_refuted"
   ],
   "note": "What the receiver has advertised stays until a frame from a newer state was sent (C42_discarded); outside conservative mode an encoding starts from the newest target, never superseded (C42_selected). In conservative mode the statement is false even with in-order acknowledgements: C42_delayed_refuted is a run in which a delayed acknowledgement makes the sender start from a state that the receiver has discarded."
  },
  {
   "property": "C43",
   "status": "proved",
   "theorems": [
    "C43_sequence",
    "C43_monotone",
    "C43_accepted",
    "C43_unsent_refuted"
   ],
   "note": "For histories of fewer than 2^32 events (the frame number is a 32-bit counter). An acknowledgement of a frame that was not sent reads outside the vector (C43_unsent_refuted): the sender trusts its peer."
  },
  {
   "property": "C44",
   "status": "proved",
   "theorems": [
    "C44_bounds",
    "C44_fits",
    "C44_best",
    "C44_unbounded_refuted",
    "C44_monotone_needed_refuted"
   ],
   "note": "Bounds for every (even stateful) estimator and at most seven trials; optimality for estimates that are a function of the quantiser and do not grow with it. The previous quantiser is one a header can hold (0..127): encode_with_quantizer accepts any uint8_t unchecked, and from 144 on the next search would use 255."
  },
  {
   "property": "C45",
   "status": "partial",
   "theorems": [
    "C45_bounds",
    "C45_search_partial",
    "C45_called",
    "C45_refuted"
   ],
   "note": "The search is right if given the qualities, but the code calls encode_raster without asking for the quality, so it always sees 0.0: with a positive minimum it uses quantiser 0 whatever the picture."
  },
  {
   "property": "C46",
   "status": "proved",
   "theorems": [
    "C46_prob",
    "C46_overflow_refuted",
    "C46_token",
    "C46_mv",
    "C46_references",
    "C46_skip"
   ],
   "note": "Counts of the false branch below 2^24; from there 256 * count leaves 32 bits. Also the users of the estimate: token, motion-vector, reference and skip probabilities."
  },
  {
   "property": "C47",
   "status": "proved",
   "theorems": [
    "C47_read_picture",
    "C47_write_picture",
    "C47_write_succeeds",
    "C47_header",
    "C47_open",
    "C47_picture",
    "C47_file",
    "C47_odd_refuted",
    "C47_header_limits_refuted"
   ],
   "note": "Through the file descriptor model, with every delivery by the kernel; dimensions up to 65520, above which no picture can be made. Pixels outside of the displayed rectangle become the nearest displayed ones. For odd dimensions the refutation shows that the reader never stops where the picture ends. The headers the reader understands include all the writer writes, except 4:2:2 and 4:4:4."
  },
  {
   "property": "C48",
   "status": "proved",
   "theorems": [
    "C48_write_chunk",
    "C48_write_string",
    "C48_write_once",
    "C48_read_exactly",
    "C48_after_eof",
    "C48_getline"
   ],
   "note": "The kernel answers each call with an error or any count; at most 0x7ffff000 bytes at once."
  },
  {
   "property": "C49",
   "status": "proved",
   "theorems": [
    "C49_clamp_within_border",
    "C49_clamp_idempotent",
    "C49_clamp_keeps_legal",
    "C49_clamp_nearest"
   ],
   "note": "Frames of at most 1024 macroblocks per side (16383 pixels)."
  },
  {
   "property": "C50",
   "status": "proved",
   "theorems": [
    "C50_update_idempotent",
    "C50_update_entries",
    "C50_serialise_with_updated_tables"
   ],
   "note": ""
  },
  {
   "property": "C51",
   "status": "proved",
   "theorems": [
    "C51_open",
    "C51_resume",
    "C51_advance",
    "C51_play",
    "C51_play_all",
    "C51_watch_is_decoding",
    "C51_any_file",
    "C51_original_size",
    "C51_original_size_at_start",
    "C51_hidden_tail_refuted"
   ],
   "note": "A file whose last frames are hidden ends with the exception for hidden frames and not with a clean end of file (refuted); it never reads past the end. Opening a file without key frame positions it at the end. A frame before the first key frame that cannot be taken apart makes opening fail."
  },
  {
   "property": "C52",
   "status": "proved",
   "theorems": [
    "C52_concealment_never_active"
   ],
   "note": "Stated against a second model of the macroblock header parser that has the switch (ConcealModel.v)."
  },
  {
   "property": "C53",
   "status": "proved",
   "theorems": [
    "C53_block",
    "C53_subblock",
    "C53_other_modes"
   ],
   "note": ""
  },
  {
   "property": "C54",
   "status": "proved",
   "theorems": [
    "C54_picture",
    "C54_key_frame",
    "C54_inter_frame"
   ],
   "note": "Reference pictures and the output are assumed to be distinct buffers. The portable code is modelled, not the SSE2 assembly."
  },
  {
   "property": "C55",
   "status": "proved",
   "theorems": [
    "C55_reconstruction",
    "C55_key_frame",
    "C55_inter_frame",
    "C55_chroma_vector_exact",
    "C55_chroma_vector_exact_refuted"
   ],
   "note": "The equations quote the prediction rules proved in C32 and C53 and the transforms of C31, written without the model's loops. The refutation records that the sum of four large luma vectors overflows 16 bits."
  },
  {
   "property": "C56",
   "status": "proved",
   "theorems": [
    "C56_key_sub_modes",
    "C56_inter_modes",
    "C56_inter_vectors",
    "C56_plane_tokens",
    "C56_macroblock_tokens",
    "C56_y2_context"
   ],
   "note": "Stated for what is written; the reader uses the same contexts by C09, C10 and C11. Inter modes: frames of up to 2048x2048 macroblocks (the format's maximum is 1024)."
  },
  {
   "property": "C57",
   "status": "proved",
   "theorems": [
    "C57_decoder_never_aborts",
    "C57_new_decoder",
    "C57_buffers_do_not_matter"
   ],
   "note": "Frames of 1 to 16383 pixels per side; inputs shorter than 2^64 bytes; the picture buffers from the pool have the decoder's size and are distinct from the references (C36)."
  },
  {
   "property": "C58",
   "status": "proved",
   "theorems": [
    "C58_inter_frame_segments",
    "C58_key_frame_segments"
   ],
   "note": "The initial value 3 is the one the code uses."
  },
  {
   "property": "C59",
   "status": "proved",
   "theorems": [
    "C59_terminated_video"
   ],
   "note": "Rewritten frames shorter than 2^19 bytes. The video must be one that the decoder decodes without an exception."
  },
  {
   "property": "C60",
   "status": "proved",
   "theorems": [
    "C60_level",
    "C60_unimodal",
    "C60_unordered_refuted"
   ],
   "note": "Qualities are given by a function of the level and the comparison by a boolean function; the quality of the lowest level must exceed the start (-1.0), which fails only if it is not a number."
  },
  {
   "property": "C61",
   "status": "proved",
   "theorems": [
    "C61_block",
    "C61_block_under_y2",
    "C61_y2_block",
    "C61_transforms",
    "C61_first_pass",
    "C61_first_pass_y2",
    "C61_equal"
   ],
   "note": "Portable C++ branches of the transforms; the assembly versions are not modelled. The bound of two is met by a worked example. For the second pass the choice of levels is bounded (C61_block), not the resulting distance."
  },
  {
   "property": "C62",
   "status": "partial",
   "theorems": [
    "C62_load",
    "C62_construct",
    "C62_overrun",
    "C62_every_width_refuted",
    "C62_predict"
   ],
   "note": "False of the code for display widths that are not a multiple of 16: SafeReferences::load allocates by display size and copies by plane size, so the last row is written past the end by exactly the difference (C62_overrun, C62_every_width_refuted). All other parts hold. The assembly filters are modelled as the six-tap formula."
  },
  {
   "property": "C63",
   "status": "partial",
   "theorems": [
    "C63_search",
    "C63_never_worse",
    "C63_round",
    "C63_search_reads",
    "C63_new_vector",
    "C63_choice",
    "C63_every_width_refuted"
   ],
   "note": "Holds for frames of up to 248 by 248 macroblocks (3968 pixels); beyond that the sum of reference vector and offset can wrap and the prediction leaves the margins (C63_every_width_refuted). Costs and distortions are arbitrary functions and tables."
  },
  {
   "property": "C64",
   "status": "proved",
   "theorems": [
    "C64_key",
    "C64_inter",
    "C64_key_near",
    "C64_inter_near",
    "C64_key_decoded",
    "C64_inter_decoded",
    "C64_shown_near"
   ],
   "note": "Costs and token contexts are arbitrary functions; the trellis of C61 is used with arbitrary costs; probability tables and the loop filter level in the header are arbitrary. With the trellis the accuracy is not bounded."
  },
  {
   "property": "C65",
   "status": "proved",
   "theorems": [
    "C65_tree",
    "C65_tree_tail",
    "C65_mv",
    "C65_mv_weighted",
    "C65_fill",
    "C65_block",
    "C65_search",
    "C65_dearer_refuted"
   ],
   "note": "Refuted: the search never makes a block dearer than plain rounding, by its own measure (it forgets the error of coefficients it drops when the end of block moves forward, and takes an end of block after a zero for free because that table entry is never set). The witness uses multipliers within the encoder's range, but not the pair it derives from that quantiser. Odd vector components are not covered: they are never written."
  },
  {
   "property": "C66",
   "status": "proved",
   "theorems": [
    "C66_portable",
    "C66_meaning",
    "C66_sse2"
   ],
   "note": "The block sizes of variance_sse2.cc that the encoder does not use are not modelled. vpx_sad16x16_sse2 is assembly: C78."
  },
  {
   "property": "C67",
   "status": "proved",
   "theorems": [
    "C67_block",
    "C67_frame",
    "C67_size",
    "C67_tables",
    "C67_skipped_refuted",
    "C67_stale_refuted"
   ],
   "note": "Refuted: the counts of a frame are the bits written (the blocks of skipped macroblocks are counted as well); the probability in force with the new header is the one the counts suggest (an update left from an earlier frame stays when the suggestion is already in force). Y2 blocks are never counted."
  },
  {
   "property": "C68",
   "status": "proved",
   "theorems": [
    "C68_exact",
    "C68_rounding_refuted",
    "C68_quantizer",
    "C68_range"
   ],
   "note": "Binary64 with rounding to nearest (SpecFloat of the standard library, no axioms). Refuted for the step 150, which no quantiser has."
  },
  {
   "property": "C69",
   "status": "proved",
   "theorems": [
    "C69_residues",
    "C69_references",
    "C69_as_interframe",
    "C69_run",
    "C69_run_decoded",
    "C69_errors",
    "C69_hidden_shown"
   ],
   "note": "Key frames that start a chunk become inter frames (throws if they have segmentation); later key frames stay. A prediction frame that is not shown becomes a frame that is shown (C69_hidden_shown). Frames with segmentation are left out of the run (C28 shows what happens to them). The mean of the quantisers is an arbitrary function into the legal range."
  },
  {
   "property": "C70",
   "status": "proved",
   "theorems": [
    "C70_iwalsh",
    "C70_iwalsh_agrees",
    "C70_iwalsh_small",
    "C70_iwalsh_misaligned",
    "C70_iwalsh_refuted",
    "C70_idct",
    "C70_idct_add",
    "C70_idct_small",
    "C70_idct_refuted",
    "C70_fwalsh",
    "C70_fdct",
    "C70_subtract",
    "C70_subtract_dct",
    "C70_dequantize"
   ],
   "note": "Equality without a condition on the coefficients is false: a coded DC level of 762 with the legal step 43 gives white in the portable decoder and black in the assembled one (C70_idct_refuted); what the assembled code computes then is stated too. An input of iwht that is not 16-byte aligned faults (C70_iwalsh_misaligned)."
  },
  {
   "property": "C71",
   "status": "proved",
   "theorems": [
    "C71_call",
    "C71_other_size",
    "C71_run",
    "C71_new",
    "C71_continue",
    "C71_key_header",
    "C71_inter_header",
    "C71_zero_decoder",
    "C71_empty_kept",
    "C71_tiny_refuted",
    "C71_large_quantiser_refuted"
   ],
   "note": "The header has seven bits for the quantiser: encode_with_quantizer with 200, as the encoder program accepts it, gives a frame from which the decoder makes another, worse picture (C71_large_quantiser_refuted). The headers of frames that are not from the pool are what parsing zeros gives (C71_key_header, C71_inter_header). The estimates of frame sizes, the quality measure and the mode costs are arbitrary functions. For the other widths see C62."
  },
  {
   "property": "C72",
   "status": "proved",
   "theorems": [
    "C72_video",
    "C72_key_frame",
    "C72_stops",
    "C72_undecodable",
    "C72_prediction_only",
    "C72_every_video_refuted"
   ],
   "note": "C72_every_video_refuted: a decodable video with an inter frame without a skip probability, of which only the frames before it are written. Inter frames of an experimental version are refused by Decoder::get_frame_output but not by Decoder::parse_frame, so C72_undecodable leaves them out."
  },
  {
   "property": "C73",
   "status": "proved",
   "theorems": [
    "C73_coder",
    "C73_key_frame",
    "C73_inter_frame",
    "C73_run",
    "C73_terminated",
    "C73_without_residues",
    "C73_encoder"
   ],
   "note": "The numbers of macroblocks are sufficient, not exact: they come from counting every bool as seven bits. C59, C71 and C72 themselves now ask for a short frame or few macroblocks."
  },
  {
   "property": "C74",
   "status": "proved",
   "theorems": [
    "C74_only_the_bytes",
    "C74_input",
    "C74_container_input",
    "C74_any_video_input",
    "C74_video_input",
    "C74_encode",
    "C74_continue",
    "C74_wrong_size",
    "C74_sizes",
    "C74_no_sizes",
    "C74_vp8decode",
    "C74_decode_any",
    "C74_pipeline"
   ],
   "note": "The command lines are arguments of the model; the search for parameters, the clock and the text on standard error are not modelled."
  },
  {
   "property": "C75",
   "status": "proved",
   "theorems": [
    "C75_horizontal",
    "C75_vertical",
    "C75_block",
    "C75_predict",
    "C75_read_past_end",
    "C75_guard_is_enough_refuted",
    "C75_padded"
   ],
   "note": "Executed on the model of the vector unit of SimdModel; the code that finds a row of the filter tables is replaced by the row. Alignment of the planes is a hypothesis."
  },
  {
   "property": "C76",
   "status": "proved",
   "theorems": [
    "C76_block",
    "C76_subblock",
    "C76_same_plane",
    "C76_same_subblock"
   ],
   "note": "Executed on the model of the vector unit of SimdModel. The Predictors are hypotheses on memory; C53 shows that get_predictors gives them. Alignment of the planes is a hypothesis, used by the 16x16 predictors only."
  },
  {
   "property": "C77",
   "status": "proved",
   "theorems": [
    "C77_luma",
    "C77_chroma",
    "C77_chroma_inner",
    "C77_limits",
    "C77_any_limits_refuted"
   ],
   "note": "The functions for horizontal edges, except that for the inner edges of luma; the code for vertical edges is not modelled. Alignment of luma and of the limits, and 160 bytes of own stack, are hypotheses. The refutation shows that the bounds on the limits cannot be left out; C77_limits shows that the decoder keeps them."
  },
  {
   "property": "C78",
   "status": "proved",
   "theorems": [
    "C78_sad",
    "C78_any_address_refuted"
   ],
   "note": "Executed on the model of the vector unit of SimdModel. Alignment of the source block and of its stride are hypotheses; the refutation shows that they cannot be left out."
  }
 ]
}
