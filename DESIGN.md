# Formal model of alfalfa: design

The code in `/repo` is read as text. The model is a set of total Gallina
functions (Rocq/Coq 8.16.1) in `rocq/theories`. Every definition cites the file
and the lines it transcribes. Proofs are about these functions, so the
connection between model and C++ is by reading (see "Trusted base").

## Layout

| kind | files | content |
|------|-------|---------|
| model | `*Model.v` | transcriptions of the C++ functions, no proofs |
| proofs | `*Proofs.v` | lemmas |
| properties | `Prop*.v` | the property theorems, a small independent specification for each of them where needed, an `Example` beside each theorem showing its hypotheses are met by a non-trivial case, and `Print Assumptions` |

## General modelling choices

* Integers: `Z` with explicit `mod 2^k` where C++ unsigned arithmetic can wrap,
  plus range theorems where signed arithmetic could overflow.
* Bytes are `Z` in 0..255 (`byte_ok`), buffers are lists of bytes.
* Exceptions: a result type with one constructor per exception class that the
  code distinguishes. Undefined behaviour and `assert` failure are separate
  outcomes, never silently totalised.
* Bitstream writers produce a list of events `(bit, probability)`. The boolean
  coder turns the list into bytes. Parsers run on the concrete boolean-decoder
  state. The link is the predicate `ready st evs`: the decoder state `st`
  answers the events `evs` in order. The coder theorem gives
  `ready (start (encode evs)) evs`, and every parser theorem has the form
  `ready st (write x ++ rest) -> exists st', parse st = (x, st') /\ ready st' rest`.
* External things (clock, kernel results, network, hash functions, size
  estimators, picture decoding where a property does not depend on it) are
  universally quantified functions or input sequences.

## Plan per property

| id | modelled | proof method |
|----|----------|--------------|
| C01 | BoolEncoder (put, flush, carry), BoolDecoder (ctor, get) | invariant: encoder output + pending interval as an exact rational interval; decoder value lies in it; induction on events |
| C02 | same encoder, carry as partial function | invariant: value of emitted bytes + bottom < 256^n |
| C03 | BoolDecoder over any bytes, fuel-free | invariant on (range, value, bit_count, remaining) |
| C04 | encode(tree), Tree ctor | generic theorem over valid trees, each concrete tree checked valid by computation |
| C05, C06 | header grammars on both sides | compositional round-trip lemmas |
| C07 | Block::serialize_tokens / parse_tokens | induction on coefficient position |
| C08 | MV component writer / reader | case analysis, bit decomposition |
| C09, C10, C11 | macroblock headers, frame serialisation and parsing | induction over the macroblock raster |
| C12, C13 | make_frame, UncompressedChunk, dct_partitions | list slicing lemmas; refutation for oversize |
| C14-C17 | IVFWriter as a list of file operations, IVF reader, xc-merge | invariant over histories of operations; crash = prefix of operations |
| C18-C21 | Packet, FragmentedFrame, AckPacket | invariant over delivery sequences |
| C22 | Chunk with 64-bit offsets | direct |
| C23-C25, C27, C28, C35, C50 | DecoderState, References, header application | relational induction over frame histories, picture decoding as arbitrary function of its true inputs |
| C26, C27 | state serialiser/deserialiser byte format | round trip lemmas, refutation for distinct references |
| C29 | hash inputs as lists | refutation with witness |
| C30 | Quantizer tables and index arithmetic | finite sweep lifted to all values |
| C31 | iwht, idct_add | range lemmas (linear arithmetic) |
| C32 | inter_predict safe / unsafe | pointwise equality for all positions |
| C33, C34 | loop filter kernels and parameter derivation | range lemmas, case analysis |
| C36 | RasterPool | invariant over operation sequences |
| C37 | Pacer | refinement to a FIFO queue |
| C38-C40 | receiver packet handler as step function | invariants and refutations |
| C41-C43 | sender actions as step function; composed with receiver and an adversarial network | invariants and refutations |
| C44, C45 | search loops | loop invariant; refutation |
| C46 | calc_prob | arithmetic |
| C47 | YUV4MPEG reader / writer | round trip; refutation for odd sizes |
| C48 | FileDescriptor loops over a kernel-result oracle | induction over the schedule |
| C49 | MotionVector clamp | arithmetic |
| C51 | FilePlayer | induction over frames |
| C52 | macroblock headers with the error concealment switch | the switch is never true where it is read |
| C53-C55 | intra and inter prediction, reconstruction of pictures | induction over the macroblock raster with an invariant on what has been written |
| C56 | contexts of macroblocks and blocks | independent description by position, induction over the raster |
| C57 | Decoder::get_frame_output over any bytes | invariant of the decoder state, every outcome is a picture or an exception |
| C58 | segmentation map | induction over frame histories |
| C59 | xc-terminate-chunk | round trip of each rewritten frame |
| C60 | search for the loop-filter level | loop invariant over arbitrary quality functions |
| C61 | forward transforms, quantisation, trellis search | linear arithmetic on the transforms, invariant of the trellis |
| C62 | padded copies of reference pictures | invariant over rows written; overrun computed exactly |
| C63 | motion search and choice of the inter mode | loop invariants over arbitrary cost functions; range of clamped vectors |
| C64 | the frames the encoder makes from pictures | fold invariant: the decoder's reconstruction agrees so far; residue bounds of C61 |
| C65 | the encoder's cost tables and bit estimates | leaves of the code trees by computation; induction over the tokens and over the trellis |
| C66 | block differences, portable and SSE2 | lane sums stay in range; Cauchy-Schwarz |
| C67 | counts for the choice of token probabilities | the writer run with a table of labels; induction over coefficients, blocks and macroblocks |
| C68 | weights of rate and distortion | binary64 products computed for every step up to 160 |
| C69 | chunks encoded again with given predictions | the fold invariant of C64; the census depends only on what is carried over; induction over the frames of the run |
| C70 | assembled transforms against the portable ones | symbolic execution over lanes; congruences modulo 2^16; ranges |
| C71 | the encoder's public calls, from pictures to a decoder in step | composition of C28, C46, C60, C62, C64, C67 per call; invariant of the headers that are kept between calls; induction over the calls |
| C72 | videos without residues | as C59 (written again by parsed-frame round trip); vectors do not depend on skip flags (C69); prediction equation of C55 with zero residue; induction over the frames |
| C73 | sizes of written frames | bits out = sum of the shifts (C02's ideal encoder), each at most 7; number of bools per header, macroblock and block from the writers alone; then the size condition of C11 follows from the dimensions, and C59, C71, C72 lose theirs |
| C74 | xc-enc and vp8decode, file to file | views with the same bytes give the same parse (relation between views); loop of xc-enc by induction over what the input gives, with C71 per call and C14's writer invariant; then C51 for the player and C47 for the raw files |
| C75 | assembled interpolation against the portable one | symbolic execution of one row of each loop from any register contents; induction over the rows; saturated sums equal exact ones after the clamp; then composition of the two passes |
| C76 | assembled intra predictors against the portable ones | symbolic execution from any register contents; a list of the rows written so far describes memory, in the order in which the code stores them; sums of psadbw bounded by 255 per byte; the carry trick by parity of x xor z; then the pixel lists of PredictModel |
| C77 | assembled loop filter across horizontal edges against the portable one | execution with registers as functions of the lane, one named register per instruction; lane lemmas by arithmetic on bytes (excess over limits, signed saturation, the three taps by pmulhw and shifts); then the portable pass column by column, by induction on the columns with C33 for one position |
| C78 | assembled sum of absolute differences against the portable one | symbolic execution of one pass over four rows from any sums; four passes; the sum by halves of rows equals the sum of C66 |

## Model files

| file | code |
|------|------|
| BoolCoderModel, ParserModel, TreeModel, Tables | boolean coder, field codecs, code trees and tables |
| ChunkModel, ContainerModel | memory views, uncompressed part of a frame and partitions |
| HeaderModel, MVModel, MBModel, TokenModel, FrameModel, ConcealModel | the whole bitstream, both directions |
| QuantModel, TransformModel, PredictModel, LoopFilterModel, RasterModel, ReconModel | from a parsed frame to a picture |
| StateModel, SerialModel, PoolModel, PlayerModel | decoder state, export and fingerprints, picture pool, player |
| IvfModel, Y4mModel, FdModel | files and descriptors |
| EncoderModel, SearchModel, ResidueModel, SafeRasterModel, MotionModel, VarianceModel, CostsModel, CountsModel, RateModel, EncodeModel, ReencodeModel, EncoderApiModel, TerminateModel, ZeroModel | the encoder's state and decisions, residues, padded references, motion search, block differences, bit costs, token counts, weights, macroblocks and frames, re-encoding, the public calls, chunk terminator, removal of residues |
| XcEncModel | the main programs xc-enc (primary encoding) and vp8decode |
| SimdModel, AsmTransformModel, AsmInterModel, AsmIntraModel, AsmLoopFilterModel | the vector machine; the assembled transforms, interpolation filters, intra predictors and loop filter across horizontal edges, instruction by instruction |
| PacketModel, PacerModel, ReceiverModel, SenderModel | Salsify |

## Not modelled

* Graphics display, camera and JPEG input, sockets, the poller event loop,
  command-line parsing, logging.
* The theorems about decoding and encoding are about the portable C++ variants.
  The assembled transforms, subtraction and dequantisation (C70), interpolation
  (C75), intra predictors (C76), part of the loop filter (C77) and the sum of
  absolute differences (C78) are modelled beside them and compared. The assembled
  loop filter for vertical edges and for the inner edges of luma is not modelled. Where a variant only exists with SSE2 in C++ (prediction from a
  SafeRaster), its C++ text is modelled.
* Floating-point values: average delay, quality (SSIM), frame rates. They are
  inputs, quantified over.
* The costs of motion vectors in the first search (logarithms in floating
  point). Mode decisions and the trellis are modelled with arbitrary functions
  for the costs and weights; the tables themselves are C65, the weights C68.
  The probability tables and the loop filter level of a frame are arbitrary in
  the theorems about whole frames; how they are chosen is C46, C60 and C67.
* Re-encoding: the weighted mean of two quantiser indices (lrint) is an
  arbitrary function; the mode of a macroblock and the flag that it is
  inter-coded agree, as in every parsed frame.
* Exhaustion of memory and of disk space inside one write, except where the
  file descriptor model lets the kernel refuse.
* Data races between the sender's threads, and exceptions of its encode jobs.

## Assumptions about C++ and its environment

* Two's complement `int` of 32 bits, `char` signed, `size_t` and `time_t` of 64
  bits, little-endian memory where the code copies integers to buffers.
* Constructors that read several fields in one argument list read them in the
  order in which they are written. The standard leaves this open except for
  brace-initialisation.
* `std::unique_ptr`, `std::shared_ptr`, `std::mutex`, containers and streams
  behave as the standard says, in the C locale.
* boost (1.54 to 1.80): `hash_range` combines element by element.
* FilterAdjustments has its two arrays next to each other in the declared
  order (the fingerprint reads across them).
* The output picture of a frame is not one of its references (C36 gives this
  for pictures from the pool).
* A file system in which an interrupted writer leaves a prefix of its
  operations; one `write` moves at most 0x7ffff000 bytes and may be short.
* Time stamps in nanoseconds do not leave 64 bits.
* Assembly: the instructions do on lanes what the manual says (SimdModel.v is
  the list); memory is segments of bytes, every access inside its segment,
  aligned where the instruction asks for it. The prologue macros
  (x86_abi_support.asm, x86inc.asm) deliver the arguments; read-only constants
  are loaded with their values; saving registers, the stack and the mixing of
  MMX with floating point (no `emms` is ever executed) are not modelled.
* Asserts are on: a failed assertion is an outcome of its own, never passed.

## Trusted base

* The Coq kernel (8.16.1), with the conversion test of `vm_compute` for the
  examples and table sweeps.
* The transcription from C++ to Gallina, documented by the citations, and the
  assumptions above.
* Axioms: none. `Print Assumptions` says "Closed under the global context" for
  each theorem named in MANIFEST.json (list below).

## Print Assumptions

Output for every theorem below: `Closed under the global context`.

* PropAsmTransform: C70_iwalsh, C70_iwalsh_agrees, C70_iwalsh_small, C70_iwalsh_misaligned, C70_iwalsh_refuted, C70_idct, C70_idct_add, C70_idct_small, C70_idct_refuted, C70_fwalsh, C70_fdct, C70_subtract, C70_subtract_dct, C70_dequantize
* PropBoolCoder: C01_bool_coder_round_trip, C02_carry_stays_inside, C03_decoder_total
* PropChunk: C22_slice, C22_tail, C22_chain, C22_slice_any_length_refuted, C22_fixed_width, C22_bit_field
* PropConceal: C52_concealment_never_active
* PropContainer: C12_container_round_trip, C12_long_first_partition_lost, C12_long_dct_partition_lost, C12_empty_partition_rejected, C13_partitions_within_input, C13_strict_acceptance, C13_truncation_rejected
* PropContexts: C56_key_sub_modes, C56_inter_modes, C56_inter_vectors, C56_plane_tokens, C56_macroblock_tokens, C56_y2_context
* PropCosts: C65_tree, C65_tree_tail, C65_mv, C65_mv_weighted, C65_fill, C65_block, C65_search, C65_dearer_refuted
* PropCounts: C67_block, C67_frame, C67_size, C67_tables, C67_skipped_refuted, C67_stale_refuted
* PropEncode: C64_key, C64_inter, C64_key_near, C64_inter_near, C64_key_decoded, C64_inter_decoded, C64_shown_near
* PropEncoder: C28_frame, C28_sequence, C28_continue, C28_new, C28_windows, C28_inter_segmentation, C28_written_segmentation_refuted, C28_inherited_segmentation_refuted
* PropFd: C48_write_chunk, C48_write_string, C48_write_once, C48_read_exactly, C48_after_eof, C48_getline
* PropFilter: C34_picture
* PropFrame: C11_key_frame_round_trip, C11_inter_frame_round_trip, C11_parsed_key_frame_is_serialisable, C11_parsed_inter_frame_is_serialisable
* PropHeaders: C05_key_frame_header_round_trip, C06_inter_frame_header_round_trip, C06_mv_probability_codes
* PropInter: C32_inter_predict, C32_unchecked_equals_checked, C32_margin_needed_refuted, C32_one_pass, C32_flat_reference
* PropIntra: C53_block, C53_subblock, C53_other_modes
* PropIvf: C14_round_trip, C14_offset, C14_huge_frame_refuted, C15_any_file, C16_crash_points, C16_creation, C16_torn_count_refuted, C17_merge, C17_dimensions, C17_only_valid_files, C17_list
* PropLoopFilter: C33_subblock_edge, C33_macroblock_edge, C33_flat_edge, C33_mb_edge_position, C33_sb_edge_position, C33_macroblock, C33_macroblock_step, C33_flat_picture, C34_limits, C34_level, C34_segment_level_limited_first_refuted
* PropMacroblocks: C05_parsed_header_is_encodable, C06_parsed_header_is_encodable, C09_key_frame_modes_round_trip, C09_parsed_key_frame_modes_round_trip, C10_inter_frame_modes_round_trip, C10_parsed_inter_frame_modes_round_trip, C10_census_within_tables
* PropMotion: C63_search, C63_never_worse, C63_round, C63_search_reads, C63_new_vector, C63_choice, C63_every_width_refuted
* PropMotionVectors: C08_component_round_trip, C08_odd_component_rounded, C08_reader_range, C08_vector_round_trip, C49_clamp_within_border, C49_clamp_idempotent, C49_clamp_keeps_legal, C49_clamp_nearest
* PropPacer: C37_order, C37_release_times, C37_due, C37_not_early, C37_progress, C37_early_refuted
* PropPacket: C18_round_trip, C18_datagrams, C19_delivery, C19_any_packet, C19_first_packet, C19_limits, C20_partial_frame, C21_round_trip, C21_datagrams
* PropPicture: C54_picture, C54_key_frame, C54_inter_frame
* PropPlayer: C51_open, C51_resume, C51_advance, C51_play, C51_play_all, C51_watch_is_decoding, C51_any_file, C51_original_size, C51_original_size_at_start, C51_hidden_tail_refuted
* PropPool: C36_fresh, C36_exclusive, C36_unchanged, C36_hash, C36_failures
* PropQuant: C30_quantizer, C30_header_indices_qualify, C30_segment_index, C30_negative_segment_index_refuted, C30_delta_after_clamp_refuted, C30_dequantize
* PropRate: C68_exact, C68_rounding_refuted, C68_quantizer, C68_range
* PropReceiver: C38_order, C38_next, C38_old_packet, C38_memory, C39_advertised, C39_restored, C39_kept, C39_repeated_refuted, C40_failures, C40_connection_refuted, C40_source_refuted, C40_lost_fragment_refuted
* PropRecon: C55_reconstruction, C55_key_frame, C55_inter_frame, C55_chroma_vector_exact, C55_chroma_vector_exact_refuted
* PropEncoderApi: C71_call, C71_other_size, C71_run, C71_new, C71_continue, C71_key_header, C71_inter_header, C71_zero_decoder, C71_empty_kept, C71_tiny_refuted, C71_large_quantiser_refuted
* PropZero: C72_video, C72_key_frame, C72_stops, C72_undecodable, C72_prediction_only, C72_every_video_refuted
* PropSize: C73_coder, C73_key_frame, C73_inter_frame, C73_run, C73_terminated, C73_without_residues, C73_encoder
* PropXcEnc: C74_only_the_bytes, C74_input, C74_container_input, C74_any_video_input, C74_video_input, C74_encode, C74_continue, C74_wrong_size, C74_sizes, C74_no_sizes, C74_vp8decode, C74_decode_any, C74_pipeline
* PropAsmInter: C75_horizontal, C75_vertical, C75_block, C75_predict, C75_read_past_end, C75_guard_is_enough_refuted, C75_padded
* PropAsmIntra: C76_block, C76_subblock, C76_same_plane, C76_same_subblock
* PropAsmLoopFilter: C77_luma, C77_chroma, C77_chroma_inner, C77_limits, C77_any_limits_refuted
* PropAsmSad: C78_sad, C78_any_address_refuted
* PropReencode: C69_residues, C69_references, C69_as_interframe, C69_run, C69_run_decoded, C69_errors, C69_hidden_shown
* PropResidue: C61_block, C61_block_under_y2, C61_y2_block, C61_transforms, C61_first_pass, C61_first_pass_y2, C61_equal
* PropSafeRaster: C62_load, C62_construct, C62_overrun, C62_every_width_refuted, C62_predict
* PropSearch: C44_bounds, C44_fits, C44_best, C44_unbounded_refuted, C44_monotone_needed_refuted, C45_bounds, C45_search_partial, C45_called, C45_refuted, C46_prob, C46_overflow_refuted, C46_token, C46_mv, C46_references, C46_skip, C60_level, C60_unimodal, C60_unordered_refuted
* PropSender: C41_failures, C41_assumed, C43_sequence, C43_monotone, C43_accepted, C43_unsent_refuted
* PropSerial: C26_import_export, C26_lossless_iff, C26_export_injective, C26_exact_length, C27_hand_over, C29_mode_adjustments_refuted, C29_fingerprint, C29_decoder_fingerprint, C29_zero_matches_everything
* PropState: C23_references_after_inter_frame, C23_references_after_key_frame, C23_references_after_exception, C23_simultaneous_copies_refuted, C24_key_frame_erases_history, C25_inter_frame_tables, C25_key_frame_tables, C35_deltas_after_inter_frame, C35_deltas_persist_refuted, C50_update_idempotent, C50_update_entries, C50_serialise_with_updated_tables, C57_decoder_never_aborts, C57_new_decoder, C57_buffers_do_not_matter, C58_inter_frame_segments, C58_key_frame_segments
* PropSystem: C41_fifo_partial, C41_reordering_refuted, C42_discarded, C42_selected, C42_delayed_refuted
* PropTerminate: C27_terminated_video, C59_terminated_video
* PropTokens: C07_token_round_trip, C07_too_large_rejected, C07_decoded_block_is_encodable
* PropTransform: C31_iwht, C31_idct, C31_idct_add, C31_dc_only
* PropTrees: C04_tree_symbols_round_trip, C04_tree_decode_total, C04_tree_codes_injective
* PropVariance: C66_portable, C66_meaning, C66_sse2
* PropY4m: C47_read_picture, C47_write_picture, C47_write_succeeds, C47_header, C47_open, C47_picture, C47_file, C47_odd_refuted, C47_header_limits_refuted
