{"id": "C01", "title": "Boolean entropy coder round trip", "statement": "Writing any sequence of bits, each with its own 8-bit probability, through the boolean entropy encoder and finishing it yields a byte string from which the boolean entropy decoder, asked for bits with the same probabilities in the same order, returns exactly the original bits.", "quantifier": "every finite sequence of (bit, probability 0..255) pairs, of any length", "why_tests_cant": "Carry propagation in the encoder can reach back through arbitrarily many 0xff bytes; which sequences trigger it depends on the entire history, so no finite test set covers all carry chains.", "anchors": ["src/encoder/bool_encoder.hh: BoolEncoder::put, flush, add_one_to_output, finish", "src/decoder/bool_decoder.hh: BoolDecoder::BoolDecoder, get"]}
{"id": "C02", "title": "Entropy encoder carry never leaves the output buffer", "statement": "While encoding, the carry that is added to already emitted bytes always stops inside the output buffer: it never runs past the first byte and never touches memory outside of it.", "quantifier": "every sequence of (bit, probability) pairs", "why_tests_cant": "An out-of-buffer carry is only reachable if a specific numeric relation between emitted bytes and the pending interval fails; tests cannot enumerate the histories.", "anchors": ["src/encoder/bool_encoder.hh: BoolEncoder::add_one_to_output, put"]}
{"id": "C03", "title": "Boolean decoder is total and memory safe", "statement": "Given any byte string and any sequence of probabilities the boolean decoder always returns a bit, never reads beyond the end of the byte string, keeps its internal interval normalised (128..255), and once the string is exhausted behaves as if it were followed by zero bytes.", "quantifier": "every byte string (including empty) and every sequence of probabilities", "why_tests_cant": "Malformed input space is unbounded; out-of-bounds reads only show for particular exhaustion points.", "anchors": ["src/decoder/bool_decoder.hh: BoolDecoder::load_octet, BoolDecoder, get"]}
{"id": "C04", "title": "Tree-coded symbols round trip", "statement": "For each of the code trees used in the bitstream (key-frame luma mode, inter luma mode, chroma mode, sub-block mode, segment id, split type, inter mode, sub-MV reference, short motion vector), every symbol that is encoded with a table of probabilities is read back as the same symbol by the decoder using the same table, with no other bits consumed.", "quantifier": "every symbol of every tree, every probability table, every following bit stream", "why_tests_cant": "Needs all probability tables and all continuations, a product space far beyond enumeration.", "anchors": ["src/encoder/encode_tree.cc: encode", "src/decoder/tree.cc: Tree", "src/decoder/modemv_data.cc: trees"]}
{"id": "C05", "title": "Key-frame header round trip", "statement": "Serialising any key-frame header whose fields fit their bit widths and parsing the result yields a header with the same value in every field, and the parser stops exactly where the serialiser stopped.", "quantifier": "every key-frame header value with in-range fields, and any data following it in the partition", "why_tests_cant": "The header has more than 1000 optional fields (coefficient probability updates); the combinations cannot be enumerated.", "anchors": ["src/decoder/frame_header.hh: KeyFrameHeader", "src/encoder/serializer.cc: encode(BoolEncoder&, const KeyFrameHeader&)"]}
{"id": "C06", "title": "Inter-frame header round trip", "statement": "Serialising any inter-frame header whose fields fit their bit widths (motion-vector probability updates being values that a 7-bit code can express) and parsing the result yields a header with the same value in every field, including the fields that are only present under conditions on earlier fields.", "quantifier": "every inter-frame header value that satisfies its own presence conditions, and any data following it", "why_tests_cant": "Presence of fields depends on previous fields (copy flags absent when a buffer is refreshed); combinations are too many.", "anchors": ["src/decoder/frame_header.hh: InterFrameHeader", "src/encoder/serializer.cc: encode(BoolEncoder&, const InterFrameHeader&)"]}
{"id": "C07", "title": "Coefficient token round trip", "statement": "Any block of 16 quantised coefficients (each at most 2048+66 in magnitude as the format allows) written by the token serialiser is read by the token parser as the same 16 coefficients and the same has-nonzero flag, for every probability table and every context, for all four block types.", "quantifier": "every coefficient block, block type, neighbour context, probability table", "why_tests_cant": "2^16 values in each of 16 positions times all contexts/probability tables.", "anchors": ["src/encoder/serializer.cc: Block::serialize_tokens, TokenDecoder::encode", "src/decoder/tokens.cc: Block::parse_tokens"]}
{"id": "C08", "title": "Motion vector component round trip", "statement": "A motion vector difference whose components are even and less than 2048 in magnitude is decoded to exactly the same difference; components outside that set are not representable and come back changed.", "quantifier": "every motion vector component (16-bit), every MV probability table", "why_tests_cant": "All component values times all 19-entry probability tables; the long form omits one bit depending on others.", "anchors": ["src/encoder/serializer.cc: encode(BoolEncoder&, MotionVector component)", "src/decoder/macroblock.cc: MotionVector::read_component"]}
{"id": "C09", "title": "Macroblock mode information round trip, key frames", "statement": "Segment id, skip flag, luma mode, the sixteen sub-block modes and chroma mode of every macroblock in a key frame survive serialisation and parsing, using the contextual probabilities derived from the neighbouring macroblocks.", "quantifier": "every frame size, every assignment of modes to macroblocks, every segment-tree probability set", "why_tests_cant": "Contexts chain across the entire frame so a mismatch can depend on arbitrary far-away macroblocks.", "anchors": ["src/encoder/serializer.cc: KeyFrameMacroblock::encode_prediction_modes, Macroblock::serialize", "src/decoder/macroblock.cc: Macroblock ctor, decode_prediction_modes"]}
{"id": "C10", "title": "Macroblock mode information round trip, inter frames", "statement": "Reference choice, prediction modes and motion vectors (whole-macroblock and split) of every macroblock in an inter frame survive serialisation and parsing, including the motion-vector census over neighbours that both sides perform.", "quantifier": "every frame size, every assignment of consistent modes and motion vectors to macroblocks", "why_tests_cant": "Motion vectors are coded relative to neighbour vectors; correctness depends on the whole neighbourhood history.", "anchors": ["src/encoder/serializer.cc: InterFrameMacroblock::encode_prediction_modes, write_subblock_inter_prediction", "src/decoder/macroblock.cc: InterFrameMacroblock::decode_prediction_modes, read_subblock_inter_prediction", "src/decoder/scorer.hh"]}
{"id": "C11", "title": "Whole-frame bitstream round trip", "statement": "Serialising a frame (header, macroblock modes, tokens distributed over 1, 2, 4 or 8 partitions) and parsing the bytes back yields a frame with the same header, modes and coefficients.", "quantifier": "every frame size, header, mode assignment, coefficient assignment and partition count", "why_tests_cant": "Combination of all of the above; the repository's roundtrip.test checks only sample videos.", "anchors": ["src/encoder/serializer.cc: KeyFrame::serialize, InterFrame::serialize, serialize_first_partition, serialize_tokens, make_frame", "src/decoder/frame.cc: parse_macroblock_headers, parse_tokens"]}
{"id": "C12", "title": "Frame container round trip", "statement": "Assembling a compressed frame from a first partition and DCT partitions and taking it apart again gives the same frame type, show flag, first partition and partitions as long as the first partition is shorter than 2^19 bytes and each non-final DCT partition is shorter than 2^24 bytes; beyond these limits the lengths are silently truncated and the frame cannot be taken apart correctly.", "quantifier": "every list of partition contents, every dimension 1..16383, key and inter frames", "why_tests_cant": "Size limits are only hit by huge frames and the partition counts/sizes are unbounded.", "anchors": ["src/encoder/serializer.cc: make_frame", "src/decoder/uncompressed_chunk.cc: UncompressedChunk, dct_partitions"]}
{"id": "C13", "title": "Frame container parser is safe on arbitrary input", "statement": "Given any byte string the container parser either yields partitions that are sub-strings of the input or reports one of its documented errors; without error concealment a truncated or mis-sized frame is always rejected.", "quantifier": "every byte string, every configured width/height, error concealment on or off", "why_tests_cant": "Untrusted input of arbitrary length.", "anchors": ["src/decoder/uncompressed_chunk.cc: UncompressedChunk, dct_partitions", "src/util/chunk.hh"]}
{"id": "C14", "title": "IVF files round trip", "statement": "A file made by the IVF writer with any sequence of appended frames is opened by the IVF reader with the same fourcc, dimensions, rate and scale, the same number of frames and exactly the same frame contents in order, and carries the most recently set decoder entry hash.", "quantifier": "every sequence of appends (each shorter than 2^32 bytes, fewer than 2^32 frames), every header value, every interleaving of entry-hash settings", "why_tests_cant": "Unbounded append histories; the frame count and hash are rewritten in place.", "anchors": ["src/util/ivf_writer.cc: IVFWriter", "src/util/ivf.cc: IVF"]}
{"id": "C15", "title": "IVF reader is safe on arbitrary files", "statement": "Opening any byte string as an IVF file either fails with a format error or succeeds, and afterwards each frame access either returns a sub-string of the file or fails with a range error; no byte outside of the file is read.", "quantifier": "every byte string, every frame index", "why_tests_cant": "Untrusted files; header fields are attacker controlled.", "anchors": ["src/util/ivf.cc: IVF::IVF, IVF::frame", "src/util/chunk.hh"]}
{"id": "C16", "title": "Crash points of the IVF writer", "statement": "Whatever prefix of an append's individual file operations has been performed when the writer stops, re-opening the file as IVF either reports a truncated file or shows exactly the frames whose append had completed (never a partially written frame as complete).", "quantifier": "every history of appends and every crash point between the writes of the last one", "why_tests_cant": "Crash points inside an append cannot be hit deterministically by a test.", "anchors": ["src/util/ivf_writer.cc: IVFWriter::append_frame", "src/util/ivf.cc: IVF::IVF"]}
{"id": "C17", "title": "Merging IVF files is concatenation", "statement": "Merging a list of IVF files of the same dimensions produces an IVF file whose frames are exactly the concatenation of the inputs' frames, and fails if any dimension differs.", "quantifier": "every list of input files", "why_tests_cant": "Unbounded number and content of inputs.", "anchors": ["src/frontend/xc-merge.cc", "src/util/ivf.cc", "src/util/ivf_writer.cc"]}
{"id": "C18", "title": "Video packets round trip, malformed packets are rejected", "statement": "Serialising a valid fragment packet and parsing the datagram restores every field; a datagram that is too short, has an empty payload, or whose fragment number is not below its fragment count is rejected.", "quantifier": "every packet value; every byte string as incoming datagram", "why_tests_cant": "Datagrams come from the network and may be arbitrary.", "anchors": ["src/net/packet.cc: Packet::to_string, Packet::Packet(const Chunk&)"]}
{"id": "C19", "title": "Fragmentation and reassembly under any delivery", "statement": "Splitting a non-empty frame of at most 65535 fragments and feeding the fragments to the receiver's reassembly in any order, with any duplication and any loss, reports completeness exactly when every fragment has been delivered at least once, and then returns the original frame byte for byte.", "quantifier": "every frame, every sequence of deliveries drawn from its fragments (any order, duplicates, omissions)", "why_tests_cant": "Number of delivery schedules is factorial/unbounded.", "anchors": ["src/net/packet.cc: FragmentedFrame (both constructors), add_packet, complete, frame"]}
{"id": "C20", "title": "Partial frame is the longest received prefix", "statement": "At any moment during reassembly the partial frame is exactly the concatenation of the payloads before the first missing fragment, hence a prefix of the original frame.", "quantifier": "every frame and every sequence of deliveries", "why_tests_cant": "Schedule space.", "anchors": ["src/net/packet.cc: FragmentedFrame::partial_frame"]}
{"id": "C21", "title": "Acknowledgement packets round trip", "statement": "Serialising an acknowledgement with any list of complete states and parsing it restores every field; a datagram shorter than what its state count announces is rejected.", "quantifier": "every acknowledgement value with fewer than 2^32 states; every incoming byte string", "why_tests_cant": "Arbitrary list lengths and network input.", "anchors": ["src/net/packet.cc: AckPacket"]}
{"id": "C22", "title": "Sub-slicing a byte view never escapes it", "statement": "Taking a sub-view with any offset and length either fails with a range error or yields bytes that lie completely within the original view, provided that the sum of offset and length does not exceed the machine word; reading fixed-width integers from a view of the right size returns their little-endian value.", "quantifier": "every view, offset and length (64-bit), every chain of sub-slicing", "why_tests_cant": "Arithmetic wrap-around only shows for extreme values.", "anchors": ["src/util/chunk.hh: Chunk::operator(), octet, le16, le32, le64, bits"]}
{"id": "C23", "title": "Reference buffer updates follow the frame header", "statement": "After decoding an inter frame each of the three reference pictures is what the header prescribes: the new picture if it is refreshed, the pre-frame content of the buffer named by its copy flag, or unchanged; with the golden copy taken after the alternate copy.", "quantifier": "every header, every previous content of the references", "why_tests_cant": "Histories of frames; an incorrect update only becomes visible arbitrarily many frames later.", "anchors": ["src/decoder/frame.cc: InterFrame::copy_to, KeyFrame::copy_to", "src/decoder/decoder.cc: Decoder::decode_frame"]}
{"id": "C24", "title": "Key frames erase history", "statement": "If two decoders of the same dimensions, with arbitrary different pasts, are given the same key frame followed by the same sequence of frames, they produce identical pictures and end in identical states.", "quantifier": "every pair of decoder states, every key frame, every following frame sequence", "why_tests_cant": "Quantifies over all pairs of histories (a relational property).", "anchors": ["src/decoder/decoder_state.hh: DecoderState::parse_and_apply", "src/decoder/decoder.cc: Decoder::get_frame_output"]}
{"id": "C25", "title": "Temporary probabilities do not persist", "statement": "A frame whose header does not ask to keep its probabilities leaves the persistent probability tables exactly as they were before an inter frame (or at their defaults after a key frame), while a frame that does keeps precisely the tables it was decoded with.", "quantifier": "every header and every state", "why_tests_cant": "The effect of a leak appears only in later frames with particular contents.", "anchors": ["src/decoder/decoder_state.hh: parse_and_apply", "src/decoder/probability_tables.cc: ProbabilityTables::update, coeff_prob_update, mv_prob_update"]}
{"id": "C26", "title": "Decoder state export/import", "statement": "Exporting a decoder and importing it again yields an equal decoder whenever its three reference pictures are equal; when they are not, the golden and alternate pictures are lost and replaced by the last picture.", "quantifier": "every decoder state (tables, segmentation map, filter deltas, pictures)", "why_tests_cant": "State space is the set of all decoder histories.", "anchors": ["src/decoder/decoder.cc: Decoder::serialize, deserialize, References::serialize, DecoderState::serialize", "src/decoder/enc_state_serializer.hh"]}
{"id": "C27", "title": "Terminated chunks can be handed over losslessly", "statement": "After a key frame, or after an inter frame rewritten by the chunk terminator, export followed by import gives back the identical decoder, so decoding can continue in another process with identical output.", "quantifier": "every decoder history ending in such a frame", "why_tests_cant": "All histories.", "anchors": ["src/frontend/xc-terminate-chunk.cc", "src/decoder/frame.cc: copy_to", "src/decoder/decoder.cc"]}
{"id": "C28", "title": "Encoder and decoder stay in lockstep", "statement": "After the encoder emits a frame without segmentation its own model of the decoder (probability tables, filter deltas, references bookkeeping) equals the state of a decoder that started equal and parsed the emitted frame, and the frame was serialised with the very probability tables the decoder will use.", "quantifier": "every encoder state and every emitted header, by induction every sequence of frames", "why_tests_cant": "Divergence may only become visible many frames later.", "anchors": ["src/encoder/encoder.cc: write_frame", "src/encoder/encode_inter.cc: update_decoder_state", "src/encoder/encode_intra.cc: update_decoder_state", "src/decoder/decoder_state.hh: parse_and_apply"]}
{"id": "C29", "title": "State fingerprints cover the state", "statement": "Two decoder states that differ in their loop-filter deltas have different fingerprints unless the underlying hash collides (i.e. every component is fed to the hash).", "quantifier": "every pair of decoder states, every hash function", "why_tests_cant": "Requires all pairs of states and is about the hash input, not its value.", "anchors": ["src/decoder/decoder.cc: FilterAdjustments::hash, DecoderState::hash"]}
{"id": "C30", "title": "Dequantisation factors stay in their legal range", "statement": "For every quantiser index set a header can express, and every segment adjustment, the six dequantisation factors are positive, within the documented minimum (8) and maximum (132) special cases, and the index used is clamped to 0..127.", "quantifier": "every combination of header and segment quantiser fields", "why_tests_cant": "Large product of header fields.", "anchors": ["src/decoder/quantization.cc: Quantizer", "src/decoder/frame.cc: calculate_segment_quantizers"]}
{"id": "C31", "title": "Inverse transforms cannot overflow and always give pixels", "statement": "For every dequantised coefficient block the inverse Walsh-Hadamard and inverse DCT stay within 32-bit arithmetic, residual addition always gives values 0..255, and a block whose only non-zero coefficient is the DC gives the flat result (dc+4)>>3 added everywhere.", "quantifier": "every block of 16 coefficients in the 16-bit range, every predictor", "why_tests_cant": "2^256 blocks.", "anchors": ["src/decoder/transform.cc: iwht, idct_add"]}
{"id": "C32", "title": "Picture edges: interior fast path equals clamped path", "statement": "Motion-compensated prediction reads, for every motion vector whatsoever, the pixels of the infinitely edge-extended reference picture; the bounds test that selects the unchecked path guarantees that the unchecked path only touches pixels within the picture, and both paths give the same prediction.", "quantifier": "every picture size, block position, motion vector and reference contents", "why_tests_cant": "Motion vectors and picture contents are unbounded; off-by-one errors show only at specific boundary positions.", "anchors": ["src/decoder/prediction.cc: inter_predict, unsafe_inter_predict, safe_inter_predict", "src/decoder/vp8_raster.hh: EdgeExtendedRaster"]}
{"id": "C33", "title": "Loop filter is bounded and local", "statement": "Filtering an edge changes at most three pixels on each side, leaves all pixels unchanged if the edge differences exceed the filter limits, and always produces values 0..255; picture areas of constant value are never changed.", "quantifier": "every 8-pixel neighbourhood and every limit/threshold setting", "why_tests_cant": "2^64 neighbourhoods times limits.", "anchors": ["src/decoder/loopfilter_filters.hh", "src/decoder/loopfilter.cc"]}
{"id": "C34", "title": "Loop filter strength stays in range", "statement": "For every frame, segment and delta setting the level used for a macroblock is between 0 and 63, the interior limit is between 1 and 63 and respects the sharpness cap, and all comparison limits fit in 8 bits.", "quantifier": "every combination of level, sharpness, segment adjustment, reference and mode deltas", "why_tests_cant": "Large product of header fields.", "anchors": ["src/decoder/loopfilter.cc: FilterParameters::adjust, SimpleLoopFilter, NormalLoopFilter", "src/decoder/macroblock.cc: loopfilter"]}
{"id": "C35", "title": "Filter deltas persist between frames", "statement": "A loop-filter delta that a header does not mention keeps the value it had.", "quantifier": "every header and every previous state", "why_tests_cant": "Persistent state across frame histories.", "anchors": ["src/decoder/decoder_state.hh: FilterAdjustments::update"]}
{"id": "C36", "title": "Recycled pictures are never shared by two owners", "statement": "The picture pool never hands out a picture that is still reachable through another handle, whatever the sequence of allocations and releases, and a picture obtained from it never carries the cached fingerprint of its previous contents.", "quantifier": "every sequence of allocate / share / release operations", "why_tests_cant": "Schedules of ownership operations are unbounded.", "anchors": ["src/decoder/raster_handle.cc: RasterPool, RasterDeleter, HashCachedRaster"]}
{"id": "C37", "title": "Pacer preserves order and content", "statement": "Packets leave the pacer in exactly the order they were pushed, each once, no earlier than their release time.", "quantifier": "every interleaving of pushes and pops and every clock sequence", "why_tests_cant": "Timing schedules.", "anchors": ["src/net/pacer.hh: Pacer"]}
{"id": "C38", "title": "Receiver decodes each frame at most once and in order", "statement": "For every sequence of incoming packets the frame numbers the receiver feeds to its decoder are strictly increasing, the expected frame number never decreases, and packets of older frames have no effect at all.", "quantifier": "every sequence of well-formed packets (loss, duplication, reordering, malicious)", "why_tests_cant": "Unbounded packet schedules.", "anchors": ["src/salsify/salsify-receiver.cc: main packet handler"]}
{"id": "C39", "title": "States advertised by the receiver can be restored by it", "statement": "Every state the receiver lists as complete in an acknowledgement can be restored when a later frame names it as its source.", "quantifier": "every sequence of packets", "why_tests_cant": "Needs repeated state values in particular orders.", "anchors": ["src/salsify/salsify-receiver.cc: complete_states, decoders"]}
{"id": "C40", "title": "Receiver survives any well-formed packet sequence", "statement": "No sequence of well-formed packets makes the receiver abort.", "quantifier": "every sequence of well-formed packets", "why_tests_cant": "Abort needs a specific multi-packet history.", "anchors": ["src/salsify/salsify-receiver.cc: assert in the pruning loop"]}
{"id": "C41", "title": "Sender always has the encoder state it wants to start from", "statement": "The state the sender assumes the receiver is in, and any state an honest receiver has acknowledged that was not superseded, is still present when the sender starts to encode from it, so encoding never fails with a missing state.", "quantifier": "every interleaving of encode jobs, acknowledgements (delayed, lost, reordered) and skipped frames", "why_tests_cant": "Concurrent schedules.", "anchors": ["src/salsify/salsify-sender.cc: encode start action (cleanup and selection), encode end action, ack action"]}
{"id": "C42", "title": "A superseded state is never used again", "statement": "Once the receiver has discarded its older states because a newer frame was decoded, the sender never again starts a frame from one of these older states.", "quantifier": "every interleaving of acknowledgements and encodes with arbitrary network delay", "why_tests_cant": "Requires delayed acknowledgements crossing conservative mode changes.", "anchors": ["src/salsify/salsify-sender.cc", "src/salsify/salsify-receiver.cc: comment 'sender won't refer to any decoder older than this'"]}
{"id": "C43", "title": "Acknowledgement bookkeeping is monotone", "statement": "Sequence numbers derived from (frame, fragment) are strictly increasing in sending order, and the sender's notion of the last acknowledged packet never moves backwards whatever acknowledgements arrive.", "quantifier": "every history of frames sent (any fragment counts) and every order of acknowledgements for sent fragments", "why_tests_cant": "Unbounded histories and reordering.", "anchors": ["src/salsify/salsify-sender.cc: ack_seq_no, ack action"]}
{"id": "C44", "title": "Target-size search picks the best admissible quantiser", "statement": "The quantiser chosen for a target size is always within the allowed window around the previous one and within 4..127; if the size estimate does not increase with the quantiser, it is the smallest quantiser of the window whose estimate fits, or the largest of the window if none fits; the search always terminates.", "quantifier": "every estimator, target size and previous quantiser", "why_tests_cant": "Estimators are arbitrary functions of picture contents.", "anchors": ["src/encoder/encoder.cc: Encoder::encode_with_target_size"]}
{"id": "C45", "title": "Minimum-quality search honours the requested quality", "statement": "Encoding with a minimum SSIM uses the coarsest quantiser whose measured SSIM is at least the minimum, if there is one.", "quantifier": "every monotone quality function and every minimum", "why_tests_cant": "Picture contents are arbitrary.", "anchors": ["src/encoder/encoder.cc: encode_with_minimum_ssim, encode_with_quantizer_search, encode_raster default arguments"]}
{"id": "C46", "title": "Estimated probabilities are valid", "statement": "The probability derived from branch counts is always a value 0..255, is 0 only when the false branch was never seen, and approximates the ratio within 1/256, for counts below 2^24.", "quantifier": "every pair of counts", "why_tests_cant": "2^48 pairs; overflow beyond.", "anchors": ["src/encoder/encoder.cc: Encoder::calc_prob"]}
{"id": "C47", "title": "Raw video files round trip", "statement": "Writing pictures with the YUV4MPEG writer and reading them back gives the same pictures if both dimensions are even; for odd dimensions the reader and the writer disagree about the chroma size.", "quantifier": "every even picture size and sequence of pictures", "why_tests_cant": "Sizes and contents unbounded.", "anchors": ["src/input/yuv4mpeg.cc: YUV4MPEGReader, YUV4MPEGFrameWriter"]}
{"id": "C48", "title": "Descriptor writes and exact reads deliver all bytes", "statement": "Whatever partial counts the kernel returns, a complete write hands every byte to the kernel exactly once and in order, and an exact read returns exactly the next n bytes of the stream or fails.", "quantifier": "every schedule of partial kernel results and every buffer", "why_tests_cant": "Kernel schedules.", "anchors": ["src/util/file_descriptor.hh: write, read, read_exactly"]}
{"id": "C49", "title": "Motion vector clamping", "statement": "A clamped neighbour motion vector never points further than the allowed border outside of the picture, clamping is idempotent, and a vector that already satisfies the bounds is unchanged.", "quantifier": "every motion vector and macroblock position, every picture size", "why_tests_cant": "All vectors and positions.", "anchors": ["src/decoder/macroblock.cc: MotionVector clamp, Scorer::clamp"]}
{"id": "C50", "title": "Applying a header's probability updates twice equals once", "statement": "Updating a probability table with a header is idempotent and only affects entries for which the header carries a value, so the encoder may serialise with tables that have already been updated.", "quantifier": "every table and every header", "why_tests_cant": "1000+ optional fields.", "anchors": ["src/decoder/probability_tables.cc", "src/encoder/encoder.cc: write_frame"]}
{"id": "C51", "title": "Player positions on the first key frame", "statement": "Opening a stream for playback positions it at the first key frame, advancing returns exactly the shown frames in order and reaching the end of the file reports end of file rather than reading past it.", "quantifier": "every stream", "why_tests_cant": "Arbitrary interleavings of hidden, corrupt and key frames.", "anchors": ["src/decoder/player.cc: FilePlayer, advance, eof"]}
{"id": "C52", "title": "Error concealment of macroblock headers never takes effect", "statement": "For every accepted inter frame, at any corruption level, parsing the macroblock headers with the concealment switch gives exactly the same result as without it: the decoder of the first partition is created as complete precisely when concealment is on, so it never reports missing data.", "quantifier": "every chunk, corruption level, state of the shared zero decoder and frame size", "why_tests_cant": "Needs all truncated inputs; a test of a single truncated frame cannot show that the branch is dead.", "anchors": ["src/decoder/decoder_state.hh: parse_and_apply<InterFrame>", "src/decoder/macroblock.cc: Macroblock constructor, decode_prediction_modes", "src/decoder/bool_decoder.hh: load_octet"]}
{"id": "C53", "title": "Intra prediction reads only decoded pixels and follows the format", "statement": "For every plane, block position inside of it and prediction mode, intra prediction of whole blocks and of 4x4 sub-blocks never reads or writes outside of the plane, changes only the block and gives every pixel the value the format prescribes from the row above, the column to the left, the corner and the above-right pixels, with the constants 127 and 129 beyond the picture's edges.", "quantifier": "all plane sizes and contents, positions, modes", "why_tests_cant": "Border handling depends on position and on the picture size; tests see few positions and sizes.", "anchors": ["src/decoder/prediction.cc: Predictors, true_motion_predict, horizontal_predict, vertical_predict, dc_predict, intra_predict"]}
{"id": "C54", "title": "Decoding a picture is safe and independent of the recycled buffer", "statement": "For every accepted frame, with any segmentation and filter adjustments, decoding and loop filtering its picture never fails, never reads or writes outside of a plane, keeps the sizes, gives bytes, and the result does not depend on what the picture buffer taken from the pool held before.", "quantifier": "all accepted key and inter frames, reference pictures, segmentations, segment ids and previous buffer contents", "why_tests_cant": "Depending on stale pixels shows only with particular buffer histories; out of bounds access only with particular positions and vectors.", "anchors": ["src/decoder/frame.cc: decode, loopfilter", "src/decoder/macroblock.cc: reconstruct_intra, reconstruct_inter", "src/decoder/decoder.cc: decode_frame"]}
{"id": "C55", "title": "Every pixel is the prediction plus the residue", "statement": "For every accepted frame, each pixel of the picture before loop filtering is the prediction for its macroblock or sub-block plus the inverse transform of the dequantised coefficients, limited to 0..255, where intra prediction reads the final values of the neighbouring pixels of the same picture and inter prediction reads the reference picture displaced by the motion vector of the sub-block.", "quantifier": "all accepted key and inter frames, reference pictures, segmentations and segment ids", "why_tests_cant": "Depends on combinations of modes, positions, vectors, coefficients and segments that no test vector set covers.", "anchors": ["src/decoder/frame.cc: decode", "src/decoder/macroblock.cc: reconstruct_intra, reconstruct_inter, apply_walsh"]}
{"id": "C56", "title": "Coding contexts are those of the neighbours in the picture", "statement": "For every frame, the contexts used to code sub-block modes, motion vector modes, vector differences, split vectors and coefficients are determined, by the format's rules, by the blocks at the neighbouring picture coordinates (above, left, above-left; outside of the picture: the default), and the vectors of NEAREST, NEAR, ZERO, NEW and SPLIT macroblocks are those the rules give.", "quantifier": "all frame sizes, macroblocks, blocks, modes, vectors and coefficients", "why_tests_cant": "Encoder and decoder share the neighbour lookup, so round trips between them agree even when a lookup is wrong.", "anchors": ["src/decoder/macroblock.cc: decode_prediction_modes, motion_vector_census, Scorer", "src/util/2d.hh: Context", "src/encoder/serializer.cc", "src/decoder/frame.cc: relink_y2_blocks"]}
{"id": "C57", "title": "The decoder survives every sequence of inputs", "statement": "For every sequence of byte strings given to a decoder, each frame either yields a picture of the right size or throws Invalid, Unsupported or out_of_range; no assertion fails, no buffer is left and the decoder is well-formed afterwards, so later frames can still be decoded.", "quantifier": "every decoder state reachable from a new decoder, every sequence of byte strings, every content of the recycled picture buffers", "why_tests_cant": "Assertion failures may need particular histories of corrupt and valid frames.", "anchors": ["src/decoder/decoder.cc: Decoder::get_frame_output, decode_frame", "src/decoder/decoder_state.hh: parse_and_apply"]}
{"id": "C58", "title": "Segment ids persist until they are updated", "statement": "With segmentation enabled, the segment of a macroblock is the one its header carries or else the one its position had before the frame (3 if segmentation was off or after a key frame), and the map afterwards holds these ids.", "quantifier": "every frame, every previous map, every macroblock position", "why_tests_cant": "A wrong position or a map read after a neighbour's update shows only in particular histories.", "anchors": ["src/decoder/macroblock.cc: update_segmentation", "src/decoder/decoder_state.hh: Segmentation, parse_and_apply"]}
{"id": "C59", "title": "The chunk terminator changes only what references hold", "statement": "Whenever a decoder can decode every frame of a video, the chunk terminator succeeds; the video it writes is decoded to the same sequence of pictures and the same state, after which all three reference pictures are the last picture.", "quantifier": "every video that a decoder decodes, every decoder state it starts from", "why_tests_cant": "The rewritten frames are entropy-coded again with other tables in force; all videos.", "anchors": ["src/frontend/xc-terminate-chunk.cc", "src/encoder/serializer.cc", "src/decoder/frame.cc: copy_to"]}
{"id": "C60", "title": "Loop-filter level search stays in its window", "statement": "The loop-filter level the encoder chooses is at most one step from the previous frame's and within 0..63, is the first local maximum of the quality above the lowest allowed level, and hence a best allowed level if the quality first grows and then falls.", "quantifier": "every quality function and every previous level", "why_tests_cant": "Picture contents are arbitrary.", "anchors": ["src/encoder/encoder.cc: Encoder::apply_best_loopfilter_settings"]}
{"id": "C61", "title": "Every residue the encoder computes can be written, and is near the truth", "statement": "For every block of pixels and every prediction, the forward transforms, the quantisation and the rate-distortion search for cheaper levels finish without overflow, and give coefficients that the tokens can represent, each being the transformed coefficient divided by the step, one less in magnitude, or zero. Without quantisation the decoder's inverse transform gives the block back to within two grey levels; with plain quantisation to within a bound that depends on the steps only; a perfect prediction leaves nothing to code.", "quantifier": "every picture and prediction block, every quantiser, every cost table and context", "why_tests_cant": "510^16 difference blocks times all quantisers and adaptive cost tables; the worst case of the two integer transforms is rare.", "anchors": ["src/decoder/dct.cc", "src/decoder/quantization.cc: Quantizer::quantize", "src/encoder/encoder.cc: trellis_quantize, check_reset_y2", "src/encoder/encode_intra.cc", "src/encoder/encode_inter.cc"]}
{"id": "C62", "title": "The encoder's padded copy of a reference picture reads like the picture", "statement": "Copying a reference picture into the encoder's raster with margins of 256 pixels writes inside of the raster, and afterwards every read up to the margins gives the picture with its edges repeated; prediction from the copy, when its vector stays inside of the margins, is the decoder's prediction.", "quantifier": "every picture, every display size, every previous content of the recycled raster, every block and vector", "why_tests_cant": "The copy is off only for display widths that are not multiples of 16 and then writes past the end of an allocation, which usually goes unnoticed.", "anchors": ["src/decoder/safe_raster.cc", "src/encoder/safe_references.cc: SafeReferences::load", "src/decoder/prediction.cc: VP8Raster::Block::safe_inter_predict"]}
{"id": "C63", "title": "Motion search ends, stays readable and yields a codable vector", "statement": "The diamond search ends for every cost function with an offset that is even, within its bounds and no worse than its start; every candidate it predicts from lies inside of the margins; the chosen mode and vector can be written in the frame, the decoder recovers the same vector and makes the same prediction, and the chosen cost is no worse than that of the intra mode.", "quantifier": "every cost function, table, picture, macroblock position and census of neighbouring vectors", "why_tests_cant": "The path of the search depends on picture contents; extreme vectors at the borders of large frames are rare.", "anchors": ["src/encoder/encode_inter.cc: diamond_search, luma_mb_inter_predict", "src/encoder/costs.cc: sad_motion_vector_cost, motion_vector_cost"]}
{"id": "C66", "title": "Block differences are exact and the SSE2 code agrees with the portable code", "statement": "For blocks of bytes of up to 16 by 16 pixels the sum of absolute differences, the squared error and the variance are the exact sums over the pixels, without wrap-around; the SSE2 versions for 4, 8 and 16 pixels return the same values; the squared error is zero exactly for equal blocks and the variance exactly for blocks that differ by a constant.", "quantifier": "every pair of blocks of bytes", "why_tests_cant": "The 16 bit lanes of the SSE2 code come within 127 of overflow only for extreme pictures, and only one of the two versions is compiled in a build.", "anchors": ["src/encoder/variance.cc: Encoder::sad, sse, variance", "src/encoder/variance_sse2.cc: get4x4var_sse2, vpx_get8x8var_sse2, vpx_get16x16var_sse2, vpx_variance4x4_sse2, vpx_variance8x8_sse2, vpx_variance16x16_sse2"]}
{"id": "C64", "title": "The encoder's frames fit the format and its reconstruction is the decoder's", "statement": "From any picture, with any contents of the picture buffers and any cost tables, the encoder makes a key frame (any number of passes) or an inter frame without failing; the frame fits the format; the reconstruction built up macroblock by macroblock, in the buffers used for trying modes, is the picture any decoder computes from the frame before its loop filter, so that the decoder shows the loop-filtered reconstruction; without the trellis every pixel of it differs from the original by at most a number that depends on the quantiser only.", "quantifier": "every picture, size (inter frames: up to 3968 pixels), quantiser, cost table, buffer contents and reference picture", "why_tests_cant": "A mode that was tried and rejected leaves its pixels in the buffers; whether they can leak into the result depends on the order of costs, modes and neighbours, and the mismatch with the decoder shows up only as a drift in the picture.", "anchors": ["src/encoder/encode_intra.cc: Encoder::luma_mb_best_prediction_mode, luma_mb_apply_intra_prediction, luma_sb_intra_predict, chroma_mb_best_prediction_mode, chroma_mb_apply_intra_prediction, encode_raster", "src/encoder/encode_inter.cc: luma_mb_inter_predict, luma_mb_apply_inter_prediction, chroma_mb_inter_predict, encode_raster", "src/encoder/encoder.cc: check_reset_y2, write_frame"]}
{"id": "C65", "title": "The encoder's bit estimates are the costs of the bits it writes", "statement": "With the logarithm table of the encoder as the cost of one coded bit: the cost of every mode or token in the filled tables is the sum over the bits with which the tree coder writes it (without the first bit where an end of block is impossible), the cost of every motion vector component that can be written is the sum over its bits, the estimate for a block of coefficients is the sum over the bits written for the block, and so is the rate that the search for a cheaper quantisation attaches to the path it takes.", "quantifier": "every probability table, earlier contents of the cost tables, context, block of coefficients, multiplier and motion vector component up to 1022", "why_tests_cant": "A wrong entry of a cost table only makes the file a little larger; the number of combinations of probabilities and coefficients is astronomically large, and no test compares the estimate with the bits.", "anchors": ["src/encoder/costs.cc: Costs::fill_token_costs, compute_cost, tree_cost, mv_component_cost, fill_mv_component_costs, fill_mode_costs, fill_mv_ref_costs, motion_vector_cost, coeff_base_cost", "src/encoder/costs.hh: Costs::block_cost", "src/encoder/encoder.cc: Encoder::trellis_quantize", "src/encoder/serializer.cc: serialize_tokens, write_mv"]}
{"id": "C67", "title": "The token counts are the bits that are written", "statement": "For every block, the numbers by which the encoder's branch counters grow are the numbers of false and true bits that the writer codes with the corresponding entries of the token probability table; the counting fails exactly when the writing would. For a frame, the counts of all entries but those of Y2 blocks are the bits written, plus the ends of blocks of skipped macroblocks; without skipped macroblocks the counts predict for any two tables that agree on the Y2 entries the exact difference of the sizes, whatever the cost of a bit. The updates put into the header are within 1/256 of the counted frequencies or are the ones already there.", "quantifier": "every block of coefficients, type and context; every frame, number of partitions, probability table and cost function; all earlier counts", "why_tests_cant": "The counters only choose probabilities: a wrong counter gives a larger but valid file, for combinations of 1056 counters and all coefficient values that no test compares with the bits written.", "anchors": ["src/encoder/serializer.cc: accumulate_token_branches, Macroblock::accumulate_token_branches, Block::serialize_tokens", "src/encoder/encoder.cc: Encoder::optimize_probability_tables, Encoder::calc_prob", "src/encoder/encode_intra.cc: Encoder::encode_raster<KeyFrame>"]}
{"id": "C68", "title": "The weights of rate and distortion are exact and in range", "statement": "The weights that the encoder computes in double precision from a quantiser are the truncated values of exact arithmetic for every quantiser; the rate weight is between 10 and 1000, the distortion weight is 1 or 100, and the conversion to an integer is defined.", "quantifier": "every quantiser that a header can describe; every 16-bit step of at least 4 for the ranges", "why_tests_cant": "The rounding of the product is off at single steps only (150 of 65536, where truncation gives 629 instead of 630); tests run a few quantisers.", "anchors": ["src/encoder/encoder.cc: Encoder::update_rd_multipliers", "src/decoder/quantization.cc: Quantizer::Quantizer"]}
{"id": "C69", "title": "Re-encoding a chunk keeps its predictions and stays decodable", "statement": "When a chunk is encoded again on top of another stream's state, every inter frame keeps, macroblock by macroblock, its modes, vectors, references and partitions; every new frame fits the format; its reconstruction is what a decoder with the encoder's references computes before the loop filter, with every pixel near the target picture; the loop never ends in undefined behaviour or an assertion; whatever was written before an error is a stream that a decoder in step decodes frame by frame, ending in the encoder's state; after a complete run the three references are the same picture.", "quantifier": "every chunk of key and inter frames without segmentation, every target picture, quantiser, weight function, cost function, contents of buffers and point of failure; pictures up to 3968 by 3968", "why_tests_cant": "A stream re-encoded against the wrong references or with vectors that neighbours predict differently still decodes, to a picture that drifts; only some mixtures of macroblock modes show it.", "anchors": ["src/encoder/reencode.cc: Encoder::reencode", "src/encoder/reencode.cc: Encoder::update_residues", "src/encoder/reencode.cc: Encoder::reencode_as_interframe", "src/encoder/reencode.cc: Encoder::update_macroblock"]}
{"id": "C70", "title": "The assembled transforms compute the portable ones", "statement": "The inverse Walsh and cosine transforms, the forward transforms, the subtraction of blocks and the dequantisation that are assembled for SSE2 and MMX leave in memory exactly the values of the portable code, and change nothing else. The inverse transforms do so exactly when the results fit thirteen bits (always when the coefficients are below 2048), the forward ones for every block of pixels, the subtraction for any previous contents of the registers.", "quantifier": "every content of memory, every placement inside the arrays with the alignment that the instructions need, every stride of at least 4, all coefficients, pixels and factors, every content of the uninitialised register", "why_tests_cant": "Tests run one of the two variants on streams of real encoders, whose coefficients never reach the sums at which the 16-bit lanes wrap; the uninitialised register holds whatever ran before.", "anchors": ["src/decoder/iwalsh_sse2.asm: vp8_short_inv_walsh4x4_sse2", "src/decoder/idctllm_mmx.asm: vp8_short_idct4x4llm_mmx", "src/decoder/fwalsh_sse2.asm: vp8_short_walsh4x4_sse2", "src/decoder/dct_sse2.asm: vp8_short_fdct4x4_sse2", "src/decoder/subtract_sse2.asm: vpx_subtract_block_sse2", "src/decoder/quantization.cc: DCTCoefficients::dequantize", "src/decoder/transform.cc: DCTCoefficients::idct_add, DCTCoefficients::iwht", "src/decoder/dct.cc: DCTCoefficients::subtract_dct, DCTCoefficients::wht"]}
{"id": "C71", "title": "The encoder's calls give a stream that a decoder follows exactly", "statement": "Every call of encode_with_quantizer, encode_with_minimum_ssim or encode_with_target_size on a picture of the encoder's size returns bytes, without undefined behaviour, failed assertion or exception; on a picture of another size it throws and changes nothing. The first frame of a new encoder is a key frame, all others are inter frames. A decoder that is fed the returned bytes in order shows one picture per call: the reconstruction the encoder keeps as its last reference; its state and references are those of export_decoder() after each call. The quality in stats() is the quality of the picture the decoder shows, against the original (or -1.0 if no quality is above that). Encoders for fewer than four lines or columns cannot be made, and with quantisers above 127 the decoder's picture is another.", "quantifier": "every sequence of calls with any pictures, quantisers 0 to 127, minimum qualities, target sizes and estimates; one or two passes; both qualities; new encoders and encoders that continue a decoder without segmentation; every content of recycled headers, buffers, cost tables and every function as quality measure; widths that are multiples of 16, dimensions from 4 to 3968; decoders as long as each chunk is shorter than 2^19 bytes (then no length field overflows)", "why_tests_cant": "Headers, token probability updates and filter deltas are kept between calls and in a pool between encoders, and trial encodings change the state, so that what is written depends on the whole history; a mismatch shows as a slow drift of the decoder.", "anchors": ["src/encoder/encoder.cc: Encoder::encode_with_quantizer", "src/encoder/encoder.cc: Encoder::encode_with_minimum_ssim", "src/encoder/encoder.cc: Encoder::encode_with_target_size", "src/encoder/encoder.cc: Encoder::apply_best_loopfilter_settings", "src/encoder/encoder.cc: Encoder::write_frame", "src/encoder/encode_intra.cc: Encoder::encode_raster<KeyFrame>", "src/encoder/encode_inter.cc: Encoder::encode_raster<InterFrame>", "src/encoder/encoder.hh: Encoder::export_decoder, Encoder::stats"]}
{"id": "C72", "title": "Taking the residues out of a video leaves a video of the same predictions", "statement": "xc-zero-out-residues writes one frame per frame of a decodable video whose inter frames have a skip probability. Key frames are written such that they decode to the same picture. Each inter frame is written with the same header, the same segments, modes, references and motion vectors and without coefficients. A decoder that starts in the same state decodes every written frame, shows as many pictures, and its probability tables, segmentation and filter deltas stay those of a decoder of the input; before the loop filter, each macroblock of an inter frame is its prediction. An inter frame without a skip probability, which is legal, ends the program with an exception; the frames before it are written. A frame that the decoder does not decode ends the program with the decoder's exception.", "quantifier": "every video (frames as bytes) that a decoder decodes completely, every state the decoder may start in, every content of recycled pictures, dimensions up to 16383; written frames shorter than 2^19 bytes for what decoders make of them", "why_tests_cant": "The frames are written with the tables the decoder has after parsing, on top of which the serializer applies the updates again; which tables these are depends on all frames before. The drift from missing residues hides a wrong mode or vector in the pictures.", "anchors": ["src/frontend/xc-zero-out-residues.cc: main", "src/encoder/encoder.cc: Macroblock::zero_out", "src/encoder/serializer.cc: Macroblock::serialize", "src/decoder/decoder.hh: Decoder::parse_frame"]}
{"id": "C73", "title": "Length fields of the container cannot overflow for frames of moderate size", "statement": "The boolean encoder writes at most seven bits per bool plus 28 bytes. Hence every frame of up to 1320 macroblocks that fits the format, whatever its contents, has a first partition below the 19-bit limit and DCT partitions below the 24-bit limit, and is parsed back as it was (a VGA picture has 1200). Chunks that xc-terminate-chunk and xc-zero-out-residues write for such videos decode as claimed without any condition on their lengths, and so does each chunk of the encoder, which never splits macroblocks, for up to 4700 macroblocks (720p has 3600).", "quantifier": "every header, modes, vectors and coefficients that fit the format, all probability tables, dimensions with up to 1320 macroblocks (4700 for the encoder's own frames)", "why_tests_cant": "The largest frame is far from what natural pictures give: it needs extreme probabilities and worst-case symbols in every macroblock at once.", "anchors": ["src/encoder/bool_encoder.hh: BoolEncoder::put, flush", "src/encoder/serializer.cc: make_frame, serialize_first_partition, serialize_tokens", "src/encoder/serializer.cc: Block::serialize_tokens, Macroblock::serialize"]}
{"id": "C74", "title": "xc-enc writes a file that vp8decode plays back as the encoder's own pictures", "statement": "xc-enc (primary encoding) on a Y4M or IVF input appends one frame to its output for each picture that the input gives, in order, and ends with the input: without an exception at the end of the input, with the reader's exception if the input is damaged, in which case the pictures before the damage are in the file. The output opens as an IVF file of the input's dimensions; a player shows exactly one picture per input picture, without an exception: the reconstructions that the encoder kept after each call. What the decoder makes of a frame depends on the frame's bytes only, not on where they are in the file. With an input state the file names the state's hash, a player that continues with that state accepts it and shows the reconstructions, and a player without the state shows nothing and reports no error. vp8decode -o then writes a Y4M file with exactly these pictures (an empty file, which no reader accepts, if there are none). In target-size mode the k-th picture gets the k-th number of the sizes file, and the last one after its end; without a readable number it is 2^64-1 or 0. A state of other dimensions ends the program with a file without frames, and an output state ends it with an exception after everything has been written.", "quantifier": "every input file, every mode (constant quantiser 0 to 127, minimum quality, target sizes with any estimates), one or two passes, both quality settings, every content of recycled buffers, headers and cost tables, every picture quality function; widths that are multiples of 16, dimensions from 4 to 3968 with at most 4700 macroblocks; fewer than 2^31 pictures", "why_tests_cant": "The claim composes reader, encoder, container, decoder and writer, each with its own state kept between frames and its own limits; a test runs a few clips, and a loss of step between encoder and file shows only as a drift.", "anchors": ["src/frontend/xc-enc.cc: main, read_next_frame_size", "src/frontend/vp8decode.cc: main", "src/input/ivf_reader.cc: IVFReader::get_next_frame", "src/input/yuv4mpeg.cc: YUV4MPEGReader::get_next_frame", "src/util/ivf_writer.cc: IVFWriter::append_frame, set_expected_decoder_entry_hash", "src/decoder/player.cc: FilePlayer::advance"]}
{"id": "C75", "title": "The assembled interpolation computes the portable one", "statement": "The six horizontal and vertical filters that are assembled for SSSE3 leave in every pixel of their output the rounded and clamped six-tap sum of the portable code, for all seven fractional positions, and change nothing else; the saturation of the 16-bit lanes never shows. With them, Block::unsafe_inter_predict in the HAVE_SSE2 build leaves the same picture as the portable two passes, and so does the prediction from a padded reference. The 4-wide horizontal filter reads seven bytes more than it uses: the guard of inter_predict does not keep it inside the reference, which is stated exactly.", "quantifier": "every content of the reference, every position of source and output inside their buffers, every stride, every fractional vector, block sizes 4, 8 and 16", "why_tests_cant": "A test compares the two builds on some streams; sums that saturate need bright pixels at half positions, and reading past the end of a plane is silent unless the next page is missing.", "anchors": ["src/decoder/subpixel_ssse3.asm: vp8_filter_block1d4_h6_ssse3, vp8_filter_block1d8_h6_ssse3, vp8_filter_block1d16_h6_ssse3, vp8_filter_block1d4_v6_ssse3, vp8_filter_block1d8_v6_ssse3, vp8_filter_block1d16_v6_ssse3", "src/decoder/prediction.cc: VP8Raster::Block::unsafe_inter_predict, VP8Raster::Block::inter_predict, VP8Raster::Block::sse_horiz_inter_predict, VP8Raster::Block::sse_vert_inter_predict"]}
{"id": "C76", "title": "The assembled intra predictors compute the portable ones", "statement": "In the HAVE_SSE2 build, the assembled DC, vertical, horizontal and true-motion predictors of 4x4, 8x8 and 16x16 blocks and the assembled B_HD_PRED and B_HU_PRED leave in the block exactly the pixels of the portable code, change nothing else, and do not depend on what the vector registers held before. Predicting a block of a plane in memory from the predictors around it therefore gives the same plane in both builds, for whole blocks and for subblocks.", "quantifier": "every plane, every block position including the top row and the left column, every content of the surrounding pixels and of the registers, every stride that is at least the block width", "why_tests_cant": "The averages, the carry trick of the three-tap mean and the saturation have to agree for every value of up to 32 neighbouring pixels; two builds that are compared on streams see few of them.", "anchors": ["src/decoder/intrapred_sse2.asm: dc_predictor_4x4, dc_left_predictor_4x4, dc_top_predictor_4x4, dc_128_predictor_4x4, dc_predictor_8x8, dc_top_predictor_8x8, dc_left_predictor_8x8, dc_128_predictor_8x8, dc_predictor_16x16, dc_top_predictor_16x16, dc_left_predictor_16x16, dc_128_predictor_16x16, v_predictor_4x4, v_predictor_8x8, v_predictor_16x16, h_predictor_4x4, h_predictor_8x8, h_predictor_16x16, tm_predictor_4x4, tm_predictor_8x8, tm_predictor_16x16, d207_predictor_4x4", "src/decoder/intrapred_ssse3.asm: d153_predictor_4x4", "src/decoder/prediction.cc: VP8Raster::Block::dc_predict, VP8Raster::Block::dc_predict_simple, VP8Raster::Block::vertical_predict, VP8Raster::Block::horizontal_predict, VP8Raster::Block::true_motion_predict, VP8Raster::Block::horizontal_down_predict, VP8Raster::Block::horizontal_up_predict, VP8Raster::Block::intra_predict"]}
{"id": "C77", "title": "The assembled loop filter across horizontal edges computes the portable one", "statement": "vp8_mbloop_filter_horizontal_edge_sse2 on the 16 columns of a luma macroblock, and vp8_mbloop_filter_horizontal_edge_uv_sse2 and vp8_loop_filter_horizontal_edge_uv_sse2 on its chroma blocks, executed instruction by instruction, leave in memory the planes that the portable passes over the upper edge and over the inner edge return. They write nothing else but their own stack, for all limits that the loop filter derives from a frame header. They do so although the assembly tests for high variance by a wrapping sum of two excesses and tests the edge limit in saturating arithmetic; for interior limits above 127 the two disagree.", "quantifier": "All planes (luma with rows aligned to 16 bytes), all positions of a macroblock with at least four rows above it (none needed for the inner edge), all contents, all interior limits up to 127, all edge limits below 255, all thresholds, all initial contents of the stack.", "why_tests_cant": "Each column depends on eight pixels and three limits; the saturating and wrapping steps only matter at extreme combinations, and a picture decoded right on one machine says nothing about other contents.", "anchors": ["src/decoder/loopfilter_sse2.asm: LFH_FILTER_AND_HEV_MASK, B_FILTER, MB_FILTER_AND_WRITEBACK, vp8_mbloop_filter_horizontal_edge_sse2, vp8_mbloop_filter_horizontal_edge_uv_sse2, vp8_loop_filter_horizontal_edge_uv_sse2", "src/decoder/loopfilter.cc: NormalLoopFilter::filter_mb_horizontal_c, NormalLoopFilter::filter_mb_horizontal, NormalLoopFilter::filter_sb_horizontal_c, NormalLoopFilter::filter_sb_horizontal", "src/decoder/loopfilter_filters.hh: vp8_mbfilter, vp8_filter"]}
{"id": "C78", "title": "The assembled sum of absolute differences computes the portable one", "statement": "vpx_sad16x16_sse2, executed instruction by instruction on the block and the prediction by address and stride, returns what the portable Encoder::sad returns for the two blocks, and no access leaves the blocks' segments. The source block must lie at multiples of 16 bytes, or the call faults; the prediction may lie anywhere.", "quantifier": "All contents of memory, all positions and strides (also negative) of the two blocks inside their segments, the source aligned to 16 bytes.", "why_tests_cant": "The result depends on 512 bytes, two strides and two addresses; a wrong row or a lost half of a row only shifts the choice of a motion vector, which no decoder reports.", "anchors": ["src/decoder/sad_sse2.asm: SAD_FN, SAD16XN", "src/encoder/variance.cc: Encoder::sad"]}
