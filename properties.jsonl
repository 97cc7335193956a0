{"id": "C01", "title": "VBAS integers survive the wire", "statement": "For every 64-bit value v and every continuation of the byte stream, decoding the bytes produced by encoding v returns exactly v, consumes exactly the bytes that were produced (between 1 and 10), and is not influenced by what follows.", "quantifier": "all 2^64 values and all suffix byte strings", "why_tests_cant": "2^64 values times unbounded suffixes; boundary behaviour at each 7-bit group and at the overflow limit", "anchors": ["source/core/jpip/vbas.cpp:vbas_encode", "source/core/jpip/vbas.cpp:vbas_decode"]}
{"id": "C02", "title": "VBAS decoding of hostile bytes is safe and unambiguous", "statement": "For arbitrary input bytes the VBAS decoder never consumes more bytes than it was given nor more than 10, never yields a value of 2^64 or more, never accepts a strict prefix of an encoding, and accepts exactly the byte strings that are the big-endian base-128 notation (leading zero groups allowed) of a value below 2^64 of at most 10 bytes.", "quantifier": "all finite byte strings", "why_tests_cant": "attacker-controlled input of any length", "anchors": ["source/core/jpip/vbas.cpp:vbas_decode"]}
{"id": "C03", "title": "JPP message headers round-trip and keep both ends in step", "statement": "For any sequence of data-bin message headers, encoding them one after another with the dependent form and decoding the concatenation returns the same headers in the same order, each consuming exactly its own bytes, and the encoder's and decoder's running contexts agree after every message; the independent form decodes to the same header whatever the decoder's context was.", "quantifier": "all finite sequences of headers with class<=255, codestream<=65535, 64-bit id/offset/length/aux, and all starting contexts", "why_tests_cant": "unbounded history: the meaning of each header depends on all earlier ones", "anchors": ["source/core/jpip/jpp_message.cpp:encode_header", "source/core/jpip/jpp_message.cpp:encode_header_independent", "source/core/jpip/jpp_message.cpp:decode_header"]}
{"id": "C04", "title": "Rejected or truncated headers have no effect", "statement": "For arbitrary bytes, header decoding either fails and leaves the context unchanged, or succeeds having consumed at least 1 and at most the available bytes (and at most 60), and then the same result is obtained on any longer input with that prefix; every strict prefix of a well-formed header is refused.", "quantifier": "all byte strings and contexts", "why_tests_cant": "attacker-controlled input; monotonicity relates pairs of inputs", "anchors": ["source/core/jpip/jpp_message.cpp:decode_header", "source/core/jpip/jpp_message.cpp:decode_bin_id"]}
{"id": "C05", "title": "An emitted data-bin is received byte for byte", "statement": "Whatever data-bin a server emits (any class, id, payload length, including lengths that need splitting over many messages), a client parsing the emitted bytes holds exactly that payload under exactly that class and id, marked complete, and no other bin is affected; an end-of-response marker is recognised with its reason code and never mistaken for a message.", "quantifier": "all payloads of any length, all bin classes/ids, all sequences of bins", "why_tests_cant": "payload length unbounded (message splitting at 987 bytes), interaction of context-dependent headers across messages", "anchors": ["source/core/jpip/data_bin_emitter.cpp:append_message", "source/core/jpip/data_bin_emitter.cpp:emit_eor", "source/core/jpip/jpp_parser.cpp:parse_jpp_stream"]}
{"id": "C06", "title": "Network chunking does not change what the client receives", "statement": "Feeding a JPP response to the streaming parser in any sequence of pieces leaves the same data-bins, completeness flags and end-of-response state as parsing it in one piece, whenever the response is well formed up to its end-of-response marker; nothing is delivered twice or lost.", "quantifier": "all well-formed message streams and all ways to split them into chunks", "why_tests_cant": "exponentially many split points, including inside headers", "anchors": ["source/core/jpip/jpp_parser.cpp:StreamingJppParser::feed", "source/core/jpip/jpp_parser.cpp:parse_jpp_stream", "source/core/jpip/jpp_parser.cpp:try_decode_one_message"]}
{"id": "C07", "title": "A data-bin in the client cache is always a gap-free prefix", "statement": "After any sequence of messages (accepted or refused), each data-bin's bytes are the in-order concatenation of exactly those accepted message bodies, each accepted body starting where the previous one ended; bytes already held are never changed or removed, and a bin once complete never grows.", "quantifier": "all finite sequences of messages, including hostile offsets", "why_tests_cant": "invariant over all histories", "anchors": ["source/core/jpip/jpp_parser.cpp:DataBinSet::append"]}
{"id": "C08", "title": "Byte-budgeted delivery resumes exactly where it stopped", "statement": "If a server answers successive requests for a bin under arbitrary byte budgets, each answer skipping what was sent before, then no answer carries more payload than its budget, the payloads concatenated are a prefix of the bin without gap or repeat, and once the budgets suffice the bin arrives complete and is flagged complete exactly then.", "quantifier": "all bins, all sequences of budgets", "why_tests_cant": "unbounded sequences of partial responses", "anchors": ["source/core/jpip/data_bin_emitter.cpp:append_message", "source/core/jpip/data_bin_emitter.hpp:BinWindow"]}
{"id": "C09", "title": "Merging a cached set never loses data", "statement": "Merging one client data-bin set into another leaves every bin at least as long as it was in either set, never shortens or removes a bin, and keeps a bin complete if it was complete in either set.", "quantifier": "all pairs of data-bin sets", "why_tests_cant": "all combinations of partial/complete bins", "anchors": ["source/core/jpip/jpp_parser.cpp:DataBinSet::merge_from"]}
{"id": "C10", "title": "The server's cache model reflects the client's statements", "statement": "After any sequence of have/partial/drop statements, asking whether a bin is held (or how many bytes of it) answers according to the last statement about that very bin; statements about one bin never change the answer for another.", "quantifier": "all finite operation sequences, all classes and all bin ids below 2^56 (the key has no room for more; that larger ids collide is shown separately)", "why_tests_cant": "unbounded histories and id space (key packing)", "anchors": ["source/core/jpip/cache_model.cpp:CacheModel::mark", "source/core/jpip/cache_model.cpp:CacheModel::unmark", "source/core/jpip/cache_model.cpp:CacheModel::has", "source/core/jpip/cache_model.cpp:CacheModel::received_bytes"]}
{"id": "C11", "title": "A cache model survives its text form", "statement": "Formatting a cache model as a request field and parsing that field into an empty model reproduces, for every bin, whether it is held in full and, for bins not held in full, how many bytes are held.", "quantifier": "all cache models over the bin classes the text form can name, ids below 2^56, at most 2^22 entries", "why_tests_cant": "unbounded models; decimal formatting/parsing of 64-bit numbers", "anchors": ["source/core/jpip/cache_model.cpp:CacheModel::format", "source/core/jpip/cache_model.cpp:CacheModel::parse"]}
{"id": "C12", "title": "Channel ids are never reused and the session table is bounded", "statement": "Over any sequence of channel operations, every channel id handed out differs from all ids handed out before, the number of live channels never exceeds the configured maximum (when at least one), and when a channel must be evicted it is the one least recently used.", "quantifier": "all finite sequences of open/snapshot/commit/apply/close", "why_tests_cant": "history-dependent", "anchors": ["source/core/jpip/channel_manager.cpp:ChannelManager::open", "source/core/jpip/channel_manager.cpp:ChannelManager::close"]}
{"id": "C13", "title": "Channels are isolated and never forget what was sent", "statement": "An operation on one channel never changes another channel's model except by evicting it; after a commit of sent bins, a later snapshot of the same still-live channel reports every one of them as held until an explicit drop statement or close.", "quantifier": "all finite operation sequences on all channels", "why_tests_cant": "history-dependent", "anchors": ["source/core/jpip/channel_manager.cpp:ChannelManager::commit", "source/core/jpip/channel_manager.cpp:ChannelManager::snapshot", "source/core/jpip/channel_manager.cpp:ChannelManager::apply_model"]}
{"id": "C14", "title": "Precinct identifiers are a bijection", "statement": "Within one codestream, the identifier computed for (tile, component, resolution, precinct) is different for different precincts, and decomposing an identifier returns the tile, component and in-component sequence number it came from.", "quantifier": "all image geometries (tiles, components, resolutions, precinct counts)", "why_tests_cant": "unbounded geometry", "anchors": ["source/core/jpip/precinct_index.cpp:CodestreamIndex::I", "source/core/jpip/precinct_index.cpp:CodestreamIndex::s", "source/core/jpip/codestream_assembler.cpp:decompose_precinct_I"]}
{"id": "C15", "title": "The discard level honours the client's frame size", "statement": "For a requested frame size and rounding rule the chosen number of discarded resolution levels yields the largest reduced image not exceeding the request (round-down), the smallest not below it (round-up), or the nearest in area (closest), among all available levels.", "quantifier": "all image sizes, level counts and requests", "why_tests_cant": "arithmetic over unbounded sizes", "anchors": ["source/core/jpip/view_window.cpp:pick_discard_level", "source/core/jpip/view_window.cpp:fsiz_at"]}
{"id": "C16", "title": "The codestream walker is safe on arbitrary bytes", "statement": "For every byte string the tile-part walk terminates, reads only inside the buffer, and every tile-part range it reports lies inside the buffer; on a concatenation of well-formed tile-parts it reports exactly those tile-parts.", "quantifier": "all finite byte strings", "why_tests_cant": "attacker-controlled marker lengths", "anchors": ["source/core/jpip/codestream_walker.cpp:walk_codestream"]}
{"id": "C17", "title": "Chunked transfer coding round-trips and is independent of packetisation", "statement": "Bodies framed by the server's chunk headers are recovered exactly by the batch decoder, and by the streaming decoder for every way of cutting the byte stream into reads; the streaming decoder reports completion exactly at the terminating chunk.", "quantifier": "all bodies, all chunk size sequences, all cuts of the stream", "why_tests_cant": "exponentially many cuts", "anchors": ["source/core/jpip/jpip_response.cpp:format_chunk_header", "source/core/jpip/jpip_response.cpp:decode_chunked_body", "source/core/jpip/jpip_client.cpp:ChunkedStreamDecoder::feed"]}
{"id": "C18", "title": "View-window queries survive the trip to the server", "statement": "Parsing the query text a client formats for a view window returns the same frame size, offset, size, rounding and layers fields.", "quantifier": "all view windows with 32-bit fields", "why_tests_cant": "decimal text of unbounded field combinations", "anchors": ["source/core/jpip/jpip_client.cpp:format_view_window_query", "source/core/jpip/jpip_request.cpp:parse_jpip_query"]}
{"id": "C19", "title": "HTTP response headers stay inside their buffers", "statement": "Formatting a response with any target id, channel string or error text never reads outside the formatting buffers and produces a header terminated by a blank line.", "quantifier": "all strings of any length", "why_tests_cant": "unbounded string length vs fixed buffers", "anchors": ["source/core/jpip/jpip_response.cpp:format_jpp_response", "source/core/jpip/jpip_response.cpp:format_error_response"]}
{"id": "C20", "title": "Reversible colour transform is lossless", "statement": "For every RGB triple the inverse reversible colour transform applied to the forward transform returns the original triple, for arbitrarily long rows, and no intermediate leaves the 32-bit range for samples of up to 28 bits.", "quantifier": "all integer triples, all row lengths", "why_tests_cant": "2^84+ inputs", "anchors": ["source/core/transform/color.cpp:cvt_rgb_to_ycbcr_rev", "source/core/transform/color.cpp:cvt_ycbcr_to_rgb_rev"]}
{"id": "C21", "title": "Fused colour+clamp output equals the two-step result and stays in range", "statement": "The fused inverse colour transform with level shift and clamp equals inverse transform followed by finalisation, its outputs lie in the component's nominal range, and it reproduces any in-range original samples exactly.", "quantifier": "all coefficient rows and bit depths", "why_tests_cant": "all values and depths", "anchors": ["source/core/transform/color.cpp:fused_ycbcr_rev_to_rgb_i32", "source/core/transform/color.cpp:finalize_one"]}
{"id": "C22", "title": "One-dimensional 5/3 transform reconstructs perfectly", "statement": "For every signal of any length at any start position (odd or even), inverse 5/3 filtering of the forward-filtered signal returns the signal, using only the boundary extension the code computes and touching no sample outside the signal and its extension.", "quantifier": "all signals, lengths >= 1, start parities", "why_tests_cant": "unbounded lengths; boundary cases at every parity combination", "anchors": ["source/core/transform/fdwt.cpp:fdwt_1d_filtr_rev53_i32", "source/core/transform/idwt.cpp:idwt_1d_filtr_rev53_i32_scalar", "source/core/transform/dwt.hpp:PSEo"]}
{"id": "C23", "title": "Multi-level two-dimensional 5/3 transform is lossless", "statement": "For every integer image of any width, height and origin and every number of decomposition levels, the inverse transform applied to the sub-bands of the forward transform returns the image.", "quantifier": "all images, sizes, origins and level counts", "why_tests_cant": "unbounded geometry and depth", "anchors": ["source/core/transform/fdwt.cpp:fdwt_2d_sr_fixed", "source/core/transform/idwt.cpp:idwt_2d_sr_fixed", "source/core/transform/fdwt.cpp:fdwt_2d_deinterleave_fixed", "source/core/transform/idwt.cpp:idwt_2d_interleave_fixed"]}
{"id": "C24", "title": "Row-streamed forward transform equals the whole-image transform", "statement": "Pushing the rows of a level one at a time into the streaming forward transform and flushing delivers every row exactly once, in order, and each delivered row equals the row of the whole-image vertical transform, although only a fixed ring of 12 rows is kept.", "quantifier": "all heights >= 1, both start parities, all row contents, any lifting arithmetic", "why_tests_cant": "ring-buffer reuse and scheduling over unbounded heights", "anchors": ["source/core/transform/fdwt.cpp:fdwt_2d_state_push_row", "source/core/transform/fdwt.cpp:fdwt_2d_state_flush", "source/core/transform/fdwt.cpp:cascade_f", "source/core/transform/fdwt.cpp:emit_ready_f"]}
{"id": "C25", "title": "Row-streamed inverse transform equals the whole-image transform", "statement": "Pulling rows from the streaming inverse transform yields exactly height rows in order, each equal to the row of the whole-image vertical inverse transform; it never reports exhaustion early although only a ring of 8 rows is kept and all-zero rows are skipped.", "quantifier": "all heights >= 1, both start parities, all row contents", "why_tests_cant": "ring-buffer reuse, dynamic scan window and zero-row shortcut over unbounded heights", "anchors": ["source/core/transform/idwt.cpp:idwt_2d_state_pull_row_ref", "source/core/transform/idwt.cpp:cascade", "source/core/transform/idwt.cpp:fetch_one", "source/core/transform/idwt.cpp:adv_step"]}
{"id": "C26", "title": "Magnitude/sign bits survive the forward bit-stuffed stream", "statement": "Any sequence of variable-length codewords written to the magnitude-sign stream and terminated is read back exactly by the block decoder's forward reader regardless of memory alignment; the written bytes never contain 0xFF followed by a byte above 0x7F and never end in 0xFF.", "quantifier": "all sequences of (value,length) codewords", "why_tests_cant": "unbounded sequences; bit-stuffing and trailing-byte elision", "anchors": ["source/core/coding/ht_block_encoding.cpp:state_MS_enc::emitMagSgnBits", "source/core/coding/ht_block_encoding.cpp:state_MS_enc::termMS", "source/core/coding/ht_block_decoding.hpp:fwd_buf"]}
{"id": "C27", "title": "MEL events survive the adaptive run-length coder", "statement": "Any sequence of binary events encoded by the MEL coder and terminated is decoded to the same sequence of events by the block decoder's MEL reader.", "quantifier": "all finite event sequences", "why_tests_cant": "adaptive state over unbounded histories", "anchors": ["source/core/coding/ht_block_encoding.cpp:state_MEL_enc::encodeMEL", "source/core/coding/ht_block_decoding.hpp:MEL_dec"]}
{"id": "C28", "title": "VLC bits survive the backward-growing stream", "statement": "Any sequence of codewords written to the VLC stream (which grows backward with its own stuffing rule) is read back exactly by the decoder's reverse reader.", "quantifier": "all sequences of (value,length) codewords", "why_tests_cant": "unbounded sequences with stuffing", "anchors": ["source/core/coding/ht_block_encoding.cpp:state_VLC_enc::emitVLCBits", "source/core/coding/ht_block_decoding.hpp:rev_buf"]}
{"id": "C29", "title": "The codeword tables of encoder and decoder agree", "statement": "For every context, significance pattern and exponent pattern the encoder can look up, the decoder's table, presented with that codeword followed by any bits, returns the same pattern and consumes exactly the codeword's length; likewise for the u-value prefix/suffix tables.", "quantifier": "all contexts, patterns, u-values and all following bits", "why_tests_cant": "full cross-product of table entries with arbitrary trailing bits", "anchors": ["source/core/coding/enc_CxtVLC_tables.hpp", "source/core/coding/dec_CxtVLC_tables.hpp", "source/core/coding/ht_block_decoding.hpp:uvlc_dec_0", "source/core/coding/ht_block_decoding.hpp:uvlc_dec_1"]}
{"id": "C30", "title": "An HT code-block decodes to what was encoded", "statement": "For every block of quantised coefficients (any width and height allowed, any values below the bit-plane bound), decoding the cleanup pass produced by the block encoder returns exactly the same coefficients.", "quantifier": "all block sizes and coefficient values", "why_tests_cant": "astronomically many blocks; interaction of three bit-streams, contexts and tables", "anchors": ["source/core/coding/ht_block_encoding.cpp:htj2k_cleanup_encode", "source/core/coding/ht_block_decoding.cpp:ht_cleanup_step2", "source/core/coding/ht_block_decoding.hpp:ht_cleanup_step1_nway"]}
{"id": "C31", "title": "HT segment parameters derived from hostile bytes are in bounds", "statement": "For arbitrary compressed bytes and pass lengths, block-decoder setup either refuses the block or yields MagSgn, MEL/VLC and refinement segments that lie inside the block's bytes, with a shift amount in the range the arithmetic needs.", "quantifier": "all byte strings, pass-length lists, bit-plane counts", "why_tests_cant": "attacker-controlled", "anchors": ["source/core/coding/ht_block_decoding.cpp:htj2k_dec_setup"]}
{"id": "C32", "title": "Packet-header bits survive bit stuffing", "statement": "Any sequence of bits written to a packet header and flushed is read back exactly by the packet-header bit reader, the bytes never contain a 0xFF followed by a byte above 0x7F (so no marker can be emulated), and after the reader's end-of-header step it stands exactly at the byte after the header.", "quantifier": "all finite bit sequences, any following bytes", "why_tests_cant": "unbounded sequences", "anchors": ["source/core/codestream/codestream.hpp:packet_header_writer", "source/core/codestream/codestream.hpp:buf_chain::get_bit", "source/core/codestream/codestream.hpp:buf_chain::check_last_FF"]}
{"id": "C33", "title": "Packet headers round-trip for any code-block grid", "statement": "For any grid of code-blocks with any inclusion pattern, zero-bit-plane counts, and segment lengths, parsing the header generated for the packet returns the same inclusion, zero-bit-plane and length information for every block and ends at the same bit.", "quantifier": "all grid sizes and block parameters", "why_tests_cant": "tag trees of unbounded depth; shared state between blocks", "anchors": ["source/core/coding/coding_units.cpp:j2k_precinct_subband::generate_packet_header", "source/core/coding/coding_units.cpp:j2k_precinct_subband::parse_packet_header", "source/core/codestream/codestream.hpp:tagtree"]}
{"id": "C34", "title": "Packet-header parsing terminates on every input", "statement": "Parsing a packet header from any byte string, including truncated ones, terminates.", "quantifier": "all byte strings", "why_tests_cant": "non-termination cannot be observed by a test; all truncation points", "anchors": ["source/core/coding/coding_units.cpp:j2k_precinct_subband::parse_packet_header", "source/core/codestream/codestream.hpp:buf_chain::get_byte"]}
{"id": "C35", "title": "Tile-part chains read as one stream", "statement": "Reading bytes from a chain of tile-part bodies yields the bodies' concatenation in order and then zeros, never touching memory outside the bodies, however the bodies are sized.", "quantifier": "all lists of byte buffers", "why_tests_cant": "all segmentations, empty segments", "anchors": ["source/core/codestream/codestream.hpp:buf_chain::get_byte", "source/core/coding/coding_units.cpp:j2k_tile::create_tile_buf"]}
{"id": "C36", "title": "Codestream input reads stay in bounds", "statement": "Any sequence of byte, word, block, rewind and skip operations on a codestream input either raises an error or touches only bytes of the input, and the position never exceeds the length.", "quantifier": "all inputs and operation sequences", "why_tests_cant": "unbounded operation sequences with attacker-controlled lengths", "anchors": ["source/core/codestream/codestream_source.cpp:j2c_src_memory"]}
{"id": "C37", "title": "JPH/JP2 box scanning is safe and finds the codestream", "statement": "For every byte string box scanning terminates, reads only inside the buffer, and any codestream range reported lies inside it; for files written by this library it returns exactly the embedded codestream and colour space.", "quantifier": "all byte strings; all codestreams and header parameters", "why_tests_cant": "attacker-controlled nesting and lengths", "anchors": ["source/core/jph/jph.cpp:jph_scan_boxes", "source/core/jph/jph.cpp:jph_parse_buffer", "source/core/jph/jph.cpp:jph_boxes::write"]}
{"id": "C38", "title": "The MQ decoder never reads outside its segment", "statement": "For arbitrary bytes and any sequence of context labels, every byte the arithmetic decoder reads lies inside its segment, its interval register stays normalised, its table indices stay valid and every symbol is 0 or 1.", "quantifier": "all byte strings and label sequences", "why_tests_cant": "unbounded adaptive history", "anchors": ["source/core/coding/mq_decoder.cpp:mq_decoder::decode", "source/core/coding/mq_decoder.cpp:mq_decoder::fill_LSBs", "source/core/coding/mq_decoder.cpp:mq_decoder::renormalize"]}
{"id": "C39", "title": "Every submitted task runs exactly once", "statement": "Under every interleaving of producers and workers, a task accepted by the thread pool is executed exactly once, tasks are taken in submission order, no queued task is overwritten, and shutdown waits for all accepted tasks.", "quantifier": "all schedules, all numbers of workers and tasks", "why_tests_cant": "concurrency: unboundedly many interleavings", "anchors": ["source/core/common/ThreadPool.hpp:ThreadPool::push_task", "source/core/common/ThreadPool.hpp:ThreadPool::worker", "source/core/common/ThreadPool.hpp:ThreadPool::try_run_one"]}
{"id": "C40", "title": "The large-buffer cache never aliases live buffers", "statement": "Over any sequence of allocations and releases, the aligned buffer cache never returns a buffer that is still in use, every returned buffer is at least as large and as aligned as requested, and the cache holds a bounded number of buffers.", "quantifier": "all operation sequences", "why_tests_cant": "history-dependent aliasing", "anchors": ["source/core/common/utils.hpp:AlignedLargePool"]}
{"id": "C41", "title": "RTP and RFC 9828 headers are parsed in bounds", "statement": "For arbitrary datagrams the RTP parser either rejects or reports a payload offset not beyond the datagram; main and body header parsing read only 8 bytes, and a successful parse determines every header bit.", "quantifier": "all byte strings", "why_tests_cant": "attacker-controlled", "anchors": ["source/apps/rtp_recv/rfc9828_parser.cpp:parse_rtp_header", "source/apps/rtp_recv/rfc9828_parser.cpp:parse_main_packet_header", "source/apps/rtp_recv/rfc9828_parser.cpp:parse_body_packet_header"]}
{"id": "C42", "title": "Only gap-free frames reach the decoder", "statement": "Over any packet history, each frame handed out is the in-order concatenation of the codestream bytes of a maximal run of packets with one timestamp and consecutive 24-bit sequence numbers ending in a marked packet (preceded by the cached main header exactly when the run starts with a body packet); no emitted frame is overwritten or lost, and emitted plus dropped counts equal the frames ended.", "quantifier": "all packet sequences incl. loss, reorder, duplication", "why_tests_cant": "all histories", "anchors": ["source/apps/rtp_recv/frame_handler.cpp:FrameHandler::push_main_packet", "source/apps/rtp_recv/frame_handler.cpp:FrameHandler::push_body_packet", "source/apps/rtp_recv/frame_handler.cpp:FrameHandler::finalize_frame"]}
{"id": "C43", "title": "The latest-frame slot neither duplicates nor silently loses frames", "statement": "Under every interleaving of one-slot pushes and pops, every pushed item is at any time in exactly one place: still in the slot, returned to a consumer, or returned to a producer as evicted; consumers receive items in push order and the eviction counter equals the number of evicted items.", "quantifier": "all schedules of producers and consumers", "why_tests_cant": "concurrency", "anchors": ["source/apps/rtp_recv/frame_pipeline.hpp:LatestSlot"]}
{"id": "C44", "title": "Output codestream writes are append-only across growth", "statement": "Any sequence of byte/word/dword/block writes to a codestream output, through any number of reallocations, flushes to exactly the big-endian concatenation of what was written, never writes outside the allocation, and delivers to a vector at most once.", "quantifier": "all write sequences and reserve calls", "why_tests_cant": "unbounded growth", "anchors": ["source/core/codestream/codestream_destination.cpp:j2c_dst_memory", "source/core/codestream/codestream.hpp:j2c_dst_memory::ensure_capacity"]}
{"id": "C45", "title": "Transport negotiation accepts only what both sides name", "statement": "Channel transport negotiation returns a supported transport exactly when the client's comma-separated preference list contains that token, and otherwise reports none.", "quantifier": "all preference strings", "why_tests_cant": "unbounded strings", "anchors": ["source/core/jpip/channel_manager.cpp:negotiate_transport"]}
{"id": "C46", "title": "Lossless coefficient conversion is reversible", "statement": "Sign-magnitude conversion before block coding and its inverse after block decoding return every coefficient of magnitude below the bit-plane bound unchanged on the reversible path.", "quantifier": "all coefficients and bit-plane counts", "why_tests_cant": "all values", "anchors": ["source/core/coding/ht_block_encoding.cpp:quantize", "source/core/coding/ht_block_decoding.cpp:j2k_codeblock::dequantize"]}
{"id": "C47", "title": "View windows resolve to existing precincts, once each, in order", "statement": "Resolving any view-window request never fails; it lists only precincts that exist in the codestream, in tile/component/resolution/position order and without repeats when the request lists components in increasing order; a request without region lists exactly all precincts of the kept resolutions of the selected components, and a region beyond the image lists nothing.", "quantifier": "all image geometries and all requests", "why_tests_cant": "unbounded geometries and requests", "anchors": ["source/core/jpip/view_window.cpp:resolve_view_window"]}
{"id": "C48", "title": "The listed precincts suffice for the window, and are near it", "statement": "Every precinct holding a wavelet coefficient that is read when a sample of the requested window is reconstructed is listed, and every listed precinct holds a position within twice the filter reach of the window.", "quantifier": "all image geometries, requests, tiles, components, resolutions and samples", "why_tests_cant": "unbounded geometries; a missing precinct shows only as a small local artefact", "anchors": ["source/core/jpip/view_window.cpp:resolve_view_window", "source/core/jpip/view_window.cpp:dwt_margin_subband"]}
{"id": "C49", "title": "Encoded HT blocks never contain a marker code", "statement": "The bytes the HT block encoder hands to the packet body never contain 0xFF followed by a byte above 0x8F and never end in 0xFF, so a block cannot be mistaken for a codestream marker, whatever is placed after it.", "quantifier": "all block sizes and coefficient values", "why_tests_cant": "must hold for every block; depends on the seam between three separately stuffed streams", "anchors": ["source/core/coding/ht_block_encoding.cpp:htj2k_cleanup_encode", "source/core/coding/ht_block_encoding.cpp:termMELandVLC"]}
{"id": "C50", "title": "The HT block encoder's fixed buffers are never overrun", "statement": "For every permitted block size and every coefficient value below the bit-plane bound, the encoder stays inside its fixed-size output buffers and records the number of bytes it produced.", "quantifier": "all block sizes and coefficient values", "why_tests_cant": "worst case over all blocks; there is no run-time check", "anchors": ["source/core/coding/ht_block_encoding.cpp:htj2k_cleanup_encode", "source/core/coding/ht_block_encoding.hpp:MAX_Lcup"]}
{"id": "C51", "title": "The HT block decoder has defined behaviour on arbitrary bytes", "statement": "For any contents of a code-block accepted by the decoder's setup, decoding the cleanup pass never reads or writes outside its tables and buffers, never uses an uninitialised value, never executes an undefined shift, and ends.", "quantifier": "all byte strings, pass-length lists, block sizes, memory alignments", "why_tests_cant": "attacker-controlled; three interleaved variable-length streams", "anchors": ["source/core/coding/ht_block_decoding.hpp:ht_cleanup_step1_nway", "source/core/coding/ht_block_decoding.cpp:ht_cleanup_step2", "source/core/coding/ht_block_decoding.cpp:htj2k_dec_setup"]}
{"id": "C52", "title": "A fetch delivers what the server sent", "statement": "For every set of data-bins a server sends in a response, however it divides the stream into HTTP chunks (or announces its length) and wherever the network cuts what it sends, the client's streaming fetch reports success and ends holding exactly those data-bins, complete and byte for byte, and the server's end-of-response reason.", "quantifier": "all sequences of data-bins, all chunk divisions, all divisions of the received bytes into reads, all header contents within the formatter's limits", "why_tests_cant": "the number of ways to cut a response is exponential and the cuts fall inside headers, chunk sizes and variable-length integers", "anchors": ["source/core/jpip/jpip_client.cpp:fetch_streaming", "source/core/jpip/tcp_socket.cpp:recv_until_header_end", "source/core/jpip/jpip_response.cpp:ChunkedStreamDecoder", "source/core/jpip/jpp_parser.cpp:StreamingJppParser"]}
{"id": "C53", "title": "The arithmetic decoder computes what the standard defines", "statement": "For coded segments a conforming encoder can produce, and any sequence of context labels, context resets and further segments, the decoder returns exactly the symbols of the decoding procedure of Rec. ITU-T T.800 Annex C.", "quantifier": "all byte strings without FF 80..FF 8F pairs, all segment boundaries and all label sequences", "why_tests_cant": "The renormalisation shifts several bits at a time and refills early; agreement on some streams says nothing about others.", "anchors": ["source/core/coding/mq_decoder.cpp: mq_decoder::init, fill_LSBs, renormalize, decode"]}
{"id": "C54", "title": "A decoder reused for the next frame reads packet headers like a new one", "statement": "After any packets of one frame, once a precinct has been reset for the next frame, reading any packets of the next frame gives the same result, for every code-block field that block decoding uses and for the position reached, as a decoder that was never used.", "quantifier": "all pairs of frames, all packet histories, all code-block grids", "why_tests_cant": "state left behind depends on the whole history of the earlier frame", "anchors": ["source/core/coding/coding_units.cpp:j2k_codeblock::reset_for_next_frame", "source/core/coding/coding_units.cpp:j2k_precinct_subband::reset_for_next_frame", "source/core/coding/coding_units.cpp:j2k_precinct_subband::parse_packet_header"]}
{"id": "C55", "title": "Packet headers are read without undefined behaviour", "statement": "For any tile-part bytes, reading any sequence of packet headers of a precinct never reads or writes outside an array, dereferences a null node or shifts by too much.", "quantifier": "all byte strings, all code-block grids, all packet sequences", "why_tests_cant": "hostile bytes reach every combination of lengths, passes and layers", "anchors": ["source/core/coding/coding_units.cpp:j2k_precinct_subband::parse_packet_header", "source/core/coding/coding_units.hpp:j2k_codeblock::ensure_pass_capacity", "source/core/codestream/codestream.hpp:buf_chain::get_bit"]}
{"id": "C56", "title": "First inclusion of a code-block in a later layer is decoded as the standard says", "statement": "For any code-block grid and any sequence of layers, the code-blocks taken to be included, and the bits consumed, are those of the standard's tag-tree decoding procedure.", "quantifier": "all grids, all numbers of layers, all bit sequences", "why_tests_cant": "the tag tree's state depends on every earlier packet, and on which of them were empty", "anchors": ["source/core/coding/coding_units.cpp:j2k_precinct_subband::parse_packet_header", "source/core/codestream/codestream.hpp:tagtree_node"]}
{"id": "C57", "title": "What a JPIP client hands to the decoder", "statement": "From the data-bins it has received, in whatever order and however many precincts are missing, the client builds a codestream with the server's main header (progression order set to LRCP), one tile-part per tile with the tile's header segments, each precinct it holds in place, and one empty packet for each precinct and layer it does not hold; the codestream walker finds exactly these tile-parts in it.", "quantifier": "all codestream geometries, all sets of received bins, all main headers, all tile headers", "why_tests_cant": "which precincts are present and in which order they are stored depends on the whole browsing session", "anchors": ["source/core/jpip/codestream_assembler.cpp:reassemble_codestream_client", "source/core/jpip/codestream_assembler.cpp:patch_cod_to_lrcp", "source/core/jpip/codestream_walker.cpp:walk_codestream"]}
{"id": "C58", "title": "Served through JPIP, the codestream comes back", "statement": "A codestream whose precincts' packets are contiguous is walked, indexed and turned into data-bins; the main header, the tile headers and any subset of the precincts, sent in any order and received in pieces of any size, re-assemble to a codestream with the same main header, one tile-part per tile with its header segments, the sent precincts' bytes in the source's order and empty packets for the others. If every precinct was sent and each tile had one tile-part, the result is the source codestream byte for byte.", "quantifier": "all codestreams and geometries, all tile-part divisions, all subsets of precincts, all orders of sending, all chunkings of the stream", "why_tests_cant": "it composes five components over arbitrary subsets, orders and chunkings", "anchors": ["source/core/jpip/codestream_assembler.cpp:reassemble_codestream", "source/core/jpip/packet_locator.cpp:PacketLocator::build", "source/core/jpip/data_bin_emitter.cpp:emit_precinct_databin", "source/core/jpip/data_bin_emitter.cpp:emit_tile_header_databin", "source/core/jpip/jpp_parser.cpp:JppStreamParser"]}
{"id": "C59", "title": "Packets are taken in the order of the standard", "statement": "For each of the six progression orders and any list of progression order changes before it, the decoder takes the packets of a tile in the order the standard's nested loops over layers, resolutions, components and all reference-grid positions give, skipping those already taken; each packet of the tile is taken exactly once and nothing else is.", "quantifier": "all image, tile, component, subsampling and precinct geometries (32-bit projected precinct sizes), all numbers of layers, all POC entries, all six orders, all tiles", "why_tests_cant": "the code walks a sparse set of positions and counts precincts with running counters instead of computing them; that this agrees with the dense loops depends on every combination of offsets, subsampling and precinct sizes", "anchors": ["source/core/coding/coding_units.cpp:j2k_tile::create_tile_buf", "source/core/coding/coding_units.cpp:find_gcd_of_precinct_size", "source/core/coding/coding_units.cpp:j2k_tile_component::create_resolutions", "source/core/codestream/j2kmarkers.cpp:POC_marker"]}
{"id": "C60", "title": "A reused decoder takes the packets of later frames in the same order", "statement": "The order recorded on the first frame, when replayed on a later frame with the same geometry, takes the same packets in the same order, for up to 256 components and 65536 precincts per resolution.", "quantifier": "all geometries, layers, orders and POC lists within those limits", "why_tests_cant": "the recorded fields are narrower than the loop variables; a failure needs large counts", "anchors": ["source/core/coding/coding_units.cpp:j2k_tile::create_tile_buf", "source/core/coding/coding_units.hpp:cached_crp_"]}
{"id": "C61", "title": "Tiles, subbands, precincts and code-blocks partition the image as the standard says", "statement": "Every sample of a component belongs to exactly one tile; every sample of a resolution belongs to exactly one of the next lower resolution and the three subbands; every coefficient of a subband belongs to exactly one code-block, that of the standard's precinct and code-block partitions, whether or not the precincts are smaller than the signalled code-block size; no code-block is empty, they come in raster order, and each coefficient's buffer address is the one its position in the subband gives, inside the buffer.", "quantifier": "all tile-component intervals up to 2^31, up to 31 levels, all precinct sizes and code-block sizes, all subbands", "why_tests_cant": "the code uses unsigned arithmetic that goes below zero and back, and never computes the reduced code-block size; agreement must hold for every offset, level and size", "anchors": ["source/core/coding/coding_units.cpp:j2k_precinct_subband::j2k_precinct_subband", "source/core/coding/coding_units.cpp:j2k_precinct::j2k_precinct", "source/core/coding/coding_units.cpp:j2k_resolution::create_subbands", "source/core/coding/coding_units.cpp:j2k_resolution::create_precincts", "source/core/coding/coding_units.cpp:j2k_tile_component::create_resolutions"]}
{"id": "C62", "title": "The encoder takes every sample from its place in the caller's image", "statement": "For every tile-component, the encoder copies each row from the place in the caller's component array that holds it, for any image size, image origin, tiling and subsampling.", "quantifier": "all image sizes, origins, tile regions, subsampling factors", "why_tests_cant": "the address mixes component and reference-grid coordinates; it is right for unsubsampled or aligned images, which is what samples have", "anchors": ["source/core/coding/coding_units.cpp:j2k_tile_component::init", "source/core/codestream/j2kmarkers.cpp:SIZ_marker::get_component_stride"]}
{"id": "C63", "title": "A main header written by the encoder reads back with every setting", "statement": "For every choice of image, tile and component sizes, progression order, layers, decomposition levels, code-block and precinct sizes, coding style, transformation, guard bits and quantisation steps that fit their fields, the main header that the encoder emits is accepted by the decoder's parser, which stops exactly at the first tile-part and reports each of these settings unchanged (a tile size of 0 as one tile of the image's size, the colour transform as switched off where it does not apply), the steps of each component, the tile-part lengths of a codestream with several tiles, and nothing that was not written.", "quantifier": "all settings within the ranges of their fields, all step words, all tile-part lengths, tiles of less than 2^32 samples and up to 10921 of them, all bytes that follow", "why_tests_cant": "Field packing, length fields that depend on the number of levels and components, and defaults interact over a very large space of settings; a round trip on sample images exercises a handful.", "anchors": ["source/core/interface/encoder.cpp: openhtj2k_encoder_impl::invoke", "source/core/codestream/j2kmarkers.cpp: SIZ_marker, CAP_marker, COD_marker, QCD_marker, QCC_marker, TLM_marker, COM_marker, j2k_main_header::flush, j2k_main_header::read"]}
{"id": "C64", "title": "Parsing a main header is safe for every input", "statement": "Parsing ends with a header and a read position inside the input, or with an exception, for every byte string; no byte outside the input decides which, and none is part of the header.", "quantifier": "all byte strings of 1 to 2^32 - 65552 bytes, all decoder states, all bytes behind the input", "why_tests_cant": "Every one of the seventeen segment parsers has length fields under the control of the input, and lengths interact with the end of the buffer.", "anchors": ["source/core/codestream/j2kmarkers.cpp: j2k_main_header::read and all marker constructors", "source/core/interface/decoder.cpp: openhtj2k_decoder_impl::parse", "source/core/codestream/codestream_source.cpp"]}
{"id": "C65", "title": "A decoder object that is used again reads the next header as a new one would", "statement": "If a new decoder accepts a codestream's main header, then a decoder that has parsed any other codestreams before accepts it as well, with the same position and the same settings; and it refuses what a new one refuses.", "quantifier": "all codestreams, all histories of previously parsed codestreams", "why_tests_cant": "Depends on what every earlier frame contained; tests reuse a decoder on frames of one kind.", "anchors": ["source/core/codestream/j2kmarkers.cpp: j2k_main_header::read", "source/core/interface/decoder.cpp: openhtj2k_decoder_impl::init, parse"]}
{"id": "C66", "title": "The colour transform is only used on components of the same size", "statement": "When the encoder is asked for the colour transform and the first three components do not have the same sampling factors, it switches the transform off.", "quantifier": "all component counts and sampling factors", "why_tests_cant": "The transform reads and writes all three components with the first one's dimensions; whether that is in bounds depends on all sampling factors.", "anchors": ["source/core/interface/encoder.cpp: openhtj2k_encoder_impl::invoke", "source/core/coding/coding_units.cpp: j2k_tile::rgb_to_ycbcr"]}
{"id": "C67", "title": "Codeword segments and their lengths are read as the standard says", "statement": "For a code-block of any style (one segment per packet, termination on each pass, arithmetic bypass, HT with or without placeholder passes), the passes a packet adds are split into the segments of the standard, each length is read with Lblock plus the logarithm of the number of passes bits, exactly the header's bits are consumed, and every pass is recorded with its bytes.", "quantifier": "all block styles, all numbers of passes received in earlier layers, all numbers of new passes, all Lblock values and increments, all segment lengths", "why_tests_cant": "The grouping depends on the pass index at which a packet starts and on how many passes it brings; one wrong bit count desynchronises the rest of the packet. Foreign encoders produce combinations the project's own encoder never does.", "anchors": ["source/core/coding/coding_units.cpp: j2k_precinct_subband::parse_packet_header", "source/core/codestream/codestream.hpp: buf_chain::get_N_bits"]}
{"id": "C68", "title": "Every tile-part is found with its header and body", "statement": "A codestream whose tile-parts, of any tiles in any order, with any header segments (known and unknown) and any bodies, lie behind the main header is split into exactly those tile-parts: index, header segments with every field, and body bytes. That holds with EOC and anything behind it, without EOC, when the stream is cut anywhere in the last body, and for a last tile-part whose length field is 0.", "quantifier": "all sequences of tile-parts, all header segments and field values, all bodies, all component counts, all bytes behind the codestream, every cut point in the last body", "why_tests_cant": "The walk relies on counted header lengths and on 32-bit differences; one miscounted segment kind shifts every later tile-part. Foreign encoders use segments, orders and several tile-parts per tile that the project's own encoder never writes.", "anchors": ["source/core/interface/decoder.cpp: openhtj2k_decoder_impl::invoke", "source/core/codestream/j2kmarkers.cpp: j2k_tilepart_header::read, SOT_marker", "source/core/coding/coding_units.cpp: j2k_tile_part::read"]}
{"id": "C69", "title": "Walking tile-parts in any bytes is safe", "statement": "Whatever bytes follow the main header, walking the tile-parts ends with an exception or a list of tile-parts that lie one behind the other inside the codestream, with tile numbers inside the grid and packed headers inside the codestream; nothing outside the buffer is read and what lies behind the codestream has no influence.", "quantifier": "all byte strings, all start positions, all headers, all paddings", "why_tests_cant": "Lengths are attacker-controlled 16- and 32-bit numbers with wrap-around; only a proof covers every combination of lengths, truncation point and segment.", "anchors": ["source/core/interface/decoder.cpp: openhtj2k_decoder_impl::invoke", "source/core/codestream/j2kmarkers.cpp: j2k_tilepart_header::read", "source/core/coding/coding_units.cpp: j2k_tile_part::read", "source/core/codestream/codestream_source.cpp: j2c_src_memory"]}
{"id": "C70", "title": "What the encoder writes is as long as it announces", "statement": "The tile-part lengths the encoder announces (in each SOT and in TLM), and the size it reserves for output in memory, equal what it then writes: the output buffer is never overrun or left with a gap, memory and file output are the same bytes, and a decoder reading that output finds for every tile its packets, in the order sent.", "quantifier": "all image and tile sizes, coding settings, layers, tiles, packet contents and packet orders", "why_tests_cant": "Sizes are computed in one pass and bytes written in another through a bare pointer; a disagreement for one setting is silent memory corruption that no test of other settings shows.", "anchors": ["source/core/interface/encoder.cpp: openhtj2k_encoder_impl::invoke", "source/core/coding/coding_units.cpp: j2k_tile::write_packets_direct_impl, get_tile_part_size, t1_encode_packet"]}
{"id": "C71", "title": "Every tile-component gets the coding parameters the standard assigns it", "statement": "For any main header and first tile-part header, the decoder sets up each component of the tile with the coding style (levels, code-block size, modes, transformation, precinct sizes) of the segment that rules it: its own COC in the tile-part header, else the tile-part's COD, else its own COC in the main header, else the main COD; likewise its ROI shift, and for the tile the progression order, layers, colour transformation, packet markers and order changes.", "quantifier": "all main headers and tile-part headers with any number of COD, COC, RGN and POC segments in any order, all component counts and component numbers", "why_tests_cant": "Which segment rules a component depends on the presence of eight kinds of segment in two headers for each of up to 16384 components; tests visit a few combinations.", "anchors": ["source/core/coding/coding_units.cpp: j2k_tile::setCODparams, j2k_tile::dec_init, j2k_tile::add_tile_part, j2k_tile_component::init, setCOCparams, setRGNparams"]}
{"id": "C72", "title": "Every subband is dequantised with the values the standard assigns it", "statement": "For every component, resolution and band, the exponent, mantissa and number of bit-planes used for decoding are those that the standard derives from the QCC or QCD segment ruling the component, and setting them up reads nothing beyond the values the segment holds.", "quantifier": "all headers, quantisation styles, step values, guard bits, level counts, components, resolutions and bands", "why_tests_cant": "The index arithmetic runs over all level counts, and segments come from files; an off-by-one for one band of one level count silently rescales or corrupts the image.", "anchors": ["source/core/coding/coding_units.cpp: j2k_tile::setQCDparams, j2k_tile_component::setQCCparams, j2k_resolution::create_subbands", "source/core/codestream/j2kmarkers.cpp: QCD_marker, QCC_marker"]}
{"id": "C73", "title": "A decoder that keeps its tile between frames decodes each frame with the right one", "statement": "With single-tile reuse switched on, whatever sequence of frames is decoded, each frame is decoded with a tile structure (geometry, levels, code-blocks, precincts, quantisation) that its own headers call for, also after frames that were broken, and a header that differs in one fingerprinted byte never reuses the earlier structure.", "quantifier": "all sequences of frames, all headers, every point at which a frame fails", "why_tests_cant": "It is about histories: a stale structure shows only after a particular sequence of headers and failures, and a fingerprint can collide.", "anchors": ["source/core/interface/decoder.cpp: openhtj2k_decoder_impl::invoke_line_based_stream_reuse, invoke_line_based_direct", "source/core/coding/coding_units.cpp: j2k_tile::prepare_for_next_frame, create_tile_buf, add_tile_part"]}
{"id": "C74", "title": "What the decoder reports about an image is what it delivers", "statement": "After a main header has been read, the width and height reported for a component are those of the samples a full-resolution decode delivers for it, and the number of decomposition levels reported is the least any component has, which is also how many levels a decode may be asked to drop.", "quantifier": "all legal SIZ segments and components; all lists of COC segments", "why_tests_cant": "It depends on image offsets, subsampling and which components have COC segments, in which order; test images have no offset and no COC.", "anchors": ["source/core/interface/decoder.cpp: openhtj2k_decoder_impl::get_component_width, get_component_height, get_minimum_DWT_levels, get_max_safe_reduce_NL"]}
{"id": "C75", "title": "A decoded image is complete and in place", "statement": "Decoding a whole image gives for each component an array of width times height elements in which every sample of the component, at the resolution asked for, stands at its row and column, with the value the tile it lies in decodes to (through the colour transform where that tile uses it); no element is left indeterminate and nothing is stored outside the arrays.", "quantifier": "all legal image, tile and component geometries, all numbers of dropped levels, all decoded tile contents", "why_tests_cant": "It is about every combination of image offset, tile grid, subsampling and dropped levels, up to sizes no test can run.", "anchors": ["source/core/interface/decoder.cpp: openhtj2k_decoder_impl::invoke_line_based", "source/core/coding/coding_units.cpp: j2k_tile::decode_line_based"]}
{"id": "C76", "title": "A row callback receives the image, row by row", "statement": "Decoding to a row callback calls it exactly once for each row of the first component inside the row window asked for, in increasing order, each time with one row per component; the rows given together are those that belong together under the vertical subsampling, with the samples the image decodes to, and over the whole image every sample of every component is given.", "quantifier": "all legal image, tile and component geometries, numbers of dropped levels, code-block heights, row windows and decoded tile contents", "why_tests_cant": "It depends on how strip heights, subsampling factors, tile rows and columns and windows interact; tests run a few common samplings on one tile.", "anchors": ["source/core/interface/decoder.cpp: openhtj2k_decoder_impl::invoke_line_based_stream", "source/core/coding/coding_units.cpp: j2k_tile::decode_line_based_stream, pull_strip_into_buf, pull_strip_advance"]}
{"id": "C77", "title": "Part 1 code-blocks are decoded pass by pass as the standard says", "statement": "For every code-block of an ordinary (not high-throughput) codestream, in every style - arithmetic-coding bypass, context reset, termination on each pass, vertically causal contexts, segmentation symbols - and for any bytes, the decoder runs the significance, refinement and clean-up passes in the order, over the samples, with the contexts and out of the segments that Annex D of T.800 prescribes, and leaves the sign, magnitude and last decoded bit-plane of every sample; it never reads or writes outside its arrays.", "quantifier": "all code-block sizes, subband orientations, style flags, numbers of passes and bit-planes, pass lengths and contents of the coded bytes", "why_tests_cant": "Contexts depend on up to eight neighbours, the stripe, the style flags and the whole history of the block; conformance files exercise a small part of the combinations, and none with hostile lengths.", "anchors": ["source/core/coding/block_decoding.cpp: j2k_decode, decode_sigprop_pass_raw, decode_sigprop_pass, decode_magref_pass_raw, decode_magref_pass, decode_cleanup_pass, decode_j2k_sign, broadcast_sigma_context, get_context_label_sig, get_signLUT_index"]}
{"id": "C78", "title": "Dequantised coefficients are the standard's reconstruction values", "statement": "What the decoder leaves in a subband for a Part 1 code-block is, for every sample of the block and no other, the value E.1.1.2 of T.800 assigns to the decoded sign, magnitude and number of decoded bit-planes with r = 1/2: exactly for the reversible transform (so a completely decoded block gives the encoder's integers), to within half a unit plus the error of the 16-bit product for the irreversible one; with a region of interest, the scaling of Annex H is undone.", "quantifier": "all code-blocks, coded bytes, styles, numbers of passes (blocks cut off after any pass), M_b, region-of-interest shifts, positions in the subband and step sizes", "why_tests_cant": "A block may be cut off after any pass, leaving neighbouring samples with different numbers of decoded planes; the error bound and overflow conditions are over all magnitudes and steps.", "anchors": ["source/core/coding/block_dequant.cpp: j2k_dequant, j2k_dequant_rev_scalar", "source/core/coding/block_decoding.cpp: j2k_decode"]}
{"id": "C79", "title": "HT refinement passes decode as the standard says, and safely", "statement": "When a high-throughput code-block has a refinement segment, each sample not significant after the cleanup pass becomes significant, with the sign read, exactly when the SigProp pass of T.814 makes it so, and each significant sample gets the bit the MagRef pass of T.814 assigns to it; every other sample keeps its value. This holds for stripe-causal blocks and for blocks whose sides are no multiples of four. The passes never read or write outside the block's arrays, whatever the segment and the block hold.", "quantifier": "all block sizes, both causal modes, all refinement segments (also empty or truncated), all sets of significant samples, magnitudes and signs left by a cleanup pass that marks no sample outside the block, all bit-planes; safety for all array contents", "why_tests_cant": "Whether a sample is scanned depends on all its neighbours scanned so far, and the bit it gets on the number of bits used before, with bit-stuffing in both directions: errors show only for particular sets of significant samples.", "anchors": ["source/core/coding/ht_block_decoding.cpp: ht_sigprop_decode, ht_magref_decode, process_stripes_block_dec, calc_mbr", "source/core/coding/ht_block_decoding.hpp: SP_dec, MR_dec"]}
{"id": "C80", "title": "HT blocks with several passes leave the standard's reconstruction values in the band", "statement": "What the decoder leaves in a reversible subband for a high-throughput code-block that is not stored by the cleanup pass itself (refinement passes, odd height or region of interest) is, for every sample of the block and no other, the value E.1.1.2 of T.800 with r = 1/2 gives the sign, magnitude and last bit-plane decoded by the cleanup, SigProp and MagRef passes: samples refined, found significant by SigProp or left at the cleanup's bit-plane each with their own interval; with a region of interest, the scaling of Annex H is undone.", "quantifier": "all block sizes, refinement segments, significant sets, magnitudes, numbers of passes, skipped bit-planes, M_b, shifts, band positions and sample formats", "why_tests_cant": "Samples of one block end at different bit-planes depending on their neighbours; wrong rounding or a wrong last plane shows only for some combinations of planes, passes and M_b.", "anchors": ["source/core/coding/ht_block_decoding.cpp: j2k_codeblock::dequantize, htj2k_dec_finish"]}
{"id": "C81", "title": "Streaming decoding hands every subband row to the inverse transform, whole and in time", "statement": "In line-by-line decoding each request for a row of a subband yields the row's coefficients as decoded from its code-blocks, zero where a code-block is absent, or an exception if the row's code-blocks are rejected. This holds whichever rows are asked for in whichever order, over any number of frames decoded with the same objects, with one thread or with a pool that decodes the next strip in the background under any schedule; a row handed out stays valid while the pool works, no store falls outside the buffer, the wait for the pool can always end, and a frame without rejected code-blocks is never refused.", "quantifier": "all subbands (positions, precincts, code-block sizes), all frames, all sequences of row requests and frame changes, exceptions included, all interleavings of the pool's stores", "why_tests_cant": "Corruption needs a particular alignment of tile, subband and code-block grid, or a particular interleaving of background decoding with reading; tests run few schedules and mostly tiles whose size is a power of two.", "anchors": ["source/core/coding/subband_row_buf.cpp: row_ptr, decode_strip, decode_strip_core, trigger_prefetch, init, drain_prefetch", "source/core/coding/coding_units.cpp: reset_line_decode_cursors, finalize_line_decode"]}
{"id": "C82", "title": "A window decodes to the samples of the whole image", "statement": "When a decoder is told to restrict line-by-line decoding to a range of columns and of rows, every sample inside both ranges equals the sample unrestricted decoding delivers there. This holds for either wavelet, any number of decomposition levels, any position and size of the component, and whatever frames the same decoder handled before.", "quantifier": "all coefficient data, numbers of levels, component positions and sizes, column and row ranges, all histories of earlier requests", "why_tests_cant": "The samples at the edge of a window depend on margins at every level, on the parity of each edge and its distance from the border, and on ranges left behind by earlier frames; tests try a few windows, mostly centred ones on fresh decoders.", "anchors": ["source/core/coding/coding_units.cpp: set_line_decode_col_range, set_line_decode_row_range, idwt_level_src_fn, reset_line_decode_cursors, decode_line_based_stream", "source/core/transform/idwt.cpp: idwt_1d_row_inplace_range, idwt_1d_filtr_irrev97_fixed_range, idwt_1d_filtr_rev53_fixed_range, adv_step, idwt_2d_state_set_col_range", "source/core/interface/decoder.hpp: set_col_range, set_row_range"]}
{"id": "C83", "title": "Decoding into the caller's planes leaves the image in them and nothing else", "statement": "When the caller describes one plane of 8- or 16-bit samples per component (width, row stride, row subsampling, offset, clamping range and shift) and decodes straight into them, each sample of each described component is found at its row and column in its plane, clamped and shifted as described, and no other byte of any plane changes. This holds whether or not the decoder keeps its tile from one frame to the next, and whichever vector instructions the library was built for.", "quantifier": "all one-tile images, sampling factors, resolutions, coefficient values, plane descriptions that fit the component, both decoder modes, all three builds", "why_tests_cant": "The two modes and three builds take separate code paths through rows, strips, vector groups and left-over columns; a difference shows only for particular widths, depths, strip heights or sample values.", "anchors": ["source/core/interface/decoder.cpp: invoke_line_based_direct", "source/core/coding/coding_units.cpp: j2k_tile::decode_line_based_stream_planar", "source/core/transform/finalize_narrow.hpp: finalize_f32_to_u8, finalize_f32_to_u16"]}
{"id": "C84", "title": "Decoding code-blocks in batches gives what decoding them one by one gives", "statement": "When line-by-line decoding gathers the code-blocks of a strip into batches, decodes the lanes of a batch in lockstep and spreads batches over threads, every code-block with data is decoded exactly once and with the result it has when decoded alone; the strip is rejected exactly when some code-block alone is rejected, with threads as without; the wait for the threads ends only when nothing is left to do; and every code-block works in scratch space of its own, large enough and inside the allocation. This holds for any number of lanes, any mixture of block sizes and kinds and any schedule.", "quantifier": "all lists of code-blocks (sizes, HT or not, with or without data, valid or not), numbers of lanes, interleavings of the threads' steps, histories of strips", "why_tests_cant": "Grouping depends on which neighbours have equal size, data and kind and on which lane fails when; failures in the middle of a lockstep and all interleavings of workers are out of reach of tests.", "anchors": ["source/core/coding/ht_block_decoding.cpp: htj2k_decode_batch, htj2k_decode_su", "source/core/coding/ht_block_decoding_avx2.cpp: htj2k_decode_batch", "source/core/coding/subband_row_buf.cpp: build_par_groups, run_par_group, decode_strip_core, trigger_prefetch"]}
