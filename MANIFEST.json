{"claims": [
{"property": "C01", "status": "proved", "theorems": ["C01_vbas_roundtrip"], "note": ""},
{"property": "C02", "status": "proved", "theorems": ["C02_vbas_decode_exact", "C02_vbas_prefix_refused"], "note": ""},
{"property": "C03", "status": "proved", "theorems": ["C03_header_sequence_roundtrip", "C03_header_independent"], "note": ""},
{"property": "C04", "status": "proved", "theorems": ["C04_header_decode_safe", "C04_header_prefix_refused"], "note": ""},
{"property": "C05", "status": "proved", "theorems": ["C05_emitted_bins_received"], "note": ""},
{"property": "C06", "status": "proved", "theorems": ["C06_chunking_invariance", "C06_streaming_equals_one_shot", "C06_emitted_response_any_chunking", "C06_bytes_after_eor_refuted"], "note": "holds for responses that end at their end-of-response marker; C06_bytes_after_eor_refuted shows the condition is needed"},
{"property": "C07", "status": "proved", "theorems": ["C07_gap_free_prefix", "C07_accept_condition", "C07_refused_message_leaves_bin_refuted"], "note": "C07_refused_message_leaves_bin_refuted records a deviation from the documented meaning of contains()"},
{"property": "C08", "status": "proved", "theorems": ["C08_budgeted_delivery", "C08_one_response_progress"], "note": "the budget covers headers and payload"},
{"property": "C09", "status": "partial", "theorems": ["C09_merge_keeps_bytes_partial", "C09_merge_of_one_server", "C09_merge_completeness_refuted", "C09_reachable_sets_have_distinct_keys"], "note": "completeness half is false for arbitrary pairs (C09_merge_completeness_refuted); it is proved for sets obtained from one server (C09_merge_of_one_server)"},
{"property": "C10", "status": "proved", "theorems": ["C10_held_iff_stated", "C10_bytes_stated", "C10_text_statements", "C10_text_limit", "C10_text_total", "C10_large_ids_refuted", "C10_minus_one_refuted"], "note": ""},
{"property": "C11", "status": "proved", "theorems": ["C11_text_round_trip", "C11_reachable", "C11_complete_count_refuted", "C11_other_class_refuted"], "note": ""},
{"property": "C12", "status": "proved", "theorems": ["C12_table_is_lru", "C12_ids_never_reused", "C12_table_bounded", "C12_never_stuck", "C12_id_fits_buffer", "C12_zero_maximum_refuted"], "note": ""},
{"property": "C13", "status": "proved", "theorems": ["C13_isolated", "C13_committed_stays_held", "C13_snapshot_reports"], "note": ""},
{"property": "C14", "status": "proved", "theorems": ["C14_precinct_count", "C14_ids_distinct", "C14_only_existing", "C14_decompose_sound", "C14_sequence_dense", "C14_large_identifier_refuted", "C14_32_levels_refuted", "C14_zero_tile_refuted"], "note": "For legal headers with fewer than 2^32 precincts per tile-component; identifiers at or above tiles*components*2^32 are truncated (C14_large_identifier_refuted)."},
{"property": "C15", "status": "proved", "theorems": ["C15_discard_level"], "note": ""},
{"property": "C16", "status": "proved", "theorems": ["C16_any_bytes", "C16_body_may_be_negative_refuted", "C16_zero_psot_takes_eoc_refuted", "C16_well_formed", "C16_markers_alone"], "note": "Round trip over every well-formed codestream; a zero or too small Psot is mishandled (two _refuted theorems)."},
{"property": "C17", "status": "proved", "theorems": ["C17_received_any_coding", "C17_batch_any_coding", "C17_trailer_refuted", "C17_cut_independent", "C17_received", "C17_not_before", "C17_batch", "C17_batch_any_bytes", "C17_overlong_size_refuted"], "note": "Any cut of a framed body is received as sent, any bytes are decoded without undefined behaviour; a size of more than 16 digits wraps (C17_overlong_size_refuted)."},
{"property": "C18", "status": "proved", "theorems": ["C18_request_with_cache", "C18_component_ranges", "C18_malformed_range", "C18_return_types", "C18_query_parses", "C18_request", "C18_any_text", "C18_out_of_range_refuted"], "note": "Every window the client API accepts is read back by the server; numbers out of range are cast silently (C18_out_of_range_refuted)."},
{"property": "C19", "status": "partial", "theorems": ["C19_response_partial", "C19_chunked_response_partial", "C19_error_response_partial", "C19_long_name_refuted", "C19_chunked_any_bytes", "C19_empty_length_refuted", "C19_terminated_any_bytes"], "note": "Holds for target names up to 243, new-channel texts up to 498 and error texts up to 380 characters; beyond that the formatter copies past its buffer (C19_long_name_refuted). Parsing a received header is safe when the buffer is followed by a blank line after the length value; an empty Content-Length value reads past the buffer (C19_empty_length_refuted)."},
{"property": "C20", "status": "proved", "theorems": ["C20_rct_lossless"], "note": ""},
{"property": "C21", "status": "proved", "theorems": ["C21_fused_equals_two_step", "C21_fused_in_range", "C21_original_samples_restored", "C21_conversion_nearest", "C21_deep_samples_refuted"], "note": ""},
{"property": "C22", "status": "proved", "theorems": ["C22_row_is_the_53_filter", "C22_row_restored", "C22_row_restored_in_place"], "note": ""},
{"property": "C23", "status": "proved", "theorems": ["C23_transform_lossless", "C23_empty_width_refuted"], "note": ""},
{"property": "C24", "status": "proved", "theorems": ["C24_streamed_rows", "C24_streamed_single_row", "C24_streamed_equals_batch"], "note": ""},
{"property": "C25", "status": "proved", "theorems": ["C25_pulled_rows", "C25_pulled_single_row", "C25_zero_skipping_equals_batch", "C25_batch_single_even_row_refuted"], "note": ""},
{"property": "C26", "status": "proved", "theorems": ["C26_magsgn_stream"], "note": ""},
{"property": "C27", "status": "proved", "theorems": ["C27_mel_stream"], "note": ""},
{"property": "C28", "status": "proved", "theorems": ["C28_vlc_stream"], "note": ""},
{"property": "C29", "status": "proved", "theorems": ["C29_cxtvlc", "C29_uvlc"], "note": ""},
{"property": "C30", "status": "proved", "theorems": ["C30_round_trip", "C30_lossless", "C30_31_planes_refuted"], "note": "For blocks of up to 30 planes (the most the decoder supports) whatever the encoder outputs decodes to the same coefficients, at any address (C30_round_trip); up to 23 planes the encoder is shown to succeed (C30_lossless). Blocks of 31 planes are encoded but refused (C30_31_planes_refuted)."},
{"property": "C31", "status": "proved", "theorems": ["C31_setup_in_bounds"], "note": ""},
{"property": "C32", "status": "proved", "theorems": ["C32_round_trip", "C32_no_marker"], "note": ""},
{"property": "C33", "status": "proved", "theorems": ["C33_round_trip"], "note": "Layer 0 as the encoder writes it, any grid up to 2^26 blocks, any number of bands, read from any split into non-empty tile-parts; segment bytes in total below 2^29."},
{"property": "C34", "status": "partial", "theorems": ["C34_within_the_bytes_partial", "C34_truncated_refuted"], "note": "False as stated: C34_truncated_refuted shows a one-byte header on which no number of rounds suffices (the zero-bit-plane loop reads the zeros handed out past the end for ever). Proved: any header that lies within the bytes present is read within as many rounds as there are bits."},
{"property": "C35", "status": "partial", "theorems": ["C35_one_stream_partial", "C35_empty_tile_part", "C35_however_sized_refuted", "C35_borrow", "C35_position"], "note": "Holds when every tile-part body is non-empty (C35_one_stream_partial). With an empty body the bytes still read in order but the read after the last one is undefined (C35_empty_tile_part), so the unrestricted claim is refuted by C35_however_sized_refuted."},
{"property": "C36", "status": "proved", "theorems": ["C36_safe", "C36_cursor", "C36_remaining", "C36_limit", "C36_empty_refuted", "C36_skip_refuted"], "note": "An empty input and a skip that wraps the position are shown false by C36_empty_refuted and C36_skip_refuted."},
{"property": "C37", "status": "proved", "theorems": ["C37_safe", "C37_well_formed", "C37_open_ended", "C37_round_trip", "C37_4GiB_refuted"], "note": ""},
{"property": "C38", "status": "proved", "theorems": ["C38_safe", "C38_normalised", "C38_overflow_refuted"], "note": ""},
{"property": "C39", "status": "proved", "theorems": ["C39_exactly_once", "C39_exclusion", "C39_no_lost_wakeup", "C39_runs_all", "C39_shutdown", "C39_shutdown_wakes", "C39_refusal", "C39_overflow_refuted"], "note": "Every interleaving, any number of workers, clients and tasks, re-entrant calls included. The no-lost-wakeup theorem assumes no batch was cut short by overflow; that case is refuted (C39_overflow_refuted)."},
{"property": "C40", "status": "proved", "theorems": ["C40_safe", "C40_no_alias", "C40_best_fit"], "note": ""},
{"property": "C41", "status": "proved", "theorems": ["C41_rtp", "C41_rtp_offset", "C41_main", "C41_body"], "note": ""},
{"property": "C42", "status": "proved", "theorems": ["C42_frames", "C42_counters", "C42_reset", "C42_datagram", "C42_late_join_refuted", "C42_split_header_refuted"], "note": "Exactly which packet sequences yield a frame, counters, reset and arbitrary datagrams; two claims about late joiners and split main headers are refuted (C42_late_join_refuted, C42_split_header_refuted)."},
{"property": "C43", "status": "proved", "theorems": ["C43_one_place", "C43_conservation", "C43_in_order", "C43_no_sleep_on_item", "C43_exclusion", "C43_stop_missed_refuted"], "note": "Every interleaving of any number of threads; the shutdown wake-up is refuted (C43_stop_missed_refuted)."},
{"property": "C44", "status": "proved", "theorems": ["C44_append_only", "C44_concatenation"], "note": "Failure of the allocator or of the output stream is not modelled."},
{"property": "C45", "status": "proved", "theorems": ["C45_negotiation"], "note": ""},
{"property": "C46", "status": "proved", "theorems": ["C46_sign_magnitude"], "note": ""},
{"property": "C47", "status": "proved", "theorems": ["C47_only_existing", "C47_sorted_no_repeats", "C47_whole_image", "C47_outside_empty", "C47_repeats_refuted", "C47_far_offset_refuted"], "note": "Repeated components repeat precincts and 32-bit overflow of scaled offsets folds back (two _refuted theorems)."},
{"property": "C48", "status": "partial", "theorems": ["C48_covered_partial", "C48_no_excess", "C48_top_resolution_refuted"], "note": "Coverage proved below the top resolution of each component (C48_covered_partial); at the top resolution the code adds no margin and the claim is false (C48_top_resolution_refuted). The converse C48_no_excess is complete. Requests whose scaled offsets leave 32 bits are excluded."},
{"property": "C49", "status": "proved", "theorems": ["C49_no_marker"], "note": ""},
{"property": "C50", "status": "partial", "theorems": ["C50_buffers_suffice_partial", "C50_30_planes_refuted"], "note": "Proved for up to 23 planes; false at 30 (C50_30_planes_refuted). 24 to 29 planes are not settled."},
{"property": "C51", "status": "partial", "theorems": ["C51_step1_any_bytes_partial", "C51_step2_refuted"], "note": "Setup and step 1 (MEL, VLC and u-values) are safe on arbitrary bytes; step 2 executes a shift by 32 or more on some blocks, so the full claim is false (C51_step2_refuted). The refinement passes are C79's subject."},
{"property": "C52", "status": "proved", "theorems": ["C52_success", "C52_fetch_chunked", "C52_fetch_length", "C52_early_close_refuted"], "note": "Composes C05, C06, C17 and C19. The converse, success implies complete, is false when the peer closes between two messages (C52_early_close_refuted)."},
{"property": "C53", "status": "proved", "theorems": ["C53_standard"], "note": ""},
{"property": "C54", "status": "partial", "theorems": ["C54_reuse_partial", "C54_mixed_refuted"], "note": "Proved for tile-components without mixed HT and non-HT blocks; in mixed mode it is false (C54_mixed_refuted). Missing: frames whose reading ended with an exception."},
{"property": "C55", "status": "partial", "theorems": ["C55_memory_safe_partial", "C55_mixed_refuted"], "note": "Proved for tile-components without mixed HT and non-HT blocks and non-empty tile-parts; in mixed mode it is false (C55_mixed_refuted: shift by 32)."},
{"property": "C56", "status": "partial", "theorems": ["C56_no_empty_packet_partial", "C56_empty_packets_refuted"], "note": "True as long as no packet of the precinct is empty; false otherwise (C56_empty_packets_refuted)."},
{"property": "C57", "status": "partial", "theorems": ["C57_client_codestream_partial", "C57_client_walk", "C57_two_layers_refuted", "C57_alias_refuted"], "note": "Proved for one quality layer and identifiers inside the numbering; false with two layers (C57_two_layers_refuted) and for identifiers beyond the numbering (C57_alias_refuted)."},
{"property": "C58", "status": "proved", "theorems": ["C58_served_codestream", "C58_lossless"], "note": "The packet walk itself is the observer's list of calls (each packet once, with its offset and length); progression orders 2 to 5 without SOP/EPH, as the code requires."},
{"property": "C59", "status": "proved", "theorems": ["C59_order", "C59_exactly_once", "C59_projection_refuted", "C59_ce_zero_refuted"], "note": "For projected precinct sizes below 2^32 and fewer than 2^32 packets; beyond that false (C59_projection_refuted). CEpoc = 0 deviates from the standard (C59_ce_zero_refuted). The DFS marker of Part 2 is not modelled; an exception out of a packet body ends the loops and is left out."},
{"property": "C60", "status": "proved", "theorems": ["C60_replay", "C60_many_components_refuted"], "note": "False with more than 256 components (C60_many_components_refuted)."},
{"property": "C61", "status": "proved", "theorems": ["C61_code_blocks", "C61_addresses", "C61_interleave", "C61_tiles", "C61_far_refuted"], "note": "For coordinates up to 2^31; beyond that the counts wrap (C61_far_refuted). The DFS marker of Part 2 is not modelled."},
{"property": "C62", "status": "partial", "theorems": ["C62_sample_source_partial", "C62_odd_width_refuted", "C62_origin_refuted"], "note": "True without subsampling, and for images at the origin whose width the subsampling divides; false for odd widths (C62_odd_width_refuted) and for subsampled images away from the origin (C62_origin_refuted)."},
{"property": "C63", "status": "proved", "theorems": ["C63_header_round_trip", "C63_header_written", "C63_many_tiles_refuted", "C63_big_tile_refuted"], "note": "Beyond the stated limits it fails: 10922 tiles wrap the TLM length (C63_many_tiles_refuted), a 65536x65536 tile is taken for no tile size (C63_big_tile_refuted). The step words are given, not computed."},
{"property": "C64", "status": "partial", "theorems": ["C64_header_safe_partial", "C64_empty_ppm_refuted"], "note": "All inputs without the four bytes FF 60 00 02; a PPM segment of length 2 is undefined behaviour (C64_empty_ppm_refuted)."},
{"property": "C65", "status": "partial", "theorems": ["C65_reuse_partial", "C65_stale_refuted", "C65_accepts_refuted"], "note": "What the codestream states is read as by a new decoder; what it does not state is left over (C65_stale_refuted), and component segments before SIZ are accepted (C65_accepts_refuted)."},
{"property": "C66", "status": "partial", "theorems": ["C66_color_sizes_partial", "C66_color_sizes_refuted"], "note": "True for three components whose factors differ in both directions or not at all; false for 4:2:2 and for four components (C66_color_sizes_refuted)."},
{"property": "C67", "status": "partial", "theorems": ["C67_segments_partial", "C67_placeholders_partial", "C67_first_cleanup_partial", "C67_pass_limit_refuted"], "note": "For all styles, up to 128 passes in a block; more are refused (C67_pass_limit_refuted). The mode that mixes HT and other blocks is not covered."},
{"property": "C68", "status": "proved", "theorems": ["C68_tile_parts", "C68_truncated", "C68_no_eoc", "C68_open_last", "C68_open_cut_refuted"], "note": "Streams up to 2^32 - 65552 bytes. A cut stream whose last tile-part has length field 0 is refused instead (C68_open_cut_refuted)."},
{"property": "C69", "status": "partial", "theorems": ["C69_short_psot_refuted", "C69_tiles_safe_partial", "C69_empty_ppt_refuted", "C69_header_gaps_refuted"], "note": "For headers with SIZ, COD and QCD and a tile size that is not 0; otherwise undefined (C69_header_gaps_refuted). Packed headers lie inside unless the bytes FF 61 00 02 occur (C69_empty_ppt_refuted). A length shorter than the tile-part's own header swallows the rest of the stream (C69_short_psot_refuted)."},
{"property": "C70", "status": "partial", "theorems": ["C70_lengths_partial", "C70_layers_refuted"], "note": "One quality layer, up to 10921 tiles. With more layers the buffer is overrun and lengths are short (C70_layers_refuted)."},
{"property": "C71", "status": "partial", "theorems": ["C71_precedence_partial", "C71_tile_cod_refuted", "C71_other_coc_refuted", "C71_other_rgn_refuted", "C71_levels_refuted", "C71_short_coc_refuted"], "note": "Except where a component has a COC (RGN) of its own in the main header and the tile-part header has only a COD, or only COCs (RGNs) for other components: there the code picks the wrong segment (C71_tile_cod_refuted, C71_other_coc_refuted, C71_other_rgn_refuted). COCs of at most 31 levels and five bytes (C71_levels_refuted, C71_short_coc_refuted). DFS and ATK (Part 2) are left out."},
{"property": "C72", "status": "partial", "theorems": ["C72_subbands_partial", "C72_short_qcd_refuted", "C72_more_levels_refuted", "C72_mismatch_refuted", "C72_negative_refuted", "C72_no_planes_refuted"], "note": "For quantisation segments that hold a value for every band and fit the transformation; short, mismatched or negative ones read out of bounds or shift by more than 31 (C72_short_qcd_refuted, C72_mismatch_refuted, C72_negative_refuted), and so does a legal QCD when a tile COD or a COC asks for more levels than the COD beside the QCD (C72_more_levels_refuted)."},
{"property": "C73", "status": "partial", "theorems": ["C73_reuse_partial", "C73_one_byte_detected", "C73_quant_refuted", "C73_tile_header_refuted", "C73_component_refuted", "C73_rows_throw_refuted", "C73_no_parts_refuted", "C73_roi_refuted"], "note": "For frames alike in what the fingerprint leaves out, without 64-bit collisions (a one-byte difference never collides: C73_one_byte_detected), none failing while rows are decoded. Otherwise a stale structure is used (C73_quant_refuted, C73_tile_header_refuted, C73_component_refuted, C73_rows_throw_refuted, C73_roi_refuted); a frame without tile-parts is a null pointer (C73_no_parts_refuted)."},
{"property": "C74", "status": "partial", "theorems": ["C74_component_size_partial", "C74_component_size_refuted", "C74_minimum_levels_partial", "C74_coc_for_first_refuted", "C74_coc_order_refuted", "C74_unused_cod_refuted"], "note": "Sizes when the image origin is a multiple of the sampling factors (C74_component_size_refuted otherwise); levels when the COC segments are in component order, the last component has one (or there are none) and some component has none; otherwise out-of-bounds reads and wrong minima (C74_coc_for_first_refuted, C74_coc_order_refuted, C74_unused_cod_refuted)."},
{"property": "C75", "status": "partial", "theorems": ["C75_every_sample_delivered_partial", "C75_nothing_indeterminate_partial", "C75_finer_component_refuted", "C75_extra_column_refuted", "C75_large_image_refuted", "C75_colour_transform_refuted"], "note": "Every sample in place, nothing else written, for components not finer vertically than the first, arrays below 2^32 elements, positions up to 2^31 and colour transforms over equally sampled components; nothing indeterminate when 2^r divides the component origin. Each condition is necessary: C75_finer_component_refuted, C75_large_image_refuted, C75_colour_transform_refuted, C75_extra_column_refuted. The samples of a tile-component are an abstract source of rows; allocation failure is left out."},
{"property": "C76", "status": "partial", "theorems": ["C76_rows_in_order_partial", "C76_every_sample_delivered_partial", "C76_many_components_refuted", "C76_subsampled_first_refuted", "C76_uneven_factors_refuted", "C76_odd_window_refuted", "C76_tile_columns_refuted", "C76_window_per_tile_refuted"], "note": "Rows in order, each with the right rows of the other components, and no sample left out, for up to 16 components, a first component not subsampled vertically (or all three under the colour transform), factors dividing one another, a window starting at a multiple of the factors, and either one tile column or equal vertical sampling; windows on one tile only. Every condition is necessary: C76_many_components_refuted, C76_subsampled_first_refuted, C76_uneven_factors_refuted, C76_odd_window_refuted, C76_tile_columns_refuted, C76_window_per_tile_refuted. The fetches of a strip are sequential here, and the column window is left out."},
{"property": "C77", "status": "partial", "theorems": ["C77_any_decoder", "C77_coding_passes", "C77_deep_block_refuted", "C77_too_many_passes_refuted"], "note": "Proved for any bytes, block size, orientation and style, whatever symbol decoder is used (C77_any_decoder) and, with the MQ decoder, without any undefined step (C77_coding_passes): the stored sign, magnitude and last bit-plane are those of Annex D. Assumes M_b plus the ROI shift is at most 31 and that there are no more passes than bit-planes allow; neither is checked by the decoder, and both are necessary (C77_deep_block_refuted, C77_too_many_passes_refuted). What becomes of the coefficients is C78."},
{"property": "C78", "status": "partial", "theorems": ["C78_reversible", "C78_region_of_interest_partial", "C78_irreversible_partial", "C78_region_low_bits_refuted", "C78_region_gap_refuted", "C78_31_bits_refuted", "C78_float_refuted", "C78_large_step_refuted"], "note": "C78_reversible: exact for every block, style and cut-off, M_b up to 30. C78_irreversible_partial: error bound when the 32-bit products do not overflow; the scale is taken as an integer, its float computation is not modelled. C78_region_of_interest_partial: exact for the magnitudes a Maxshift encoder produces. The limits are necessary: C78_31_bits_refuted, C78_region_low_bits_refuted, C78_region_gap_refuted, C78_float_refuted, C78_large_step_refuted."},
{"property": "C79", "status": "proved", "theorems": ["C79_refinement_passes", "C79_no_plane_below", "C79_refinement_is_safe", "C79_padding_refuted"], "note": "C79_refinement_passes: every sample of every block, any segment, after a cleanup pass that marks no sample outside the block (necessary: C79_padding_refuted). C79_refinement_is_safe: no access outside the arrays, whatever the arrays and the segment hold. C79_no_plane_below: with no bit-plane below, nothing changes. Scalar build; the AVX2 passes are not modelled."},
{"property": "C80", "status": "partial", "theorems": ["C80_reversible", "C80_region_of_interest", "C80_holds", "C80_31_bits_refuted", "C80_region_gap_refuted"], "note": "C80_reversible and C80_region_of_interest: exact for every block, segment, number of passes and position, M_b up to 30 (necessary: C80_31_bits_refuted) and background small enough for the shift (C80_region_gap_refuted). Missing: the irreversible branches, whose arithmetic is on floats."},
{"property": "C81", "status": "partial", "theorems": ["C81_rows_partial", "C81_clean_partial", "C81_pool_partial", "C81_geometry", "C81_unaligned_refuted", "C81_thin_precincts_refuted", "C81_stale_error_refuted"], "note": "C81_rows_partial, C81_clean_partial, C81_pool_partial: every history, order of rows, frame sequence and pool schedule, for subbands whose strips do not cut code-blocks and frames whose decoders store no row of another code-block of the strip; C81_geometry: the decoder's subbands are such when they start at a multiple of the code-block height (or lie between two) and precincts are not lower than code-blocks. False otherwise (C81_unaligned_refuted, C81_thin_precincts_refuted), and for clean frames after a rejected one (C81_stale_error_refuted)."},
{"property": "C82", "status": "partial", "theorems": ["C82_window", "C82_frames_partial", "C82_stale_window_refuted", "C82_open_window_refuted", "C82_subsampled_refuted", "C82_offset_refuted"], "note": "C82_window: every column and row range, any number of levels, any sample arithmetic in which zero is neutral. C82_frames_partial: any history of frames, when the last request ends at a column below 2^31 - 1 or no request ever narrowed the columns. False for a full request after a narrowed one, open ends, subsampled components and canvas offsets (refuted theorems). Not modelled: the SIMD range kernels and the difference in float rounding between fused and separate operations; 32-bit overflow of ranges."},
{"property": "C83", "status": "partial", "theorems": ["C83_planes_hold_image_partial", "C83_signed_refuted", "C83_shallow_refuted", "C83_requests_ignored_refuted", "C83_height_ignored_refuted", "C83_reported_width_refuted"], "note": "C83_planes_hold_image_partial: one tile, up to 16 components, component 0 not subsampled vertically and factors dividing one another, planes as described by plane_ok, and, if no tile is kept, no row window and no request to leave out the colour transform. Missing: several tiles. Every further condition is needed: C83_signed_refuted, C83_shallow_refuted, C83_requests_ignored_refuted, C83_height_ignored_refuted, C83_reported_width_refuted. Coefficients are integers here: the conversion of floats is not modelled."},
{"property": "C84", "status": "proved", "theorems": ["C84_batch", "C84_pool", "C84_serial", "C84_scratch", "C84_serial_scratch"], "note": "C84_batch, C84_pool, C84_serial, C84_scratch, C84_serial_scratch: any number of lanes, any code-blocks, any interleaving. The kernel's iterations are a parameter: each lane's step depends on the lane, the template argument and QW, QH and sstr only; that the redone lanes overwrite all that the interrupted lockstep left is part of this abstraction, as is sequentially consistent memory. Where blocks store their samples is C81's subject."}
]}
