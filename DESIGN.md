# Formal model of OpenHTJ2K in Rocq — design

The code under study is the C++ in `/repo` (read as text, never built).  The model lives in
`rocq/theories`.  File naming convention:

* `*Model.v`  – Gallina functions transcribing the C++ function by function; each definition
  carries a comment with file and line numbers.  No proofs.
* `*Spec.v`   – small independent specifications used in property statements (where needed).
* `*Proofs.v` – lemmas.
* `*Props.v`  – the property theorems, named after their property (`C33_round_trip`), each
  followed by `Print Assumptions` and by an `Example` showing that the hypotheses are met by a
  concrete non-trivial case.  Small areas keep their specification and lemmas in the same file.
* A theorem ending in `_partial` proves part of its property; one ending in `_refuted` proves that
  the property (or the unrestricted form of it) is false of the code as modelled.  `MANIFEST.json`
  says for each property which theorems it rests on and what is missing.

## Modelling conventions

* Bytes and machine words are `Z` (or `N`) with the wrap written explicitly (`mod 2^32`, …) wherever
  the property depends on wrapping; otherwise unbounded integers plus a range lemma that shows no
  wrap can happen.
* Buffers are `list Z`; out-of-bounds reads, null dereferences, over-long shifts, division by zero
  and non-termination are distinct outcomes of the model (`None`/`UB`/`Err…`), never defaulted.
* Loops that are not structurally recursive take fuel; running out of fuel is an outcome of its own
  and theorems exclude it.
* Hash maps are modelled as finite maps given by association lists (or functions), iteration order
  being unspecified is modelled by quantifying over it where it matters.
* Concurrency is modelled as a labelled transition system whose steps are the critical sections
  (code between lock and unlock) and the theorems quantify over all finite executions.

## Plan per property

| id | what is modelled | how it is proved |
|----|------------------|------------------|
| C01–C02 | `vbas_encode`/`vbas_decode` | induction on base-128 digits; decoder characterised against the positional-notation spec |
| C03–C04 | bin-id, dependent/independent headers, context | per-field round trip, induction on the message list; prefix monotonicity of every sub-decoder |
| C05, C08 | `append_message`, `emit_*`, `parse_jpp_stream` | induction over the split loop; context invariant |
| C06 | `try_decode_one_message`, `StreamingJppParser::feed` | prefix monotonicity, then induction over chunks |
| C07, C09 | `DataBinSet` | invariant over message lists; the completeness half of C09 is expected to be refuted |
| C10–C11 | `CacheModel` | operation-list simulation against an abstract map; ids ≥ 2^56 refuted |
| C12–C13 | `ChannelManager` | state invariant over all operation lists |
| C14 | `CodestreamIndex`, `decompose_precinct_I` | mixed-radix arithmetic |
| C15 | `pick_discard_level` | induction over the level loop, optimality |
| C16 | `walk_codestream` | termination measure, interval invariants |
| C17 | chunk formatting and both decoders | hex round trip, induction on chunks, then on cuts |
| C18–C19 | query formatter/parser, response formatter | decimal round trip; buffer bound refuted for long strings |
| C20–C21 | colour transforms | arithmetic (`lia`), lists |
| C22–C23 | 5/3 lifting with boundary extension | lifting inversion lemma on functions `Z → Z`, then arrays; induction over levels |
| C24–C25 | streaming state machines, abstract row type | ring-buffer invariant, generic in the row arithmetic |
| C26–C28 | MagSgn, MEL, VLC coders | bit-list refinement, induction |
| C29 | codeword tables | complete finite sweep by `vm_compute`, lifted to all trailing bits |
| C30 | block coder | composition of C26–C29 with context equality invariant |
| C31 | `htj2k_dec_setup` | arithmetic |
| C32–C35 | packet header bit writer/reader, tag tree, header generate/parse | refinement to bit lists; C34 refuted |
| C36, C44 | codestream memory source/destination | op-list invariant; wrap cases refuted |
| C37 | JPH box scan and writers | fuel-free termination, interval invariant, round trip |
| C38 | MQ decoder | register invariant over decode sequences |
| C39, C43 | thread pool, latest slot | transition systems, invariants over all executions |
| C40 | buffer cache | op-list invariant |
| C41–C42 | RTP parsing and frame assembly | arithmetic; history invariant |
| C45 | `negotiate_transport` | token list equivalence |
| C46 | quantiser / dequantiser, reversible path | bit arithmetic |
| C47–C48 | `resolve_view_window` | set of precincts compared with an independent geometric specification; margin lemma per level |
| C49 | MEL/VLC/MagSgn assembly into one cleanup segment | offsets arithmetic on top of C26–C28 |
| C50 | encoder buffer capacities | worst-case bit counts per quad, summed; refuted at 30 planes |
| C51 | cleanup decoding on hostile bytes | total functions with checked accesses; step 2 refuted |
| C52 | `fetch_streaming` | induction over recv results; early close refuted |
| C53 | MQ decoder against the standard's DECODE/RENORMD/BYTEIN | register correspondence, step by step simulation |
| C54 | `reset_for_next_frame` | shape invariant of parsing; parsing is blind to spare capacity |
| C55 | packet headers on hostile bytes | invariant over any bit source; mixed mode refuted |
| C56 | inclusion over layers | simulation with the standard's tag-tree decoder; empty packets refuted |
| C57 | `reassemble_codestream_client`, `patch_cod_to_lrcp` | compared with an LRCP packet list over the index; several layers refuted |
| C58 | server pipeline: walker, packet locator, data-bins, JPP stream, re-assembly | composition of C05, C13, C16 with a locator invariant |
| C59 | packet sequencing of `create_tile_buf` (all six orders, POC), tile and resolution geometry, 32-bit arithmetic | equal to the dense nested loops of B.12, first occurrences; running counters tied to precinct numbers by an invariant over the remaining positions |
| C60 | recording and replay of the traversal (`cached_crp_`) | the narrowed record is exact within its ranges |
| C61 | tile, resolution, subband, precinct and code-block regions, buffer offsets, 32-bit arithmetic | every cut is a set of cells of an interval; nested ceilings; products of the two axes |
| C62 | row addresses of the encoder's copy | linear arithmetic; two refutations |
| C63 | all main-header segment readers and writers, the encoder's checks and header assembly, the reader's queries | each writer's bytes lie where its reader looks; induction over the list of segments |
| C64 | the same readers over checked memory | every field read is bounded by the segment; the result is shown equal for all paddings by induction on the bytes left; one refutation |
| C65 | header state kept between parses (pointers survive, lists are cleared) | simulation of the run on a new object; two refutations |
| C66 | the encoder's colour switch | case analysis; refuted for 4:2:2 and four components |
| C67 | segments of a contribution | the standard's grouping and codewords as a separate specification; induction over runs of passes in step with the code's alternation; more than 128 passes refuted |
| C68 | the tile-part walk of the decoder (`TileModel.v`) | a separate description of tile-parts as bytes (`TileSpec.v`); each segment's round trip, then induction over header segments and over tile-parts; cut and length-0 last tile-parts |
| C69 | the same on any bytes | invariant: position inside the input, result independent of what follows; induction on the bytes left |
| C70 | size computation and writing of the encoder's tile-parts | sum over a permutation of the precincts; composed with C63 and C68; several layers refuted |
| C71 | the set-up of tile-components from the two headers (`ParamModel.v`) | the standard's order of precedence as a function on lists of segments (`ParamSpec.v`); each loop equals "last match"; then cases; four refutations |
| C72 | the same, down to the exponent, mantissa and M_b of each subband | index arithmetic over all levels and bands, arithmetic of the value fields |
| C73 | fingerprint and cached tile (`ReuseModel.v`) | FNV-1a is injective in its state and in each byte; the mixed words determine the headers; invariant over histories of frames; six refutations |
| C74 | size, level and reduction queries (`OutModel.v`) | arithmetic; induction over the component loop of `get_minimum_DWT_levels`; four refutations |
| C75 | `invoke_line_based` and `decode_line_based`: sizes, offsets, strides and every store into the caller's arrays (`OutModel.v`, specification `OutSpec.v`) | invariant over rows, components and tiles; each sample lies in exactly one tile and has its own address; four refutations |
| C76 | `invoke_line_based_stream` and `decode_line_based_stream`: strips, row counts, windows, the band accumulator (`StripModel.v`, specification `StripSpec.v`) | invariant over strips relating each component's cursor to the first row of the strip; invariants over tile rows and columns; six refutations |
| C77 | all of `block_decoding.cpp`: the sigma-context broadcast, the five passes, pass order, bypass, restarts, segment ends (`PassModel.v`; Annex D as functions on a coefficient array in `PassSpec.v`) | refinement: a relation between the packed byte arrays and the coefficients kept by each sample step, each stripe column, each pass and each segment; totality of the specification over the MQ decoder's modes (C53); two refutations |
| C78 | `block_dequant.cpp` after C77's passes (`DequantModel.v`) | invariant of Annex D's passes: magnitudes are multiples of the last decoded plane (`PassLow.v`); then exact division, error bound by rounding analysis; six refutations |
| C79 | SigProp and MagRef of `ht_block_decoding.cpp` and their bit readers (`RefineModel.v`) | T.814's passes on coefficients (`RefineSpec.v`); refinement cell by cell, then groups and stripes (`RefineSim.v`) |
| C80 | `j2k_codeblock::dequantize` of `ht_block_decoding.cpp`, reversible branch, after C79's passes (`HtDequantModel.v`) | C79 for the samples, exact division by cases on the last decoded plane; fill of the rectangle as in C78 |
| C81 | `j2k_subband_row_buf` (`RowBufModel.v`): strips, prefetch, swap, block list cache, pool as single stores in any order; frame changes and exceptions | Invariant over histories: the half handed out holds the strip, every pending store lies in the other half and the stores pending or done give the next strip's values; the code-block geometry of C61 supplies the hypotheses |
| C82 | `set_line_decode_col_range`, `set_line_decode_row_range`, the range kernels, `idwt_level_src_fn`, column-limited vertical steps, the column range across frames (`WindowModel.v`), any sample arithmetic | every kernel equals the lifting of the reflected row wherever its clipped loops cover what a column needs; vertical machine by C25's theorem, column by column; induction over levels with the reach of one level (4 columns, 4 rows) |
| C83 | `invoke_line_based_direct`, `decode_line_based_stream_planar` and the narrowing kernels of three builds (`DirectModel.v`, specification `DirectSpec.v`) | the kernels equal the scalar clamp and shift column by column; the rows of C76 place each sample; invariant over strips and rows for the fused path; five refutations |
| C84 | `htj2k_decode_batch`, `build_par_groups`, `run_par_group`, the serial runs and the scratch offsets (`BatchModel.v`, specification `BatchSpec.v`), over any lane machine | lockstep equals the lanes one by one by induction over iterations; induction over groups; any interleaving permutes the tasks' steps, each task counting down last; offsets by induction over the tasks |

## Trusted base

* Coq 8.16.1's kernel (`coqc`, re-checked by `coqchk` in the gate) and its `vm_compute`.
* Axioms: none.  `Print Assumptions` answers "Closed under the global context" for every theorem
  listed in `MANIFEST.json`.  Only the standard library is imported.
* The transcription from C++ to Gallina, which is by hand.  Each definition cites the lines it
  transcribes and says where it simplifies.
* The reading of C++: 32- and 64-bit two's complement, `size_t` of 64 bits, asserts compiled out,
  IEEE binary32 for `float` with round to nearest even.
* The specifications in `*Spec.v` and in the head of the `*Props.v` files.  The standard's
  procedures there (tag trees, arithmetic decoder, lifting) were written from the published
  standards' text, not from the code.
* Not trusted, but a limit of what is said: the model is of the portable scalar build.  The SIMD
  variants (AVX2, AVX-512, NEON, WASM) are separate code and are not covered.

## What is modelled and what is not

| area (files in `/repo/source`) | modelled | not modelled |
|---|---|---|
| `core/jpip/vbas`, `jpp_message`, `jpp_parser`, `data_bin_emitter` | all | logging |
| `core/jpip/cache_model`, `channel_manager` | all | locking (single caller, as in the server), random channel ids are an input |
| `core/jpip/precinct_index`, `view_window` | all but marker parsing | construction from the encoder's own structures is taken as numbers |
| `core/jpip/codestream_walker` | all | – |
| `core/jpip/jpip_request`, `jpip_response`, client formatting | all | HTTP/3 (`h3_*`), TLS |
| `core/jpip/jpip_client` | `fetch_streaming`, chunk decoder | sockets are lists of what `recv` returns |
| `core/jpip/codestream_assembler`, `packet_locator` | all, the locator from the list of the observer's calls | the decoder run that produces those calls |
| `core/transform/color`, sample finalisation | scalar reversible and irreversible | SIMD, tables |
| `core/transform/finalize_narrow.hpp` | the scalar, AVX2 and NEON kernels, lane by lane (`DirectModel.v`) | float to integer conversion: coefficients are integers |
| `core/transform/fdwt`, `idwt`, `dwt.hpp` | 5/3 on integers; streaming machines for any row arithmetic; multi-level pipeline; column and row ranges for any sample arithmetic (`WindowModel.v`) | 9/7 arithmetic as floats, SIMD, overflow of 32-bit sums |
| `core/coding/ht_block_encoding`, `ht_block_decoding` | cleanup pass, all three streams, tables, setup, SigProp and MagRef passes (`RefineModel.v`), reversible dequantisation (`HtDequantModel.v`) | irreversible dequantisation (floats), SIMD |
| `core/coding/mq_decoder` | all of the default build | SIMD |
| `core/coding/block_decoding` | all of the default build | stripe count held in 16 bits (code-block height is at most 1024) |
| `core/coding/block_dequant` | all of the default build, float conversion included | the float computation of the fixed-point scale (a parameter), SIMD |
| `core/coding/coding_units` | packet headers, precinct reset, tile-part chain, sample finalisation, packet sequencing and its replay, tile, resolution, subband, precinct and code-block geometry, the encoder's sample addresses, parameter and quantisation set-up of tile-components and subbands (`ParamModel.v`) | step sizes as floats, DFS, packet bodies, rate control |
| `core/codestream/codestream.hpp` | memory source, memory sink, buffer chain, packet-header writer, tag trees | file source and sink |
| `core/codestream/j2kmarkers` | `MarkerModel.v`: reading of every main-header segment (SIZ CAP PRF CPF COD COC QCD QCC RGN POC PPM TLM PLM CRG COM DFS ATK, unknown ones), main header assembly and writing, all queries used by the decoder; `TileModel.v`: tile-part headers, the walk over tile-parts, the encoder's tile-part writer | the step-word formulas, `printf` |
| `core/interface/decoder` | `ReuseModel.v`: fingerprint and cached tile of the reuse entry points; header reuse and queries with `MarkerModel.v`; `OutModel.v`: size and level queries, `invoke_line_based` with the tile's row loop; `StripModel.v`: `invoke_line_based_stream` with the strip loop; `DirectModel.v`: `invoke_line_based_direct` with the planar strip loop | the other planar entry points |
| `core/jph` | box scan and writers | colour profiles' contents |
| `core/coding/subband_row_buf` | ring mode with thread support (`RowBufModel.v`); block decoders are what they store; groups, runs and scratch offsets (`BatchModel.v`) | column window, get_row |
| `core/common/ThreadPool.hpp`, `utils.hpp` | pool, aligned buffer cache | – |
| `apps/rtp_recv` | RTP and payload parsers, frame handler, latest slot | rendering, colour pipeline, sockets |
| `apps/*`, `web`, `thirdparty` | – | all |

## Findings

Claims that turned out to be false of the code, each with a machine-checked counterexample unless
marked "(read)", which means seen in the source and not modelled.

JPIP
1. `DataBinSet::append` creates an entry even when it rejects the message.
2. `parse_jpp_stream` into a set that already has its end-of-response stops after one message;
   the streaming parser's result then depends on the chunking (C06).
3. `merge_from` can lose completeness (`C09_merge_completeness_refuted`).
4. `CacheModel` keys alias for identifiers from 2^56 (C10); `P-1` wraps and marks up to 2^22 bins;
   serialisation drops byte counts of complete bins and other classes (C11).
5. `ChannelManager` with a limit of 0 erases `end()` (C12).
6. `format_jpp_response` uses `snprintf`'s return value as a length: a 245-character target name
   reads past the buffer (`C19_long_name_refuted`); an empty Content-Length is read past the end
   (`C19_empty_length_refuted`).
7. `walk_codestream`: `Psot = 0` swallows the EOC marker; a small `Psot` gives a negative body (C16).
8. `resolve_view_window`: 32-bit wrap for far offsets, duplicates, no margin at the top resolution
   (`C47_*_refuted`, `C48_top_resolution_refuted`).
9. `parse_jpip_query` narrows out-of-range numbers silently (`C18_out_of_range_refuted`).
10. `decompose_precinct_I` truncates large identifiers; 32 levels shift by 32; a zero tile size
    divides by zero (`C14_*_refuted`).
11. The client's chunk decoder accepts sizes that overflow (`C17_overlong_size_refuted`); its streaming form refuses
    a conforming message with trailer fields that its batch form reads (`C17_trailer_refuted`).
12. `fetch_streaming` reports success when the peer closes early at a message boundary
    (`C52_early_close_refuted`).
    The client's re-assembly repeats the whole tile for each quality layer
    (`C57_two_layers_refuted`) and puts a bin with an identifier beyond the numbering into another
    precinct's place (`C57_alias_refuted`); a COD in a tile header keeps its progression order (read).
13. `DataBinSet`'s key ignores the codestream number (read).

Codestream
14. An empty tile-part dereferences a null pointer (`C35_however_sized_refuted`).
15. A packet header cut short never ends (`C34_truncated_refuted`).
16. A block first included after two empty packets is missed (`C56_empty_packets_refuted`); blocks
    with more than 128 passes are refused (`C67_pass_limit_refuted`).
    With two or more quality layers the encoder announces each packet once and writes it once per
    layer: heap buffer overrun with output in memory, short lengths in a file (`C70_layers_refuted`).
    A cut stream with a length-0 last tile-part is refused (`C68_open_cut_refuted`); a `Psot` below
    the header's length swallows the rest (`C69_short_psot_refuted`); an empty PPT is taken to hold
    65535 bytes (`C69_empty_ppt_refuted`); headers without COD or with a zero tile size are accepted
    and then dereferenced or divided by (`C69_header_gaps_refuted`). A tile without any tile-part
    reads the first element of an empty vector (coding_units.cpp:4102), and a product of tile counts
    that wraps to a small number passes the limit of 65535 (read).
17. Mixed HT / non-HT components: shift by 32 on hostile lengths (`C55_mixed_refuted`), and a reused
    decoder forgets that a block may be HT (`C54_mixed_refuted`).
18. `j2c_src_memory` with length 0 wraps its bound; skipping can move backwards
    (`C36_empty_refuted`, `C36_skip_refuted`).
19. JPH boxes of 4 GiB wrap their length (`C37_4GiB_refuted`); `ihdr` ignores differing signedness (read).
20. `tile_part::read` subtracts from `Psot` without a check (read); marker `get_byte` lets two bytes
    past the segment through and `get_word`'s two reads are unsequenced (read).
    Position orders divide by zero or shift by 32 when a projected precinct size needs more than 32
    bits (`C59_projection_refuted`); a CEpoc of 0 is taken as "no component" instead of all
    (`C59_ce_zero_refuted`); with more than 256 components a reused decoder replays the wrong
    components (`C60_many_components_refuted`).
    Coordinates near 2^32 wrap the precinct counts (`C61_far_refuted`).  The encoder takes subsampled
    components of odd width with the wrong row distance and, away from the origin, from before the
    array (`C62_odd_width_refuted`, `C62_origin_refuted`).
    A PPM segment of length 2 makes the reader copy 65535 bytes from behind it
    (`C64_empty_ppm_refuted`).  10922 or more tiles wrap the length of the encoder's TLM segment
    (`C63_many_tiles_refuted`); a tile of 65536x65536 counts as "no tile size" (`C63_big_tile_refuted`).
    A reused decoder keeps POC, CAP, CPF and CRG of earlier frames (`C65_stale_refuted`) and accepts
    component segments before SIZ (`C65_accepts_refuted`).  The colour transform stays on for 4:2:2
    and is done with the first component's dimensions on the smaller ones (`C66_color_sizes_refuted`).
21. `put_lblock` reaches the sign bit for segments of 2^29 bytes or more (C33 excludes them).

Block coding
22. Encoder buffers are not checked: 30 planes overflow them (`C50_30_planes_refuted`).
23. 31 and more planes are encoded but refused by the decoder (`C30_31_planes_refuted`).
24. Cleanup step 2 shifts by 32 or more on hostile streams (`C51_step2_refuted`).
25. The arithmetic decoder's C register overflows on hostile segments (`C38_overflow_refuted`).

Transforms
26. Reversible colour decoding through `float` is not lossless from 25 bits (C21).
27. `idwt_rev_ver_sr_fixed` mishandles a single even row (C25); the encoder with zero width and
    non-zero rows reads outside its rows.

Concurrency and streaming
28. `ThreadPool::push_batch` that overflows mid-batch queues tasks and notifies nobody
    (`C39_overflow_refuted`); the destructor may return while a client still runs a task (C39).
29. `LatestSlot`: a stop between test and sleep is missed (`C43_stop_missed_refuted`).
30. RTP: a main header split over packets is not cached whole (`C42_split_header_refuted`); joining
    late emits a frame without header (`C42_late_join_refuted`).
    A tile COD does not override a main COC, and a tile COC or RGN for one component hides the main
    header's for all others (`C71_tile_cod_refuted`, `C71_other_coc_refuted`,
    `C71_other_rgn_refuted`); 32 levels in a COC count as none (`C71_levels_refuted`) and a COC of
    fewer than five bytes is read beyond its end (`C71_short_coc_refuted`).  Short or unfit QCD/QCC
    values are read beyond their end (`C72_short_qcd_refuted`, `C72_mismatch_refuted`), legal ones too
    when a tile COD asks for more levels (`C72_more_levels_refuted`); a derived exponent below 0 is a
    shift by more than 31 (`C72_negative_refuted`).
    The reuse fingerprint leaves out QCD values after the first, contents of COC/QCC/RGN and tile-part
    headers: stale structures (`C73_quant_refuted`, `C73_component_refuted`,
    `C73_tile_header_refuted`, `C73_roi_refuted`).  If decoding rows throws, for instance in the
    caller's callback, the tile is replaced and the fingerprint is not: the next frame can run on a
    structure of another image size (`C73_rows_throw_refuted`).  A frame without tile-parts is a null
    pointer (`C73_no_parts_refuted`).
    `get_minimum_DWT_levels` (called by every decode) indexes the COC list by position: read beyond its
    end unless the last component has a COC (`C74_coc_for_first_refuted`), segments out of order are
    missed (`C74_coc_order_refuted`).  Component sizes are reported as ceil((X-XO)/XR)
    (`C74_component_size_refuted`).
    `invoke_line_based`: only as many rows as component 0 has are fetched, so a component finer than
    it keeps indeterminate rows (`C75_finer_component_refuted`); an image origin that is no multiple of
    2^r leaves an indeterminate column or row (`C75_extra_column_refuted`); arrays of 2^32 elements
    or more are allocated modulo 2^32 and overrun (`C75_large_image_refuted`); a colour transform over
    components of different sizes reads rows that do not exist (`C75_colour_transform_refuted`).
    `invoke_line_based_stream`: row counts of more than 16 components are written past an array of 16
    (`C76_many_components_refuted`); rows are matched to components by YRsiz as if component 0 had
    YRsiz 1 (`C76_subsampled_first_refuted`); factors that do not divide the strip height lose a row
    per strip (`C76_uneven_factors_refuted`); a window from a row between two rows of a subsampled
    component starts it with zeros (`C76_odd_window_refuted`); with several tile columns vertical
    subsampling is applied twice (`C76_tile_columns_refuted`); the window is applied to each tile
    (`C76_window_per_tile_refuted`).
    Part 1 code-blocks: the number of zero bit-planes and of passes read from packet headers is not
    held against M_b; with more than 31 bit-planes, or a pass below bit-plane 0, the pass shifts by a
    negative or wrapped amount (`C77_deep_block_refuted`, `C77_too_many_passes_refuted`).
    Dequantisation of Part 1 blocks: M_b = 31 is a shift by 32 (`C78_31_bits_refuted`); region-of-interest
    coefficients with bits below the unit are rounded towards minus infinity, so +1.5 gives 1 and -1.5
    gives -2 (`C78_region_low_bits_refuted`); coefficients between region and background overflow
    (`C78_region_gap_refuted`); large step sizes overflow the product (`C78_large_step_refuted`); as
    floats, reversible coefficients over 24 bits change (`C78_float_refuted`).
    Refinement of HT blocks: a cleanup segment that marks padding samples significant leaves states in
    the border that the SigProp pass then counts as neighbours (`C79_padding_refuted`).
    Dequantisation of HT blocks: M_b = 31 is a shift by 32 (`C80_31_bits_refuted`); background that
    reaches into the region of interest overflows (`C80_region_gap_refuted`).
    Row buffers: if a subband does not start at a multiple of the code-block height (a tile that starts at
    row 500, say) and is higher than that, strips cut code-blocks, and these are stored over the other
    half or before the allocation, with one thread as with many (`C81_unaligned_refuted`); the surplus row
    of an odd code-block above a precinct boundary can be stored after the code-block below it
    (`C81_thin_precincts_refuted`); a failure found by a prefetch nobody read makes a later frame without
    code-blocks fail (`C81_stale_error_refuted`).
    Column windows: on a decoder that keeps its buffers, a request for all columns after one for a few is
    decoded with the old range (`C82_stale_window_refuted`); a range with an open end, 2^32 - 1, becomes
    empty (`C82_open_window_refuted`); the range is not divided for subsampled components
    (`C82_subsampled_refuted`) and counts from the canvas, not from the first column delivered
    (`C82_offset_refuted`).
    Planes: negative samples of a signed 8-bit component are stored as 0 in full vector groups and modulo
    256 in the left-over columns (`C83_signed_refuted`); NEON scales samples of fewer than 8 bits in full
    groups only (`C83_shallow_refuted`); with a tile kept, the row limit and the request to leave out
    the colour transform are ignored (`C83_requests_ignored_refuted`) and so is the height of the plane
    (`C83_height_ignored_refuted`); at reduced resolution the width reported can exceed the component's
    by one, and the row is then read past its end (`C83_reported_width_refuted`). The receiver derives the
    row factor as luma height divided by the plane's height (`apps/rtp_recv/decode_helpers.cpp:471`); for
    an odd luma height such as 5 over 3 this is 1, not 2 (read, not modelled).
