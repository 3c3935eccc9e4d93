{"claims": [
{"property": "C01", "status": "proved", "theorems": ["deflate_roundtrip", "deflate_packed_roundtrip"], "note": "data below 2^32-1 bytes (u32 symbol counters); any priority queue; the f64 block-cost estimator is any estimator whose comparison never fails"},
{"property": "C02", "status": "proved", "theorems": ["deflate_zlib_roundtrip", "deflate_zlib_packed_roundtrip"], "note": "same bounds as C01; checksum computed by the scalar code or NEON; for x86 vector code see C69 and C70"},
{"property": "C03", "status": "proved", "theorems": ["packed_token_roundtrip", "lz77_packed_agrees", "packed_writers_agree"], "note": ""},
{"property": "C04", "status": "proved", "theorems": ["deflate_stored_roundtrip", "deflate_stored_length", "deflate_stored_empty_refuted"], "note": "the refuted theorem records that the empty input gives an invalid stream"},
{"property": "C05", "status": "proved", "theorems": ["deflater_reuse", "pool_history_irrelevant", "lz77_history_irrelevant"], "note": "any compressor state, any pool; checksum computed by the scalar code or NEON; for x86 vector code see C69 and C70"},
{"property": "C06", "status": "proved", "theorems": ["deflate_optimal_roundtrip", "deflate_optimal_split_roundtrip", "deflate_optimal_zlib_roundtrip", "deflate_optimal_split_zlib_roundtrip", "png_compressor_optimal"], "note": "f32 arithmetic modelled exactly, log2 any function with finite values in 0..32; inputs below 2^32/3 - 1 bytes. png_compressor_optimal makes the PNG theorems hold with optimal compression.; checksum computed by the scalar code or NEON; for x86 vector code see C69 and C70"},
{"property": "C07", "status": "proved", "theorems": ["block_splitting_transparent", "encoder_splitting_transparent"], "note": ""},
{"property": "C08", "status": "proved", "theorems": ["lz77_tokens_expand", "lz77_tokens_legal"], "note": "any configuration, any left-over tables; scalar match_length, which C68 shows equal to the vector ones"},
{"property": "C09", "status": "proved", "theorems": ["huffman_codes_valid", "huffman_total_2_32_refuted"], "note": "for totals below 2^32; any priority queue. The refuted theorem shows the u32 sum overflows at 2^32"},
{"property": "C10", "status": "proved", "theorems": ["canonical_prefix_free", "decoder_decodes_canonical", "canonical_codes_correct"], "note": ""},
{"property": "C100", "status": "partial", "theorems": ["restart_markers_partial", "restart_markers_never", "restart_markers_refuted"], "note": "False of the code for progressive files, which have no restart markers. Proved for baseline files."},
{"property": "C101", "status": "proved", "theorems": ["gray_files_unsampled", "tables_keep_picture"], "note": ""},
{"property": "C102", "status": "partial", "theorems": ["pixo_progressive_scans_partial", "trellis_option_refuted"], "note": "False of the code for baseline files, where the option is ignored. Progressive files use the quantiser asked for."},
{"property": "C103", "status": "partial", "theorems": ["trellis_optimal_refuted", "trellis_keeps"], "note": "False of the code: the search keeps eight states and can miss even plain rounding. Proved instead: every value is zero or within two steps of the exact coefficient."},
{"property": "C104", "status": "partial", "theorems": ["dc_first_scan_partial", "dc_refine_scan_partial", "ac_first_scan_partial", "ac_refine_scan_partial", "dc_first_scan_refuted", "dc_refine_scan_refuted", "ac_first_scan_refuted", "ac_refine_scan_refuted"], "note": "False of the code in general (refuted for each of the four scan kinds); proved under the stated restrictions on the coefficients."},
{"property": "C105", "status": "proved", "theorems": ["scripts_send_everything", "scripts_have_bands", "simple_scans_are_first_scans"], "note": ""},
{"property": "C106", "status": "proved", "theorems": ["avx_row_converts", "avx_row_near_scalar", "avx_row_bt601"], "note": ""},
{"property": "C107", "status": "proved", "theorems": ["resize_threads", "filter_threads", "jpeg_threads"], "note": ""},
{"property": "C108", "status": "partial", "theorems": ["lanczos_mean_refuted", "lanczos_enlarge_partial"], "note": "False of the code: the sample at the centre gets a third of its weight. Proved: enlargements of lines of up to 262144 samples are within one level of the average."},
{"property": "C109", "status": "partial", "theorems": ["lanczos_flat_partial", "lanczos_flat_refuted"], "note": "False of the code for lines longer than 2^23: the last pixel of a white line of 8388610 pixels turns black. Proved for sides up to 262144; between 262144 and 2^23 it is open, except for resizing to the same size (resize_same_size)."},
{"property": "C11", "status": "proved", "theorems": ["code_length_rle_roundtrip"], "note": "lists shorter than 2^32"},
{"property": "C110", "status": "partial", "theorems": ["adaptive_quality_refuted", "adaptive_keeps_partial", "adaptive_above_panics"], "note": "False of the code: lambda weighs the error, so a higher quality quantises more coarsely. Proved: every quality up to 100 works and keeps or drops coefficients as the plain trellis does."},
{"property": "C111", "status": "proved", "theorems": ["packed_runs_compress", "enum_runs_compress", "zlib_runs_compress", "zlib_packed_runs_compress", "incompressible_shortcut"], "note": "constants 600 (packed), 4400 (packed zlib) and 9000 (with block splitting)"},
{"property": "C112", "status": "proved", "theorems": ["wasm_resize_accepts", "wasm_resize_same", "wasm_resize_bad_codes", "preset_lossless_keeps", "preset_lossy_few_colours", "preset_same_as_wasm"], "note": "bilinear sizes as in C57; the result of preset 0 is byte exact"},
{"property": "C113", "status": "partial", "theorems": ["crc32_hw_is_crc32c", "crc32_hw_is_png_crc_refuted"], "note": "False of the code as documented: it is CRC-32C (proved for all data), not the CRC-32 of PNG; the routine is not called"},
{"property": "C114", "status": "partial", "theorems": ["idct_f32_partial", "idct_f32_exact_refuted"], "note": "False of the code: wrong by more than 3 levels for a single coefficient; the part that holds is an error of at most 0.65% of the sum of magnitudes (rounded up to a power of two)"},
{"property": "C115", "status": "proved", "theorems": ["nearest_enlarge", "nearest_reduce", "nearest_there_and_back", "nearest_enlarge_twice", "nearest_reduce_any"], "note": "sides below 2^20; reducing: up to 2^23"},
{"property": "C116", "status": "proved", "theorems": ["gray_picture_as_rgb"], "note": "baseline, at most one restart interval (C36)"},
{"property": "C117", "status": "proved", "theorems": ["bilinear_keeps_grid", "bilinear_corners", "bilinear_there_and_back"], "note": "width plus height at most 8192"},
{"property": "C118", "status": "proved", "theorems": ["resize_monotone", "resize_channels"], "note": "Lanczos has negative weights, so nothing of the kind is claimed of it"},
{"property": "C119", "status": "proved", "theorems": ["jpeg_changes_stay_local"], "note": "baseline, at most one restart interval (C36)"},
{"property": "C12", "status": "proved", "theorems": ["length_symbols_rfc", "distance_symbols_rfc"], "note": ""},
{"property": "C120", "status": "proved", "theorems": ["jpeg_squares_alike"], "note": "baseline, at most one restart interval (C36)"},
{"property": "C121", "status": "proved", "theorems": ["nearest_rows_and_columns", "bilinear_rows_and_columns"], "note": "bilinear: width plus height at most 8192"},
{"property": "C122", "status": "proved", "theorems": ["resize_by_channel"], "note": ""},
{"property": "C123", "status": "partial", "theorems": ["nearest_mirror_refuted", "nearest_mirror_enlarge_partial", "nearest_mirror_reduce_partial", "nearest_mirror_even"], "note": "False of the code: positions half way between two pixels are rounded to the right, so every even part of the width fails (nearest_mirror_even). Proved for enlarging by whole factors (sides below 2^20) and reducing by odd factors (up to 2^23)."},
{"property": "C13", "status": "proved", "theorems": ["adler32_correct", "adler32_release_correct"], "note": "scalar code; the vector versions are the subject of C69"},
{"property": "C14", "status": "proved", "theorems": ["crc32_correct", "crc32_fallback_correct", "crc32_incremental"], "note": ""},
{"property": "C15", "status": "proved", "theorems": ["png_corrupt_byte_detected", "crc32_detects_byte", "crc32_detects_burst"], "note": "type, data and CRC field of every chunk up to and including IEND, in any file"},
{"property": "C16", "status": "proved", "theorems": ["inflate_never_panics", "inflate_zlib_never_panics", "inflate_decodes_deflate", "inflate_accepts_only_blocks", "deflate_denotation_unique"], "note": ""},
{"property": "C17", "status": "proved", "theorems": ["zlib_accepted_consistent", "zlib_stream_decodes", "zlib_trailer_detected", "zlib_trailing_garbage_accepted_refuted"], "note": "the refuted theorem records that bytes after the final block are ignored"},
{"property": "C18", "status": "proved", "theorems": ["bitwriter_roundtrip", "bitwriter_bytes", "bitwriter64_roundtrip", "bitwriter64_width32_refuted"], "note": "width 32 fails for BitWriter64"},
{"property": "C19", "status": "proved", "theorems": ["msb_writer_stuffing", "msb_writer_reader"], "note": "Every sequence of writes (width 0..=32) and flushes; reading back for fields of at most 25 bits, the reader's limit."},
{"property": "C20", "status": "proved", "theorems": ["png_lossless", "png_compressor"], "note": "all colour types, levels and filter strategies, sequential and parallel. Scanline data below 2^32-1 bytes (u32 symbol counters); compressor condition comp_ok met by the standard compressor (png_compressor).; checksum computed by the scalar code or NEON; for x86 vector code see C69 and C70"},
{"property": "C21", "status": "proved", "theorems": ["png_filters_invertible", "png_any_filters_undone", "png_filters_standard"], "note": ""},
{"property": "C22", "status": "proved", "theorems": ["png_reduction_keeps_pixels"], "note": "end to end through encoder and decoder, all option combinations, with the exception stated in the property. Scanline data below 2^32-1 bytes (u32 symbol counters); compressor condition comp_ok met by the standard compressor (png_compressor)."},
{"property": "C23", "status": "proved", "theorems": ["png_palette_order"], "note": "images below 2^30 pixels (u32 counters in the co-occurrence matrix)"},
{"property": "C24", "status": "partial", "theorems": ["png_gray_depth_refuted", "png_gray_depth_loses", "png_reduction_keeps_pixels"], "note": "as stated the property is false of the code: refuted with a 2x1 image; png_gray_depth_loses shows it fails for every affected image, png_reduction_keeps_pixels that it holds for all others"},
{"property": "C25", "status": "proved", "theorems": ["png_pack_unpack", "png_unpack_standard"], "note": ""},
{"property": "C26", "status": "proved", "theorems": ["png_alpha_optimisation", "png_reduction_keeps_pixels"], "note": ""},
{"property": "C27", "status": "proved", "theorems": ["png_structure", "png_indexed_roundtrip"], "note": "png_layout is the chunk grammar; includes quantised and indexed files. Scanline data below 2^32-1 bytes (u32 symbol counters); compressor condition comp_ok met by the standard compressor (png_compressor)."},
{"property": "C28", "status": "proved", "theorems": ["png_rejects_exactly", "png_reject_keeps_buffer", "png_accepts_iff"], "note": "PNG encoder; the JPEG part is C50. Scanline data below 2^32-1 bytes (u32 symbol counters); compressor condition comp_ok met by the standard compressor (png_compressor)."},
{"property": "C29", "status": "proved", "theorems": ["png_buffer_independent", "png_indexed_buffer_independent", "jpeg_buffer_independent", "resize_buffer_reuse"], "note": "PNG, JPEG and resize"},
{"property": "C30", "status": "proved", "theorems": ["png_strip_keeps_image"], "note": ""},
{"property": "C31", "status": "proved", "theorems": ["png_decoder_total"], "note": ""},
{"property": "C32", "status": "proved", "theorems": ["quantizer_wellformed", "png_quantized_selects", "png_quantized_colours", "png_quantized_exact"], "note": "f32 arithmetic and the order of ties in the unstable sort are arbitrary parameters"},
{"property": "C33", "status": "proved", "theorems": ["jpeg_entropy_lossless", "jpeg_entropy_lossless_standard", "jpeg_zigzag_lossless", "jpeg_baseline_file", "jpeg_file_roundtrip", "pixo_baseline_file", "pixo_file_roundtrip"], "note": "Block sequences of any length with standard tables or any tables that pass tabs_ok and have the needed symbols; at the API the tables the encoder picks (standard or optimised) always do. pixo_*: with the model of the encoder's own f32 transform."},
{"property": "C34", "status": "proved", "theorems": ["optimised_tables_valid", "optimised_tables_256_refuted"], "note": "At most 255 counted symbols; at 256 the u8 length counter overflows (unreachable from the encoder)."},
{"property": "C35", "status": "partial", "theorems": ["decode_jpeg_total_partial", "decode_jpeg_panic_causes_partial", "decode_jpeg_total_refuted", "decode_jpeg_overflow_refuted", "decode_jpeg_category_refuted"], "note": "False of the code: concrete byte strings make decode_jpeg panic. Proved: it always ends; no byte string makes the marker parsing before a scan panic; and every panic comes from a scan before any frame, or from a block the scan reaches with a DC category above 25, a DC predictor outside i32 or a dequantised coefficient above 2047."},
{"property": "C36", "status": "partial", "theorems": ["jpeg_baseline_file", "restart_roundtrip_refuted", "pixo_restart_refuted", "pixo_file_roundtrip"], "note": "False of the code: the decoder's bit reader prefetches past the restart marker. The encoder side is proved for every interval; the round trip is proved when no marker is emitted."},
{"property": "C37", "status": "partial", "theorems": ["progressive_scans_partial", "progressive_symbols_refuted", "pixo_progressive_scans_partial", "pixo_progressive_symbols_refuted"], "note": "False of the code: end-of-band runs have no code in the standard tables. Proved: every scan is the correct code of its band whenever the tables have its symbols."},
{"property": "C38", "status": "partial", "theorems": ["progressive_components_partial", "pixo_progressive_components_partial", "gray_progressive_components_refuted"], "note": "False of every gray image: its scans name components 2 and 3, which the frame does not declare. Proved for RGB images."},
{"property": "C39", "status": "partial", "theorems": ["idct_mean_partial", "idct_even_frequencies_partial", "idct_accurate_partial", "idct_accurate_refuted"], "note": "False of the code: odd frequencies vanish. Proved: on every block with coefficients up to 2047 the result is within 9/16 + M/1100 of the T.81 inverse DCT of the even frequencies alone, so blocks without odd frequencies are reconstructed; blocks with only a mean are within half a level."},
{"property": "C40", "status": "proved", "theorems": ["quant_tables_legal", "zigzag_is_permutation", "zigzag_order", "quant_tables_agree", "dequantize_inverts_order", "quant_quality_monotone", "quant_quality_50"], "note": "Every quality value and position."},
{"property": "C41", "status": "proved", "theorems": ["ycbcr_formula", "ycbcr_range", "ycbcr_gray_neutral", "ycbcr_accurate"], "note": "All byte triples, by arithmetic."},
{"property": "C42", "status": "proved", "theorems": ["magnitude_roundtrip", "magnitude_minimum_refuted"], "note": "The minimum i16 panics, as the property excludes."},
{"property": "C43", "status": "proved", "theorems": ["nearest_resize", "resize_same_size", "lanczos_resize"], "note": "size of bilinear results: C44. Lanczos identity assumes a sine within 2^-20 of the true one; nearest and Lanczos identity up to 2^23 per side"},
{"property": "C44", "status": "partial", "theorems": ["bilinear_resize_partial", "bilinear_out_of_bounds_refuted"], "note": "false of the code: a 12582914x1 grey image resized to 4x1 reads past the end and panics. Proved for sources up to 2^23 per side or unchanged sides"},
{"property": "C45", "status": "proved", "theorems": ["png_header", "png_structure", "jpeg_declares_image", "jpeg_frame_header", "pixo_declares_image"], "note": ""},
{"property": "C46", "status": "proved", "theorems": ["match_length_exact", "match_length_capped"], "note": "scalar routine"},
{"property": "C47", "status": "proved", "theorems": ["nearest_colour_minimal"], "note": "also: the first of several nearest"},
{"property": "C48", "status": "proved", "theorems": ["png_indexed_roundtrip"], "note": " Scanline data below 2^32-1 bytes (u32 symbol counters); compressor condition comp_ok met by the standard compressor (png_compressor)."},
{"property": "C49", "status": "partial", "theorems": ["png_indexed_rejects", "png_indexed_zero_size_refuted", "png_indexed_bad_index_refuted"], "note": "false of the code as stated: zero sizes and out-of-range indices are accepted"},
{"property": "C50", "status": "proved", "theorems": ["jpeg_rejects_exactly", "pixo_rejects_exactly"], "note": ""},
{"property": "C51", "status": "proved", "theorems": ["match_cache_transparent"], "note": ""},
{"property": "C52", "status": "proved", "theorems": ["optimal_parse_cheapest"], "note": "competing matches are those the search offers (held in the returned cache)"},
{"property": "C53", "status": "proved", "theorems": ["deflate_optimal_never_larger"], "note": ""},
{"property": "C54", "status": "proved", "theorems": ["decoder_colour_accurate", "colour_roundtrip"], "note": ""},
{"property": "C55", "status": "proved", "theorems": ["resize_checks"], "note": ""},
{"property": "C56", "status": "proved", "theorems": ["nearest_resize"], "note": ""},
{"property": "C57", "status": "proved", "theorems": ["bilinear_resize_partial"], "note": "quantifies over source sides up to 2^23 (beyond that see C44)"},
{"property": "C58", "status": "proved", "theorems": ["flat_resize"], "note": "bilinear: source sides up to 2^23 or unchanged"},
{"property": "C59", "status": "proved", "theorems": ["lanczos_resize"], "note": ""},
{"property": "C60", "status": "proved", "theorems": ["forward_dct_accurate"], "note": "the f32 code, which has no vector variant"},
{"property": "C61", "status": "proved", "theorems": ["quantised_coefficient_nearest"], "note": ""},
{"property": "C62", "status": "proved", "theorems": ["trellis_keeps"], "note": ""},
{"property": "C63", "status": "proved", "theorems": ["uniform_squares_kept", "flat_gray_kept", "flat_colour_kept"], "note": ""},
{"property": "C64", "status": "partial", "theorems": ["integer_dct_partial", "integer_dct_refuted"], "note": "false of the code: six of the eight columns are four times too small. Proved: no overflow, and the error bound with that factor"},
{"property": "C65", "status": "proved", "theorems": ["fast_integer_dct_same"], "note": ""},
{"property": "C66", "status": "proved", "theorems": ["integer_quantiser_nearest", "integer_quantiser_block", "integer_stages_fit"], "note": ""},
{"property": "C67", "status": "proved", "theorems": ["filters_machine_independent", "wide_paeth_same"], "note": ""},
{"property": "C68", "status": "proved", "theorems": ["score_machine_independent", "match_length_machine_independent"], "note": ""},
{"property": "C69", "status": "partial", "theorems": ["adler_machine_partial", "adler_avx2_low_half", "adler_avx2_refuted", "adler_ssse3_refuted"], "note": "false of the code on AVX2 (long data with bytes of 254 or 255) and without AVX2 (16 to 5551 bytes). Proved: scalar and NEON for all data, AVX2 below 11136 bytes or with bytes up to 253"},
{"property": "C70", "status": "partial", "theorems": ["zlib_machine_independent_partial", "zlib_ssse3_refuted", "zlib_avx2_refuted"], "note": "false of the code for the reason given at C69. Proved: the same bytes wherever the checksum is right"},
{"property": "C71", "status": "partial", "theorems": ["crc_machine_partial", "crc_pclmulqdq_refuted"], "note": "false of the code with PCLMULQDQ from 64 bytes on. Proved: below 64 bytes, and without PCLMULQDQ"},
{"property": "C72", "status": "proved", "theorems": ["dct_machine_independent"], "note": ""},
{"property": "C73", "status": "partial", "theorems": ["png_decodes_any_partial", "png_colour_key_refuted", "png_interlaced_refused"], "note": "False of the code for gray and RGB images with a tRNS chunk, whose transparent colour is ignored. Proved for all other conforming non-interlaced files; interlaced files are refused with UnsupportedDecode."},
{"property": "C74", "status": "partial", "theorems": ["jpeg_decodes_any_partial", "jpeg_single_component_refuted", "jpeg_luma_subsampled_refuted"], "note": "False of the code for one component with factors other than 1 and for a first component of less than full resolution. Proved for all other samplings whose factors divide the largest, up to the odd frequencies the inverse DCT drops (C39); dequantised coefficients up to 2047, no restart markers (C36)."},
{"property": "C75", "status": "proved", "theorems": ["jpeg_fidelity", "jpeg_fidelity_100", "dct_orthonormal"], "note": ""},
{"property": "C76", "status": "proved", "theorems": ["wasm_png_keeps_pixels", "wasm_png_lossy_few_colours", "wasm_jpeg_fidelity", "wasm_colour_codes"], "note": "The thin functions of wasm.rs; the wasm-bindgen glue is not modelled."},
{"property": "C77", "status": "proved", "theorems": ["pnm_reads", "pnm_reads_only"], "note": ""},
{"property": "C78", "status": "partial", "theorems": ["pnm_outcome_partial", "pnm_panics_refuted"], "note": "False of the code: a header whose size is 2^63 bytes or more makes the program panic (capacity overflow). Proved: it is the only cause of a panic."},
{"property": "C79", "status": "proved", "theorems": ["cli_converts_to_png", "cli_pnm_to_png_exact", "cli_converts_to_jpeg"], "note": "JPEG input files are left out (C74); preset max with JPEG output is left out (C37, C38)."},
{"property": "C80", "status": "partial", "theorems": ["cli_stdin_same_partial", "cli_stdin_large_refuted"], "note": "False of the code with overflow checks: for RGB images of 2^32 bytes or more the program panics before it writes the output. Proved for all other inputs."},
{"property": "C81", "status": "proved", "theorems": ["zlib_hardly_expands", "zlib_packed_hardly_expands", "zlib_optimal_hardly_expands", "png_hardly_expands", "png_indexed_hardly_expands"], "note": "That the calls succeed is C09, C21, C26 and their like. PNG pictures below 2^30 pixels."},
{"property": "C82", "status": "proved", "theorems": ["inflate_bounded", "inflate_zlib_bounded", "png_decoded_bounded"], "note": ""},
{"property": "C83", "status": "partial", "theorems": ["png_reserves_partial", "png_reserves_refuted"], "note": "False of the code: a file of 63 bytes makes the decoder ask for 2^51 bytes. Proved: at most 1032 times the size for files that decode."},
{"property": "C84", "status": "proved", "theorems": ["deflate_cut_refused", "zlib_cut_refused", "png_cut_refused", "png_encoded_cut_refused", "png_needed_part"], "note": ""},
{"property": "C85", "status": "partial", "theorems": ["jpeg_cut_partial", "jpeg_cut_refuted"], "note": "False of the code: errors in the scan end it silently, so a file cut at the start of its scan decodes to a picture with the rest missing. Proved: cuts in the headers are refused."},
{"property": "C86", "status": "partial", "theorems": ["huffman_shortest_partial", "huffman_shortest_refuted"], "note": "False of the code when the length limit is reached: an example takes 8 percent more than necessary. Proved (against all prefix codes, of any length) for at most M+1 occurring symbols or frequencies that add up to less than the Fibonacci number F(M+3)."},
{"property": "C87", "status": "partial", "theorems": ["named_filter_used", "bigrams_filter_best", "small_image_sub", "minsum_filter_partial", "minsum_filter_refuted"], "note": "False of the code for MinSum and Adaptive on rows whose sum is within the early exit (a quarter of the row length and one). Proved: fixed filters, Bigrams above 4096 pixels, the sum is minimal on all other rows."},
{"property": "C88", "status": "partial", "theorems": ["parallel_same_partial", "parallel_same_refuted"], "note": "False of the code with AdaptiveFast, the default, above 4096 pixels and 32 rows. Proved for every other strategy and for smaller, lower or quantised images."},
{"property": "C89", "status": "partial", "theorems": ["progressive_order_partial", "progressive_order_refuted"], "note": "False of the code for the luminance with 4:2:0 (blocks are written in MCU order); proved for everything else, given the tables have the symbols (C37)."},
{"property": "C90", "status": "partial", "theorems": ["unsupported_jpeg_refused_partial", "unsupported_jpeg_named", "lines_later_refuted"], "note": "False of the code for files with the number of lines after the scan (DNL): they decode to an empty picture. Proved for the rest."},
{"property": "C91", "status": "proved", "theorems": ["decoded_jpeg_well_formed"], "note": ""},
{"property": "C92", "status": "partial", "theorems": ["jpeg_bounded_partial", "jpeg_bounded_refuted"], "note": "False of the code: 35 bytes decode to a picture of any size. Proved for conforming files."},
{"property": "C93", "status": "proved", "theorems": ["quantized_range", "quantized_gray"], "note": ""},
{"property": "C94", "status": "partial", "theorems": ["few_colours_kept_partial", "png_quantized_exact", "sampled_colour_kept", "unsampled_colour_lost", "few_colours_kept_refuted"], "note": "False of the code in forced mode from 100000 pixels on: colours of unsampled pixels are lost. Proved in automatic mode for any size and in forced mode below."},
{"property": "C95", "status": "proved", "theorems": ["auto_keeps", "auto_reduces"], "note": "Except for the gray levels lost by C24."},
{"property": "C96", "status": "partial", "theorems": ["nearest_shown_partial", "nearest_shown_refuted", "nearest_colour_minimal"], "note": "False of the code for opaque pixels (6-bit lookup table). Proved for the others, with a bound for opaque ones."},
{"property": "C97", "status": "partial", "theorems": ["quantized_same_colour", "quantized_order_partial", "quantized_order_refuted"], "note": "False of the code from 100000 pixels on (sampling). Proved below."},
{"property": "C98", "status": "partial", "theorems": ["optimised_tables_partial", "optimised_tables_wasteful", "optimised_tables_refuted"], "note": "False of the code: every code is one bit longer than Huffman's. Proved: at most one bit per symbol more than any code."},
{"property": "C99", "status": "proved", "theorems": ["jpeg_file_bounded"], "note": ""}
]}
