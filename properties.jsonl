{"id": "C01", "title": "DEFLATE round trip at every level", "statement": "Decompressing (with the crate's own inflater, which follows RFC 1951) the bytes returned by deflate(data, level) yields exactly data.", "quantifier": "every byte sequence shorter than 2^32-1 bytes and every compression level", "why_tests_cant": "The input space is infinite and the encoder's internal choices (hash chains, lazy matching, block type, Huffman tree shape) depend on the data in ways a finite corpus cannot cover.", "anchors": ["src/compress/deflate.rs: deflate, encode_best_huffman, encode_fixed_huffman, encode_dynamic_huffman", "src/compress/lz77.rs: Lz77Compressor", "src/decode/inflate.rs: inflate_with_size"]}
{"id": "C02", "title": "zlib container round trip", "statement": "The zlib stream returned by deflate_zlib / deflate_zlib_packed has a valid RFC 1950 header and trailer and is accepted by the zlib reader, which returns exactly the original data.", "quantifier": "every byte sequence shorter than 2^32-1 bytes and every compression level", "why_tests_cant": "Checksum and header correctness for all inputs is a universal statement; tests sample a few inputs.", "anchors": ["src/compress/deflate.rs: deflate_zlib, deflate_zlib_packed, zlib_header, empty_zlib", "src/decode/inflate.rs: inflate_zlib_with_size"]}
{"id": "C03", "title": "Packed and unpacked token paths agree", "statement": "The packed-token and the enum-token implementations of the compressor emit byte-identical streams for the same token sequence, and packing/unpacking a token loses nothing.", "quantifier": "every literal byte, every length 3..=258 and distance 1..=32768, and every token sequence", "why_tests_cant": "Two independent encoders must agree on all token sequences; tests compare a handful.", "anchors": ["src/compress/lz77.rs: PackedToken", "src/compress/deflate.rs: encode_fixed_huffman_packed, encode_dynamic_huffman_packed, encode_best_huffman_packed"]}
{"id": "C04", "title": "Stored blocks round trip and expansion bound", "statement": "For non-empty data, the stored-block encoder splits the data into blocks of at most 65535 bytes, the result inflates to the data, and its size is exactly the data length plus 5 bytes per block.", "quantifier": "every non-empty byte sequence", "why_tests_cant": "Block boundaries at multiples of 65535 and unbounded lengths cannot be exhausted by tests.", "anchors": ["src/compress/deflate.rs: deflate_stored, deflate_zlib_stored", "src/decode/inflate.rs: inflate_stored"]}
{"id": "C05", "title": "Reusing a Deflater never changes the result", "statement": "Compressing with a Deflater (or a pooled one) that already compressed other inputs yields a stream that still decodes to exactly the new input.", "quantifier": "every history of earlier compress calls, every new input shorter than 2^32-1 bytes, every level", "why_tests_cant": "Correctness must hold after every possible history of leftover hash-table and buffer contents.", "anchors": ["src/compress/deflate.rs: Deflater, with_reusable_deflater", "src/compress/lz77.rs: Lz77Compressor"]}
{"id": "C06", "title": "Optimal-parsing compressor round trip", "statement": "deflate_optimal and its zlib form return streams that decode to exactly the input, for any finite cost model chosen by the iterations.", "quantifier": "every byte sequence, every iteration count, every sequence of cost estimates", "why_tests_cant": "The floating-point dynamic program takes data-dependent paths; only a proof over all cost values covers it.", "anchors": ["src/compress/lz77.rs: compress_optimal, trace_backwards, CostModel", "src/compress/deflate.rs: deflate_optimal, deflate_optimal_zlib"]}
{"id": "C07", "title": "Block splitting is transparent", "statement": "Splitting the token stream into several DEFLATE blocks at any of the split points the encoder may choose does not change the decoded data.", "quantifier": "every token sequence and every list of split points", "why_tests_cant": "The split search is driven by floating-point cost estimates; every possible split list must be safe.", "anchors": ["src/compress/deflate.rs: find_block_splits, deflate_optimal_split, encode_with_block_splitting, write_dynamic_huffman_block"]}
{"id": "C08", "title": "LZ77 tokens reproduce the input and respect format limits", "statement": "Expanding the tokens produced by the LZ77 stage gives back the input; each match has length 3..=258, distance 1..=32768 and never reaches before the start of the output.", "quantifier": "every byte sequence, every level, every leftover hash table", "why_tests_cant": "Match finding depends on hash collisions and history; the failure cases are rare states that sampling misses.", "anchors": ["src/compress/lz77.rs: compress_into_sink, find_best_match, match_length, update_hash"]}
{"id": "C09", "title": "Length-limited Huffman codes are decodable", "statement": "The code lengths produced from any frequency table never exceed the limit, satisfy Kraft's inequality with equality when two or more symbols occur, and give a non-zero length to exactly the symbols that occur.", "quantifier": "every frequency table for up to 286 symbols (limit 15) or 19 symbols (limit 7)", "why_tests_cant": "The space of frequency tables is astronomically large and the length-limiting repair only triggers on skewed ones.", "anchors": ["src/compress/huffman.rs: build_codes, limit_code_lengths"]}
{"id": "C10", "title": "Canonical codes are prefix-free and decode uniquely", "statement": "For any code lengths that satisfy Kraft's inequality, the canonical codes assigned by the encoder are prefix-free and the decoder's tables map each code word back to its symbol.", "quantifier": "every list of code lengths up to 15 bits that is not over-subscribed, every symbol, every following bit sequence", "why_tests_cant": "Infinite combinations of code tables and following bits.", "anchors": ["src/compress/huffman.rs: generate_canonical_codes", "src/decode/inflate.rs: HuffmanTable"]}
{"id": "C11", "title": "Dynamic-block code-length header round trip", "statement": "The run-length encoding of the code lengths in a dynamic block header decodes to the same code lengths.", "quantifier": "every sequence of code lengths 0..=15 of any length", "why_tests_cant": "Runs can be of any length and mixture; tests try a few.", "anchors": ["src/compress/deflate.rs: rle_code_lengths, encode_dynamic_huffman", "src/decode/inflate.rs: inflate_dynamic"]}
{"id": "C12", "title": "Length and distance symbols match RFC 1951", "statement": "The symbol, extra-bit count and extra-bit value chosen by the encoder for each length and distance reconstruct that length and distance with the decoder's base tables.", "quantifier": "all lengths 3..=258 and all distances 1..=32768", "why_tests_cant": "Existing tests check spot values; the claim is over the whole domain and both lookup paths.", "anchors": ["src/compress/deflate.rs: length_code, distance_code", "src/decode/inflate.rs: LENGTH_BASE, DISTANCE_BASE"]}
{"id": "C13", "title": "Adler-32 equals its definition and never overflows", "statement": "Without vector instructions (C69 covers those), adler32(data) equals the RFC 1950 definition (sums modulo 65521 of prefix sums), and the 32-bit accumulators never overflow between reductions.", "quantifier": "every byte sequence of any length", "why_tests_cant": "The overflow bound must hold for worst-case chunks at every chunk boundary of arbitrarily long inputs.", "anchors": ["src/compress/adler32.rs: adler32", "src/simd/fallback.rs: adler32"]}
{"id": "C14", "title": "CRC-32 equals its definition; incremental equals one-shot", "statement": "crc32(data) equals the bit-by-bit CRC-32 of ISO 3309, and feeding the data to the incremental hasher in any pieces gives the same value.", "quantifier": "every byte sequence and every way of cutting it into pieces", "why_tests_cant": "Slicing-by-8 has alignment-dependent paths; cut points are unbounded.", "anchors": ["src/compress/crc32.rs: crc32, Crc32", "src/simd/fallback.rs: crc32"]}
{"id": "C15", "title": "Any single corrupted byte in a PNG chunk is detected", "statement": "If one byte of the type or data field of a chunk is changed to any other value, the stored CRC no longer matches, so the PNG decoder returns an error.", "quantifier": "every chunk content, every position, every different byte value", "why_tests_cant": "Exhausting all contents and positions is impossible; needs the algebra of the CRC.", "anchors": ["src/compress/crc32.rs: crc32", "src/png/chunk.rs: write_chunk", "src/decode/png.rs: decode_png"]}
{"id": "C16", "title": "Inflate terminates without panicking on every input", "statement": "The DEFLATE/zlib decompressor returns either data or an error on every byte sequence: no out-of-bounds access, arithmetic overflow, or endless loop.", "quantifier": "every byte sequence, including adversarial ones", "why_tests_cant": "Fuzzing cannot exhaust malformed streams.", "anchors": ["src/decode/inflate.rs", "src/decode/bit_reader.rs: BitReader"]}
{"id": "C17", "title": "Accepted zlib data is checksum-consistent", "statement": "If the zlib reader returns data, then the Adler-32 of that data equals the trailer of the stream and, when a size was expected, the length equals it.", "quantifier": "every byte sequence and every expected size", "why_tests_cant": "A soundness claim about all accepted streams, not only well-formed ones.", "anchors": ["src/decode/inflate.rs: inflate_zlib_with_size"]}
{"id": "C18", "title": "LSB-first bit writer and reader are inverse", "statement": "Reading back with the LSB-first reader the widths that were written with either LSB-first writer returns the written values in order.", "quantifier": "every sequence of (value, width) writes with widths 0..=31 (and 32 for the 32-bit writer) and interleaved byte flushes", "why_tests_cant": "Buffer-refill states depend on the whole write history.", "anchors": ["src/bits.rs: BitWriter, BitWriter64", "src/decode/bit_reader.rs: BitReader"]}
{"id": "C19", "title": "JPEG entropy-coded bytes never contain a stray marker", "statement": "The MSB-first writer follows every 0xFF data byte by 0x00, so the entropy-coded output contains no marker, and removing the stuffing gives back exactly the written bits followed by at most 7 one-bits.", "quantifier": "every sequence of bit writes and flushes", "why_tests_cant": "An 0xFF byte may appear at any alignment after any history.", "anchors": ["src/bits.rs: BitWriterMsb", "src/decode/bit_reader.rs: MsbBitReader"]}
{"id": "C20", "title": "PNG encoding is lossless without lossy options", "statement": "Decoding the file returned by the PNG encoder with the crate's decoder gives the same width, height, colour type and pixels, when no colour/alpha/palette reduction or quantization is enabled.", "quantifier": "every image of every colour type and size, every compression level, every filter strategy", "why_tests_cant": "The image space is infinite and the pipeline (filters, compressor, chunks) is data dependent.", "anchors": ["src/png/mod.rs: encode_into", "src/decode/png.rs: decode_png"]}
{"id": "C21", "title": "PNG filters are invertible for every strategy", "statement": "Each row filter (None, Sub, Up, Average, Paeth), chosen in whatever way per row, is undone exactly by the decoder, and the filtered data has one filter byte in 0..=4 per row.", "quantifier": "every image, bytes-per-pixel value, and every per-row choice of filter, including all adaptive strategies and both the sequential and the parallel path", "why_tests_cant": "Row contents and the choice heuristics are unbounded.", "anchors": ["src/png/filter.rs: apply_filters, filter_row, adaptive_filter, bigrams_filter", "src/decode/png.rs: unfilter_row"]}
{"id": "C22", "title": "Lossless colour-type reduction preserves pixels", "statement": "When colour-type reduction turns RGBA into RGB/GrayAlpha/Gray or RGB into Gray, or palette reduction turns any of them into a palette, decoding the file gives exactly the original pixel colours. (The opaque gray images with no level above 15 are the subject of C24.)", "quantifier": "every image and colour type, every combination of reduction options, every compression level and filter strategy", "why_tests_cant": "Whether the reduction applies depends on every pixel of an arbitrary image.", "anchors": ["src/png/mod.rs: maybe_reduce_color_type, build_palette, analyze_rgba"]}
{"id": "C23", "title": "Palette reordering preserves pixels", "statement": "Reordering the palette (co-occurrence heuristic, most popular first) permutes the palette and remaps the indices so that every pixel keeps its colour.", "quantifier": "every indexed image in which each palette entry is used, every width and height", "why_tests_cant": "Correctness depends on the heuristic producing a permutation for every co-occurrence graph.", "anchors": ["src/png/mod.rs: optimize_palette_order, mzeng_reindex, apply_most_popular_first, apply_remapping"]}
{"id": "C24", "title": "Grayscale bit-depth reduction preserves pixels", "statement": "When the encoder stores a grayscale image with fewer than 8 bits per sample, decoding gives back the original gray values.", "quantifier": "every grayscale image", "why_tests_cant": "The claim is about all images; the encoder only triggers it on images whose samples are all small.", "anchors": ["src/png/bit_depth.rs: reduce_bit_depth, pack_gray_rows", "src/decode/png.rs: unpack_gray, scale_to_8bit"]}
{"id": "C25", "title": "Sample packing and unpacking are inverse", "statement": "Packing palette indices or samples into 1, 2, 4 or 8 bits per sample, row by row, and unpacking with the decoder gives back the samples.", "quantifier": "every width, every number of rows, every depth, all samples that fit the depth", "why_tests_cant": "Row padding depends on width modulo 8/depth for unbounded widths.", "anchors": ["src/png/bit_depth.rs: pack_bits_rows, palette_bit_depth", "src/decode/png.rs: unpack_row, unpack_indices"]}
{"id": "C26", "title": "Alpha optimisation only touches invisible pixels", "statement": "Optimising alpha changes only colour channels of fully transparent pixels; all alpha values and all pixels with non-zero alpha are unchanged, and data without a transparent pixel is unchanged.", "quantifier": "every RGBA or GrayAlpha image", "why_tests_cant": "Universal over images.", "anchors": ["src/png/mod.rs: maybe_optimize_alpha"]}
{"id": "C27", "title": "PNG files have a valid chunk structure", "statement": "Every file the encoder returns is the PNG signature followed by well-formed chunks (length, type, data, correct CRC): IHDR first, then PLTE/tRNS if indexed, then one or more non-empty IDAT chunks, then IEND, and nothing after it.", "quantifier": "every image and option combination accepted by the encoder", "why_tests_cant": "Structure must hold for all sizes including those crossing the IDAT chunk size.", "anchors": ["src/png/mod.rs: encode_into, write_ihdr, write_idat_chunks, write_iend", "src/png/chunk.rs: write_chunk"]}
{"id": "C28", "title": "Encoders reject exactly the invalid arguments and leave the buffer alone", "statement": "PNG encode_into returns an error exactly when a dimension is zero or above 2^24, the compression level is not 1..=9, or the data length does not equal width*height*bytes-per-pixel; in that case the caller's buffer is unchanged.", "quantifier": "every data slice, option record and prior buffer contents", "why_tests_cant": "All argument combinations including near-overflow sizes.", "anchors": ["src/png/mod.rs: encode_into", "src/jpeg/mod.rs: encode_into", "src/resize.rs: resize_into"]}
{"id": "C29", "title": "Output does not depend on the reused buffer", "statement": "On success encode_into / resize_into leave in the buffer exactly what encode / resize would return, whatever the buffer held before.", "quantifier": "every prior buffer content", "why_tests_cant": "All histories of the buffer.", "anchors": ["src/png/mod.rs: encode, encode_into", "src/jpeg/mod.rs: encode, encode_into", "src/resize.rs: resize, resize_into"]}
{"id": "C30", "title": "Metadata stripping keeps the image", "statement": "Removing tEXt/zTXt/iTXt/tIME chunks leaves all other chunks of a well-formed PNG byte-for-byte in order and so does not change the decoded image.", "quantifier": "every well-formed chunk sequence", "why_tests_cant": "Any number, order and size of chunks.", "anchors": ["src/png/mod.rs: strip_metadata_chunks"]}
{"id": "C31", "title": "PNG decoder is total", "statement": "decode_png returns an image or an error on every byte sequence, never panics, and on success returns exactly width*height*bytes-per-pixel bytes with 1 <= width,height <= 2^24.", "quantifier": "every byte sequence", "why_tests_cant": "Adversarial inputs cannot be enumerated.", "anchors": ["src/decode/png.rs: decode_png, reconstruct_image, convert_to_pixels"]}
{"id": "C32", "title": "Quantized images are well formed", "statement": "Colour quantization yields a palette of 1 to 256 colours and one in-range index per pixel, so the encoded indexed PNG decodes to the palette colours selected.", "quantifier": "every RGB/RGBA image and every max_colors setting", "why_tests_cant": "Depends on median cut over arbitrary colour multisets.", "anchors": ["src/png/mod.rs: quantize_image, median_cut_palette, nearest_palette_index, PaletteLut"]}
{"id": "C33", "title": "JPEG baseline entropy coding is lossless", "statement": "Decoding the entropy-coded segment produced for any sequence of quantized blocks returns exactly those coefficients.", "quantifier": "every sequence of 8x8 blocks with DC differences of at most 11 bits and AC values of at most 10 bits, both components, standard or optimised tables", "why_tests_cant": "Coefficient sequences and bit alignments are unbounded.", "anchors": ["src/jpeg/huffman.rs: encode_block, category, encode_value", "src/decode/jpeg.rs: HuffmanTable, decode_scan, read_amplitude"]}
{"id": "C34", "title": "Optimised JPEG Huffman tables are valid", "statement": "Tables built from symbol counts give every counted symbol a code of at most 16 bits, are prefix-free and never use the all-ones code; otherwise the standard tables are used.", "quantifier": "every count table with at most 255 counted symbols (the encoder counts at most 162)", "why_tests_cant": "Counts are arbitrary 64-bit values; tree shapes are unbounded.", "anchors": ["src/jpeg/huffman.rs: build_code_lengths, build_bits_vals, build_code_table, optimized_from_counts"]}
{"id": "C35", "title": "JPEG decoder is total", "statement": "decode_jpeg returns an image or an error on every byte sequence and never panics.", "quantifier": "every byte sequence", "why_tests_cant": "Adversarial inputs cannot be enumerated.", "anchors": ["src/decode/jpeg.rs: decode_jpeg, parse_sof0, parse_sos, decode_scan, ycbcr_to_rgb"]}
{"id": "C36", "title": "Restart intervals survive a round trip", "statement": "An entropy-coded segment written with restart markers is read back with the same coefficients.", "quantifier": "every block sequence and restart interval", "why_tests_cant": "The read-ahead state at each marker depends on all preceding bits.", "anchors": ["src/jpeg/mod.rs: encode_scan", "src/decode/bit_reader.rs: MsbBitReader", "src/decode/jpeg.rs: HuffmanTable::decode"]}
{"id": "C37", "title": "Progressive scans only use symbols that have a code", "statement": "Every symbol emitted in a progressive scan has a code word in the Huffman table announced in the file, so a conforming decoder recovers the coefficients.", "quantifier": "every sequence of blocks", "why_tests_cant": "Which symbols appear depends on runs of empty blocks of any length.", "anchors": ["src/jpeg/progressive.rs: encode_ac_first, flush_eob_run, get_code_from_table", "src/jpeg/mod.rs: encode_progressive"]}
{"id": "C38", "title": "Progressive scans refer only to declared components", "statement": "Every scan header of a progressive file names only components declared in the frame header.", "quantifier": "every image and colour type", "why_tests_cant": "Universal over option combinations.", "anchors": ["src/jpeg/mod.rs: encode_progressive, write_sos_progressive, write_sof_marker", "src/jpeg/progressive.rs: simple_progressive_script"]}
{"id": "C39", "title": "Inverse DCT reconstructs all frequencies", "statement": "The decoder's inverse DCT of a block differs from the mathematical inverse DCT by at most a small rounding error.", "quantifier": "every block of dequantized coefficients in the legal range", "why_tests_cant": "2^1000+ coefficient blocks.", "anchors": ["src/decode/idct.rs: idct_2d_integer"]}
{"id": "C40", "title": "Quantization tables are legal and consistent", "statement": "For every quality the written tables contain values 1..=255, the zigzag order is a permutation, and the table written to the file agrees entry by entry with the one used for quantization.", "quantifier": "every quality byte and coefficient position", "why_tests_cant": "Tests sample a few qualities.", "anchors": ["src/jpeg/quantize.rs: with_quality, ZIGZAG, zigzag_reorder", "src/decode/idct.rs: dequantize"]}
{"id": "C41", "title": "Colour conversion stays in range", "statement": "rgb_to_ycbcr returns values in 0..=255 that equal the clamped fixed-point formula, gray inputs give neutral chroma, and no intermediate overflows.", "quantifier": "all 2^24 colours", "why_tests_cant": "Exhaustive tests over 2^24 inputs are not run.", "anchors": ["src/color.rs: rgb_to_ycbcr"]}
{"id": "C42", "title": "Coefficient magnitude coding is inverse", "statement": "The magnitude bits written for a coefficient decode to the same coefficient.", "quantifier": "every non-zero 16-bit coefficient other than the minimum", "why_tests_cant": "Tests sample a few values.", "anchors": ["src/jpeg/huffman.rs: category, encode_value", "src/decode/jpeg.rs: read_amplitude"]}
{"id": "C43", "title": "Resize produces the requested size from source pixels", "statement": "On valid arguments resize returns dst_width*dst_height*bytes_per_pixel bytes; with nearest-neighbour every output pixel is a copy of a source pixel, and with equal sizes the image is unchanged (up to 2^23 per side).", "quantifier": "every image, size pair and colour type", "why_tests_cant": "Coordinates are computed in binary32; rounding must be safe for all sizes.", "anchors": ["src/resize.rs: resize_impl, resize_nearest"]}
{"id": "C44", "title": "Bilinear resize never reads out of bounds", "statement": "Bilinear resampling reads only inside the source image for every accepted pair of sizes.", "quantifier": "every source and destination size up to 2^24", "why_tests_cant": "binary32 rounding of the coordinate at the far edge depends on both sizes.", "anchors": ["src/resize.rs: resize_bilinear"]}
{"id": "C45", "title": "Files declare the image that was given", "statement": "The dimensions and colour type in the PNG header / JPEG frame header are those passed by the caller.", "quantifier": "every accepted option record", "why_tests_cant": "Universal over sizes.", "anchors": ["src/png/mod.rs: write_ihdr", "src/jpeg/mod.rs: write_sof_marker"]}
{"id": "C46", "title": "Match length is exact", "statement": "The word-at-a-time match-length routine returns the length of the longest common prefix of the two positions, capped at the limit.", "quantifier": "every buffer, pair of positions and limit", "why_tests_cant": "Mismatch can be at any offset within a word.", "anchors": ["src/compress/lz77.rs: match_length", "src/simd/fallback.rs: match_length"]}
{"id": "C47", "title": "Nearest palette colour is a minimum", "statement": "The palette index chosen for a colour minimises the perceptual distance among palette entries.", "quantifier": "every palette and colour", "why_tests_cant": "Universal over palettes and colours.", "anchors": ["src/png/mod.rs: nearest_palette_index, perceptual_distance_sq"]}
{"id": "C48", "title": "Indexed PNG encoding keeps every pixel's colour", "statement": "Encoding palette indices with a palette of 1 to 256 colours and an optional alpha table, then decoding, gives for each pixel the colour and alpha of its palette entry (255 beyond the alpha table).", "quantifier": "every size, palette, alpha table and index data with indices inside the palette", "why_tests_cant": "the palette/alpha/index space is unbounded and the file goes through filtering and compression", "anchors": ["src/png/mod.rs: encode_indexed, encode_indexed_with_options, encode_indexed_into", "src/decode/png.rs: expand_palette"]}
{"id": "C49", "title": "The indexed PNG encoder refuses what a PNG cannot hold", "statement": "encode_indexed returns an error, leaving the buffer alone, when the palette is empty or has more than 256 entries, the alpha table is longer than the palette, the data length is not width*height, a dimension is zero or too large, or an index is outside the palette.", "quantifier": "every argument combination", "why_tests_cant": "absence of accepted bad inputs is a statement about all inputs", "anchors": ["src/png/mod.rs: encode_indexed_into"]}
{"id": "C50", "title": "The JPEG encoder rejects exactly the invalid arguments and leaves the buffer alone", "statement": "JPEG encode_into returns an error exactly when the quality is not 1..=100, the restart interval is zero, a dimension is zero or above 65535, the colour type is not Gray or Rgb, or the data length does not match; the buffer is then unchanged.", "quantifier": "every data slice, option record and prior buffer contents", "why_tests_cant": "an iff over all argument combinations", "anchors": ["src/jpeg/mod.rs: encode_into"]}
{"id": "C51", "title": "Match caching does not change the parse", "statement": "A pass of the optimal parser that reuses the matches cached by earlier passes over the same data returns the same tokens as a pass that searches again, whatever cost models the passes used and whatever the search tables still hold; the tokens expand to the data.", "quantifier": "every byte sequence, every cost model with finite costs, every sequence of earlier passes, every state of the hash tables", "why_tests_cant": "The cache is filled by one pass and read by later ones with other costs; a test sees a few inputs, not every history of the cache and tables.", "anchors": ["src/compress/lz77.rs: compress_optimal, compress_optimal_cached, LongestMatchCache, find_match_with_sublen"]}
{"id": "C52", "title": "The optimal parse is cheapest under its cost model", "statement": "Among all sequences of literals and matches found by the search that spell the data, none has a smaller total f32 cost (added left to right) than the token sequence returned by the optimal parser.", "quantifier": "every byte sequence, every cost model with finite costs, every competing token sequence", "why_tests_cant": "The competing parses are exponentially many, and f32 rounding could break the dynamic-programming principle; only a proof compares against all of them.", "anchors": ["src/compress/lz77.rs: compress_optimal, compress_optimal_cached, trace_backwards, CostModel"]}
{"id": "C53", "title": "Iterating never makes optimal output larger", "statement": "For any number of iterations, deflate_optimal returns a stream no longer than the single dynamic block for the tokens its first greedy pass produced.", "quantifier": "every non-empty byte sequence, every iteration count", "why_tests_cant": "The iterations are driven by floating-point statistics; no finite set of inputs rules out a growing result.", "anchors": ["src/compress/deflate.rs: deflate_optimal"]}
{"id": "C54", "title": "Decoder colour conversion", "statement": "Converting YCbCr to RGB in the JPEG decoder gives each channel within 1.2 levels of the JFIF formulas, and converting any RGB colour to YCbCr and back changes no channel by more than 3 levels.", "quantifier": "every YCbCr triple; all 2^24 RGB colours", "why_tests_cant": "Fixed-point rounding over all triples.", "anchors": ["src/decode/jpeg.rs: ycbcr_to_rgb", "src/color.rs: rgb_to_ycbcr"]}
{"id": "C55", "title": "Resize rejects exactly the invalid arguments", "statement": "resize and resize_into return an error exactly when a dimension is zero or above 2^24 or the data length is not width*height*bytes-per-pixel; the error is that of the first failing check and the caller's buffer is unchanged.", "quantifier": "every option record, data slice and buffer", "why_tests_cant": "All argument combinations.", "anchors": ["src/resize.rs: resize, resize_into, resize_impl"]}
{"id": "C56", "title": "Nearest-neighbour positions", "statement": "Nearest-neighbour resizing picks one source column per output column and one source row per output row, in order, each within half a pixel (plus binary32 error) of the exact centre.", "quantifier": "every accepted size pair", "why_tests_cant": "binary32 coordinates for all sizes.", "anchors": ["src/resize.rs: resize_nearest"]}
{"id": "C57", "title": "Bilinear values", "statement": "Each output channel of a bilinear resize is within rounding and coordinate error of the exact bilinear surface, and never outside the range of the four samples around its position.", "quantifier": "every image and size pair with source sides up to 2^23", "why_tests_cant": "All sample values and binary32 fractions.", "anchors": ["src/resize.rs: resize_bilinear"]}
{"id": "C58", "title": "Flat images stay flat", "statement": "Nearest and bilinear resizing of an image of one byte value returns an image of that value.", "quantifier": "every size, colour type and value", "why_tests_cant": "All sizes.", "anchors": ["src/resize.rs: resize_nearest, resize_bilinear"]}
{"id": "C59", "title": "Lanczos resizing is total and separable", "statement": "Lanczos resizing succeeds on all accepted arguments whatever the platform's sine returns; it applies one line resampler to rows, then to columns, of each channel by itself.", "quantifier": "every image, size pair, colour type and sine function", "why_tests_cant": "Window bounds are computed in binary32; all sizes and sine implementations.", "anchors": ["src/resize.rs: resize_lanczos3, precompute_contributions, resample_row_horizontal, resample_column_vertical"]}
{"id": "C60", "title": "The forward DCT is accurate", "statement": "For every block of samples in -128..127 the encoder's f32 forward DCT returns 64 finite values, each within 1/100 of the transform of T.81 A.3.3 over the reals.", "quantifier": "every block of 64 finite f32 samples in range", "why_tests_cant": "Error bound over all real-valued inputs.", "anchors": ["src/jpeg/dct.rs: dct_2d, aan_dct_1d"]}
{"id": "C61", "title": "Quantised coefficients are nearest", "statement": "Each quantised coefficient times its table step is within half a step (plus 0.0101) of the exact DCT coefficient.", "quantifier": "every table with steps 1..255, every block of samples (luminance, or chroma averages)", "why_tests_cant": "All blocks and tables.", "anchors": ["src/jpeg/dct.rs: dct_2d", "src/jpeg/quantize.rs: quantize_block"]}
{"id": "C62", "title": "Trellis quantisation keeps the picture", "statement": "Trellis quantisation never fails, leaves the mean of a block as plain quantisation has it, and each other coefficient is dropped or within two steps of the exact value with the right sign.", "quantifier": "every table with steps 1..255 and every block of samples", "why_tests_cant": "The dynamic program has exponentially many paths.", "anchors": ["src/jpeg/trellis.rs: trellis_quantize"]}
{"id": "C63", "title": "Uniform regions keep their colour", "statement": "Encoding any valid image as baseline JPEG and decoding it returns, for every pixel whose 8x8 (16x16 with 4:2:0) square is one colour, that colour up to the quantisation error of the mean and the colour conversion error; exact for gray at quality 100.", "quantifier": "every image, size, colour type, subsampling, quality, table choice, without restart markers", "why_tests_cant": "All images and sizes, through encoder and decoder.", "anchors": ["src/jpeg/mod.rs: encode", "src/decode/jpeg.rs: decode_jpeg"]}
{"id": "C64", "title": "The integer DCT computes the DCT", "statement": "dct_2d_integer returns the forward DCT of T.81 up to a few units and never overflows.", "quantifier": "every block of i16 samples", "why_tests_cant": "All blocks.", "anchors": ["src/jpeg/dct.rs: dct_2d_integer"]}
{"id": "C65", "title": "The uniform-block shortcut is exact", "statement": "dct_2d_fast returns the same coefficients as dct_2d_integer.", "quantifier": "every block of i16 samples", "why_tests_cant": "All blocks.", "anchors": ["src/jpeg/dct.rs: dct_2d_fast"]}
{"id": "C66", "title": "Integer quantisation rounds to nearest", "statement": "quantize_block_integer returns the nearest multiple of the step, halves away from zero.", "quantifier": "every i32 coefficient whose quotient fits i16 and every nonzero u16 step", "why_tests_cant": "All values.", "anchors": ["src/jpeg/dct.rs: quantize_block_integer"]}
{"id": "C67", "title": "PNG filters do not depend on the machine", "statement": "Sub, Up, Average and Paeth give the same bytes whichever instruction set is detected at run time.", "quantifier": "every machine, every row of at least one pixel and previous row of the same length, every pixel size", "why_tests_cant": "Vector code takes different paths by length and alignment of the row, and a test run sees one machine only.", "anchors": ["src/simd/mod.rs: filter_sub, filter_up, filter_average, filter_paeth", "src/simd/x86_64.rs", "src/simd/aarch64.rs"]}
{"id": "C68", "title": "Filter score and match length do not depend on the machine", "statement": "The filter score and the match length are the same on every machine; the match length is the common prefix and no load leaves the buffer.", "quantifier": "every machine, every buffer, pair of positions and limit", "why_tests_cant": "All lengths and positions of the first difference on all machines.", "anchors": ["src/simd/mod.rs: score_filter, match_length"]}
{"id": "C69", "title": "Adler-32 is right on every machine", "statement": "simd::adler32 returns the Adler-32 of RFC 1950 whichever instruction set is detected.", "quantifier": "every machine, every byte sequence", "why_tests_cant": "The failing inputs are long or need a particular machine; the repository ignores its SSSE3 test.", "anchors": ["src/simd/mod.rs: adler32", "src/simd/x86_64.rs: adler32_avx2, adler32_ssse3", "src/simd/aarch64.rs: adler32_neon"]}
{"id": "C70", "title": "zlib streams written on any machine can be read", "statement": "The zlib container written on any machine is the same and is accepted by a decoder.", "quantifier": "every machine, every data, every Deflate stream of it", "why_tests_cant": "As C69.", "anchors": ["src/compress/deflate.rs: deflate_zlib"]}
{"id": "C71", "title": "simd::crc32 is right on every machine", "statement": "simd::crc32 returns the CRC-32 of ISO 3309 with and without PCLMULQDQ.", "quantifier": "every byte sequence and alignment", "why_tests_cant": "All lengths and alignments.", "anchors": ["src/simd/mod.rs: crc32", "src/simd/x86_64.rs: crc32_pclmulqdq"]}
{"id": "C72", "title": "The integer DCT does not depend on the machine", "statement": "dct_2d_fast returns the same coefficients on every machine.", "quantifier": "every machine, every block the scalar code accepts", "why_tests_cant": "All blocks; a test run sees one machine.", "anchors": ["src/jpeg/dct.rs: dct_2d_fast", "src/simd/x86_64.rs: dct_2d_avx2", "src/simd/aarch64.rs"]}
{"id": "C73", "title": "The PNG decoder reads files written by any program", "statement": "decode_png of any conforming non-interlaced PNG file (any colour type and depth, ancillary chunks, IDAT split, filters, DEFLATE coding) returns the dimensions and the pixels the PNG specification assigns to it, reduced to 8 bits, with transparency; interlaced files are refused as unsupported.", "quantifier": "every conforming file with sides up to 2^24, any trailing bytes", "why_tests_cant": "Test images come from one encoder; the claim is about every chunk layout, filter choice, compressed form, depth and pixel content.", "anchors": ["src/decode/png.rs: decode_png", "src/decode/inflate.rs"]}
{"id": "C74", "title": "The JPEG decoder reads baseline files written by any program", "statement": "decode_jpeg of any conforming baseline JPEG file with one or three components in one scan (any tables in any slots, 8- or 16-bit quantisation entries, application segments and comments, fill bytes, sampling factors, anything after the end marker) returns the dimensions of the file and the pixels T.81 and JFIF assign to it: every sample that of the inverse DCT of its block, every pixel the colour of the samples at its position.", "quantifier": "every conforming file without restart markers, of any size, with dequantised coefficients up to 2047", "why_tests_cant": "Test images come from this encoder or a few others; the claim is about every table, sampling, segment layout and coefficient.", "anchors": ["src/decode/jpeg.rs: decode_jpeg, parse_dqt, parse_dht, parse_sof, parse_sos, decode_scan, ycbcr_to_rgb"]}
{"id": "C75", "title": "A baseline JPEG file stands for the image it was made from", "statement": "The baseline file of any accepted image conforms to T.81 (segments, tables, block order, entropy coding, restart intervals), and any decoder that follows T.81 exactly reconstructs, in every 8x8 block of every component, samples whose summed squared error against the luminance or (averaged) chrominance of the image is at most that of half a quantisation step per coefficient; at quality 100 no sample is off by more than 4.1 levels.", "quantifier": "every accepted image, quality, subsampling, restart interval and table option, baseline mode; every block of every component", "why_tests_cant": "Tests measure an error on a few pictures with one decoder; the claim bounds it for all pictures and for any conforming decoder.", "anchors": ["src/jpeg/mod.rs: encode, encode_into", "src/jpeg/dct.rs: dct_2d", "src/jpeg/quantize.rs: quantize_block, QuantizationTables"]}
{"id": "C76", "title": "The JavaScript interface encodes what it is given", "statement": "encodePng with lossy = false, for every preset and colour code 0..3, gives a PNG file that decodes to the same dimensions and pixels (preset 0: the same bytes and colour type; other presets may change the hidden colour of fully transparent pixels). With lossy = true nothing visible changes if the image has at most 256 colours and fewer than 100000 pixels. encodeJpeg with the fast or balanced preset gives a file of the fidelity of C75 at the requested size, quality and subsampling. Other colour codes are refused, and bytesPerPixel gives 1, 2, 3, 4.", "quantifier": "every image, size, preset byte, quality and colour code", "why_tests_cant": "Tests call the bindings with a handful of presets and images; the claim is over all of them.", "anchors": ["src/wasm.rs: encode_png, encode_jpeg, bytes_per_pixel, color_type_from_u8", "src/png/mod.rs: PngOptionsBuilder, PngOptions::from_preset_with_lossless", "src/jpeg/mod.rs: JpegOptionsBuilder"]}
{"id": "C77", "title": "PNM files are read exactly", "statement": "The command line program reads every conforming binary PGM or PPM file with maximal value 255, with comments and white space anywhere the format allows, as exactly the raster it contains; and whatever it reads as a non-empty PNM image is such a file, up to form feeds as white space and plus signs.", "quantifier": "every file; every header layout, size and raster", "why_tests_cant": "Header layouts are unbounded, and acceptance of non-files cannot be tested exhaustively.", "anchors": ["src/bin/pixo.rs: read_token, decode_pnm, decode_pnm_from_bytes, detect_format, load_image"]}
{"id": "C78", "title": "No PNM file crashes the program", "statement": "For every input that starts with a PNM magic number the program returns an image of the size the header gives, or an error message.", "quantifier": "every byte string", "why_tests_cant": "The bad headers are those whose size product overflows; random tests do not write them.", "anchors": ["src/bin/pixo.rs: decode_pnm_internal, decode_pnm"]}
{"id": "C79", "title": "The command line program converts pictures faithfully", "statement": "Converting any conforming PNM or PNG file to PNG gives a file with the same dimensions and pixels whatever the preset, level, filter and flags; with --grayscale, pixels within one level of BT.601 luma, and grays unchanged; a PNM file comes back byte for byte without --optimize-alpha, --reduce-color and --grayscale. Converting to JPEG (presets fast, balanced or none) gives a conforming file of the picture without its alpha channel, with the requested quality and subsampling and the fidelity of C75.", "quantifier": "every PNM or PNG file in the encoders' limits and every combination of arguments", "why_tests_cant": "The options combine to thousands of configurations, each over all pictures.", "anchors": ["src/bin/pixo.rs: main, encode options, to_grayscale, rgba_to_rgb"]}
{"id": "C80", "title": "Standard input behaves like a file", "statement": "The output written for an image read from standard input is the output written for the same bytes read from a file.", "quantifier": "every byte string and every arguments with an output", "why_tests_cant": "Needs inputs of gigabytes.", "anchors": ["src/bin/pixo.rs: main, load_image_from_bytes, detect_format_from_bytes"]}
{"id": "C81", "title": "Compression hardly ever makes data larger", "statement": "The zlib functions write at most 5 bytes per started 65535 input bytes plus 6 more than their input; a PNG file is at most n + n/8000 + 1200 bytes, where n is the height times (bytes per row + 1), with every option including colour quantisation and for indexed images.", "quantifier": "every input and every setting", "why_tests_cant": "Incompressible inputs of every size and structure, through every path that chooses between block types.", "anchors": ["src/compress/deflate.rs: deflate_zlib, deflate_zlib_packed, deflate_optimal_zlib, stored fallback", "src/png/mod.rs: encode, encode_indexed_into"]}
{"id": "C82", "title": "Decoded data is bounded by the file", "statement": "Inflating any bytes gives at most 1032 times as many bytes; a PNG file decodes to at most 33024 times its own size.", "quantifier": "every byte string, conforming or not", "why_tests_cant": "Decompression bombs are crafted, not found at random.", "anchors": ["src/decode/inflate.rs: inflate, inflate_zlib_with_size", "src/decode/png.rs: decode_png"]}
{"id": "C83", "title": "Memory reserved by the PNG decoder is bounded by the file", "statement": "The memory asked for before decompression is at most a constant times the size of the file.", "quantifier": "every byte string", "why_tests_cant": "Needs a header that lies about the size; ordinary files never do.", "anchors": ["src/decode/inflate.rs: inflate_with_size", "src/decode/png.rs: calculate_expected_size"]}
{"id": "C84", "title": "Cut-off compressed data and PNG files are refused", "statement": "Every proper beginning of a DEFLATE or zlib stream that keeps to its RFC is refused with an error; every proper beginning of a PNG file made of well-formed chunks that ends with IEND (in particular of every file this encoder writes) is refused with an error; bytes after the end of a file that decodes make no difference.", "quantifier": "every stream and file, whoever wrote it, and every place to cut it", "why_tests_cant": "A cut can fall anywhere, and a beginning of a bit stream could by chance be a complete one.", "anchors": ["src/decode/inflate.rs: inflate, inflate_zlib", "src/decode/png.rs: decode_png", "src/png/mod.rs: encode"]}
{"id": "C85", "title": "Cut-off JPEG files are refused", "statement": "Every proper beginning of a JPEG file that lacks a part of its headers or of its scan is refused with an error instead of decoded to a picture with missing parts.", "quantifier": "every JPEG file and every place to cut it", "why_tests_cant": "A cut can fall anywhere in entropy-coded data of any content.", "anchors": ["src/decode/jpeg.rs: decode_jpeg, decode_scan, read_marker"]}
{"id": "C86", "title": "Huffman codes are as short as possible", "statement": "For every table of frequencies, no prefix code with words within the length limit codes the symbols in fewer bits than the code that is built.", "quantifier": "every frequency table and limit, every competing code", "why_tests_cant": "Tests compare with particular expected lengths; that nothing better exists is a statement about all codes.", "anchors": ["src/compress/huffman.rs: build_codes, limit_code_lengths"]}
{"id": "C87", "title": "Each PNG row gets the filter that was asked for", "statement": "With FilterStrategy None, Sub, Up, Average or Paeth every row is filtered with that filter; with MinSum (and Adaptive) every row gets a filter whose bytes have the least sum of absolute values, and with Bigrams one with the fewest different pairs of neighbouring bytes, among all five filters.", "quantifier": "every image, row layout and bytes-per-pixel, sequential and parallel", "why_tests_cant": "That no other filter scores better is a statement about all contents of a row and all five filters.", "anchors": ["src/png/filter.rs: apply_filters_with_row_bytes, adaptive_filter, bigrams_filter, score_filter, score_bigrams", "src/png/mod.rs: FilterStrategy"]}
{"id": "C88", "title": "The parallel feature does not change PNG files", "statement": "png::encode and encode_into give the same bytes whether the crate was built with or without the feature `parallel`.", "quantifier": "every image and all options", "why_tests_cant": "A test binary is built with one setting; the two paths would have to be compared on all images.", "anchors": ["src/png/filter.rs: apply_filters_with_row_bytes, apply_filters_parallel", "Cargo.toml: parallel", "src/png/mod.rs: encode, encode_into"]}
{"id": "C89", "title": "Progressive JPEG scans have their blocks in the order of the standard", "statement": "Every scan of a progressive file codes the blocks of its component from left to right and from top to bottom (T.81 A.2.2, scans of one component), so that a conforming decoder puts every block where it belongs.", "quantifier": "every valid image, quality, subsampling, with and without trellis quantisation", "why_tests_cant": "The order only shows when the scan is read with a conforming progressive decoder, for every size of picture; the crate itself cannot decode progressive files.", "anchors": ["src/jpeg/mod.rs: encode_progressive, compute_all_coefficients, encode_dc_scan, encode_ac_scan, JpegOptions::max", "src/jpeg/progressive.rs: simple_progressive_script"]}
{"id": "C90", "title": "The JPEG decoder refuses what it does not support", "statement": "A JPEG file of a coding process other than baseline (progressive, extended, lossless, hierarchical, arithmetic), of a precision other than 8 bits, with a number of components other than one and three, or with its number of lines given after the scan, is refused with an error: decode_jpeg neither panics nor returns a picture.", "quantifier": "every such file, with any tables, application data and comments in any order, and any data after the scan header", "why_tests_cant": "There are twelve other kinds of frames, each with any content before and after the frame header; tests sample a progressive file or two.", "anchors": ["src/decode/jpeg.rs: decode_jpeg, JpegDecoder::decode, read_marker, parse_sof0, parse_sos, decode_scan"]}
{"id": "C91", "title": "Decoded JPEG pictures are well formed", "statement": "If decode_jpeg returns a picture, its colour type is Gray or RGB and its pixel data has exactly width times height times the bytes of a pixel.", "quantifier": "every byte string, valid JPEG file or not", "why_tests_cant": "Damaged files leave the decoder in states no test lists; the callers index the pixel data by width and height.", "anchors": ["src/decode/jpeg.rs: decode_jpeg, JpegDecoder::decode, read_marker, parse_sof0, parse_sos, decode_scan", "src/decode/jpeg.rs: ycbcr_to_rgb, JpegImage"]}
{"id": "C92", "title": "Decoded JPEG data is bounded by the file", "statement": "The size of the pixel data decode_jpeg returns is at most a fixed multiple of the size of the file.", "quantifier": "every byte string decode_jpeg accepts", "why_tests_cant": "The worst case over all files is not found by examples; it decides whether an upload can exhaust memory.", "anchors": ["src/decode/jpeg.rs: decode_jpeg, JpegDecoder::decode, read_marker, parse_sof0, parse_sos, decode_scan"]}
{"id": "C93", "title": "Palette reduction stays within the colours of the picture", "statement": "When a PNG is written with a reduced palette, no channel of any decoded pixel lies outside the range that channel has in the original picture, with or without dithering. So an opaque picture stays opaque, and a picture without green gets none. A gray picture stays gray.", "quantifier": "every RGB or RGBA picture within the size limit, every palette size, with and without dithering", "why_tests_cant": "The palette comes from sums and divisions over all the pixels; an overflow or a box without pixels shows only for some histograms.", "anchors": ["src/png/mod.rs: encode_into, quantize_image, should_quantize_auto, median_cut_palette, refine_palette_kmeans, PaletteLut, QuantizationOptions"]}
{"id": "C94", "title": "Palette reduction keeps pictures that need none", "statement": "A picture with no more colours than the palette may have is written without loss, in automatic and in forced mode.", "quantifier": "every RGB or RGBA picture with at most max_colors (at most 256) different colours, of any size", "why_tests_cant": "The sampling that breaks it starts at 100000 pixels and depends on the place of the rare colour.", "anchors": ["src/png/mod.rs: encode_into, quantize_image, should_quantize_auto, median_cut_palette, refine_palette_kmeans, PaletteLut, QuantizationOptions"]}
{"id": "C95", "title": "When automatic mode reduces the palette", "statement": "In automatic mode a picture below 40000 pixels is reduced exactly if it has more than max_colors and at most 32 times max_colors different colours; otherwise it is written without loss.", "quantifier": "every picture, every max_colors", "why_tests_cant": "The count of colours over all pictures and both boundaries.", "anchors": ["src/png/mod.rs: encode_into, quantize_image, should_quantize_auto, median_cut_palette, refine_palette_kmeans, PaletteLut, QuantizationOptions"]}
{"id": "C96", "title": "Pixels get the nearest palette colour", "statement": "Without dithering each pixel of a reduced picture is shown in the nearest colour, by the weighted distance, of all the colours the reduced picture shows.", "quantifier": "every RGB or RGBA picture, every palette size, every pixel", "why_tests_cant": "2^32 colours against every palette; the shortcut for opaque colours fails only near the middle between two entries.", "anchors": ["src/png/mod.rs: encode_into, quantize_image, should_quantize_auto, median_cut_palette, refine_palette_kmeans, PaletteLut, QuantizationOptions"]}
{"id": "C97", "title": "Palette reduction does not depend on where the pixels are", "statement": "Without dithering, equal pixels become equal pixels, and two pictures with the same pixels in another order (flipped, rotated, another width, RGB or opaque RGBA) have each colour replaced by the same colour.", "quantifier": "every pair of such pictures, every palette size", "why_tests_cant": "All permutations of all pictures.", "anchors": ["src/png/mod.rs: encode_into, quantize_image, should_quantize_auto, median_cut_palette, refine_palette_kmeans, PaletteLut, QuantizationOptions"]}
{"id": "C98", "title": "Optimised JPEG tables do not cost bytes", "statement": "With optimised Huffman tables a JPEG file is never longer than with the standard tables, and no other code for the same symbols takes fewer bits.", "quantifier": "every picture and every option; every set of symbol counts; every prefix code", "why_tests_cant": "It compares with every possible code, and the loss shows only on pictures whose symbols happen to fit the standard tables.", "anchors": ["src/jpeg/huffman.rs: build_code_lengths, build_bits_vals, optimized_from_counts", "src/jpeg/mod.rs: optimize_huffman, encode_into"]}
{"id": "C99", "title": "A JPEG file is bounded by its picture", "statement": "Whatever the pixels and the options, encoding an accepted picture gives a file of at most 1500 bytes and 432 bytes for every 8x8 block its picture is coded in (one plane of blocks for gray, three for colour, six blocks for every 16x16 pixels of subsampled colour).", "quantifier": "every accepted picture, quality, sampling, restart interval, table and mode option, with the encoder's own f32 transform and trellis", "why_tests_cant": "The worst case depends on every coefficient needing the longest code and every byte being stuffed, for pictures of any size.", "anchors": ["src/jpeg/mod.rs: encode, encode_into, encode_scan", "src/jpeg/progressive.rs: encode_dc_first, encode_ac_first, flush_eob_run", "src/bits.rs: BitWriterMsb"]}
{"id": "C100", "title": "Restart markers are where the file says", "statement": "A JPEG file written with restart interval i has, in every scan, a restart marker after every i minimum coded units but the last ones, numbered 0 to 7 in turn, and no other marker; a file without an interval has none.", "quantifier": "every accepted picture, every option, every interval", "why_tests_cant": "Positions and numbers must be right for every picture size, interval and mode; tests look for one marker.", "anchors": ["src/jpeg/mod.rs: encode_into, encode_scan, encode_progressive, write_dri"]}
{"id": "C101", "title": "Options that concern the file leave the picture alone", "statement": "The sampling option does not change the file of a gray picture. A file with optimised Huffman tables decodes to the same picture as one with the standard tables.", "quantifier": "every accepted picture and option (for the decoded picture: baseline, at most one restart interval)", "why_tests_cant": "It is an equality of two runs for all pictures.", "anchors": ["src/jpeg/mod.rs: JpegOptions, encode_into", "src/decode/jpeg.rs: decode_jpeg"]}
{"id": "C102", "title": "Asking for trellis quantisation has an effect", "statement": "With the trellis option the coefficients of a file are those of the trellis quantiser, without it those of plain rounding.", "quantifier": "every accepted picture and every other option", "why_tests_cant": "Tests see that both settings give valid files, not which quantiser was used.", "anchors": ["src/jpeg/mod.rs: JpegOptions::trellis_quant, encode_scan, quantize_dct", "src/jpeg/trellis.rs: trellis_quantize"]}
{"id": "C103", "title": "Trellis quantisation is optimal", "statement": "The values trellis quantisation chooses minimise estimated rate plus lambda times squared error; in particular they never cost more than plain rounding.", "quantifier": "every block of coefficients and every quantisation table", "why_tests_cant": "The search prunes states; that it still finds the optimum is a statement about all blocks and all alternatives.", "anchors": ["src/jpeg/trellis.rs: trellis_quantize, estimate_ac_rate, estimate_zrl_rate, estimate_eob_rate"]}
{"id": "C104", "title": "Successive approximation follows the format", "statement": "The progressive coder's first and refinement scans produce the bits the JPEG standard prescribes: first scans send each coefficient without its low bits, refinement scans send one more bit of each.", "quantifier": "every list of blocks of representable coefficients, every band and bit position, every usable Huffman table", "why_tests_cant": "Correction bits, zero runs and end-of-band runs interact; the tests check only that some bytes come out.", "anchors": ["src/jpeg/progressive.rs: encode_dc_first, encode_dc_refine, encode_ac_first, encode_ac_refine", "src/jpeg/mod.rs: encode_dc_scan, encode_ac_first_scan, encode_ac_refine_scan"]}
{"id": "C105", "title": "Progressive scan scripts are complete", "statement": "Both scan scripts send every coefficient of all three components exactly once down to its last bit, each refinement continuing where the previous scan stopped, in bands the format allows.", "quantifier": "every component and every coefficient index", "why_tests_cant": "Tests look at the number of scans, not at coverage of each coefficient and bit.", "anchors": ["src/jpeg/progressive.rs: default_progressive_script, simple_progressive_script", "src/jpeg/mod.rs: encode_progressive scan dispatch"]}
{"id": "C106", "title": "AVX2 colour conversion agrees with the scalar one", "statement": "The AVX2 conversion of an RGB row gives, for each pixel in order, integers within one of the scalar conversion (centred at zero) and within 0.51 of the exact BT.601 weights; it never overflows.", "quantifier": "every row of bytes, of any length", "why_tests_cant": "16.7 million colours in eight lanes and a scalar tail; tests look at a few.", "anchors": ["src/simd/x86_64.rs: rgb_to_ycbcr_row_avx2", "src/color.rs: rgb_to_ycbcr"]}
{"id": "C107", "title": "Threads do not change results", "statement": "However the threads of the parallel feature interleave, a Lanczos resize, a row-parallel PNG filter pass and the JPEG coefficient computation give the result of the sequential computation, and never anything else.", "quantifier": "every accepted input and every interleaving of the writes of the tasks", "why_tests_cant": "A test sees one schedule per run.", "anchors": ["src/resize.rs: resize_lanczos3", "src/png/filter.rs: apply_filters_parallel", "src/jpeg/mod.rs: compute_all_coefficients_parallel, compute_all_coefficients_sequential, unzip3"]}
{"id": "C108", "title": "Lanczos resizing is the Lanczos average", "statement": "A sample of an image resized with Lanczos3 is, along rows and then along columns, the average of the source samples weighted with the kernel sinc(x) sinc(x/3) around the exact source position, limited to 0..255, within one level.", "quantifier": "every accepted image, source and target size, and every sine accurate to 2^-22 of its argument", "why_tests_cant": "Tests check sizes and a few flat or gradient pictures; the weights of single samples show only in high-contrast detail.", "anchors": ["src/resize.rs: lanczos_kernel, precompute_contributions, resize_lanczos3"]}
{"id": "C109", "title": "Flat images stay flat under Lanczos", "statement": "An image whose samples are all equal, enlarged with Lanczos3, has samples all equal to that value.", "quantifier": "every value, colour type, source and target size with no side reduced, every sine accurate to 2^-22 of its argument", "why_tests_cant": "The normalisation of the float weights must be right at every one of millions of positions.", "anchors": ["src/resize.rs: lanczos_kernel, precompute_contributions, resize_lanczos3"]}
{"id": "C110", "title": "The quality argument of trellis quantisation", "statement": "trellis_quantize_adaptive accepts every documented quality (1 to 100), keeps every coefficient or drops it, and with a higher quality the squared error of the quantised block is not larger.", "quantifier": "every block of coefficients, table of divisors 1..255 and pair of qualities", "why_tests_cant": "The tests only call it with a few qualities and look at one block each; a comparison over all blocks needs the search itself.", "anchors": ["src/jpeg/trellis.rs: trellis_quantize_adaptive, trellis_quantize"]}
{"id": "C111", "title": "Long runs of equal bytes compress", "statement": "Every DEFLATE and zlib entry point turns data of n bytes made of r runs of equal bytes into at most n/43 + 1680 r bytes plus a constant below 9000, at every level and whatever was compressed before: flat data shrinks.", "quantifier": "every byte string up to 2^31 bytes, level, state of the pool of compressors and Huffman heap order", "why_tests_cant": "Tests compress a few repetitive strings; a matcher that loses its hash chain, stays in its incompressible mode or splits runs at some offset only shows for particular lengths and neighbours.", "anchors": ["src/compress/deflate.rs: deflate, deflate_packed, deflate_zlib, deflate_zlib_packed, is_high_entropy_data", "src/compress/lz77.rs: Lz77Compressor::compress_into, find_best_match"]}
{"id": "C112", "title": "Resizing from JavaScript and presets with a lossless flag", "statement": "resizeImage with a documented colour code (0-3) and algorithm code (0 nearest, 1 bilinear, 2 Lanczos) returns exactly what resize returns for that colour type, algorithm and sizes, a picture of the size asked for; every other code is refused whatever the data. PngOptions::from_preset_with_lossless with lossless = true keeps every visible pixel (every byte with preset 0), with lossless = false too for up to 256 colours below 100000 pixels, and writes the same file as encodePng with the same preset and flag.", "quantifier": "every data, size, u8 code, preset, colour type and platform sine", "why_tests_cant": "The WebAssembly layer is not compiled into the unit tests; a swapped pair of sizes or codes shows only for non-square pictures or particular codes.", "anchors": ["src/wasm.rs: resize_image, resize_algorithm_from_u8, color_type_from_u8", "src/png/mod.rs: PngOptions::from_preset_with_lossless"]}
{"id": "C113", "title": "The SSE4.2 checksum is CRC-32C", "statement": "The hardware checksum routine computes CRC-32C (the iSCSI checksum) of data of every length; it is not the CRC-32 of PNG chunks that its documentation promises.", "quantifier": "every byte string", "why_tests_cant": "Its tests only compare it with itself or check that it is deterministic; agreement over the 8, 4, 2 and 1 byte steps for every length needs the algebra of the instruction.", "anchors": ["src/simd/x86_64.rs: crc32_hw"]}
{"id": "C114", "title": "The public f32 inverse DCT inverts the DCT", "statement": "jpeg::dct::idct_2d returns the inverse DCT of its block to within a rounding error.", "quantifier": "every block of finite coefficients whose magnitudes add up to at most 2^50", "why_tests_cant": "Its tests transform a flat block and one gradient; the error depends on the frequency, and is largest for waves whose cosine is evaluated near pi.", "anchors": ["src/jpeg/dct.rs: idct_2d, cos_approx"]}
{"id": "C115", "title": "Nearest neighbour resizing by whole factors is exact", "statement": "Enlarging by whole factors with the nearest algorithm repeats every pixel exactly, reducing by whole factors takes the pixel in the middle of each rectangle (the right and lower one where there are two), and enlarging by whole factors and going back gives the original bytes.", "quantifier": "every image, colour type and pair of factors with sides below 2^20 pixels", "why_tests_cant": "Source positions are computed in binary32; a rounding error at one of a million positions duplicates or drops a column, and tests use small pictures and factors of two.", "anchors": ["src/resize.rs: resize, resize_nearest"]}
{"id": "C116", "title": "Gray pictures stored as RGB stay gray in JPEG files", "statement": "A picture with equal red, green and blue samples comes back from a baseline JPEG file with equal red, green and blue, and with exactly the levels the same picture has when it is encoded as grayscale.", "quantifier": "every gray picture, size, quality, sampling and table option, baseline files with at most one restart interval", "why_tests_cant": "A colour cast of one level in one block of one picture is enough to break it; it needs the colour conversion, chroma averaging at the edges, the f32 transform and the inverse to be exactly neutral for all pictures.", "anchors": ["src/jpeg/mod.rs: encode_with_options", "src/color.rs: rgb_to_ycbcr", "src/decode/jpeg.rs: decode_jpeg"]}
{"id": "C117", "title": "Bilinear resizing keeps the pixels it lands on", "statement": "When the first and last pixels of source and result are matched, every result pixel that falls exactly on a source pixel equals it; in particular the four corners stay, and enlarging w by h to (w-1)k+1 by (h-1)l+1 and going back returns the same bytes.", "quantifier": "every picture whose width and height add up to at most 8192, colour type, new size and position", "why_tests_cant": "Positions are rounded f32 quotients and products, so whether the position falls just before or just after a pixel varies with the sizes; tests try a few sizes.", "anchors": ["src/resize.rs: resize_bilinear, resize"]}
{"id": "C118", "title": "Nearest and bilinear resizing keep the order of brightness", "statement": "If in some channel no pixel of one picture exceeds the same pixel of another picture of that size, the same holds of the two pictures after nearest neighbour or bilinear resizing; and a channel of the result depends on that channel only.", "quantifier": "every two pictures of equal size, colour type and new size (for bilinear, sizes at which C44 holds), and every channel", "why_tests_cant": "It compares two runs on arbitrary pictures through f32 arithmetic, where each rounding could reverse the order.", "anchors": ["src/resize.rs: resize_nearest, resize_bilinear, resize"]}
{"id": "C119", "title": "Changes to a picture stay in their square of its JPEG file", "statement": "Two pictures encoded with the same options decode to pictures that are equal in every square of 8 by 8 pixels (16 by 16 for colour with 4:2:0 sampling) in which the originals are equal: nothing outside a square, such as a part painted over before saving, shows in it.", "quantifier": "every two pictures of equal size, every quality, sampling and table option, every square, including those cut by the border; baseline files with at most one restart interval", "why_tests_cant": "It compares two runs on arbitrary pictures, through differences of DC values, Huffman tables made from the whole picture, chroma averaging and edge repetition.", "anchors": ["src/jpeg/mod.rs: encode", "src/decode/jpeg.rs: decode_jpeg"]}
{"id": "C120", "title": "A JPEG file treats every square of a picture alike", "statement": "A whole square of 8 by 8 pixels (16 by 16 for colour with 4:2:0 sampling) decodes to the same pixels at whatever place of whatever picture it is found, at a whole number of squares' distance, for the same colour type, quality and sampling. So cutting a picture along squares before or after saving gives the same pixels.", "quantifier": "every two pictures of any sizes with equal colour type, quality and sampling (restart intervals and Huffman tables may differ), every whole square and distance; baseline files with at most one restart interval", "why_tests_cant": "It compares two runs on arbitrary pictures of different sizes; the file of a square depends on everything before it through DC differences and Huffman tables.", "anchors": ["src/jpeg/mod.rs: encode", "src/decode/jpeg.rs: decode_jpeg"]}
{"id": "C121", "title": "Resizing treats rows and columns alike", "statement": "Exchanging the rows and columns of a picture before or after resizing it gives the same picture with the nearest neighbour method, and a picture that differs by at most one level with the bilinear method.", "quantifier": "every picture, colour type and new size the function accepts (bilinear: width plus height at most 8192)", "why_tests_cant": "It compares two runs on arbitrary pictures and sizes; a slip in one axis only (a ratio, a clamp, a row length) shows on few of them.", "anchors": ["src/resize.rs: resize_nearest, resize_bilinear, resize"]}
{"id": "C122", "title": "Every channel is resized as a gray picture by itself", "statement": "Taking one channel out of a picture as a gray picture and resizing it, with any of the three methods, gives that channel of the resized picture. So resizing commutes with converting gray to RGB or adding alpha, and no channel leaks into another.", "quantifier": "every picture, colour type, channel, new size and method (bilinear: sizes at which C44 holds); any sine function", "why_tests_cant": "It compares two runs on arbitrary pictures with different pixel sizes, through f32 arithmetic.", "anchors": ["src/resize.rs: resize_nearest, resize_bilinear, resize_lanczos3, resize"]}
{"id": "C123", "title": "Nearest resizing treats left and right alike", "statement": "Resizing the mirror image of a picture with the nearest neighbour method gives the mirror image of the resized picture.", "quantifier": "every picture and its mirror image, colour type and new size", "why_tests_cant": "It compares two runs on arbitrary pictures; whether it holds depends on how f32 positions half way between two pixels are rounded.", "anchors": ["src/resize.rs: resize_nearest, resize"]}
