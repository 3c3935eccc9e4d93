# Formal model of leerob/pixo in Rocq

The model lives in `rocq/theories`. Model files contain definitions only, each citing `/repo` file and lines.
Proof files contain lemmas. `Prop*.v` files contain only the property theorems and `Print Assumptions`.

## Conventions

- Machine integers are `Z`, with the wrap (`mod 2^k`) or an explicit `Panic` outcome written where the Rust code can wrap or panic.
- Bytes are `Z` with the side condition `0 <= b < 256` (`Forall is_byte`), discharged on every output.
- `&mut` parameters become returned values; `Result`/`Option` stay data; panic is an explicit outcome.
- Loops are structural recursion or fuel; running out of fuel is a separate outcome excluded by theorems.

## Plan per property

- **C01** Model deflate (all levels, both token paths, fixed/dynamic choice) and inflate as executable functions on bytes; prove inflate (deflate d l) = Ok d by refinement to bit lists: writer appends bits, reader consumes them; per-token decode lemma; induction on tokens; LZ77 expansion (C08) closes it.
- **C02** zlib header/trailer model around C01, plus C13 for the checksum; header bits checked by finite sweep.
- **C03** PackedToken bit layout by arithmetic on the packed word; induction over tokens shows both encoders write equal streams.
- **C04** deflate_stored as recursion on 65535-byte chunks; induction on the chunk count.
- **C05** The LZ77 invariant allows ANY leftover hash table / cache contents, so the round trip is proved for an arbitrary starting state; lifted to any history by induction over the list of calls.
- **C06** The dynamic program over IEEE binary32 costs (SpecFloat, reasoned about with Flocq); `f32::log2` is an arbitrary function with finite values in 0..32 on 1..2^32-1. Invariant: every row's back pointer is a literal or a valid match, so the trace expands to the data; costs stay finite, so every row is reached.
- **C07** Splits modelled as an arbitrary list of indices (what the cost search can return), blocks decode independently with shared output window.
- **C08** Full model of compress_into_sink with hash heads/prev arrays as functions with arbitrary initial contents; loop invariant: tokens emitted so far expand to the prefix.
- **C09** Heap-based Huffman tree modelled with a pop-min specified only up to ties (Rust BinaryHeap tie order not modelled); limit_code_lengths modelled exactly; Kraft sum invariant.
- **C10** Canonical assignment by first-code per length; interval (Kraft) argument for prefix-freeness; decoder tables (9-bit lookup + slow path) proved equal to abstract canonical decoding.
- **C11** rle_code_lengths modelled with its inner loops; decode loop of inflate_dynamic; strong induction on runs.
- **C12** Finite sweep over all lengths and distances by vm_compute, lifted by forallb_forall.
- **C13** Chunked loop against the prefix-sum definition; overflow bound by arithmetic on 5552*255.
- **C14** Slicing-by-8 against the bitwise definition: xor-linearity of the CRC step.
- **C15** CRC step is injective in the register and in the byte, so states that differ once stay different.
- **C16** Inflate model carries an explicit Panic outcome at every index/shift/overflow; theorem: outcome is never Panic nor OutOfFuel, for fuel linear in the input bits.
- **C17** Inversion of the zlib model.
- **C18** Writer state = (bytes, bit buffer, count) refines list bool; reader likewise.
- **C19** BitWriterMsb refines list bool with stuffing function; no-marker predicate by induction over writes.
- **C20** Compose C21, C02, C27 and decode_png model.
- **C21** Row-level inverse for each filter (wrapping arithmetic mod 256), induction over pixels and rows; strategies are functions into the five filters.
- **C22** Pixel-list semantics spec (expand to RGBA); reductions proved to preserve it.
- **C23** Permutation proof for the reorder; connectivity of the pixel grid shows the co-occurrence graph is connected so no colour is repeated.
- **C24** Refuted by a concrete image through the encoder and decoder models; plus the positive theorem for images whose max sample > 15 and for the pack/unpack layer.
- **C25** pack_bits_rows/unpack_row as functions of width; induction over bytes in a row.
- **C26** Map over pixels.
- **C27** Chunk list grammar spec; parse function independent from the writer.
- **C28** encode_into as function of the old buffer returning (result, new buffer).
- **C29** Same model: equality of new buffers for any two old buffers.
- **C30** strip_metadata_chunks on any concatenation of well-formed chunks = concatenation of the kept ones.
- **C31** decode_png model with Panic outcomes; totality by case analysis, length by induction.
- **C32** quantize_image model with float centroids abstracted; index/palette bounds.
- **C33** encode_block against decode_block on bit lists using C10-like canonical decode for 16-bit JPEG tables.
- **C34** Deterministic heap order (freq, idx) modelled exactly; Kraft sum 1/2.
- **C35** Refuted with concrete byte strings; positive theorem that names every cause a panic can have.
- **C36** Refuted with a concrete stream, or proved for the reader as modelled.
- **C37** Refuted with two empty AC blocks.
- **C38** Refuted for grayscale.
- **C39** Refuted with a single-coefficient block; the transform is proved to be the T.81 one on even frequencies and to drop the odd ones.
- **C40** Finite sweep over 256 qualities and 64 positions.
- **C41** Linear arithmetic over all r,g,b.
- **C42** Arithmetic on powers of two.
- **C43** binary32 by Flocq/SpecFloat; rounding monotonicity.
- **C44** Flocq error bounds or refutation by computing with SpecFloat.
- **C45** Part of the header model; read back the big-endian fields.
- **C46** 8-byte chunk comparison model with trailing zeros of the xor.
- **C47** Fold over the palette keeping the minimum.
- **C48** Chunk assembly model against an independent parser (see PropPng).
- **C49** encode_indexed argument checks against a separate validity predicate; indices outside the palette are where the code differs.
- **C50** jencode_into argument checks against `valid_args`; the error value is compared with a separate table of allowed errors.
- **C51** The cached matches equal those of a fresh search at each position: the search tables are a function of the positions inserted so far, once reset.
- **C52** Dynamic-programming argument with rounded addition: x -> rnd(x + t) is monotone, so Bellman's principle survives rounding.
- **C53** The best output only gets replaced by a shorter one.
- **C54** Real-number error bound of the fixed-point products; the round trip by linear arithmetic.
- **C55** resize_into as a function of the old buffer, against a table of checks.
- **C56** Rounding is monotone and has relative error 2^-24; the clamp only moves the index towards the exact position.
- **C57** Each mixing step is a convex combination up to 2^-13; the surface is 255-Lipschitz in each coordinate.
- **C58** From the range (bilinear) and copy (nearest) theorems.
- **C59** Bound on the binary32 window ends; the weights are left arbitrary, since conversion to u8 saturates.
- **C60** Error analysis of the AAN flow graph in binary32 (Flocq), row pass then column pass, against the cosine sums of T.81 A.3.3.
- **C61** C60 plus the correctly rounded division by the step and round-half-away.
- **C62** Invariant of the Viterbi columns: every state's level is one of the candidates made from the f32 quotient.
- **C63** C61 on constant blocks, the decoder model on blocks with only a mean (C39), the colour error of C54; then locality of the transform to its square.
- **C64** Interval bounds for each fixed-point product; refuted by one block.
- **C65** The 1-D transform of a constant is exact.
- **C66** Linear arithmetic on truncated division.
- **C67** Vector registers as functions from lane to value, with the wrap of each instruction; each filter's chunk loop by induction, lane by lane, the 16-bit Paeth arithmetic by bounds.
- **C68** Per-chunk sums of the score; the first differing byte of a chunk from the comparison mask. Every load's bounds are checked in the model.
- **C69** Invariant of the AVX2 and NEON accumulators (weighted sums per 32-byte step); refuted for AVX2 by a counted witness, for SSSE3 by the exact formula of what it returns.
- **C70** C69 plus the decoder's trailer check (C17).
- **C71** Carry-less multiplication and Barrett reduction as written; refuted by computation at the sixteen alignments.
- **C72** The vector lanes compute the scalar operations in the same order; transposes by computation.
- **C73** Specification of any non-interlaced PNG in PngConfSpec.v (chunk sequence, filtered lines, samples, palette, tRNS), independent of the encoder; the chunk loop is followed for any chunk list, then the zlib, unfiltering and conversion theorems apply. Missing: tRNS of gray and RGB images, which the code ignores (refuted).
- **C74** Specification of any baseline file in JpegAnySpec.v (segments with fill bytes, tables in force, block order of T.81 A.2, dequantisation, JFIF colour), independent of the encoder; the header parser is followed over any list of segments, the scan over any blocks and tables, then `idct_even_frequencies_partial` and the colour bound apply. Missing: odd frequencies, which the inverse DCT drops (C39), restart markers (C36), coefficients above 2047, and the samplings refuted below.
- **C75** The encoder's file is shown to be a `conforming_jpeg` of the specification of C74; the T.81 transform is shown orthonormal over the reals (all 128 inner products of rows and of columns, from the product formula for cosines), so the squared error of the samples is that of the coefficients, which C61 bounds.
- **C76-C80** CliModel.v models wasm.rs and src/bin/pixo.rs (argument record, format detection, PNM reader, conversions, option building, `run` from file bytes to output bytes). CliSpec.v defines PNM files by an inductive relation that strips comments. The reader is shown to invert it by induction on the header text, the rest follows from C13-C23, C73 and C75. C78 and C80 are false in corner cases (below).
- **C81-C83** SizeSpec.v has the bounds and a model of the reservation (`Vec::with_capacity`) of the PNG decoder, which the list model of `inflate` does not show. C81 follows the choice of blocks (a coded block is used only if shorter than stored ones) and adds up the chunks. C82: a bit of a DEFLATE stream stands for at most 129 bytes (induction over blocks that the decoder accepts). C83 refuted by a file; for files that decode, from C82 and the size check.
- **C84-C85** TruncProofs.v: a DEFLATE stream is read in one way (if one reading keeps to the RFC, the decoder's more lenient reading is the same), so a complete reading of a beginning would be a reading of the whole that leaves bits unread. PNG: a cut falls inside a chunk, which is then too long for what is left, or before IEND. C85 (TruncJpeg.v): the same for marker segments; refuted for the scan by a conforming file.
- **C86** HuffOptSpec.v defines arbitrary prefix codes and the bits a code takes. HuffOpt.v: Kraft's inequality for arbitrary prefix codes; exchange argument (the two lightest weights may have the longest codes, of equal length) for weights with lengths; induction over the merge loop with any priority queue; the depth bound by Fibonacci numbers shows where the limit is not reached. Refuted at the limit by 17 Fibonacci frequencies.
- **C87** FilterSpec.v: scores as sums and as counts of different pairs, `rows_such` (a statement about every row with the row above), `best_by` (no filter of RFC 2083 scores better). FilterChoice.v: the code's scores are those, each search is within its early-exit bound of every filter (case analysis over the branches), then induction over the rows of the sequential and of the parallel path. Exact minimality of MinSum is refuted.
- **C88** ParallelProofs.v: the statement about every row determines the output, so both paths agree for all strategies without state; the encoder's other steps do not look at the feature. For the default strategy two files are shown to differ: equal files would have equal zlib streams, equal streams inflate to the same scanlines, and the scanlines differ.
- **C89** JpegOrderSpec.v: the sizes of components and the raster order of T.81 A.1.1/A.2.2, independent of the encoder's loops; JpegOrder.v: the collected blocks are these for components with sampling factor 1, and not for 4:2:0 luminance of a two-colour picture (`_refuted`).
- **C90-C92** JpegOtherSpec.v: files up to the first scan header as lists of marker segments of any content, frames of other processes and shapes, and files with the number of lines after the scan. JpegOther.v: the parser is followed over any segments (each either refused or leaves no components), so the scan header finds no components; every block of a conforming scan takes two bits, which bounds the picture; a file without scan is followed for every size.
- **C93-C97** QuantSpec.v: channels, colours of a picture, nearness. QuantMore.v: the palette is built from floor averages of nonempty sets of pixels with positive weights (invariant of the median cut and of both refinement passes), so anything closed under averages carries over; the histogram lists exactly the sampled colours; the sorted keys depend only on the multiset of pixels; the automatic mode counts the distinct sampled keys. Refuted where the sampling or the 6-bit table shows, on a symbolic picture of 100000 pixels and on three gray pixels.
- **C98** JpegHuffOptSpec.v: the cost of a table read off its DHT lists. JpegHuffOpt.v: the merge loop of the JPEG encoder is optimal (exchange argument of C86), its lengths are the depths plus one. JpegHuffOptTop.v: against any prefix code by Kraft's inequality; one bit can be taken off every code word; a column of fifty equal blocks, encoded with the model of the f32 DCT, as counterexample for files.
- **C99** JpegSizeSpec.v: blocks of a picture, the bound. JpegSize.v: induction over the code relations of C33 (27 bits for a DC, 26 for an AC coefficient), stuffing at most doubles the bytes, at most one restart marker for every MCU; the progressive scans from the model with the bits of every symbol, end-of-band run and value counted.
- **C100** JpegRestartSpec.v: the markers inside entropy-coded data. JpegRestartProofs.v: induction over the scan relation of C33 and the segments of C37; a segment without stray 0xFF has no marker.
- **C101** JpegOptions.v: two runs of the encoder side by side; the round trip of C33 for the decoded picture.
- **C102** JpegOptions.v: the trellis setting does not occur in the baseline path. Progressive files: the quantiser named in `pixo_progressive_scans_partial`.
- **C103** TrellisCostSpec.v: the documented cost in exact arithmetic. TrellisOpt.v: a block for which the modelled search is beaten by plain rounding.
- **C104** ProgRefineModel.v: the four scan coders with the dispatch. ProgRefineSpec.v: point transform, first and refinement scan codes of T.81 annex G. ProgRefineProofs.v, ProgRefineTop.v: bits written equal the code under stated restrictions, and counterexamples without them.
- **C105** Same model; every component and index checked against `sends_fully` by enumeration of the finite script.
- **C106** SimdColorModel.v: the eight-lane loop and the tail with binary32 results. SimdColorSpec.v: pixels of a row, closeness. SimdColorProofs.v: no lane wraps; results are exact integers.
- **C107** ThreadsModel.v: schedules as interleavings of single writes; the three parallel loops as relations between input and possible outcomes; the sequential coefficient loops. ThreadsProofs.v: what is read at a place depends only on the task that owns it. ThreadsTop.v: the three instances.
- **C108, C109** LanczosSpec.v: the kernel over the reals, the weighted average, what is asked of the sine. LanczosReal.v: bounds of the kernel. LanczosSum.v: bounds of the sum of the weights of an enlargement. LanczosKernel.v: the binary32 kernel is within 1/200000 of three times the real kernel away from 0, and 1 at 0. LanczosLine.v, LanczosTop.v: error of a whole line; the refuting picture.
- **C110** TrellisAdaptModel.v: the weight computed from the quality in binary32. TrellisAdapt.v: the bounds of C62 for any weight up to 5; the refuting block.
- **C111** RunsSpec.v: number of runs. RunsTokens.v: a potential argument over the main loop of the matcher: inside a run every match reaches the end of the run or 258 bytes, hence at most n/258 + 280 r tokens. RunsBits.v: 48 bits a token and 4569 a block. RunsEntropy.v: the table of 4096 buckets against the number of samples (pigeonhole), binary32 ratio. RunsTop.v: the four entry points.
- **C112** WasmSpec.v: the documented codes. WasmProofs.v: the codes decide the options; then the theorems of PropResize.v and of CliProofs.v.
- **C113** Crc32cModel.v: the instruction as in Intel's manual (reflect, divide modulo 2, reflect). Crc32cSpec.v: the serial register of CRC-32C. Crc32cProofs.v: reflection turns each step of the division into one shift of the register; splitting the data does not matter.
- **C114** JpegIdctFModel.v in binary32, JpegIdctFSpec.v: the exact inverse. JpegIdctFProofs.v: each of the 64 table entries within 0.01269 of the cosine (computed), then error propagation through both passes.
- **C115** NearestProofs.v: enlarging by `k` keeps the exact positions `1/(2k)` away from the thresholds of rounding, which is more than the binary32 error of C56 (`n/2^21` for `n` pixels) while sides stay below 2^20; reducing by an odd `k` puts them on whole numbers.
- **C116** GrayRgbProofs.v: chrominance blocks are flat at 128, which quantise to zero and decode to 128 (C63's lemmas); luminance blocks are those of the gray picture; then C33's round trip on both files.
- **C109** (long lines) LanczosLarge.v: the window of the last pixel of 8388610, computed; its three weights bounded by real bounds of the sine at the multiples of pi.
- **C117** BilinearGrid.v: at a position that lands on a pixel C57's surface is that pixel, and C57's error bound is below one level for these sizes; both are integers. There and back is two such resizes.
- **C118** ResizeMono.v: the positions and weights do not depend on the pixels; weights are not negative and each f32 operation rounds monotonically, so the mixture is monotone in the four pixels. Both directions give channel independence.
- **C119** JpegLocal.v: by C33's round trip each decoded pixel comes from the blocks that cover it; their samples, with the repeated edge and the 2 by 2 averages, lie in the square of the pixel.
- **C120** JpegShift.v: as C119, with the two squares at different places; block numbers move by whole blocks, the tables depend on the quality only.
- **C121** NearestMore.v: the source column and the source row of a position are the same function of the sizes, so both sides look up the same pixel. BilinearTurn.v: C57's surface of the turned picture is the turned surface, and both results are within C57's bound of it.
- **C122** ResizePlane.v: positions and weights depend on the sizes only; nearest and bilinear by their pixel formulas, Lanczos by C59's resampler of lines.
- **C123** NearestMirror.v, NearestReduce.v: from the positions of C115 for whole factors; reducing by whole factors is exact in binary32, so halves are seen to be rounded up; the counterexample by evaluation.


## Trusted base

- Coq 8.16.1 kernel, including `vm_compute` (coqchk re-checks without it).
- `Print Assumptions` is printed under every theorem of the `Prop*.v` files. All are "Closed under the global context" except those about real numbers (`idct_*`) and binary32 arithmetic (PropDeflateOpt.v, PropResize.v, PropJpegDct.v, PropJpegDec.v, PropJpegAny.v, PropJpegFid.v, PropCli.v, PropJpegSize.v, PropJpegRestart.v, PropJpegOptions.v, PropSimdColor.v, PropThreads.v, PropLanczos.v, PropTrellisAdapt.v, PropRuns.v, PropWasm.v, PropIdctF.v, PropIntQuant.v, PropNearest.v, PropGrayRgb.v, PropLanczosLarge.v, PropBilinearGrid.v, PropResizeMono.v, PropJpegLocal.v, PropJpegShift.v, PropJpegGrayProg.v, PropNearestMore.v, PropBilinearTurn.v, PropResizePlane.v, PropNearestMirror.v), which use the standard library's axioms of the classical reals: `ClassicalDedekindReals.sig_not_dec`, `ClassicalDedekindReals.sig_forall_dec`, `FunctionalExtensionality.functional_extensionality_dep`, and through Flocq `Classical_Prop.classic`.
- The reading of the Rust source recorded in the comments of the model files.

### Modelled

`src/bits.rs`, `src/compress/{adler32,crc32,huffman,deflate,lz77}.rs` (including optimal parsing; `f32::log2` is a parameter), `src/decode/{inflate,png,jpeg}.rs`, `src/png/{chunk,filter,mod,bit_depth,palette…}.rs`, `src/jpeg/{huffman,quantize,mod,progressive,trellis}.rs`, `src/jpeg/dct.rs` (the f32 and the integer forward transforms and their quantisers, and the f32 inverse, which only tests call), `src/color.rs` (RGB to YCbCr), `src/resize.rs` (`f32::sin` is a parameter), `src/simd/{mod,x86_64,aarch64}.rs` (SimdModel.v: each intrinsic as a function on lanes), `src/wasm.rs` and `src/bin/pixo.rs` (CliModel.v; the argument parser, file access, messages and timing are not).

### Not modelled

- `src/simd` is modelled (`crc32_hw`, which nothing calls, in Crc32cModel.v). The theorems on whole encoders (PropDeflate.v, PropPng.v, ...) are about the scalar routines. C67, C68 and C72 carry them over to every machine for filters, filter choice, match lengths and the integer DCT. The checksum is different: on x86 the default build uses a vector Adler-32 that is wrong for some data (C69), so C02, C13 and the PNG round trips hold there only for data within the reach of `adler_machine_partial`.
- Threads (`parallel`): ThreadsModel.v lets the single writes of all tasks interleave in any order (C107). Not modelled: rayon itself, and that a task touches only its own part of the result, which the borrow checker ensures.
- Allocation failure, `usize` narrower than 64 bits, time, logging.
- `BinaryHeap` and unstable sorts: where ties can be broken in any order, theorems hold for any order.
- In `src/jpeg`: `powi(2)` is modelled as one f32 product. The theorems of PropJpegEnc.v hold for any transform from 64 samples to 64 coefficients with DC in -1024..1023 and AC in -1023..1023 (`dctq_ok`); PropJpegDct.v proves that of the modelled one and restates them for it (`pixo_*`).
- The f32 costs in block splitting and colour quantisation: arbitrary results of the search.
- Integer overflow is a panic (debug/overflow-check semantics), which is the stronger reading.

### Size limits assumed

Deflate input below 2^32-1 bytes, below 2^32/3 - 1 with optimal parsing (the u32 sum of blended symbol counts can overflow beyond about 2^31 tokens); PNG dimensions as accepted by the encoder (2^24), JPEG 65535.

## Where the code disagrees with a property

- **C24** PNG gray bit-depth reduction is lossy for images whose samples are all below 16 (stored as low-depth samples but scaled on decoding).
- **C34** `build_bits_vals` with 256 equally frequent symbols overflows a `u8` count. Not reachable from the encoder.
- **C35** `decode_jpeg` panics on `FF D8 FF DA 00 03 00` (a scan with no frame and no components), on an 8x8 baseline file whose DC coefficient overflows the i32 inverse DCT, and on one whose DC table gives category 26 (debug assertion in the bit reader).
- **C36** the decoder's bit reader prefetches bytes of the interval after a restart marker, and `reset` throws them away.
- **C37** progressive AC scans emit end-of-band run symbols (0x10, 0x20, ...) that the standard tables do not have; the missing code has length 0, so nothing is written.
- **C38** progressive files of gray images contain scans for components 2 and 3, which they do not declare (`gray_progressive_components_refuted`).
- **C39** the odd part of `idct_1d` is shifted by 13 bits without having been scaled, so odd frequencies vanish.
- **C44** bilinear coordinates round up past the last column for some sources wider than 2^23: 12582914 x 1 resized to 4 x 1 panics.
- **C64** `dct_2d_integer` scales only the results 0 and 4 of the row pass by `PASS1_BITS`, so the other six columns come out four times too small. The encoder does not use it.
- **C69, C70** `adler32_avx2` reduces only every 5568 bytes, where 32-bit sums can wrap: 11136 bytes suffice for a wrong checksum. `adler32_ssse3` leaves out the contribution of the running sum, so on machines without AVX2 every input of 16 to 5551 bytes gets a wrong checksum and the zlib stream is refused.
- **C71** `simd::crc32` with PCLMULQDQ is wrong from 64 bytes on. The PNG encoder does not use it.
- **C73** `decode_png` ignores the tRNS chunk of gray and RGB images: pixels of the transparent colour come back opaque (`png_colour_key_refuted`).
- **C74** blocks of a single-component scan with sampling factors other than 1 are placed as if interleaved (`jpeg_single_component_refuted`); a first component of less than full resolution is read with the wrong width (`jpeg_luma_subsampled_refuted`). Also, without a theorem: factors that do not divide the largest, non-interleaved scans of three components (refused), the Adobe transform flag (ignored).
- **C78** the PNM header `P6 4294967295 4294967295 255 ` makes the program panic on the allocation.
- **C80** an RGB image of 2^32 bytes or more from standard input panics on a u32 product computed for a message.
- **C83** `decode_png` reserves memory for the size in the header before decompressing: 63 bytes ask for 2^51 bytes, which aborts the process.
- **C85** `decode_scan` takes any error in the entropy-coded data (also the end of the file) as the end of the scan and returns a picture whose remaining samples are 0: a file cut right after its start-of-scan header decodes without an error.
- **C86** `limit_code_lengths` lengthens the shortest codes (those of the most frequent symbols) first: with the frequencies 1, 1, 2, 3, 5, ..., 1597 the code takes 11907 bits where 10926 suffice within the limit of 15.
- **C87** `FilterStrategy::MinSum` is documented as "minimizing sum of absolute values", but the search stops at the first filter whose sum is at most a quarter of the row length and one: of two rows 1, 0, 0, 0 the second gets None with sum 1 where Up has 0. The other rows are proved minimal. Images of at most 4096 pixels get Sub instead of a search by Adaptive, AdaptiveFast and Bigrams.
- **C88** `AdaptiveFast`, the default, keeps the filter of the first row for all rows in the sequential path (`last_adaptive_filter`) but chooses per row in the parallel path, so images of more than 4096 pixels and 32 rows give different (equally valid) files in builds with and without `parallel`.
- **C89** A progressive scan has one component, so T.81 A.2.2 wants its blocks from left to right and top to bottom; with 4:2:0 `compute_all_coefficients` collects the luminance blocks MCU by MCU and the scans write them in that order (`progressive_order_refuted`, with the options of `JpegOptions::max`): any conforming decoder shows the 8x8 luminance blocks at wrong places.
- **C90** A frame header with 0 lines (the number follows the scan in a DNL segment, T.81 B.2.5) is neither supported nor refused: every such file decodes to a picture of height 0 (`lines_later_refuted`).
- **C92** Missing tables and a missing scan are not errors (see C85), so 35 bytes decode to a picture of any size up to 65535 x 65535 (`jpeg_bounded_refuted`).
- **C94** From 100000 pixels on, forced quantisation counts only every (pixels / 50000)-th pixel: a colour none of these has is replaced even if the picture has two colours and 256 are allowed (`unsampled_colour_lost`, `few_colours_kept_refuted`).
- **C96** The lookup table for opaque colours has 6 bits per channel: a picture of gray levels 100, 103, 104 reduced to two colours shows the level-103 pixel as 100 although 103 is in the palette and in use (`nearest_shown_refuted`).
- **C97** Because of the same sampling, swapping two pixels of a picture of 100000 changes what they become (`quantized_order_refuted`).
- **C98** The code lengths of optimised JPEG tables are the depths in Huffman's tree plus one (src/jpeg/huffman.rs, `len = depth + 1`): with two or more symbols half of the code space is unused and every symbol takes one bit more than it needs (`optimised_tables_wasteful`). A gray picture of 8 by 400 pixels takes 2579 bytes with the option and 2522 without (`optimised_tables_refuted`).
- **C100** A progressive file declares its restart interval (DRI) but no scan has a restart marker (`restart_markers_never`, `restart_markers_refuted`), so a conforming decoder fails at the end of the first interval.
- **C102** `trellis_quant` has no effect on baseline files: `encode_scan` never looks at it (`trellis_option_refuted`).
- **C103** Trellis quantisation is documented as optimal, but its search keeps eight states: a block exists where plain rounding costs less by the source's own estimate (`trellis_optimal_refuted`).
- **C104** The public successive-approximation functions of src/jpeg/progressive.rs (not called for the script the encoder uses) break the format for al >= 1 and for refinement: the first DC scan shifts the difference instead of the value; the DC refinement takes the bit of the magnitude, wrong for negative values; the first AC scan shifts negative values arithmetically; the AC refinement writes correction bits before the end-of-band symbol, flushes all of them at a run of sixteen zeros, and takes magnitudes strictly between 2^al and 2^(al+1) for already known ones (`dc_first_scan_refuted`, `dc_refine_scan_refuted`, `ac_first_scan_refuted`, `ac_refine_scan_refuted`).
- Also seen, not the subject of a theorem: the PNM reader ends comments only at line feeds; presets of the command line program do not switch on PNG reductions, because absent flags override them.
- **C108** `lanczos_kernel` (src/resize.rs 393-403) multiplies by a = 3 and divides by pi x * (pi x / 3), so it returns three times the kernel for x <> 0 but 1 at x = 0. Weights are normalised, so this is invisible unless a sample sits exactly at the centre while others count. That happens in reductions by odd factors: 0,255,0 reduced to one sample gives at most half of the Lanczos average (`lanczos_mean_refuted`).
- **C110** The cost of a path is rate + lambda * squared error, but lambda is documented and chosen as if it weighed the rate ("higher values favor smaller file sizes"): `trellis_quantize_adaptive` makes lambda smaller for higher quality, so a coefficient 1.5 with divisor 2 is kept with quality 1 and dropped with quality 100 (`adaptive_quality_refuted`). Qualities above 100 panic (u8 underflow, `adaptive_above_panics`).
- **C111** `is_high_entropy_data` counts collisions of up to 8189 4-grams in 4096 buckets, so at least half of a full sample collides and the 5% threshold can only be met by data of 4096 to 4372 bytes (`incompressible_shortcut`): the documented shortcut for random data never fires for longer data. Nothing but time is lost, and C111 holds because of it: the test looks at the first 8192 bytes only and would store all the rest.
- **C113** `crc32_hw` is documented as "Compute CRC32", but the instruction divides by another polynomial (`crc32_hw_is_png_crc_refuted`). Nothing calls it; using it for chunks would make every PNG file invalid.
- **C114** The cosines of `idct_2d` are a Taylor polynomial of degree 8 without reduction below pi, wrong by 0.0127 at 15 pi / 16. A single coefficient of 500 gives a sample wrong by more than 3 levels (`idct_f32_exact_refuted`); in general the error is at most 0.65% of the sum of the coefficients (`idct_f32_partial`). The decoder does not use this function.
- **C109** Lanczos positions beyond 2^23 are rounded to whole numbers: the last of 8388610 pixels is looked up one place after the end, where the weights vanish; they are not normalised then, so a white line ends in black (`lanczos_flat_refuted`).
- **C123** `resize_nearest` rounds positions half way between two pixels away from 0, so reducing by an even factor favours the right and lower pixel: two pixels reduced to one always give the right one (`nearest_mirror_refuted`), and the same happens at every even part of the width (`nearest_mirror_even`). Enlarging by whole factors and reducing by odd ones keep mirror images.

A property that is false is "partial" in MANIFEST.json, with the refutation (`*_refuted`) and the part that holds.
