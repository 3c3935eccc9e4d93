(** Properties of the vector code (C67-C72).  The machine [m] ranges over what the
    run-time detection can choose: AVX2, SSSE3 without AVX2, SSE2 only, no vector unit
    (or the [simd] feature off), NEON. *)
From Verif Require Import Base ChecksumModel ChecksumSpec Lz77Model Lz77Spec PngFilterModel DeflateModel DeflateSpec
  InflateModel JpegBaseModel JpegDecModel JpegDctIntModel SimdModel SimdAdler SimdTop.

(** C67: the four PNG filters give the same bytes on every machine, for rows of any length
    that hold at least one pixel. *)
Theorem filters_machine_independent : forall m row prev bpp, 0 < bpp <= zlen row -> length prev = length row -> bytes row -> bytes prev ->
  simd_filter_sub m row bpp = filter_sub row bpp /\ simd_filter_up m row prev = filter_up row prev /\
  simd_filter_average m row prev bpp = filter_average row prev bpp /\ simd_filter_paeth m row prev bpp = filter_paeth row prev bpp.
Proof. exact simd_filters. Qed.
Print Assumptions filters_machine_independent.
(** The wider Paeth filters, exported though no dispatcher picks them *)
Theorem wide_paeth_same : forall row prev bpp, 0 < bpp <= zlen row -> length prev = length row -> bytes row -> bytes prev ->
  filter_paeth_sse2 row prev bpp = filter_paeth row prev bpp /\ filter_paeth_avx2 row prev bpp = filter_paeth row prev bpp.
Proof. exact x86_paeth. Qed.
Print Assumptions wide_paeth_same.
Example filters_machine_independent_nonvacuous :
  let row := [10; 20; 30; 250; 5; 6; 7; 8; 9; 1; 2; 3; 200; 100; 50; 25; 12; 255; 0] in
  let prev := [1; 200; 3; 40; 50; 6; 70; 8; 90; 10; 110; 12; 130; 14; 150; 16; 170; 18; 190] in
  0 < 3 <= zlen row /\ length prev = length row /\ bytes row /\ bytes prev /\
  simd_filter_paeth Neon row prev 3 = filter_paeth row prev 3 /\ filter_paeth row prev 3 <> Ok row /\
  simd_filter_average Avx2 row prev 3 = filter_average row prev 3 /\ filter_average row prev 3 <> Ok row.
Proof.
  cbv zeta. split; [unfold zlen; cbn; lia|]. split; [reflexivity|].
  do 2 (split; [unfold bytes, is_byte; repeat constructor; lia|]).
  split; [vm_compute; reflexivity|]. split; [vm_compute; discriminate|]. split; [vm_compute; reflexivity|vm_compute; discriminate].
Qed.

(** C68: the filter score and the match length are the same on every machine; the match
    length is the common prefix, and no vector load leaves the buffer. *)
Theorem score_machine_independent : forall m f, bytes f -> zlen f < 2 ^ 57 -> simd_score_filter m f = score_filter f.
Proof. exact simd_score. Qed.
Print Assumptions score_machine_independent.
Theorem match_length_machine_independent : forall m data p1 p2 maxl, bytes data -> 0 <= p1 -> 0 <= p2 -> 0 <= maxl ->
  p1 + maxl <= zlen data -> p2 + maxl <= zlen data ->
  exists n, simd_match_length m data p1 p2 maxl = Ok n /\ match_length_scalar data p1 p2 maxl = Ok n /\ common_prefix data p1 p2 maxl n.
Proof. exact simd_match. Qed.
Print Assumptions match_length_machine_independent.
Example match_length_nonvacuous :
  let data := repeat 7 60 ++ [8] ++ repeat 7 30 in
  map (fun m => simd_match_length m data 0 1 60) [Avx2; Ssse3; Sse2; Scalar; Neon] = [Ok 59; Ok 59; Ok 59; Ok 59; Ok 59] /\
  map (fun m => simd_score_filter m (repeat 200 37)) [Avx2; Ssse3; Sse2; Scalar; Neon] = repeat (37 * 56) 5.
Proof. vm_compute. split; reflexivity. Qed.

(** C69: Adler-32.  The claim "every machine computes the Adler-32 of RFC 1950" is false.
    Proved: it holds without a vector unit and on NEON for all data; on AVX2 for data shorter
    than 11136 bytes or whose bytes are all at most 253; on every machine below 16 bytes. *)
Theorem adler_machine_partial : forall m data, bytes data ->
  (m = Scalar \/ m = Neon \/ (m = Avx2 /\ (zlen data < 11136 \/ Forall (fun b => b <= 253) data)) \/ zlen data < 16) ->
  simd_adler32 m data = Ok (adler_spec data).
Proof. exact simd_adler_good. Qed.
Print Assumptions adler_machine_partial.
(** On AVX2 the low half is always right. *)
Theorem adler_avx2_low_half : forall data, bytes data -> adler32_avx2 data mod 65536 = adler_spec data mod 65536.
Proof. exact avx2_low. Qed.
Print Assumptions adler_avx2_low_half.
(** ... and 11136 bytes are enough for the high half to be wrong: its 32-bit sum wraps. *)
Theorem adler_avx2_refuted : bytes adler_witness /\ adler32_avx2 adler_witness <> adler_spec adler_witness.
Proof. exact (conj witness_bytes witness_values). Qed.
Print Assumptions adler_avx2_refuted.
(** Without AVX2, every input of 16 to 5551 bytes gets a wrong checksum. *)
Theorem adler_ssse3_refuted : forall data, bytes data -> 16 <= zlen data < 5552 ->
  exists v, adler32_ssse3 data = Ok v /\ 0 <= v < 2 ^ 32 /\ v <> adler_spec data.
Proof. exact ssse3_range. Qed.
Print Assumptions adler_ssse3_refuted.
Example adler_machine_nonvacuous :
  let d := map (fun i => (i * 37) mod 254) (idxs 100) in
  bytes d /\ zlen d = 100 /\ map (fun m => simd_adler32 m d) [Avx2; Scalar; Neon] = repeat (Ok (adler_spec d)) 3 /\
  simd_adler32 Ssse3 d <> Ok (adler_spec d).
Proof.
  cbv zeta. split; [apply Forall_forall; intros b H; apply in_map_iff in H; destruct H as (i & <- & _); unfold is_byte; Z.to_euclidean_division_equations; lia|].
  split; [reflexivity|]. split; [vm_compute; reflexivity|vm_compute; discriminate].
Qed.

(** C70: the zlib container.  Where the checksum is right, every machine writes the same
    bytes. *)
Theorem zlib_machine_independent_partial : forall m level data deflated, bytes data -> simd_adler32 m data = Ok (adler_spec data) ->
  zlib_wrap_on m level data deflated = Ok (zlib_wrap level data deflated).
Proof. exact zlib_same. Qed.
Print Assumptions zlib_machine_independent_partial.
(** Without AVX2 what is written for 16 to 5551 bytes is refused by this crate's own decoder,
    whichever compressor made the Deflate stream. *)
Theorem zlib_ssse3_refuted : forall m level data deflated, m = Ssse3 \/ m = Sse2 -> bytes data -> 16 <= zlen data < 5552 ->
  bytes deflated -> deflate_stream deflated data ->
  exists z, zlib_wrap_on m level data deflated = Ok z /\ inflate_zlib z None = Err EInvalidDecode.
Proof. exact zlib_ssse3. Qed.
Print Assumptions zlib_ssse3_refuted.
(** The same on AVX2 for any data whose checksum comes out wrong, [adler_witness] for one. *)
Theorem zlib_avx2_refuted : forall level data deflated, bytes data -> adler32_avx2 data <> adler_spec data -> bytes deflated -> deflate_stream deflated data ->
  exists z, zlib_wrap_on Avx2 level data deflated = Ok z /\ inflate_zlib z None = Err EInvalidDecode.
Proof. exact zlib_avx2_gen. Qed.
Print Assumptions zlib_avx2_refuted.
Example zlib_ssse3_nonvacuous :
  let z trailer := [120; 156; 1; 20; 0; 235; 255] ++ repeat 65 20 ++ trailer in
  zlib_wrap_on Ssse3 6 (repeat 65 20) (deflate_stored (repeat 65 20)) = Ok (z [53; 86; 5; 21]) /\
  inflate_zlib (z [53; 86; 5; 21]) None = Err EInvalidDecode /\
  zlib_wrap_on Neon 6 (repeat 65 20) (deflate_stored (repeat 65 20)) = Ok (z [53; 102; 5; 21]) /\
  inflate_zlib (z [53; 102; 5; 21]) None = Ok (repeat 65 20).
Proof. vm_compute. repeat split; reflexivity. Qed.

(** C71: the exported [simd::crc32].  Right without PCLMULQDQ, and with it below 64 bytes,
    at any alignment. *)
Theorem crc_machine_partial : forall pclmul align data, bytes data -> pclmul = false \/ zlen data < 64 ->
  simd_crc32 pclmul align data = crc_spec data.
Proof. exact simd_crc_good. Qed.
Print Assumptions crc_machine_partial.
(** With it, 80 zero bytes get a wrong CRC at every alignment. *)
Theorem crc_pclmulqdq_refuted : forall align, 0 <= align < 16 -> simd_crc32 true align (repeat 0 80) <> crc_spec (repeat 0 80).
Proof. exact pclmul_wrong. Qed.
Print Assumptions crc_pclmulqdq_refuted.
Example crc_machine_nonvacuous : simd_crc32 true 5 [49; 50; 51; 52; 53; 54; 55; 56; 57] = 0xCBF43926.
Proof. vm_compute. reflexivity. Qed.

(** C72: the integer forward transform gives the same coefficients on every machine. *)
Theorem dct_machine_independent : forall m block out, dct_2d_fast block = Ok out -> simd_dct_2d_fast m block = Ok out.
Proof. exact simd_dct. Qed.
Print Assumptions dct_machine_independent.
Example dct_machine_nonvacuous : let b := map (fun i => (i * 29) mod 256 - 128) (idxs 64) in
  exists out, dct_2d_fast b = Ok out /\ simd_dct_2d_fast Neon b = Ok out /\ simd_dct_2d_fast Avx2 b = Ok out /\ znth out 9 <> 0.
Proof. cbv zeta. eexists. split; [vm_compute; reflexivity|]. split; [vm_compute; reflexivity|]. split; [vm_compute; reflexivity|vm_compute; discriminate]. Qed.
