(** Property theorems for the PNG encoder and decoder. *)
From Coq Require Import Permutation.
From Verif Require Import Base ChecksumModel ChecksumSpec ChecksumProofs InflateModel DeflateSpec InflateProofs Lz77Model
  HuffModel DeflateModel DeflateTop PngFilterModel PngPaletteModel PngQuantModel PngDecModel PngModel PngSpec PngEncSpec
  PngFilterProofs PngPackProofs PngDecProofs PngPaletteProofs PngReduceProofs PngFileProofs PngEncodeProofs PngQuantProofs PngTop PngApi.

(** ** Data for the examples: the real compressor, exact arithmetic in place of
    f32, a stable sort *)
Definition ex_fops : fops := mkF Z (fun x => x) Z.add Z.sub Z.mul Z.div (fun x => Z.max 0 (Z.min 255 x)).
Definition ex_env : env := mkEnv (fast_of list_heap pool_init) (fun _ _ => Panic) ex_fops (fun l => l) false.
(** 3 x 2, RGBA, one fully transparent pixel *)
Definition ex_rgba : list Z := [1;2;3;255; 9;9;9;255; 7;8;9;0;  200;100;0;255; 1;2;3;255; 9;9;9;128].
Definition ex_opts : options := mkOpts 3 2 Rgba 6 SPaeth false false false false false QOff 256 false.

(** The compressor used unless optimal compression is asked for meets the
    condition [comp_ok] of the theorems below, from any state of its pool. *)
Theorem png_compressor : forall H p e o, length p = 10%nat -> o_optimal o = false -> e_fast e = fast_of H p -> comp_ok e o.
Proof. exact fast_comp_ok_l. Qed.
Print Assumptions png_compressor.

(** C20: without reduction, alpha optimisation or quantisation, decoding gives
    back width, height, colour type and every byte. *)
Theorem png_lossless : forall e data o, accepted o data -> comp_ok e o -> small o ->
  o_alpha o = false -> o_reduce o = false -> o_palette o = false -> o_qmode o = QOff ->
  exists f, encode e data o = Ok f /\ decode_png f = Ok (mkImage (o_width o) (o_height o) data (o_ct o)).
Proof. exact lossless_l. Qed.
Print Assumptions png_lossless.
Example png_lossless_nonvacuous : accepted ex_opts ex_rgba /\ comp_ok ex_env ex_opts /\ small ex_opts /\
  (let* f := encode ex_env ex_rgba ex_opts in decode_png f) = Ok (mkImage 3 2 ex_rgba Rgba).
Proof.
  split; [|split; [|split]].
  - split; [cbn; lia|]. split; [cbn; lia|]. split; [cbn; lia|]. split; [cbn; lia|]. split; [apply bytes_of_check; vm_compute; reflexivity|reflexivity].
  - apply (fast_comp_ok_l list_heap pool_init); reflexivity.
  - split; [reflexivity|discriminate].
  - vm_compute. reflexivity.
Qed.

(** C21: whatever the strategy, and in the sequential and the parallel path,
    there is one filter byte in 0..=4 per row and the decoder recovers the rows. *)
Theorem png_filters_invertible : forall par data width h sb bpp s,
  0 < bpp -> 0 <= sb -> 0 <= h -> bytes data -> zlen data = sb * h ->
  exists o, apply_filters_with_row_bytes par data width h sb bpp s = Ok o /\ zlen o = h * (1 + sb) /\
    (forall y, 0 <= y < h -> 0 <= znth o (y * (1 + sb)) <= 4) /\
    unfilter_rows (Z.to_nat h) 0 o (repeat 0 (Z.to_nat sb)) sb bpp = Ok data.
Proof. exact filters_invertible_l. Qed.
Print Assumptions png_filters_invertible.
(** C21 for any choice of filters at all, as RFC 2083 defines them *)
Theorem png_any_filters_undone : forall h sb bpp raw filts, 0 < bpp -> 0 <= sb -> 0 <= h -> bytes raw -> zlen raw = sb * h ->
  zlen filts = h * (1 + sb) -> img_filtered bpp sb (repeat 0 (Z.to_nat sb)) raw filts ->
  unfilter_rows (Z.to_nat h) 0 filts (repeat 0 (Z.to_nat sb)) sb bpp = Ok raw.
Proof. exact rows_invertible_l. Qed.
Print Assumptions png_any_filters_undone.
(** C21: the encoder's rows are the ones RFC 2083 defines *)
Theorem png_filters_standard : forall par data width h sb bpp s,
  0 < bpp -> 0 <= sb -> 0 <= h -> bytes data -> zlen data = sb * h ->
  exists o, apply_filters_with_row_bytes par data width h sb bpp s = Ok o /\
    bytes o /\ zlen o = h * (sb + 1) /\ img_filtered bpp sb (repeat 0 (Z.to_nat sb)) data o.
Proof. exact apply_filters_good. Qed.
Print Assumptions png_filters_standard.
Example png_filters_nonvacuous :
  (let* o := apply_filters_with_row_bytes false ex_rgba 3 2 12 4 SAverage in unfilter_rows 2 0 o (repeat 0 12) 12 4) = Ok ex_rgba /\
  (let* o := apply_filters_with_row_bytes true ex_rgba 3 2 12 4 SMinSum in unfilter_rows 2 0 o (repeat 0 12) 12 4) = Ok ex_rgba.
Proof. split; vm_compute; reflexivity. Qed.

(** C22 and C26 end to end: with any combination of reductions every pixel
    keeps its colour (up to the colour of invisible pixels when alpha is
    optimised), except for the images of C24. *)
Theorem png_reduction_keeps_pixels : forall e data o, accepted o data -> comp_ok e o -> small o -> o_qmode o = QOff ->
  ~ loses (o_reduce o) (o_palette o) (o_ct o) data (o_width o * o_height o) ->
  exists f im, encode e data o = Ok f /\ decode_png f = Ok im /\ im_width im = o_width o /\ im_height im = o_height o /\
    forall i, 0 <= i < o_width o * o_height o -> shown (o_alpha o) (pixel (im_ct im) (im_pixels im) i) (pixel (o_ct o) data i).
Proof. exact pixels_l. Qed.
Print Assumptions png_reduction_keeps_pixels.
Example png_reduction_nonvacuous :
  let o := mkOpts 3 2 Rgba 6 SAdaptive false true true true false QOff 256 false in
  accepted o ex_rgba /\ small o /\ ~ loses (o_reduce o) (o_palette o) (o_ct o) ex_rgba (o_width o * o_height o) /\
  (let* f := encode ex_env ex_rgba o in decode_png f) = Ok (mkImage 3 2 ex_rgba Rgba).
Proof.
  split; [|split; [|split]].
  - split; [cbn; lia|]. split; [cbn; lia|]. split; [cbn; lia|]. split; [cbn; lia|]. split; [apply bytes_of_check; vm_compute; reflexivity|reflexivity].
  - split; reflexivity.
  - intros (_ & G & _). discriminate G.
  - vm_compute. reflexivity.
Qed.

(** C24, refuted: an image of two gray levels that is not preserved *)
Theorem png_gray_depth_refuted : exists data w h, exists o f im,
  o = mkOpts w h Rgb 6 SNone false true false false false QOff 256 false /\ accepted o data /\
  encode ex_env data o = Ok f /\ decode_png f = Ok im /\ pixel (im_ct im) (im_pixels im) 1 <> pixel Rgb data 1.
Proof.
  exists [0;0;0; 1;1;1], 2, 1. eexists _, _, _. split; [reflexivity|]. split.
  { split; [cbn; lia|]. split; [cbn; lia|]. split; [cbn; lia|]. split; [cbn; lia|]. split; [apply bytes_of_check; vm_compute; reflexivity|reflexivity]. }
  split; [vm_compute; reflexivity|]. split; [vm_compute; reflexivity|]. cbn. discriminate.
Qed.
Print Assumptions png_gray_depth_refuted.
(** C24, completely: for every opaque gray RGB or RGBA image with no level
    above 15 and not entirely black, colour-type reduction without palette
    makes some pixel at least 17 times too bright. *)
Theorem png_gray_depth_loses : forall e data o, accepted o data -> comp_ok e o -> small o -> o_qmode o = QOff ->
  loses (o_reduce o) (o_palette o) (o_ct o) data (o_width o * o_height o) ->
  exists f im i, encode e data o = Ok f /\ decode_png f = Ok im /\ 0 <= i < o_width o * o_height o /\
    pixel (im_ct im) (im_pixels im) i <> pixel (o_ct o) data i /\
    17 * level (pixel (o_ct o) data i) <= level (pixel (im_ct im) (im_pixels im) i).
Proof. exact faint_l. Qed.
Print Assumptions png_gray_depth_loses.
Example png_gray_depth_nonvacuous : loses true false Rgb [0;0;0; 1;1;1] 2.
Proof.
  split; auto. split; auto. split; auto. split.
  - intros i Hi. assert (i = 0 \/ i = 1) as [-> | ->] by lia; [exists 0|exists 1]; (split; [reflexivity|lia]).
  - exists 1. split; [lia|]. discriminate.
Qed.

(** C23: the palette is permuted and each index follows its colour. *)
Theorem png_palette_order : forall indexed palette w h,
  0 < w -> 0 < h -> zlen indexed = w * h -> 4 * (w * h) < 2 ^ 32 -> 1 <= zlen palette <= 256 ->
  (forall v, In v indexed <-> 0 <= v < zlen palette) ->
  exists ni np, optimize_palette_order indexed palette w h = Ok (ni, np) /\ Permutation np palette /\
    length ni = length indexed /\ Forall (fun v => 0 <= v < zlen np) ni /\
    forall i, 0 <= i < zlen indexed -> colour_at np (znth ni i) = colour_at palette (znth indexed i).
Proof. exact reorder_ok. Qed.
Print Assumptions png_palette_order.
Example png_palette_order_nonvacuous :
  optimize_palette_order [0;3;1;2;3;3] [(0,0,0,255);(9,9,9,255);(1,2,3,255);(7,7,7,0)] 3 2
  = Ok ([1;0;3;2;0;0], [(7,7,7,0);(0,0,0,255);(1,2,3,255);(9,9,9,255)]) /\
  (forall v, In v [0;3;1;2;3;3] <-> 0 <= v < 4).
Proof.
  split; [vm_compute; reflexivity|]. intros v. cbn [In]. lia.
Qed.

(** C25 *)
Theorem png_pack_unpack : forall data w h bits,
  bits = 1 \/ bits = 2 \/ bits = 4 -> 0 < w -> 0 <= h -> zlen data = w * h -> Forall (fun v => 0 <= v < 2 ^ bits) data ->
  exists out, pack_bits_rows data w bits = Ok out /\ bytes out /\
    zlen out = (w * bits + 7) / 8 * h /\ unpack_rows out w h bits = Ok data.
Proof. exact pack_unpack. Qed.
Print Assumptions png_pack_unpack.
(** C25: unpacking any rows reads the samples where RFC 2083 puts them *)
Theorem png_unpack_standard : forall data w h d,
  d = 1 \/ d = 2 \/ d = 4 \/ d = 8 -> 0 <= w -> 0 <= h -> bytes data -> zlen data = (w * d + 7) / 8 * h ->
  exists out, unpack_rows data w h d = Ok out /\ zlen out = w * h /\
    forall y i, 0 <= y < h -> 0 <= i < w ->
      znth out (y * w + i) = sample_at d (slice data (y * ((w * d + 7) / 8)) ((y + 1) * ((w * d + 7) / 8))) i.
Proof. exact unpack_rows_spec. Qed.
Print Assumptions png_unpack_standard.
Example png_pack_nonvacuous : pack_bits_rows [1;2;3;0;1; 3;3;2;1;0] 5 2 = Ok [108;64;249;0] /\
  unpack_rows [108;64;249;0] 5 2 2 = Ok [1;2;3;0;1; 3;3;2;1;0].
Proof. split; vm_compute; reflexivity. Qed.

(** C26 *)
Theorem png_alpha_optimisation : forall data ct n, image_ok ct data n ->
  let data' := maybe_optimize_alpha data ct true in
  image_ok ct data' n /\
  (forall i, 0 <= i < n -> alpha_of (pixel ct data' i) = alpha_of (pixel ct data i) /\
     (alpha_of (pixel ct data i) <> 0 -> pixel ct data' i = pixel ct data i)) /\
  ((forall i, 0 <= i < n -> alpha_of (pixel ct data i) <> 0) -> data' = data).
Proof. exact alpha_l. Qed.
Print Assumptions png_alpha_optimisation.
Example png_alpha_nonvacuous : image_ok Rgba ex_rgba 6 /\
  maybe_optimize_alpha ex_rgba Rgba true = [1;2;3;255; 9;9;9;255; 0;0;0;0;  200;100;0;255; 1;2;3;255; 9;9;9;128].
Proof. split; [split; [lia|split; [apply bytes_of_check; vm_compute; reflexivity|reflexivity]]|vm_compute; reflexivity]. Qed.

(** C27 and C45: for every accepted call (with or without quantisation), the
    file is a signature and well-formed chunks in the right order with the
    caller's dimensions, and the crate's decoder accepts it. *)
Theorem png_structure : forall e buf data o, accepted o data -> env_ok e o -> small o -> 0 <= o_max_colors o ->
  exists depth ctb cs im, encode_into e buf data o = (png_file cs, Ok tt) /\ encode e data o = Ok (png_file cs) /\
    png_layout (o_width o) (o_height o) depth ctb cs /\ decode_png (png_file cs) = Ok im /\
    im_width im = o_width o /\ im_height im = o_height o.
Proof. exact encode_structure_l. Qed.
Print Assumptions png_structure.
(** C45: without reduction or quantisation the header has the caller's colour type *)
Theorem png_header : forall e data o, accepted o data -> comp_ok e o -> small o ->
  o_reduce o = false -> o_palette o = false -> o_qmode o = QOff ->
  exists cs, encode e data o = Ok (png_file cs) /\
    png_layout (o_width o) (o_height o) 8 (match o_ct o with Gray => 0 | GrayAlpha => 4 | Rgb => 2 | Rgba => 6 end) cs.
Proof. exact header_l. Qed.
Print Assumptions png_header.
Example png_structure_nonvacuous :
  let o := mkOpts 2 1 Rgb 9 SUp false false false false false QForce 2 true in
  accepted o [1;2;3; 4;5;6] /\ env_ok ex_env o /\ small o /\
  (let* f := encode ex_env [1;2;3; 4;5;6] o in decode_png f) = Ok (mkImage 2 1 [1;2;3; 4;5;6] Rgb).
Proof.
  split; [|split; [|split]].
  - split; [cbn; lia|]. split; [cbn; lia|]. split; [cbn; lia|]. split; [cbn; lia|]. split; [apply bytes_of_check; vm_compute; reflexivity|reflexivity].
  - split; [apply (fast_comp_ok_l list_heap pool_init); reflexivity|]. intros l. reflexivity.
  - split; [reflexivity|discriminate].
  - vm_compute. reflexivity.
Qed.

(** C28: which calls are refused, with which error, and that the buffer is
    then untouched; every other call succeeds. *)
Theorem png_rejects_exactly : forall e buf data o, 0 <= o_width o -> 0 <= o_height o -> bytes data ->
  env_ok e o -> small o -> 0 <= o_max_colors o ->
  match rejects o (zlen data) with
  | Some er => encode_into e buf data o = (buf, Err er)
  | None => exists f, encode_into e buf data o = (f, Ok tt)
  end.
Proof. exact encode_into_total_l. Qed.
Print Assumptions png_rejects_exactly.
Theorem png_reject_keeps_buffer : forall e buf data o er, 0 <= o_width o -> 0 <= o_height o ->
  rejects o (zlen data) = Some er -> encode_into e buf data o = (buf, Err er).
Proof. exact reject_keeps_buffer_l. Qed.
Print Assumptions png_reject_keeps_buffer.
Theorem png_accepts_iff : forall o len, 0 <= o_width o -> 0 <= o_height o ->
  rejects o len = None <-> 1 <= o_level o <= 9 /\ 0 < o_width o <= 2 ^ 24 /\ 0 < o_height o <= 2 ^ 24 /\
    len = o_width o * o_height o * bytes_per_pixel (o_ct o).
Proof. exact rejects_none. Qed.
Print Assumptions png_accepts_iff.
Example png_rejects_nonvacuous :
  rejects (mkOpts 3 0 Rgba 6 SNone false false false false false QOff 256 false) 12 = Some (EInvalidDimensions 3 0) /\
  encode_into ex_env [42] [1;2] (mkOpts 1 1 Gray 6 SNone false false false false false QOff 256 false) = ([42], Err (EInvalidDataLength 1 2)).
Proof. split; reflexivity. Qed.

(** C29, PNG part *)
Theorem png_buffer_independent : forall e buf buf' data o f,
  encode_into e buf data o = (f, Ok tt) -> encode_into e buf' data o = (f, Ok tt) /\ encode e data o = Ok f.
Proof. exact buffer_independent_l. Qed.
Print Assumptions png_buffer_independent.
Theorem png_indexed_buffer_independent : forall e buf buf' data w h pal trns o f,
  encode_indexed_into e buf data w h pal trns o = (f, Ok tt) ->
  encode_indexed_into e buf' data w h pal trns o = (f, Ok tt) /\ encode_indexed_with_options e data w h pal trns o = Ok f.
Proof. exact indexed_buffer_independent_l. Qed.
Print Assumptions png_indexed_buffer_independent.
Example png_buffer_nonvacuous : exists f, encode_into ex_env [1;2;3] ex_rgba ex_opts = (f, Ok tt) /\ zlen f = 90.
Proof. eexists. split; vm_compute; reflexivity. Qed.

(** C30: stripping a well-formed file removes exactly the four kinds of
    metadata chunks (and anything after IEND) and does not change what the
    decoder returns. *)
Theorem png_strip_keeps_image : forall pre d more, Forall wf_chunk (pre ++ [(T_IEND, d)]) -> Forall (fun c => fst c <> T_IEND) pre ->
  exists f', strip_metadata_chunks (png_file (pre ++ [(T_IEND, d)]) ++ more) = Ok f' /\
    f' = png_file (filter (fun c => negb (zs_eqb (fst c) T_tEXt || zs_eqb (fst c) T_zTXt || zs_eqb (fst c) T_iTXt || zs_eqb (fst c) T_tIME))
           (pre ++ [(T_IEND, d)])) /\
    decode_png f' = decode_png (png_file (pre ++ [(T_IEND, d)]) ++ more).
Proof. exact strip_decode_l. Qed.
Print Assumptions png_strip_keeps_image.
Example png_strip_nonvacuous :
  strip_metadata_chunks (png_file [(T_IHDR, [1]); (T_tEXt, [2;3]); (T_IDAT, [4]); (T_tIME, [5]); (T_IEND, [])]) =
  Ok (png_file [(T_IHDR, [1]); (T_IDAT, [4]); (T_IEND, [])]).
Proof. vm_compute. reflexivity. Qed.

(** C31: on every byte sequence the decoder returns an image of the size it
    announces, or an error. *)
Theorem png_decoder_total : forall data, bytes data ->
  (exists im, decode_png data = Ok im /\
     1 <= im_width im <= 2 ^ 24 /\ 1 <= im_height im <= 2 ^ 24 /\ bytes (im_pixels im) /\
     zlen (im_pixels im) = im_width im * im_height im * bytes_per_pixel (im_ct im)) \/
  exists e, decode_png data = Err e.
Proof. exact decode_png_total. Qed.
Print Assumptions png_decoder_total.

(** C15: changing one byte of the type, data or CRC of a chunk before (or at)
    IEND makes the decoder return an error, whatever follows. *)
Theorem png_corrupt_byte_detected : forall pre ty data a x y b more,
  Forall wf_chunk pre -> Forall (fun c => fst c <> T_IEND) pre -> wf_chunk (ty, data) ->
  ty ++ data ++ be4 (crc_spec (ty ++ data)) = a ++ x :: b -> is_byte y -> y <> x ->
  exists er, decode_png (png_file pre ++ be4 (zlen data) ++ (a ++ y :: b) ++ more) = Err er.
Proof. exact corrupt_byte_l. Qed.
Print Assumptions png_corrupt_byte_detected.
Example png_corrupt_nonvacuous : wf_chunk (T_IDAT, [1;2;3]) /\
  T_IDAT ++ [1;2;3] ++ be4 (crc_spec (T_IDAT ++ [1;2;3])) = [73;68;65;84;1] ++ 2 :: 3 :: be4 (crc_spec (T_IDAT ++ [1;2;3])).
Proof.
  split; [|reflexivity]. split; [reflexivity|]. split; [apply bytes_of_check; vm_compute; reflexivity|].
  split; [apply bytes_of_check; vm_compute; reflexivity|]. reflexivity.
Qed.

(** C32: the quantiser gives 1 to max_colors colours and one index in range
    for each pixel, with or without dithering, whatever the f32 results. *)
Theorem quantizer_wellformed : forall F top data w h ct mc dith,
  (forall l, Permutation (top l) l) -> 0 < w -> 0 < h -> ct = Rgb \/ ct = Rgba -> image_ok ct data (w * h) ->
  2 * (w * h) < 2 ^ 32 -> 0 <= mc <= 256 ->
  exists pal idx, quantize_image F top data w h ct mc dith = Ok (pal, idx) /\
    1 <= zlen pal <= Z.max 1 mc /\ Forall byte4 pal /\ zlen idx = w * h /\ Forall (fun v => 0 <= v < zlen pal) idx.
Proof. exact quantize_ok. Qed.
Print Assumptions quantizer_wellformed.
(** C32: a quantised file decodes, each pixel to the palette entry selected *)
Theorem png_quantized_selects : forall e data o buf, 0 <= o_width o -> 0 <= o_height o -> bytes data -> rejects o (zlen data) = None ->
  should_quantize data o = true -> env_ok e o -> small o -> 0 <= o_max_colors o ->
  exists cs pal idx px oct,
    quantize_image (e_float e) (e_top e) data (o_width o) (o_height o) (o_ct o) (Z.min (o_max_colors o) 256) (o_dither o) = Ok (pal, idx) /\
    1 <= zlen pal <= Z.max 1 (Z.min (o_max_colors o) 256) /\ Forall byte4 pal /\
    encode_into e buf data o = (png_file cs, Ok tt) /\ png_layout (o_width o) (o_height o) 8 3 cs /\
    zlen idx = o_width o * o_height o /\ Forall (fun v => 0 <= v < zlen pal) idx /\
    (forall more, decode_png (png_file cs ++ more) = Ok (mkImage (o_width o) (o_height o) px oct)) /\
    (forall i, 0 <= i < o_width o * o_height o -> pixel oct px i = colour_at pal (znth idx i)).
Proof. exact encode_quantized. Qed.
Print Assumptions png_quantized_selects.
Theorem png_quantized_colours : forall e data o, accepted o data -> env_ok e o -> small o -> 0 <= o_max_colors o -> should_quantize data o = true ->
  exists f im pal, encode e data o = Ok f /\ decode_png f = Ok im /\ im_width im = o_width o /\ im_height im = o_height o /\
    1 <= zlen pal <= Z.max 1 (Z.min (o_max_colors o) 256) /\
    forall i, 0 <= i < o_width o * o_height o -> In (pixel (im_ct im) (im_pixels im) i) pal.
Proof. exact quantized_l. Qed.
Print Assumptions png_quantized_colours.
(** C32: an image below 100000 pixels with no more colours than asked for is
    kept exactly *)
Theorem png_quantized_exact : forall e data o D, accepted o data -> env_ok e o -> small o -> o_width o * o_height o < 100000 ->
  should_quantize data o = true -> NoDup D -> zlen D <= o_max_colors o -> zlen D <= 256 ->
  (forall i, 0 <= i < o_width o * o_height o -> In (pixel (o_ct o) data i) D) ->
  exists f im, encode e data o = Ok f /\ decode_png f = Ok im /\
    forall i, 0 <= i < o_width o * o_height o -> pixel (im_ct im) (im_pixels im) i = pixel (o_ct o) data i.
Proof. exact quantized_exact_l. Qed.
Print Assumptions png_quantized_exact.
Example quantizer_nonvacuous :
  quantize_image ex_fops (fun l => l) [10;0;0; 12;0;0; 0;200;0; 0;210;0] 4 1 Rgb 2 false =
  Ok ([(11,0,0,255); (0,205,0,255)], [0;0;1;1]) /\
  should_quantize [1;2;3; 4;5;6] (mkOpts 2 1 Rgb 9 SUp false false false false false QForce 2 true) = true.
Proof. split; vm_compute; reflexivity. Qed.

(** C47 *)
Theorem nearest_colour_minimal : forall color palette, byte4 color -> Forall byte4 palette -> 1 <= zlen palette <= 256 ->
  let k := nearest_palette_index color palette in
  0 <= k < zlen palette /\
  (forall j, 0 <= j < zlen palette -> dist color (colour_at palette k) <= dist color (colour_at palette j)) /\
  (forall j, 0 <= j < k -> dist color (colour_at palette k) < dist color (colour_at palette j)).
Proof. exact nearest_ok. Qed.
Print Assumptions nearest_colour_minimal.
Example nearest_nonvacuous : nearest_palette_index (10,20,30,255) [(0,0,0,255);(9,22,30,250);(11,19,33,255);(200,1,1,0)] = 2.
Proof. reflexivity. Qed.

(** C48: the encoder for indexed images keeps the colour and alpha of every pixel. *)
Theorem png_indexed_roundtrip : forall e data w h pal trns o,
  0 < w <= 2 ^ 24 -> 0 < h <= 2 ^ 24 -> zlen data = w * h -> 1 <= zlen pal <= 256 -> Forall byte3 pal ->
  Forall (fun v => 0 <= v < zlen pal) data ->
  (forall t, trns = Some t -> bytes t /\ zlen t <= zlen pal) -> comp_ok e o -> h * (w + 1) + 1 < room o ->
  exists cs im, encode_indexed_with_options e data w h pal trns o = Ok (png_file cs) /\ png_layout w h 8 3 cs /\
    decode_png (png_file cs) = Ok im /\ im_width im = w /\ im_height im = h /\
    forall i, 0 <= i < w * h -> pixel (im_ct im) (im_pixels im) i =
      let '(r, g, b) := nth (Z.to_nat (znth data i)) pal (0, 0, 0) in
      (r, g, b, match trns with Some t => nth (Z.to_nat (znth data i)) t 255 | None => 255 end).
Proof. exact indexed_l. Qed.
Print Assumptions png_indexed_roundtrip.
Example png_indexed_nonvacuous :
  (let* f := encode_indexed ex_env [0;1;2;1] 2 2 [(1,2,3);(4,5,6);(7,8,9)] (Some [255;0]) in decode_png f) =
  Ok (mkImage 2 2 [1;2;3;255; 4;5;6;0; 7;8;9;255; 4;5;6;0] Rgba).
Proof. vm_compute. reflexivity. Qed.

(** C49: the indexed encoder refuses an unusable palette, an alpha table longer
    than the palette or data of the wrong length, leaving the buffer alone *)
Theorem png_indexed_rejects : forall e buf data w h pal trns o, 0 <= w < 2 ^ 32 -> 0 <= h < 2 ^ 32 ->
  zlen pal = 0 \/ 256 < zlen pal \/ (exists t, trns = Some t /\ zlen pal < zlen t) \/ zlen data <> w * h ->
  exists er, encode_indexed_into e buf data w h pal trns o = (buf, Err er).
Proof. exact indexed_rejects_l. Qed.
Print Assumptions png_indexed_rejects.
(** C49, refuted: it accepts an image without pixels and writes a file the
    decoder refuses ... *)
Theorem png_indexed_zero_size_refuted : exists f, encode_indexed ex_env [] 0 0 [(0, 0, 0)] None = Ok f /\
  decode_png f = Err (EInvalidDimensions 0 0).
Proof. eexists. split; [vm_compute; reflexivity|vm_compute; reflexivity]. Qed.
Print Assumptions png_indexed_zero_size_refuted.
(** ... and indices outside the palette, which the PNG standard forbids *)
Theorem png_indexed_bad_index_refuted : exists f, encode_indexed ex_env [7] 1 1 [(1, 2, 3)] None = Ok f /\
  decode_png f = Ok (mkImage 1 1 [0; 0; 0] Rgb).
Proof. eexists. split; [vm_compute; reflexivity|vm_compute; reflexivity]. Qed.
Print Assumptions png_indexed_bad_index_refuted.
