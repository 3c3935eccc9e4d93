(** The WebAssembly interface (C76), reading PNM files (C77, C78) and the command line
    program (C79, C80). *)
From Coq Require Import Reals Permutation.
From Verif Require Import Base DeflateModel DeflateTop LzOptModel LzOptTop PngFilterModel PngPaletteModel PngModel PngDecModel PngSpec PngEncSpec JpegEncModel JpegImgSpec JpegTrellisTop
  JpegDctSpec JpegSpec JpegAnySpec JpegFidSpec CliModel CliSpec CliPnm CliProofs PngConfSpec HuffModel LzOptApi PropDeflate PropPng.
Open Scope Z_scope.

(** C76: encodePng with lossy = false keeps every pixel, with every preset and colour type;
    preset 0 keeps every byte, other presets may change the colour of invisible pixels. *)
Theorem wasm_png_keeps_pixels : forall e data w h ct preset, pixo_compressors e -> png_fits w h -> image_ok ct data (w * h) ->
  exists f im, wasm_encode_png e data w h (code_of ct) preset false = Ok f /\ decode_png f = Ok im /\ im_width im = w /\ im_height im = h /\
    (preset = 0 -> im_pixels im = data /\ im_ct im = ct) /\
    forall i, 0 <= i < w * h -> shown (negb (preset =? 0)) (pixel (im_ct im) (im_pixels im) i) (pixel ct data i).
Proof. exact wasm_png_l. Qed.
Print Assumptions wasm_png_keeps_pixels.
(** C76: with lossy = true nothing visible changes either, below 100000 pixels, if there are
    at most 256 colours. *)
Theorem wasm_png_lossy_few_colours : forall e data w h ct preset D, pixo_compressors e -> (forall l, Permutation (e_top e l) l) -> png_fits w h -> image_ok ct data (w * h) ->
  w * h < 100000 -> NoDup D -> zlen D <= 256 -> (forall i, 0 <= i < w * h -> In (pixel ct data i) D) ->
  exists f im, wasm_encode_png e data w h (code_of ct) preset true = Ok f /\ decode_png f = Ok im /\
    forall i, 0 <= i < w * h -> visible (pixel (im_ct im) (im_pixels im) i) = visible (pixel ct data i).
Proof. exact wasm_lossy_l. Qed.
Print Assumptions wasm_png_lossy_few_colours.
(** C76: encodeJpeg with the presets other than 2 writes files of the quality C75 states, at
    the size, colour type, quality and subsampling asked for. *)
Theorem wasm_jpeg_fidelity : forall data w h ct quality preset sub420, (ct = Gray \/ ct = Rgb) -> jpeg_fits w h -> 1 <= quality <= 100 ->
  image_ok ct data (w * h) -> preset <> 2 ->
  exists o f B T Q, wasm_encode_jpeg pixo_env data w h (code_of ct) quality preset sub420 = Ok (file_bytes f) /\
    conforming_jpeg 2047 f B T Q /\ f_w f = w /\ f_h f = h /\ zlen (f_comps f) = bytes_per_pixel ct /\
    jo_w o = w /\ jo_h o = h /\ jo_ct o = ct /\ jo_quality o = quality /\ jo_sub o = (if sub420 then S420 else S444) /\
    forall c bx by_ coefs, In (c, bx, by_) (all_blocks f) -> is_dequantised (B c bx by_) (Q c) coefs -> (square_error data o c bx by_ coefs <= allowed_error (Q c))%R.
Proof. exact wasm_jpeg_l. Qed.
Print Assumptions wasm_jpeg_fidelity.
(** C76: every other colour code is refused; the documented ones have 1, 2, 3, 4 bytes. *)
Theorem wasm_colour_codes : forall e je data w h v preset lossy,
  ((forall ct, v <> code_of ct) ->
    wasm_encode_png e data w h v preset lossy = Err EUnsupportedColorType /\ wasm_bytes_per_pixel v = Err EUnsupportedColorType /\
    forall q sub, wasm_encode_jpeg je data w h v q preset sub = Err EUnsupportedColorType) /\
  map wasm_bytes_per_pixel [0; 1; 2; 3] = [Ok 1; Ok 2; Ok 3; Ok 4].
Proof. exact (fun e je data w h v preset lossy => conj (wasm_codes_l e je data w h v preset lossy) eq_refl). Qed.
Print Assumptions wasm_colour_codes.

(** C77: every conforming binary PGM or PPM file with 8-bit samples, with comments and white
    space anywhere the format allows, is read exactly. *)
Theorem pnm_reads : forall ct w h raster file, w < 2 ^ 32 -> h < 2 ^ 32 -> zlen raster < 2 ^ 63 -> pnm_file white decimal ct w h raster file ->
  load_image file = Ok (mkImage w h raster ct) /\ load_image_from_bytes file = Ok (mkImage w h raster ct).
Proof. exact pnm_read. Qed.
Print Assumptions pnm_reads.
(** C77: and nothing else is: an image with pixels comes from a PNM file (form feeds also
    count as white space and numbers may have a plus sign). *)
Theorem pnm_reads_only : forall ct X w h px c, ct = Gray \/ ct = Rgb -> 0 < w * h -> load_image (magic ct ++ X) = Ok (mkImage w h px c) ->
  c = ct /\ w < 2 ^ 32 /\ h < 2 ^ 32 /\ zlen px < 2 ^ 63 /\ pnm_file white_or_feed signed_decimal ct w h px (magic ct ++ X).
Proof. exact pnm_only_l. Qed.
Print Assumptions pnm_reads_only.
Definition ex_ppm : list Z := [80;54;10; 35;32;104;105;10; 50;32;35;53;10;49; 13;10; 50;53;53;10; 1;2;3; 40;50;60].   (* P6, "# hi", "2 #5", 1, 255 *)
Example pnm_reads_case : pnm_file white decimal Rgb 2 1 [1; 2; 3; 40; 50; 60] ex_ppm /\ load_image ex_ppm = Ok (mkImage 2 1 [1; 2; 3; 40; 50; 60] Rgb).
Proof.
  split; [|vm_compute; reflexivity]. split; [right; reflexivity|]. split; [reflexivity|].
  exists [10; 35;32;104;105;10; 50;32;35;53;10;49; 13;10; 50;53;53], 10, []. split; [|split; [right; right; left; reflexivity|reflexivity]].
  exists [10], [50], [32], [49], [13; 10], [50; 53; 53]. unfold blank, decimal, white.
  repeat (split; [split; [discriminate|repeat (apply Forall_cons || apply Forall_nil || split || lia || reflexivity)]|]).
  cbn [app]. apply UChar; [lia|]. apply (UComment [32; 104; 105]); [cbn; lia|]. apply UChar; [lia|]. apply UChar; [lia|]. apply (UComment [53]); [cbn; lia|].
  repeat (apply UChar; [lia|]). apply UEnd.
Qed.

(** C78: on every input that starts with a PNM magic number the program returns an image of
    the size the header gives, or an error, or panics because the header asks for 2^63 bytes
    or more.  Missing: the last case. *)
Theorem pnm_outcome_partial : forall ct X, ct = Gray \/ ct = Rgb -> load_image (magic ct ++ X) = load_image_from_bytes (magic ct ++ X) /\
  ((exists e, load_image (magic ct ++ X) = Err e) \/
   exists w h header tail, 0 <= w < 2 ^ 32 /\ 0 <= h < 2 ^ 32 /\ X = header ++ tail /\ pnm_header white_or_feed signed_decimal w h header /\
    (load_image (magic ct ++ X) = Panic /\ 2 ^ 63 <= w * h * bytes_per_pixel ct \/
     exists px more, load_image (magic ct ++ X) = Ok (mkImage w h px ct) /\ zlen px = w * h * bytes_per_pixel ct /\ zlen px < 2 ^ 63 /\
       (px = [] \/ exists d, white_or_feed d /\ tail = d :: px ++ more))).
Proof. exact pnm_outcome_l. Qed.
Print Assumptions pnm_outcome_partial.
(** "P6 4294967295 4294967295 255 " *)
Theorem pnm_panics_refuted : exists file, bytes file /\ zlen file = 29 /\ load_image file = Panic /\ load_image_from_bytes file = Panic.
Proof.
  exists ([80;54;32; 52;50;57;52;57;54;55;50;57;53;32; 52;50;57;52;57;54;55;50;57;53;32; 50;53;53;32]).
  split; [apply bytes_of_check; vm_compute; reflexivity|]. repeat split; vm_compute; reflexivity.
Qed.
Print Assumptions pnm_panics_refuted.

(** C79: converting a PNM or PNG file to PNG keeps the picture, for every preset, level,
    filter and flag, or makes it gray to within 0.955 of a level of BT.601 luma. *)
Theorem cli_converts_to_png : forall e je a file w h P, pixo_compressors e -> args_ok a -> asks_png a -> picture_file file w h P -> png_fits w h ->
  exists out im, run e je a file = Ok out /\ decode_png out = Ok im /\ im_width im = w /\ im_height im = h /\
    forall x y, 0 <= x < w -> 0 <= y < h ->
      if a_grayscale a then exists v, pixel (im_ct im) (im_pixels im) (y * w + x) = (v, v, v, 255) /\ gray_of (P x y) v
      else shown (a_alpha a) (pixel (im_ct im) (im_pixels im) (y * w + x)) (P x y).
Proof. exact cli_png_l. Qed.
Print Assumptions cli_converts_to_png.
Theorem cli_pnm_to_png_exact : forall e je a ct w h raster file, pixo_compressors e -> args_ok a -> asks_png a -> pnm_file white decimal ct w h raster file -> bytes raster -> png_fits w h ->
  a_grayscale a = false -> a_alpha a = false -> a_reduce a = false ->
  exists out, run e je a file = Ok out /\ decode_png out = Ok (mkImage w h raster ct).
Proof. exact cli_exact_l. Qed.
Print Assumptions cli_pnm_to_png_exact.
(** C79: converting it to JPEG writes a conforming file of the picture without its alpha
    channel (or in gray), of the quality C75 states.  Preset max is left out (C37, C38). *)
Theorem cli_converts_to_jpeg : forall e a file w h P, args_ok a -> a_preset a <> Some 2 -> asks_jpeg a -> picture_file file w h P -> jpeg_fits w h ->
  (a_stdin a = true -> 3 * (w * h) < 2 ^ 32) ->
  exists data o f B T Q, run e pixo_env a file = Ok (file_bytes f) /\ conforming_jpeg 2047 f B T Q /\ f_w f = w /\ f_h f = h /\
    zlen (f_comps f) = bytes_per_pixel (jo_ct o) /\
    jo_w o = w /\ jo_h o = h /\ jo_quality o = a_quality a /\ jo_sub o = a_sub a /\ image_ok (jo_ct o) data (w * h) /\
    (forall x y, 0 <= x < w -> 0 <= y < h ->
      if a_grayscale a then exists v, pixel (jo_ct o) data (y * w + x) = (v, v, v, 255) /\ gray_of (P x y) v
      else pixel (jo_ct o) data (y * w + x) = opaque (P x y)) /\
    forall c bx by_ coefs, In (c, bx, by_) (all_blocks f) -> is_dequantised (B c bx by_) (Q c) coefs -> (square_error data o c bx by_ coefs <= allowed_error (Q c))%R.
Proof. exact cli_jpeg_l. Qed.
Print Assumptions cli_converts_to_jpeg.

(** an environment with the crate's compressors, and the documented conversion of [ex_ppm] *)
Definition ex_env : env := mkEnv (fast_of list_heap pool_init) (deflate_optimal_zlib list_heap z_est int_log2) PropPng.ex_fops (fun l => l) false.
Definition ex_args : args := mkArgs false (Some (false, Some [80; 110; 71])) None 85 false 0 (Some 9) S444 (Some SPaeth) (Some 0) false false false false.   (* -o x.PnG -c 9 --filter paeth --preset fast *)
Example cli_case : pixo_compressors ex_env /\ args_ok ex_args /\ asks_png ex_args /\ png_fits 2 1 /\ picture_file ex_ppm 2 1 (fun x y => pixel Rgb [1; 2; 3; 40; 50; 60] (y * 2 + x)) /\
  asks_jpeg (mkArgs true (Some (true, None)) None 85 false 0 None S444 None None false false false false).
Proof.
  split; [exists list_heap, pool_init, z_est, int_log2; split; [reflexivity|]; split; [reflexivity|]; split; [intros a b; discriminate|]; split; [exact int_log2_ok|reflexivity]|].
  split; [split; [cbn; lia|]; split; [cbn; lia|]; split; [intros l E; injection E as <-; lia|intros p E; injection E as <-; lia]|].
  split; [split; [discriminate|]; right; split; [reflexivity|]; exists [80; 110; 71]; split; [reflexivity|]; repeat (apply Forall2_cons; [lia|]); apply Forall2_nil|].
  split; [unfold png_fits; lia|]. split; [apply PicturePnm; [apply pnm_reads_case|apply bytes_of_check; reflexivity|lia|lia]|].
  split; [discriminate|]. intros [_ [X|[_ (x & X & _)]]]; discriminate X.
Qed.
Example wasm_case : image_ok Rgb [1; 2; 3; 40; 50; 60] (2 * 1) /\ jpeg_fits 2 1 /\
  wasm_encode_png ex_env [1; 2; 3; 40; 50] 2 1 2 1 false = Err (EInvalidDataLength 6 5).
Proof. split; [split; [lia|]; split; [apply bytes_of_check; reflexivity|reflexivity]|]. split; [unfold jpeg_fits; lia|reflexivity]. Qed.

(** C80: reading from standard input gives what reading the same bytes from a file gives,
    unless the program panics on a picture of 2^30 pixels or more.  Missing: those. *)
Theorem cli_stdin_same_partial : forall e je a data, a_output a <> None ->
  run e je (from_stdin a true) data = run e je (from_stdin a false) data \/
  exists im, load_image data = Ok im /\ 2 ^ 32 <= im_width im * im_height im * 4 /\ run e je (from_stdin a true) data = Panic.
Proof. exact stdin_same_l. Qed.
Print Assumptions cli_stdin_same_partial.
(** The same RGB picture of 65535 x 65535 is converted from a file, and not from standard
    input (its size overflows a u32 in the message the program prints before it writes). *)
Theorem cli_stdin_large_refuted : forall e, exists file w h P a, picture_file file w h P /\ jpeg_fits w h /\ args_ok a /\ asks_jpeg a /\ a_preset a = None /\
  run e pixo_env (from_stdin a true) file = Panic /\ exists out, run e pixo_env (from_stdin a false) file = Ok out.
Proof. exact stdin_large_l. Qed.
Print Assumptions cli_stdin_large_refuted.
