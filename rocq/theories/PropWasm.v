(** C112: resizing from JavaScript and the presets with a lossless flag. *)
From Coq Require Import Reals Permutation.
From Verif Require Import Base DeflateModel LzOptApi PngFilterModel PngPaletteModel PngModel PngDecModel PngSpec PngEncSpec F32Model ResizeModel ResizeSpec
  CliModel CliSpec WasmSpec WasmProofs.
Open Scope Z_scope.

(** C112: resizeImage with a documented colour and algorithm code does what [resize] does
    with that colour type, that algorithm and the sizes in the same order; accepted
    arguments give a picture of the size asked for (bilinear within the sizes of C57). *)
Theorem wasm_resize_accepts : forall sin data sw sh dw dh ct a, resizable (mkR sw sh dw dh ct a) data ->
  (a = Bilinear -> inside sw dw /\ inside sh dh) ->
  exists out, wasm_resize_image sin data sw sh dw dh (code_of ct) (algo_code a) = Ok out /\ resize sin data (mkR sw sh dw dh ct a) = Ok out /\
    zlen out = dw * dh * bytes_per_pixel ct.
Proof. exact wasm_resize_ok. Qed.
Print Assumptions wasm_resize_accepts.
(** C112: with documented codes the errors are those of [resize] too (see C55), for all sizes and lengths. *)
Theorem wasm_resize_same : forall sin data sw sh dw dh ct a,
  wasm_resize_image sin data sw sh dw dh (code_of ct) (algo_code a) = resize sin data (mkR sw sh dw dh ct a).
Proof. exact wasm_resize_eq. Qed.
Print Assumptions wasm_resize_same.
(** C112: any other code is refused before the data is looked at. *)
Theorem wasm_resize_bad_codes : forall sin data sw sh dw dh v u,
  (forall ct, v <> code_of ct) \/ (forall a, u <> algo_code a) -> wasm_resize_image sin data sw sh dw dh v u = Err EUnsupportedColorType.
Proof. exact wasm_resize_refused. Qed.
Print Assumptions wasm_resize_bad_codes.

(** C112: [PngOptions::from_preset_with_lossless] with lossless = true keeps every visible
    pixel, and every byte with preset 0. *)
Theorem preset_lossless_keeps : forall e data w h ct preset, pixo_compressors e -> png_fits w h -> image_ok ct data (w * h) ->
  exists f im, encode e data (set_ct (png_from_preset_with_lossless w h preset true) ct) = Ok f /\ decode_png f = Ok im /\ im_width im = w /\ im_height im = h /\
    (preset = 0 -> im_pixels im = data /\ im_ct im = ct) /\
    forall i, 0 <= i < w * h -> shown (negb (preset =? 0)) (pixel (im_ct im) (im_pixels im) i) (pixel ct data i).
Proof. exact preset_lossless_l. Qed.
Print Assumptions preset_lossless_keeps.
(** C112: with lossless = false nothing visible changes below 100000 pixels and with at most 256 colours. *)
Theorem preset_lossy_few_colours : forall e data w h ct preset D, pixo_compressors e -> (forall l, Permutation (e_top e l) l) -> png_fits w h -> image_ok ct data (w * h) ->
  w * h < 100000 -> NoDup D -> zlen D <= 256 -> (forall i, 0 <= i < w * h -> In (pixel ct data i) D) ->
  exists f im, encode e data (set_ct (png_from_preset_with_lossless w h preset false) ct) = Ok f /\ decode_png f = Ok im /\
    forall i, 0 <= i < w * h -> visible (pixel (im_ct im) (im_pixels im) i) = visible (pixel ct data i).
Proof. exact preset_lossy_l. Qed.
Print Assumptions preset_lossy_few_colours.
(** C112: the constructor and the JavaScript interface write the same file for the same preset and flag. *)
Theorem preset_same_as_wasm : forall e data w h ct preset lossy,
  encode e data (set_ct (png_from_preset_with_lossless w h preset (negb lossy)) ct) = wasm_encode_png e data w h (code_of ct) preset lossy.
Proof. exact preset_wasm_l. Qed.
Print Assumptions preset_same_as_wasm.

(** the hypotheses are met: a 2 by 1 RGB picture made 1 by 3 *)
Example wasm_resize_case : resizable (mkR 2 1 1 3 Rgb Bilinear) [1; 2; 3; 250; 251; 252] /\ inside 2 1 /\ inside 1 3.
Proof. split; [|split; left; discriminate]. unfold resizable. cbn [r_sw r_sh r_dw r_dh r_ct]. repeat split; try discriminate. repeat constructor; discriminate. Qed.
Example bad_codes : (forall ct, 4 <> code_of ct) /\ (forall a, 3 <> algo_code a).
Proof. split; intros []; discriminate. Qed.
