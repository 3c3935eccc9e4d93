(** Properties of the JPEG decoder on any baseline file (C74). *)
From Coq Require Import Reals Lra.
From Verif Require Import Base PngPaletteModel JpegDecModel JpegSpec JpegFileSpec JpegIdctReal JpegDecSpec JpegAnySpec JpegAnyTop JpegAnyEx.
Open Scope Z_scope.

(** C74: a conforming baseline file, from any encoder, of the usual samplings, without restart
    markers and with dequantised coefficients up to [M]: the decoder returns its size, one pixel of the right
    number of bytes for every position, whatever follows the end marker; every sample is
    that of the T.81 inverse DCT of the even frequencies of its block; every pixel is the
    JFIF colour of the samples at its position. *)
Theorem jpeg_decodes_any_partial : forall M f B T Q tail, 0 <= M <= 2047 -> conforming_jpeg M f B T Q -> usual_sampling f -> no_restarts f ->
  exists px S, decode_jpeg (file_bytes f ++ tail) = Ok (mkjimg (f_w f) (f_h f) px (if single f then Gray else Rgb)) /\
  zlen px = f_w f * f_h f * zlen (f_comps f) /\
  (forall c x y, 0 <= c < zlen (f_comps f) -> 0 <= x < 8 * hfac f c * across f -> 0 <= y < 8 * vfac f c * down f ->
   is_byte (S c x y) /\ forall coefs, is_dequantised (B c (x / 8) (y / 8)) (Q c) coefs ->
     (Rabs (IZR (S c x y) - rclamp (128 + real_idct (drop_odd coefs) (Z.to_nat (x mod 8)) (Z.to_nat (y mod 8)))) <= 9 / 16 + IZR M / 1100)%R) /\
  forall x y, 0 <= x < f_w f -> 0 <= y < f_h f ->
    let s c := S c (x * a_h (comp_at f c) / maxh f) (y * a_v (comp_at f c) / maxv f) in
    if single f then pixel_at px (f_w f) 1 x y = [S 0 x y]
    else exists r g b, pixel_at px (f_w f) 3 x y = [r; g; b] /\ is_byte r /\ is_byte g /\ is_byte b /\ jfif_colour (s 0) (s 1) (s 2) r g b.
Proof. exact decode_any_image. Qed.
Print Assumptions jpeg_decodes_any_partial.
(** the hypotheses are met: 4:2:2, fill bytes, a comment, 16-bit quantisation entries *)
Example jpeg_decodes_any_case : conforming_jpeg 1200 ex_file ex_blocks (fun _ => ex_tabs) ex_quant /\ usual_sampling ex_file /\ no_restarts ex_file /\
  exists px, decode_jpeg (file_bytes ex_file ++ [1; 2; 3]) = Ok (mkjimg 16 8 px Rgb) /\ pixel_at px 16 3 7 0 = [138; 182; 0] /\ pixel_at px 16 3 8 0 = [126; 170; 0].
Proof.
  split; [exact ex_conforming|]. split; [exact ex_usual|]. split; [exact I|]. eexists. split; [vm_compute; reflexivity|]. split; reflexivity.
Qed.

(** C74 fails for one component with factors other than 1: T.81 (A.2.2) has its blocks in
    raster order, the decoder takes them in groups; 138 at (16, 0) comes out as 128. *)
Theorem jpeg_single_component_refuted : exists M f B T Q, 0 <= M <= 2047 /\ conforming_jpeg M f B T Q /\ single f = true /\
  exists px coefs, decode_jpeg (file_bytes f) = Ok (mkjimg (f_w f) (f_h f) px Gray) /\ pixel_at px (f_w f) 1 16 0 = [128] /\
  is_dequantised (B 0 2 0) (Q 0) coefs /\ drop_odd coefs = coefs /\ (128 + real_idct coefs 0 0 = 138)%R.
Proof.
  exists 80, one_file, one_blocks, (fun _ => ex_tabs), (fun _ => repeat 16 64). split; [lia|]. split; [exact one_conforming|]. split; [reflexivity|].
  destruct one_misread as (px & E & P & D & V). exists px, (80 :: repeat 0 63). split; [exact E|]. split; [exact P|]. split; [exact D|]. split; [reflexivity|exact V].
Qed.
Print Assumptions jpeg_single_component_refuted.

(** C74 fails for a first component of less than full resolution: luma 138 and neutral
    chroma come out black from the middle row on. *)
Theorem jpeg_luma_subsampled_refuted : exists M f B T Q, 0 <= M <= 2047 /\ conforming_jpeg M f B T Q /\ maxh f = 2 /\ a_h (comp_at f 0) = 1 /\
  B 1 0 0 = repeat 0 64 /\ B 2 0 0 = repeat 0 64 /\
  exists px coefs, decode_jpeg (file_bytes f) = Ok (mkjimg (f_w f) (f_h f) px Rgb) /\ pixel_at px (f_w f) 3 0 4 = [0; 0; 0] /\
  is_dequantised (B 0 0 0) (Q 0) coefs /\ drop_odd coefs = coefs /\ (128 + real_idct coefs 0 4 = 138)%R.
Proof.
  exists 80, half_file, half_blocks, (fun _ => ex_tabs), (fun _ => repeat 16 64). split; [lia|]. split; [exact half_conforming|]. split; [reflexivity|]. split; [reflexivity|].
  split; [reflexivity|]. split; [reflexivity|].
  destruct half_misread as (px & E & P & D & V). exists px, (80 :: repeat 0 63). split; [exact E|]. split; [exact P|]. split; [exact D|]. split; [reflexivity|exact V].
Qed.
Print Assumptions jpeg_luma_subsampled_refuted.
