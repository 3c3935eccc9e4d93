(** The PNG decoder on files written by any program (C73). *)
From Verif Require Import Base DeflateSpec PngPaletteModel PngDecModel PngSpec PngEncSpec PngConfSpec PngConf.

(** C73: a conforming non-interlaced file of any colour type and depth, with any ancillary
    chunks, split into any IDAT chunks, with any filters and any compression, decodes to the
    pixels it describes.  Missing: tRNS chunks of gray and RGB images. *)
Theorem png_decodes_any_partial : forall w h depth ctb pal trns raw cs more, conforming w h depth ctb pal trns raw cs ->
  (ctb = 3 \/ ctb = 4 \/ ctb = 6 \/ trns = None) ->
  exists px, decode_png (png_file cs ++ more) = Ok (mkImage w h px (result_ct ctb trns)) /\ image_ok (result_ct ctb trns) px (w * h) /\
  forall x y, 0 <= x < w -> 0 <= y < h -> pixel (result_ct ctb trns) px (y * w + x) = png_pixel ctb depth w raw pal trns x y.
Proof. exact decode_conforming_image. Qed.
Print Assumptions png_decodes_any_partial.
Example png_decodes_nonvacuous : conforming 2 2 2 3 [(10, 20, 30); (40, 50, 60); (70, 80, 90)] (Some [0; 128]) [96; 32] idx_chunks /\
  map (fun '(x, y) => png_pixel 3 2 2 [96; 32] [(10, 20, 30); (40, 50, 60); (70, 80, 90)] (Some [0; 128]) x y) [(0, 0); (1, 0); (0, 1); (1, 1)] =
    [(40, 50, 60, 128); (70, 80, 90, 255); (10, 20, 30, 0); (70, 80, 90, 255)] /\
  decode_png (png_file idx_chunks) = Ok (mkImage 2 2 [40; 50; 60; 128; 70; 80; 90; 255; 10; 20; 30; 0; 70; 80; 90; 255] Rgba).
Proof. split; [exact idx_conforming|]. split; vm_compute; reflexivity. Qed.
(** The transparent colour of a gray image is ignored. *)
Theorem png_colour_key_refuted : exists w h depth ctb pal trns raw cs px, conforming w h depth ctb pal trns raw cs /\
  decode_png (png_file cs) = Ok (mkImage w h px Gray) /\ png_pixel ctb depth w raw pal trns 0 0 = (77, 77, 77, 0) /\ pixel Gray px 0 = (77, 77, 77, 255).
Proof. exact key_ignored. Qed.
Print Assumptions png_colour_key_refuted.

(** C73: interlaced files are refused as unsupported, whatever else they contain. *)
Theorem png_interlaced_refused : forall w h depth ctb pal trns mid more, 0 < w <= 2 ^ 24 -> 0 < h <= 2 ^ 24 -> legal_any ctb depth ->
  let cs := (T_IHDR, be4 w ++ be4 h ++ [depth; ctb; 0; 0; 1]) :: mid ++ [(T_IEND, [])] in
  Forall wf_chunk cs -> datas T_IHDR mid = [] -> datas T_IEND mid = [] ->
  datas T_PLTE mid = opt_to_list (option_map (flat_map (fun '(r, g, b) => [r; g; b])) pal) -> datas T_tRNS mid = opt_to_list trns ->
  decode_png (png_file cs ++ more) = Err EUnsupportedDecode.
Proof. exact decode_interlaced. Qed.
Print Assumptions png_interlaced_refused.
Example png_interlaced_nonvacuous : let cs := (T_IHDR, be4 1 ++ be4 1 ++ [8; 0; 0; 0; 1]) :: [(T_IDAT, stored_zlib [0; 77])] ++ [(T_IEND, [])] in
  Forall wf_chunk cs /\ legal_any 0 8 /\ decode_png (png_file cs) = Err EUnsupportedDecode.
Proof. cbv zeta. split; [wf_chunks|]. split; [left; cbn; tauto|vm_compute; reflexivity]. Qed.
