(** C89: progressive scans have their blocks in the order of the standard. *)
From Verif Require Import Base CanonSpec MsbSpec PngFilterModel PngPaletteModel JpegBaseModel JpegHuffModel JpegDecModel JpegSpec JpegEncModel JpegEncProofs JpegImgSpec JpegFileSpec JpegProgSpec JpegProgProofs
  JpegApi JpegClaims JpegDctModel JpegDctTop JpegTrellisModel JpegTrellisTop JpegOrderSpec JpegOrder.

(** Without subsampling, and for the chrominance with it, a progressive scan codes the
    blocks of its component from top left to bottom right, provided the tables have the
    symbols it needs (C37).  Missing: luminance with subsampling, of which it is false, see
    [progressive_order_refuted]. *)
Theorem progressive_order_partial : forall data o, valid_args data o -> jo_prog o = true ->
  let q := if jo_trellis o then trellisq else dctq in
  exists t segs, jencode pixo_env data o = Ok (progressive_file o (tabs_of t 0) (tabs_of t 1) segs) /\ tabs_ok t /\
    Forall2 (fun s seg => let '(c, ss, se) := s in c < ncomps o -> factor o = 1 \/ c <> 0 -> exists bits, segment seg bits /\
      (prog_scan_has_codes (tabs_of t c) ss se (raster_blocks q data o c) ->
       prog_scan_code (tabs_of t c) ss se (raster_blocks q data o c) bits)) prog_script segs.
Proof. exact scans_raster. Qed.
Print Assumptions progressive_order_partial.
(** 24 x 9 pixels without subsampling: three blocks, then three blocks *)
Example progressive_order_case : let o := mkjo 24 9 Rgb 75 S444 None false true false in factor o = 1 /\
  raster_places o 1 = [(0, 0); (1, 0); (2, 0); (0, 1); (1, 1); (2, 1)].
Proof. split; reflexivity. Qed.

(** The preset for most compression: of a picture with a light upper and a dark lower half
    the blocks are written MCU by MCU, light, light, dark, dark, twice. *)
Theorem progressive_order_refuted : exists data o lum chrom segs, valid_args data o /\ jo_prog o = true /\ jo_trellis o = true /\
  jencode pixo_env data o = Ok (progressive_file o lum chrom segs) /\
  ~ exists bits, segment (nth 0 segs []) bits /\ prog_scan_code lum 0 0 (raster_blocks trellisq data o 0) bits.
Proof. exact order_lost. Qed.
Print Assumptions progressive_order_refuted.
