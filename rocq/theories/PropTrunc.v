(** Cut-off data is refused (C84); cut-off JPEG files are not (C85). *)
From Verif Require Import Base DeflateSpec InflateModel Lz77Model HuffModel DeflateModel DeflateTop PngFilterModel PngPaletteModel PngModel PngDecModel PngDecProofs PngSpec PngEncSpec
  JpegBaseModel JpegDecModel JpegDecSpec JpegAnySpec JpegAnyEx TruncProofs TruncJpeg PropDeflate PropCli.
Open Scope Z_scope.

(** C84: whatever a compressor wrote in keeping with RFC 1951 or RFC 1950, a proper
    beginning of it is refused. *)
Theorem deflate_cut_refused : forall p x out, x <> [] -> bytes (p ++ x) -> deflate_stream (p ++ x) out -> inflate p = Err EInvalidDecode.
Proof. exact deflate_cut. Qed.
Print Assumptions deflate_cut_refused.
Theorem zlib_cut_refused : forall p x out expected, x <> [] -> bytes (p ++ x) -> zlib_stream (p ++ x) out -> exists er, inflate_zlib p expected = Err er.
Proof. exact zlib_cut. Qed.
Print Assumptions zlib_cut_refused.
(** "abc": the five bytes are read, none of their proper beginnings *)
Example deflate_cut_case : let z := [75; 76; 74; 6; 0] in bytes z /\ inflate z = Ok [97; 98; 99] /\
  map (fun k => inflate (firstn k z)) (seq 0 5) = repeat (Err EInvalidDecode) 5.
Proof. cbv zeta. split; [apply bytes_of_check; reflexivity|]. split; vm_compute; reflexivity. Qed.
(** and a stream that the compressor wrote ([deflate_zlib_packed_roundtrip] says it is one) *)
Example zlib_cut_case : match deflate_zlib_packed list_heap pool_init [97; 98; 99] 6 with
  | Ok (z, _) => zlen z = 11 /\ map (fun k => inflate_zlib (firstn k z) (Some 3)) (seq 0 12) = repeat (Err EInvalidDecode) 11 ++ [Ok [97; 98; 99]]
  | _ => False end.
Proof. vm_compute. split; reflexivity. Qed.

(** C84: a PNG file ends with its first IEND chunk; cut before the end of that, it is
    refused, whatever its chunks hold. *)
Theorem png_cut_refused : forall pre d q y, Forall wf_chunk (pre ++ [(T_IEND, d)]) -> Forall (fun c => fst c <> T_IEND) pre ->
  png_file (pre ++ [(T_IEND, d)]) = q ++ y -> y <> [] -> exists er, decode_png q = Err er.
Proof. exact png_file_cut_err. Qed.
Print Assumptions png_cut_refused.
(** C84: so is every beginning of a file the encoder wrote. *)
Theorem png_encoded_cut_refused : forall e data o f q y, accepted o data -> env_ok e o -> small o -> 0 <= o_max_colors o ->
  encode e data o = Ok f -> f = q ++ y -> y <> [] -> exists er, decode_png q = Err er.
Proof. exact encoded_cut. Qed.
Print Assumptions png_encoded_cut_refused.
(** C84: any file that decodes, well-formed or not, has an end that it cannot do without and
    after which nothing matters. *)
Theorem png_needed_part : forall file im, bytes file -> decode_png file = Ok im ->
  exists p x, file = p ++ x /\ (forall y, decode_png (p ++ y) = Ok im) /\ forall q y, q ++ y = p -> y <> [] -> decode_png q = Err EInvalidDecode.
Proof. exact png_cut. Qed.
Print Assumptions png_needed_part.
Example png_cut_case : match encode ex_env [1; 2; 3; 40; 50; 60] (mkOpts 2 1 Rgb 6 SNone false false false false false QOff 256 false) with
  | Ok f => zlen f = 72 /\ decode_png f = Ok (mkImage 2 1 [1; 2; 3; 40; 50; 60] Rgb) /\ decode_png (f ++ [0]) = decode_png f /\ decode_png (firstn 71 f) = Err EInvalidDecode
  | _ => False end.
Proof. vm_compute. repeat split. Qed.

(** C85: the headers of a JPEG file, up to and with the start of scan, cannot be cut; what
    follows them does not change the size or the colour type.  Missing: cuts in the scan. *)
Theorem jpeg_cut_partial : forall file im, decode_jpeg file = Ok im ->
  exists p x, file = p ++ x /\ (forall y im', decode_jpeg (p ++ y) = Ok im' -> ji_w im' = ji_w im /\ ji_h im' = ji_h im /\ ji_ct im' = ji_ct im) /\
    forall q y, q ++ y = p -> y <> [] -> exists er, decode_jpeg q = Err er.
Proof. exact jpeg_cut. Qed.
Print Assumptions jpeg_cut_partial.
(** C85 fails: a conforming file, cut at the start of its scan, decodes to another picture. *)
Theorem jpeg_cut_refuted : exists M f B T Q q y im im', conforming_jpeg M f B T Q /\ file_bytes f = q ++ y /\ y <> [] /\
  decode_jpeg (file_bytes f) = Ok im /\ decode_jpeg q = Ok im' /\ im' <> im.
Proof. exact jpeg_cut_accepted. Qed.
Print Assumptions jpeg_cut_refuted.
