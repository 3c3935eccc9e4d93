(** The JPEG decoder on files it does not support (C90), the shape of what it returns (C91)
    and its size against that of the file (C92). *)
From Verif Require Import Base PngPaletteModel JpegDecModel JpegSpec JpegFileSpec JpegAnySpec JpegAnyEx JpegOtherSpec JpegOther DeflateTop.
Open Scope Z_scope.

(** C90: a file whose frame is of another process (progressive, lossless, arithmetic,
    hierarchical, extended), of another precision than 8 bits or has another number of
    components than one and three is refused with an error, whatever its tables and other
    segments contain and whatever follows.  Missing: files that give their number of lines
    after the scan, see [lines_later_refuted]. *)
Theorem unsupported_jpeg_refused_partial : forall before frame after n c params rest,
  Forall side_segment before -> unsupported frame -> Forall side_segment after -> 1 <= c -> segment_fits (n, 218, c :: params) ->
  exists e, decode_jpeg (other_file before frame after n c params rest) = Err e.
Proof. exact other_refused. Qed.
Print Assumptions unsupported_jpeg_refused_partial.
(** a lossless frame with arithmetic coding (SOF11), 12 bits, one component, after
    conditioning tables *)
Example unsupported_case : let cond := (0%nat, 204, [0; 16]) in let frame := (3%nat, 203, frame_header 12 640 480 [(1, 1, 1, 0)]) in
  side_segment cond /\ unsupported frame /\ segment_fits (0%nat, 218, [1; 1; 0; 1; 0; 0]) /\
  decode_jpeg (other_file [cond] frame [] 0 1 [1; 0; 1; 0; 0] [17; 34; 255; 217]) = Err EInvalidDecode.
Proof.
  cbv zeta. split; [split; [lia|split; [apply bytes_of_check; reflexivity|reflexivity]]|]. split; [apply other_sof; [cbn; tauto|split; [apply bytes_of_check; reflexivity|reflexivity]]|].
  split; [split; [apply bytes_of_check; reflexivity|reflexivity]|vm_compute; reflexivity].
Qed.
(** Progressive frames and frames of the wrong shape are named as unsupported. *)
Theorem unsupported_jpeg_named : forall before frame rest, Forall seg_legal before -> unsupported frame -> snd (fst frame) = 192 \/ snd (fst frame) = 194 ->
  decode_jpeg ([255; 216] ++ flat_map seg_bytes before ++ any_segment frame ++ rest) = Err EUnsupportedDecode.
Proof. exact other_named. Qed.
Print Assumptions unsupported_jpeg_named.
Example named_case : let frame := (0%nat, 192, frame_header 8 640 480 [(1, 1, 1, 0); (2, 1, 1, 0); (3, 1, 1, 0); (4, 1, 1, 0)]) in unsupported frame /\
  decode_jpeg ([255; 216] ++ seg_bytes (0%nat, Skip 238 [65; 100; 111; 98; 101]) ++ any_segment frame ++ [1; 2; 3]) = Err EUnsupportedDecode.
Proof. cbv zeta. split; [apply other_number; [discriminate| | |split; [apply bytes_of_check; reflexivity|reflexivity]]; vm_compute; discriminate|vm_compute; reflexivity]. Qed.
(** C90, refuted: any conforming file that leaves its number of lines open until after the
    scan (T.81 B.2.5) decodes, without an error, to a picture without lines. *)
Theorem lines_later_refuted : (exists M f B T Q, conforming_jpeg M f B T Q /\ f_h f = 8) /\
  forall M f B T Q, conforming_jpeg M f B T Q -> decode_jpeg (lines_later f) = Ok (mkjimg (f_w f) 0 [] (if single f then Gray else Rgb)).
Proof. exact (conj (ex_intro _ 1200 (ex_intro _ ex_file (ex_intro _ ex_blocks (ex_intro _ (fun _ => ex_tabs) (ex_intro _ ex_quant (conj ex_conforming eq_refl)))))) lines_lost). Qed.
Print Assumptions lines_later_refuted.

(** C91: whatever the file, a picture that is returned has as many bytes as its size and
    colour type ask for. *)
Theorem decoded_jpeg_well_formed : forall data im, bytes data -> decode_jpeg data = Ok im ->
  0 <= ji_w im <= 65535 /\ 0 <= ji_h im <= 65535 /\ (ji_ct im = Gray \/ ji_ct im = Rgb) /\
  zlen (ji_pixels im) = ji_w im * ji_h im * bytes_per_pixel (ji_ct im) /\ bytes (ji_pixels im).
Proof. exact decoded_well_formed. Qed.
Print Assumptions decoded_jpeg_well_formed.
Example decoded_jpeg_case : match decode_jpeg (file_bytes ex_file) with Ok im => ji_w im = 16 /\ zlen (ji_pixels im) = 384 | _ => False end.
Proof. vm_compute. split; reflexivity. Qed.

(** C92: a conforming file stands for at most 768 times the size of its scan, since a block
    takes two bits.  Missing: files that do not conform. *)
Theorem jpeg_bounded_partial : forall M f B T Q, conforming_jpeg M f B T Q -> usual_sampling f -> f_w f * f_h f * zlen (f_comps f) <= 768 * zlen (f_scan f).
Proof. exact conforming_bounded. Qed.
Print Assumptions jpeg_bounded_partial.
Example jpeg_bounded_case : conforming_jpeg 1200 ex_file ex_blocks (fun _ => ex_tabs) ex_quant /\ usual_sampling ex_file /\
  f_w ex_file * f_h ex_file * zlen (f_comps ex_file) = 384 /\ zlen (f_scan ex_file) = 3.
Proof. split; [exact ex_conforming|]. split; [exact ex_usual|]. split; reflexivity. Qed.
(** C92, refuted: 35 bytes, without tables and without a scan, decode to a picture of any
    size; up to 12 gigabytes. *)
Theorem jpeg_bounded_refuted : forall w h, 1 <= w < 65536 -> 1 <= h < 65536 ->
  exists file im, bytes file /\ zlen file = 35 /\ decode_jpeg file = Ok im /\ zlen (ji_pixels im) = 3 * (w * h).
Proof. exact unbounded. Qed.
Print Assumptions jpeg_bounded_refuted.
