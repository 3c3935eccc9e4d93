(** C29, C33, C34, C35, C36, C37, C38, C39, C45, C50 *)
From Coq Require Import Reals.
From Verif Require Import Base BitsModel PngFilterModel PngPaletteModel JpegBaseModel JpegHuffModel JpegDecModel JpegSpec JpegBlockProofs JpegEncModel JpegEncProofs JpegImgSpec JpegFileSpec JpegProgSpec JpegApi JpegClaims JpegRefute JpegDecTotal JpegIdctReal JpegColour.
Open Scope Z_scope.

(** C33: any sequence of blocks of the three components (DC -1024..1023, AC of
    at most 10 bits) is read back by the decoder's block reader.  [covers]: the
    tables have the symbols of the blocks; the standard tables always do. *)
Theorem jpeg_entropy_lossless : forall t blocks, tabs_ok t -> Forall coef_ok blocks -> covers t [0; 0; 0] blocks ->
  exists w preds, fold_res (encode_comp t) blocks (m_new, [0; 0; 0]) = Ok (w, preds) /\
    read_blocks (tabs_of t) (map fst blocks) [0; 0; 0] (mr_new (m_finish w)) = Ok (map (fun cb => zigzag_reorder (snd cb)) blocks).
Proof. exact blocks_roundtrip. Qed.
Print Assumptions jpeg_entropy_lossless.
Theorem jpeg_entropy_lossless_standard : forall blocks, Forall coef_ok blocks ->
  exists t w preds, std_tables = Ok t /\ fold_res (encode_comp t) blocks (m_new, [0; 0; 0]) = Ok (w, preds) /\
    read_blocks (tabs_of t) (map fst blocks) [0; 0; 0] (mr_new (m_finish w)) = Ok (map (fun cb => zigzag_reorder (snd cb)) blocks).
Proof. exact blocks_roundtrip_std. Qed.
Print Assumptions jpeg_entropy_lossless_standard.
Theorem jpeg_zigzag_lossless : forall a b, length a = 64%nat -> length b = 64%nat -> zigzag_reorder a = zigzag_reorder b -> a = b.
Proof. exact zigzag_reorder_inj. Qed.
Print Assumptions jpeg_zigzag_lossless.
(** C33 at the API: a baseline file, standard or optimised tables, has the
    layout of T.81 and its scan is the code of exactly the quantised blocks of
    the image; [dctq_ok] is the assumption on the f32 transform. *)
Theorem jpeg_baseline_file : forall e data o, valid_args data o -> dctq_ok (je_dctq e) -> jo_prog o = false ->
  exists t scan, jencode e data o = Ok (baseline_file o (tabs_of t 0) (tabs_of t 1) scan) /\ tabs_ok t /\
    scan_code (tabs_of t) 0 (map (fun iv => zzs (concat iv)) (intervals (jo_restart o) (image_mcus (je_dctq e) data o))) scan.
Proof. exact jencode_baseline. Qed.
Print Assumptions jpeg_baseline_file.
(** C33: and decoding the file gives the image its coefficients stand for. *)
Theorem jpeg_file_roundtrip : forall e data o, valid_args data o -> dctq_ok (je_dctq e) -> jo_prog o = false ->
  match jo_restart o with Some i => mcus_across o * mcus_down o <= i | None => True end ->
  exists out, jencode e data o = Ok out /\ forall tail, decode_jpeg (out ++ tail) = Ok (dec_image (je_dctq e) data o).
Proof. exact jpeg_roundtrip. Qed.
Print Assumptions jpeg_file_roundtrip.
(** a quantiser, an image and options that meet the hypotheses *)
Example jpeg_nonvacuous : dctq_ok (je_dctq dc_env) /\ valid_args three_blocks (three_opts None) /\ jo_prog (three_opts None) = false /\
  pixel_at None 8 = Some 120.
Proof. exact (conj (proj1 dc_env_ok) (conj (three_valid None I) (conj eq_refl (proj1 three_decoded)))). Qed.
Example coef_nonvacuous : Forall coef_ok [(0, 5 :: -3 :: repeat 0 62); (1, -1024 :: repeat 0 61 ++ [1023; -1])].
Proof.
  apply Forall_cons; [|apply Forall_cons; [|apply Forall_nil]];
    (split; [cbn; lia|]; split; [reflexivity|]; split; [vm_compute; split; discriminate|]);
    apply Forall_forall; intros x Hx; vm_compute in Hx; repeat (destruct Hx as [<-|Hx]; [lia|]); destruct Hx.
Qed.

(** C34: whenever a table is built every counted symbol gets a code word of at
    most 16 bits with a zero in it, no code word is a prefix of another, and no
    other symbol has one; [None] makes the caller fall back to the standard
    tables. *)
Theorem optimised_tables_valid : forall counts, Forall (fun c => 0 <= c) counts -> fold_right Z.add 0 counts < 2 ^ 64 -> zlen counts <= 256 ->
  zlen (filter (fun c => c >? 0) counts) <= 255 ->
  exists x, build_bits_vals counts = Ok x /\
    forall bits vals, x = Some (bits, vals) -> valid_code bits vals (fun s => 0 <= s < zlen counts /\ 0 < znth counts s).
Proof. exact optimised_table. Qed.
Print Assumptions optimised_tables_valid.
(** The bound 255 is needed: with 256 counted symbols a u8 counter can overflow.
    The encoder counts at most 162 AC and 12 DC symbols. *)
Theorem optimised_tables_256_refuted : exists counts, Forall (fun c => 0 <= c) counts /\ fold_right Z.add 0 counts < 2 ^ 64 /\ zlen counts = 256 /\
  build_bits_vals counts = Panic.
Proof. exact table_overflow. Qed.
Print Assumptions optimised_tables_256_refuted.
Example table_nonvacuous : build_bits_vals [5; 0; 1; 1; 9] = Ok (Some ([0; 1; 1; 2] ++ repeat 0 12, [4; 0; 2; 3])).
Proof. vm_compute. reflexivity. Qed.

(** C35: nothing before the first scan can make the decoder panic, and it
    always comes to an end; the state it reaches a scan with is well-formed.
    Missing: scans, where it can panic. *)
Theorem decode_jpeg_total_partial : forall data, bytes data -> decode_jpeg data <> NoFuel /\
  ((exists e, decode_jpeg data = Err e) \/ exists st rest, state_wf st /\ bytes rest /\ decode_jpeg data = decode_scan st rest).
Proof. exact (fun data H => conj (decode_jpeg_ends data H) (jpeg_header_total data H)). Qed.
Print Assumptions decode_jpeg_total_partial.
(** a scan without a frame; a frame whose coefficients overflow the transform *)
Theorem decode_jpeg_total_refuted : exists data, bytes data /\ decode_jpeg data = Panic.
Proof. exact decode_panics. Qed.
Print Assumptions decode_jpeg_total_refuted.
Theorem decode_jpeg_overflow_refuted : exists data, bytes data /\ decode_jpeg data = Panic /\
  exists comps, data = [255; 216] ++ dqt_segment 0 (255 :: repeat 1 63) ++ sof_segment 192 8 8 [(1, 1, 1, 0)] ++
    dht_segment 0 0 (1 :: repeat 0 15) [9] ++ dht_segment 1 0 (1 :: repeat 0 15) [0] ++ sos_segment [(1, 0, 0)] ++ comps.
Proof. exact decode_overflows. Qed.
Print Assumptions decode_jpeg_overflow_refuted.

(** C36: the encoder side holds ([jpeg_baseline_file] with any interval): every
    restart interval is coded from fresh predictions and the markers count
    0..7.  Reading it back fails: the reader drops what is left of the interval
    before. *)
Theorem restart_roundtrip_refuted : exists data o, valid_args data o /\ jo_prog o = false /\
  exists out, jencode dc_env data o = Ok out /\ decode_jpeg out <> Ok (dec_image (je_dctq dc_env) data o).
Proof. exact restart_lost. Qed.
Print Assumptions restart_roundtrip_refuted.

(** C37: a progressive scan is the code of the coefficients of its component
    and band, provided the tables have the symbols it needs. *)
Theorem progressive_scans_partial : forall e data o q, valid_args data o -> dctq_ok (je_dctq e) -> jo_prog o = true ->
  q = (if jo_trellis o then je_trellis e else je_dctq e) -> dctq_ok q ->
  exists t segs, jencode e data o = Ok (progressive_file o (tabs_of t 0) (tabs_of t 1) segs) /\ tabs_ok t /\
    Forall2 (fun s seg => let '(c, ss, se) := s in exists bits, segment seg bits /\
      (prog_scan_has_codes (tabs_of t c) ss se (comp_blocks (image_mcus q data o) c) ->
       prog_scan_code (tabs_of t c) ss se (comp_blocks (image_mcus q data o) c) bits)) prog_script segs.
Proof. exact jencode_progressive. Qed.
Print Assumptions progressive_scans_partial.
(** It does not always: the standard tables have no end-of-band runs, and two
    flat blocks already need one. *)
Theorem progressive_symbols_refuted : exists data o segs, valid_args data o /\ jo_prog o = true /\
  jencode dc_env data o = Ok (progressive_file o std_lum std_chrom segs) /\
  ~ exists bits, segment (nth 3 segs []) bits /\ prog_scan_code std_lum 1 10 (comp_blocks (image_mcus dc_quant data o) 0) bits.
Proof. exact eob_run_uncoded. Qed.
Print Assumptions progressive_symbols_refuted.

(** C38: true of colour images, false of every gray one. *)
Theorem progressive_components_partial : forall e data o, valid_args data o -> quantisers_ok e -> jo_prog o = true ->
  exists t segs, jencode e data o = Ok (progressive_file o (tabs_of t 0) (tabs_of t 1) segs) /\ length segs = length prog_script /\
    (jo_ct o = Rgb -> incl named (declared o)) /\ (jo_ct o = Gray -> In 2 named /\ In 3 named /\ declared o = [1]).
Proof. exact prog_components. Qed.
Print Assumptions progressive_components_partial.
Example progressive_nonvacuous : valid_args (repeat 128 128) flat_opts /\ jo_prog flat_opts = true /\ quantisers_ok dc_env.
Proof. exact (conj flat_valid (conj eq_refl dc_env_ok)). Qed.

(** C39: exact to half a level for blocks with only a mean; odd frequencies are
    lost (the odd part of the transform lacks a factor 2^13). *)
Theorem idct_mean_partial : forall d, -5000 <= d <= 5000 -> idct_2d (d :: repeat 0 63) = Ok (repeat (clamp (128 + (d + 4) / 8) 0 255) 64) /\
  forall x y, (Rabs (IZR (128 + (d + 4) / 8)%Z - (128 + real_idct (d :: repeat 0%Z 63) x y)) <= / 2)%R.
Proof. exact (fun d H => conj (idct_dc_only d H) (idct_dc_accurate d)). Qed.
Print Assumptions idct_mean_partial.
Theorem idct_accurate_refuted : exists coefs px, length coefs = 64%nat /\ Forall (fun c => -2048 <= c <= 2047) coefs /\
  idct_2d coefs = Ok px /\ (64 <= Rabs (IZR (znth px 0) - (128 + real_idct coefs 0 0)))%R.
Proof. exact idct_loses_wave. Qed.
Print Assumptions idct_accurate_refuted.

(** C45: the headers of both kinds of file are those of [jpeg_baseline_file] and
    [progressive_scans_partial]; their frame header says: *)
Theorem jpeg_frame_header : forall m o,
  sof_segment m (jo_w o) (jo_h o) (frame_comps (jo_ct o) (jo_sub o)) =
  [255; m; (8 + 3 * zlen (frame_comps (jo_ct o) (jo_sub o))) / 256; (8 + 3 * zlen (frame_comps (jo_ct o) (jo_sub o))) mod 256;
   8; jo_h o / 256; jo_h o mod 256; jo_w o / 256; jo_w o mod 256; zlen (frame_comps (jo_ct o) (jo_sub o))] ++
  flat_map (fun '(id, hs, vs, tq) => [id; 16 * hs + vs; tq]) (frame_comps (jo_ct o) (jo_sub o)).
Proof. exact frame_header_bytes. Qed.
Print Assumptions jpeg_frame_header.
Theorem jpeg_declares_image : forall e data o, valid_args data o -> quantisers_ok e ->
  exists out pre post, jencode e data o = Ok out /\
    out = pre ++ sof_segment (if jo_prog o then 194 else 192) (jo_w o) (jo_h o) (frame_comps (jo_ct o) (jo_sub o)) ++ post /\
    pre = [255; 216] ++ jfif_segment ++ dqt_segment 0 (table_zigzag STD_LUMINANCE_TABLE (jo_quality o)) ++ dqt_segment 1 (table_zigzag STD_CHROMINANCE_TABLE (jo_quality o)).
Proof. exact jpeg_declares. Qed.
Print Assumptions jpeg_declares_image.

(** C50 *)
Theorem jpeg_rejects_exactly : forall e output data o, quantisers_ok e -> jpeg_typed data o ->
  (valid_args data o -> exists out, jencode_into e output data o = (out, Ok tt)) /\
  (~ valid_args data o -> exists er, jencode_into e output data o = (output, Err er) /\ error_fits data o er).
Proof. exact jpeg_accepts_exactly. Qed.
Print Assumptions jpeg_rejects_exactly.
Example rejects_nonvacuous : quantisers_ok dc_env /\ jpeg_typed [1; 2; 3] (mkjo 1 1 Rgb 101 S420 (Some 7) true true true) /\
  ~ valid_args [1; 2; 3] (mkjo 1 1 Rgb 101 S420 (Some 7) true true true) /\ valid_args [1; 2; 3] (mkjo 1 1 Rgb 100 S420 (Some 7) true true true).
Proof. exact rejects_example. Qed.

(** C29, the JPEG part *)
Theorem jpeg_buffer_independent : forall e output data o,
  match jencode e data o with
  | Ok out => jencode_into e output data o = (out, Ok tt)
  | Err er => jencode_into e output data o = (output, Err er)
  | Panic => snd (jencode_into e output data o) = Panic
  | NoFuel => snd (jencode_into e output data o) = NoFuel
  end.
Proof. exact jencode_into_same. Qed.
Print Assumptions jpeg_buffer_independent.

(** C54: the decoder's colour conversion is within 1.2 levels of the JFIF formulas
    (weights in millionths), limited to the range of a byte. *)
Theorem decoder_colour_accurate : forall y cb cr, is_byte y -> is_byte cb -> is_byte cr ->
  exists r g b, ycbcr_pixel y cb cr = [r; g; b] /\ is_byte r /\ is_byte g /\ is_byte b /\
    Z.abs (1000000 * r - lim (1000000 * y + 1402000 * (cr - 128))) <= 1200000 /\
    Z.abs (1000000 * g - lim (1000000 * y - 344136 * (cb - 128) - 714136 * (cr - 128))) <= 1200000 /\
    Z.abs (1000000 * b - lim (1000000 * y + 1772000 * (cb - 128))) <= 1200000.
Proof. exact decoder_colour_l. Qed.
Print Assumptions decoder_colour_accurate.
(** C54: converting a colour with the encoder's and then the decoder's function
    changes no channel by more than 3. *)
Theorem colour_roundtrip : forall r g b, is_byte r -> is_byte g -> is_byte b ->
  exists y cb cr r' g' b', rgb_to_ycbcr r g b = Ok (y, cb, cr) /\ ycbcr_pixel y cb cr = [r'; g'; b'] /\
    Z.abs (r' - r) <= 3 /\ Z.abs (g' - g) <= 3 /\ Z.abs (b' - b) <= 3.
Proof. exact colour_roundtrip_l. Qed.
Print Assumptions colour_roundtrip.
(** 3 is reached *)
Example colour_roundtrip_tight : exists y cb cr, rgb_to_ycbcr 0 235 7 = Ok (y, cb, cr) /\ znth (ycbcr_pixel y cb cr) 2 = 4.
Proof. do 3 eexists. split; vm_compute; reflexivity. Qed.
