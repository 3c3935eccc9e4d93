(** C60-C66, and C33, C36, C37, C38, C45, C50 for the encoder as it is:
    [pixo_env] is the encoder's own f32 transform, quantiser and trellis. *)
From Coq Require Import Reals.
From Flocq Require Import Core BinarySingleNaN.
From Verif Require Import Base BitsModel PngFilterModel PngPaletteModel JpegBaseModel JpegHuffModel JpegDecModel JpegSpec JpegBlockProofs JpegEncModel JpegEncProofs JpegImgSpec JpegFileSpec JpegProgSpec JpegApi JpegClaims JpegRefute
  JpegIdctReal F32Model F32Proofs ResizeModel JpegDctModel JpegDctSpec JpegDctReal JpegDctTop JpegTrellisModel JpegTrellisTop JpegFlat JpegUniform JpegRealRefute JpegDctIntModel JpegDctIntProofs.
Open Scope Z_scope.

(** C60: the encoder's transform of any block of samples in -128..127 is within
    1/100 of the transform of T.81 A.3.3 over the reals, and finite. *)
Theorem forward_dct_accurate : forall block, (forall m, (m < 64)%nat -> fin (fat block m) /\ (-128 <= val (fat block m) <= 127)%R) ->
  forall n, (n < 64)%nat -> fin (fat (dct_2d block) n) /\ (Rabs (val (fat (dct_2d block) n) - real_fdct (fun m => val (fat block m)) n) <= 1 / 100)%R.
Proof. exact (fun block H => dct_accurate block (fun m Hm => proj1 (H m Hm)) (fun m Hm => proj2 (H m Hm))). Qed.
Print Assumptions forward_dct_accurate.

(** C61: a quantised coefficient times its step is within half a step (and the
    error above) of the exact coefficient. *)
Theorem quantised_coefficient_nearest : forall table samples n, length table = 64%nat -> Forall (fun v => 1 <= v <= 255) table ->
  length samples = 64%nat -> Forall (fun s => -512 <= s <= 508) samples -> 0 <= n < 64 ->
  (Rabs (IZR (znth (dctq table samples) n * znth table n) - real_fdct (sample_r samples) (Z.to_nat n)) <= IZR (znth table n) / 2 + 0.0101)%R.
Proof. exact (fun table samples n L T LS S => dctq_accurate table samples n L T (conj LS S)). Qed.
Print Assumptions quantised_coefficient_nearest.
Example samples_nonvacuous : samples_ok (map (fun i => 16 * (i mod 64) - 512) (idxs 64)) /\ dctq (repeat 1 64) (map (fun i => 16 * (i mod 64) - 512) (idxs 64)) <> repeat 0 64.
Proof. split; [split; [reflexivity|apply Forall_forall; intros s Hs; apply in_map_iff in Hs; destruct Hs as (i & <- & Hi); apply PngFilterProofs.in_idxs in Hi; change (Z.of_nat 64) with 64 in Hi; rewrite Z.mod_small by lia; lia]|vm_compute; discriminate]. Qed.

(** C62: trellis quantisation never fails; it keeps the mean of every block as
    plain quantisation has it, drops other coefficients or moves them by at most
    two steps from the exact value, and never changes a sign. *)
Theorem trellis_keeps : forall table samples, length table = 64%nat -> Forall (fun v => 1 <= v <= 255) table ->
  length samples = 64%nat -> Forall (fun s => -512 <= s <= 508) samples ->
  exists l, dct_trellis table samples = Ok l /\ length l = 64%nat /\ znth l 0 = znth (dctq table samples) 0 /\
    forall n, 1 <= n < 64 -> let t := real_fdct (sample_r samples) (Z.to_nat n) in let q := znth table n in let z := znth l n in
      (z = 0 \/ (Rabs (IZR (z * q) - t) <= 2 * IZR q + 0.0101)%R) /\ ((0.0101 < t)%R -> 0 <= z) /\ ((t < -0.0101)%R -> z <= 0).
Proof. exact (fun table samples L T LS S => dct_trellis_kept table samples L T (conj LS S)). Qed.
Print Assumptions trellis_keeps.

(** C63: in the decoded image of any accepted image (baseline; at most one
    restart interval, see C36), a pixel whose whole square of 8 (16 with 4:2:0)
    is one colour has that colour up to the quantisation error of the mean. *)
Theorem uniform_squares_kept : forall data o, valid_args data o -> jo_prog o = false -> match jo_restart o with Some i => mcus_across o * mcus_down o <= i | None => True end ->
  exists out img, jencode pixo_env data o = Ok out /\ (forall tail, decode_jpeg (out ++ tail) = Ok img) /\ ji_w img = jo_w o /\ ji_h img = jo_h o /\ ji_ct img = jo_ct o /\
    forall x y px, 0 <= x < jo_w o -> 0 <= y < jo_h o -> uniform data (jo_w o) (jo_h o) (ncomps o) (8 * factor o) x y px ->
      colour_within o px (px_at (ji_pixels img) (jo_w o) (ncomps o) x y).
Proof. exact uniform_decoded. Qed.
Print Assumptions uniform_squares_kept.
(** C63: whole images of one gray level; the error is half the step of the mean
    over 8, so none at quality 100. *)
Theorem flat_gray_kept : forall o v, is_byte v -> jo_ct o = Gray -> 1 <= jo_w o <= 65535 -> 1 <= jo_h o <= 65535 -> 1 <= jo_quality o <= 100 -> jo_prog o = false -> jo_restart o = None ->
  exists out v', jencode pixo_env (flat_data [v] (jo_w o * jo_h o)) o = Ok out /\
    (forall tail, decode_jpeg (out ++ tail) = Ok (mkjimg (jo_w o) (jo_h o) (flat_data [v'] (jo_w o * jo_h o)) Gray)) /\
    16 * Z.abs (v' - v) <= znth (comp_table o 0) 0 + 8.
Proof. exact flat_gray. Qed.
Print Assumptions flat_gray_kept.
Theorem flat_colour_kept : forall o r g b, is_byte r -> is_byte g -> is_byte b -> jo_ct o = Rgb -> 1 <= jo_w o <= 65535 -> 1 <= jo_h o <= 65535 -> 1 <= jo_quality o <= 100 -> jo_prog o = false -> jo_restart o = None ->
  let a := (znth (comp_table o 0) 0 + 8) / 16 in let c := (znth (comp_table o 1) 0 + 8) / 16 in
  exists out r' g' b', jencode pixo_env (flat_data [r; g; b] (jo_w o * jo_h o)) o = Ok out /\
    (forall tail, decode_jpeg (out ++ tail) = Ok (mkjimg (jo_w o) (jo_h o) (flat_data [r'; g'; b'] (jo_w o * jo_h o)) Rgb)) /\
    256 * Z.abs (r' - r) <= 256 * (a + 3) + 359 * c + 255 /\ 256 * Z.abs (g' - g) <= 256 * (a + 3) + 271 * c + 255 /\ 256 * Z.abs (b' - b) <= 256 * (a + 3) + 454 * c + 255.
Proof. exact flat_colour. Qed.
Print Assumptions flat_colour_kept.
(** at quality 100 every step is 1, so a gray level is exact and colours are
    within 3 (the colour conversion, C54) *)
Example quality_100_steps : forall c, let o := mkjo 1 1 Rgb 100 S444 None false false false in c = 0 \/ c = 1 -> znth (comp_table o c) 0 = 1.
Proof. intros c o [->| ->]; vm_compute; reflexivity. Qed.
Example uniform_nonvacuous : valid_args three_blocks (three_opts None) /\ uniform three_blocks 24 8 1 8 9 3 [znth three_blocks 9].
Proof.
  split; [exact (three_valid None I)|]. intros x y Hx Hy Ex Ey. change (9 / 8) with 1 in Ex. assert (8 <= x < 16) as Rx by (pose proof (Z.div_mod x 8 ltac:(lia)); pose proof (Z.mod_pos_bound x 8 ltac:(lia)); lia).
  assert (In x (map (fun i => 8 + i) (idxs 8))) as Ix by (apply in_map_iff; exists (x - 8); split; [lia|apply PngFilterProofs.in_idxs; change (Z.of_nat 8) with 8; lia]).
  assert (In y (idxs 8)) as Iy by (apply PngFilterProofs.in_idxs; change (Z.of_nat 8) with 8; lia).
  clear -Ix Iy. cbn [map idxs seq In] in Ix, Iy. repeat (destruct Ix as [<-|Ix]; [repeat (destruct Iy as [<-|Iy]; [vm_compute; reflexivity|]); destruct Iy|]). destruct Ix.
Qed.

(** C33 for the encoder as it is *)
Theorem pixo_baseline_file : forall data o, valid_args data o -> jo_prog o = false ->
  exists t scan, jencode pixo_env data o = Ok (baseline_file o (tabs_of t 0) (tabs_of t 1) scan) /\ tabs_ok t /\
    scan_code (tabs_of t) 0 (map (fun iv => zzs (concat iv)) (intervals (jo_restart o) (image_mcus dctq data o))) scan.
Proof. exact (fun data o V P => jencode_baseline pixo_env data o V dctq_dctq_ok P). Qed.
Print Assumptions pixo_baseline_file.
Theorem pixo_file_roundtrip : forall data o, valid_args data o -> jo_prog o = false ->
  match jo_restart o with Some i => mcus_across o * mcus_down o <= i | None => True end ->
  exists out, jencode pixo_env data o = Ok out /\ forall tail, decode_jpeg (out ++ tail) = Ok (dec_image dctq data o).
Proof. exact (fun data o V P R => jpeg_roundtrip pixo_env data o V dctq_dctq_ok P R). Qed.
Print Assumptions pixo_file_roundtrip.
(** C36, C37, C38 for the encoder as it is *)
Theorem pixo_restart_refuted : exists data o, valid_args data o /\ jo_prog o = false /\
  exists out, jencode pixo_env data o = Ok out /\ decode_jpeg out <> Ok (dec_image dctq data o).
Proof. exact restart_lost_real. Qed.
Print Assumptions pixo_restart_refuted.
Theorem pixo_progressive_symbols_refuted : exists data o segs, valid_args data o /\ jo_prog o = true /\ jo_trellis o = false /\
  jencode pixo_env data o = Ok (progressive_file o std_lum std_chrom segs) /\
  ~ exists bits, segment (nth 3 segs []) bits /\ prog_scan_code std_lum 1 10 (comp_blocks (image_mcus dctq data o) 0) bits.
Proof. exact eob_run_uncoded_real. Qed.
Print Assumptions pixo_progressive_symbols_refuted.
Theorem pixo_progressive_scans_partial : forall data o, valid_args data o -> jo_prog o = true ->
  let q := if jo_trellis o then trellisq else dctq in
  exists t segs, jencode pixo_env data o = Ok (progressive_file o (tabs_of t 0) (tabs_of t 1) segs) /\ tabs_ok t /\
    Forall2 (fun s seg => let '(c, ss, se) := s in exists bits, segment seg bits /\
      (prog_scan_has_codes (tabs_of t c) ss se (comp_blocks (image_mcus q data o) c) ->
       prog_scan_code (tabs_of t c) ss se (comp_blocks (image_mcus q data o) c) bits)) prog_script segs.
Proof.
  exact (fun data o V P => jencode_progressive pixo_env data o (if jo_trellis o then trellisq else dctq) V dctq_dctq_ok P eq_refl
    (if jo_trellis o as b return dctq_ok (if b then trellisq else dctq) then trellisq_ok else dctq_dctq_ok)).
Qed.
Print Assumptions pixo_progressive_scans_partial.
Theorem pixo_progressive_components_partial : forall data o, valid_args data o -> jo_prog o = true ->
  exists t segs, jencode pixo_env data o = Ok (progressive_file o (tabs_of t 0) (tabs_of t 1) segs) /\ length segs = length prog_script /\
    (jo_ct o = Rgb -> incl named (declared o)) /\ (jo_ct o = Gray -> In 2 named /\ In 3 named /\ declared o = [1]).
Proof. exact (fun data o V => prog_components pixo_env data o V pixo_env_ok). Qed.
Print Assumptions pixo_progressive_components_partial.
(** C45 and C50 for the encoder as it is *)
Theorem pixo_declares_image : forall data o, valid_args data o ->
  exists out pre post, jencode pixo_env data o = Ok out /\
    out = pre ++ sof_segment (if jo_prog o then 194 else 192) (jo_w o) (jo_h o) (frame_comps (jo_ct o) (jo_sub o)) ++ post /\
    pre = [255; 216] ++ jfif_segment ++ dqt_segment 0 (table_zigzag STD_LUMINANCE_TABLE (jo_quality o)) ++ dqt_segment 1 (table_zigzag STD_CHROMINANCE_TABLE (jo_quality o)).
Proof. exact (fun data o V => jpeg_declares pixo_env data o V pixo_env_ok). Qed.
Print Assumptions pixo_declares_image.
Theorem pixo_rejects_exactly : forall output data o, jpeg_typed data o ->
  (valid_args data o -> exists out, jencode_into pixo_env output data o = (out, Ok tt)) /\
  (~ valid_args data o -> exists er, jencode_into pixo_env output data o = (output, Err er) /\ error_fits data o er).
Proof. exact (fun output data o => jpeg_accepts_exactly pixo_env output data o pixo_env_ok). Qed.
Print Assumptions pixo_rejects_exactly.

(** C64: the integer transform overflows on no block of 16-bit samples; for
    samples up to [D] it is within 1.63 + 0.0012 D of the exact transform in the
    columns 0 and 4, and of a quarter of it in the six others.  The claim, that it
    is the transform, is false. *)
Theorem integer_dct_partial : forall D block, 0 <= D <= 2 ^ 15 -> (forall i, 0 <= i < 64 -> - D <= znth block i <= D) ->
  exists l, dct_2d_integer block = Ok l /\ length l = 64%nat /\
    forall n, (n < 64)%nat -> let share := if (n mod 8 =? 0)%nat || (n mod 8 =? 4)%nat then 1%R else (/ 4)%R in
      (Rabs (IZR (nth n l 0%Z) - share * real_fdct (fun m => IZR (nth m block 0%Z)) n) <= 1.63 + 0.0012 * IZR D)%R.
Proof. exact dct_int_near'. Qed.
Print Assumptions integer_dct_partial.
Theorem integer_dct_refuted : exists block l, length block = 64%nat /\ Forall (fun x => -128 <= x <= 127) block /\ dct_2d_integer block = Ok l /\
  (Rabs (IZR (nth 1 l 0%Z) - real_fdct (fun m => IZR (nth m block 0%Z)) 1) > 600)%R.
Proof. exact int_dct_wrong. Qed.
Print Assumptions integer_dct_refuted.
(** C65: the shortcut for uniform blocks gives the same result *)
Theorem fast_integer_dct_same : forall block, length block = 64%nat -> Forall (fun x => - 2 ^ 15 <= x < 2 ^ 15) block -> dct_2d_fast block = dct_2d_integer block.
Proof. exact fast_is_integer. Qed.
Print Assumptions fast_integer_dct_same.
Example fast_nonvacuous : dct_2d_fast (repeat (-77) 64) = Ok (-616 :: repeat 0 63) /\ dct_2d_fast step_block = Ok ([-4; -231; 0; 81; 0; -55; 0; 46] ++ repeat 0 56).
Proof. split; vm_compute; reflexivity. Qed.
(** C66: integer quantisation gives the nearest multiple, halves away from zero *)
Theorem integer_quantiser_nearest : forall coef q, 1 <= q <= 65535 -> - 2 ^ 31 + 65536 <= coef < 2 ^ 31 - 65536 -> Z.abs coef < q * (2 ^ 15 - 1) ->
  exists z, quantize_integer_one coef q = Ok z /\ 2 * Z.abs (coef - q * z) <= q /\ (2 * Z.abs (coef - q * z) = q -> Z.abs coef < Z.abs (q * z)).
Proof. exact quantize_int_nearest. Qed.
Print Assumptions integer_quantiser_nearest.
Example quantiser_examples : map (fun c => quantize_integer_one c 10) [14; 15; -15; -14; 4; 0] = map Ok [1; 2; -2; -1; 0; 0].
Proof. vm_compute. reflexivity. Qed.
