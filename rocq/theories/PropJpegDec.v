(** Properties of the JPEG decoder on arbitrary files (C35, C39). *)
From Coq Require Import Reals.
From Verif Require Import Base BitsModel JpegBaseModel JpegDecModel JpegDecTotal JpegDecSpec JpegDecPanic JpegIdctReal JpegIdctEven JpegFileSpec.
Open Scope Z_scope.

(** C35: whatever the file, a panic has one of these causes: a scan that comes before any
    frame, or a block the scan gets to with a DC category above 25, a DC predictor outside
    i32, or a dequantised coefficient above 2047 in absolute value. *)
Theorem decode_jpeg_panic_causes_partial : forall data, bytes data -> decode_jpeg data = Panic ->
  exists st rest, state_wf st /\ bytes rest /\ decode_jpeg data = decode_scan st rest /\
  (js_comps st = [] \/
   exists ci c s dct act q, reached st rest ci c s /\ get (js_dc st) (c_dc c) = Ok dct /\ get (js_ac st) (c_ac c) = Ok act /\ get (js_quant st) (c_q c) = Ok q /\
     bad_block dct act q (s_reader s) (znth (s_preds s) ci)).
Proof. exact decode_panic_causes. Qed.
Print Assumptions decode_jpeg_panic_causes_partial.
(** the third cause: a table that gives the DC category 26 *)
Theorem decode_jpeg_category_refuted : exists data, bytes data /\ decode_jpeg data = Panic /\
  exists comps, data = [255; 216] ++ dqt_segment 0 (repeat 1 64) ++ sof_segment 192 8 8 [(1, 1, 1, 0)] ++
    dht_segment 0 0 (1 :: repeat 0 15) [26] ++ dht_segment 1 0 (1 :: repeat 0 15) [0] ++ sos_segment [(1, 0, 0)] ++ comps.
Proof. exact decode_category. Qed.
Print Assumptions decode_jpeg_category_refuted.

(** C39: on any block of coefficients up to [M], the inverse DCT returns samples, and they
    are those of the T.81 inverse DCT of the even frequencies alone. *)
Theorem idct_even_frequencies_partial : forall M coefs, 0 <= M <= 2047 -> (forall n, 0 <= n < 64 -> - M <= znth coefs n <= M) ->
  exists px, idct_2d coefs = Ok px /\ length px = 64%nat /\ bytes px /\
  forall x y, (x < 8)%nat -> (y < 8)%nat ->
    (Rabs (IZR (nth (8 * y + x) px 0%Z) - rclamp (128 + real_idct (drop_odd coefs) x y)) <= 9 / 16 + IZR M / 1100)%R.
Proof. exact idct_even_frequencies. Qed.
Print Assumptions idct_even_frequencies_partial.
(** Hence blocks without odd frequencies are reconstructed. *)
Theorem idct_accurate_partial : forall M coefs, 0 <= M <= 2047 -> (forall n, 0 <= n < 64 -> - M <= znth coefs n <= M) ->
  (forall n, 0 <= n < 64 -> Z.odd (n mod 8) = true \/ Z.odd (n / 8) = true -> znth coefs n = 0) ->
  exists px, idct_2d coefs = Ok px /\ length px = 64%nat /\ bytes px /\
  forall x y, (x < 8)%nat -> (y < 8)%nat ->
    (Rabs (IZR (nth (8 * y + x) px 0%Z) - rclamp (128 + real_idct coefs x y)) <= 9 / 16 + IZR M / 1100)%R.
Proof. exact idct_no_odd. Qed.
Print Assumptions idct_accurate_partial.
Example idct_even_nonvacuous : let coefs := [120; 0; -60; 0; 31; 0; 5; 0; 0; 0; 0; 0; 0; 0; 0; 0; 44; 0; 17] ++ repeat 0 45 in
  length coefs = 64%nat /\ Forall (fun c => -120 <= c <= 120) coefs /\
  forallb (fun n => negb (Z.odd (n mod 8) || Z.odd (n / 8)) || (znth coefs n =? 0)) (map Z.of_nat (seq 0 64)) = true /\
  exists px, idct_2d coefs = Ok px /\ firstn 8 px = [148; 143; 150; 160; 160; 150; 143; 148].
Proof.
  cbv zeta. split; [reflexivity|]. split; [repeat constructor; lia|]. split; [vm_compute; reflexivity|]. eexists. split; vm_compute; reflexivity.
Qed.
