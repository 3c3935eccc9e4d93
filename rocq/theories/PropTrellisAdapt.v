(** C110: the quality argument of trellis quantisation. *)
From Coq Require Import Reals Lra.
From Flocq Require Import Core.
From Verif Require Import Base PngFilterModel JpegBaseModel F32Model JpegDctModel JpegDctSpec JpegDctTop JpegTrellisModel JpegTrellisTop TrellisCostSpec TrellisOpt TrellisAdaptModel TrellisAdapt.
Open Scope Z_scope.

(** Fails: a higher quality does not mean a smaller error.  The sum weighs the error, not
    the rate, with lambda, and lambda falls with quality. *)
Theorem adaptive_quality_refuted : ~ (forall ns table q q' l l', length ns = 64%nat -> Forall (fun n => Z.abs n <= 16 * 1024) ns ->
  length table = 64%nat -> Forall (fun q => 1 <= q <= 255) table -> 1 <= q <= q' -> q' <= 100 ->
  trellis_quantize_adaptive (sixteenths ns) table q = Ok l -> trellis_quantize_adaptive (sixteenths ns) table q' = Ok l' ->
  error_256ths ns table l' <= error_256ths ns table l).
Proof. exact quality_l. Qed.
Print Assumptions adaptive_quality_refuted.

(** What holds: with every quality up to 100 the result keeps the mean as plain
    quantisation has it, drops other coefficients or moves them by at most two steps, and
    never changes a sign. *)
Theorem adaptive_keeps_partial : forall table samples quality, length table = 64%nat -> Forall (fun v => 1 <= v <= 255) table ->
  length samples = 64%nat -> Forall (fun s => -512 <= s <= 508) samples -> 0 <= quality <= 100 ->
  exists l, trellis_quantize_adaptive (dct_2d (map sample_f samples)) table quality = Ok l /\ length l = 64%nat /\ znth l 0 = znth (dctq table samples) 0 /\
    forall n, 1 <= n < 64 -> let t := real_fdct (sample_r samples) (Z.to_nat n) in let q := znth table n in let z := znth l n in
      (z = 0 \/ (Rabs (IZR (z * q) - t) <= 2 * IZR q + 0.0101)%R) /\ ((0.0101 < t)%R -> 0 <= z) /\ ((t < -0.0101)%R -> z <= 0).
Proof. exact (fun table samples quality L T LS S => adaptive_l table samples quality L T (conj LS S)). Qed.
Print Assumptions adaptive_keeps_partial.

(** Above 100 it panics. *)
Theorem adaptive_above_panics : forall dct table quality, 100 < quality -> trellis_quantize_adaptive dct table quality = Panic.
Proof. exact adaptive_above. Qed.
Print Assumptions adaptive_above_panics.

Example adaptive_case : trellis_quantize_adaptive (sixteenths faint) (repeat 2 64) 1 = Ok (0 :: 1 :: repeat 0 62) /\
  trellis_quantize_adaptive (sixteenths faint) (repeat 2 64) 100 = Ok (repeat 0 64).
Proof. split; [exact faint_low|exact faint_high]. Qed.
