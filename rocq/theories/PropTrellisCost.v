(** C103: trellis quantisation does not minimise what it is documented to minimise. *)
From Verif Require Import Base JpegBaseModel F32Model ResizeModel JpegDctModel JpegTrellisModel TrellisCostSpec TrellisOpt.

(** "optimal quantized coefficients ... minimizing rate + lambda * distortion" is false:
    not even plain rounding is always matched. *)
Theorem trellis_optimal_refuted : ~ (forall ns table l, length ns = 64%nat -> Forall (fun n => Z.abs n <= 16 * 1024) ns ->
  length table = 64%nat -> Forall (fun q => 1 <= q <= 255) table -> trellis_quantize DEFAULT_LAMBDA (sixteenths ns) table = Ok l ->
  block_cost (ac_of ZIGZAG ns) (ac_of ZIGZAG table) (ac_of ZIGZAG l) <=
  block_cost (ac_of ZIGZAG ns) (ac_of ZIGZAG table) (map (fun '(n, q) => plain_round n q) (combine (ac_of ZIGZAG ns) (ac_of ZIGZAG table)))).
Proof. exact search_not_optimal. Qed.
Print Assumptions trellis_optimal_refuted.
