(** What trellis quantisation is documented to minimise: rate + lambda * distortion
    (src/jpeg/trellis.rs 54-66), lambda = 1, with the bit counts the source writes down
    (266-297), as exact numbers: a cost is a number of 1280ths.  Coefficients are
    sixteenths.  Nothing here uses the search. *)
From Verif Require Import Base.

(** bits of the magnitude of a value *)
Definition magnitude_bits (v : Z) : Z := if v =? 0 then 0 else Z.log2 (Z.abs v) + 1.
(** tenths of a bit for the code of (run, size) *)
Definition code_tenths (run size : Z) : Z :=
  match run, size with
  | 0, 0 => 40 | 0, 1 => 20 | 0, 2 => 25 | 0, 3 => 30 | 0, 4 => 40
  | 1, 1 => 30 | 1, 2 => 40 | 2, 1 => 40 | 15, 0 => 100
  | _, _ => 30 + 5 * run + 3 * size
  end.
(** rate of the values in zigzag order after [run] zeros, in tenths of a bit: a code and
    the magnitude for every nonzero value, 10 bits for every 16 zeros, 4 for the end of
    block *)
Fixpoint rate_tenths (run : Z) (vs : list Z) : Z :=
  match vs with
  | [] => if run =? 0 then 0 else 40
  | v :: vs =>
      if v =? 0 then if run =? 15 then 100 + rate_tenths 0 vs else rate_tenths (run + 1) vs
      else code_tenths run (magnitude_bits v) + 10 * magnitude_bits v + rate_tenths 0 vs
  end.
(** squared error of the values [vs] for the coefficients [ns] (sixteenths) and the steps
    [qs], in 256ths *)
Fixpoint error_256ths (ns qs vs : list Z) : Z :=
  match ns, qs, vs with
  | n :: ns, q :: qs, v :: vs => (n - 16 * (v * q)) * (n - 16 * (v * q)) + error_256ths ns qs vs
  | _, _, _ => 0
  end.
(** rate + distortion, in 1280ths *)
Definition block_cost (ns qs vs : list Z) : Z := 128 * rate_tenths 0 vs + 5 * error_256ths ns qs vs.
(** the nearest multiple, ties away from zero *)
Definition plain_round (n q : Z) : Z := Z.sgn n * ((Z.abs n + 8 * q) / (16 * q)).
(** values in zigzag order, without the DC value *)
Definition ac_of (zigzag l : list Z) : list Z := map (fun i => nth (Z.to_nat i) l 0) (tl zigzag).

Example cost_one : block_cost [24; 0; 0] [1; 1; 1] [2; 0; 0] = 128 * (25 + 20 + 40) + 5 * 64. Proof. reflexivity. Qed.
Example round_tie : plain_round (-24) 1 = -2. Proof. reflexivity. Qed.
