(** C114: the public binary32 inverse DCT. *)
From Coq Require Import Reals.
From Flocq Require Import Core.
From Verif Require Import Base F32Model F32Proofs JpegDctModel JpegDctSpec JpegIdctFModel JpegIdctFSpec JpegIdctFProofs.
Open Scope R_scope.

(** C114 (the part that holds): if the magnitudes of the 64 coefficients add up to at most
    2^k, every sample is a number within 0.65% of 2^k of the exact inverse transform. *)
Theorem idct_f32_partial : forall k block, (-50 <= k <= 50)%Z -> (forall n, (n < 64)%nat -> fin (fat block n)) ->
  rsum (fun n => Rabs (val (fat block n))) 64 <= bpow radix2 k ->
  forall m, (m < 64)%nat -> fin (fat (idct_2d_f32 block) m) /\
    Rabs (val (fat (idct_2d_f32 block) m) - real_inverse (fun n => val (fat block n)) m) <= 0.0065 * bpow radix2 k.
Proof. exact inverse_accurate. Qed.
Print Assumptions idct_f32_partial.
(** C114, refuted: the samples are not exact to a few levels.  The block with the single
    coefficient 500 (its samples are within the range of a picture) comes out wrong by more
    than 3 in the last sample. *)
Theorem idct_f32_exact_refuted : exists block,
  (forall n, (n < 64)%nat -> fin (fat block n) /\ val (fat block n) = one_wave 500 n) /\
  (forall m, Rabs (real_inverse (one_wave 500) m) <= 125) /\
  3 < Rabs (val (fat (idct_2d_f32 block) 63) - real_inverse (one_wave 500) 63).
Proof. exact (ex_intro _ wave_block (conj wave_fin (conj wave_samples wave_off))). Qed.
Print Assumptions idct_f32_exact_refuted.

(** the hypotheses are met by that block with k = 9, and the bound is then 3.33 *)
Example wave_in_reach : (forall n, (n < 64)%nat -> fin (fat wave_block n)) /\ rsum (fun n => Rabs (val (fat wave_block n))) 64 <= bpow radix2 9.
Proof. exact wave_reach. Qed.
