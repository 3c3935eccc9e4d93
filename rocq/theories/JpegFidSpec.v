(** How far the picture a file stands for may be from the picture given to the encoder. *)
From Coq Require Import Reals.
From Verif Require Import Base JpegEncModel JpegImgSpec JpegIdctReal JpegDecSpec JpegDctSpec JpegAnySpec.
Open Scope Z_scope.

(** sample (x, y) of component [c] of the image: the pixel, its luminance or chrominance, or
    the average of the chrominance of four pixels (JpegImgSpec) *)
Definition source_sample (data : list Z) (o : jopts) (c x y : Z) : R := (128 + IZR (plane_sample data o c x y) / 4)%R.
(** sample [m] of a block of coefficients after T.81, A.3.3, limited to the range of a byte *)
Definition block_sample (coefs : list Z) (m : nat) : R := rclamp (128 + real_idct coefs (m mod 8) (m / 8)).
(** squared error of a block at (bx, by) *)
Definition square_error (data : list Z) (o : jopts) (c bx by_ : Z) (coefs : list Z) : R :=
  rsum (fun m => let e := (block_sample coefs m - source_sample data o c (8 * bx + Z.of_nat (m mod 8)) (8 * by_ + Z.of_nat (m / 8)))%R in (e * e)%R) 64.
(** what rounding to the steps of a table allows: half a step for every coefficient, and
    one hundredth for the arithmetic of the encoder *)
Definition allowed_error (steps : list Z) : R :=
  rsum (fun n => let e := (IZR (nth n steps 0%Z) / 2 + 0.0101)%R in (e * e)%R) 64.
