(** A line too long for the positions of Lanczos resizing. *)
From Coq Require Import Reals.
From Flocq Require Import Core.
From Verif Require Import Base PngPaletteModel F32Model F32Proofs ResizeModel LanczosSpec.
Open Scope Z_scope.

(** 8388610 gray pixels in a row, resized to the same size *)
Definition long_line : ropts := mkR 8388610 1 8388610 1 Gray Lanczos3.
(** a sine that is small, as it should be, at minus pi and minus two pi in binary32 (the
    sines of these two numbers are about 2.93 / 2^25 and - 2.93 / 2^24) *)
Definition small_at_pi (sin : f32 -> f32) : Prop :=
  (Rabs (val (sin (f_mul F_PI (f_of_Z (-1))))) <= 3 / 33554432)%R /\ (Rabs (val (sin (f_mul F_PI (f_of_Z (-2))))) <= 3 / 16777216)%R.
