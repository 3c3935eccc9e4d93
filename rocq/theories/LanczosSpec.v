(** What resampling with the Lanczos kernel of three lobes should give. *)
From Coq Require Import Reals.
From Flocq Require Import Core.
From Verif Require Import Base Lz77Model PngFilterModel PngPaletteModel F32Model F32Proofs ResizeModel.
Open Scope Z_scope.

(** sinc x * sinc (x / 3) with sinc x = sin (pi x) / (pi x), cut off at 3 *)
Definition lanczos3 (x : R) : R :=
  if Req_EM_T x 0 then 1%R
  else if Rlt_dec (Rabs x) 3 then (sin (PI * x) / (PI * x) * (sin (PI * x / 3) / (PI * x / 3)))%R
  else 0%R.
(** f k + f (k + 1) + ... *)
Fixpoint rsum (f : Z -> R) (k : Z) (n : nat) : R :=
  match n with O => 0%R | S n => (f k + rsum f (k + 1) n)%R end.
(** the average of a line of samples around position [c], with the kernel stretched by [s] *)
Definition lanczos_mean (src : Z) (p : Z -> Z) (c s : R) : R :=
  (rsum (fun i => lanczos3 ((IZR i - c) / s) * IZR (p i)) 0 (Z.to_nat src) / rsum (fun i => lanczos3 ((IZR i - c) / s)) 0 (Z.to_nat src))%R.
(** the sample value that can be stored *)
Definition level (r : R) : R := Rmax 0 (Rmin r 255).
(** a platform sine good to six digits, also next to zero *)
Definition good_sine (sin : f32 -> f32) : Prop :=
  forall x, fin x -> (Rabs (val x) <= 32)%R ->
    fin (sin x) /\ (Rabs (val (sin x) - Rtrigo_def.sin (val x)) <= bpow radix2 (-22) * Rabs (val x))%R.
(** one bright sample among three, and the reduction of the three to one *)
Definition dot : list Z := [0; 255; 0].
Definition third : ropts := mkR 3 1 1 1 Gray Lanczos3.
