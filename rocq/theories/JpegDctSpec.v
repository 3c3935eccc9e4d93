(** The forward DCT of ITU-T T.81 A.3.3 over the reals:
    S(v, u) = 1/4 C_u C_v sum_x sum_y s(y, x) cos ((2x+1) u pi / 16) cos ((2y+1) v pi / 16);
    coefficient [n] is S(n / 8, n mod 8), sample [m] is s(m / 8, m mod 8). *)
From Coq Require Import Reals.
From Verif Require Import Base JpegIdctReal.
Open Scope R_scope.

Definition rsum (f : nat -> R) (n : nat) : R := fold_right Rplus 0 (map f (seq 0 n)).
Definition real_fdct (s : nat -> R) (n : nat) : R :=
  / 4 * cfac (n mod 8) * cfac (n / 8) * rsum (fun m => s m * basis (n mod 8) (m mod 8) * basis (n / 8) (m / 8)) 64.
(** samples in quarters (JpegEncModel) *)
Definition sample_r (samples : list Z) (m : nat) : R := IZR (nth m samples 0%Z) / 4.
