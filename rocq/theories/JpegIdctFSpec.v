(** The inverse DCT of ITU-T T.81 A.3.3 over the reals:
    s(y, x) = 1/4 sum_u sum_v C_u C_v S(v, u) cos ((2x+1) u pi / 16) cos ((2y+1) v pi / 16);
    coefficient [n] is S(n / 8, n mod 8), sample [m] is s(m / 8, m mod 8). *)
From Coq Require Import Reals.
From Verif Require Import Base JpegIdctReal JpegDctSpec.
Open Scope R_scope.
Definition real_inverse (F : nat -> R) (m : nat) : R :=
  / 4 * rsum (fun n => cfac (n mod 8) * cfac (n / 8) * F n * basis (n mod 8) (m mod 8) * basis (n / 8) (m / 8)) 64.
(** one coefficient, at column and row frequency 1 *)
Definition one_wave (v : R) (n : nat) : R := if Nat.eqb n 9 then v else 0.
