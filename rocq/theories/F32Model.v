(** Rust's f32: IEEE 754 binary32, round to nearest even, as the standard
    library's executable specification [SpecFloat]. *)
From Coq Require Export SpecFloat.
From Verif Require Import Base.

Notation f32 := spec_float.
(** [x + y], [x - y], [x * y], [x / y], [-x] *)
Definition f_add (x y : f32) : f32 := SFadd 24 128 x y.
Definition f_sub (x y : f32) : f32 := SFsub 24 128 x y.
Definition f_mul (x y : f32) : f32 := SFmul 24 128 x y.
Definition f_div (x y : f32) : f32 := SFdiv 24 128 x y.
(** [x < y], [x >= y] (false when one is a NaN) *)
Definition f_lt (x y : f32) : bool := SFltb x y.
Definition f_ge (x y : f32) : bool := SFleb y x.
(** [n as f32] for an integer: rounds to nearest even *)
Definition f_of_Z (n : Z) : f32 := binary_normalize 24 128 n 0 false.
(** the number m * 2^e, rounded *)
Definition f_const (m e : Z) : f32 := binary_normalize 24 128 m e false.
Definition f_zero : f32 := S754_zero false.
(** [f32::MAX] *)
Definition f_max : f32 := S754_finite false 16777215 104.
(** truncation toward zero of a finite number *)
Definition f_trunc (x : f32) : Z :=
  match x with
  | S754_finite s m e => cond_Zopp s (if 0 <=? e then Zpos m * 2 ^ e else Zpos m / 2 ^ (- e))
  | _ => 0
  end.
(** [x as T] for an integer type with the range lo..hi: truncates, saturates,
    NaN becomes 0 *)
Definition f_to_Z (lo hi : Z) (x : f32) : Z :=
  match x with
  | S754_nan => 0
  | S754_zero _ => 0
  | S754_infinity s => if s then lo else hi
  | S754_finite _ _ _ => Z.min hi (Z.max lo (f_trunc x))
  end.

Example f32_add : f_add (f_of_Z 16777216) (f_of_Z 1) = f_of_Z 16777216. Proof. vm_compute. reflexivity. Qed.
Example f32_div : f_to_Z 0 100 (f_mul (f_div (f_of_Z 1) (f_of_Z 3)) (f_of_Z 100)) = 33. Proof. vm_compute. reflexivity. Qed.
