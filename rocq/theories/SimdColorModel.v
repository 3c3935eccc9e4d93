(** src/simd/x86_64.rs 1318-1412: conversion of RGB rows with AVX2.  Registers as in
    SimdModel.v.  The three outputs are one list of triples; that the output slices are long
    enough is the caller's duty and not modelled. *)
From Verif Require Import Base JpegBaseModel F32Model SimdModel.

(** _mm256_mullo_epi32 *)
Definition vmullo32 (a b : vec) : vec := fun i => wrap 32 (a i * b i).
(** 1360-1369: bytes [first], [first + 3], ... of a run of pixels, as 32-bit lanes *)
Definition deinterleave (rgb : list Z) (first : nat) : vec := fun j => nth (3 * j + first) rgb 0.
(** 1376-1382, 1386-1391, 1394-1400: the weighted sum with rounding, shifted *)
Definition weighted (cr cg cb : Z) (r g b : vec) : vec :=
  let x := vmullo32 (vset1 (wrap 32 cr)) r in
  let y := vmullo32 (vset1 (wrap 32 cg)) g in
  let z := vmullo32 (vset1 (wrap 32 cb)) b in
  vsrai 32 16 (vadd 32 (vadd 32 x y) (vadd 32 z (vset1 32768))).
(** _mm256_cvtepi32_ps of one lane *)
Definition cvt (v : vec) (i : nat) : f32 := f_of_Z (signed 32 (v i)).
(** 1357-1403: eight pixels *)
Definition ycc8 (rgb : list Z) : list (f32 * f32 * f32) :=
  let r := deinterleave rgb 0 in let g := deinterleave rgb 1 in let b := deinterleave rgb 2 in
  let y := weighted 19595 38470 7471 r g b in
  let cb := weighted (-11056) (-21712) 32768 r g b in
  let cr := weighted 32768 (-27440) (-5328) r g b in
  map (fun i => (f_sub (cvt y i) (f_of_Z 128), cvt cb i, cvt cr i)) (seq 0 8).
(** 1406-1421: one pixel *)
Definition ycc1 (r g b : Z) : res (f32 * f32 * f32) :=
  let lin a c d :=
    let* x := i32 (a * r) in let* y := i32 (c * g) in let* z := i32 (d * b) in
    let* s := i32 (x + y) in let* s := i32 (s + z) in let* s := i32 (s + 32768) in Ok (Z.shiftr s 16) in
  let* y := lin 19595 38470 7471 in
  let* cb := lin (-11056) (-21712) 32768 in
  let* cr := lin 32768 (-27440) (-5328) in
  Ok (f_sub (f_of_Z y) (f_of_Z 128), f_of_Z cb, f_of_Z cr).
(** 1405-1421: the remaining pixels; bytes of an incomplete pixel are left *)
Fixpoint ycc_tail (rgb : list Z) : res (list (f32 * f32 * f32)) :=
  match rgb with
  | r :: g :: b :: rest => let* p := ycc1 r g b in let* l := ycc_tail rest in Ok (p :: l)
  | _ => Ok []
  end.
(** 1352-1404: eight pixels at a time while there are as many *)
Fixpoint ycc_loop (fuel : nat) (rgb : list Z) : res (list (f32 * f32 * f32)) :=
  if 8 <=? zlen rgb / 3 then
    match fuel with
    | O => NoFuel
    | S f => let* l := ycc_loop f (skipn 24 rgb) in Ok (ycc8 rgb ++ l)
    end
  else ycc_tail rgb.
Definition rgb_to_ycbcr_row_avx2 (rgb : list Z) : res (list (f32 * f32 * f32)) := ycc_loop (length rgb) rgb.

Example avx_blue : rgb_to_ycbcr_row_avx2 [0; 0; 255] = Ok [(f_of_Z (-99), f_of_Z 128, f_of_Z (-21))]. Proof. vm_compute. reflexivity. Qed.
