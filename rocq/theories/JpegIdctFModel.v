(** The public binary32 inverse transform of src/jpeg/dct.rs (the decoder has its own). *)
From Verif Require Import Base PngFilterModel F32Model ResizeModel JpegDctModel.

(** [std::f32::consts::PI] and its negation *)
Definition PI_F : f32 := f_const 13176795 (-22).
Definition NPI_F : f32 := f_const (-13176795) (-22).
(** dct.rs 726-731; at most [fuel] turns (105 pi / 16 needs 4) *)
Fixpoint down_loop (fuel : nat) (x : f32) : f32 :=
  match fuel with
  | O => x
  | S f => if f_lt PI_F x then down_loop f (f_sub x (f_mul (f_of_Z 2) PI_F)) else x
  end.
Fixpoint up_loop (fuel : nat) (x : f32) : f32 :=
  match fuel with
  | O => x
  | S f => if f_lt x NPI_F then up_loop f (f_add x (f_mul (f_of_Z 2) PI_F)) else x
  end.
(** dct.rs 724-739 *)
Definition cos_approx (x : f32) : f32 :=
  let x := up_loop 8 (down_loop 8 x) in
  let x2 := f_mul x x in
  let x4 := f_mul x2 x2 in
  let x6 := f_mul x4 x2 in
  let x8 := f_mul x4 x4 in
  f_add (f_sub (f_add (f_sub (f_of_Z 1) (f_div x2 (f_of_Z 2))) (f_div x4 (f_of_Z 24))) (f_div x6 (f_of_Z 720))) (f_div x8 (f_of_Z 40320)).
(** dct.rs 705-721: [COS_TABLE\[i\]\[j\]] *)
Definition cos_table (i j : nat) : f32 :=
  cos_approx (f_div (f_mul (f_of_Z (Z.of_nat ((2 * i + 1) * j))) PI_F) (f_of_Z 16)).
(** dct.rs 743-752; [FRAC_1_SQRT_2] is [A1] *)
Definition alpha (k : nat) : f32 := match k with O => A1 | _ => f_of_Z 1 end.
(** dct.rs 788-799 *)
Definition idct_1d (input : list f32) : list f32 :=
  map (fun n =>
    let sum := fold_left (fun sum k => f_add sum (f_mul (f_mul (alpha k) (fat input k)) (cos_table n k))) (seq 0 8) f_zero in
    f_mul (f_const 1 (-1)) sum) (seq 0 8).
(** dct.rs 756-786: the columns, then the rows of [temp] *)
Definition idct_2d_f32 (block : list f32) : list f32 :=
  let cols := map (fun col => idct_1d (map (fun row => fat block (8 * row + col)) (seq 0 8))) (seq 0 8) in
  let temp := flat_map (fun row => map (fun col => fat (nth col cols []) row) (seq 0 8)) (seq 0 8) in
  flat_map (fun row => idct_1d (map (fun col => fat temp (8 * row + col)) (seq 0 8))) (seq 0 8).
