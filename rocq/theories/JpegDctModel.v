(** src/jpeg/dct.rs (the f32 transform the encoder uses) and src/jpeg/quantize.rs
    (quantize_block), in binary32. *)
From Verif Require Import Base PngFilterModel JpegBaseModel F32Model ResizeModel.

(** dct.rs 592-596: the binary32 numbers nearest to the decimal constants;
    [FRAC_1_SQRT_2] is 0.707106781... *)
Definition A1 : f32 := f_const 11863283 (-24).
Definition A2 : f32 := f_const 9079764 (-24).
Definition A3 : f32 := A1.
Definition A4 : f32 := f_const 10960244 (-23).
Definition A5 : f32 := f_const 12840725 (-25).
(** dct.rs 600-609 *)
Definition S0 : f32 := f_const 11863284 (-25).
Definition S1 : f32 := f_const 8552951 (-25).
Definition S2 : f32 := f_const 9079766 (-25).
Definition S3 : f32 := f_const 10088892 (-25).
Definition S4 : f32 := f_const 11863284 (-25).
Definition S5 : f32 := f_const 15099095 (-25).
Definition S6 : f32 := f_const 10960245 (-24).
Definition S7 : f32 := f_const 10749647 (-23).

(** element [i] of a [\[f32; n\]] *)
Definition fat (l : list f32) (i : nat) : f32 := nth i l f_zero.
(** dct.rs 651-700 *)
Definition aan_dct_1d (data : list f32) : list f32 :=
  let tmp0 := f_add (fat data 0) (fat data 7) in
  let tmp7 := f_sub (fat data 0) (fat data 7) in
  let tmp1 := f_add (fat data 1) (fat data 6) in
  let tmp6 := f_sub (fat data 1) (fat data 6) in
  let tmp2 := f_add (fat data 2) (fat data 5) in
  let tmp5 := f_sub (fat data 2) (fat data 5) in
  let tmp3 := f_add (fat data 3) (fat data 4) in
  let tmp4 := f_sub (fat data 3) (fat data 4) in
  let tmp10 := f_add tmp0 tmp3 in
  let tmp13 := f_sub tmp0 tmp3 in
  let tmp11 := f_add tmp1 tmp2 in
  let tmp12 := f_sub tmp1 tmp2 in
  let d0 := f_add tmp10 tmp11 in
  let d4 := f_sub tmp10 tmp11 in
  let z1 := f_mul (f_add tmp12 tmp13) A1 in
  let d2 := f_add tmp13 z1 in
  let d6 := f_sub tmp13 z1 in
  let tmp10 := f_add tmp4 tmp5 in
  let tmp11 := f_add tmp5 tmp6 in
  let tmp12 := f_add tmp6 tmp7 in
  let z5 := f_mul (f_sub tmp10 tmp12) A5 in
  let z2 := f_add (f_mul tmp10 A2) z5 in
  let z4 := f_add (f_mul tmp12 A4) z5 in
  let z3 := f_mul tmp11 A3 in
  let z11 := f_add tmp7 z3 in
  let z13 := f_sub tmp7 z3 in
  let d5 := f_add z13 z2 in
  let d3 := f_sub z13 z2 in
  let d1 := f_add z11 z4 in
  let d7 := f_sub z11 z4 in
  [f_mul d0 S0; f_mul d1 S1; f_mul d2 S2; f_mul d3 S3; f_mul d4 S4; f_mul d5 S5; f_mul d6 S6; f_mul d7 S7].
(** dct.rs 614-643: the rows, then the columns of [temp] *)
Definition dct_rows (block : list f32) : list f32 :=
  flat_map (fun row => aan_dct_1d (map (fun col => fat block (8 * row + col)) (seq 0 8))) (seq 0 8).
Definition dct_2d (block : list f32) : list f32 :=
  let temp := dct_rows block in
  let cols := map (fun col => aan_dct_1d (map (fun row => fat temp (8 * row + col)) (seq 0 8))) (seq 0 8) in
  flat_map (fun row => map (fun col => fat (nth col cols []) row) (seq 0 8)) (seq 0 8).

(** [x as i16] *)
Definition to_i16 (x : f32) : Z := f_to_Z (-32768) 32767 x.
(** quantize.rs 92-98; the f32 table holds the integers of the u8 table (66-76) *)
Definition quantize_one (c : f32) (q : Z) : Z := to_i16 (f_round (f_div c (f_of_Z q))).
Definition quantize_block (dct : list f32) (table : list Z) : list Z :=
  map (fun i => quantize_one (fat dct (Z.to_nat i)) (znth table i)) (idxs 64).
(** a sample in quarters (JpegEncModel) as the f32 it stands for *)
Definition sample_f (s : Z) : f32 := f_mul (f_of_Z s) (f_const 1 (-2)).
(** mod.rs 713-714 and 745-754: transform and quantise *)
Definition dctq (table samples : list Z) : list Z := quantize_block (dct_2d (map sample_f samples)) table.

Example dct_flat : dctq (repeat 16 64) (repeat 160 64) = 20 :: repeat 0 63. Proof. vm_compute. reflexivity. Qed.
