(** src/jpeg/dct.rs: the fixed-point forward DCT and its quantiser (public functions; the
    encoder uses the f32 ones of JpegDctModel).  The aarch64 and AVX2 variants are in SimdModel.v. *)
From Verif Require Import Base Lz77Model PngFilterModel JpegBaseModel JpegDecModel.

(** dct.rs 76-121 (rows) and 137-186 (columns): the arithmetic both passes share, up to
    the scaling of the results *)
Definition fdct_1d (d0 d1 d2 d3 d4 d5 d6 d7 : Z) : res (list Z) :=
  let* t0 := add32 d0 d7 in let* t1 := add32 d1 d6 in let* t2 := add32 d2 d5 in let* t3 := add32 d3 d4 in
  let* t10 := add32 t0 t3 in let* t12 := sub32 t0 t3 in let* t11 := add32 t1 t2 in let* t13 := sub32 t1 t2 in
  let* u0 := sub32 d0 d7 in let* u1 := sub32 d1 d6 in let* u2 := sub32 d2 d5 in let* u3 := sub32 d3 d4 in
  let* o0 := add32 t10 t11 in
  let* o4 := sub32 t10 t11 in
  let* s := add32 t12 t13 in
  let z1 := fix_mul s 4433 in
  let* o2 := add32 z1 (fix_mul t12 6270) in
  let* o6 := sub32 z1 (fix_mul t13 15137) in
  let* t10 := add32 u0 u3 in let* t11 := add32 u1 u2 in let* t12 := add32 u0 u2 in let* t13 := add32 u1 u3 in
  let* s := add32 t12 t13 in
  let z1 := fix_mul s 9633 in
  let u0 := fix_mul u0 12299 in let u1 := fix_mul u1 25172 in let u2 := fix_mul u2 16819 in let u3 := fix_mul u3 2446 in
  let t10 := fix_mul t10 (-7373) in let t11 := fix_mul t11 (-20995) in
  let* t12 := add32 (fix_mul t12 (-3196)) z1 in
  let* t13 := add32 (fix_mul t13 (-16069)) z1 in
  let* a := add32 u0 t10 in let* o1 := add32 a t12 in
  let* a := add32 u1 t11 in let* o3 := add32 a t13 in
  let* a := add32 u2 t11 in let* o5 := add32 a t12 in
  let* a := add32 u3 t10 in let* o7 := add32 a t13 in
  Ok [o0; o1; o2; o3; o4; o5; o6; o7].
Definition fdct_line (l : list Z) : res (list Z) := fdct_1d (znth l 0) (znth l 1) (znth l 2) (znth l 3) (znth l 4) (znth l 5) (znth l 6) (znth l 7).
(** 93-94: only results 0 and 4 are scaled up *)
Definition pass1_scale (o : list Z) : list Z :=
  map (fun k => if (k =? 0) || (k =? 4) then as_i32 (Z.shiftl (znth o k) 2) else znth o k) (idxs 8).
(** 155-186: rounding shift by [PASS1_BITS + 3] *)
Definition pass2_scale (o : list Z) : res (list Z) := map_res (fun x => let* y := add32 x 16 in Ok (Z.shiftr y 5)) o.
(** 61-190 *)
Definition dct_2d_integer (block : list Z) : res (list Z) :=
  let* rows := map_res (fun r => let* o := fdct_line (map (fun i => znth block (8 * r + i)) (idxs 8)) in Ok (pass1_scale o)) (idxs 8) in
  let* cols := map_res (fun c => let* o := fdct_line (map (fun row => znth row c) rows) in pass2_scale o) (idxs 8) in
  Ok (flat_map (fun r => map (fun col => znth col r) cols) (idxs 8)).
(** 535-568, on targets without AVX2 and NEON *)
Definition dct_2d_fast (block : list Z) : res (list Z) :=
  if forallb (fun x => x =? znth block 0) (skipn 1 block) then let* dc := i32 (znth block 0 * 8) in Ok (dc :: repeat 0 63)
  else dct_2d_integer block.
(** 570-584; [as i16] of an i32 wraps *)
Definition as_i16 (x : Z) : Z := let w := wrap 16 x in if w <? 2 ^ 15 then w else w - 2 ^ 16.
Definition quantize_integer_one (coef q : Z) : res Z :=
  let* n := if coef >=? 0 then add32 coef (Z.shiftr q 1) else sub32 coef (Z.shiftr q 1) in
  if q =? 0 then Panic else Ok (as_i16 (Z.quot n q)).
Definition quantize_block_integer (dct table : list Z) : res (list Z) :=
  map_res (fun i => quantize_integer_one (znth dct i) (znth table i)) (idxs 64).

Example int_flat : dct_2d_integer (repeat 100 64) = Ok (800 :: repeat 0 63). Proof. vm_compute. reflexivity. Qed.
(** a step from dark to light in every row *)
Definition step_block : list Z := flat_map (fun _ => repeat (-128) 4 ++ repeat 127 4) (idxs 8).
Example int_step : dct_2d_integer step_block = Ok ([-4; -231; 0; 81; 0; -55; 0; 46] ++ repeat 0 56). Proof. vm_compute. reflexivity. Qed.
