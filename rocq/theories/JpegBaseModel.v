(** Model of src/color.rs (YCbCr conversion), src/jpeg/quantize.rs and the
    pieces of src/decode/idct.rs, src/decode/jpeg.rs that mirror them. *)
From Verif Require Import Base PngFilterModel.

(** [x.clamp(lo, hi)] *)
Definition clamp (x lo hi : Z) : Z := if x <? lo then lo else if x >? hi then hi else x.
(** i32 arithmetic that panics on overflow *)
Definition i32 (x : Z) : res Z := if (- 2 ^ 31 <=? x) && (x <? 2 ^ 31) then Ok x else Panic.
(** i16 arithmetic that panics on overflow *)
Definition i16 (x : Z) : res Z := if (- 2 ^ 15 <=? x) && (x <? 2 ^ 15) then Ok x else Panic.
(** [x as i16]: two's complement truncation *)
Definition as_i16 (x : Z) : Z := let y := wrap 16 x in if y <? 2 ^ 15 then y else y - 2 ^ 16.

(** src/color.rs 60-77: [a * r + b * g + c * b + 128], every intermediate
    result an i32 *)
Definition lin3 (a r b g c bl : Z) : res Z :=
  let* x := i32 (a * r) in let* y := i32 (b * g) in let* z := i32 (c * bl) in
  let* s := i32 (x + y) in let* s := i32 (s + z) in i32 (s + 128).
Definition rgb_to_ycbcr (r g b : Z) : res (Z * Z * Z) :=
  let* y := lin3 77 r 150 g 29 b in
  let y := Z.shiftr y 8 in
  let* cb := lin3 (-43) r (-85) g 128 b in
  let* cb := i32 (Z.shiftr cb 8 + 128) in
  let* cr := lin3 128 r (-107) g (-21) b in
  let* cr := i32 (Z.shiftr cr 8 + 128) in
  Ok (clamp y 0 255, clamp cb 0 255, clamp cr 0 255).

(** src/jpeg/quantize.rs 4-8 *)
Definition STD_LUMINANCE_TABLE : list Z :=
  [16; 11; 10; 16; 24; 40; 51; 61; 12; 12; 14; 19; 26; 58; 60; 55; 14; 13; 16; 24; 40; 57; 69; 56;
   14; 17; 22; 29; 51; 87; 80; 62; 18; 22; 37; 56; 68; 109; 103; 77; 24; 35; 55; 64; 81; 104; 113;
   92; 49; 64; 78; 87; 103; 121; 120; 101; 72; 92; 95; 98; 112; 100; 103; 99].
(** src/jpeg/quantize.rs 11-16 *)
Definition STD_CHROMINANCE_TABLE : list Z :=
  [17; 18; 24; 47; 99; 99; 99; 99; 18; 21; 26; 66; 99; 99; 99; 99; 24; 26; 56; 99; 99; 99; 99; 99;
   47; 66; 99; 99; 99; 99; 99; 99; 99; 99; 99; 99; 99; 99; 99; 99; 99; 99; 99; 99; 99; 99; 99; 99;
   99; 99; 99; 99; 99; 99; 99; 99; 99; 99; 99; 99; 99; 99; 99; 99].
(** src/jpeg/quantize.rs 19-23 *)
Definition ZIGZAG : list Z :=
  [0; 1; 8; 16; 9; 2; 3; 10; 17; 24; 32; 25; 18; 11; 4; 5; 12; 19; 26; 33; 40; 48; 41; 34; 27; 20;
   13; 6; 7; 14; 21; 28; 35; 42; 49; 56; 57; 50; 43; 36; 29; 22; 15; 23; 30; 37; 44; 51; 58; 59;
   52; 45; 38; 31; 39; 46; 53; 60; 61; 54; 47; 55; 62; 63].
(** src/jpeg/quantize.rs 43-50 *)
Definition quality_scale (quality : Z) : Z :=
  let q := clamp quality 1 100 in
  if q <? 50 then 5000 / q else 200 - 2 * q.
(** src/jpeg/quantize.rs 61-64: u32 arithmetic, far from overflow *)
Definition scaled (scale t : Z) : Z := clamp ((t * scale + 50) / 100) 1 255.
(** src/jpeg/quantize.rs 59-69: the table written to the file, zigzag order *)
Definition table_zigzag (std : list Z) (quality : Z) : list Z :=
  map (fun z => scaled (quality_scale quality) (znth std z)) ZIGZAG.
(** src/jpeg/quantize.rs 72-80: the table used for quantization, natural
    order.  The f32 and u16 copies hold the same integers, which f32
    represents exactly. *)
Definition table_natural (std : list Z) (quality : Z) : list Z :=
  map (scaled (quality_scale quality)) std.
(** src/jpeg/quantize.rs 107-113 *)
Definition zigzag_reorder (block : list Z) : list Z := map (znth block) ZIGZAG.

(** src/decode/idct.rs 214-231: UNZIGZAG is the same table; products of an i16
    and a u16 fit an i32 *)
Definition UNZIGZAG : list Z :=
  [0; 1; 8; 16; 9; 2; 3; 10; 17; 24; 32; 25; 18; 11; 4; 5; 12; 19; 26; 33; 40; 48; 41; 34; 27;
   20; 13; 6; 7; 14; 21; 28; 35; 42; 49; 56; 57; 50; 43; 36; 29; 22; 15; 23; 30; 37; 44; 51;
   58; 59; 52; 45; 38; 31; 39; 46; 53; 60; 61; 54; 47; 55; 62; 63].
Definition dequantize (coeffs qtable : list Z) : list Z :=
  fold_left (fun result i => upd result (Z.to_nat (znth UNZIGZAG (Z.of_nat i)))
                                 (znth coeffs (Z.of_nat i) * znth qtable (Z.of_nat i)))
            (seq 0 64) (repeat 0 64).

(** src/jpeg/huffman.rs 394-401 and src/jpeg/mod.rs 862-870: number of bits of
    the absolute value of an i16 *)
Definition category (value : Z) : Z :=
  let a := Z.abs value in if a =? 0 then 0 else Z.log2 a + 1.
(** src/jpeg/huffman.rs 404-418: [value - 1] panics for the minimum *)
Definition encode_value (value : Z) : res (Z * Z) :=
  let cat := category value in
  if cat =? 0 then Ok (0, 0) else
  let* bits := (if value <? 0 then let* v := i16 (value - 1) in Ok (wrap 16 v) else Ok (wrap 16 value)) in
  if cat >=? 16 then Panic else
  Ok (Z.land bits (Z.shiftl 1 cat - 1), cat).
(** src/decode/jpeg.rs 674-687: sign extension of [size] amplitude bits; the
    shift panics for sizes above 31, which the bit reader refuses before *)
Definition extend_amplitude (bits size : Z) : Z :=
  let threshold := Z.shiftl 1 (size - 1) in
  if bits <? threshold then bits - (2 * threshold - 1) else bits.
