(** Model of src/decode/png.rs. *)
From Verif Require Import Base ChecksumModel InflateModel Lz77Model PngFilterModel PngPaletteModel.

(** png.rs 11 (= src/png/mod.rs 18) *)
Definition PNG_SIGNATURE : list Z := [137; 80; 78; 71; 13; 10; 26; 10].
(** png.rs 15 (= src/png/mod.rs 21) *)
Definition MAX_DIMENSION : Z := 2 ^ 24.

(** chunk type names *)
Definition T_IHDR : list Z := [73; 72; 68; 82].
Definition T_PLTE : list Z := [80; 76; 84; 69].
Definition T_tRNS : list Z := [116; 82; 78; 83].
Definition T_IDAT : list Z := [73; 68; 65; 84].
Definition T_IEND : list Z := [73; 69; 78; 68].

Fixpoint zs_eqb (a b : list Z) : bool :=
  match a, b with
  | [], [] => true
  | x :: a', y :: b' => (x =? y) && zs_eqb a' b'
  | _, _ => false
  end.

(** png.rs 19-28 *)
Record image := mkImage {
  im_width : Z; im_height : Z; im_pixels : list Z; im_ct : color_type }.

(** png.rs 32-38 *)
Inductive png_ct := PGray | PRgb | PIndexed | PGrayAlpha | PRgba.
(** png.rs 43-54 *)
Definition png_ct_of (v : Z) : res png_ct :=
  if v =? 0 then Ok PGray
  else if v =? 2 then Ok PRgb
  else if v =? 3 then Ok PIndexed
  else if v =? 4 then Ok PGrayAlpha
  else if v =? 6 then Ok PRgba
  else Err EInvalidDecode.

(** png.rs 58-66 *)
Record ihdr := mkIhdr {
  ih_width : Z; ih_height : Z; ih_depth : Z; ih_ct : png_ct;
  ih_comp : Z; ih_filt : Z; ih_inter : Z }.

(** png.rs 70-72 *)
Definition has_alpha_in_trns (t : option (list Z)) : bool :=
  match t with Some a => existsb (fun v => negb (v =? 255)) a | None => false end.

(** [n.div_ceil(8)] *)
Definition ceil8 (n : Z) : Z := (n + 7) / 8.

(** png.rs 78-98; the products before [checked_mul] are below 2^24 * 64 *)
Definition calculate_expected_size (h : ihdr) : res Z :=
  let w := ih_width h in
  let d := ih_depth h in
  let sb := match ih_ct h with
            | PGray => ceil8 (w * d)
            | PRgb => w * 3 * d / 8
            | PIndexed => ceil8 (w * d)
            | PGrayAlpha => w * 2 * d / 8
            | PRgba => w * 4 * d / 8
            end in
  let e := (1 + sb) * ih_height h in
  if e <? 2 ^ 64 then Ok e else Err EInvalidDecode.

(** [u32::from_be_bytes] at an offset *)
Definition get_be32 (l : list Z) (p : Z) : res Z :=
  let* a := get l p in
  let* b := get l (p + 1) in
  let* c := get l (p + 2) in
  let* d := get l (p + 3) in
  Ok (be32 a b c d).

(** state of the chunk loop, png.rs 108-112 *)
Record cstate := mkC {
  c_ihdr : option ihdr;
  c_idat : list Z;
  c_pal : option (list (Z * Z * Z));
  c_trns : option (list Z);
  c_end : bool }.
Definition c_init : cstate := mkC None [] None None false.

(** png.rs 151-172 *)
Definition parse_ihdr (d : list Z) : res ihdr :=
  if negb (zlen d =? 13) then Err EInvalidDecode
  else
    let* w := get_be32 d 0 in
    let* h := get_be32 d 4 in
    let* depth := get d 8 in
    let* ctb := get d 9 in
    let* ct := png_ct_of ctb in
    let* c := get d 10 in
    let* f := get d 11 in
    let* i := get d 12 in
    Ok (mkIhdr w h depth ct c f i).
(** png.rs 175-187 *)
Definition parse_plte (d : list Z) : res (list (Z * Z * Z)) :=
  if negb (zlen d mod 3 =? 0) then Err EInvalidDecode
  else map_res (fun i =>
         let* r := get d (i * 3) in
         let* g := get d (i * 3 + 1) in
         let* b := get d (i * 3 + 2) in
         Ok (r, g, b)) (idxs (length d / 3)%nat).

(** png.rs 149-202: the match on the chunk type *)
Definition chunk_effect (ty d : list Z) (st : cstate) : res cstate :=
  if zs_eqb ty T_IHDR then
    let* h := parse_ihdr d in
    Ok (mkC (Some h) (c_idat st) (c_pal st) (c_trns st) (c_end st))
  else if zs_eqb ty T_PLTE then
    let* p := parse_plte d in
    Ok (mkC (c_ihdr st) (c_idat st) (Some p) (c_trns st) (c_end st))
  else if zs_eqb ty T_tRNS then
    Ok (mkC (c_ihdr st) (c_idat st) (c_pal st) (Some d) (c_end st))
  else if zs_eqb ty T_IDAT then
    Ok (mkC (c_ihdr st) (c_idat st ++ d) (c_pal st) (c_trns st) (c_end st))
  else if zs_eqb ty T_IEND then
    Ok (mkC (c_ihdr st) (c_idat st) (c_pal st) (c_trns st) true)
  else Ok st.

(** png.rs 115-205.  [rest] is [data[pos..]]; [pos] itself stays below
    [data.len()], so no usize addition overflows. *)
Fixpoint parse_chunks (fuel : nat) (rest : list Z) (st : cstate) : res cstate :=
  if negb (12 <=? zlen rest) then Ok st
  else match fuel with
  | O => NoFuel
  | S f =>
      let* len := get_be32 rest 0 in
      let* ty := slice_r rest 4 8 in
      let e := 8 + len in
      let ce := e + 4 in
      if zlen rest <? ce then Err EInvalidDecode
      else
        let* d := slice_r rest 8 e in
        let* crc := get_be32 rest e in
        if negb (crc =? crc32 (ty ++ d)) then Err EInvalidDecode
        else
          let* st' := chunk_effect ty d st in
          if c_end st' then Ok st'
          else parse_chunks f (skipn (Z.to_nat ce) rest) st'
  end.

(** png.rs 370-410: in-place reconstruction; each loop runs over the row
    indices in increasing order and reads already updated bytes on the left *)
Definition unf_byte (f : Z) (row prev : list Z) (bpp i : Z) : res Z :=
  let* x := get row i in
  if f =? 1 then
    let* l := get row (i - bpp) in
    Ok (wrap 8 (x + l))
  else if f =? 2 then
    let* u := get prev i in
    Ok (wrap 8 (x + u))
  else if f =? 3 then
    let* l := if bpp <=? i then get row (i - bpp) else Ok 0 in
    let* u := get prev i in
    Ok (wrap 8 (x + wrap 8 ((l + u) / 2)))
  else
    let* a := if bpp <=? i then get row (i - bpp) else Ok 0 in
    let* b := get prev i in
    let* c := if bpp <=? i then get prev (i - bpp) else Ok 0 in
    Ok (wrap 8 (x + paeth_predictor a b c)).
Definition unf_loop (f : Z) (prev : list Z) (bpp : Z) (is : list Z) (row : list Z)
  : res (list Z) :=
  fold_res (fun r i => let* v := unf_byte f r prev bpp i in Ok (upd r (Z.to_nat i) v)) is row.
(** [bpp..row.len()] for Sub and [0..row.len()] otherwise.  The decoder's
    [paeth_predictor] (png.rs 414-427) is the i32 version of the encoder's and
    is modelled by the same function. *)
Definition unfilter_row (f : Z) (row prev : list Z) (bpp : Z) : res (list Z) :=
  if f =? 0 then Ok row
  else if f =? 1 then
    unf_loop f prev bpp (map Z.of_nat (seq (Z.to_nat bpp) (length row - Z.to_nat bpp))) row
  else if (f =? 2) || (f =? 3) || (f =? 4) then
    unf_loop f prev bpp (idxs (length row)) row
  else Err EInvalidDecode.

(** png.rs 348-363 *)
Fixpoint unfilter_rows (n : nat) (y : Z) (data prev : list Z) (sb bpp : Z) : res (list Z) :=
  match n with
  | O => Ok []
  | S m =>
      let rs := y * (1 + sb) in
      let* f := get data rs in
      let* rd := slice_r data (rs + 1) (rs + 1 + sb) in
      let* cur := unfilter_row f rd prev bpp in
      let* rest := unfilter_rows m (y + 1) data cur sb bpp in
      Ok (cur ++ rest)
  end.

(** png.rs 567-609; the result is what is appended to [out] *)
Fixpoint unpack_bytes (per : list Z) (mask : Z) (width : Z) (packed : list Z) (n : Z) : list Z :=
  match packed with
  | [] => []
  | b :: r =>
      let k := Z.to_nat (Z.max 0 (width - n)) in
      let s := firstn k (map (fun sh => Z.land (Z.shiftr b sh) mask) per) in
      s ++ unpack_bytes per mask width r (n + zlen s)
  end.
Definition unpack_row (packed : list Z) (width d : Z) : list Z :=
  let out :=
    if d =? 1 then unpack_bytes [7; 6; 5; 4; 3; 2; 1; 0] 1 width packed 0
    else if d =? 2 then unpack_bytes [6; 4; 2; 0] 3 width packed 0
    else if d =? 4 then unpack_bytes [4; 0] 15 width packed 0
    else if d =? 8 then firstn (Z.to_nat (Z.min width (zlen packed))) packed
    else [] in
  firstn (Z.to_nat width) out.
(** png.rs 540-543 (= 558-561) *)
Definition unpack_rows (data : list Z) (width height d : Z) : res (list Z) :=
  let rb := ceil8 (width * d) in
  let* rows := map_res (fun row =>
      let* p := slice_r data (row * rb) ((row + 1) * rb) in
      Ok (unpack_row p width d)) (idxs (Z.to_nat height)) in
  Ok (concat rows).
(** png.rs 612-626: u8 arithmetic *)
Definition scale_to_8bit (s d : Z) : Z :=
  if d =? 1 then (if s =? 0 then 0 else 255)
  else if d =? 2 then
    Z.lor (Z.lor (Z.lor s (wrap 8 (Z.shiftl s 2))) (wrap 8 (Z.shiftl s 4))) (wrap 8 (Z.shiftl s 6))
  else if d =? 4 then Z.lor s (wrap 8 (Z.shiftl s 4))
  else s.
(** png.rs 536-551 *)
Definition unpack_gray (data : list Z) (width height d : Z) : res (list Z) :=
  let* p := unpack_rows data width height d in
  Ok (map (fun s => scale_to_8bit s d) p).
(** png.rs 554-564 *)
Definition unpack_indices (data : list Z) (width height d : Z) : res (list Z) :=
  unpack_rows data width height d.

(** the bytes at even positions: [chunk[0]], [chunk[2]], ... of the 16-bit
    chunks_exact loops, png.rs 446-449, 461-464, 473-476, 485-488.  [k] bytes
    per chunk; incomplete chunks are dropped. *)
Fixpoint evens (l : list Z) : list Z :=
  match l with a :: _ :: r => a :: evens r | _ => [] end.
Definition high_bytes (k : nat) (l : list Z) : list Z :=
  flat_map evens (chunks_exact k l).

(** png.rs 499-531 *)
Definition expand_palette (pal : list (Z * Z * Z)) (trns : option (list Z)) (idx : list Z)
  : res (list Z) :=
  if has_alpha_in_trns trns then
    match trns with
    | None => Panic
    | Some tab =>
        let* px := map_res (fun i =>
          if i <? zlen pal then
            let* c := get pal i in
            let '(r, g, b) := c in
            let* a := if i <? zlen tab then get tab i else Ok 255 in
            Ok [r; g; b; a]
          else Ok [0; 0; 0; 255]) idx in
        Ok (concat px)
    end
  else
    let* px := map_res (fun i =>
      if i <? zlen pal then
        let* c := get pal i in
        let '(r, g, b) := c in Ok [r; g; b]
      else Ok [0; 0; 0]) idx in
    Ok (concat px).

(** png.rs 430-533 *)
Definition convert_to_pixels (h : ihdr) (raw : list Z) (pal : option (list (Z * Z * Z)))
  (trns : option (list Z)) : res (list Z) :=
  let w := ih_width h in
  let ht := ih_height h in
  let d := ih_depth h in
  match ih_ct h with
  | PGray => if d =? 8 then Ok raw
             else if d =? 16 then Ok (high_bytes 2 raw)
             else unpack_gray raw w ht d
  | PGrayAlpha => if d =? 8 then Ok raw else Ok (high_bytes 4 raw)
  | PRgb => if d =? 8 then Ok raw else Ok (high_bytes 6 raw)
  | PRgba => if d =? 8 then Ok raw else Ok (high_bytes 8 raw)
  | PIndexed =>
      match pal with
      | None => Err EInvalidDecode
      | Some p =>
          let* idx := unpack_indices raw w ht d in
          expand_palette p trns idx
      end
  end.

(** png.rs 305-332 *)
Definition layout (h : ihdr) : Z * Z :=
  let w := ih_width h in
  let d := ih_depth h in
  match ih_ct h with
  | PGray => (Z.max (ceil8 d) 1, ceil8 (w * d))
  | PRgb => (3 * d / 8, w * (3 * d / 8))
  | PIndexed => (1, ceil8 (w * d))
  | PGrayAlpha => (2 * d / 8, w * (2 * d / 8))
  | PRgba => (4 * d / 8, w * (4 * d / 8))
  end.
(** png.rs 294-367 *)
Definition reconstruct_image (h : ihdr) (data : list Z) (pal : option (list (Z * Z * Z)))
  (trns : option (list Z)) : res (list Z) :=
  let '(bpp, sb) := layout h in
  if zlen data <? ih_height h * (1 + sb) then Err EInvalidDecode
  else
    let* raw := unfilter_rows (Z.to_nat (ih_height h)) 0 data (repeat 0 (Z.to_nat sb)) sb bpp in
    convert_to_pixels h raw pal trns.

(** png.rs 243-249 *)
Definition valid_depth (ct : png_ct) (d : Z) : bool :=
  match ct with
  | PGray => (d =? 1) || (d =? 2) || (d =? 4) || (d =? 8) || (d =? 16)
  | PRgb => (d =? 8) || (d =? 16)
  | PIndexed => (d =? 1) || (d =? 2) || (d =? 4) || (d =? 8)
  | PGrayAlpha => (d =? 8) || (d =? 16)
  | PRgba => (d =? 8) || (d =? 16)
  end.
(** png.rs 271-283 *)
Definition output_ct (h : ihdr) (trns : option (list Z)) : color_type :=
  match ih_ct h with
  | PGray => Gray
  | PGrayAlpha => GrayAlpha
  | PRgb => Rgb
  | PIndexed => if has_alpha_in_trns trns then Rgba else Rgb
  | PRgba => Rgba
  end.

(** png.rs 213-290: everything after the chunk loop *)
Definition finish_decode (st : cstate) : res image :=
  if negb (c_end st) then Err EInvalidDecode
  else match c_ihdr st with
  | None => Err EInvalidDecode
  | Some h =>
      if (ih_width h =? 0) || (ih_height h =? 0) then
        Err (EInvalidDimensions (ih_width h) (ih_height h))
      else if (MAX_DIMENSION <? ih_width h) || (MAX_DIMENSION <? ih_height h) then
        Err (EImageTooLarge (ih_width h) (ih_height h) MAX_DIMENSION)
      else if negb (ih_comp h =? 0) then Err EInvalidDecode
      else if negb (ih_filt h =? 0) then Err EInvalidDecode
      else if negb (ih_inter h =? 0) then Err EUnsupportedDecode
      else if negb (valid_depth (ih_ct h) (ih_depth h)) then Err EInvalidDecode
      else match c_idat st with
      | [] => Err EInvalidDecode
      | idat =>
          let* e := calculate_expected_size h in
          let* dec := inflate_zlib idat (Some e) in
          let* px := reconstruct_image h dec (c_pal st) (c_trns st) in
          Ok (mkImage (ih_width h) (ih_height h) px (output_ct h (c_trns st)))
      end
  end.

(** png.rs 101-291 *)
Definition decode_png (data : list Z) : res image :=
  if (zlen data <? 8) || negb (zs_eqb (firstn 8 data) PNG_SIGNATURE) then Err EInvalidDecode
  else
    let rest := skipn 8 data in
    let* st := parse_chunks (length rest) rest c_init in
    finish_decode st.
