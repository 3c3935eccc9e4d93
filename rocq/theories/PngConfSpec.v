(** What an arbitrary non-interlaced PNG file shows, after RFC 2083 / ISO 15948.
    Nothing here depends on this encoder: any order of ancillary chunks, any split
    into IDAT chunks, any filters, any DEFLATE stream, every depth and colour type. *)
From Verif Require Import Base DeflateSpec PngPaletteModel PngSpec PngEncSpec PngDecModel.

(** colour types and depths, section 4.1.1 *)
Definition legal_any (ctb depth : Z) : Prop := legal ctb depth \/ In (ctb, depth) [(0, 16); (2, 16); (4, 16); (6, 16)].
(** bytes of a scanline without its filter byte, section 2.3 *)
Definition line_bytes (ctb depth w : Z) : Z := (w * samples_per_pixel ctb * depth + 7) / 8.
(** distance to the corresponding byte on the left, section 6 *)
Definition filter_unit (ctb depth : Z) : Z := Z.max 1 (samples_per_pixel ctb * depth / 8).

(** sample number [i] of a scanline *)
Definition line_sample (depth : Z) (row : list Z) (i : Z) : Z :=
  if depth =? 16 then 256 * znth row (2 * i) + znth row (2 * i + 1) else sample_at depth row i.
(** sample [c] of the pixel at column [x] of line [y] *)
Definition png_sample (ctb depth w : Z) (raw : list Z) (x y c : Z) : Z :=
  let lb := line_bytes ctb depth w in
  line_sample depth (slice raw (y * lb) ((y + 1) * lb)) (x * samples_per_pixel ctb + c).
(** in eight bits: shallow samples are scaled linearly, of deep ones the high byte is kept, section 10.4 *)
Definition in8 (depth s : Z) : Z := if depth =? 16 then s / 256 else s * 255 / (2 ^ depth - 1).

(** the tRNS chunk of an indexed image is a table of alphas, section 4.2.9; that of a gray or
    RGB image names one transparent colour with 16 bits per sample *)
Definition keyed (trns : option (list Z)) (key : list Z) : bool :=
  match trns with Some t => zs_eqb t (flat_map (fun s => [s / 256; s mod 256]) key) | None => false end.
Definition png_pixel (ctb depth w : Z) (raw : list Z) (pal : list (Z * Z * Z)) (trns : option (list Z)) (x y : Z) : rgba :=
  let s := png_sample ctb depth w raw x y in
  let v c := in8 depth (s c) in
  if ctb =? 0 then (v 0, v 0, v 0, if keyed trns [s 0] then 0 else 255)
  else if ctb =? 2 then (v 0, v 1, v 2, if keyed trns [s 0; s 1; s 2] then 0 else 255)
  else if ctb =? 3 then
    let '(r, g, b) := nth (Z.to_nat (s 0)) pal (0, 0, 0) in
    (r, g, b, match trns with Some t => nth (Z.to_nat (s 0)) t 255 | None => 255 end)
  else if ctb =? 4 then (v 0, v 0, v 0, v 1)
  else (v 0, v 1, v 2, v 3).

(** the data of all chunks of a type, in order *)
Definition datas (t : list Z) (cs : list (list Z * list Z)) : list (list Z) :=
  map snd (filter (fun c => zs_eqb (fst c) t) cs).
(** [conforming w h depth ctb pal trns raw cs]: the chunks [cs] make a file for the
    unfiltered scanlines [raw] *)
Record conforming (w h depth ctb : Z) (pal : list (Z * Z * Z)) (trns : option (list Z)) (raw : list Z) (cs : list (list Z * list Z)) : Prop := {
  cf_size : 0 < w <= 2 ^ 24 /\ 0 < h <= 2 ^ 24;
  cf_legal : legal_any ctb depth;
  cf_raw : bytes raw /\ zlen raw = h * line_bytes ctb depth w;
  cf_wf : Forall wf_chunk cs;
  cf_chunks : exists mid, cs = (T_IHDR, be4 w ++ be4 h ++ [depth; ctb; 0; 0; 0]) :: mid ++ [(T_IEND, [])] /\
    datas T_IHDR mid = [] /\ datas T_IEND mid = [] /\
    (datas T_PLTE mid = [flat_map (fun '(r, g, b) => [r; g; b]) pal] \/ ctb <> 3 /\ datas T_PLTE mid = []) /\
    datas T_tRNS mid = opt_to_list trns /\
    exists filts, zlib_stream (concat (datas T_IDAT mid)) filts /\
      img_filtered (filter_unit ctb depth) (line_bytes ctb depth w) (repeat 0 (Z.to_nat (line_bytes ctb depth w))) raw filts;
  (** the samples of an indexed image are indices into its palette *)
  cf_index : ctb = 3 -> forall x y, 0 <= x < w -> 0 <= y < h -> png_sample ctb depth w raw x y 0 < zlen pal }.

(** the colour type in which the file is returned: with alpha only where the file has some *)
Definition some_alpha (trns : option (list Z)) : bool :=
  match trns with Some a => existsb (fun v => negb (v =? 255)) a | None => false end.
Definition result_ct (ctb : Z) (trns : option (list Z)) : color_type :=
  if ctb =? 0 then Gray else if ctb =? 2 then Rgb else if ctb =? 3 then (if some_alpha trns then Rgba else Rgb)
  else if ctb =? 4 then GrayAlpha else Rgba.
