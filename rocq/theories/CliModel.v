(** The option builders, the WebAssembly interface (src/wasm.rs) and the command line
    program (src/bin/pixo.rs). *)
From Verif Require Import Base PngFilterModel PngPaletteModel PngModel PngDecModel JpegEncModel JpegDecModel F32Model ResizeModel.

(** ** PNG options, src/png/mod.rs 101-346.  The log flag is dropped, as in PngModel. *)
(** png/mod.rs 102-124 (with the dimensions of the builder, 235-243) *)
Definition png_builder (w h : Z) : options := mkOpts w h Rgba 2 SAdaptiveFast false false false false false QOff 256 false.
(** png/mod.rs 129-145 *)
Definition png_fast (w h : Z) : options := mkOpts w h Rgba 2 SAdaptiveFast false false false false false QOff 256 false.
(** png/mod.rs 151-167 *)
Definition png_balanced (w h : Z) : options := mkOpts w h Rgba 6 SAdaptive true true true true false QOff 256 false.
(** png/mod.rs 173-189 *)
Definition png_max (w h : Z) : options := mkOpts w h Rgba 9 SBigrams true true true true true QOff 256 false.
(** png/mod.rs 191-197 *)
Definition png_from_preset (w h preset : Z) : options :=
  if preset =? 0 then png_fast w h else if preset =? 2 then png_max w h else png_balanced w h.
(** png/mod.rs 203-213 *)
Definition png_from_preset_with_lossless (w h preset : Z) (lossless : bool) : options :=
  let o := png_from_preset w h preset in
  if lossless then o else
  mkOpts (o_width o) (o_height o) (o_ct o) (o_level o) (o_filter o) (o_alpha o) (o_reduce o) (o_strip o) (o_palette o) (o_optimal o) QAuto 256 true.
(** the setters of the builder, png/mod.rs 247-324 *)
Definition set_ct (o : options) (ct : color_type) : options :=
  mkOpts (o_width o) (o_height o) ct (o_level o) (o_filter o) (o_alpha o) (o_reduce o) (o_strip o) (o_palette o) (o_optimal o) (o_qmode o) (o_max_colors o) (o_dither o).
Definition set_level (o : options) (l : Z) : options :=
  mkOpts (o_width o) (o_height o) (o_ct o) l (o_filter o) (o_alpha o) (o_reduce o) (o_strip o) (o_palette o) (o_optimal o) (o_qmode o) (o_max_colors o) (o_dither o).
Definition set_filter (o : options) (s : strategy) : options :=
  mkOpts (o_width o) (o_height o) (o_ct o) (o_level o) s (o_alpha o) (o_reduce o) (o_strip o) (o_palette o) (o_optimal o) (o_qmode o) (o_max_colors o) (o_dither o).
Definition set_alpha (o : options) (b : bool) : options :=
  mkOpts (o_width o) (o_height o) (o_ct o) (o_level o) (o_filter o) b (o_reduce o) (o_strip o) (o_palette o) (o_optimal o) (o_qmode o) (o_max_colors o) (o_dither o).
Definition set_reduce (o : options) (b : bool) : options :=
  mkOpts (o_width o) (o_height o) (o_ct o) (o_level o) (o_filter o) (o_alpha o) b (o_strip o) (o_palette o) (o_optimal o) (o_qmode o) (o_max_colors o) (o_dither o).
Definition set_strip (o : options) (b : bool) : options :=
  mkOpts (o_width o) (o_height o) (o_ct o) (o_level o) (o_filter o) (o_alpha o) (o_reduce o) b (o_palette o) (o_optimal o) (o_qmode o) (o_max_colors o) (o_dither o).
Definition set_palette (o : options) (b : bool) : options :=
  mkOpts (o_width o) (o_height o) (o_ct o) (o_level o) (o_filter o) (o_alpha o) (o_reduce o) (o_strip o) b (o_optimal o) (o_qmode o) (o_max_colors o) (o_dither o).
(** png/mod.rs 306-314 *)
Definition set_lossy (o : options) (lossy : bool) : options :=
  mkOpts (o_width o) (o_height o) (o_ct o) (o_level o) (o_filter o) (o_alpha o) (o_reduce o) (o_strip o) (o_palette o) (o_optimal o)
    (if lossy then QAuto else QOff) (o_max_colors o) (if lossy then true else o_dither o).
(** png/mod.rs 327-334 *)
Definition set_preset (o : options) (preset : Z) : options := set_ct (png_from_preset (o_width o) (o_height o) preset) (o_ct o).

(** ** src/wasm.rs.  A [JsError] only carries a message: colour types and algorithms that
    are refused here are [EUnsupportedColorType], errors of the library keep their kind.
    On wasm32 a usize has 32 bits; the library's model has 64. *)
(** color.rs 85-97 *)
Definition color_type_try_from (v : Z) : option color_type :=
  if v =? 0 then Some Gray else if v =? 1 then Some GrayAlpha else if v =? 2 then Some Rgb else if v =? 3 then Some Rgba else None.
(** wasm.rs 56-62 *)
Definition color_type_from_u8 (v : Z) : res color_type :=
  match color_type_try_from v with Some ct => Ok ct | None => Err EUnsupportedColorType end.
(** wasm.rs 79-96 *)
Definition wasm_png_options (w h : Z) (color : color_type) (preset : Z) (lossy : bool) : options :=
  set_lossy (set_preset (set_ct (png_builder w h) color) preset) lossy.
Definition wasm_encode_png (e : env) (data : list Z) (w h ct preset : Z) (lossy : bool) : res (list Z) :=
  let* color := color_type_from_u8 ct in
  encode e data (wasm_png_options w h color preset lossy).
(** jpeg/mod.rs 236-262: the builder (quality 75) and two of its setters *)
Definition jpeg_builder (w h : Z) : jopts := mkjo w h Rgb 75 S444 None false false false.
Definition jset_quality (o : jopts) (q : Z) : jopts :=
  mkjo (jo_w o) (jo_h o) (jo_ct o) q (jo_sub o) (jo_restart o) (jo_opt o) (jo_prog o) (jo_trellis o).
Definition jset_sub (o : jopts) (s : subsampling) : jopts :=
  mkjo (jo_w o) (jo_h o) (jo_ct o) (jo_quality o) s (jo_restart o) (jo_opt o) (jo_prog o) (jo_trellis o).
(** wasm.rs 113-142 *)
Definition wasm_jpeg_options (w h : Z) (color : color_type) (quality preset : Z) (sub420 : bool) : jopts :=
  jset_sub (jo_preset (jset_quality (with_ct (jpeg_builder w h) color) quality) preset) (if sub420 then S420 else S444).
Definition wasm_encode_jpeg (je : jenv) (data : list Z) (w h ct quality preset : Z) (sub420 : bool) : res (list Z) :=
  match color_type_try_from ct with
  | Some Gray => jencode je data (wasm_jpeg_options w h Gray quality preset sub420)
  | Some Rgb => jencode je data (wasm_jpeg_options w h Rgb quality preset sub420)
  | _ => Err EUnsupportedColorType
  end.
(** wasm.rs 151-154 *)
Definition wasm_bytes_per_pixel (ct : Z) : res Z :=
  let* color := color_type_from_u8 ct in Ok (bytes_per_pixel color).
(** wasm.rs 157-166 *)
Definition resize_algorithm_from_u8 (v : Z) : res ralgo :=
  if v =? 0 then Ok Nearest else if v =? 1 then Ok Bilinear else if v =? 2 then Ok Lanczos3 else Err EUnsupportedColorType.
(** wasm.rs 184-202 *)
Definition wasm_resize_image (sin : f32 -> f32) (data : list Z) (sw sh dw dh ct algo : Z) : res (list Z) :=
  let* color := color_type_from_u8 ct in
  let* a := resize_algorithm_from_u8 algo in
  resize sin data (mkR sw sh dw dh color a).

(** ** Input of the command line program.  Its errors are boxed messages: every one of its
    own is [EInvalidDecode] here. *)
(** [char::is_ascii_whitespace]: space, tab, LF, FF, CR *)
Definition ascii_ws (c : Z) : bool := (c =? 32) || (c =? 9) || (c =? 10) || (c =? 12) || (c =? 13).
(** pixo.rs 300-335: the token and the rest of the input.  Each byte becomes one [char] of
    the token. *)
Fixpoint read_token (token : list Z) (in_comment : bool) (data : list Z) : list Z * list Z :=
  match data with
  | [] => (token, [])
  | ch :: rest =>
      if in_comment then read_token token (negb (ch =? 10)) rest
      else if ch =? 35 then read_token token true rest
      else if ascii_ws ch then match token with [] => read_token token false rest | _ => (token, rest) end
      else read_token (token ++ [ch]) false rest
  end.
(** [str::parse::<u32>]: an optional plus sign and at least one digit, value below 2^32 *)
Fixpoint digits_u32 (acc : Z) (l : list Z) : option Z :=
  match l with
  | [] => Some acc
  | c :: r => if (48 <=? c) && (c <=? 57) then
                let v := acc * 10 + (c - 48) in
                if v <? 2 ^ 32 then digits_u32 v r else None
              else None
  end.
Definition parse_u32 (l : list Z) : res Z :=
  match (match l with
         | [] => None
         | [c] => if (c =? 43) || (c =? 45) then None else digits_u32 0 [c]
         | c :: r => if c =? 43 then digits_u32 0 r else digits_u32 0 (c :: r)
         end) with
  | Some v => Ok v
  | None => Err EInvalidDecode
  end.
Definition list_eqb (a b : list Z) : bool := if list_eq_dec Z.eq_dec a b then true else false.
Inductive input_format := FPng | FJpeg | FPpm | FPgm.
(** pixo.rs 192-217 and 345-370: the first eight bytes of a file, or all of stdin *)
Fixpoint starts_with (p l : list Z) : bool :=
  match p, l with
  | [], _ => true
  | a :: p', b :: l' => (a =? b) && starts_with p' l'
  | _ :: _, [] => false
  end.
Definition detect_format_from_bytes (data : list Z) : res input_format :=
  if zlen data <? 8 then Err EInvalidDecode
  else if starts_with [137; 80; 78; 71; 13; 10; 26; 10] data then Ok FPng
  else if starts_with [255; 216; 255] data then Ok FJpeg
  else if starts_with [80; 54] data then Ok FPpm
  else if starts_with [80; 53] data then Ok FPgm
  else Err EInvalidDecode.
(** pixo.rs 192-217: [read_exact] of a shorter file is an error *)
Definition detect_format (file : list Z) : res input_format :=
  if zlen file <? 8 then Err EInvalidDecode else detect_format_from_bytes (firstn 8 file).
(** pixo.rs 265-296 (file) and 444-475 (stdin), after the magic number: 64-bit usize, and a
    [Vec] of more than isize::MAX bytes panics.  Running out of memory is not modelled. *)
Definition decode_pnm_rest (ct : color_type) (data : list Z) : res image :=
  let (t1, d1) := read_token [] false data in
  let* width := parse_u32 t1 in
  let (t2, d2) := read_token [] false d1 in
  let* height := parse_u32 t2 in
  let (t3, d3) := read_token [] false d2 in
  let* max_val := parse_u32 t3 in
  if negb (max_val =? 255) then Err EInvalidDecode else
  let expected := width * height * bytes_per_pixel ct in
  if 2 ^ 63 <=? expected then Panic
  else if zlen d3 <? expected then Err EInvalidDecode
  else Ok (mkImage width height (firstn (Z.to_nat expected) d3) ct).
(** pixo.rs 247-297 *)
Definition decode_pnm (data : list Z) : res image :=
  let (magic, d) := read_token [] false data in
  if list_eqb magic [80; 53] then decode_pnm_rest Gray d
  else if list_eqb magic [80; 54] then decode_pnm_rest Rgb d
  else Err EInvalidDecode.
(** pixo.rs 419-475 *)
Definition decode_pnm_from_bytes (data : list Z) (hint : input_format) : res image :=
  let (magic, d) := read_token [] false data in
  let p5 := list_eqb magic [80; 53] in
  let p6 := list_eqb magic [80; 54] in
  if negb (p5 || p6) then Err EInvalidDecode
  else if match hint with FPpm => negb p6 | FPgm => negb p5 | _ => false end then Err EInvalidDecode
  else decode_pnm_rest (if p5 then Gray else Rgb) d.
(** pixo.rs 220-244 and 395-417 *)
Definition decode_jpeg_cli (data : list Z) : res image :=
  let* j := decode_jpeg data in Ok (mkImage (ji_w j) (ji_h j) (ji_pixels j) (ji_ct j)).
(** pixo.rs 373-382 *)
Definition load_image (file : list Z) : res image :=
  let* f := detect_format file in
  match f with
  | FPng => decode_png file
  | FJpeg => decode_jpeg_cli file
  | FPpm | FPgm => decode_pnm file
  end.
(** pixo.rs 384-393 *)
Definition load_image_from_bytes (data : list Z) : res image :=
  let* f := detect_format_from_bytes data in
  match f with
  | FPng => decode_png data
  | FJpeg => decode_jpeg_cli data
  | FPpm | FPgm => decode_pnm_from_bytes data f
  end.

(** ** Conversion.  [chunks_exact n]: whole chunks only. *)
Definition luma (r g b : Z) : Z := wrap 8 (Z.shiftr (77 * r + 150 * g + 29 * b + 128) 8).
Fixpoint every_other (l : list Z) : list Z :=
  match l with a :: _ :: r => a :: every_other r | [a] => [a] | [] => [] end.
Fixpoint luma_rgb (l : list Z) : list Z :=
  match l with r :: g :: b :: t => luma r g b :: luma_rgb t | _ => [] end.
Fixpoint luma_rgba (l : list Z) : list Z :=
  match l with r :: g :: b :: _ :: t => luma r g b :: luma_rgba t | _ => [] end.
(** pixo.rs 478-502; [every_other] is also [gray_alpha_to_gray], 511-513 *)
Definition to_grayscale (px : list Z) (ct : color_type) : list Z :=
  match ct with Gray => px | GrayAlpha => every_other px | Rgb => luma_rgb px | Rgba => luma_rgba px end.
(** pixo.rs 504-509 *)
Fixpoint rgba_to_rgb (l : list Z) : list Z :=
  match l with r :: g :: b :: _ :: t => r :: g :: b :: rgba_to_rgb t | _ => [] end.

(** ** The program *)
Inductive output_format := OPng | OJpeg.
(** pixo.rs 34-107: what of the arguments decides the output.  [Jpg] is [Jpeg]. *)
Record args := mkArgs {
  a_stdin : bool;                        (** the input is "-" *)
  a_output : option (bool * option (list Z));   (** the output: "-" or not, and its extension *)
  a_format : option output_format;
  a_quality : Z;
  a_opt_huffman : bool;
  a_restart : Z;
  a_compression : option Z;
  a_sub : subsampling;
  a_filter : option strategy;
  a_preset : option Z;                   (** 0 fast, 1 balanced, 2 max *)
  a_alpha : bool;
  a_reduce : bool;
  a_strip : bool;
  a_grayscale : bool }.
(** [to_lowercase]; only ASCII letters matter *)
Definition lower (c : Z) : Z := if (65 <=? c) && (c <=? 90) then c + 32 else c.
(** pixo.rs 608-616 and 841-850 *)
Definition format_of_ext (ext : option (list Z)) : output_format :=
  match ext with
  | Some x => if list_eqb (map lower x) [112; 110; 103] then OPng else OJpeg
  | None => OJpeg
  end.
(** pixo.rs 587-617: without an output path (not for stdin) one is made up, with the extension
    of the format that [determine_format] (839-852) gives, which is JPEG unless asked for. *)
Definition output_format_of (a : args) : res output_format :=
  match a_output a with
  | None => if a_stdin a then Err EInvalidDecode else
            Ok (match a_format a with Some f => f | None => OJpeg end)
  | Some (is_stdout, ext) =>
      Ok (match a_format a with
          | Some f => f
          | None => if is_stdout then OJpeg else format_of_ext ext
          end)
  end.
(** pixo.rs 620-638 *)
Definition convert (a : args) (f : output_format) (im : image) : list Z * color_type :=
  if a_grayscale a then (to_grayscale (im_pixels im) (im_ct im), Gray)
  else match f with
  | OPng => (im_pixels im, im_ct im)
  | OJpeg => match im_ct im with
             | Gray => (im_pixels im, Gray)
             | GrayAlpha => (every_other (im_pixels im), Gray)
             | Rgb => (im_pixels im, Rgb)
             | Rgba => (rgba_to_rgb (im_pixels im), Rgb)
             end
  end.
(** pixo.rs 646-676 *)
Definition cli_png_options (a : args) (w h : Z) (ct : color_type) : options :=
  let b0 := set_ct (png_builder w h) ct in
  let b1 := match a_preset a with Some p => set_preset b0 p | None => b0 end in
  let b2 := match a_compression a with
            | Some l => set_level b1 l
            | None => match a_preset a with None => set_level b1 2 | Some _ => b1 end
            end in
  let b3 := match a_filter a with
            | Some s => set_filter b2 s
            | None => match a_preset a with None => set_filter b2 SAdaptiveFast | Some _ => b2 end
            end in
  set_palette (set_strip (set_reduce (set_alpha b3 (a_alpha a)) (a_reduce a)) (a_strip a)) (a_reduce a).
(** pixo.rs 703-724 *)
Definition cli_jpeg_options (a : args) (w h : Z) (ct : color_type) : jopts :=
  let base := match a_preset a with
              | Some p => jo_from_preset w h (a_quality a) p
              | None => jset_quality (jpeg_builder w h) (a_quality a)
              end in
  mkjo w h ct (a_quality a) (a_sub a)
    (if a_restart a =? 0 then jo_restart base else Some (a_restart a))
    (a_opt_huffman a || jo_opt base) (jo_prog base) (jo_trellis base).
(** pixo.rs 542-802: what is written (to the output file or stdout) for the bytes of the
    input.  The input size is only reported; for stdin it is a product of u32 (744-750)
    computed before the output is written.  Reading and writing files, the report itself and
    dry runs are not modelled. *)
Definition run (e : env) (je : jenv) (a : args) (input : list Z) : res (list Z) :=
  let* im := if a_stdin a then load_image_from_bytes input else load_image input in
  let w := im_width im in
  let h := im_height im in
  let* f := output_format_of a in
  let (px, ct) := convert a f im in
  let* out := match f with
              | OPng => encode e px (cli_png_options a w h ct)
              | OJpeg => jencode je px (cli_jpeg_options a w h ct)
              end in
  if a_stdin a && (2 ^ 32 <=? w * h * bytes_per_pixel ct) then Panic else Ok out.
