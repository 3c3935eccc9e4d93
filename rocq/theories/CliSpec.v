(** What the command line program and the WebAssembly interface are measured against. *)
From Verif Require Import Base Lz77Model PngFilterModel PngPaletteModel PngModel PngSpec PngEncSpec PngConfSpec DeflateModel DeflateTop LzOptModel LzOptTop JpegEncModel CliModel.

(** ** PNM files (the pgm(5) and ppm(5) manual pages of Netpbm), with 8 bits per sample *)
(** "white space (blanks, TABs, CRs, LFs)" *)
Definition white (c : Z) : Prop := c = 32 \/ c = 9 \/ c = 10 \/ c = 13.
(** "any characters from a # to the next newline, before the whitespace that delimits the
    raster, are a comment and ignored": [plain] is [text] without its comments *)
Inductive uncommented : list Z -> list Z -> Prop :=
| UEnd : uncommented [] []
| UChar c text plain : c <> 35 -> uncommented text plain -> uncommented (c :: text) (c :: plain)
| UComment words text plain : ~ In 10 words -> uncommented text plain -> uncommented (35 :: words ++ 10 :: text) plain.
(** a number in ASCII decimal *)
Fixpoint decimal_value (acc : Z) (l : list Z) : Z :=
  match l with [] => acc | c :: r => decimal_value (10 * acc + (c - 48)) r end.
Definition decimal (l : list Z) (n : Z) : Prop := l <> [] /\ Forall (fun c => 48 <= c <= 57) l /\ decimal_value 0 l = n.
(** for white space [W] and numbers [D]: white space and width, white space and height,
    white space and the maximal value *)
Definition blank (W : Z -> Prop) (l : list Z) : Prop := l <> [] /\ Forall W l.
Definition pnm_header (W : Z -> Prop) (D : list Z -> Z -> Prop) (w h : Z) (header : list Z) : Prop :=
  exists b1 tw b2 th b3 tm, blank W b1 /\ D tw w /\ blank W b2 /\ D th h /\ blank W b3 /\ D tm 255 /\
    uncommented header (b1 ++ tw ++ b2 ++ th ++ b3 ++ tm).
(** the magic number and the header, a single white space character, and the raster in rows
    from the top, followed by anything (another image) *)
Definition magic (ct : color_type) : list Z := match ct with Gray => [80; 53] | _ => [80; 54] end.
Definition pnm_file (W : Z -> Prop) (D : list Z -> Z -> Prop) (ct : color_type) (w h : Z) (raster file : list Z) : Prop :=
  (ct = Gray \/ ct = Rgb) /\ zlen raster = w * h * bytes_per_pixel ct /\
  exists header delim more, pnm_header W D w h header /\ W delim /\ file = magic ct ++ header ++ [delim] ++ raster ++ more.
(** liberties of the program: form feeds and plus signs *)
Definition white_or_feed (c : Z) : Prop := white c \/ c = 12.
Definition signed_decimal (l : list Z) (n : Z) : Prop := decimal l n \/ exists l', l = 43 :: l' /\ decimal l' n.

(** ** The compressors of the crate, from any state of their pools *)
Definition pixo_compressors (e : env) : Prop := exists H p E log2,
  length p = 10%nat /\ e_fast e = fast_of H p /\ est_total E /\ log2_ok log2 /\ e_opt e = deflate_optimal_zlib H E log2.

(** ** BT.601 luma, in thousandths *)
Definition luma_milli (c : Z * Z * Z * Z) : Z := let '(r, g, b, _) := c in 299 * r + 587 * g + 114 * b.
Definition opaque (c : Z * Z * Z * Z) : Z * Z * Z * Z := let '(r, g, b, _) := c in (r, g, b, 255).

(** ** Arguments *)
(** the output is to be PNG, by --format or else by the extension of the output path in any
    case; input from stdin needs an output *)
Definition png_letters : list Z := [112; 110; 103].
Definition asks_png (a : args) : Prop :=
  (a_stdin a = true -> a_output a <> None) /\
  (a_format a = Some OPng \/
   a_format a = None /\ exists ext, a_output a = Some (false, Some ext) /\ Forall2 (fun c p => c = p \/ c = p - 32) ext png_letters).
(** it is to be JPEG: any other case *)
Definition asks_jpeg (a : args) : Prop :=
  (a_stdin a = true -> a_output a <> None) /\ ~ asks_png a.
(** what the argument parser lets through *)
Definition args_ok (a : args) : Prop :=
  1 <= a_quality a <= 100 /\ 0 <= a_restart a <= 65535 /\ (forall l, a_compression a = Some l -> 1 <= l <= 9) /\
  (forall p, a_preset a = Some p -> p = 0 \/ p = 1 \/ p = 2).

(** ** Pictures.  [picture_file file w h P]: [file] is a conforming PNM or PNG file of a
    picture with the colours [P x y].  Left out: interlaced PNG files and those with a
    transparent colour, which the crate does not read correctly (C73), and JPEG files. *)
Inductive picture_file : list Z -> Z -> Z -> (Z -> Z -> rgba) -> Prop :=
| PicturePnm ct w h raster file : pnm_file white decimal ct w h raster file -> bytes raster -> 0 < w -> 0 < h ->
    picture_file file w h (fun x y => pixel ct raster (y * w + x))
| PicturePng w h depth ctb pal trns raw cs more : conforming w h depth ctb pal trns raw cs ->
    (ctb = 3 \/ ctb = 4 \/ ctb = 6 \/ trns = None) ->
    picture_file (png_file cs ++ more) w h (png_pixel ctb depth w raw pal trns).
(** limits of the encoders: sides, and a gigabyte of pixel data, four bytes each *)
Definition png_fits (w h : Z) : Prop := 0 < w <= 2 ^ 24 /\ 0 < h <= 2 ^ 24 /\ h * (4 * w + 1) + 1 < 2 ^ 30.
Definition jpeg_fits (w h : Z) : Prop := 0 < w <= 65535 /\ 0 < h <= 65535.
(** [v] in thousandths is within 0.955 of the luma of the colour, and equal to it for grays *)
Definition gray_of (c : rgba) (v : Z) : Prop := Z.abs (1000 * v - luma_milli c) <= 955 /\ forall g a, c = (g, g, g, a) -> v = g.
(** the colour codes of the JavaScript interface (wasm.rs documents 0 to 3) *)
Definition code_of (ct : color_type) : Z := match ct with Gray => 0 | GrayAlpha => 1 | Rgb => 2 | Rgba => 3 end.
(** the same arguments, reading standard input or a file *)
Definition from_stdin (a : args) (b : bool) : args :=
  mkArgs b (a_output a) (a_format a) (a_quality a) (a_opt_huffman a) (a_restart a) (a_compression a) (a_sub a) (a_filter a) (a_preset a) (a_alpha a) (a_reduce a) (a_strip a) (a_grayscale a).
