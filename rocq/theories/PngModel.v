(** Model of the PNG encoder: src/png/chunk.rs and the top level of
    src/png/mod.rs. *)
From Verif Require Import Base ChecksumModel HuffModel Lz77Model DeflateModel PngFilterModel
  PngPaletteModel PngQuantModel PngDecModel.

(** src/png/mod.rs 71-81 *)
Inductive qmode := QOff | QAuto | QForce.
(** src/png/mod.rs 41-68 and 83-90; the log flag has no effect on the output
    and is dropped *)
Record options := mkOpts {
  o_width : Z;
  o_height : Z;
  o_ct : color_type;
  o_level : Z;
  o_filter : strategy;
  o_alpha : bool;          (** optimize_alpha *)
  o_reduce : bool;         (** reduce_color_type *)
  o_strip : bool;          (** strip_metadata *)
  o_palette : bool;        (** reduce_palette *)
  o_optimal : bool;        (** optimal_compression *)
  o_qmode : qmode;
  o_max_colors : Z;
  o_dither : bool }.

(** What the encoder takes from its surroundings: the two compressors
    ([deflate_zlib_packed] data level, [deflate_optimal_zlib] data
    iterations), the f32 operations and the tie-breaking of the unstable sort
    (both only used by the quantiser), and the [parallel] feature. *)
Record env := mkEnv {
  e_fast : list Z -> Z -> res (list Z);
  e_opt : list Z -> Z -> res (list Z);
  e_float : fops;
  e_top : list ccount -> list ccount;
  e_par : bool }.

(** [deflate_zlib_packed], deflate.rs 1073-1079, as the encoder calls it, from a given
    state of the pool of reusable compressors *)
Definition fast_of (H : heap) (p : pool) (data : list Z) (level : Z) : res (list Z) :=
  let* (z, _) := deflate_zlib_packed H p data level in Ok z.

(** chunk.rs 10-31: the bytes appended *)
Definition chunk_bytes (ty data : list Z) : list Z :=
  let crc := crc_finalize (crc_update (crc_update crc_new ty) data) in
  be32 (wrap 32 (zlen data)) ++ ty ++ data ++ be32 crc.

(** mod.rs 592-617 *)
Definition ihdr_bytes (w h depth ctb : Z) : list Z :=
  chunk_bytes T_IHDR (be32 w ++ be32 h ++ [depth; ctb; 0; 0; 0]).
(** mod.rs 619-626 *)
Definition IDAT_CHUNK : Z := 256 * 1024.
Definition idat_bytes (z : list Z) : list Z :=
  flat_map (chunk_bytes T_IDAT) (chunks (Z.to_nat IDAT_CHUNK) z).
(** mod.rs 628-630 *)
Definition iend_bytes : list Z := chunk_bytes T_IEND [].

(** mod.rs 396-410 *)
Definition checked_expected_len (w h bpp actual : Z) : res Z :=
  if 2 ^ 64 <=? w * h then Err (EInvalidDataLength (2 ^ 64 - 1) actual)
  else if 2 ^ 64 <=? w * h * bpp then Err (EInvalidDataLength (2 ^ 64 - 1) actual)
  else Ok (w * h * bpp).

(** mod.rs 1906-1943: [rest] is [output[cursor..]]; the result is what is
    appended to [stripped] *)
Definition T_tEXt : list Z := [116; 69; 88; 116].
Definition T_zTXt : list Z := [122; 84; 88; 116].
Definition T_iTXt : list Z := [105; 84; 88; 116].
Definition T_tIME : list Z := [116; 73; 77; 69].
Fixpoint strip_loop (fuel : nat) (rest : list Z) : res (list Z) :=
  if negb (8 <=? zlen rest) then Ok []
  else match fuel with
  | O => NoFuel
  | S f =>
      let* len := get_be32 rest 0 in
      let* ty := slice_r rest 4 8 in
      let ce := 8 + len + 4 in
      if zlen rest <? ce then Ok []
      else
        let* t0 := get ty 0 in
        let anc := negb (Z.land t0 32 =? 0) in
        let strip := anc && (zs_eqb ty T_tEXt || zs_eqb ty T_zTXt || zs_eqb ty T_iTXt
                             || zs_eqb ty T_tIME) in
        let* keep := if strip then Ok [] else slice_r rest 0 ce in
        if zs_eqb ty T_IEND then Ok keep
        else
          let* more := strip_loop f (skipn (Z.to_nat ce) rest) in
          Ok (keep ++ more)
  end.
Definition strip_metadata_chunks (output : list Z) : res (list Z) :=
  let* sig := slice_r output 0 8 in
  let* r := strip_loop (length output) (skipn 8 output) in
  Ok (sig ++ r).

(** mod.rs 571-576 (= 1877-1881) *)
Definition compress (e : env) (o : options) (data : list Z) : res (list Z) :=
  if o_optimal o then e_opt e data 5 else e_fast e data (o_level o).

(** mod.rs 513-589: the lossless path; the value is the final buffer.  It
    starts from the cleared buffer. *)
Definition encode_body (e : env) (data : list Z) (o : options) : res (list Z) :=
  let w := o_width o in
  let h := o_height o in
  let out := PNG_SIGNATURE in
  let* rd := maybe_reduce_color_type data w h (o_ct o) (o_reduce o) (o_palette o) in
  let out := out ++ ihdr_bytes w h (rd_depth rd) (rd_byte rd) in
  let out := out ++ match rd_pal rd with
             | None => []
             | Some p =>
                 chunk_bytes T_PLTE (flat_map (fun '(r, g, b, _) => [r; g; b]) p) ++
                 (if existsb (fun '(_, _, _, a) => negb (a =? 255)) p
                  then chunk_bytes T_tRNS (map (fun '(_, _, _, a) => a) p) else [])
             end in
  let d := maybe_optimize_alpha (rd_data rd) (rd_ct rd) (o_alpha o) in
  let row_bytes := if rd_depth rd <? 8 then ceil8 (w * rd_depth rd) else w * rd_bpp rd in
  let* filtered := apply_filters_with_row_bytes (e_par e) d w h row_bytes (rd_bpp rd) (o_filter o) in
  let* z := compress e o filtered in
  let out := out ++ idat_bytes z in
  let out := out ++ iend_bytes in
  if o_strip o then strip_metadata_chunks out else Ok out.

(** mod.rs 1847-1885: the indexed encoder after its checks *)
Definition indexed_filter (s : strategy) : strategy :=
  match s with SAdaptive | SAdaptiveFast | SMinSum | SBigrams => SNone | x => x end.
Definition indexed_body (e : env) (data : list Z) (w h : Z) (palette : list (Z * Z * Z))
  (trns : option (list Z)) (o : options) : res (list Z) :=
  let out := PNG_SIGNATURE ++ ihdr_bytes w h 8 3 in
  let out := out ++ chunk_bytes T_PLTE (flat_map (fun '(r, g, b) => [r; g; b]) palette) in
  let out := out ++ match trns with Some a => chunk_bytes T_tRNS a | None => [] end in
  let* filtered := apply_filters (e_par e) data w h 1 (indexed_filter (o_filter o)) in
  let* z := compress e o filtered in
  Ok (out ++ idat_bytes z ++ iend_bytes).

(** A call that writes to a caller's buffer: the buffer afterwards and the
    returned value.  Once the buffer has been cleared only a panic can stop the
    writing; its contents are then left unspecified (modelled as empty). *)
Definition finish_into (r : res (list Z)) : list Z * res unit :=
  match r with
  | Ok o => (o, Ok tt)
  | Err e => ([], Err e)
  | Panic => ([], Panic)
  | NoFuel => ([], NoFuel)
  end.

(** mod.rs 1814-1886 *)
Definition encode_indexed_into (e : env) (output data : list Z) (w h : Z)
  (palette : list (Z * Z * Z)) (trns : option (list Z)) (o : options) : list Z * res unit :=
  let n := zlen palette in
  if (n =? 0) || (256 <? n) then (output, Err ECompressionError)
  else if match trns with Some a => n <? zlen a | None => false end
  then (output, Err ECompressionError)
  else match checked_expected_len w h 1 (zlen data) with
  | Ok x =>
      if negb (zlen data =? x) then (output, Err (EInvalidDataLength x (zlen data)))
      else finish_into (indexed_body e data w h palette trns o)
  | Err er => (output, Err er)
  | Panic => (output, Panic)
  | NoFuel => (output, NoFuel)
  end.
(** mod.rs 102-122 with 92-100: [PngOptions::default()] *)
Definition default_options : options :=
  mkOpts 0 0 Rgba 2 SAdaptiveFast false false false false false QOff 256 false.
(** mod.rs 1771-1789 and 1792-1811 *)
Definition encode_indexed_with_options (e : env) (data : list Z) (w h : Z)
  (palette : list (Z * Z * Z)) (trns : option (list Z)) (o : options) : res (list Z) :=
  let '(out, r) := encode_indexed_into e [] data w h palette trns o in
  let* _ := r in Ok out.
Definition encode_indexed (e : env) (data : list Z) (w h : Z)
  (palette : list (Z * Z * Z)) (trns : option (list Z)) : res (list Z) :=
  encode_indexed_with_options e data w h palette trns default_options.

(** mod.rs 1888-1902 *)
Fixpoint last_non_opaque (i last : Z) (alpha : list Z) : Z :=
  match alpha with
  | [] => last
  | a :: r => last_non_opaque (i + 1) (if a =? 255 then last else i) r
  end.
Definition maybe_trim_transparency (alpha : list Z) : res (option (list Z)) :=
  match alpha with
  | [] => Ok None
  | _ => if forallb (fun a => a =? 255) alpha then Ok None
         else let* s := slice_r alpha 0 (last_non_opaque 0 0 alpha + 1) in Ok (Some s)
  end.

(** mod.rs 470-481 *)
Definition is_color (c : color_type) : bool :=
  match c with Rgb | Rgba => true | _ => false end.
Definition should_quantize (data : list Z) (o : options) : bool :=
  match o_qmode o with
  | QOff => false
  | QForce => is_color (o_ct o)
  | QAuto => is_color (o_ct o) && should_quantize_auto data (o_ct o) (Z.min (o_max_colors o) 256)
  end.
(** mod.rs 437-590 *)
Definition encode_into (e : env) (output data : list Z) (o : options) : list Z * res unit :=
  let w := o_width o in
  let h := o_height o in
  if negb ((1 <=? o_level o) && (o_level o <=? 9)) then
    (output, Err (EInvalidCompressionLevel (o_level o)))
  else if (w =? 0) || (h =? 0) then (output, Err (EInvalidDimensions w h))
  else if (MAX_DIMENSION <? w) || (MAX_DIMENSION <? h) then
    (output, Err (EImageTooLarge w h MAX_DIMENSION))
  else match checked_expected_len w h (bytes_per_pixel (o_ct o)) (zlen data) with
  | Ok x =>
      if negb (zlen data =? x) then (output, Err (EInvalidDataLength x (zlen data)))
      else if should_quantize data o then
        match
          (let* (pal, idx) := quantize_image (e_float e) (e_top e) data w h (o_ct o)
                                (Z.min (o_max_colors o) 256) (o_dither o) in
           let* alpha := maybe_trim_transparency (map (fun '(_, _, _, a) => a) pal) in
           Ok (pal, idx, alpha))
        with
        | Ok (pal, idx, alpha) =>
            encode_indexed_into e output idx w h (map (fun '(r, g, b, _) => (r, g, b)) pal) alpha o
        | Err er => (output, Err er)
        | Panic => (output, Panic)
        | NoFuel => (output, NoFuel)
        end
      else finish_into (encode_body e data o)
  | Err er => (output, Err er)
  | Panic => (output, Panic)
  | NoFuel => (output, NoFuel)
  end.
(** mod.rs 390-394 *)
Definition encode (e : env) (data : list Z) (o : options) : res (list Z) :=
  let '(out, r) := encode_into e [] data o in
  let* _ := r in Ok out.
