(** Bounds on the sizes of outputs (C81, C82). *)
From Verif Require Import Base PngDecModel.

(** stored blocks of 65535 bytes with 5 bytes each, and header and checksum of the container *)
Definition zlib_bound (n : Z) : Z := n + 5 * (n / 65535 + 1) + 6.
(** an eight-thousandth, and 1200 bytes for the other chunks *)
Definition png_bound (n : Z) : Z := n + n / 8000 + 1200.

(** How many bytes the PNG decoder asks the allocator for before it decompresses:
    decode/png.rs 213-265 and decode/inflate.rs 267 (the checks of [finish_decode] up to
    the call, then [Vec::with_capacity(expected_size)] once the zlib header is accepted). *)
Definition png_reserves (data : list Z) : option Z :=
  if (zlen data <? 8) || negb (zs_eqb (firstn 8 data) PNG_SIGNATURE) then None else
  match parse_chunks (length (skipn 8 data)) (skipn 8 data) c_init with
  | Ok st =>
      match c_ihdr st with
      | Some h =>
          if negb (c_end st) || (ih_width h =? 0) || (ih_height h =? 0) || (MAX_DIMENSION <? ih_width h) || (MAX_DIMENSION <? ih_height h) ||
             negb (ih_comp h =? 0) || negb (ih_filt h =? 0) || negb (ih_inter h =? 0) || negb (valid_depth (ih_ct h) (ih_depth h)) || (zlen (c_idat st) <? 6) ||
             negb (Z.land (znth (c_idat st) 0) 15 =? 8) || negb (Z.lor (Z.shiftl (znth (c_idat st) 0) 8) (znth (c_idat st) 1) mod 31 =? 0) ||
             negb (Z.land (znth (c_idat st) 1) 32 =? 0)
          then None
          else match calculate_expected_size h with Ok e => Some e | _ => None end
      | None => None
      end
  | _ => None
  end.
