(** What a PNG file means, after RFC 2083 / ISO 15948, written without
    reference to the encoder or decoder models. *)
From Verif Require Import Base ChecksumSpec PngPaletteModel.

(** ** Pixels *)
(** The colour of pixel [i] of an image of the given colour type: red, green,
    blue, alpha. *)
Definition pixel (ct : color_type) (px : list Z) (i : Z) : Z * Z * Z * Z :=
  match ct with
  | Gray => let g := znth px i in (g, g, g, 255)
  | GrayAlpha => let g := znth px (2 * i) in (g, g, g, znth px (2 * i + 1))
  | Rgb => (znth px (3 * i), znth px (3 * i + 1), znth px (3 * i + 2), 255)
  | Rgba => (znth px (4 * i), znth px (4 * i + 1), znth px (4 * i + 2), znth px (4 * i + 3))
  end.
(** A fully transparent pixel shows nothing, whatever its colour. *)
Definition visible (c : Z * Z * Z * Z) : Z * Z * Z * Z :=
  let '(r, g, b, a) := c in if a =? 0 then (0, 0, 0, 0) else c.

(** colours *)
Definition byte3 (c : Z * Z * Z) : Prop := let '(r, g, b) := c in is_byte r /\ is_byte g /\ is_byte b.
Definition byte4 (c : rgba) : Prop := let '(r, g, b, a) := c in is_byte r /\ is_byte g /\ is_byte b /\ is_byte a.
Definition colour_at (palette : list rgba) (i : Z) : rgba := nth (Z.to_nat i) palette (0, 0, 0, 0).
Definition alpha_of (c : rgba) : Z := let '(_, _, _, a) := c in a.
(** the redmean distance, <https://en.wikipedia.org/wiki/Color_difference>,
    with the squared difference of the alphas added *)
Definition dist (c1 c2 : rgba) : Z :=
  let '(r1, g1, b1, a1) := c1 in let '(r2, g2, b2, a2) := c2 in
  let rm := (r1 + r2) / 2 in
  ((512 + rm) * (r1 - r2) ^ 2 + 1024 * (g1 - g2) ^ 2 + (767 - rm) * (b1 - b2) ^ 2) / 256 + (a1 - a2) ^ 2.
(** [data] is an image of [n] pixels *)
Definition image_ok (ct : color_type) (data : list Z) (n : Z) : Prop :=
  0 <= n /\ bytes data /\ zlen data = n * bytes_per_pixel ct.
(** what the decoder must show for [p]: the same colour, except that with the
    alpha optimisation ([opt]) the colour of an invisible pixel may change *)
Definition shown (opt : bool) (p q : rgba) : Prop := visible p = visible q /\ (opt = false -> p = q).
Definition level (c : rgba) : Z := let '(r, _, _, _) := c in r.
(** images the encoder stores with fewer than 8 bits per gray sample: opaque
    gray RGB(A) with all levels at most 15 and at least one nonzero *)
Definition faint (ct : color_type) (data : list Z) (n : Z) : Prop :=
  (ct = Rgb \/ ct = Rgba) /\
  (forall i, 0 <= i < n -> exists g, pixel ct data i = (g, g, g, 255) /\ g <= 15) /\
  exists i, 0 <= i < n /\ level (pixel ct data i) <> 0.
(** the encoder's options and the image for which it loses gray levels *)
Definition loses (rct rpal : bool) (ct : color_type) (data : list Z) (n : Z) : Prop :=
  rct = true /\ rpal = false /\ faint ct data n.


(** ** Filters, RFC 2083 section 6 *)
Definition paeth (a b c : Z) : Z :=
  let p := a + b - c in
  if (Z.abs (p - a) <=? Z.abs (p - b)) && (Z.abs (p - a) <=? Z.abs (p - c)) then a
  else if Z.abs (p - b) <=? Z.abs (p - c) then b else c.
Definition predict (t a b c : Z) : Z :=
  if t =? 1 then a
  else if t =? 2 then b
  else if t =? 3 then (a + b) / 2
  else if t =? 4 then paeth a b c
  else 0.
(** A byte to the left of the row counts as zero. *)
Definition at0 (l : list Z) (i : Z) : Z := if i <? 0 then 0 else znth l i.
Definition row_filtered (t bpp : Z) (prev raw filt : list Z) : Prop :=
  length filt = length raw /\
  forall i, 0 <= i < zlen raw ->
    znth filt i =
    (znth raw i - predict t (at0 raw (i - bpp)) (at0 prev i) (at0 prev (i - bpp))) mod 256.
(** [img_filtered bpp sb prev raw filt]: [filt] is a sequence of filtered
    scanlines whose reconstruction, below the scanline [prev], is [raw]. *)
Inductive img_filtered (bpp sb : Z) : list Z -> list Z -> list Z -> Prop :=
| IF_nil prev : img_filtered bpp sb prev [] []
| IF_row prev t row f raws filts :
    0 <= t <= 4 -> zlen row = sb -> row_filtered t bpp prev row f ->
    img_filtered bpp sb row raws filts ->
    img_filtered bpp sb prev (row ++ raws) (t :: f ++ filts).

(** ** Samples packed into bytes, RFC 2083 section 2.3: the leftmost sample of
    a scanline is in the high-order bits of its byte. *)
Definition sample_at (bits : Z) (row : list Z) (i : Z) : Z :=
  (znth row (i * bits / 8) / 2 ^ (8 - bits - (i * bits) mod 8)) mod 2 ^ bits.

(** ** Chunks, RFC 2083 section 3.2 *)
Definition be4 (v : Z) : list Z :=
  [v / 2 ^ 24; v / 2 ^ 16 mod 256; v / 2 ^ 8 mod 256; v mod 256].
Definition chunk_of (ty data : list Z) : list Z :=
  be4 (zlen data) ++ ty ++ data ++ be4 (crc_spec (ty ++ data)).
Definition png_file (cs : list (list Z * list Z)) : list Z :=
  [137; 80; 78; 71; 13; 10; 26; 10] ++ flat_map (fun '(t, d) => chunk_of t d) cs.
(** four letters and a length that fits its field *)
Definition wf_chunk (c : list Z * list Z) : Prop :=
  length (fst c) = 4%nat /\ bytes (fst c) /\ bytes (snd c) /\ zlen (snd c) < 2 ^ 32.
