(** The order of the blocks in a scan of one component, ITU-T T.81 A.2.2. *)
From Verif Require Import Base PngFilterModel PngPaletteModel JpegBaseModel JpegEncModel JpegImgSpec.

(** A.1.1: sampling factor of a component, and the size of its plane *)
Definition comp_sampling (o : jopts) (c : Z) : Z := if c =? 0 then factor o else 1.
Definition ceil_div (a b : Z) : Z := (a + b - 1) / b.
Definition comp_width (o : jopts) (c : Z) : Z := ceil_div (jo_w o * comp_sampling o c) (factor o).
Definition comp_height (o : jopts) (c : Z) : Z := ceil_div (jo_h o * comp_sampling o c) (factor o).
(** A.2.2: a scan of a single component has the blocks that cover its plane, row by row
    from the top, each row from left to right *)
Definition raster_places (o : jopts) (c : Z) : list (Z * Z) :=
  flat_map (fun by_ => map (fun bx => (bx, by_)) (idxs (Z.to_nat (ceil_div (comp_width o c) 8))))
    (idxs (Z.to_nat (ceil_div (comp_height o c) 8))).
Definition raster_blocks (q : list Z -> list Z -> list Z) (data : list Z) (o : jopts) (c : Z) : list (list Z) :=
  map (fun '(bx, by_) => block_coefs q data o c bx by_) (raster_places o c).
