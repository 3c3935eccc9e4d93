(** One channel of a picture. *)
From Verif Require Import Base PngFilterModel PngPaletteModel ResizeModel ResizeSpec.
Open Scope Z_scope.

(** the gray picture [g] is channel [c] of the picture [a] *)
Definition plane_of (a g : list Z) (w h bpp c : Z) : Prop :=
  forall x y, 0 <= x < w -> 0 <= y < h -> px g w 1 x y 0 = px a w bpp x y c.
Definition gray_opts (o : ropts) : ropts := mkR (r_sw o) (r_sh o) (r_dw o) (r_dh o) Gray (r_algo o).
