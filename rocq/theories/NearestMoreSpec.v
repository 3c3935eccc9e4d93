(** Pictures turned over their diagonal. *)
From Verif Require Import Base PngFilterModel PngPaletteModel ResizeModel ResizeSpec.
Open Scope Z_scope.

(** [b] is the picture [a], [w] pixels wide and [h] high, with rows and columns exchanged *)
Definition transposed (a b : list Z) (w h bpp : Z) : Prop :=
  forall x y c, 0 <= x < w -> 0 <= y < h -> 0 <= c < bpp -> px b h bpp y x c = px a w bpp x y c.
Definition turned (o : ropts) : ropts := mkR (r_sh o) (r_sw o) (r_dh o) (r_dw o) (r_ct o) (r_algo o).
