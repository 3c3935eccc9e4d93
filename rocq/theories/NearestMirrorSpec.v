(** Pictures with left and right exchanged. *)
From Verif Require Import Base PngFilterModel PngPaletteModel ResizeModel ResizeSpec.
Open Scope Z_scope.

(** [b] is the mirror image of [a]; both are [w] pixels wide and [h] high *)
Definition mirrored (a b : list Z) (w h bpp : Z) : Prop :=
  forall x y c, 0 <= x < w -> 0 <= y < h -> 0 <= c < bpp -> px b w bpp x y c = px a w bpp (w - 1 - x) y c.
