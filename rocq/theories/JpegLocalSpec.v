(** Pictures that agree in a square. *)
From Verif Require Import Base PngPaletteModel JpegEncModel.
Open Scope Z_scope.

(** side of the squares a file is coded in: 16 for colour with 4:2:0 sampling, else 8 *)
Definition square_side (o : jopts) : Z := match jo_ct o, jo_sub o with Rgb, S420 => 16 | _, _ => 8 end.
Definition channels (o : jopts) : Z := match jo_ct o with Gray => 1 | _ => 3 end.
(** channel [k] of the pixel in column [x] and row [y] of a picture [w] pixels wide, [n] channels *)
Definition sample (data : list Z) (w n x y k : Z) : Z := znth data ((y * w + x) * n + k).
(** both pictures are the same in the square of (x, y) *)
Definition same_square (a b : list Z) (o : jopts) (x y : Z) : Prop :=
  forall x' y' k, 0 <= x' < jo_w o -> 0 <= y' < jo_h o -> 0 <= k < channels o ->
    x' / square_side o = x / square_side o -> y' / square_side o = y / square_side o ->
    sample a (jo_w o) (channels o) x' y' k = sample b (jo_w o) (channels o) x' y' k.
