(** The same square in two pictures. *)
From Verif Require Import Base PngFilterModel PngPaletteModel JpegEncModel JpegLocalSpec.
Open Scope Z_scope.

(** options that code squares alike: size, restart interval and Huffman tables may differ *)
Definition alike (o o' : jopts) : Prop := jo_ct o = jo_ct o' /\ jo_quality o = jo_quality o' /\ jo_sub o = jo_sub o'.
(** the square of (x, y) lies inside a picture [w] by [h] *)
Definition square_inside (o : jopts) (x y : Z) : Prop := let m := square_side o in
  0 <= x /\ 0 <= y /\ (x / m + 1) * m <= jo_w o /\ (y / m + 1) * m <= jo_h o.
(** the square of (x, y) in picture [b] is that [i] squares to the right and [j] down in [a] *)
Definition square_found (a : list Z) (oa : jopts) (b : list Z) (ob : jopts) (x y i j : Z) : Prop := let m := square_side ob in
  forall x' y' k, 0 <= k < channels ob -> x' / m = x / m -> y' / m = y / m ->
    sample a (jo_w oa) (channels oa) (x' + m * i) (y' + m * j) k = sample b (jo_w ob) (channels ob) x' y' k.
(** 16 by 8 pixels, and their right half *)
Definition wide : list Z := flat_map (fun y => map (fun x => 16 * x + y) (idxs 16)) (idxs 8).
Definition half : list Z := flat_map (fun y => map (fun x => 16 * (x + 8) + y) (idxs 8)) (idxs 8).
