(** C117: bilinear resizing keeps the source pixels it lands on. *)
From Verif Require Import Base PngFilterModel PngPaletteModel F32Model ResizeModel ResizeSpec BilinearGridSpec BilinearGrid.
Open Scope Z_scope.

(** C117: an output pixel that falls on a source pixel is that pixel, exactly. *)
Theorem bilinear_keeps_grid : forall sin data o, resizable o data -> r_algo o = Bilinear -> r_sw o + r_sh o <= 8192 ->
  let bpp := bytes_per_pixel (r_ct o) in
  exists out, resize sin data o = Ok out /\ bytes out /\ zlen out = r_dw o * r_dh o * bpp /\
    forall x y c i j, 0 <= x < r_dw o -> 0 <= y < r_dh o -> 0 <= c < bpp -> lands (r_sw o) (r_dw o) x i -> lands (r_sh o) (r_dh o) y j ->
      px out (r_dw o) bpp x y c = px data (r_sw o) bpp i j c.
Proof. exact grid_l. Qed.
Print Assumptions bilinear_keeps_grid.
(** C117: in particular the four corners stay. *)
Theorem bilinear_corners : forall sin data o, resizable o data -> r_algo o = Bilinear -> r_sw o + r_sh o <= 8192 -> 2 <= r_dw o -> 2 <= r_dh o ->
  let bpp := bytes_per_pixel (r_ct o) in
  exists out, resize sin data o = Ok out /\ forall c, 0 <= c < bpp ->
    px out (r_dw o) bpp 0 0 c = px data (r_sw o) bpp 0 0 c /\
    px out (r_dw o) bpp (r_dw o - 1) 0 c = px data (r_sw o) bpp (r_sw o - 1) 0 c /\
    px out (r_dw o) bpp 0 (r_dh o - 1) c = px data (r_sw o) bpp 0 (r_sh o - 1) c /\
    px out (r_dw o) bpp (r_dw o - 1) (r_dh o - 1) c = px data (r_sw o) bpp (r_sw o - 1) (r_sh o - 1) c.
Proof. exact corners_l. Qed.
Print Assumptions bilinear_corners.
(** C117: enlarging the grid by whole factors and going back gives the same bytes. *)
Theorem bilinear_there_and_back : forall sin data w h kx ky ct, let bw := (w - 1) * kx + 1 in let bh := (h - 1) * ky + 1 in
  resizable (mkR w h bw bh ct Bilinear) data -> 1 <= kx -> 1 <= ky -> bw + bh <= 8192 ->
  exists big, resize sin data (mkR w h bw bh ct Bilinear) = Ok big /\ resize sin big (mkR bw bh w h ct Bilinear) = Ok data.
Proof. exact back_l. Qed.
Print Assumptions bilinear_there_and_back.

(** the hypotheses are met: 3 by 1 gray pixels to 5 by 1; positions 0, 2 and 4 land *)
Example grid_case : let o := mkR 3 1 ((3 - 1) * 2 + 1) ((1 - 1) * 1 + 1) Gray Bilinear in resizable o [10; 201; 40] /\ r_sw o + r_sh o <= 8192 /\
  lands 3 5 2 1 /\ lands 1 1 0 0 /\ resize (fun x => x) [10; 201; 40] o = Ok [10; 106; 201; 121; 40].
Proof.
  split; [unfold resizable; cbn [r_sw r_sh r_dw r_dh r_ct]; repeat split; try discriminate; repeat constructor; discriminate|].
  split; [discriminate|]. split; [repeat split; discriminate|]. split; [repeat split; discriminate|]. vm_compute. reflexivity.
Qed.
