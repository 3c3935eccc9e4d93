(** C115: nearest neighbour resizing by whole factors. *)
From Verif Require Import Base PngFilterModel PngPaletteModel F32Model ResizeModel ResizeSpec NearestProofs.
Open Scope Z_scope.

(** C115: enlarging by whole factors repeats every pixel, exactly. *)
Theorem nearest_enlarge : forall sin data sw sh kx ky ct,
  resizable (mkR sw sh (sw * kx) (sh * ky) ct Nearest) data -> 1 <= kx -> 1 <= ky -> sw * kx < 2 ^ 20 -> sh * ky < 2 ^ 20 ->
  let bpp := bytes_per_pixel ct in
  exists out, resize sin data (mkR sw sh (sw * kx) (sh * ky) ct Nearest) = Ok out /\ bytes out /\ zlen out = sw * kx * (sh * ky) * bpp /\
    forall x y c, 0 <= x < sw * kx -> 0 <= y < sh * ky -> 0 <= c < bpp -> px out (sw * kx) bpp x y c = px data sw bpp (x / kx) (y / ky) c.
Proof. exact upscale_l. Qed.
Print Assumptions nearest_enlarge.
(** C115: reducing by an odd factor takes the pixel in the middle of each square. *)
Theorem nearest_reduce : forall sin data dw dh k ct,
  resizable (mkR (dw * k) (dh * k) dw dh ct Nearest) data -> 1 <= k -> k mod 2 = 1 -> dw * k < 2 ^ 20 -> dh * k < 2 ^ 20 ->
  let bpp := bytes_per_pixel ct in
  exists out, resize sin data (mkR (dw * k) (dh * k) dw dh ct Nearest) = Ok out /\ bytes out /\ zlen out = dw * dh * bpp /\
    forall x y c, 0 <= x < dw -> 0 <= y < dh -> 0 <= c < bpp -> px out dw bpp x y c = px data (dw * k) bpp (k * x + k / 2) (k * y + k / 2) c.
Proof. exact downscale_l. Qed.
Print Assumptions nearest_reduce.
(** C115: enlarging by whole factors and going back gives the same bytes. *)
Theorem nearest_there_and_back : forall sin data sw sh kx ky ct,
  resizable (mkR sw sh (sw * kx) (sh * ky) ct Nearest) data -> 1 <= kx -> 1 <= ky -> sw * kx < 2 ^ 20 -> sh * ky < 2 ^ 20 ->
  exists big, resize sin data (mkR sw sh (sw * kx) (sh * ky) ct Nearest) = Ok big /\ resize sin big (mkR (sw * kx) (sh * ky) sw sh ct Nearest) = Ok data.
Proof. exact up_down_l. Qed.
Print Assumptions nearest_there_and_back.

(** the hypotheses are met: 2 by 1 gray-alpha pixels, three and two times as large *)
Example nearest_case : let o := mkR 2 1 (2 * 3) (1 * 2) GrayAlpha Nearest in resizable o [10; 20; 30; 40] /\
  resize (fun x => x) [10; 20; 30; 40] o = Ok [10;20;10;20;10;20;30;40;30;40;30;40; 10;20;10;20;10;20;30;40;30;40;30;40].
Proof. split; [unfold resizable; cbn [r_sw r_sh r_dw r_dh r_ct]; repeat split; try discriminate; repeat constructor; discriminate|vm_compute; reflexivity]. Qed.
