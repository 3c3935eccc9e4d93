(** C123, and more of C115: mirror images and nearest neighbour resizing. *)
From Verif Require Import Base PngFilterModel PngPaletteModel F32Model ResizeModel ResizeSpec NearestMirrorSpec NearestMirror NearestReduce.
Open Scope Z_scope.

(** C123 is false: halving a row of two pixels always keeps the right one. *)
Theorem nearest_mirror_refuted : ~ (forall sin a b o, resizable o a -> resizable o b -> r_algo o = Nearest ->
  let bpp := bytes_per_pixel (r_ct o) in mirrored a b (r_sw o) (r_sh o) bpp ->
  exists out_a out_b, resize sin a o = Ok out_a /\ resize sin b o = Ok out_b /\ mirrored out_a out_b (r_dw o) (r_dh o) bpp).
Proof. exact mirror_refuted_l. Qed.
Print Assumptions nearest_mirror_refuted.
(** C123 holds when enlarging by whole factors. *)
Theorem nearest_mirror_enlarge_partial : forall sin a b sw sh kx ky ct, let o := mkR sw sh (sw * kx) (sh * ky) ct Nearest in let bpp := bytes_per_pixel ct in
  resizable o a -> resizable o b -> mirrored a b sw sh bpp -> 1 <= kx -> 1 <= ky -> sw * kx < 2 ^ 20 -> sh * ky < 2 ^ 20 ->
  exists out_a out_b, resize sin a o = Ok out_a /\ resize sin b o = Ok out_b /\ mirrored out_a out_b (sw * kx) (sh * ky) bpp.
Proof. exact mirror_up_l. Qed.
Print Assumptions nearest_mirror_enlarge_partial.
(** C123 holds when reducing to an odd part of the width. *)
Theorem nearest_mirror_reduce_partial : forall sin a b dw dh kx ky ct, let o := mkR (dw * kx) (dh * ky) dw dh ct Nearest in let bpp := bytes_per_pixel ct in
  resizable o a -> resizable o b -> mirrored a b (dw * kx) (dh * ky) bpp -> 1 <= kx -> 1 <= ky -> kx mod 2 = 1 -> dw * kx <= 2 ^ 23 -> dh * ky <= 2 ^ 23 ->
  exists out_a out_b, resize sin a o = Ok out_a /\ resize sin b o = Ok out_b /\ mirrored out_a out_b dw dh bpp.
Proof. exact mirror_odd_l. Qed.
Print Assumptions nearest_mirror_reduce_partial.
(** C123 fails at every even part of the width: a picture shows the right one of the two pixels in the middle, its mirror image the left one. *)
Theorem nearest_mirror_even : forall sin a b dw dh kx ky ct, let o := mkR (dw * kx) (dh * ky) dw dh ct Nearest in let bpp := bytes_per_pixel ct in
  resizable o a -> resizable o b -> mirrored a b (dw * kx) (dh * ky) bpp -> 1 <= kx -> 1 <= ky -> kx mod 2 = 0 -> dw * kx <= 2 ^ 23 -> dh * ky <= 2 ^ 23 ->
  exists out_a out_b, resize sin a o = Ok out_a /\ resize sin b o = Ok out_b /\
    forall x y c, 0 <= x < dw -> 0 <= y < dh -> 0 <= c < bpp ->
      px out_a dw bpp x y c = px a (dw * kx) bpp (kx * x + kx / 2) (ky * y + ky / 2) c /\
      px out_b dw bpp (dw - 1 - x) y c = px a (dw * kx) bpp (kx * x + kx / 2 - 1) (ky * y + ky / 2) c.
Proof. exact mirror_even_l. Qed.
Print Assumptions nearest_mirror_even.
(** C115: reducing by any whole factors takes the pixel in the middle of each rectangle, the right and lower one where there are two. *)
Theorem nearest_reduce_any : forall sin data dw dh kx ky ct, let o := mkR (dw * kx) (dh * ky) dw dh ct Nearest in resizable o data ->
  1 <= kx -> 1 <= ky -> dw * kx <= 2 ^ 23 -> dh * ky <= 2 ^ 23 ->
  let bpp := bytes_per_pixel ct in
  exists out, resize sin data o = Ok out /\ bytes out /\ zlen out = dw * dh * bpp /\
    forall x y c, 0 <= x < dw -> 0 <= y < dh -> 0 <= c < bpp -> px out dw bpp x y c = px data (dw * kx) bpp (kx * x + kx / 2) (ky * y + ky / 2) c.
Proof. exact reduce_l. Qed.
Print Assumptions nearest_reduce_any.

(** the hypotheses are met: three pixels and their mirror image, twice as wide and down to one *)
Example mirror_case : let up := mkR 3 1 (3 * 2) (1 * 1) Gray Nearest in let down := mkR (1 * 3) (1 * 3) 1 1 Gray Nearest in
  resizable up [1; 2; 3] /\ resizable up [3; 2; 1] /\ mirrored [1; 2; 3] [3; 2; 1] 3 1 1 /\
  resize (fun x => x) [1; 2; 3] up = Ok [1; 1; 2; 2; 3; 3] /\ resize (fun x => x) [3; 2; 1] up = Ok [3; 3; 2; 2; 1; 1] /\
  resizable down [1; 2; 3; 4; 5; 6; 7; 8; 9] /\ resize (fun x => x) [1; 2; 3; 4; 5; 6; 7; 8; 9] down = Ok [5].
Proof.
  cbv zeta. split; [|split; [|split; [|split; [vm_compute; reflexivity|split; [vm_compute; reflexivity|split; [|vm_compute; reflexivity]]]]]].
  1,2,4: unfold resizable; cbn [r_sw r_sh r_dw r_dh r_ct]; repeat split; try discriminate; repeat constructor; discriminate.
  intros x y c X Y C. assert (y = 0) as -> by lia. assert (c = 0) as -> by lia. assert (x = 0 \/ x = 1 \/ x = 2) as [-> | [-> | ->]] by lia; reflexivity.
Qed.
(** a width reduced to an even part, with the mirror image *)
Example mirror_even_case : let o := mkR (1 * 4) (1 * 1) 1 1 Gray Nearest in
  resizable o [1; 2; 3; 4] /\ resizable o [4; 3; 2; 1] /\ mirrored [1; 2; 3; 4] [4; 3; 2; 1] 4 1 1 /\
  resize (fun x => x) [1; 2; 3; 4] o = Ok [3] /\ resize (fun x => x) [4; 3; 2; 1] o = Ok [2].
Proof.
  cbv zeta. split; [|split; [|split; [|split; vm_compute; reflexivity]]].
  1,2: unfold resizable; cbn [r_sw r_sh r_dw r_dh r_ct]; repeat split; try discriminate; repeat constructor; discriminate.
  intros x y c X Y C. assert (y = 0) as -> by lia. assert (c = 0) as -> by lia. assert (x = 0 \/ x = 1 \/ x = 2 \/ x = 3) as [-> | [-> | [-> | ->]]] by lia; reflexivity.
Qed.
