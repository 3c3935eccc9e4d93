(** C121, and more of C115: nearest neighbour resizing. *)
From Verif Require Import Base PngFilterModel PngPaletteModel F32Model ResizeModel ResizeSpec NearestMoreSpec NearestMore.
Open Scope Z_scope.

(** C121: turning a picture over its diagonal and resizing it can be done in either order. *)
Theorem nearest_rows_and_columns : forall sin a b o, resizable o a -> resizable (turned o) b -> r_algo o = Nearest ->
  let bpp := bytes_per_pixel (r_ct o) in transposed a b (r_sw o) (r_sh o) bpp ->
  exists out_a out_b, resize sin a o = Ok out_a /\ resize sin b (turned o) = Ok out_b /\ transposed out_a out_b (r_dw o) (r_dh o) bpp.
Proof. exact turned_l. Qed.
Print Assumptions nearest_rows_and_columns.
(** C115: enlarging by whole factors twice is enlarging by their products. *)
Theorem nearest_enlarge_twice : forall sin data sw sh kx ky lx ly ct, resizable (mkR sw sh (sw * (kx * lx)) (sh * (ky * ly)) ct Nearest) data ->
  1 <= kx -> 1 <= ky -> 1 <= lx -> 1 <= ly -> sw * (kx * lx) < 2 ^ 20 -> sh * (ky * ly) < 2 ^ 20 ->
  exists mid big, resize sin data (mkR sw sh (sw * kx) (sh * ky) ct Nearest) = Ok mid /\
    resize sin mid (mkR (sw * kx) (sh * ky) (sw * (kx * lx)) (sh * (ky * ly)) ct Nearest) = Ok big /\
    resize sin data (mkR sw sh (sw * (kx * lx)) (sh * (ky * ly)) ct Nearest) = Ok big.
Proof. exact twice_l. Qed.
Print Assumptions nearest_enlarge_twice.

(** the hypotheses are met: 2 by 3 gray pixels to 3 by 2, and turned *)
Example turned_case : let o := mkR 2 3 3 2 Gray Nearest in let a := [1; 2; 3; 4; 5; 6] in let b := [1; 3; 5; 2; 4; 6] in
  resizable o a /\ resizable (turned o) b /\ transposed a b 2 3 1 /\
  resize (fun x => x) a o = Ok [1; 2; 2; 5; 6; 6] /\ resize (fun x => x) b (turned o) = Ok [1; 5; 2; 6; 2; 6].
Proof.
  cbv zeta. split; [|split; [|split; [|split; vm_compute; reflexivity]]].
  1,2: unfold resizable; cbn [turned r_sw r_sh r_dw r_dh r_ct]; repeat split; try discriminate; repeat constructor; discriminate.
  intros x y c X Y C. assert (c = 0) as -> by lia. assert (x = 0 \/ x = 1) as [-> | ->] by lia; assert (y = 0 \/ y = 1 \/ y = 2) as [-> | [-> | ->]] by lia; reflexivity.
Qed.
Example twice_case : resizable (mkR 1 2 (1 * (2 * 3)) (2 * (1 * 2)) Gray Nearest) [7; 9].
Proof. unfold resizable; cbn [r_sw r_sh r_dw r_dh r_ct]; repeat split; try discriminate; repeat constructor; discriminate. Qed.
