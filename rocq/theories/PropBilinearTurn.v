(** C121 for bilinear resizing. *)
From Verif Require Import Base PngFilterModel PngPaletteModel F32Model ResizeModel ResizeSpec NearestMoreSpec BilinearTurn.
Open Scope Z_scope.

(** C121: turning a picture over its diagonal before or after a bilinear resize makes a
    difference of at most one level. *)
Theorem bilinear_rows_and_columns : forall sin a b o, resizable o a -> resizable (turned o) b -> r_algo o = Bilinear -> r_sw o + r_sh o <= 8192 ->
  let bpp := bytes_per_pixel (r_ct o) in transposed a b (r_sw o) (r_sh o) bpp ->
  exists out_a out_b, resize sin a o = Ok out_a /\ resize sin b (turned o) = Ok out_b /\
    forall x y c, 0 <= x < r_dw o -> 0 <= y < r_dh o -> 0 <= c < bpp ->
      Z.abs (px out_b (r_dh o) bpp y x c - px out_a (r_dw o) bpp x y c) <= 1.
Proof. exact turned_bilinear_l. Qed.
Print Assumptions bilinear_rows_and_columns.

(** the hypotheses are met: 2 by 3 gray pixels to 3 by 2, and turned *)
Example turned_bilinear_case : let o := mkR 2 3 3 2 Gray Bilinear in let a := [1; 20; 30; 4; 5; 60] in let b := [1; 30; 5; 20; 4; 60] in
  resizable o a /\ resizable (turned o) b /\ transposed a b 2 3 1 /\ r_sw o + r_sh o <= 8192 /\
  resize (fun x => x) a o = Ok [1; 11; 20; 5; 33; 60] /\ resize (fun x => x) b (turned o) = Ok [1; 5; 11; 33; 20; 60].
Proof.
  cbv zeta. split; [|split; [|split; [|split; [discriminate|split; vm_compute; reflexivity]]]].
  1,2: unfold resizable; cbn [turned r_sw r_sh r_dw r_dh r_ct]; repeat split; try discriminate; repeat constructor; discriminate.
  intros x y c X Y C. assert (c = 0) as -> by lia. assert (x = 0 \/ x = 1) as [-> | ->] by lia; assert (y = 0 \/ y = 1 \/ y = 2) as [-> | [-> | ->]] by lia; reflexivity.
Qed.
