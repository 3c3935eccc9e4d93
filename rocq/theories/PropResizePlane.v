(** C122: every channel is resized as a gray picture by itself. *)
From Verif Require Import Base PngFilterModel PngPaletteModel F32Model ResizeModel ResizeSpec ResizePlaneSpec ResizePlane.
Open Scope Z_scope.

(** C122: with all three methods (and any sine function), taking a channel out of a picture
    as a gray picture and resizing can be done in either order. *)
Theorem resize_by_channel : forall sin a g o c, resizable o a -> resizable (gray_opts o) g ->
  (r_algo o = Bilinear -> inside (r_sw o) (r_dw o) /\ inside (r_sh o) (r_dh o)) ->
  let bpp := bytes_per_pixel (r_ct o) in 0 <= c < bpp -> plane_of a g (r_sw o) (r_sh o) bpp c ->
  exists out_a out_g, resize sin a o = Ok out_a /\ resize sin g (gray_opts o) = Ok out_g /\ plane_of out_a out_g (r_dw o) (r_dh o) bpp c.
Proof. exact plane_l. Qed.
Print Assumptions resize_by_channel.

(** the hypotheses are met: the alpha channel of two gray-alpha pixels *)
Example plane_case : let o := mkR 2 1 3 1 GrayAlpha Bilinear in let a := [10; 20; 30; 40] in let g := [20; 40] in
  resizable o a /\ resizable (gray_opts o) g /\ plane_of a g 2 1 2 1 /\ inside 2 3 /\ inside 1 1 /\
  resize (fun x => x) a o = Ok [10; 20; 20; 30; 30; 40] /\ resize (fun x => x) g (gray_opts o) = Ok [20; 30; 40].
Proof.
  cbv zeta. split; [|split; [|split]].
  1,2: unfold resizable; cbn [gray_opts r_sw r_sh r_dw r_dh r_ct]; repeat split; try discriminate; repeat constructor; discriminate.
  - intros x y X Y. assert (y = 0) as -> by lia. assert (x = 0 \/ x = 1) as [-> | ->] by lia; reflexivity.
  - split; [left; discriminate|]. split; [left; discriminate|]. split; vm_compute; reflexivity.
Qed.
