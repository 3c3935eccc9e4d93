(** C118: nearest neighbour and bilinear resizing keep the order of brightness. *)
From Verif Require Import Base PngFilterModel PngPaletteModel F32Model ResizeModel ResizeSpec ResizeMono.
Open Scope Z_scope.

(** C118: if no pixel of one picture is brighter, in a channel, than the same pixel of
    another, this also holds of the resized pictures. *)
Theorem resize_monotone : forall sin a b o c, resizable o a -> resizable o b -> r_algo o <> Lanczos3 ->
  (r_algo o = Bilinear -> inside (r_sw o) (r_dw o) /\ inside (r_sh o) (r_dh o)) ->
  let bpp := bytes_per_pixel (r_ct o) in 0 <= c < bpp ->
  (forall x y, 0 <= x < r_sw o -> 0 <= y < r_sh o -> px a (r_sw o) bpp x y c <= px b (r_sw o) bpp x y c) ->
  exists out_a out_b, resize sin a o = Ok out_a /\ resize sin b o = Ok out_b /\
    forall x y, 0 <= x < r_dw o -> 0 <= y < r_dh o -> px out_a (r_dw o) bpp x y c <= px out_b (r_dw o) bpp x y c.
Proof. exact mono_l. Qed.
Print Assumptions resize_monotone.
(** C118: a channel of the result depends on that channel of the picture only. *)
Theorem resize_channels : forall sin a b o c, resizable o a -> resizable o b -> r_algo o <> Lanczos3 ->
  (r_algo o = Bilinear -> inside (r_sw o) (r_dw o) /\ inside (r_sh o) (r_dh o)) ->
  let bpp := bytes_per_pixel (r_ct o) in 0 <= c < bpp ->
  (forall x y, 0 <= x < r_sw o -> 0 <= y < r_sh o -> px a (r_sw o) bpp x y c = px b (r_sw o) bpp x y c) ->
  exists out_a out_b, resize sin a o = Ok out_a /\ resize sin b o = Ok out_b /\
    forall x y, 0 <= x < r_dw o -> 0 <= y < r_dh o -> px out_a (r_dw o) bpp x y c = px out_b (r_dw o) bpp x y c.
Proof. exact channel_l. Qed.
Print Assumptions resize_channels.

(** the hypotheses are met: two gray-alpha lines with the same gray and a smaller alpha *)
Example mono_case : let o := mkR 2 1 3 1 GrayAlpha Bilinear in let a := [10; 20; 30; 40] in let b := [10; 25; 30; 43] in
  resizable o a /\ resizable o b /\ inside 2 3 /\ inside 1 1 /\
  (forall x y, 0 <= x < 2 -> 0 <= y < 1 -> px a 2 2 x y 1 <= px b 2 2 x y 1) /\
  resize (fun x => x) a o = Ok [10; 20; 20; 30; 30; 40] /\ resize (fun x => x) b o = Ok [10; 25; 20; 34; 30; 43].
Proof.
  cbv zeta. split; [|split].
  1,2: unfold resizable; cbn [r_sw r_sh r_dw r_dh r_ct]; repeat split; try discriminate; repeat constructor; discriminate.
  split; [left; discriminate|]. split; [left; discriminate|]. split; [|split; vm_compute; reflexivity].
  intros x y X Y. assert (y = 0) as -> by lia. assert (x = 0 \/ x = 1) as [-> | ->] by lia; vm_compute; discriminate.
Qed.
