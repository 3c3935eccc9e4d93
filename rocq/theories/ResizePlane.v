(** Every channel is resized as a gray picture by itself. *)
From Coq Require Import Reals Lra Lia.
From Flocq Require Import Core.
From Verif Require Import Base PngFilterModel PngPaletteModel F32Model F32Proofs ResizeModel ResizeSpec ResizeF32 ResizeProofs ResizeTop PropResize ResizeMono ResizePlaneSpec.
Open Scope Z_scope.

Lemma plane_l sin a g o c : resizable o a -> resizable (gray_opts o) g ->
  (r_algo o = Bilinear -> inside (r_sw o) (r_dw o) /\ inside (r_sh o) (r_dh o)) ->
  let bpp := bytes_per_pixel (r_ct o) in 0 <= c < bpp -> plane_of a g (r_sw o) (r_sh o) bpp c ->
  exists out_a out_g, resize sin a o = Ok out_a /\ resize sin g (gray_opts o) = Ok out_g /\ plane_of out_a out_g (r_dw o) (r_dh o) bpp c.
Proof.
  intros RA RG IN bpp C PL. destruct (r_algo o) eqn:A.
  3:{ destruct (lanczos_resize sin) as (line & _ & EX & _ & L).
      destruct (L a o RA A) as (oa & Ea & _ & Pa). destruct (L g (gray_opts o) RG A) as (og & Eg & _ & Pg).
      exists oa, og. split; [exact Ea|]. split; [exact Eg|]. destruct RA as (H1 & H2 & H3 & H4 & _). intros x y X Y.
      cbn [gray_opts r_sw r_sh r_dw r_dh r_ct bytes_per_pixel] in Pg. fold bpp in Pa. rewrite Pa, Pg by (assumption || lia).
      apply EX; [exact H2|exact H4|exact Y|]. intros j J. apply EX; [exact H1|exact H3|exact X|]. intros i I. apply PL; assumption. }
  all: rewrite !resize_run by assumption; unfold run; cbn [gray_opts r_sw r_sh r_dw r_dh r_ct r_algo bytes_per_pixel]; rewrite A; fold bpp.
  all: destruct RA as (H1 & H2 & H3 & H4 & BA & LA); destruct RG as (_ & _ & _ & _ & BG & LG); cbn [gray_opts r_sw r_sh r_dw r_dh r_ct bytes_per_pixel] in LG; fold bpp in LA.
  all: assert (1 <= bpp) as HP by (unfold bpp; destruct (r_ct o); cbn; lia).
  - destruct (nearest_paint a (r_sw o) (r_sh o) (r_dw o) (r_dh o) bpp) as (oa & Ea & _ & _ & Pa); auto.
    destruct (nearest_paint g (r_sw o) (r_sh o) (r_dw o) (r_dh o) 1) as (og & Eg & _ & _ & Pg); auto; try lia.
    exists oa, og. split; [exact Ea|]. split; [exact Eg|]. intros x y X Y. rewrite Pa, Pg by (assumption || lia). apply PL; apply nearest_range; assumption.
  - destruct (IN eq_refl) as [I1 I2].
    destruct (bilinear_paint a (r_sw o) (r_sh o) (r_dw o) (r_dh o) bpp) as (oa & Ea & _ & _ & Pa); auto.
    destruct (bilinear_paint g (r_sw o) (r_sh o) (r_dw o) (r_dh o) 1) as (og & Eg & _ & _ & Pg); auto; try lia.
    exists oa, og. split; [exact Ea|]. split; [exact Eg|]. intros x y X Y.
    destruct (Pa x y c X Y C) as (xf & yf & F1 & F2 & B1 & B2 & V1 & V2 & ->).
    destruct (Pg x y 0 X Y ltac:(lia)) as (xf' & yf' & F1' & F2' & B1' & B2' & V1' & V2' & ->).
    destruct (bx0_in (r_sw o) (r_dw o)) with (x := x) as [KX _]; auto. destruct (by0_in (r_sh o) (r_dh o)) with (y := y) as [KY _]; auto.
    unfold bx1, by1 in *. rewrite !PL by lia.
    rewrite !linear_mix_val by (assumption || (apply znth_byte; assumption)). rewrite V1, V2, V1', V2'. reflexivity.
Qed.
