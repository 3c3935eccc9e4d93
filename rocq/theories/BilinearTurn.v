(** Bilinear resizing: rows and columns. *)
From Coq Require Import Reals Lra Lia.
From Flocq Require Import Core.
From Verif Require Import Base PngFilterModel PngPaletteModel F32Model F32Proofs ResizeModel ResizeSpec ResizeProofs PropResize BilinearGrid NearestMoreSpec.
Open Scope Z_scope.

Lemma along_in src dst d : 1 <= src <= 2 ^ 24 -> 1 <= dst <= 2 ^ 24 -> 0 <= d < dst -> (0 <= along src dst d < IZR src)%R.
Proof.
  intros S D X. destruct (lprod_near src dst d S D X) as (A & _ & _). rewrite minus_IZR in A. lra.
Qed.
Lemma surface_turn a b w h bpp c s t : transposed a b w h bpp -> 0 <= c < bpp -> (0 <= s < IZR w)%R -> (0 <= t < IZR h)%R ->
  surface b h w bpp c t s = surface a w h bpp c s t.
Proof.
  intros T C S U. destruct (floor_in w s S) as [KS _]. destruct (floor_in h t U) as [KT _]. unfold surface, interp. cbv zeta.
  set (i := Zfloor s) in *. set (j := Zfloor t) in *. set (i' := Z.min (i + 1) (w - 1)). set (j' := Z.min (j + 1) (h - 1)).
  assert (0 <= i' < w) as KS' by (unfold i'; lia). assert (0 <= j' < h) as KT' by (unfold j'; lia).
  rewrite (T i j c KS KT C), (T i' j c KS' KT C), (T i j' c KS KT' C), (T i' j' c KS' KT' C). ring.
Qed.
Lemma turned_bilinear_l sin a b o : resizable o a -> resizable (turned o) b -> r_algo o = Bilinear -> r_sw o + r_sh o <= 8192 ->
  let bpp := bytes_per_pixel (r_ct o) in transposed a b (r_sw o) (r_sh o) bpp ->
  exists out_a out_b, resize sin a o = Ok out_a /\ resize sin b (turned o) = Ok out_b /\
    forall x y c, 0 <= x < r_dw o -> 0 <= y < r_dh o -> 0 <= c < bpp ->
      Z.abs (px out_b (r_dh o) bpp y x c - px out_a (r_dw o) bpp x y c) <= 1.
Proof.
  intros RA RB A S bpp T. pose proof RA as (R1 & R2 & R3 & R4 & _).
  destruct (bilinear_resize_partial sin a o RA A) as (oa & Ea & _ & _ & Pa); [left; lia|left; lia|].
  destruct (bilinear_resize_partial sin b (turned o) RB A) as (ob & Eb & _ & _ & Pb); [left; cbn [turned r_sw]; lia|left; cbn [turned r_sh]; lia|].
  exists oa, ob. split; [exact Ea|]. split; [exact Eb|]. intros x y c X Y C. cbn [turned r_sw r_sh r_dw r_dh r_ct] in Pb.
  destruct (Pa x y c X Y C) as [Qa _]. destruct (Pb y x c Y X C) as [Qb _]. fold bpp in Qa, Qb.
  rewrite (surface_turn a b (r_sw o) (r_sh o) bpp c _ _ T C (along_in _ _ _ R1 R3 X) (along_in _ _ _ R2 R4 Y)) in Qb.
  rewrite bpow_22 in Qa, Qb. rewrite (Z.add_comm (r_sh o)) in Qb.
  assert (IZR (r_sw o + r_sh o) <= 8192)%R as B by (apply IZR_le; lia). apply Rabs_le_inv in Qa, Qb.
  set (u := px ob _ _ _ _ _) in *. set (v := px oa _ _ _ _ _) in *. set (f := surface _ _ _ _ _ _ _) in *. set (n := IZR (r_sw o + r_sh o)) in *. clearbody u v f n.
  assert (IZR (-2) < IZR (u - v) < IZR 2)%R as [D1 D2] by (rewrite minus_IZR; lra). apply lt_IZR in D1, D2. lia.
Qed.
