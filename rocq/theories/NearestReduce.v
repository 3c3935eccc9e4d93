(** Nearest neighbour resizing: reducing by any whole factors. *)
From Coq Require Import Reals Lra Lia.
From Flocq Require Import Core.
From Verif Require Import Base PngFilterModel PngPaletteModel F32Model F32Proofs ResizeModel ResizeF32 ResizeSpec ResizeProofs ResizeTop NearestMirrorSpec NearestMirror.
Open Scope Z_scope.

(** halves are rounded up *)
Lemma rhaz_halves n : 0 <= n -> rhaz (IZR n / 2)%R = (n + 1) / 2.
Proof.
  intros N. assert (0 <= IZR n)%R as P by (apply (IZR_le 0); exact N).
  unfold rhaz. destruct (Rle_bool_spec 0 (IZR n / 2)); [|lra].
  pose proof (Z.div_mod (n + 1) 2 ltac:(lia)) as D. pose proof (Z.mod_pos_bound (n + 1) 2 ltac:(lia)) as M.
  set (q := (n + 1) / 2) in *. set (r := (n + 1) mod 2) in *. clearbody q r.
  assert (IZR n = 2 * IZR q + IZR r - 1)%R as E by (rewrite <- mult_IZR, <- plus_IZR, <- minus_IZR; f_equal; lia).
  assert (0 <= IZR r <= 1)%R as [R0 R1] by (split; apply IZR_le; lia).
  apply Zfloor_imp. rewrite plus_IZR, E. lra.
Qed.
(** all the binary32 operations are exact *)
Lemma exact_down m k x : 1 <= m -> 1 <= k -> m * k <= 2 ^ 23 -> 0 <= x < m ->
  nearest_at (m * k) (f_div (f_of_Z (m * k)) (f_of_Z m)) x = k * x + k / 2.
Proof.
  intros M K L X. change (2 ^ 23) with 8388608 in L.
  assert (m <= m * k) as L1 by (rewrite <- (Z.mul_1_r m) at 1; apply Z.mul_le_mono_nonneg_l; lia).
  assert (k <= m * k) as L2 by (rewrite <- (Z.mul_1_l k) at 1; apply Z.mul_le_mono_nonneg_r; lia).
  assert (0 <= k * x) as X0 by (apply Z.mul_nonneg_nonneg; lia).
  assert (k * x <= m * k - k) as X1 by (replace (m * k - k) with (k * (m - 1)) by ring; apply Z.mul_le_mono_nonneg_l; lia).
  rewrite nearest_at_ok by (change (2 ^ 24) with 16777216; lia). unfold ncoord.
  assert (IZR (m * k) / IZR m = IZR k)%R as -> by (rewrite mult_IZR; field; apply IZR_neq; lia).
  rewrite (rnd_fmt (IZR k)) by (apply fmt_Z; change (2 ^ 24) with 16777216; lia).
  replace (IZR x + / 2)%R with (IZR (2 * x + 1) / 2)%R by (rewrite plus_IZR, mult_IZR; lra).
  rewrite (rnd_fmt (IZR (2 * x + 1) / 2)) by (apply fmt_halves; change (2 ^ 24) with 16777216; lia).
  replace (IZR (2 * x + 1) / 2 * IZR k)%R with (IZR (2 * (k * x) + k) / 2)%R by (rewrite !plus_IZR, !mult_IZR; lra).
  rewrite (rnd_fmt (IZR (2 * (k * x) + k) / 2)) by (apply fmt_halves; change (2 ^ 24) with 16777216; lia).
  replace (IZR (2 * (k * x) + k) / 2 - / 2)%R with (IZR (2 * (k * x) + k - 1) / 2)%R by (rewrite minus_IZR; lra).
  rewrite rnd_fmt by (apply fmt_halves; change (2 ^ 24) with 16777216; lia).
  rewrite rhaz_halves by lia. replace (2 * (k * x) + k - 1 + 1) with (k + k * x * 2) by ring. rewrite Z.div_add by lia.
  pose proof (Z.div_mod k 2 ltac:(lia)) as D. pose proof (Z.mod_pos_bound k 2 ltac:(lia)) as B. lia.
Qed.

Lemma reduce_l sin data dw dh kx ky ct : let o := mkR (dw * kx) (dh * ky) dw dh ct Nearest in resizable o data ->
  1 <= kx -> 1 <= ky -> dw * kx <= 2 ^ 23 -> dh * ky <= 2 ^ 23 ->
  let bpp := bytes_per_pixel ct in
  exists out, resize sin data o = Ok out /\ bytes out /\ zlen out = dw * dh * bpp /\
    forall x y c, 0 <= x < dw -> 0 <= y < dh -> 0 <= c < bpp -> px out dw bpp x y c = px data (dw * kx) bpp (kx * x + kx / 2) (ky * y + ky / 2) c.
Proof.
  intros o R KX KY LX LY bpp. rewrite resize_run by assumption. unfold run. destruct R as (H1 & H2 & H3 & H4 & BD & LD).
  unfold o in *. cbn [r_sw r_sh r_dw r_dh r_ct r_algo] in *. fold bpp in LD |- *.
  assert (1 <= bpp) as HP by (unfold bpp; destruct ct; cbn; lia).
  destruct (nearest_paint data (dw * kx) (dh * ky) dw dh bpp H1 H2 H3 H4 BD HP LD) as (out & E & B & L & P).
  exists out. split; [exact E|]. split; [exact B|]. split; [exact L|]. intros x y c X Y C. rewrite P by assumption.
  unfold nx, ny. rewrite !exact_down by (assumption || apply H3 || apply H4). reflexivity.
Qed.

Lemma mirror_odd_l sin a b dw dh kx ky ct : let o := mkR (dw * kx) (dh * ky) dw dh ct Nearest in let bpp := bytes_per_pixel ct in
  resizable o a -> resizable o b -> mirrored a b (dw * kx) (dh * ky) bpp -> 1 <= kx -> 1 <= ky -> kx mod 2 = 1 -> dw * kx <= 2 ^ 23 -> dh * ky <= 2 ^ 23 ->
  exists out_a out_b, resize sin a o = Ok out_a /\ resize sin b o = Ok out_b /\ mirrored out_a out_b dw dh bpp.
Proof.
  intros o bpp Ha Hb M KX KY O Lx Ly.
  destruct (reduce_l sin a dw dh kx ky ct Ha KX KY Lx Ly) as (oa & Ea & _ & _ & Pa).
  destruct (reduce_l sin b dw dh kx ky ct Hb KX KY Lx Ly) as (ob & Eb & _ & _ & Pb).
  exists oa, ob. split; [exact Ea|]. split; [exact Eb|]. intros x y c X Y C.
  rewrite Pb by assumption. rewrite Pa by (assumption || lia).
  assert (forall n k z, 1 <= k -> 0 <= z < n -> 0 <= k * z + k / 2 < n * k) as In.
  { intros n k z Hk Z. assert (0 <= k * z) by (apply Z.mul_nonneg_nonneg; lia).
    assert (k * z <= k * (n - 1)) by (apply Z.mul_le_mono_nonneg_l; lia). replace (n * k) with (k * (n - 1) + k) by ring.
    pose proof (Z.div_mod k 2 ltac:(lia)). pose proof (Z.mod_pos_bound k 2 ltac:(lia)). lia. }
  rewrite M by auto. f_equal. pose proof (odd_half kx KX O) as H. set (h := kx / 2) in *. clearbody h.
  replace (dw * kx - 1 - (kx * x + h)) with (kx * (dw - 1 - x) + (kx - 1 - h)) by ring.
  replace (kx - 1 - h) with h by lia. reflexivity.
Qed.
(** the other one of the two pixels in the middle *)
Lemma mirror_even_l sin a b dw dh kx ky ct : let o := mkR (dw * kx) (dh * ky) dw dh ct Nearest in let bpp := bytes_per_pixel ct in
  resizable o a -> resizable o b -> mirrored a b (dw * kx) (dh * ky) bpp -> 1 <= kx -> 1 <= ky -> kx mod 2 = 0 -> dw * kx <= 2 ^ 23 -> dh * ky <= 2 ^ 23 ->
  exists out_a out_b, resize sin a o = Ok out_a /\ resize sin b o = Ok out_b /\
    forall x y c, 0 <= x < dw -> 0 <= y < dh -> 0 <= c < bpp ->
      px out_a dw bpp x y c = px a (dw * kx) bpp (kx * x + kx / 2) (ky * y + ky / 2) c /\
      px out_b dw bpp (dw - 1 - x) y c = px a (dw * kx) bpp (kx * x + kx / 2 - 1) (ky * y + ky / 2) c.
Proof.
  intros o bpp Ha Hb M KX KY O Lx Ly.
  destruct (reduce_l sin a dw dh kx ky ct Ha KX KY Lx Ly) as (oa & Ea & _ & _ & Pa).
  destruct (reduce_l sin b dw dh kx ky ct Hb KX KY Lx Ly) as (ob & Eb & _ & _ & Pb).
  exists oa, ob. split; [exact Ea|]. split; [exact Eb|]. intros x y c X Y C. split; [apply Pa; assumption|].
  rewrite Pb by (assumption || lia).
  assert (forall n k z, 1 <= k -> 0 <= z < n -> 0 <= k * z + k / 2 < n * k) as In.
  { intros n k z Hk Z. assert (0 <= k * z) by (apply Z.mul_nonneg_nonneg; lia).
    assert (k * z <= k * (n - 1)) by (apply Z.mul_le_mono_nonneg_l; lia). replace (n * k) with (k * (n - 1) + k) by ring.
    pose proof (Z.div_mod k 2 ltac:(lia)). pose proof (Z.mod_pos_bound k 2 ltac:(lia)). lia. }
  assert (0 <= dw - 1 - x < dw) as X' by lia. rewrite M by auto. f_equal. pose proof (Z.div_mod kx 2 ltac:(lia)) as H. rewrite O in H. set (h := kx / 2) in *. clearbody h.
  replace (dw * kx - 1 - (kx * (dw - 1 - x) + h)) with (kx * x + (kx - 1 - h)) by ring. lia.
Qed.
