(** Nearest neighbour resizing by whole factors. *)
From Coq Require Import Reals Lra Lia.
From Flocq Require Import Core.
From Verif Require Import Base PngFilterModel PngPaletteModel F32Model F32Proofs ResizeModel ResizeSpec PropResize.
Open Scope Z_scope.

(** an integer near a position *)
Lemma near_int (f c : Z) (t e : R) : (Rabs (IZR f - t) <= / 2 + e)%R -> (IZR c - / 2 + e < t < IZR c + / 2 - e)%R -> f = c.
Proof.
  intros H B. apply Rabs_le_inv in H. assert (IZR (c - 1) < IZR f < IZR (c + 1))%R as [A1 A2] by (rewrite minus_IZR, plus_IZR; lra).
  apply lt_IZR in A1, A2. lia.
Qed.
Lemma bpow_21 : bpow radix2 (-21) = (/ 2097152)%R. Proof. reflexivity. Qed.
(** enlarging [n] by [k]: position [x] shows [x / k] *)
Lemma up_index n k x f : 1 <= n -> 1 <= k -> n * k < 2 ^ 20 -> 0 <= x < n * k ->
  (Rabs (IZR f - centre n (n * k) x) <= / 2 + IZR n * bpow radix2 (-21))%R -> f = x / k.
Proof.
  intros N K L X H. rewrite bpow_21 in H. apply (near_int f (x / k) _ _ H). unfold centre.
  pose proof (Z.div_mod x k ltac:(lia)) as D. pose proof (Z.mod_pos_bound x k ltac:(lia)) as M. set (a := x / k) in *. set (b := x mod k) in *. clearbody a b.
  assert (IZR x = IZR k * IZR a + IZR b)%R as Ex by (rewrite D, plus_IZR, mult_IZR; reflexivity).
  assert (0 < IZR n)%R as PN by (apply (IZR_lt 0); lia). assert (0 < IZR k)%R as PK by (apply (IZR_lt 0); lia).
  assert (0 <= IZR b <= IZR k - 1)%R as [B1 B2] by (split; [apply (IZR_le 0); lia|rewrite <- (minus_IZR k 1); apply IZR_le; lia]).
  assert (IZR n * IZR k < 1048576)%R as L' by (rewrite <- mult_IZR; apply IZR_lt; exact L).
  rewrite mult_IZR, Ex. replace ((IZR k * IZR a + IZR b + / 2) * (IZR n / (IZR n * IZR k)) - / 2)%R with (IZR a + (IZR b + / 2) / IZR k - / 2)%R by (field; lra).
  assert (IZR n * / 2097152 < / 2 / IZR k)%R as S.
  { apply Rmult_lt_reg_r with (IZR k); [exact PK|]. replace (/ 2 / IZR k * IZR k)%R with (/ 2)%R by (field; lra). lra. }
  assert ((IZR b + / 2) / IZR k >= / 2 / IZR k)%R by (apply Rle_ge, Rmult_le_compat_r; [apply Rlt_le, Rinv_0_lt_compat, PK|lra]).
  assert ((IZR b + / 2) / IZR k <= 1 - / 2 / IZR k)%R.
  { replace (1 - / 2 / IZR k)%R with ((IZR k - / 2) / IZR k)%R by (field; lra). apply Rmult_le_compat_r; [apply Rlt_le, Rinv_0_lt_compat, PK|lra]. }
  lra.
Qed.
(** reducing [m * k] to [m]: position [x] shows a middle pixel of its group *)
Lemma down_index m k x f : 1 <= m -> 1 <= k -> m * k < 2 ^ 20 -> 0 <= x < m ->
  (Rabs (IZR f - centre (m * k) m x) <= / 2 + IZR (m * k) * bpow radix2 (-21))%R ->
  k * x <= f < k * x + k /\ Z.abs (2 * (f - k * x) - (k - 1)) <= 1 /\ (k mod 2 = 1 -> f = k * x + k / 2).
Proof.
  intros M K L X H. rewrite bpow_21 in H. unfold centre in H.
  assert (0 < IZR m)%R as PM by (apply (IZR_lt 0); lia). assert (IZR (m * k) < 1048576)%R as L' by (apply IZR_lt; exact L).
  assert ((IZR x + / 2) * (IZR (m * k) / IZR m) - / 2 = IZR (2 * k * x + k - 1) / 2)%R as E.
  { rewrite minus_IZR, plus_IZR, !mult_IZR. field. lra. }
  rewrite E in H. apply Rabs_le_inv in H.
  assert (IZR (-2) < IZR (2 * f - (2 * k * x + k - 1)) < IZR 2)%R as [A1 A2] by (rewrite minus_IZR, mult_IZR; lra).
  apply lt_IZR in A1, A2. pose proof (Z.div_mod k 2 ltac:(lia)) as D. pose proof (Z.mod_pos_bound k 2 ltac:(lia)).
  assert (k * x = x * k) by ring. replace (2 * k * x) with (2 * (k * x)) in * by ring. set (kx := k * x) in *. clearbody kx.
  split; [|split; [lia|intros; lia]]. split; lia.
Qed.

Lemma upscale_l sin data sw sh kx ky ct : resizable (mkR sw sh (sw * kx) (sh * ky) ct Nearest) data -> 1 <= kx -> 1 <= ky -> sw * kx < 2 ^ 20 -> sh * ky < 2 ^ 20 ->
  let bpp := bytes_per_pixel ct in
  exists out, resize sin data (mkR sw sh (sw * kx) (sh * ky) ct Nearest) = Ok out /\ bytes out /\ zlen out = sw * kx * (sh * ky) * bpp /\
    forall x y c, 0 <= x < sw * kx -> 0 <= y < sh * ky -> 0 <= c < bpp -> px out (sw * kx) bpp x y c = px data sw bpp (x / kx) (y / ky) c.
Proof.
  intros R KX KY LX LY bpp. destruct (nearest_resize sin data _ R eq_refl) as (out & fx & fy & E & B & L & P & FX & FY & _). cbn [r_sw r_sh r_dw r_dh r_ct] in *.
  exists out. split; [exact E|]. split; [exact B|]. split; [exact L|]. intros x y c X Y C. rewrite P by assumption. destruct R as (R1 & R2 & _). cbn [r_sw r_sh] in *.
  f_equal; [apply (up_index sw)|apply (up_index sh)]; try lia; try apply FX; try apply FY; assumption.
Qed.
Lemma downscale_l sin data dw dh k ct : resizable (mkR (dw * k) (dh * k) dw dh ct Nearest) data -> 1 <= k -> k mod 2 = 1 -> dw * k < 2 ^ 20 -> dh * k < 2 ^ 20 ->
  let bpp := bytes_per_pixel ct in
  exists out, resize sin data (mkR (dw * k) (dh * k) dw dh ct Nearest) = Ok out /\ bytes out /\ zlen out = dw * dh * bpp /\
    forall x y c, 0 <= x < dw -> 0 <= y < dh -> 0 <= c < bpp -> px out dw bpp x y c = px data (dw * k) bpp (k * x + k / 2) (k * y + k / 2) c.
Proof.
  intros R K O LX LY bpp. destruct (nearest_resize sin data _ R eq_refl) as (out & fx & fy & E & B & L & P & FX & FY & _). cbn [r_sw r_sh r_dw r_dh r_ct] in *.
  exists out. split; [exact E|]. split; [exact B|]. split; [exact L|]. intros x y c X Y C. rewrite P by assumption. destruct R as (_ & _ & R1 & R2 & _). cbn [r_dw r_dh] in *.
  f_equal; [apply (down_index dw k x (fx x)); try lia; apply FX; assumption|apply (down_index dh k y (fy y)); try lia; apply FY; assumption].
Qed.
(** two images with the same samples are the same bytes *)
Lemma px_ext a b w h bpp : 1 <= w -> 1 <= bpp -> zlen a = w * h * bpp -> zlen b = w * h * bpp ->
  (forall x y c, 0 <= x < w -> 0 <= y < h -> 0 <= c < bpp -> px a w bpp x y c = px b w bpp x y c) -> a = b.
Proof.
  intros W B La Lb H. apply (nth_ext a b 0 0); [unfold zlen in *; lia|]. intros n Hn.
  set (i := Z.of_nat n). assert (0 <= i < w * h * bpp) as I by (unfold zlen in La; lia).
  pose proof (Z.div_mod i bpp ltac:(lia)) as D1. pose proof (Z.mod_pos_bound i bpp ltac:(lia)) as M1. pose proof (Z.div_mod (i / bpp) w ltac:(lia)) as D2. pose proof (Z.mod_pos_bound (i / bpp) w ltac:(lia)) as M2.
  assert (0 <= i / bpp < w * h) as J by (split; [apply Z.div_pos; lia|apply Z.div_lt_upper_bound; lia]).
  assert (0 <= i / bpp / w < h) as Y by (split; [apply Z.div_pos; lia|apply Z.div_lt_upper_bound; lia]).
  specialize (H ((i / bpp) mod w) (i / bpp / w) (i mod bpp) M2 Y M1). unfold px in H.
  replace ((i / bpp / w * w + (i / bpp) mod w) * bpp + i mod bpp) with i in H by lia. unfold znth, i in H. rewrite Nat2Z.id in H. exact H.
Qed.
Lemma up_down_l sin data sw sh kx ky ct : resizable (mkR sw sh (sw * kx) (sh * ky) ct Nearest) data -> 1 <= kx -> 1 <= ky -> sw * kx < 2 ^ 20 -> sh * ky < 2 ^ 20 ->
  exists big, resize sin data (mkR sw sh (sw * kx) (sh * ky) ct Nearest) = Ok big /\ resize sin big (mkR (sw * kx) (sh * ky) sw sh ct Nearest) = Ok data.
Proof.
  intros R KX KY LX LY. destruct (upscale_l sin data sw sh kx ky ct R KX KY LX LY) as (big & E & B & L & P). exists big. split; [exact E|].
  pose proof R as (R1 & R2 & R3 & R4 & R5 & R6). cbn [r_sw r_sh r_dw r_dh r_ct] in *.
  assert (resizable (mkR (sw * kx) (sh * ky) sw sh ct Nearest) big) as R' by (unfold resizable; cbn [r_sw r_sh r_dw r_dh r_ct]; auto 10).
  destruct (nearest_resize sin big _ R' eq_refl) as (out & fx & fy & E' & B' & L' & P' & FX & FY & _). cbn [r_sw r_sh r_dw r_dh r_ct] in *.
  rewrite E'. f_equal. assert (1 <= bytes_per_pixel ct) as Bp by (destruct ct; cbn; lia).
  apply (px_ext out data sw sh (bytes_per_pixel ct)); try lia. intros x y c X Y C. rewrite P' by assumption.
  destruct (FX x X) as [X1 X2]. destruct (FY y Y) as [Y1 Y2]. rewrite P by assumption.
  destruct (down_index sw kx x (fx x)) as (DX & _); try lia; auto. destruct (down_index sh ky y (fy y)) as (DY & _); try lia; auto.
  f_equal; symmetry; [apply Z.div_unique with (r := fx x - kx * x)|apply Z.div_unique with (r := fy y - ky * y)]; lia.
Qed.
