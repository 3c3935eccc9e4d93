(** Nearest-neighbour and bilinear resizing. *)
From Coq Require Import Reals Lra.
From Flocq Require Import Core Relative BinarySingleNaN.
From Verif Require Import Base Lz77Model PngFilterModel PngPaletteModel PngFilterProofs PngPackProofs F32Model F32Proofs ResizeModel ResizeF32 ResizeSpec.
Open Scope Z_scope.

(** ** Lists filled in order *)
Lemma in_idxs i n : In i (idxs n) <-> 0 <= i < Z.of_nat n.
Proof.
  unfold idxs. rewrite in_map_iff. split.
  - intros (k & <- & H). apply in_seq in H. lia.
  - intros H. exists (Z.to_nat i). split; [lia|]. apply in_seq. lia.
Qed.
Lemma idxs_S n : idxs (S n) = idxs n ++ [Z.of_nat n].
Proof. unfold idxs. rewrite seq_S, map_app. reflexivity. Qed.
Lemma map_res_all {A B} (f : A -> res B) (g : A -> B) l : (forall x, In x l -> f x = Ok (g x)) -> map_res f l = Ok (map g l).
Proof.
  induction l as [|a l IH]; intros H; [reflexivity|]. cbn [map_res map]. rewrite H by (left; auto). cbn [rbind].
  rewrite IH by (intros; apply H; right; auto). reflexivity.
Qed.
Lemma rows_ok {A} n (f : Z -> res (list A)) g : 0 <= n -> (forall i, 0 <= i < n -> f i = Ok (g i)) -> rows n f = Ok (flat_map g (idxs (Z.to_nat n))).
Proof.
  intros Hn H. unfold rows. rewrite (map_res_all f g). { cbn [rbind]. rewrite flat_map_concat_map. reflexivity. }
  intros i Hi. apply in_idxs in Hi. apply H. lia.
Qed.
Lemma flat_zlen (g : Z -> list Z) L n : (forall i, 0 <= i < Z.of_nat n -> zlen (g i) = L) -> zlen (flat_map g (idxs n)) = Z.of_nat n * L.
Proof.
  induction n as [|n IH]; intros H; [reflexivity|]. rewrite idxs_S, flat_map_app, zlen_app, IH by (intros; apply H; lia).
  cbn [flat_map]. rewrite app_nil_r, H by lia. lia.
Qed.
Lemma znth_app_l (a b : list Z) i : 0 <= i < zlen a -> znth (a ++ b) i = znth a i.
Proof. intros H. unfold znth. apply app_nth1. unfold zlen in H. lia. Qed.
Lemma znth_app_r (a b : list Z) i : zlen a <= i -> znth (a ++ b) i = znth b (i - zlen a).
Proof. intros H. unfold znth. pose proof (zlen_nonneg a). rewrite app_nth2 by (unfold zlen in *; lia). f_equal. unfold zlen in *. lia. Qed.
Lemma flat_znth (g : Z -> list Z) L n i j : (forall i, 0 <= i < Z.of_nat n -> zlen (g i) = L) -> 0 <= i < Z.of_nat n -> 0 <= j < L ->
  znth (flat_map g (idxs n)) (i * L + j) = znth (g i) j.
Proof.
  induction n as [|n IH]; intros H Hi Hj; [lia|]. rewrite idxs_S, flat_map_app.
  assert (zlen (flat_map g (idxs n)) = Z.of_nat n * L) as E by (apply flat_zlen; intros; apply H; lia).
  destruct (Z.eq_dec i (Z.of_nat n)) as [->|Hne].
  - rewrite znth_app_r by (rewrite E; lia). rewrite E. cbn [flat_map]. rewrite app_nil_r. f_equal. lia.
  - rewrite znth_app_l by (rewrite E; nia). apply IH; auto; [intros; apply H; lia|lia].
Qed.
Lemma flat_bytes (g : Z -> list Z) n : (forall i, 0 <= i < Z.of_nat n -> bytes (g i)) -> bytes (flat_map g (idxs n)).
Proof.
  intros H. unfold bytes. apply Forall_forall. intros x Hx. apply in_flat_map in Hx as (i & Hi & Hx). apply in_idxs in Hi.
  specialize (H i Hi). unfold bytes in H. rewrite Forall_forall in H. auto.
Qed.
Lemma zlist_ext (a b : list Z) : zlen a = zlen b -> (forall i, 0 <= i < zlen a -> znth a i = znth b i) -> a = b.
Proof.
  intros L H. apply (nth_ext a b 0 0); [unfold zlen in L; lia|]. intros k Hk. specialize (H (Z.of_nat k)). unfold znth in H. rewrite Nat2Z.id in H.
  apply H. unfold zlen. lia.
Qed.
(** a picture built pixel by pixel *)
Definition paint (dw dh : Z) (f : Z -> Z -> list Z) : list Z :=
  flat_map (fun y => flat_map (fun x => f x y) (idxs (Z.to_nat dw))) (idxs (Z.to_nat dh)).
Lemma paint_ok dw dh bpp f : 0 <= dw -> 0 <= dh -> 0 <= bpp -> (forall x y, 0 <= x < dw -> 0 <= y < dh -> zlen (f x y) = bpp) ->
  zlen (paint dw dh f) = dw * dh * bpp /\
  forall x y c, 0 <= x < dw -> 0 <= y < dh -> 0 <= c < bpp -> px (paint dw dh f) dw bpp x y c = znth (f x y) c.
Proof.
  intros Hw Hh Hb H. unfold paint.
  assert (forall y, 0 <= y < Z.of_nat (Z.to_nat dh) -> zlen (flat_map (fun x => f x y) (idxs (Z.to_nat dw))) = dw * bpp) as R.
  { intros y Hy. rewrite (flat_zlen _ bpp); [lia|]. intros x Hx. apply H; lia. }
  split.
  - rewrite (flat_zlen _ (dw * bpp)) by auto. nia.
  - intros x y c Hx Hy Hc. unfold px. replace ((y * dw + x) * bpp + c) with (y * (dw * bpp) + (x * bpp + c)) by lia.
    rewrite (flat_znth _ (dw * bpp)) by (auto; nia). apply (flat_znth (fun x => f x y) bpp); auto; [|lia]. intros i Hi. apply H; lia.
Qed.
Lemma paint_bytes dw dh f : (forall x y, 0 <= x < dw -> 0 <= y < dh -> bytes (f x y)) -> bytes (paint dw dh f).
Proof. intros H. apply flat_bytes. intros y Hy. apply flat_bytes. intros x Hx. apply H; lia. Qed.
(** two pictures of the same size are equal if their pixels are *)
Lemma px_ext a b w h bpp : 0 < w -> 0 <= h -> 0 < bpp -> zlen a = w * h * bpp -> zlen b = w * h * bpp ->
  (forall x y c, 0 <= x < w -> 0 <= y < h -> 0 <= c < bpp -> px a w bpp x y c = px b w bpp x y c) -> a = b.
Proof.
  intros Hw Hh Hb La Lb H. apply zlist_ext; [lia|]. intros i Hi.
  pose proof (Z.div_mod i bpp ltac:(lia)). pose proof (Z.mod_pos_bound i bpp ltac:(lia)).
  pose proof (Z.div_mod (i / bpp) w ltac:(lia)). pose proof (Z.mod_pos_bound (i / bpp) w ltac:(lia)).
  assert (0 <= i / bpp < w * h). { split; [apply Z.div_pos; lia|]. apply Z.div_lt_upper_bound; nia. }
  assert (0 <= i / bpp / w < h). { split; [apply Z.div_pos; lia|]. apply Z.div_lt_upper_bound; nia. }
  specialize (H ((i / bpp) mod w) (i / bpp / w) (i mod bpp) ltac:(lia) ltac:(lia) ltac:(lia)). unfold px in H.
  replace ((i / bpp / w * w + (i / bpp) mod w) * bpp + i mod bpp) with i in H by nia. exact H.
Qed.

(** ** Coordinates *)
Lemma pow24 : bpow radix2 24 = 16777216%R. Proof. reflexivity. Qed.
Lemma div_range a b : 0 <= a <= 2 ^ 24 -> 1 <= b <= 2 ^ 24 -> fin (f_div (f_of_Z a) (f_of_Z b)) /\
  val (f_div (f_of_Z a) (f_of_Z b)) = rnd (IZR a / IZR b) /\ (0 <= val (f_div (f_of_Z a) (f_of_Z b)) <= bpow radix2 24)%R.
Proof.
  intros Ha Hb. destruct (of_Z_exact a ltac:(lia)) as [Fa Va]. destruct (of_Z_exact b ltac:(lia)) as [Fb Vb].
  assert (1 <= IZR b)%R as B1 by (apply IZR_le; lia). assert (0 <= IZR a <= bpow radix2 24)%R as A1.
  { rewrite pow24. change (2 ^ 24) with 16777216 in Ha. split; apply IZR_le; lia. }
  assert (0 <= IZR a / IZR b <= bpow radix2 24)%R as Q.
  { split; [apply Rmult_le_pos; [lra|]; apply Rlt_le, Rinv_0_lt_compat; lra|].
    apply Rle_trans with (IZR a / 1)%R; [|lra]. unfold Rdiv. apply Rmult_le_compat_l; [lra|]. apply Rinv_le_contravar; lra. }
  destruct (div_bound (f_of_Z a) (f_of_Z b) (bpow radix2 24)) as (F & V & B); auto.
  - rewrite Vb. lra.
  - apply fmt_bpow. lia.
  - rewrite Va, Vb, Rabs_pos_eq; lra.
  - apply bpow_lt. lia.
  - rewrite Va, Vb in V. split; auto. split; auto. rewrite V. split.
    + rewrite <- (rnd_fmt 0) by apply generic_format_0. apply rnd_le. lra.
    + rewrite <- (rnd_fmt (bpow radix2 24)) by (apply fmt_bpow; lia). apply rnd_le. lra.
Qed.

(** the coordinate nearest-neighbour rounds *)
Definition ncoord (src dst d : Z) : R := rnd (rnd (rnd (IZR d + / 2) * rnd (IZR src / IZR dst)) - / 2).
Lemma nearest_at_ok src dst d : 1 <= src <= 2 ^ 24 -> 1 <= dst <= 2 ^ 24 -> 0 <= d < dst ->
  nearest_at src (f_div (f_of_Z src) (f_of_Z dst)) d = Z.min (Z.max (rhaz (ncoord src dst d)) 0) (src - 1).
Proof.
  intros Hs Hd Hx. unfold nearest_at, ncoord.
  destruct (div_range src dst ltac:(lia) ltac:(lia)) as (Fr & Vr & Br). destruct half_ok as [Fh Vh].
  destruct (of_Z_exact d ltac:(lia)) as [Fd Vd].
  assert (0 <= IZR d <= bpow radix2 24)%R as D1.
  { rewrite pow24. change (2 ^ 24) with 16777216 in *. split; apply IZR_le; lia. }
  assert (bpow radix2 25 = 2 * bpow radix2 24)%R as P25 by apply (bpow_plus_1 radix2 24).
  assert (16777216 <= bpow radix2 24)%R as P24 by (rewrite pow24; lra).
  destruct (add_bound (f_of_Z d) f_half (bpow radix2 25)) as (Fa & Va & Ba); auto.
  { apply fmt_bpow; lia. } { rewrite Vd, Vh, Rabs_pos_eq; lra. } { apply bpow_lt; lia. }
  assert (0 <= val (f_add (f_of_Z d) f_half))%R as Pa.
  { rewrite Va, Vd, Vh. rewrite <- (rnd_fmt 0) by apply generic_format_0. apply rnd_le. lra. }
  rewrite Rabs_pos_eq in Ba by auto.
  assert (bpow radix2 49 = bpow radix2 25 * bpow radix2 24)%R as P49 by apply (bpow_plus radix2 25 24).
  destruct (mul_bound (f_add (f_of_Z d) f_half) (f_div (f_of_Z src) (f_of_Z dst)) (bpow radix2 49)) as (Fm & Vm & Bm); auto.
  { apply fmt_bpow; lia. }
  { rewrite Rabs_pos_eq by (apply Rmult_le_pos; lra). rewrite P49. apply Rmult_le_compat; lra. }
  { apply bpow_lt; lia. }
  assert (bpow radix2 50 = 2 * bpow radix2 49)%R as P50 by apply (bpow_plus_1 radix2 49).
  assert (bpow radix2 24 <= bpow radix2 49)%R as P24' by (apply bpow_le; lia).
  destruct (sub_bound (f_mul (f_add (f_of_Z d) f_half) (f_div (f_of_Z src) (f_of_Z dst))) f_half (bpow radix2 50)) as (Fs & Vs & Bs); auto.
  { apply fmt_bpow; lia. } { rewrite Vh. apply Rabs_le. apply Rabs_le_inv in Bm. lra. } { apply bpow_lt; lia. }
  set (c := f_sub _ _) in *. destruct (round_ok c Fs) as [Frd Vrd].
  destruct (maximum_ok (f_round c) f_zero Frd fin_zero) as [Fmx Vmx].
  destruct (of_Z_exact (src - 1) ltac:(lia)) as [Fe Ve].
  destruct (minimum_ok (f_maximum (f_round c) f_zero) (f_of_Z (src - 1)) Fmx Fe) as [Fmn Vmn].
  unfold to_usize. rewrite to_Z_ok by (auto; lia).
  assert (val c = rnd (rnd (rnd (IZR d + / 2) * rnd (IZR src / IZR dst)) - / 2)) as Vc by (rewrite Vs, Vm, Va, Vr, Vd, Vh; reflexivity).
  rewrite Vmn, Vmx, Vrd, Ve, val_zero, Vc. set (k := rhaz _).
  assert (Rmin (Rmax (IZR k) 0) (IZR (src - 1)) = IZR (Z.min (Z.max k 0) (src - 1))) as ->.
  { assert (Rmax (IZR k) 0 = IZR (Z.max k 0)) as ->.
    { destruct (Z.max_spec k 0) as [[H ->]|[H ->]]; [apply Rmax_right|apply Rmax_left]; apply IZR_le; lia. }
    destruct (Z.min_spec (Z.max k 0) (src - 1)) as [[H ->]|[H ->]]; [apply Rmin_left|apply Rmin_right]; apply IZR_le; lia. }
  rewrite Ztrunc_IZR. change (2 ^ 24) with 16777216 in *. lia.
Qed.
Lemma nearest_range src dst d : 1 <= src <= 2 ^ 24 -> 1 <= dst <= 2 ^ 24 -> 0 <= d < dst ->
  0 <= nearest_at src (f_div (f_of_Z src) (f_of_Z dst)) d < src.
Proof. intros. rewrite nearest_at_ok by auto. lia. Qed.
Lemma rnd_pos x : (0 <= x)%R -> (0 <= rnd x)%R.
Proof. intro H. rewrite <- (rnd_fmt 0) by apply generic_format_0. apply rnd_le. auto. Qed.
Lemma quot_pos a b : 0 <= a -> 1 <= b -> (0 <= IZR a / IZR b)%R.
Proof.
  intros A B. apply Rmult_le_pos; [apply IZR_le; lia|]. apply Rlt_le, Rinv_0_lt_compat. apply IZR_lt. lia.
Qed.
Lemma nearest_mono src dst d d' : 1 <= src <= 2 ^ 24 -> 1 <= dst <= 2 ^ 24 -> 0 <= d <= d' -> d' < dst ->
  nearest_at src (f_div (f_of_Z src) (f_of_Z dst)) d <= nearest_at src (f_div (f_of_Z src) (f_of_Z dst)) d'.
Proof.
  intros Hs Hd Hx Hx'. rewrite !nearest_at_ok by (auto; lia).
  assert (rhaz (ncoord src dst d) <= rhaz (ncoord src dst d')); [|lia].
  apply rhaz_le. unfold ncoord. apply rnd_le. apply Rplus_le_compat_r. apply rnd_le. apply Rmult_le_compat_r.
  - apply rnd_pos, quot_pos; lia.
  - apply rnd_le. apply Rplus_le_compat_r. apply IZR_le. lia.
Qed.
Lemma fmt_halves k : Z.abs k < 2 ^ 24 -> fmt (IZR k / 2)%R.
Proof. intro H. replace (IZR k / 2)%R with (F2R (Float radix2 k (-1))); [apply fmt_F2R; auto; lia|]. rewrite F2R_neg by lia. reflexivity. Qed.
Lemma nearest_id n d : 1 <= n <= 2 ^ 23 -> 0 <= d < n -> nearest_at n (f_div (f_of_Z n) (f_of_Z n)) d = d.
Proof.
  intros Hn Hd. change (2 ^ 23) with 8388608 in Hn. rewrite nearest_at_ok by (change (2 ^ 24) with 16777216; lia). unfold ncoord.
  assert (IZR n / IZR n = 1)%R as -> by (field; apply IZR_neq; lia).
  assert (IZR d + / 2 = IZR (2 * d + 1) / 2)%R as E by (rewrite plus_IZR, mult_IZR; lra).
  rewrite (rnd_fmt 1) by (apply (fmt_Z 1); lia). rewrite Rmult_1_r.
  assert (fmt (IZR d + / 2)) as FM by (rewrite E; apply fmt_halves; change (2 ^ 24) with 16777216; lia).
  rewrite !(rnd_fmt (IZR d + / 2)) by auto. replace (IZR d + / 2 - / 2)%R with (IZR d) by lra.
  rewrite rnd_fmt by (apply fmt_Z; change (2 ^ 24) with 16777216; lia). rewrite rhaz_IZR. lia.
Qed.

(** distance from the exact position *)
Lemma rel_err x : (x = 0 \/ bpow radix2 (-126) <= Rabs x)%R -> (Rabs (rnd x - x) <= bpow radix2 (-24) * Rabs x)%R.
Proof.
  intros [->|H].
  - rewrite rnd_fmt by apply generic_format_0. rewrite Rminus_0_r, Rabs_R0. lra.
  - assert (Rabs (rnd x - x) <= / 2 * bpow radix2 (- 24 + 1) * Rabs x)%R as K by (apply (relative_error_N_FLT radix2 (-149) 24 ltac:(lia)); auto).
    assert (bpow radix2 (-24 + 1) = 2 * bpow radix2 (-24))%R as E by apply (bpow_plus_1 radix2 (-24)). rewrite E in K. lra.
Qed.

Lemma abs_err x B : (Rabs x <= B)%R -> (1 <= B)%R -> (Rabs (rnd x - x) <= bpow radix2 (-24) * B)%R.
Proof.
  intros H H1. pose proof (bpow_gt_0 radix2 (-24)).
  destruct (Rle_or_lt (bpow radix2 (-126)) (Rabs x)) as [L|L].
  - eapply Rle_trans; [apply rel_err; auto|]. apply Rmult_le_compat_l; lra.
  - eapply Rle_trans; [apply (rnd_err x (-126)); [lia|lra]|]. apply Rle_trans with (bpow radix2 (-24)); [apply bpow_le; lia|].
    rewrite <- (Rmult_1_r (bpow radix2 (-24))) at 1. apply Rmult_le_compat_l; lra.
Qed.
Lemma rel_range x : (bpow radix2 (-126) <= x)%R -> (x * (1 - bpow radix2 (-24)) <= rnd x <= x * (1 + bpow radix2 (-24)))%R.
Proof.
  intro H. pose proof (bpow_gt_0 radix2 (-126)). pose proof (rel_err x) as E. rewrite (Rabs_pos_eq x) in E by lra. specialize (E (or_intror H)).
  apply Rabs_le_inv in E. lra.
Qed.
Lemma quot_big a b : 1 <= a -> 1 <= b <= 2 ^ 24 -> (bpow radix2 (-24) <= IZR a / IZR b)%R.
Proof.
  intros A B. change (bpow radix2 (-24)) with (/ 16777216)%R. apply Rle_trans with (1 / IZR b)%R.
  - unfold Rdiv. rewrite Rmult_1_l. apply Rinv_le_contravar; [apply IZR_lt; lia|]. change 16777216%R with (IZR 16777216). apply IZR_le. change (2 ^ 24) with 16777216 in B. lia.
  - apply Rmult_le_compat_r; [apply Rlt_le, Rinv_0_lt_compat, IZR_lt; lia|apply IZR_le; lia].
Qed.
(** the exact product, before the final half is taken off *)
Lemma nprod_range src dst d : 1 <= src <= 2 ^ 24 -> 1 <= dst <= 2 ^ 24 -> 0 <= d < dst ->
  let M := ((IZR d + / 2) * (IZR src / IZR dst))%R in
  (0 <= M <= IZR src)%R /\
  (M * ((1 - bpow radix2 (-24)) * (1 - bpow radix2 (-24))) <= rnd (IZR d + / 2) * rnd (IZR src / IZR dst)
   <= M * ((1 + bpow radix2 (-24)) * (1 + bpow radix2 (-24))))%R /\
  (bpow radix2 (-30) <= rnd (IZR d + / 2) * rnd (IZR src / IZR dst))%R.
Proof.
  intros Hs Hd Hx M. set (u := bpow radix2 (-24)). assert (u = / 16777216)%R as U by (unfold u; reflexivity).
  assert (0 <= IZR d)%R as D0 by (apply IZR_le; lia).
  assert (IZR d + 1 <= IZR dst)%R as D1 by (rewrite <- plus_IZR; apply IZR_le; lia).
  assert (1 <= IZR src)%R as S1 by (apply IZR_le; lia).
  pose proof (quot_big src dst ltac:(lia) ltac:(lia)) as QB. fold u in QB.
  set (q := (IZR src / IZR dst)%R) in *.
  assert (q * IZR dst = IZR src)%R as QD by (unfold q; field; lra).
  assert (bpow radix2 (-126) <= u)%R as T by (apply bpow_le; lia).
  pose proof (rel_range (IZR d + / 2)%R ltac:(lra)) as R1. pose proof (rel_range q ltac:(lra)) as R2. fold u in R1, R2.
  assert (0 <= M <= IZR src)%R as MR.
  { unfold M. split; [apply Rmult_le_pos; lra|]. rewrite <- QD, (Rmult_comm q). apply Rmult_le_compat_r; lra. }
  split; [exact MR|]. split.
  - replace (M * ((1 - u) * (1 - u)))%R with (((IZR d + / 2) * (1 - u)) * (q * (1 - u)))%R by (unfold M; ring).
    replace (M * ((1 + u) * (1 + u)))%R with (((IZR d + / 2) * (1 + u)) * (q * (1 + u)))%R by (unfold M; ring).
    split; apply Rmult_le_compat; try lra; try (apply Rmult_le_pos; lra).
    + apply rnd_pos; lra.
    + apply rnd_pos; lra.
  - apply Rle_trans with (/ 4 * (u * / 2))%R.
    + assert (bpow radix2 (-30) = / 64 * u)%R as ->; [|lra]. change (bpow radix2 (-30)) with (/ 1073741824)%R. lra.
    + apply Rmult_le_compat; try lra.
      * apply Rle_trans with ((IZR d + / 2) * (1 - u))%R; [|lra]. apply Rle_trans with (/ 2 * / 2)%R; [lra|]. apply Rmult_le_compat; lra.
      * apply Rle_trans with (q * (1 - u))%R; [|lra]. apply Rmult_le_compat; lra.
Qed.
Lemma ncoord_near src dst d : 1 <= src <= 2 ^ 24 -> 1 <= dst <= 2 ^ 24 -> 0 <= d < dst ->
  (Rabs (ncoord src dst d - centre src dst d) <= IZR src * bpow radix2 (-21))%R.
Proof.
  intros Hs Hd Hx. destruct (nprod_range src dst d Hs Hd Hx) as (MR & PR & PB). unfold ncoord, centre.
  set (M := ((IZR d + / 2) * (IZR src / IZR dst))%R) in *. set (p := (rnd (IZR d + / 2) * rnd (IZR src / IZR dst))%R) in *.
  set (u := bpow radix2 (-24)) in *. assert (u = / 16777216)%R as U by (unfold u; reflexivity).
  assert (bpow radix2 (-21) = 8 * u)%R as E21 by (change (bpow radix2 (-21)) with (/ 2097152)%R; lra).
  assert (1 <= IZR src)%R as S1 by (apply IZR_le; lia).
  assert (Rabs (p - M) <= 3 * u * IZR src)%R as E1.
  { apply Rle_trans with (3 * u * M)%R; [|apply Rmult_le_compat_l; lra].
    assert (0 <= M * u)%R by (apply Rmult_le_pos; lra). assert (0 <= M * u * u <= M * u)%R.
    { split; [apply Rmult_le_pos; lra|]. rewrite <- (Rmult_1_r (M * u)) at 2. apply Rmult_le_compat_l; lra. }
    apply Rabs_le. lra. }
  assert (0 <= p)%R as P0 by (pose proof (bpow_gt_0 radix2 (-30)); lra).
  assert (bpow radix2 (-126) <= bpow radix2 (-30))%R as T by (apply bpow_le; lia).
  pose proof (rel_err p ltac:(right; rewrite Rabs_pos_eq; lra)) as E2. fold u in E2. rewrite (Rabs_pos_eq p) in E2 by auto.
  apply Rabs_le_inv in E1.
  assert (3 * u * IZR src <= / 8 * IZR src)%R as K by (apply Rmult_le_compat_r; lra).
  assert (u * p <= u * (IZR src * (9 / 8)))%R as E2' by (apply Rmult_le_compat_l; lra).
  assert (u * (IZR src * (9 / 8)) <= / 8 * IZR src)%R as K2.
  { replace (u * (IZR src * (9 / 8)))%R with (u * (9 / 8) * IZR src)%R by ring. apply Rmult_le_compat_r; lra. }
  apply Rabs_le_inv in E2.
  pose proof (abs_err (rnd p - / 2) (IZR src * 2) ltac:(apply Rabs_le; lra) ltac:(lra)) as E3. fold u in E3.
  apply Rabs_le_inv in E3. rewrite E21. apply Rabs_le. lra.
Qed.
Lemma nearest_near src dst d : 1 <= src <= 2 ^ 24 -> 1 <= dst <= 2 ^ 24 -> 0 <= d < dst ->
  (Rabs (IZR (nearest_at src (f_div (f_of_Z src) (f_of_Z dst)) d) - centre src dst d) <= / 2 + IZR src * bpow radix2 (-21))%R.
Proof.
  intros Hs Hd Hx. rewrite nearest_at_ok by auto. pose proof (ncoord_near src dst d Hs Hd Hx) as N.
  set (c := ncoord src dst d) in *. set (t := centre src dst d) in *. set (e := (IZR src * bpow radix2 (-21))%R) in *.
  assert (- / 2 <= t <= IZR src - / 2)%R as T.
  { destruct (nprod_range src dst d Hs Hd Hx) as (MR & _). unfold t, centre. lra. }
  assert (0 <= e)%R. { unfold e. apply Rmult_le_pos; [apply IZR_le; lia|apply bpow_ge_0]. }
  pose proof (rhaz_near c) as H1. apply Rabs_le_inv in N, H1. apply Rabs_le.
  destruct (Z.lt_ge_cases (rhaz c) 0) as [A|A]; [|destruct (Z.lt_ge_cases (src - 1) (rhaz c)) as [B|B]].
  - replace (Z.min (Z.max (rhaz c) 0) (src - 1)) with 0 by lia. assert (IZR (rhaz c) <= -1)%R by (apply IZR_le; lia). lra.
  - replace (Z.min (Z.max (rhaz c) 0) (src - 1)) with (src - 1) by lia. assert (IZR src <= IZR (rhaz c))%R by (apply IZR_le; lia).
    rewrite minus_IZR. lra.
  - replace (Z.min (Z.max (rhaz c) 0) (src - 1)) with (rhaz c) by lia. lra.
Qed.

(** ** Bilinear positions *)
(** as computed *)
Definition lcoord (src dst d : Z) : R := rnd (IZR d * rnd (IZR (src - 1) / IZR (dst - 1))).
Lemma linear_ratio_ok src dst d : 1 <= src <= 2 ^ 24 -> 1 <= dst <= 2 ^ 24 -> 0 <= d < dst ->
  fin (f_mul (f_of_Z d) (linear_ratio src dst)) /\ val (f_mul (f_of_Z d) (linear_ratio src dst)) = lcoord src dst d /\ (0 <= lcoord src dst d <= bpow radix2 48)%R.
Proof.
  intros Hs Hd Hx. unfold linear_ratio, lcoord. destruct (Z.ltb_spec 1 dst) as [L|L].
  - destruct (div_range (src - 1) (dst - 1) ltac:(lia) ltac:(lia)) as (Fr & Vr & Br). destruct (of_Z_exact d ltac:(lia)) as [Fd Vd].
    assert (0 <= IZR d <= bpow radix2 24)%R as D1.
    { rewrite pow24. change (2 ^ 24) with 16777216 in *. split; apply IZR_le; lia. }
    assert (bpow radix2 48 = bpow radix2 24 * bpow radix2 24)%R as P48 by apply (bpow_plus radix2 24 24).
    assert (0 <= val (f_of_Z d) * val (f_div (f_of_Z (src - 1)) (f_of_Z (dst - 1))) <= bpow radix2 48)%R as PB.
    { rewrite Vd, P48. split; [apply Rmult_le_pos; lra|apply Rmult_le_compat; lra]. }
    destruct (mul_bound (f_of_Z d) (f_div (f_of_Z (src - 1)) (f_of_Z (dst - 1))) (bpow radix2 48)) as (Fm & Vm & Bm); auto.
    { apply fmt_bpow; lia. } { rewrite Rabs_pos_eq; lra. } { apply bpow_lt; lia. }
    rewrite Vd, Vr in Vm. split; auto. split; auto. rewrite <- Vm. split; [|apply Rabs_le_inv in Bm; lra].
    rewrite Vm. apply rnd_pos. rewrite <- Vr, <- Vd. lra.
  - assert (d = 0) as -> by lia. rewrite Rmult_0_l, (rnd_fmt 0) by apply generic_format_0.
    split; [split; reflexivity|]. split; [reflexivity|]. pose proof (bpow_ge_0 radix2 48). lra.
Qed.
Lemma linear_at_ok src dst d : 1 <= src <= 2 ^ 24 -> 1 <= dst <= 2 ^ 24 -> 0 <= d < dst -> (lcoord src dst d < bpow radix2 24)%R ->
  exists f, linear_at src (linear_ratio src dst) d = (Zfloor (lcoord src dst d), Z.min (Zfloor (lcoord src dst d) + 1) (src - 1), f) /\
    fin f /\ (0 <= val f <= 1)%R /\ val f = rnd (lcoord src dst d - IZR (Zfloor (lcoord src dst d))).
Proof.
  intros Hs Hd Hx HL. destruct (linear_ratio_ok src dst d Hs Hd Hx) as (F & V & B). unfold linear_at. rewrite <- V in *. set (s := f_mul _ _) in *.
  destruct (floor_ok s F) as [Ff Vf]. unfold to_usize. rewrite to_Z_ok by (auto; lia). rewrite Vf, Ztrunc_IZR.
  pose proof (Zfloor_lb (val s)) as LB. pose proof (Zfloor_ub (val s)) as UB.
  assert (0 <= Zfloor (val s) < 2 ^ 24) as R.
  { split; [apply Zfloor_lub; lra|]. apply lt_IZR. change (IZR (2 ^ 24)) with (bpow radix2 24). lra. }
  rewrite (Z.max_r 0 (Zfloor (val s))), Z.min_r by lia. destruct (of_Z_exact (Zfloor (val s)) ltac:(lia)) as [Fz Vz].
  destruct (sub_bound s (f_of_Z (Zfloor (val s))) 1%R) as (Fs & Vs & Bs); auto.
  { apply (fmt_Z 1); lia. } { rewrite Vz. apply Rabs_le. lra. } { apply (bpow_lt 0 128). lia. }
  rewrite Vz in Vs. eexists. split; [reflexivity|]. split; auto. split; [|auto]. apply Rabs_le_inv in Bs. split; [|lra].
  rewrite Vs. apply rnd_pos. lra.
Qed.
Lemma lcoord_id n d : 1 <= n <= 2 ^ 24 -> 0 <= d < n -> lcoord n n d = IZR d.
Proof.
  intros Hn Hd. unfold lcoord. destruct (Z.eq_dec n 1) as [->|Ne].
  - assert (d = 0) as -> by lia. rewrite Rmult_0_l. apply rnd_fmt, generic_format_0.
  - assert (IZR (n - 1) / IZR (n - 1) = 1)%R as -> by (field; apply IZR_neq; lia).
    rewrite (rnd_fmt 1) by (apply (fmt_Z 1); lia). rewrite Rmult_1_r. apply rnd_fmt, fmt_Z. lia.
Qed.
Lemma lprod_near src dst d : 1 <= src <= 2 ^ 24 -> 1 <= dst <= 2 ^ 24 -> 0 <= d < dst ->
  (0 <= along src dst d <= IZR (src - 1))%R /\
  (along src dst d * (1 - bpow radix2 (-24)) <= IZR d * rnd (IZR (src - 1) / IZR (dst - 1)) <= along src dst d * (1 + bpow radix2 (-24)))%R /\
  (IZR d * rnd (IZR (src - 1) / IZR (dst - 1)) = 0 \/ bpow radix2 (-25) <= IZR d * rnd (IZR (src - 1) / IZR (dst - 1)))%R.
Proof.
  intros Hs Hd Hx. unfold along. destruct (Z.eq_dec d 0) as [->|Nd].
  { rewrite !Rmult_0_l. unfold Rdiv. rewrite !Rmult_0_l. assert (0 <= IZR (src - 1))%R by (apply IZR_le; lia). split; [lra|]. split; [lra|auto]. }
  destruct (Z.eq_dec src 1) as [->|Ns].
  { change (1 - 1) with 0. unfold Rdiv. rewrite !Rmult_0_l, Rmult_0_r, !Rmult_0_l. rewrite (rnd_fmt 0) by apply generic_format_0. rewrite Rmult_0_r.
    split; [lra|]. split; [lra|auto]. }
  pose proof (quot_big (src - 1) (dst - 1) ltac:(lia) ltac:(lia)) as QB. set (q := (IZR (src - 1) / IZR (dst - 1))%R) in *.
  assert (1 <= IZR d)%R as D0 by (apply IZR_le; lia). assert (IZR d <= IZR (dst - 1))%R as D1 by (apply IZR_le; lia).
  assert (q * IZR (dst - 1) = IZR (src - 1))%R as QD by (unfold q; field; lra).
  replace (IZR d * IZR (src - 1) / IZR (dst - 1))%R with (IZR d * q)%R by (unfold q; field; lra).
  set (u := bpow radix2 (-24)) in *. assert (u = / 16777216)%R as U by reflexivity.
  assert (bpow radix2 (-126) <= u)%R as T by (apply bpow_le; lia).
  pose proof (rel_range q ltac:(lra)) as R2. fold u in R2.
  split; [|split].
  - split; [apply Rmult_le_pos; lra|]. rewrite <- QD, (Rmult_comm q). apply Rmult_le_compat_r; lra.
  - rewrite !Rmult_assoc. split; apply Rmult_le_compat_l; lra.
  - right. apply Rle_trans with (1 * (q * (1 - u)))%R; [|apply Rmult_le_compat; lra || (apply Rmult_le_pos; lra)].
    change (bpow radix2 (-25)) with (/ 33554432)%R. apply Rle_trans with (1 * (u * / 2))%R; [lra|]. apply Rmult_le_compat_l; [lra|]. apply Rmult_le_compat; lra.
Qed.
Lemma lcoord_near src dst d : 1 <= src <= 2 ^ 24 -> 1 <= dst <= 2 ^ 24 -> 0 <= d < dst ->
  (Rabs (lcoord src dst d - along src dst d) <= IZR src * bpow radix2 (-22))%R.
Proof.
  intros Hs Hd Hx. destruct (lprod_near src dst d Hs Hd Hx) as (A & P & Q). unfold lcoord. set (p := (IZR d * _)%R) in *. set (t := along src dst d) in *.
  set (u := bpow radix2 (-24)) in *. assert (u = / 16777216)%R as U by reflexivity. change (bpow radix2 (-22)) with (/ 4194304)%R.
  assert (0 <= p)%R as P0. { destruct Q as [->|Q]; [lra|]. pose proof (bpow_ge_0 radix2 (-25)). lra. }
  assert (bpow radix2 (-126) <= bpow radix2 (-25))%R as T by (apply bpow_le; lia).
  assert (Rabs (rnd p - p) <= u * p)%R as E.
  { pose proof (rel_err p) as K. rewrite (Rabs_pos_eq p P0) in K. apply K. destruct Q; [auto|right; lra]. }
  rewrite minus_IZR in A. apply Rabs_le_inv in E.
  assert (t * u <= IZR src * u)%R by (apply Rmult_le_compat_r; lra).
  assert (u * p <= u * (IZR src * 2))%R. { apply Rmult_le_compat_l; [lra|]. apply Rle_trans with (t * (1 + u))%R; [lra|]. apply Rmult_le_compat; lra. }
  clearbody u p t. subst u. apply Rabs_le. lra.
Qed.
Lemma lcoord_inside src dst d : 1 <= src <= 2 ^ 24 -> 1 <= dst <= 2 ^ 24 -> 0 <= d < dst -> inside src dst ->
  (0 <= lcoord src dst d < IZR src)%R.
Proof.
  intros Hs Hd Hx [H| ->].
  - destruct (linear_ratio_ok src dst d Hs Hd Hx) as (_ & _ & L0). split; [lra|].
    destruct (lprod_near src dst d Hs Hd Hx) as (A & P & _). rewrite minus_IZR in A.
    assert (1 <= IZR src <= 8388608)%R as S by (change (2 ^ 23) with 8388608 in H; split; apply IZR_le; lia).
    unfold lcoord. apply Rle_lt_trans with (IZR (2 * src - 1) / 2)%R; [|rewrite minus_IZR, mult_IZR; lra].
    rewrite <- (rnd_fmt (IZR (2 * src - 1) / 2)).
    2:{ apply fmt_halves. change (2 ^ 23) with 8388608 in H. change (2 ^ 24) with 16777216. lia. }
    apply rnd_le. rewrite (minus_IZR (2 * src)), mult_IZR. change (bpow radix2 (-24)) with (/ 16777216)%R in P. lra.
  - rewrite lcoord_id by auto. split; [apply IZR_le|apply IZR_lt]; lia.
Qed.

(** ** Mixing *)
Lemma mix1 P Q X : fin P -> fin Q -> fin X -> (0 <= val P <= 256)%R -> (0 <= val Q <= 256)%R -> (0 <= val X <= 1)%R ->
  let v := f_add (f_mul P (f_sub f_one X)) (f_mul Q X) in
  fin v /\ (0 <= val v)%R /\ (Rabs (val v - (val P * (1 - val X) + val Q * val X)) <= / 8192)%R.
Proof.
  intros FP FQ FX BP BQ BX v. destruct one_ok as [F1 V1].
  destruct (sub_bound f_one X 1%R) as (Fa & Va & Ba); auto.
  { apply (fmt_Z 1); lia. } { rewrite V1. apply Rabs_le. lra. } { apply (bpow_lt 0 128). lia. }
  rewrite V1 in Va. set (a := f_sub f_one X) in *.
  assert (0 <= val a)%R as A0 by (rewrite Va; apply rnd_pos; lra). rewrite Rabs_pos_eq in Ba by auto.
  pose proof (rnd_err (1 - val X) 0 ltac:(lia) ltac:(change (bpow radix2 0) with 1%R; apply Rabs_le; lra)) as Ea. rewrite <- Va in Ea.
  change (bpow radix2 (0 - 24)) with (/ 16777216)%R in Ea.
  destruct (mul_bound P a 256%R) as (Fm & Vm & Bm); auto.
  { apply (fmt_bpow 8); lia. } { rewrite Rabs_pos_eq by (apply Rmult_le_pos; lra). replace 256%R with (256 * 1)%R by ring. apply Rmult_le_compat; lra. } { apply (bpow_lt 8 128). lia. }
  pose proof (rnd_err (val P * val a) 8 ltac:(lia)) as Em. rewrite <- Vm in Em. change (bpow radix2 (8 - 24)) with (/ 65536)%R in Em. change (bpow radix2 8) with 256%R in Em.
  specialize (Em ltac:(rewrite Rabs_pos_eq by (apply Rmult_le_pos; lra); replace 256%R with (256 * 1)%R by ring; apply Rmult_le_compat; lra)).
  destruct (mul_bound Q X 256%R) as (Fn & Vn & Bn); auto.
  { apply (fmt_bpow 8); lia. } { rewrite Rabs_pos_eq by (apply Rmult_le_pos; lra). replace 256%R with (256 * 1)%R by ring. apply Rmult_le_compat; lra. } { apply (bpow_lt 8 128). lia. }
  pose proof (rnd_err (val Q * val X) 8 ltac:(lia)) as En. rewrite <- Vn in En. change (bpow radix2 (8 - 24)) with (/ 65536)%R in En. change (bpow radix2 8) with 256%R in En.
  specialize (En ltac:(rewrite Rabs_pos_eq by (apply Rmult_le_pos; lra); replace 256%R with (256 * 1)%R by ring; apply Rmult_le_compat; lra)).
  apply Rabs_le_inv in Bm, Bn.
  destruct (add_bound (f_mul P a) (f_mul Q X) 512%R) as (Fv & Vv & Bv); auto.
  { apply (fmt_bpow 9); lia. } { apply Rabs_le. lra. } { apply (bpow_lt 9 128). lia. }
  pose proof (rnd_err (val (f_mul P a) + val (f_mul Q X)) 9 ltac:(lia)) as Ev. rewrite <- Vv in Ev. change (bpow radix2 (9 - 24)) with (/ 32768)%R in Ev. change (bpow radix2 9) with 512%R in Ev.
  specialize (Ev ltac:(apply Rabs_le; lra)). split; [exact Fv|]. fold v in Ev, Vv. split.
  { rewrite Vv. apply rnd_pos. rewrite Vm, Vn. apply Rplus_le_le_0_compat; apply rnd_pos; apply Rmult_le_pos; lra. }
  assert (Rabs (val P * val a - val P * (1 - val X)) <= / 65536)%R as Epa.
  { rewrite <- Rmult_minus_distr_l, Rabs_mult, (Rabs_pos_eq (val P)) by lra. apply Rle_trans with (256 * / 16777216)%R; [|lra].
    apply Rmult_le_compat; try lra. apply Rabs_pos. }
  apply Rabs_le_inv in Em, En, Ev, Epa. apply Rabs_le. lra.
Qed.
Lemma conv_range a b x lo hi : (lo <= a <= hi)%R -> (lo <= b <= hi)%R -> (0 <= x <= 1)%R -> (lo <= a * (1 - x) + b * x <= hi)%R.
Proof.
  intros A B X. assert (0 <= (a - lo) * (1 - x))%R by (apply Rmult_le_pos; lra). assert (0 <= (b - lo) * x)%R by (apply Rmult_le_pos; lra).
  assert (0 <= (hi - a) * (1 - x))%R by (apply Rmult_le_pos; lra). assert (0 <= (hi - b) * x)%R by (apply Rmult_le_pos; lra). lra.
Qed.
Lemma linear_mix_ok p00 p01 p10 p11 X Y : is_byte p00 -> is_byte p01 -> is_byte p10 -> is_byte p11 ->
  fin X -> fin Y -> (0 <= val X <= 1)%R -> (0 <= val Y <= 1)%R ->
  is_byte (linear_mix p00 p01 p10 p11 X Y) /\
  (Rabs (IZR (linear_mix p00 p01 p10 p11 X Y) -
    ((IZR p00 * (1 - val X) + IZR p01 * val X) * (1 - val Y) + (IZR p10 * (1 - val X) + IZR p11 * val X) * val Y)) <= / 2 + / 4096)%R.
Proof.
  unfold is_byte. intros B00 B01 B10 B11 FX FY BX BY. unfold linear_mix.
  assert (forall p, 0 <= p < 256 -> fin (f_of_Z p) /\ val (f_of_Z p) = IZR p /\ (0 <= val (f_of_Z p) <= 255)%R) as OK.
  { intros p Hp. destruct (of_Z_exact p ltac:(change (2 ^ 24) with 16777216; lia)) as [F V]. split; auto. split; auto. rewrite V. split; apply IZR_le; lia. }
  destruct (OK p00 B00) as (F00 & V00 & R00). destruct (OK p01 B01) as (F01 & V01 & R01).
  destruct (OK p10 B10) as (F10 & V10 & R10). destruct (OK p11 B11) as (F11 & V11 & R11). clear OK.
  destruct (mix1 (f_of_Z p00) (f_of_Z p01) X) as (Ft & T0 & Et); auto; try lra.
  destruct (mix1 (f_of_Z p10) (f_of_Z p11) X) as (Fb & B0 & Eb); auto; try lra.
  set (top := f_add (f_mul (f_of_Z p00) _) _) in *. set (bot := f_add (f_mul (f_of_Z p10) _) _) in *.
  pose proof (conv_range _ _ _ _ _ R00 R01 BX) as Ct. pose proof (conv_range _ _ _ _ _ R10 R11 BX) as Cb.
  rewrite V00, V01 in *. rewrite V10, V11 in *.
  set (t := (IZR p00 * (1 - val X) + IZR p01 * val X)%R) in *. set (b := (IZR p10 * (1 - val X) + IZR p11 * val X)%R) in *.
  apply Rabs_le_inv in Et, Eb.
  destruct (mix1 top bot Y) as (Fv & V0 & Ev); auto; try lra.
  set (v := f_add (f_mul top _) _) in *. pose proof (conv_range _ _ _ _ _ Ct Cb BY) as Cv.
  assert (- / 8192 <= (val top - t) * (1 - val Y) + (val bot - b) * val Y <= / 8192)%R as Cd by (apply conv_range; lra).
  destruct (round_ok v Fv) as [Fr Vr]. destruct f255_ok as [F2 V2].
  destruct (clamp_ok (f_round v) f_zero F255 Fr fin_zero F2 ltac:(rewrite val_zero, V2; lra)) as [Fc Vc].
  unfold to_u8. rewrite to_Z_ok by (auto; lia). rewrite Vc, val_zero, V2, Vr.
  assert (0 <= rhaz (val v)) as K0 by (apply rhaz_gt; lra).
  apply Rabs_le_inv in Ev.
  assert (rhaz (val v) <= 255) as K1 by (apply rhaz_lt; lra).
  assert (0 <= IZR (rhaz (val v)) <= 255)%R as K by (split; apply IZR_le; lia).
  rewrite Rmax_right, Rmin_right by lra. rewrite Ztrunc_IZR, Z.max_r, Z.min_r by lia. split; [lia|].
  pose proof (rhaz_near (val v)) as N. apply Rabs_le_inv in N. apply Rabs_le. lra.
Qed.

(** ** Interpolation *)
Lemma floor_in n s : (0 <= s < IZR n)%R -> 0 <= Zfloor s < n /\ (0 <= s - IZR (Zfloor s) < 1)%R.
Proof.
  intros H. pose proof (Zfloor_lb s). pose proof (Zfloor_ub s). split; [|lra]. split; [apply Zfloor_lub; lra|]. apply lt_IZR. lra.
Qed.
Lemma interp_range n v t lo hi : (0 <= t < IZR n)%R -> (forall k, 0 <= k < n -> (lo <= v k <= hi)%R) -> (lo <= interp n v t <= hi)%R.
Proof. intros T H. destruct (floor_in n t T) as [K F]. unfold interp. apply conv_range; try (apply H; lia). lra. Qed.
Lemma byte_diff a b k : (0 <= a <= 255)%R -> (0 <= b <= 255)%R -> 1 <= k -> (Rabs (a - b) <= 255 * IZR k)%R.
Proof. intros A B K. apply IZR_le in K. apply Rabs_le. lra. Qed.
Lemma interp_lip1 n v s t : (0 <= s)%R -> (s <= t)%R -> (t < IZR n)%R -> (forall k, 0 <= k < n -> (0 <= v k <= 255)%R) ->
  (Rabs (interp n v s - interp n v t) <= 255 * (t - s))%R.
Proof.
  intros S0 ST T1 H. destruct (floor_in n s ltac:(lra)) as [Ki Fi]. destruct (floor_in n t ltac:(lra)) as [Kj Fj]. unfold interp.
  pose proof (Zfloor_le s t ST) as IJ. set (i := Zfloor s) in *. set (j := Zfloor t) in *.
  destruct (Z.eq_dec i j) as [<-|Ne].
  - set (a := v i). set (b := v (Z.min (i + 1) (n - 1))).
    replace (a * (1 - (s - IZR i)) + b * (s - IZR i) - (a * (1 - (t - IZR i)) + b * (t - IZR i)))%R with ((a - b) * (t - s))%R by ring.
    rewrite Rabs_mult, (Rabs_pos_eq (t - s)) by lra. apply Rmult_le_compat_r; [lra|].
    rewrite <- (Rmult_1_r 255). apply (byte_diff a b 1); [apply H; lia|apply H; lia|lia].
  - replace (Z.min (i + 1) (n - 1)) with (i + 1) by lia.
    set (a := v i) in *. set (b := v (i + 1)) in *. set (c := v j) in *. set (e := v (Z.min (j + 1) (n - 1))) in *.
    assert (0 <= a <= 255)%R as A by (apply H; lia). assert (0 <= b <= 255)%R as B by (apply H; lia).
    assert (0 <= c <= 255)%R as C by (apply H; lia). assert (0 <= e <= 255)%R as E by (apply H; lia).
    set (f := (s - IZR i)%R) in *. set (g := (t - IZR j)%R) in *.
    assert (Rabs ((a - b) * (1 - f)) <= 255 * (1 - f))%R as D1.
    { rewrite Rabs_mult, (Rabs_pos_eq (1 - f)) by lra. apply Rmult_le_compat_r; [lra|apply Rabs_le; lra]. }
    assert (Rabs ((c - e) * g) <= 255 * g)%R as D3.
    { rewrite Rabs_mult, (Rabs_pos_eq g) by lra. apply Rmult_le_compat_r; [lra|apply Rabs_le; lra]. }
    assert (Rabs (b - c) <= 255 * IZR (j - i - 1))%R as D2.
    { destruct (Z.eq_dec j (i + 1)) as [Ej|Nj].
      - replace (b - c)%R with 0%R by (unfold b, c; rewrite Ej; ring). rewrite Rabs_R0. replace (j - i - 1) with 0 by lia. lra.
      - apply byte_diff; auto. lia. }
    rewrite !minus_IZR in D2. apply Rabs_le_inv in D1, D2, D3. apply Rabs_le. unfold f, g in *. lra.
Qed.
Lemma interp_lip n v s t : (0 <= s < IZR n)%R -> (0 <= t < IZR n)%R -> (forall k, 0 <= k < n -> (0 <= v k <= 255)%R) ->
  (Rabs (interp n v s - interp n v t) <= 255 * Rabs (s - t))%R.
Proof.
  intros S T H. destruct (Rle_or_lt s t) as [L|L].
  - rewrite (Rabs_left1 (s - t)) by lra. replace (- (s - t))%R with (t - s)%R by ring. apply interp_lip1; auto; lra.
  - rewrite Rabs_minus_sym, (Rabs_pos_eq (s - t)) by lra. apply interp_lip1; auto; lra.
Qed.
Lemma interp_close n v w t d : (0 <= t < IZR n)%R -> (forall k, 0 <= k < n -> (Rabs (v k - w k) <= d)%R) -> (Rabs (interp n v t - interp n w t) <= d)%R.
Proof.
  intros T H. destruct (floor_in n t T) as [K F]. unfold interp. set (f := (t - _)%R) in *.
  pose proof (H (Zfloor t) ltac:(lia)) as A. pose proof (H (Z.min (Zfloor t + 1) (n - 1)) ltac:(lia)) as B.
  apply Rabs_le_inv in A, B. pose proof (conv_range _ _ f _ _ A B ltac:(lra)) as C. apply Rabs_le. lra.
Qed.
Lemma znth_byte data i : bytes data -> is_byte (znth data i).
Proof.
  intros H. unfold znth. destruct (Nat.lt_ge_cases (Z.to_nat i) (length data)) as [L|L].
  - unfold bytes in H. rewrite Forall_forall in H. apply H. apply nth_In. auto.
  - rewrite nth_overflow by auto. unfold is_byte. lia.
Qed.
Lemma byte_R b : is_byte b -> (0 <= IZR b <= 255)%R. Proof. unfold is_byte. intro H. split; apply IZR_le; lia. Qed.
Lemma surface_lip data sw sh bpp c x y x' y' : bytes data -> (0 <= x < IZR sw)%R -> (0 <= x' < IZR sw)%R -> (0 <= y < IZR sh)%R -> (0 <= y' < IZR sh)%R ->
  (Rabs (surface data sw sh bpp c x y - surface data sw sh bpp c x' y') <= 255 * (Rabs (x - x') + Rabs (y - y')))%R.
Proof.
  intros B X X' Y Y'. unfold surface.
  assert (forall i j, (0 <= IZR (px data sw bpp i j c) <= 255)%R) as PB by (intros; apply byte_R, znth_byte, B).
  pose proof (interp_lip sh (fun j => interp sw (fun i => IZR (px data sw bpp i j c)) x) y y' Y Y') as H1.
  specialize (H1 ltac:(intros; apply interp_range; auto)).
  pose proof (interp_close sh (fun j => interp sw (fun i => IZR (px data sw bpp i j c)) x) (fun j => interp sw (fun i => IZR (px data sw bpp i j c)) x') y' (255 * Rabs (x - x')) Y') as H2.
  specialize (H2 ltac:(intros; apply interp_lip; auto)). apply Rabs_le_inv in H1, H2. apply Rabs_le. lra.
Qed.

(** ** Whole images *)
Section Image.
  Variables (data : list Z) (sw sh dw dh bpp : Z).
  Hypothesis (Hsw : 1 <= sw <= 2 ^ 24) (Hsh : 1 <= sh <= 2 ^ 24) (Hdw : 1 <= dw <= 2 ^ 24) (Hdh : 1 <= dh <= 2 ^ 24).
  Hypothesis (HB : bytes data) (Hbpp : 1 <= bpp) (HL : zlen data = sw * sh * bpp).

  Lemma index_in x y c : 0 <= x < sw -> 0 <= y < sh -> 0 <= c < bpp -> 0 <= (y * sw + x) * bpp + c < zlen data.
  Proof. intros. rewrite HL. split; [|assert (y * sw + x < sw * sh) by nia]; nia. Qed.
  Lemma get_px x y c : 0 <= x < sw -> 0 <= y < sh -> 0 <= c < bpp -> get data ((y * sw + x) * bpp + c) = Ok (px data sw bpp x y c).
  Proof. intros. apply get_znth. apply index_in; auto. Qed.

  Definition nx x := nearest_at sw (f_div (f_of_Z sw) (f_of_Z dw)) x.
  Definition ny y := nearest_at sh (f_div (f_of_Z sh) (f_of_Z dh)) y.
  Lemma nearest_paint : exists out, resize_nearest data sw sh dw dh bpp = Ok out /\ bytes out /\ zlen out = dw * dh * bpp /\
    forall x y c, 0 <= x < dw -> 0 <= y < dh -> 0 <= c < bpp -> px out dw bpp x y c = px data sw bpp (nx x) (ny y) c.
  Proof.
    set (f := fun x y => slice data ((ny y * sw + nx x) * bpp) ((ny y * sw + nx x) * bpp + bpp)).
    assert (forall x y, 0 <= x < dw -> 0 <= y < dh -> 0 <= (ny y * sw + nx x) * bpp /\ (ny y * sw + nx x) * bpp + bpp <= zlen data) as IN.
    { intros x y Hx Hy. pose proof (nearest_range sw dw x Hsw Hdw Hx) as RX. pose proof (nearest_range sh dh y Hsh Hdh Hy) as RY. fold (nx x) in RX. fold (ny y) in RY.
      pose proof (index_in (nx x) (ny y) 0 RX RY ltac:(lia)). pose proof (index_in (nx x) (ny y) (bpp - 1) RX RY ltac:(lia)). lia. }
    assert (forall x y, 0 <= x < dw -> 0 <= y < dh -> zlen (f x y) = bpp) as LF.
    { intros x y Hx Hy. destruct (IN x y Hx Hy). unfold f. rewrite slice_len; lia. }
    exists (paint dw dh f). destruct (paint_ok dw dh bpp f ltac:(lia) ltac:(lia) ltac:(lia) LF) as [L P].
    split; [|split; [|split; [exact L|]]].
    - unfold resize_nearest, paint. apply rows_ok; [lia|]. intros y Hy. apply rows_ok; [lia|]. intros x Hx.
      destruct (IN x y Hx Hy). apply slice_r_ok; unfold nx, ny in *; lia.
    - apply paint_bytes. intros. unfold f. apply slice_bytes. auto.
    - intros x y c Hx Hy Hc. rewrite P by auto. destruct (IN x y Hx Hy). unfold f. rewrite znth_slice by lia. reflexivity.
  Qed.
  Lemma nearest_same : sw = dw -> sh = dh -> sw <= 2 ^ 23 -> sh <= 2 ^ 23 -> resize_nearest data sw sh dw dh bpp = Ok data.
  Proof.
    intros E1 E2 B1 B2. destruct nearest_paint as (out & -> & _ & L & P). f_equal. apply (px_ext out data dw dh bpp); [lia|lia|lia|exact L|congruence|].
    intros x y c Hx Hy Hc. rewrite P by auto. unfold nx, ny. rewrite <- E1, <- E2, !nearest_id by lia. reflexivity.
  Qed.

  (** bilinear *)
  Hypothesis (Isw : inside sw dw) (Ish : inside sh dh).
  Definition bx0 x := Zfloor (lcoord sw dw x).
  Definition bx1 x := Z.min (bx0 x + 1) (sw - 1).
  Definition by0 y := Zfloor (lcoord sh dh y).
  Definition by1 y := Z.min (by0 y + 1) (sh - 1).
  Lemma lcoord_24 src dst d : 1 <= src <= 2 ^ 24 -> 1 <= dst <= 2 ^ 24 -> 0 <= d < dst -> inside src dst -> (lcoord src dst d < bpow radix2 24)%R.
  Proof.
    intros A B C D. pose proof (lcoord_inside src dst d A B C D) as [_ U]. eapply Rlt_le_trans; [exact U|]. rewrite pow24. change (2 ^ 24) with 16777216 in A.
    apply IZR_le. lia.
  Qed.
  Lemma bilinear_paint : exists out, resize_bilinear data sw sh dw dh bpp = Ok out /\ bytes out /\ zlen out = dw * dh * bpp /\
    forall x y c, 0 <= x < dw -> 0 <= y < dh -> 0 <= c < bpp ->
      exists xf yf, fin xf /\ fin yf /\ (0 <= val xf <= 1)%R /\ (0 <= val yf <= 1)%R /\
        val xf = rnd (lcoord sw dw x - IZR (bx0 x)) /\ val yf = rnd (lcoord sh dh y - IZR (by0 y)) /\
        px out dw bpp x y c = linear_mix (px data sw bpp (bx0 x) (by0 y) c) (px data sw bpp (bx1 x) (by0 y) c)
                                         (px data sw bpp (bx0 x) (by1 y) c) (px data sw bpp (bx1 x) (by1 y) c) xf yf.
  Proof.
    set (xf := fun x => snd (linear_at sw (linear_ratio sw dw) x)). set (yf := fun y => snd (linear_at sh (linear_ratio sh dh) y)).
    set (g := fun x y c => linear_mix (px data sw bpp (bx0 x) (by0 y) c) (px data sw bpp (bx1 x) (by0 y) c)
                                         (px data sw bpp (bx0 x) (by1 y) c) (px data sw bpp (bx1 x) (by1 y) c) (xf x) (yf y)).
    set (f := fun x y => map (g x y) (idxs (Z.to_nat bpp))).
    assert (forall x y, 0 <= x < dw -> 0 <= y < dh -> zlen (f x y) = bpp) as LF.
    { intros x y Hx Hy. unfold f, zlen, idxs. rewrite !map_length, seq_length. lia. }
    assert (forall x, 0 <= x < dw -> linear_at sw (linear_ratio sw dw) x = (bx0 x, bx1 x, xf x) /\ fin (xf x) /\ (0 <= val (xf x) <= 1)%R /\
              val (xf x) = rnd (lcoord sw dw x - IZR (bx0 x)) /\ 0 <= bx0 x < sw) as AX.
    { intros x Hx. destruct (linear_at_ok sw dw x Hsw Hdw Hx (lcoord_24 sw dw x Hsw Hdw Hx Isw)) as (fx & E & F & B & V). unfold xf. rewrite E. cbn [snd].
      pose proof (floor_in sw (lcoord sw dw x) (lcoord_inside sw dw x Hsw Hdw Hx Isw)) as [K _]. auto. }
    assert (forall y, 0 <= y < dh -> linear_at sh (linear_ratio sh dh) y = (by0 y, by1 y, yf y) /\ fin (yf y) /\ (0 <= val (yf y) <= 1)%R /\
              val (yf y) = rnd (lcoord sh dh y - IZR (by0 y)) /\ 0 <= by0 y < sh) as AY.
    { intros y Hy. destruct (linear_at_ok sh dh y Hsh Hdh Hy (lcoord_24 sh dh y Hsh Hdh Hy Ish)) as (fy & E & F & B & V). unfold yf. rewrite E. cbn [snd].
      pose proof (floor_in sh (lcoord sh dh y) (lcoord_inside sh dh y Hsh Hdh Hy Ish)) as [K _]. auto. }
    exists (paint dw dh f). destruct (paint_ok dw dh bpp f ltac:(lia) ltac:(lia) ltac:(lia) LF) as [L P].
    split; [|split; [|split; [exact L|]]].
    - unfold resize_bilinear, paint. apply rows_ok; [lia|]. intros y Hy. destruct (AY y Hy) as (EY & _ & _ & _ & RY). rewrite EY.
      apply rows_ok; [lia|]. intros x Hx. destruct (AX x Hx) as (EX & _ & _ & _ & RX). rewrite EX.
      unfold f. apply map_res_all. intros c Hc. apply in_idxs in Hc. unfold bx1, by1 in *.
      rewrite !get_px by lia. cbn [rbind]. reflexivity.
    - apply paint_bytes. intros x y Hx Hy. unfold f, bytes. apply Forall_forall. intros b Hb. apply in_map_iff in Hb as (c & <- & _).
      destruct (AX x Hx) as (_ & Fx & Bx & _). destruct (AY y Hy) as (_ & Fy & By & _). unfold g.
      apply linear_mix_ok; auto; apply znth_byte; auto.
    - intros x y c Hx Hy Hc. destruct (AX x Hx) as (_ & Fx & Bx & Vx & _). destruct (AY y Hy) as (_ & Fy & By & Vy & _).
      exists (xf x), (yf y). do 6 (split; [assumption|]). rewrite P by auto. unfold f. rewrite (znth_map_idxs (g x y)) by lia. reflexivity.
  Qed.
  Lemma bx0_in x : 0 <= x < dw -> 0 <= bx0 x < sw /\ (0 <= lcoord sw dw x - IZR (bx0 x) < 1)%R.
  Proof. intro Hx. apply floor_in, lcoord_inside; auto. Qed.
  Lemma by0_in y : 0 <= y < dh -> 0 <= by0 y < sh /\ (0 <= lcoord sh dh y - IZR (by0 y) < 1)%R.
  Proof. intro Hy. apply floor_in, lcoord_inside; auto. Qed.
  Lemma frac_err t : (0 <= t < 1)%R -> (Rabs (rnd t - t) <= / 16777216)%R.
  Proof. intros H. apply (rnd_err t 0); [lia|]. change (bpow radix2 0) with 1%R. apply Rabs_le. lra. Qed.
  Lemma mix_frac a b f g : (0 <= a <= 255)%R -> (0 <= b <= 255)%R -> (Rabs (g - f) <= / 16777216)%R ->
    (Rabs (a * (1 - g) + b * g - (a * (1 - f) + b * f)) <= 255 * / 16777216)%R.
  Proof.
    intros A B H. replace (a * (1 - g) + b * g - (a * (1 - f) + b * f))%R with ((b - a) * (g - f))%R by ring.
    rewrite Rabs_mult. apply Rmult_le_compat; auto using Rabs_pos. apply Rabs_le. lra.
  Qed.
  Lemma bilinear_near : exists out, resize_bilinear data sw sh dw dh bpp = Ok out /\ bytes out /\ zlen out = dw * dh * bpp /\
    forall x y c, 0 <= x < dw -> 0 <= y < dh -> 0 <= c < bpp ->
      (Rabs (IZR (px out dw bpp x y c) - surface data sw sh bpp c (lcoord sw dw x) (lcoord sh dh y)) <= / 2 + / 2048)%R /\
      min4 (px data sw bpp (bx0 x) (by0 y) c) (px data sw bpp (bx1 x) (by0 y) c) (px data sw bpp (bx0 x) (by1 y) c) (px data sw bpp (bx1 x) (by1 y) c)
      <= px out dw bpp x y c <=
      max4 (px data sw bpp (bx0 x) (by0 y) c) (px data sw bpp (bx1 x) (by0 y) c) (px data sw bpp (bx0 x) (by1 y) c) (px data sw bpp (bx1 x) (by1 y) c).
  Proof.
    destruct bilinear_paint as (out & E & BO & L & P). exists out. split; [exact E|]. split; [exact BO|]. split; [exact L|].
    intros x y c Hx Hy Hc. destruct (P x y c Hx Hy Hc) as (xf & yf & Fx & Fy & Bx & By & Vx & Vy & ->). clear P.
    unfold surface, interp. fold (bx0 x). fold (by0 y). fold (bx1 x). fold (by1 y).
    assert (forall i j, is_byte (px data sw bpp i j c)) as PB by (intros; apply znth_byte, HB).
    pose proof (PB (bx0 x) (by0 y)) as B00. pose proof (PB (bx1 x) (by0 y)) as B01. pose proof (PB (bx0 x) (by1 y)) as B10. pose proof (PB (bx1 x) (by1 y)) as B11. clear PB.
    set (p00 := px data sw bpp (bx0 x) (by0 y) c) in *. set (p01 := px data sw bpp (bx1 x) (by0 y) c) in *.
    set (p10 := px data sw bpp (bx0 x) (by1 y) c) in *. set (p11 := px data sw bpp (bx1 x) (by1 y) c) in *.
    destruct (linear_mix_ok p00 p01 p10 p11 xf yf) as [_ M]; auto.
    set (r := linear_mix p00 p01 p10 p11 xf yf) in *.
    destruct (bx0_in x Hx) as [_ FX]. destruct (by0_in y Hy) as [_ FY].
    set (fx := (lcoord sw dw x - IZR (bx0 x))%R) in *. set (fy := (lcoord sh dh y - IZR (by0 y))%R) in *.
    pose proof (frac_err fx FX) as EX. pose proof (frac_err fy FY) as EY. rewrite <- Vx in EX. rewrite <- Vy in EY.
    pose proof (byte_R _ B00) as R00. pose proof (byte_R _ B01) as R01. pose proof (byte_R _ B10) as R10. pose proof (byte_R _ B11) as R11.
    split.
    - pose proof (mix_frac _ _ fx (val xf) R00 R01 EX) as T1. pose proof (mix_frac _ _ fx (val xf) R10 R11 EX) as T2.
      pose proof (conv_range _ _ _ _ _ R00 R01 Bx) as Ct. pose proof (conv_range _ _ _ _ _ R10 R11 Bx) as Cb.
      set (t := (IZR p00 * (1 - val xf) + IZR p01 * val xf)%R) in *. set (b := (IZR p10 * (1 - val xf) + IZR p11 * val xf)%R) in *.
      set (t' := (IZR p00 * (1 - fx) + IZR p01 * fx)%R) in *. set (b' := (IZR p10 * (1 - fx) + IZR p11 * fx)%R) in *.
      pose proof (mix_frac t b fy (val yf) Ct Cb EY) as T3. apply Rabs_le_inv in T1, T2, T3, M.
      assert (- (255 * / 16777216) <= (t - t') * (1 - fy) + (b - b') * fy <= 255 * / 16777216)%R as T4 by (apply conv_range; lra).
      apply Rabs_le. lra.
    - unfold min4, max4. set (lo := Z.min (Z.min p00 p01) (Z.min p10 p11)). set (hi := Z.max (Z.max p00 p01) (Z.max p10 p11)).
      assert (forall p, lo <= p <= hi -> (IZR lo <= IZR p <= IZR hi)%R) as LH by (intros p [A B]; split; apply IZR_le; auto).
      pose proof (conv_range _ _ (val xf) _ _ (LH p00 ltac:(lia)) (LH p01 ltac:(lia)) Bx) as Ct.
      pose proof (conv_range _ _ (val xf) _ _ (LH p10 ltac:(lia)) (LH p11 ltac:(lia)) Bx) as Cb.
      pose proof (conv_range _ _ (val yf) _ _ Ct Cb By) as Cv. apply Rabs_le_inv in M.
      split; apply Z.lt_succ_r; unfold Z.succ; apply lt_IZR; rewrite plus_IZR; lra.
  Qed.
  Lemma bilinear_same : sw = dw -> sh = dh -> resize_bilinear data sw sh dw dh bpp = Ok data.
  Proof.
    intros E1 E2. destruct bilinear_near as (out & -> & BO & L & P). f_equal. apply (px_ext out data dw dh bpp); [lia|lia|lia|exact L|congruence|].
    intros x y c Hx Hy Hc. destruct (P x y c Hx Hy Hc) as [N _]. rewrite <- E1, <- E2, !lcoord_id in N by lia.
    unfold surface, interp in N. rewrite !Zfloor_IZR in N.
    replace (IZR x - IZR x)%R with 0%R in N by ring. replace (IZR y - IZR y)%R with 0%R in N by ring.
    rewrite !Rmult_0_r, !Rplus_0_r, Rminus_0_r, !Rmult_1_r in N. rewrite <- E1. apply Rabs_le_inv in N.
    assert (px out sw bpp x y c < px data sw bpp x y c + 1) by (apply lt_IZR; rewrite plus_IZR; lra).
    assert (px data sw bpp x y c < px out sw bpp x y c + 1) by (apply lt_IZR; rewrite plus_IZR; lra). lia.
  Qed.
End Image.
