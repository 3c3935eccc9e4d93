(** The decoder's inverse DCT against the definition of ITU-T T.81 A.3.3. *)
From Coq Require Import Reals Lra.
From Verif Require Import Base PngFilterModel JpegBaseModel JpegDecModel.
Open Scope R_scope.

(** A.3.3: s(y, x) = 1/4 sum_u sum_v C_u C_v S(v, u) cos ((2x+1) u pi / 16) cos ((2y+1) v pi / 16);
    coefficient [n] of the block is S(n / 8, n mod 8) *)
Definition cfac (u : nat) : R := match u with O => / sqrt 2 | _ => 1 end.
Definition basis (u x : nat) : R := cos (INR (2 * x + 1) * INR u * PI / 16).
Definition real_idct (coefs : list Z) (x y : nat) : R :=
  / 4 * fold_right Rplus 0 (map (fun n => cfac (n mod 8) * cfac (n / 8) * IZR (znth coefs (Z.of_nat n)) * basis (n mod 8) x * basis (n / 8) y) (seq 0 64)).

Lemma sum_zero (f : nat -> R) l : (forall n, In n l -> f n = 0) -> fold_right Rplus 0 (map f l) = 0.
Proof. induction l as [|a l IH]; intros H; [reflexivity|]. cbn. rewrite H by (left; reflexivity). rewrite IH by (intros n Hn; apply H; right; exact Hn). lra. Qed.
Lemma real_one a : real_idct (0%Z :: a :: repeat 0%Z 62) 0 0 = / 4 * (/ sqrt 2 * IZR a * cos (PI / 16)).
Proof.
  unfold real_idct. f_equal. change (seq 0 64) with (0%nat :: 1%nat :: seq 2 62). cbn [map fold_right].
  rewrite sum_zero.
  - change (znth (0%Z :: a :: repeat 0%Z 62) (Z.of_nat 0)) with 0%Z. change (znth (0%Z :: a :: repeat 0%Z 62) (Z.of_nat 1)) with a.
    change (1 mod 8)%nat with 1%nat. change (1 / 8)%nat with 0%nat. unfold cfac, basis.
    replace (INR (2 * 0 + 1) * INR 0 * PI / 16) with 0 by (cbn; lra). rewrite cos_0.
    replace (INR (2 * 0 + 1) * INR 1 * PI / 16) with (PI / 16) by (cbn; lra). lra.
  - intros n Hn. apply in_seq in Hn. replace (znth (0%Z :: a :: repeat 0%Z 62) (Z.of_nat n)) with 0%Z; [lra|].
    unfold znth. rewrite Nat2Z.id. destruct n as [|[|n]]; [lia|lia|]. cbn [nth]. symmetry. apply nth_repeat.
Qed.
(** a horizontal wave of amplitude about 139 at the left edge *)
Lemma real_wave : 64 <= real_idct (0%Z :: 800%Z :: repeat 0%Z 62) 0 0.
Proof.
  rewrite real_one. assert (1 / 2 <= cos (PI / 16)) as HC.
  { rewrite <- cos_PI3. pose proof PI_RGT_0. apply cos_decr_1; lra. }
  assert (sqrt 2 <= 3 / 2) as HS.
  { apply Rsqr_incr_0_var; [|lra]. rewrite Rsqr_sqrt by lra. unfold Rsqr. lra. }
  assert (0 < sqrt 2) as HP by (apply sqrt_lt_R0; lra).
  assert (2 / 3 <= / sqrt 2) as HI.
  { replace (2 / 3) with (/ (3 / 2)) by lra. apply Rinv_le_contravar; lra. }
  assert (2 / 3 * (1 / 2) <= / sqrt 2 * cos (PI / 16)) as HM by (apply Rmult_le_compat; lra). lra.
Qed.
Theorem idct_loses_wave : exists coefs px, length coefs = 64%nat /\ Forall (fun c => -2048 <= c <= 2047)%Z coefs /\
  idct_2d coefs = Ok px /\ 64 <= Rabs (IZR (znth px 0) - (128 + real_idct coefs 0 0)).
Proof.
  exists (0%Z :: 800%Z :: repeat 0%Z 62), (repeat 128%Z 64). split; [reflexivity|]. split.
  { constructor; [lia|]. constructor; [lia|]. apply Forall_forall. intros x Hx. apply repeat_spec in Hx. subst x. lia. }
  split; [vm_compute; reflexivity|]. change (znth (repeat 128%Z 64) 0) with 128%Z. pose proof real_wave as W. rewrite Rabs_left1; lra.
Qed.
Lemma real_dc d x y : real_idct (d :: repeat 0%Z 63) x y = IZR d / 8.
Proof.
  unfold real_idct. change (seq 0 64) with (0%nat :: seq 1 63). cbn [map fold_right]. rewrite sum_zero.
  - change (znth (d :: repeat 0%Z 63) (Z.of_nat 0)) with d. change (0 mod 8)%nat with 0%nat. change (0 / 8)%nat with 0%nat. unfold cfac, basis.
    replace (INR (2 * x + 1) * INR 0 * PI / 16) with 0 by (cbn [INR]; lra). replace (INR (2 * y + 1) * INR 0 * PI / 16) with 0 by (cbn [INR]; lra). rewrite cos_0.
    assert (/ sqrt 2 * / sqrt 2 = / 2) as E by (rewrite <- Rinv_mult; rewrite sqrt_sqrt by lra; reflexivity).
    rewrite E. lra.
  - intros n Hn. apply in_seq in Hn. replace (znth (d :: repeat 0%Z 63) (Z.of_nat n)) with 0%Z; [lra|].
    unfold znth. rewrite Nat2Z.id. destruct n as [|n]; [lia|]. cbn [nth]. symmetry. apply nth_repeat.
Qed.
Lemma idct_dc_accurate d : forall x y, (Rabs (IZR (128 + (d + 4) / 8) - (128 + real_idct (d :: repeat 0%Z 63) x y)) <= / 2)%R.
Proof.
  intros x y. rewrite real_dc. rewrite plus_IZR.
  assert (-4 <= 8 * ((d + 4) / 8) - d <= 4)%Z as B by (Z.to_euclidean_division_equations; lia).
  set (q := ((d + 4) / 8)%Z) in *. clearbody q. destruct B as [B1 B2]. apply IZR_le in B1, B2. rewrite minus_IZR, mult_IZR in B1, B2.
  apply Rabs_le. lra.
Qed.
