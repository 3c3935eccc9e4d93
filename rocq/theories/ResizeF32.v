(** The f32 rounding functions used by resize.rs, in terms of real numbers. *)
From Coq Require Import Reals Lra.
From Flocq Require Import Core Relative BinarySingleNaN.
From Verif Require Import Base F32Model F32Proofs ResizeModel.
Open Scope Z_scope.

(** nearest integer, halves away from zero *)
Definition rhaz (r : R) : Z := if Rle_bool 0 r then Zfloor (r + / 2) else - Zfloor (- r + / 2).
Lemma rhaz_IZR n : rhaz (IZR n) = n.
Proof.
  unfold rhaz. destruct (Rle_bool_spec 0 (IZR n)).
  - apply Zfloor_imp. rewrite plus_IZR. lra.
  - rewrite <- opp_IZR. rewrite (Zfloor_imp (- n)); [lia|]. rewrite plus_IZR. lra.
Qed.
Lemma rhaz_le x y : (x <= y)%R -> rhaz x <= rhaz y.
Proof.
  intro H. unfold rhaz. destruct (Rle_bool_spec 0 x); destruct (Rle_bool_spec 0 y); try lra.
  - apply Zfloor_le. lra.
  - assert (0 <= Zfloor (- x + / 2)) by (apply Zfloor_lub; lra). assert (0 <= Zfloor (y + / 2)) by (apply Zfloor_lub; lra). lia.
  - assert (Zfloor (- y + / 2) <= Zfloor (- x + / 2)) by (apply Zfloor_le; lra). lia.
Qed.
Lemma rhaz_near x : (Rabs (IZR (rhaz x) - x) <= / 2)%R.
Proof.
  unfold rhaz. destruct (Rle_bool_spec 0 x).
  - pose proof (Zfloor_lb (x + / 2)). pose proof (Zfloor_ub (x + / 2)). apply Rabs_le. lra.
  - rewrite opp_IZR. pose proof (Zfloor_lb (- x + / 2)). pose proof (Zfloor_ub (- x + / 2)). apply Rabs_le. lra.
Qed.
Lemma rhaz_lt n x : (x < IZR n + / 2)%R -> rhaz x <= n.
Proof.
  intro H. pose proof (rhaz_near x) as N. apply Rabs_le_inv in N. apply Z.lt_succ_r. unfold Z.succ. apply lt_IZR. rewrite plus_IZR. lra.
Qed.
Lemma rhaz_gt n x : (IZR n - / 2 < x)%R -> n <= rhaz x.
Proof.
  intro H. pose proof (rhaz_near x) as N. apply Rabs_le_inv in N. apply Z.lt_succ_r. unfold Z.succ. apply lt_IZR. rewrite plus_IZR. lra.
Qed.

Lemma val_fin s m e : val (S754_finite s m e) = F2R (Float radix2 (cond_Zopp s (Zpos m)) e).
Proof. reflexivity. Qed.
Lemma F2R_pos m e : 0 <= e -> F2R (Float radix2 m e) = IZR (m * 2 ^ e).
Proof. intro H. unfold F2R. cbn [Fnum Fexp]. rewrite mult_IZR. f_equal. rewrite <- IZR_Zpower by auto. reflexivity. Qed.
Lemma F2R_neg m e : e < 0 -> F2R (Float radix2 m e) = (IZR m / IZR (2 ^ (- e)))%R.
Proof.
  intro H. unfold F2R. cbn [Fnum Fexp]. unfold Rdiv. f_equal. replace e with (- (- e)) at 1 by lia. rewrite bpow_opp. f_equal.
  rewrite <- IZR_Zpower by lia. reflexivity.
Qed.
Lemma pow_pos e : 0 < 2 ^ e \/ e < 0. Proof. destruct (Z.lt_ge_cases e 0); auto. left. apply Z.pow_pos_nonneg; lia. Qed.

Lemma floor_Z_ok x : fin x -> floor_Z x = Zfloor (val x).
Proof.
  intros [_ F]. destruct x as [s|s| |s m e]; try discriminate F; [symmetry; apply (Zfloor_IZR 0)|]. rewrite val_fin. cbn [floor_Z].
  destruct (Z.leb_spec 0 e) as [H|H].
  - rewrite F2R_pos, Zfloor_IZR by auto. reflexivity.
  - rewrite F2R_neg by auto. symmetry. apply Zfloor_div. pose proof (Z.pow_pos_nonneg 2 (- e)). lia.
Qed.
Lemma ceil_Z_ok x : fin x -> ceil_Z x = Zceil (val x).
Proof.
  intros [_ F]. destruct x as [s|s| |s m e]; try discriminate F; [symmetry; apply (Zceil_IZR 0)|]. rewrite val_fin. cbn [ceil_Z].
  destruct (Z.leb_spec 0 e) as [H|H].
  - rewrite F2R_pos, Zceil_IZR by auto. reflexivity.
  - rewrite F2R_neg by auto. unfold Zceil. f_equal. symmetry. rewrite <- Zfloor_div by (pose proof (Z.pow_pos_nonneg 2 (- e)); lia).
    f_equal. rewrite opp_IZR. lra.
Qed.
Lemma round_half m k : 0 < k -> Zfloor (IZR m / IZR k + / 2) = (2 * m + k) / (2 * k).
Proof.
  intro H. rewrite <- Zfloor_div by lia. f_equal. rewrite plus_IZR, !mult_IZR. assert (0 < IZR k)%R by (apply IZR_lt; lia). field. lra.
Qed.
Lemma round_Z_ok x : fin x -> round_Z x = rhaz (val x).
Proof.
  intros [_ F]. destruct x as [s|s| |s m e]; try discriminate F; [symmetry; apply (rhaz_IZR 0)|]. rewrite val_fin. cbn [round_Z].
  destruct (Z.leb_spec 0 e) as [H|H].
  - rewrite F2R_pos, rhaz_IZR by auto. destruct s; cbn [cond_Zopp]; lia.
  - rewrite F2R_neg by auto. pose proof (Z.pow_pos_nonneg 2 (- e) ltac:(lia) ltac:(lia)) as HP. assert (0 < IZR (2 ^ (- e)))%R as HR by (apply IZR_lt; lia).
    set (k := 2 ^ (- e)) in *. clearbody k. unfold rhaz.
    assert (0 < IZR (Zpos m) / IZR k)%R as HQ. { apply Rdiv_lt_0_compat; auto. apply IZR_lt. lia. }
    destruct s; cbn [cond_Zopp].
    + change (- Zpos m) with (Zneg m). replace (IZR (Zneg m) / IZR k)%R with (- (IZR (Zpos m) / IZR k))%R.
      2:{ change (Zneg m) with (- Zpos m). rewrite opp_IZR. field. lra. }
      rewrite Rle_bool_false by lra. rewrite Ropp_involutive, round_half by auto. reflexivity.
    + rewrite Rle_bool_true by lra. rewrite round_half by auto. reflexivity.
Qed.

Lemma integral_ok (g : f32 -> Z) (G : R -> Z) x : (forall x, fin x -> g x = G (val x)) -> (forall n, G (IZR n) = n) ->
  (forall a b, (a <= b)%R -> G a <= G b) -> fin x -> fin (f_integral g x) /\ val (f_integral g x) = IZR (G (val x)).
Proof.
  intros Hg HG HM F. pose proof F as [V F']. destruct x as [s|s| |s m e]; try discriminate F'.
  - split; [exact F|]. cbn [f_integral]. change (val (S754_zero s)) with (IZR 0). rewrite HG. reflexivity.
  - cbn [f_integral]. destruct (Z.leb_spec 0 e) as [H|H].
    + split; [exact F|]. rewrite val_fin, F2R_pos, HG by auto. reflexivity.
    + rewrite Hg by auto. assert (Z.abs (cond_Zopp s (Zpos m)) < 2 ^ 24) as HMm.
      { replace (Z.abs (cond_Zopp s (Zpos m))) with (Zpos m) by (destruct s; cbn [cond_Zopp]; lia).
        unfold valid_binary, bounded in V. apply andb_true_iff in V as [V _]. unfold canonical_mantissa in V. apply Zeq_bool_eq in V.
        unfold fexp, emin in V. rewrite Digits.Zpos_digits2_pos in V.
        assert (Digits.Zdigits radix2 (Zpos m) <= 24) as D by lia.
        pose proof (Digits.Zdigits_correct radix2 (Zpos m)) as [_ C]. rewrite Z.abs_eq in C by lia.
        eapply Z.lt_le_trans; [exact C|]. change (radix_val radix2) with 2. apply Z.pow_le_mono_r; lia. }
      assert (Z.abs (G (val (S754_finite s m e))) <= 2 ^ 24) as B.
      { assert (Rabs (val (S754_finite s m e)) <= IZR (2 ^ 24))%R as R1.
        { rewrite val_fin, <- F2R_Zabs. eapply Rle_trans with (F2R (Float radix2 (Z.abs (cond_Zopp s (Zpos m))) 0)).
          - unfold F2R. cbn [Fnum Fexp]. apply Rmult_le_compat_l; [apply IZR_le; lia|]. apply bpow_le. lia.
          - unfold F2R. cbn [Fnum Fexp bpow]. rewrite Rmult_1_r. apply IZR_le. lia. }
        apply Rabs_le_inv in R1 as [R1 R2]. apply HM in R1, R2. rewrite <- opp_IZR, !HG in *. lia. }
      destruct (of_Z_exact _ B) as [F2 V2]. auto.
Qed.
Lemma floor_ok x : fin x -> fin (f_floor x) /\ val (f_floor x) = IZR (Zfloor (val x)).
Proof. intro F. apply integral_ok; auto using floor_Z_ok, Zfloor_IZR. intros. apply Zfloor_le. auto. Qed.
Lemma ceil_ok x : fin x -> fin (f_ceil x) /\ val (f_ceil x) = IZR (Zceil (val x)).
Proof. intro F. apply integral_ok; auto using ceil_Z_ok, Zceil_IZR. intros. apply Zceil_le. auto. Qed.
Lemma round_ok x : fin x -> fin (f_round x) /\ val (f_round x) = IZR (rhaz (val x)).
Proof. intro F. apply integral_ok; auto using round_Z_ok, rhaz_IZR, rhaz_le. Qed.

Lemma fin_not_nan x : fin x -> is_nan x = false.
Proof. intros [_ F]. destruct x; auto; discriminate. Qed.
Lemma maximum_ok x y : fin x -> fin y -> fin (f_maximum x y) /\ val (f_maximum x y) = Rmax (val x) (val y).
Proof.
  intros A B. unfold f_maximum. rewrite !fin_not_nan by auto. rewrite lt_ok by auto. destruct (Rlt_bool_spec (val x) (val y)).
  - split; auto. rewrite Rmax_right; lra.
  - split; auto. rewrite Rmax_left; lra.
Qed.
Lemma minimum_ok x y : fin x -> fin y -> fin (f_minimum x y) /\ val (f_minimum x y) = Rmin (val x) (val y).
Proof.
  intros A B. unfold f_minimum. rewrite !fin_not_nan by auto. rewrite lt_ok by auto. destruct (Rlt_bool_spec (val y) (val x)).
  - split; auto. rewrite Rmin_right; lra.
  - split; auto. rewrite Rmin_left; lra.
Qed.
Lemma clamp_ok x lo hi : fin x -> fin lo -> fin hi -> (val lo <= val hi)%R ->
  fin (f_clamp x lo hi) /\ val (f_clamp x lo hi) = Rmin (val hi) (Rmax (val lo) (val x)).
Proof.
  intros A B C H. unfold f_clamp. rewrite (lt_ok x lo) by auto. destruct (Rlt_bool_spec (val x) (val lo)).
  - rewrite lt_ok by auto. rewrite Rlt_bool_false by lra. split; auto. rewrite Rmax_left by lra. rewrite Rmin_right; lra.
  - rewrite lt_ok by auto. rewrite (Rmax_right (val lo)) by lra. destruct (Rlt_bool_spec (val hi) (val x)).
    + split; auto. rewrite Rmin_left; lra.
    + split; auto. rewrite Rmin_right; lra.
Qed.
Lemma half_ok : fin f_half /\ val f_half = (/ 2)%R.
Proof. split; [split; reflexivity|]. change f_half with (S754_finite false 8388608 (-24)). rewrite val_fin, F2R_neg by lia. change (2 ^ (- (-24))) with 16777216. cbn [cond_Zopp]. lra. Qed.
Lemma one_ok : fin f_one /\ val f_one = 1%R.
Proof. split; [split; reflexivity|]. change f_one with (S754_finite false 8388608 (-23)). rewrite val_fin, F2R_neg by lia. change (2 ^ (- (-23))) with 8388608. cbn [cond_Zopp]. lra. Qed.
Lemma f255_ok : fin F255 /\ val F255 = 255%R.
Proof. apply (of_Z_exact 255). change (2 ^ 24) with 16777216. lia. Qed.

(** error of one rounding *)
Lemma rnd_err x k : -126 <= k -> (Rabs x <= bpow radix2 k)%R -> (Rabs (rnd x - x) <= bpow radix2 (k - 24))%R.
Proof.
  intros Hk H. eapply Rle_trans; [apply error_le_half_ulp, FLT_exp_valid; reflexivity|].
  assert (ulp radix2 (FLT_exp (-149) 24) x <= bpow radix2 (k - 23))%R as U.
  { eapply Rle_trans with (ulp radix2 (FLT_exp (-149) 24) (bpow radix2 k)).
    - apply ulp_le; [apply FLT_exp_valid; reflexivity|apply FLT_exp_monotone|]. rewrite (Rabs_pos_eq (bpow radix2 k)); auto. apply bpow_ge_0.
    - rewrite ulp_bpow. apply bpow_le. unfold FLT_exp. lia. }
  replace (k - 23) with (k - 24 + 1) in U by lia. rewrite bpow_plus_1 in U. change (IZR radix2) with 2%R in U. lra.
Qed.
