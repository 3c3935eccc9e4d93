(** The Lanczos kernel over the reals: signs, sizes and sums over a line. *)
From Coq Require Import Reals Lra Machin Ratan.
From Flocq Require Import Core.
From Verif Require Import Base Lz77Model F32Model F32Proofs LanczosSpec ResizeSame.
Open Scope Z_scope.

Definition sc (y : R) : R := if Req_EM_T y 0 then 1%R else (sin y / y)%R.
Lemma sc_nz y : y <> 0%R -> sc y = (sin y / y)%R. Proof. intro H. unfold sc. destruct (Req_EM_T y 0); tauto. Qed.
Lemma sc_0 : sc 0 = 1%R. Proof. unfold sc. destruct (Req_EM_T 0 0); [reflexivity|lra]. Qed.
Lemma sc_neg y : sc (- y) = sc y.
Proof.
  destruct (Req_dec y 0) as [->|N]; [rewrite Ropp_0; reflexivity|]. rewrite !sc_nz by lra. rewrite sin_neg. field. auto.
Qed.
Lemma sc_abs y : sc (Rabs y) = sc y.
Proof. unfold Rabs. destruct (Rcase_abs y); [apply sc_neg|reflexivity]. Qed.
Lemma sc_le1 y : (Rabs (sc y) <= 1)%R.
Proof.
  destruct (Req_dec y 0) as [->|N]; [rewrite sc_0, Rabs_R1; lra|]. rewrite sc_nz by auto. unfold Rdiv. rewrite Rabs_mult, Rabs_inv.
  assert (0 < Rabs y)%R as P by (apply Rabs_pos_lt; auto). pose proof (sin_small y). apply (Rmult_le_reg_r (Rabs y)); auto. rewrite Rmult_assoc, Rinv_l; lra.
Qed.
Lemma sc_le_inv y : y <> 0%R -> (Rabs (sc y) <= / Rabs y)%R.
Proof.
  intro N. rewrite sc_nz by auto. unfold Rdiv. rewrite Rabs_mult, Rabs_inv. assert (0 < Rabs y)%R as P by (apply Rabs_pos_lt; auto).
  rewrite <- (Rmult_1_l (/ Rabs y)) at 2. apply Rmult_le_compat_r; [apply Rlt_le, Rinv_0_lt_compat; auto|]. pose proof (SIN_bound y). apply Rabs_le. lra.
Qed.
Lemma fact1 : INR (fact (2 * 0 + 1)) = 1%R. Proof. reflexivity. Qed.
Lemma fact3 : INR (fact (2 * 1 + 1)) = 6%R. Proof. rewrite INR_IZR_INZ. f_equal. Qed.
Lemma fact5 : INR (fact (2 * 2 + 1)) = 120%R. Proof. rewrite INR_IZR_INZ. f_equal. Qed.
Lemma fact7 : INR (fact (2 * 3 + 1)) = 5040%R. Proof. rewrite INR_IZR_INZ. f_equal. Qed.
Lemma sc_poly y : (0 <= y <= 2.3)%R -> (1 - y ^ 2 / 6 + y ^ 4 / 120 - y ^ 6 / 5040 <= sc y)%R /\ (1 - y ^ 2 / 6 <= sc y)%R.
Proof.
  intro B. destruct (Req_dec y 0) as [->|N]; [rewrite sc_0; lra|]. rewrite sc_nz by auto.
  assert (0 <= y)%R as Y0 by lra. pose proof pi_bounds as PB.
  assert (y <= PI)%R as YP by lra.
  destruct (sin_bound y 0 Y0 YP) as [L0 _]. destruct (sin_bound y 1 Y0 YP) as [L1 _].
  assert (sin_approx y 1 = y - y ^ 3 / 6)%R as E0.
  { unfold sin_approx, sum_f_R0, sin_term. rewrite fact1, fact3. cbn [Nat.mul Nat.add pow]. field. }
  assert (sin_approx y 3 = y - y ^ 3 / 6 + y ^ 5 / 120 - y ^ 7 / 5040)%R as E1.
  { unfold sin_approx, sum_f_R0, sin_term. rewrite fact1, fact3, fact5, fact7. cbn [Nat.mul Nat.add pow]. field. }
  change (2 * 0 + 1)%nat with 1%nat in L0. change (2 * 1 + 1)%nat with 3%nat in L1. rewrite E0 in L0. rewrite E1 in L1.
  split; apply (Rmult_le_reg_r y); try lra; replace (sin y / y * y)%R with (sin y) by (field; auto).
  - eapply Rle_trans; [|exact L1]. right. field.
  - eapply Rle_trans; [|exact L0]. right. field.
Qed.
Lemma sin_lip a b : (Rabs (sin a - sin b) <= Rabs (a - b))%R.
Proof.
  rewrite form4. rewrite !Rabs_mult, (Rabs_pos_eq 2) by lra. pose proof (sin_small ((a - b) / 2)) as S. pose proof (COS_bound ((a + b) / 2)) as C.
  assert (Rabs (cos ((a + b) / 2)) <= 1)%R as C1 by (apply Rabs_le; lra).
  assert (Rabs ((a - b) / 2) = Rabs (a - b) / 2)%R as E by (unfold Rdiv; rewrite Rabs_mult, (Rabs_pos_eq (/ 2)) by lra; reflexivity). rewrite E in S.
  assert (Rabs (cos ((a + b) / 2)) * Rabs (sin ((a - b) / 2)) <= 1 * (Rabs (a - b) / 2))%R by (apply Rmult_le_compat; auto using Rabs_pos). lra.
Qed.
(** relative changes of the argument *)
Lemma sc_lip m y e : (Rabs (m - y) <= e * Rabs m)%R -> y <> 0%R -> m <> 0%R -> (Rabs (sc m - sc y) <= 2 * e)%R.
Proof.
  intros H NY NM. rewrite !sc_nz by auto. assert (0 < Rabs m)%R as PM by (apply Rabs_pos_lt; auto). assert (0 < Rabs y)%R as PY by (apply Rabs_pos_lt; auto).
  replace (sin m / m - sin y / y)%R with (((sin m - sin y) + sin y * ((y - m) * / y)) * / m)%R by (field; auto).
  rewrite Rabs_mult, Rabs_inv. apply (Rmult_le_reg_r (Rabs m)); auto. rewrite Rmult_assoc, Rinv_l, Rmult_1_r by lra.
  eapply Rle_trans; [apply Rabs_triang|]. pose proof (sin_lip m y) as L.
  assert (Rabs (sin y * ((y - m) * / y)) <= Rabs (m - y))%R as K.
  { rewrite !Rabs_mult, Rabs_inv, (Rabs_minus_sym y m). pose proof (sin_small y) as S. pose proof (Rabs_pos (m - y)).
    apply Rle_trans with (Rabs y * (Rabs (m - y) * / Rabs y))%R; [|right; field; lra]. apply Rmult_le_compat_r; auto.
    apply Rmult_le_pos; auto. apply Rlt_le, Rinv_0_lt_compat; auto. }
  lra.
Qed.

(** ** The kernel *)
Lemma lz_sc x : (Rabs x < 3)%R -> lanczos3 x = (sc (PI * x) * sc (PI * x / 3))%R.
Proof.
  intro H. pose proof pi_bounds as PB. unfold lanczos3. destruct (Req_EM_T x 0) as [->|N].
  - replace (PI * 0 / 3)%R with 0%R by field. rewrite Rmult_0_r, sc_0. ring.
  - destruct (Rlt_dec (Rabs x) 3); [|tauto].
    assert (PI * x <> 0)%R by (apply Rmult_integral_contrapositive; split; lra).
    rewrite !sc_nz; auto. intro Q. apply H0. lra.
Qed.
Lemma lz_out x : (3 <= Rabs x)%R -> lanczos3 x = 0%R.
Proof.
  intro H. unfold lanczos3. destruct (Req_EM_T x 0) as [->|N]; [rewrite Rabs_R0 in H; lra|]. destruct (Rlt_dec (Rabs x) 3); lra.
Qed.
Lemma lz_abs x : lanczos3 (Rabs x) = lanczos3 x.
Proof.
  destruct (Rlt_or_le (Rabs x) 3) as [H|H].
  - rewrite !lz_sc by (rewrite ?Rabs_Rabsolu; auto). pose proof pi_bounds as PB.
    replace (PI * Rabs x)%R with (Rabs (PI * x)) by (rewrite Rabs_mult, (Rabs_pos_eq PI); lra).
    replace (Rabs (PI * x) / 3)%R with (Rabs (PI * x / 3)) by (unfold Rdiv; rewrite Rabs_mult, (Rabs_pos_eq (/ 3)); lra).
    rewrite !sc_abs. reflexivity.
  - rewrite !lz_out by (rewrite ?Rabs_Rabsolu; auto). reflexivity.
Qed.
Lemma lz_le1 x : (Rabs (lanczos3 x) <= 1)%R.
Proof.
  destruct (Rlt_or_le (Rabs x) 3) as [H|H]; [|rewrite lz_out, Rabs_R0 by auto; lra]. rewrite lz_sc by auto. rewrite Rabs_mult.
  pose proof (sc_le1 (PI * x)). pose proof (sc_le1 (PI * x / 3)). replace 1%R with (1 * 1)%R by ring. apply Rmult_le_compat; auto using Rabs_pos.
Qed.
Lemma lz_small x b : (0 < b <= Rabs x)%R -> (Rabs (lanczos3 x) <= 0.304 / b ^ 2)%R.
Proof.
  intro H. assert (0 < b ^ 2)%R as B2 by (apply pow_lt; lra).
  destruct (Rlt_or_le (Rabs x) 3) as [H3|H3]; [|rewrite lz_out, Rabs_R0 by auto; apply Rlt_le, Rdiv_lt_0_compat; lra].
  rewrite lz_sc by auto. rewrite Rabs_mult. pose proof pi_bounds as PB.
  assert (x <> 0)%R as NX by (intros ->; rewrite Rabs_R0 in H; lra).
  assert (PI * x <> 0)%R as N1 by (apply Rmult_integral_contrapositive; split; lra). assert (PI * x / 3 <> 0)%R as N2 by (intro Q; apply N1; lra).
  pose proof (sc_le_inv _ N1) as S1. pose proof (sc_le_inv _ N2) as S2.
  apply Rle_trans with (/ Rabs (PI * x) * / Rabs (PI * x / 3))%R; [apply Rmult_le_compat; auto using Rabs_pos|].
  assert (Rabs (PI * x / 3) = PI * Rabs x / 3)%R as E2 by (unfold Rdiv; rewrite !Rabs_mult, (Rabs_pos_eq PI), (Rabs_pos_eq (/ 3)); lra).
  assert (Rabs (PI * x) = PI * Rabs x)%R as E1 by (rewrite Rabs_mult, (Rabs_pos_eq PI); lra). rewrite E1, E2.
  replace (/ (PI * Rabs x) * / (PI * Rabs x / 3))%R with (3 / (PI * Rabs x) ^ 2)%R by (field; split; lra).
  assert (9.869 * b ^ 2 <= (PI * Rabs x) ^ 2)%R as K.
  { replace ((PI * Rabs x) ^ 2)%R with (PI ^ 2 * Rabs x ^ 2)%R by ring. apply Rmult_le_compat; [lra|apply pow2_ge_0| |apply pow_incr; lra].
    simpl. rewrite Rmult_1_r. apply Rle_trans with (3.1415926 * 3.1415926)%R; [lra|]. apply Rmult_le_compat; lra. }
  apply Rle_trans with (3 / (9.869 * b ^ 2))%R.
  - unfold Rdiv. apply Rmult_le_compat_l; [lra|]. apply Rinv_le_contravar; auto. apply Rmult_lt_0_compat; lra.
  - replace (3 / (9.869 * b ^ 2))%R with (3 / 9.869 * / b ^ 2)%R by (field; lra). unfold Rdiv at 2. apply Rmult_le_compat_r; [|lra]. apply Rlt_le, Rinv_0_lt_compat; auto.
Qed.
Lemma sc_pos y : (0 <= y <= PI)%R -> (0 <= sc y)%R.
Proof.
  intro H. destruct (Req_dec y 0) as [->|N]; [rewrite sc_0; lra|]. rewrite sc_nz by auto. pose proof (sin_ge_0 y ltac:(lra) ltac:(lra)).
  unfold Rdiv. apply Rmult_le_pos; auto. apply Rlt_le, Rinv_0_lt_compat; lra.
Qed.
Lemma lz_in1 x : (Rabs x <= 1)%R -> (0 <= lanczos3 x)%R.
Proof.
  intro H. rewrite <- lz_abs. rewrite lz_sc by (rewrite Rabs_Rabsolu; lra). pose proof pi_bounds as PB. pose proof (Rabs_pos x).
  assert (0 <= PI * Rabs x <= PI * 1)%R by (split; [apply Rmult_le_pos; lra|apply Rmult_le_compat_l; lra]).
  apply Rmult_le_pos; apply sc_pos; lra.
Qed.
Lemma lz_from2 x : (2 <= Rabs x)%R -> (0 <= lanczos3 x)%R.
Proof.
  intro H. destruct (Rlt_or_le (Rabs x) 3) as [H3|H3]; [|rewrite lz_out by auto; lra]. rewrite <- lz_abs. rewrite lz_sc by (rewrite Rabs_Rabsolu; lra). pose proof pi_bounds as PB.
  assert (PI * 2 <= PI * Rabs x <= PI * 3)%R as K by (split; apply Rmult_le_compat_l; lra).
  apply Rmult_le_pos; [|apply sc_pos; lra]. rewrite sc_nz by lra. apply Rmult_le_pos; [|apply Rlt_le, Rinv_0_lt_compat; lra].
  replace (sin (PI * Rabs x)) with (sin (PI * Rabs x - 2 * PI)); [apply sin_ge_0; lra|].
  rewrite sin_minus. rewrite sin_2PI, cos_2PI. ring.
Qed.
Lemma poly_dec (y z : R) : (0 <= y <= z)%R -> (z <= 2.3)%R -> (1 - z ^ 2 / 6 + z ^ 4 / 120 - z ^ 6 / 5040 <= 1 - y ^ 2 / 6 + y ^ 4 / 120 - y ^ 6 / 5040)%R.
Proof.
  intros [A B] C. assert (0 <= y ^ 2 <= z ^ 2)%R as D by (split; [apply pow2_ge_0|apply pow_incr; lra]). assert (z ^ 2 <= 5.29)%R as E by (replace 5.29%R with (2.3 ^ 2)%R by lra; apply pow_incr; lra).
  replace (z ^ 4)%R with ((z ^ 2) ^ 2)%R by ring. replace (y ^ 4)%R with ((y ^ 2) ^ 2)%R by ring. replace (z ^ 6)%R with ((z ^ 2) ^ 3)%R by ring. replace (y ^ 6)%R with ((y ^ 2) ^ 3)%R by ring.
  set (u := (y ^ 2)%R) in *. set (w := (z ^ 2)%R) in *. clearbody u w.
  assert (0 <= (w - u) * (/ 6 - (w + u) / 120 + (w ^ 2 + w * u + u ^ 2) / 5040))%R as K.
  { apply Rmult_le_pos; [lra|]. assert (0 <= w ^ 2 + w * u + u ^ 2)%R by (pose proof (pow2_ge_0 w); pose proof (pow2_ge_0 u); pose proof (Rmult_le_pos w u); lra). lra. }
  replace ((w - u) * (/ 6 - (w + u) / 120 + (w ^ 2 + w * u + u ^ 2) / 5040))%R with ((1 - u / 6 + u ^ 2 / 120 - u ^ 3 / 5040) - (1 - w / 6 + w ^ 2 / 120 - w ^ 3 / 5040))%R in K by field. lra.
Qed.
Lemma lz_near x b q : (Rabs x <= b)%R -> (0 <= b <= 0.7)%R -> (3.1415927 * b <= q <= 2.3)%R ->
  ((1 - q ^ 2 / 6 + q ^ 4 / 120 - q ^ 6 / 5040) * (1 - q ^ 2 / 54) <= lanczos3 x)%R.
Proof.
  intros H B Q. rewrite <- lz_abs. rewrite lz_sc by (rewrite Rabs_Rabsolu; lra). pose proof pi_bounds as PB. pose proof (Rabs_pos x).
  set (y := (PI * Rabs x)%R). assert (0 <= y <= q)%R as Y.
  { split; [apply Rmult_le_pos; lra|]. apply Rle_trans with (3.1415927 * b)%R; [|lra]. apply Rmult_le_compat; lra. }
  destruct (sc_poly y ltac:(lra)) as [L1 _]. destruct (sc_poly (y / 3) ltac:(lra)) as [_ L2].
  pose proof (poly_dec y q ltac:(lra) ltac:(lra)) as D.
  assert (y ^ 2 <= q ^ 2)%R as D2 by (apply pow_incr; lra).
  replace ((y / 3) ^ 2 / 6)%R with (y ^ 2 / 54)%R in L2 by field.
  assert (q ^ 2 <= 5.29)%R as E by (replace 5.29%R with (2.3 ^ 2)%R by lra; apply pow_incr; lra).
  apply Rmult_le_compat; try lra.
  pose proof (poly_dec q 2.3 ltac:(lra) ltac:(lra)). lra.
Qed.
Lemma lz_half x : (Rabs x <= / 2)%R -> (0.606 <= lanczos3 x)%R.
Proof. intro H. eapply Rle_trans; [|apply (lz_near x (/ 2) 1.5709); lra]. lra. Qed.
Lemma lz_07 x : (Rabs x <= 0.7)%R -> (0.33 <= lanczos3 x)%R.
Proof. intro H. eapply Rle_trans; [|apply (lz_near x 0.7 2.2); lra]. lra. Qed.
(** next to a nonzero integer it is nearly zero *)
Lemma lz_int x k : (Rabs (x - IZR k) <= / 4194304)%R -> 1 <= Z.abs k <= 3 -> (Rabs (lanczos3 x) <= / 3000000)%R.
Proof.
  intros H K. destruct (Rlt_or_le (Rabs x) 3) as [H3|H3]; [|rewrite lz_out, Rabs_R0 by auto; lra]. pose proof pi_bounds as PB.
  assert (0.99 <= Rabs x)%R as X1.
  { assert (1 <= Rabs (IZR k))%R by (rewrite <- abs_IZR; apply IZR_le; lia). pose proof (Rabs_triang (IZR k - x) x) as T. replace (IZR k - x + x)%R with (IZR k) in T by ring. rewrite Rabs_minus_sym in T. lra. }
  rewrite lz_sc by auto. rewrite Rabs_mult. pose proof (sc_le1 (PI * x / 3)) as S2.
  assert (Rabs (sc (PI * x)) <= / 3000000)%R as S1.
  { assert (x <> 0)%R as NX by (intros ->; rewrite Rabs_R0 in X1; lra). assert (PI * x <> 0)%R as N1 by (apply Rmult_integral_contrapositive; split; lra).
    rewrite sc_nz by auto. unfold Rdiv. rewrite Rabs_mult, Rabs_inv, (Rabs_mult PI), (Rabs_pos_eq PI) by lra.
    assert (Rabs (sin (PI * x)) <= PI * / 4194304)%R as SI.
    { replace (Rabs (sin (PI * x))) with (Rabs (sin (PI * x - IZR k * PI))).
      - eapply Rle_trans; [apply sin_small|]. replace (PI * x - IZR k * PI)%R with (PI * (x - IZR k))%R by ring. rewrite Rabs_mult, (Rabs_pos_eq PI) by lra. apply Rmult_le_compat_l; lra.
      - rewrite sin_minus. assert (sin (IZR k * PI) = 0)%R as Z by (apply sin_eq_0_1; exists k; reflexivity). rewrite Z.
        assert (cos (IZR k * PI) = 1 \/ cos (IZR k * PI) = -1)%R as [C|C].
        { pose proof (sin2_cos2 (IZR k * PI)) as Q. rewrite Z in Q. unfold Rsqr in Q. assert ((cos (IZR k * PI) - 1) * (cos (IZR k * PI) + 1) = 0)%R as Q' by lra. apply Rmult_integral in Q' as [Q'|Q']; lra. }
        + rewrite C. f_equal. ring.
        + rewrite C. rewrite <- Rabs_Ropp. f_equal. ring. }
    apply (Rmult_le_reg_r (PI * Rabs x)); [apply Rmult_lt_0_compat; lra|]. rewrite Rmult_assoc, Rinv_l, Rmult_1_r by (apply Rmult_integral_contrapositive; split; lra).
    eapply Rle_trans; [exact SI|]. assert (3.1 * 0.99 <= PI * Rabs x)%R by (apply Rmult_le_compat; lra). lra. }
  replace (/ 3000000)%R with (/ 3000000 * 1)%R by ring. apply Rmult_le_compat; auto using Rabs_pos.
Qed.
Lemma lz_0 x : (Rabs x <= / 4194304)%R -> (1 - / 3000000 <= lanczos3 x <= 1)%R.
Proof.
  intro H. split; [|pose proof (lz_le1 x) as L; apply Rabs_le_inv in L; lra]. eapply Rle_trans; [|apply (lz_near x (/ 4194304) (/ 1000000)); lra]. lra.
Qed.
