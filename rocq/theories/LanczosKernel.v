(** The computed Lanczos kernel is three times the kernel, except next to zero. *)
From Coq Require Import Reals Lra.
From Flocq Require Import Core Relative BinarySingleNaN.
From Verif Require Import Base Lz77Model PngFilterModel F32Model F32Proofs ResizeModel ResizeF32 ResizeSpec ResizeProofs ResizeLanczos ResizeSame LanczosSpec LanczosReal LanczosSum.
Open Scope Z_scope.

Lemma u24 : bpow radix2 (-24) = (/ 16777216)%R. Proof. reflexivity. Qed.
Lemma rnd_rel m z : (bpow radix2 (-60) <= Rabs m)%R -> exists z', rnd (m * z) = (m * z')%R /\ (Rabs (z' - z) <= / 16777216 * Rabs z + / 1000000000000)%R.
Proof.
  intro H. pose proof (bpow_gt_0 radix2 (-60)) as P. assert (m <> 0)%R as N by (intros ->; rewrite Rabs_R0 in H; lra).
  exists (rnd (m * z) / m)%R. split; [field; auto|].
  replace (rnd (m * z) / m - z)%R with ((rnd (m * z) - m * z) * / m)%R by (field; auto). rewrite Rabs_mult, Rabs_inv.
  assert (Rabs (rnd (m * z) - m * z) <= / 16777216 * Rabs (m * z) + bpow radix2 (-150))%R as E.
  { destruct (Rle_or_lt (bpow radix2 (-126)) (Rabs (m * z))) as [C|C].
    - pose proof (rel_err (m * z) (or_intror C)) as Q. rewrite u24 in Q. pose proof (bpow_ge_0 radix2 (-150)). lra.
    - pose proof (rnd_err (m * z) (-126) ltac:(lia) ltac:(lra)) as Q. change (-126 - 24) with (-150) in Q. pose proof (Rabs_pos (m * z)). lra. }
  assert (0 < Rabs m)%R as PM by lra.
  apply (Rmult_le_reg_r (Rabs m)); auto. rewrite Rmult_assoc, Rinv_l, Rmult_1_r by lra. eapply Rle_trans; [exact E|]. rewrite Rabs_mult.
  assert (bpow radix2 (-150) <= / 1000000000000 * Rabs m)%R as Q.
  { apply Rle_trans with (bpow radix2 (-90) * bpow radix2 (-60))%R; [rewrite <- bpow_plus; apply bpow_le; lia|]. apply Rmult_le_compat; auto using bpow_ge_0.
    apply Rle_trans with (bpow radix2 (-40)); [apply bpow_le; lia|]. change (bpow radix2 (-40)) with (/ 1099511627776)%R. lra. }
  lra.
Qed.
Lemma near_rel a b e : (Rabs (a - b) <= e)%R -> (Rabs a <= Rabs b + e)%R /\ (Rabs b - e <= Rabs a)%R.
Proof.
  intro H. pose proof (Rabs_triang (a - b) b) as T1. pose proof (Rabs_triang (b - a) a) as T2. replace (a - b + b)%R with a in T1 by ring. replace (b - a + a)%R with b in T2 by ring.
  rewrite (Rabs_minus_sym b a) in T2. lra.
Qed.
Lemma mult_near a b c d e f : (Rabs (a - b) <= e -> Rabs (c - d) <= f -> Rabs (a * c - b * d) <= e * Rabs c + Rabs b * f)%R.
Proof.
  intros H1 H2. replace (a * c - b * d)%R with ((a - b) * c + b * (c - d))%R by ring. eapply Rle_trans; [apply Rabs_triang|]. rewrite !Rabs_mult.
  apply Rplus_le_compat; [apply Rmult_le_compat_r|apply Rmult_le_compat_l]; auto using Rabs_pos.
Qed.

Section Sin.
  Variable sin : f32 -> f32.
  Hypothesis SIN : good_sine sin.

  (** the quotient of the computed sine *)
  Lemma sine_quot m : fin m -> (bpow radix2 (-60) <= Rabs (val m) <= 32)%R -> exists s, val (sin m) = (val m * s)%R /\ fin (sin m) /\ (Rabs (s - sc (val m)) <= / 4194304)%R.
  Proof.
    intros F [B1 B2]. destruct (SIN m F B2) as [Fs Es]. change (bpow radix2 (-22)) with (/ 4194304)%R in Es. pose proof (bpow_gt_0 radix2 (-60)) as P.
    assert (val m <> 0)%R as N by (intro Q; rewrite Q, Rabs_R0 in B1; lra). exists (val (sin m) / val m)%R. split; [field; auto|]. split; auto. rewrite sc_nz by auto.
    replace (val (sin m) / val m - Rtrigo_def.sin (val m) / val m)%R with ((val (sin m) - Rtrigo_def.sin (val m)) * / val m)%R by (field; auto).
    rewrite Rabs_mult, Rabs_inv. apply (Rmult_le_reg_r (Rabs (val m))); [lra|]. rewrite Rmult_assoc, Rinv_l, Rmult_1_r by lra. exact Es.
  Qed.
  (** the arithmetic of the kernel, given its angles *)
  Lemma kernel_quot m d : fin m -> fin d -> (bpow radix2 (-30) <= Rabs (val m) <= 16)%R -> (bpow radix2 (-30) <= Rabs (val d) <= 16)%R ->
    let k := f_div (f_mul (f_mul F3 (sin m)) (sin d)) (f_mul m d) in
    fin k /\ (Rabs (val k - 3 * (sc (val m) * sc (val d))) <= 24 / 10000000)%R.
  Proof.
    intros Fm Fd Bm Bd k. destruct f3_ok as [F3' V3]. pose proof (bpow_gt_0 radix2 (-30)) as P30.
    assert (bpow radix2 (-60) <= bpow radix2 (-30))%R as P60 by (apply bpow_le; lia).
    destruct (sine_quot m Fm ltac:(lra)) as (s1 & V1 & Fs1 & E1). destruct (sine_quot d Fd ltac:(lra)) as (s2 & V2 & Fs2 & E2).
    pose proof (sc_le1 (val m)) as L1. pose proof (sc_le1 (val d)) as L2.
    destruct (near_rel _ _ _ E1) as [A1 _]. destruct (near_rel _ _ _ E2) as [A2 _]. pose proof (Rabs_pos s1) as Q1. pose proof (Rabs_pos s2) as Q2.
    assert (bpow radix2 (-60) <= Rabs (val m * val d))%R as BMD.
    { rewrite Rabs_mult. change (-60) with (-30 + -30). rewrite bpow_plus. apply Rmult_le_compat; lra. }
    assert (Rabs (val m * val d) <= 256)%R as BMD2 by (rewrite Rabs_mult; replace 256%R with (16 * 16)%R by ring; apply Rmult_le_compat; auto using Rabs_pos; lra).
    (* 3 sin m *)
    destruct (mul_bound F3 (sin m) (bpow radix2 6)) as (Fa & Va & _); auto.
    { apply fmt_bpow; lia. } { rewrite V3, V1, !Rabs_mult, (Rabs_pos_eq 3) by lra. change (bpow radix2 6) with 64%R.
      assert (Rabs (val m) * Rabs s1 <= 16 * 1.1)%R by (apply Rmult_le_compat; auto using Rabs_pos; lra). lra. } { apply bpow_lt; lia. }
    rewrite V3, V1 in Va. replace (3 * (val m * s1))%R with (val m * (3 * s1))%R in Va by ring.
    destruct (rnd_rel (val m) (3 * s1) ltac:(lra)) as (a & Ra & Ea). rewrite Ra in Va. rewrite Rabs_mult, (Rabs_pos_eq 3) in Ea by lra.
    destruct (near_rel _ _ _ Ea) as [Aa _]. rewrite Rabs_mult, (Rabs_pos_eq 3) in Aa by lra. pose proof (Rabs_pos a) as Qa.
    (* times sin d *)
    assert (Rabs (a * s2) <= 3.01 * 1.001)%R as As by (rewrite Rabs_mult; apply Rmult_le_compat; lra).
    destruct (mul_bound (f_mul F3 (sin m)) (sin d) (bpow radix2 10)) as (Fb & Vb & _); auto.
    { apply fmt_bpow; lia. } { rewrite Va, V2. replace (val m * a * (val d * s2))%R with (val m * val d * (a * s2))%R by ring. rewrite Rabs_mult. change (bpow radix2 10) with 1024%R.
      apply Rle_trans with (256 * (3.01 * 1.001))%R; [apply Rmult_le_compat; auto using Rabs_pos|lra]. } { apply bpow_lt; lia. }
    rewrite Va, V2 in Vb. replace (val m * a * (val d * s2))%R with (val m * val d * (a * s2))%R in Vb by ring.
    destruct (rnd_rel (val m * val d) (a * s2) ltac:(lra)) as (b & Rb & Eb). rewrite Rb in Vb.
    (* the denominator *)
    destruct (mul_bound m d (bpow radix2 8)) as (Fe & Ve & _); auto; [apply fmt_bpow; lia|apply bpow_lt; lia|].
    replace (val m * val d)%R with (val m * val d * 1)%R in Ve by ring.
    destruct (rnd_rel (val m * val d) 1 ltac:(lra)) as (e & Re & Ee). rewrite Re in Ve. rewrite Rabs_R1 in Ee.
    assert (Rabs (e - 1) <= / 16000000)%R as Ee' by lra. apply Rabs_le_inv in Ee'.
    assert (val m * val d <> 0)%R as NMD by (intro Q; rewrite Q, Rabs_R0 in BMD; pose proof (bpow_gt_0 radix2 (-60)); lra).
    assert (val (f_mul m d) <> 0)%R as NE by (rewrite Ve; apply Rmult_integral_contrapositive; split; auto; lra).
    assert (val (f_mul (f_mul F3 (sin m)) (sin d)) / val (f_mul m d) = b / e)%R as VQ.
    { rewrite Vb, Ve. field. split; [lra|]. split; intro Q; apply NMD; rewrite Q; ring. }
    (* the quotient *)
    assert (Rabs (b - 3 * s1 * s2) <= 7 / 16777216)%R as EB.
    { replace (b - 3 * s1 * s2)%R with ((b - a * s2) + (a - 3 * s1) * s2)%R by ring. eapply Rle_trans; [apply Rabs_triang|].
      assert (Rabs ((a - 3 * s1) * s2) <= 3.01 / 16777216 * 1.001)%R as K by (rewrite Rabs_mult; apply Rmult_le_compat; auto using Rabs_pos; lra). lra. }
    assert (Rabs (3 * s1 * s2) <= 3.003)%R as QB.
    { rewrite !Rabs_mult, (Rabs_pos_eq 3) by lra. replace 3.003%R with (3 * 1 * 1.001)%R by lra. apply Rle_trans with (3 * 1.0001 * 1.0001)%R; [|lra]. apply Rmult_le_compat; lra. }
    assert (Rabs (b / e - 3 * s1 * s2) <= 11 / 16777216)%R as EQ.
    { replace (b / e - 3 * s1 * s2)%R with ((b - 3 * s1 * s2 + 3 * s1 * s2 * (1 - e)) * / e)%R by (field; lra). rewrite Rabs_mult.
      assert (Rabs (b - 3 * s1 * s2 + 3 * s1 * s2 * (1 - e)) <= 10.3 / 16777216)%R as K.
      { eapply Rle_trans; [apply Rabs_triang|]. assert (Rabs (3 * s1 * s2 * (1 - e)) <= 3.003 * / 16000000)%R as K2 by (rewrite Rabs_mult; apply Rmult_le_compat; auto using Rabs_pos; apply Rabs_le; lra). lra. }
      apply Rle_trans with (10.3 / 16777216 * 1.01)%R; [|lra]. apply Rmult_le_compat; auto using Rabs_pos. rewrite Rabs_inv, Rabs_pos_eq by lra.
      replace 1.01%R with (/ (/ 1.01))%R by (field; lra). apply Rinv_le_contravar; lra. }
    destruct (near_rel _ _ _ EQ) as [AQ _].
    destruct (div_err (f_mul (f_mul F3 (sin m)) (sin d)) (f_mul m d) 2) as [Fk Ek]; auto; try lia.
    { rewrite VQ. change (bpow radix2 2) with 4%R. lra. }
    fold k in Fk, Ek. rewrite VQ in Ek. change (bpow radix2 (2 - 24)) with (/ 4194304)%R in Ek. split; auto.
    assert (Rabs (s1 * s2 - sc (val m) * sc (val d)) <= / 4194304 * 1.001 + 1 * / 4194304)%R as ES.
    { eapply Rle_trans; [apply mult_near; [exact E1|exact E2]|]. apply Rplus_le_compat; [apply Rmult_le_compat_l; lra|apply Rmult_le_compat_r; lra]. }
    apply Rabs_le_inv in Ek, EQ, ES. apply Rabs_le. lra.
  Qed.
  Lemma kernel_lz x y : fin x -> val x = rnd y -> (Rabs y <= 100)%R -> (/ 8388608 <= Rabs (val x))%R ->
    fin (lanczos_kernel sin x) /\ (Rabs (val (lanczos_kernel sin x) - 3 * lanczos3 y) <= / 200000)%R.
  Proof.
    intros F V BY BX. unfold lanczos_kernel. destruct (abs_ok x F) as [Fa Va]. destruct eps_ok as [Fe Ve]. destruct f3_ok as [F3' V3].
    rewrite lt_ok, ge_ok by auto. rewrite Va, Ve, V3. rewrite Rlt_bool_false by auto.
    assert (fmt 3) as FM3 by (apply (fmt_Z 3); lia). assert (fmt (-3)) as FM3' by (apply (fmt_Z (-3)); lia).
    destruct (Rle_bool_spec 3 (Rabs (val x))) as [C|C].
    { split; [apply fin_zero|]. rewrite val_zero. destruct (Rle_or_lt 3 (Rabs y)) as [D|D]; [rewrite (lz_out y) by auto; rewrite Rmult_0_r, Rminus_0_r, Rabs_R0; lra|].
      assert (Rabs (rnd y - y) <= / 4194304)%R as E by (apply (rnd_err y 2); [lia|change (bpow radix2 2) with 4%R; lra]).
      rewrite V in C. apply Rabs_lt_inv in D.
      assert (-3 <= rnd y <= 3)%R as [R1 R2]. { split; [rewrite <- (rnd_fmt (-3)) by auto|rewrite <- (rnd_fmt 3) by auto]; apply rnd_le; lra. }
      assert (rnd y = 3 \/ rnd y = -3)%R as [Q|Q]. { unfold Rabs in C. destruct (Rcase_abs (rnd y)); [right|left]; lra. }
      - pose proof (lz_int y 3) as L. rewrite Q, Rabs_minus_sym in E. specialize (L E ltac:(lia)). apply Rabs_le_inv in L. apply Rabs_le. lra.
      - pose proof (lz_int y (-3)) as L. rewrite Q, Rabs_minus_sym in E. specialize (L E ltac:(lia)). apply Rabs_le_inv in L. apply Rabs_le. lra. }
    assert (Rabs y < 3)%R as Y3.
    { destruct (Rlt_or_le (Rabs y) 3) as [D|D]; auto. exfalso. rewrite V in C. apply Rabs_lt_inv in C. unfold Rabs in D. destruct (Rcase_abs y).
      - assert (rnd y <= rnd (-3))%R as Q by (apply rnd_le; lra). rewrite (rnd_fmt (-3)) in Q by auto. lra.
      - assert (rnd 3 <= rnd y)%R as Q by (apply rnd_le; lra). rewrite (rnd_fmt 3) in Q by auto. lra. }
    (* relative errors *)
    assert (bpow radix2 (-126) <= Rabs y)%R as YB.
    { destruct (Rle_or_lt (bpow radix2 (-126)) (Rabs y)) as [D|D]; auto. exfalso.
      pose proof (rnd_err y (-126) ltac:(lia) ltac:(lra)) as Q. destruct (near_rel _ _ _ Q) as [Q1 _]. rewrite <- V in Q1.
      assert (bpow radix2 (-126) <= bpow radix2 (-30))%R by (apply bpow_le; lia). assert (bpow radix2 (-126 - 24) <= bpow radix2 (-30))%R by (apply bpow_le; lia).
      change (bpow radix2 (-30)) with (/ 1073741824)%R in *. lra. }
    pose proof (bpow_gt_0 radix2 (-126)) as P126.
    pose proof (rel_err y (or_intror YB)) as EX. rewrite u24, <- V in EX. set (al := Rabs y) in *.
    destruct (near_rel _ _ _ EX) as [X1 X2]. fold al in X1, X2. assert (/ 8388609 <= al)%R as AL by lra.
    destruct pi_f_ok as [Fp Vp]. pose proof pi_bounds as PB.
    assert (Rabs (val F_PI * val x) = 13176795 / 4194304 * Rabs (val x))%R as EPX by (rewrite Vp, Rabs_mult, (Rabs_pos_eq (13176795 / 4194304)); lra).
    destruct (mul_bound F_PI x 16%R) as (Fm & Vm & Bm); auto; [apply (fmt_Z 16); lia|rewrite EPX; lra|apply (bpow_lt 4 128); lia|].
    assert (bpow radix2 (-126) <= bpow radix2 (-30))%R as P30 by (apply bpow_le; lia). change (bpow radix2 (-30)) with (/ 1073741824)%R in P30.
    assert (bpow radix2 (-126) <= Rabs (val F_PI * val x))%R as NM0 by (rewrite EPX; lra).
    pose proof (rel_err (val F_PI * val x) (or_intror NM0)) as EM. rewrite u24, <- Vm, EPX in EM. set (m := f_mul F_PI x) in *.
    assert (Rabs (val m - PI * y) <= 5.3 / 10000000 * al)%R as EMY.
    { replace (val m - PI * y)%R with ((val m - val F_PI * val x) + ((val F_PI - PI) * val x + PI * (val x - y)))%R by ring.
      eapply Rle_trans; [apply Rabs_triang|]. pose proof (Rabs_triang ((val F_PI - PI) * val x) (PI * (val x - y))) as T.
      rewrite !Rabs_mult, (Rabs_pos_eq PI) in T by lra.
      assert (Rabs (val F_PI - PI) * Rabs (val x) <= 1.5 / 10000000 * ((1 + / 16777216) * al))%R as K1 by (apply Rmult_le_compat; auto using Rabs_pos; [apply Rabs_le; rewrite Vp; lra|lra]).
      assert (PI * Rabs (val x - y) <= 3.1415927 * (/ 16777216 * al))%R as K2 by (apply Rmult_le_compat; auto using Rabs_pos; lra). lra. }
    assert (Rabs (PI * y) = PI * al)%R as EPY by (rewrite Rabs_mult, (Rabs_pos_eq PI) by lra; reflexivity).
    assert (3.1415926 * al <= PI * al <= 3.1415927 * al)%R as BPA by (split; apply Rmult_le_compat_r; lra).
    destruct (near_rel _ _ _ EMY) as [M1 M2]. rewrite EPY in M1, M2.
    assert (Rabs (val m / 3) = Rabs (val m) / 3)%R as EM3 by (unfold Rdiv; rewrite Rabs_mult, (Rabs_pos_eq (/ 3)); lra).
    destruct (div_bound m F3 16%R) as (Fd & Vd & Bd); auto; [rewrite V3; lra|apply (fmt_Z 16); lia|rewrite V3, EM3; lra|apply (bpow_lt 4 128); lia|].
    rewrite V3 in Vd. assert (bpow radix2 (-126) <= Rabs (val m / 3))%R as NM3 by (rewrite EM3; lra). pose proof (rel_err (val m / 3) (or_intror NM3)) as ED. rewrite u24, <- Vd, EM3 in ED. set (d := f_div m F3) in *.
    assert (Rabs (val d - PI * y / 3) <= 2.4 / 10000000 * al)%R as EDY.
    { replace (val d - PI * y / 3)%R with ((val d - val m / 3) + (val m - PI * y) * / 3)%R by field. eapply Rle_trans; [apply Rabs_triang|]. rewrite Rabs_mult, (Rabs_pos_eq (/ 3)) by lra. lra. }
    assert (Rabs (PI * y / 3) = PI * al / 3)%R as EPY3 by (unfold Rdiv; rewrite Rabs_mult, EPY, (Rabs_pos_eq (/ 3)); lra).
    destruct (near_rel _ _ _ EDY) as [D1 D2]. rewrite EPY3 in D1, D2.
    destruct (kernel_quot m d Fm Fd) as [Fk Ek]; [change (bpow radix2 (-30)) with (/ 1073741824)%R; lra|change (bpow radix2 (-30)) with (/ 1073741824)%R; lra|]. split; [exact Fk|].
    rewrite (lz_sc y) by auto.
    assert (y <> 0)%R as NY by (intro Q; unfold al in AL; rewrite Q, Rabs_R0 in AL; lra).
    assert (PI * y <> 0)%R as N1 by (apply Rmult_integral_contrapositive; split; lra). assert (PI * y / 3 <> 0)%R as N2 by (intro Q; apply N1; lra).
    assert (val m <> 0)%R as N3 by (intro Q; rewrite Q, Rabs_R0 in M2; lra). assert (val d <> 0)%R as N4 by (intro Q; rewrite Q, Rabs_R0 in D2; lra).
    pose proof (sc_lip (val m) (PI * y) (1.7 / 10000000) ltac:(lra) N1 N3) as S1. pose proof (sc_lip (val d) (PI * y / 3) (2.3 / 10000000) ltac:(lra) N2 N4) as S2.
    pose proof (mult_near _ _ _ _ _ _ S1 S2) as SS. pose proof (sc_le1 (val d)) as L1. pose proof (sc_le1 (PI * y)) as L2.
    assert (Rabs (sc (val m) * sc (val d) - sc (PI * y) * sc (PI * y / 3)) <= 8 / 10000000)%R as K by lra.
    cbv zeta in Ek. apply Rabs_le_inv in Ek, K. apply Rabs_le. fold m d. lra.
  Qed.
  Lemma kernel_one x : fin x -> (Rabs (val x) < / 8388608)%R -> lanczos_kernel sin x = f_one.
  Proof.
    intros F B. unfold lanczos_kernel. destruct (abs_ok x F) as [Fa Va]. destruct eps_ok as [Fe Ve]. rewrite lt_ok by auto. rewrite Va, Ve. rewrite Rlt_bool_true by auto. reflexivity.
  Qed.
End Sin.
