(** Lanczos resampling to the same size is the identity, for every accurate sine. *)
From Coq Require Import Reals Lra Machin Ratan.
From Flocq Require Import Core Relative BinarySingleNaN.
From Verif Require Import Base Lz77Model PngFilterModel PngPaletteModel PngFilterProofs PngPackProofs F32Model F32Proofs ResizeModel ResizeF32 ResizeSpec ResizeProofs ResizeLanczos.
Open Scope Z_scope.

Lemma pi_bounds : (3.1415926 < PI < 3.1415927)%R.
Proof.
  pose proof (PI_2_3_7_ineq 4) as [L U]. unfold tg_alt, PI_2_3_7_tg, Ratan_seq in L, U. simpl in L, U. lra.
Qed.
Lemma abs_ok x : fin x -> fin (f_abs x) /\ val (f_abs x) = Rabs (val x).
Proof.
  intros [V F]. destruct x as [s|s| |s m e]; try discriminate F.
  - split; [split; reflexivity|]. symmetry. apply Rabs_R0.
  - split; [split; [exact V|reflexivity]|]. change (f_abs (S754_finite s m e)) with (S754_finite false m e). rewrite !val_fin.
    rewrite <- F2R_Zabs. f_equal. destruct s; reflexivity.
Qed.
Lemma pi_f_ok : fin F_PI /\ val F_PI = (13176795 / 4194304)%R.
Proof. split; [split; reflexivity|]. change F_PI with (S754_finite false 13176795 (-22)). rewrite val_fin, F2R_neg by lia. reflexivity. Qed.
Lemma eps_ok : fin F_EPSILON /\ val F_EPSILON = (/ 8388608)%R.
Proof. split; [split; reflexivity|]. change F_EPSILON with (S754_finite false 8388608 (-46)). rewrite val_fin, F2R_neg by lia. change (2 ^ (- (-46))) with 70368744177664. cbn [cond_Zopp]. lra. Qed.
Lemma f3_ok : fin F3 /\ val F3 = 3%R.
Proof. apply (of_Z_exact 3). lia. Qed.
(** an operation and its error, by the size of the exact result *)
Lemma add_err x y k : fin x -> fin y -> -126 <= k < 128 -> (Rabs (val x + val y) <= bpow radix2 k)%R ->
  fin (f_add x y) /\ (Rabs (val (f_add x y) - (val x + val y)) <= bpow radix2 (k - 24))%R.
Proof.
  intros A B K H. destruct (add_bound x y (bpow radix2 k)) as (F & V & _); auto; [apply fmt_bpow; lia|apply bpow_lt; lia|]. split; auto. rewrite V. apply rnd_err; auto. lia.
Qed.
Lemma sub_err x y k : fin x -> fin y -> -126 <= k < 128 -> (Rabs (val x - val y) <= bpow radix2 k)%R ->
  fin (f_sub x y) /\ (Rabs (val (f_sub x y) - (val x - val y)) <= bpow radix2 (k - 24))%R.
Proof.
  intros A B K H. destruct (sub_bound x y (bpow radix2 k)) as (F & V & _); auto; [apply fmt_bpow; lia|apply bpow_lt; lia|]. split; auto. rewrite V. apply rnd_err; auto. lia.
Qed.
Lemma mul_err x y k : fin x -> fin y -> -126 <= k < 128 -> (Rabs (val x * val y) <= bpow radix2 k)%R ->
  fin (f_mul x y) /\ (Rabs (val (f_mul x y) - (val x * val y)) <= bpow radix2 (k - 24))%R.
Proof.
  intros A B K H. destruct (mul_bound x y (bpow radix2 k)) as (F & V & _); auto; [apply fmt_bpow; lia|apply bpow_lt; lia|]. split; auto. rewrite V. apply rnd_err; auto. lia.
Qed.
Lemma div_err x y k : fin x -> fin y -> val y <> 0%R -> -126 <= k < 128 -> (Rabs (val x / val y) <= bpow radix2 k)%R ->
  fin (f_div x y) /\ (Rabs (val (f_div x y) - (val x / val y)) <= bpow radix2 (k - 24))%R.
Proof.
  intros A B Z K H. destruct (div_bound x y (bpow radix2 k)) as (F & V & _); auto; [apply fmt_bpow; lia|apply bpow_lt; lia|]. split; auto. rewrite V. apply rnd_err; auto. lia.
Qed.
Lemma sin_small y : (Rabs (Rtrigo_def.sin y) <= Rabs y)%R.
Proof.
  assert (forall z, 0 <= z -> Rabs (Rtrigo_def.sin z) <= z)%R as K.
  { intros z Hz. destruct (Rle_or_lt z 1) as [L|L].
    - destruct (Req_dec z 0) as [->|N]; [rewrite sin_0, Rabs_R0; lra|]. pose proof (sin_lt_x z ltac:(lra)). assert (0 <= Rtrigo_def.sin z)%R.
      { apply sin_ge_0; [lra|]. pose proof pi_bounds. lra. }
      rewrite Rabs_pos_eq; lra.
    - pose proof (SIN_bound z). apply Rabs_le. lra. }
  destruct (Rle_or_lt 0 y) as [L|L].
  - rewrite (Rabs_pos_eq y) by auto. auto.
  - rewrite (Rabs_left y) by auto. rewrite <- (Ropp_involutive y) at 1. rewrite sin_neg, Rabs_Ropp. apply K. lra.
Qed.
Lemma sin_near_pi y k : -2 <= k <= 2 -> (Rabs (Rtrigo_def.sin y) <= Rabs (y - IZR k * PI))%R.
Proof.
  intro K. replace (Rabs (Rtrigo_def.sin y)) with (Rabs (Rtrigo_def.sin (y - IZR k * PI))); [apply sin_small|].
  assert (forall z, Rabs (Rtrigo_def.sin (z + PI)) = Rabs (Rtrigo_def.sin z)) as S by (intro z; rewrite neg_sin, Rabs_Ropp; reflexivity).
  assert (k = -2 \/ k = -1 \/ k = 0 \/ k = 1 \/ k = 2) as [E|[E|[E|[E|E]]]] by lia; subst k.
  - replace (y - -2 * PI)%R with (y + PI + PI)%R by ring. rewrite !S. reflexivity.
  - replace (y - -1 * PI)%R with (y + PI)%R by ring. rewrite !S. reflexivity.
  - f_equal. f_equal. ring.
  - rewrite <- (S (y - 1 * PI)%R). do 2 f_equal. ring.
  - rewrite <- (S (y - 2 * PI)%R), <- (S (y - 2 * PI + PI)%R). do 2 f_equal. ring.
Qed.

Section Sin.
  Variable sin : f32 -> f32.
  Hypothesis SIN : accurate_sine sin.

  Lemma kernel_int x k : fin x -> val x = IZR k -> -3 <= k <= 3 ->
    fin (lanczos_kernel sin x) /\ (Rabs (val (lanczos_kernel sin x) - (if k =? 0 then 1 else 0)) <= / 100000)%R.
  Proof.
    intros F V K. unfold lanczos_kernel. destruct (abs_ok x F) as [Fa Va]. destruct eps_ok as [Fe Ve]. destruct f3_ok as [F3' V3].
    rewrite lt_ok, ge_ok by auto. rewrite Va, Ve, V3, V, <- abs_IZR.
    destruct (Z.eqb_spec k 0) as [->|N].
    { rewrite Rlt_bool_true by (cbn; lra). destruct one_ok as [F1 V1]. split; auto. rewrite V1. rewrite Rminus_diag_eq, Rabs_R0; lra. }
    rewrite Rlt_bool_false.
    2:{ apply Rle_trans with 1%R; [lra|]. apply IZR_le. lia. }
    destruct (Rle_bool_spec 3 (IZR (Z.abs k))) as [C|C].
    { split; [apply fin_zero|]. rewrite val_zero, Rminus_0_r, Rabs_R0. lra. }
    assert (Z.abs k < 3) as K2 by (apply lt_IZR; auto). clear C.
    assert (1 <= Rabs (IZR k) <= 2)%R as RK by (rewrite <- abs_IZR; split; apply IZR_le; lia).
    destruct pi_f_ok as [Fp Vp]. pose proof pi_bounds as PB.
    destruct (mul_err F_PI x 3) as [Fm Em]; auto; try lia.
    { rewrite Vp, V, Rabs_mult, (Rabs_pos_eq (13176795 / 4194304)) by lra. change (bpow radix2 3) with 8%R. lra. }
    change (bpow radix2 (3 - 24)) with (/ 2097152)%R in Em. rewrite Vp, V in Em. set (m := f_mul F_PI x) in *.
    assert (Rabs (IZR k) = IZR k \/ Rabs (IZR k) = - IZR k)%R as AK by (unfold Rabs; destruct (Rcase_abs (IZR k)); auto).
    assert (Rabs (val m - IZR k * PI) <= / 1000000)%R as EP.
    { apply Rabs_le_inv in Em. apply Rabs_le. 
      assert (Rabs (IZR k * (13176795 / 4194304 - PI)) <= 2 * (15 / 100000000))%R as Q.
      { rewrite Rabs_mult. apply Rmult_le_compat; auto using Rabs_pos; [lra|]. apply Rabs_le. lra. }
      apply Rabs_le_inv in Q. lra. }
    assert (3 <= Rabs (val m) <= 7)%R as BM.
    { assert (Rabs (IZR k * PI) = Rabs (IZR k) * PI)%R as Q by (rewrite Rabs_mult, (Rabs_pos_eq PI) by lra; reflexivity).
      pose proof (Rabs_triang (val m - IZR k * PI) (IZR k * PI)) as T1. pose proof (Rabs_triang (IZR k * PI - val m) (val m)) as T2.
      replace (val m - IZR k * PI + IZR k * PI)%R with (val m) in T1 by ring. replace (IZR k * PI - val m + val m)%R with (IZR k * PI)%R in T2 by ring.
      rewrite Rabs_minus_sym in T2. rewrite Q in T1, T2.
      assert (1 * PI <= Rabs (IZR k) * PI <= 2 * PI)%R by (split; apply Rmult_le_compat_r; lra). lra. }
    destruct (div_err m F3 2) as [Fd Ed]; auto; try lia; [rewrite V3; lra| |].
    { rewrite V3. unfold Rdiv. rewrite Rabs_mult, (Rabs_pos_eq (/ 3)) by lra. change (bpow radix2 2) with 4%R. lra. }
    change (bpow radix2 (2 - 24)) with (/ 4194304)%R in Ed. rewrite V3 in Ed. set (d := f_div m F3) in *.
    assert (9 / 10 <= Rabs (val d) <= 3)%R as BD.
    { assert (Rabs (val m / 3) = Rabs (val m) / 3)%R as Q by (unfold Rdiv; rewrite Rabs_mult, (Rabs_pos_eq (/ 3)) by lra; reflexivity).
      pose proof (Rabs_triang (val d - val m / 3) (val m / 3)) as T1. pose proof (Rabs_triang (val m / 3 - val d) (val d)) as T2.
      replace (val d - val m / 3 + val m / 3)%R with (val d) in T1 by ring. replace (val m / 3 - val d + val d)%R with (val m / 3)%R in T2 by ring.
      rewrite Rabs_minus_sym in T2. rewrite Q in T1, T2. lra. }
    destruct (SIN m Fm ltac:(lra)) as [Fs Es]. destruct (SIN d Fd ltac:(lra)) as [Ft Et].
    change (bpow radix2 (-20)) with (/ 1048576)%R in Es, Et.
    pose proof (sin_near_pi (val m) k ltac:(lia)) as NP.
    assert (Rabs (val (sin m)) <= / 500000)%R as BS. { apply Rabs_le_inv in Es. assert (Rabs (Rtrigo_def.sin (val m)) <= / 1000000)%R as Q by lra. apply Rabs_le_inv in Q. apply Rabs_le. lra. }
    assert (Rabs (val (sin d)) <= 1 + / 1000)%R as BT. { apply Rabs_le_inv in Et. pose proof (SIN_bound (val d)). apply Rabs_le. lra. }
    destruct (mul_err F3 (sin m) 0) as [F6 E6]; auto; try lia.
    { rewrite V3, Rabs_mult, (Rabs_pos_eq 3) by lra. change (bpow radix2 0) with 1%R. lra. }
    change (bpow radix2 (0 - 24)) with (/ 16777216)%R in E6. rewrite V3 in E6. set (a := f_mul F3 (sin m)) in *.
    assert (Rabs (val a) <= / 150000)%R as BA. { apply Rabs_le_inv in E6, BS. apply Rabs_le. lra. }
    destruct (mul_err a (sin d) 0) as [F7 E7]; auto; try lia.
    { rewrite Rabs_mult. change (bpow radix2 0) with 1%R. replace 1%R with (/ 2 * 2)%R by field. apply Rmult_le_compat; auto using Rabs_pos; lra. }
    change (bpow radix2 (0 - 24)) with (/ 16777216)%R in E7. set (b := f_mul a (sin d)) in *.
    assert (Rabs (val b) <= / 100000)%R as BB.
    { assert (Rabs (val a * val (sin d)) <= / 150000 * (1 + / 1000))%R as Q by (rewrite Rabs_mult; apply Rmult_le_compat; auto using Rabs_pos).
      apply Rabs_le_inv in Q, E7. apply Rabs_le. lra. }
    destruct (mul_err m d 5) as [F8 E8]; auto; try lia.
    { rewrite Rabs_mult. change (bpow radix2 5) with 32%R. apply Rle_trans with (7 * 3)%R; [|lra]. apply Rmult_le_compat; auto using Rabs_pos; lra. }
    change (bpow radix2 (5 - 24)) with (/ 524288)%R in E8. set (e := f_mul m d) in *.
    assert (2 <= Rabs (val e))%R as BE.
    { assert (3 * (9 / 10) <= Rabs (val m * val d))%R as Q by (rewrite Rabs_mult; apply Rmult_le_compat; lra).
      pose proof (Rabs_triang (val m * val d - val e) (val e)) as T. replace (val m * val d - val e + val e)%R with (val m * val d)%R in T by ring.
      rewrite Rabs_minus_sym in T. lra. }
    assert (val e <> 0)%R as NE by (intro Q; rewrite Q, Rabs_R0 in BE; lra).
    assert (Rabs (val b / val e) <= / 200000)%R as BQ.
    { unfold Rdiv. rewrite Rabs_mult, Rabs_inv. replace (/ 200000)%R with (/ 100000 * / 2)%R by field. apply Rmult_le_compat; auto using Rabs_pos.
      - apply Rlt_le, Rinv_0_lt_compat. lra.
      - apply Rinv_le_contravar; lra. }
    destruct (div_err b e 0) as [F9 E9]; auto; try lia; [change (bpow radix2 0) with 1%R; lra|].
    change (bpow radix2 (0 - 24)) with (/ 16777216)%R in E9. split; auto. rewrite Rminus_0_r. apply Rabs_le_inv in BQ, E9. apply Rabs_le. lra.
  Qed.

  (** ** Windows that single out one sample *)
  Definition delta (k j : Z) : R := if k =? j then 1%R else 0%R.
  Fixpoint nearw (e : R) (j k : Z) (ws : list f32) : Prop :=
    match ws with [] => True | w :: ws => fin w /\ (Rabs (val w - delta k j) <= e)%R /\ nearw e j (k + 1) ws end.
  Definition past (j k : Z) : R := if j <? k then 1%R else 0%R.
  Lemma past_step j k : past j (k + 1) = (past j k + delta k j)%R.
  Proof. unfold past, delta. destruct (Z.ltb_spec j (k + 1)); destruct (Z.ltb_spec j k); destruct (Z.eqb_spec k j); try lia; lra. Qed.
  Lemma past_range j k : (0 <= past j k <= 1)%R. Proof. unfold past. destruct (j <? k); lra. Qed.
  Lemma sum_near e j : (0 <= e)%R -> forall ws k acc a, nearw e j k ws -> fin acc -> (Rabs (val acc - past j k) <= a)%R -> (0 <= a)%R ->
    (a + IZR (zlen ws) * (e + / 4194304) <= / 4)%R ->
    fin (fold_left f_add ws acc) /\ (Rabs (val (fold_left f_add ws acc) - past j (k + zlen ws)) <= a + IZR (zlen ws) * (e + / 4194304))%R.
  Proof.
    intros E0. induction ws as [|w ws IH]; intros k acc a N F A A0 B.
    - cbn [fold_left]. change (zlen []) with 0 in *. rewrite Z.add_0_r. split; auto. lra.
    - destruct N as (Fw & Nw & N). cbn [fold_left]. assert (zlen (w :: ws) = zlen ws + 1) as ZL by (unfold zlen; cbn [length]; lia). rewrite ZL, plus_IZR in *.
      assert (0 <= IZR (zlen ws))%R as Z0 by (apply IZR_le; unfold zlen; lia). pose proof (past_range j k) as P0. pose proof (past_range j (k + 1)) as P1. rewrite past_step in P1.
      assert (0 <= IZR (zlen ws) * (e + / 4194304))%R by (apply Rmult_le_pos; lra).
      apply Rabs_le_inv in A, Nw.
      destruct (add_err acc w 2) as [Fs Es]; auto; try lia. { change (bpow radix2 2) with 4%R. apply Rabs_le. lra. }
      change (bpow radix2 (2 - 24)) with (/ 4194304)%R in Es. apply Rabs_le_inv in Es.
      destruct (IH (k + 1) (f_add acc w) (a + (e + / 4194304))%R) as [FF EE]; auto; try lra.
      + rewrite past_step. apply Rabs_le. lra.
      + split; auto. replace (k + (zlen ws + 1)) with (k + 1 + zlen ws) by lia. lra.
  Qed.
  Lemma nearw_div e e' j t : fin t -> (Rabs (val t - 1) <= / 1000)%R -> ((e + Rabs (val t - 1)) * (1000 / 999) + / 8388608 <= e')%R -> (0 <= e <= / 1000)%R ->
    forall ws k, nearw e j k ws -> nearw e' j k (map (fun w => f_div w t) ws).
  Proof.
    intros Ft Bt He E0. assert (999 / 1000 <= val t)%R as T0 by (apply Rabs_le_inv in Bt; lra).
    induction ws as [|w ws IH]; intros k N; [exact I|]. destruct N as (Fw & Nw & N). cbn [map nearw].
    assert (Rabs (val w / val t - delta k j) <= (e + Rabs (val t - 1)) * (1000 / 999))%R as Q.
    { replace (val w / val t - delta k j)%R with ((val w - delta k j + delta k j * (1 - val t)) * / val t)%R by (field; lra).
      rewrite Rabs_mult, (Rabs_inv (val t)), (Rabs_pos_eq (val t)) by lra. apply Rmult_le_compat; auto using Rabs_pos.
      - apply Rlt_le, Rinv_0_lt_compat; lra.
      - eapply Rle_trans; [apply Rabs_triang|]. apply Rplus_le_compat; auto. rewrite Rabs_mult, (Rabs_minus_sym 1).
        rewrite <- (Rmult_1_l (Rabs (val t - 1))) at 2. apply Rmult_le_compat_r; [apply Rabs_pos|]. unfold delta. destruct (k =? j); [rewrite Rabs_R1|rewrite Rabs_R0]; lra.
      - replace (1000 / 999)%R with (/ (999 / 1000))%R by field. apply Rinv_le_contravar; lra. }
    assert (0 <= delta k j <= 1)%R as D by (unfold delta; destruct (k =? j); lra).
    assert (Rabs (val w / val t - delta k j) <= 1)%R as Q1. { eapply Rle_trans; [exact Q|]. apply Rle_trans with ((/ 1000 + / 1000) * (1000 / 999))%R; [|lra]. apply Rmult_le_compat_r; lra. }
    destruct (div_err w t 1) as [Fd Ed]; auto; try lra; try lia. { change (bpow radix2 1) with 2%R. apply Rabs_le_inv in Q1. apply Rabs_le. lra. }
    change (bpow radix2 (1 - 24)) with (/ 8388608)%R in Ed. split; auto. split; [|apply IH; auto].
    apply Rabs_le_inv in Q, Ed. apply Rabs_le. lra.
  Qed.
  Lemma wsum_near (p : Z -> Z) j : (forall i, is_byte (p i)) -> forall ws k acc a, nearw (/ 10000) j k ws -> fin acc ->
    (Rabs (val acc - IZR (p j) * past j k) <= a)%R -> (0 <= a)%R -> (a + IZR (zlen ws) * (26 / 1000) <= / 4)%R ->
    fin (wsum p k ws acc) /\ (Rabs (val (wsum p k ws acc) - IZR (p j) * past j (k + zlen ws)) <= a + IZR (zlen ws) * (26 / 1000))%R.
  Proof.
    intros HP. pose proof (byte_R _ (HP j)) as PJ. induction ws as [|w ws IH]; intros k acc a N F A A0 B.
    - cbn [wsum]. change (zlen []) with 0 in *. rewrite Z.add_0_r. split; auto. lra.
    - destruct N as (Fw & Nw & N). cbn [wsum]. assert (zlen (w :: ws) = zlen ws + 1) as ZL by (unfold zlen; cbn [length]; lia). rewrite ZL, plus_IZR in *.
      assert (0 <= IZR (zlen ws))%R as Z0 by (apply IZR_le; unfold zlen; lia). pose proof (past_range j k) as P0. pose proof (past_range j (k + 1)) as P1.
      pose proof (byte_R _ (HP k)) as PK. pose proof (HP k) as PK'. unfold is_byte in PK'.
      destruct (of_Z_exact (p k) ltac:(change (2 ^ 24) with 16777216; lia)) as [Fk Vk].
      assert (0 <= delta k j <= 1)%R as D by (unfold delta; destruct (k =? j); lra).
      apply Rabs_le_inv in A.
      assert (Rabs (IZR (p k) * (val w - delta k j)) <= 255 * / 10000)%R as Q.
      { rewrite Rabs_mult, (Rabs_pos_eq (IZR (p k))) by lra. apply Rmult_le_compat; auto using Rabs_pos; lra. }
      assert (IZR (p k) * delta k j = IZR (p j) * delta k j)%R as PD. { unfold delta. destruct (Z.eqb_spec k j) as [->|_]; [reflexivity|ring]. }
      assert (0 <= IZR (p j) * delta k j <= 255)%R as PD2. { split; [apply Rmult_le_pos; lra|]. replace 255%R with (255 * 1)%R by ring. apply Rmult_le_compat; lra. }
      assert (0 <= IZR (p j) * past j k <= 255)%R as PP. { split; [apply Rmult_le_pos; lra|]. replace 255%R with (255 * 1)%R by ring. apply Rmult_le_compat; lra. }
      apply Rabs_le_inv in Q.
      destruct (mul_err (f_of_Z (p k)) w 9) as [Fm Em]; auto; try lia. { rewrite Vk. change (bpow radix2 9) with 512%R. apply Rabs_le. lra. }
      change (bpow radix2 (9 - 24)) with (/ 32768)%R in Em. rewrite Vk in Em. apply Rabs_le_inv in Em.
      destruct (add_err acc (f_mul (f_of_Z (p k)) w) 10) as [Fs Es]; auto; try lia.
      { change (bpow radix2 10) with 1024%R. apply Rabs_le. lra. }
      change (bpow radix2 (10 - 24)) with (/ 16384)%R in Es. apply Rabs_le_inv in Es.
      destruct (IH (k + 1) (f_add acc (f_mul (f_of_Z (p k)) w)) (a + 26 / 1000)%R) as [FF EE]; auto; try lra.
      + rewrite past_step. apply Rabs_le. lra.
      + split; auto. replace (k + (zlen ws + 1)) with (k + 1 + zlen ws) by lia. lra.
  Qed.
  Lemma nearw_map e j (g : Z -> f32) m : forall k, (forall i, 0 <= i < Z.of_nat m -> fin (g i) /\ (Rabs (val (g i) - delta (k + i) j) <= e)%R) -> nearw e j k (map g (idxs m)).
  Proof.
    unfold idxs. rewrite map_map. 
    assert (forall m s k, (forall i, Z.of_nat s <= i < Z.of_nat (s + m) -> fin (g i) /\ (Rabs (val (g i) - delta (k + (i - Z.of_nat s)) j) <= e)%R) -> nearw e j k (map (fun x => g (Z.of_nat x)) (seq s m))) as K.
    { clear m. induction m as [|m IH]; intros s k H; [exact I|]. cbn [seq map nearw]. destruct (H (Z.of_nat s) ltac:(lia)) as [A B].
      rewrite Z.sub_diag, Z.add_0_r in B. split; auto. split; auto. apply IH. intros i Hi. destruct (H i ltac:(lia)) as [A' B']. split; auto.
      replace (k + 1 + (i - Z.of_nat (S s))) with (k + (i - Z.of_nat s)) by lia. auto. }
    intros k H. apply K. intros i Hi. rewrite Z.sub_0_r. apply H. lia.
  Qed.

  Lemma ncoord_id n d : 1 <= n <= 2 ^ 23 -> 0 <= d < n -> ncoord n n d = IZR d.
  Proof.
    intros Hn Hd. change (2 ^ 23) with 8388608 in Hn. unfold ncoord.
    assert (IZR n / IZR n = 1)%R as -> by (field; apply IZR_neq; lia).
    assert (IZR d + / 2 = IZR (2 * d + 1) / 2)%R as E by (rewrite plus_IZR, mult_IZR; lra).
    rewrite (rnd_fmt 1) by (apply (fmt_Z 1); lia). rewrite Rmult_1_r.
    assert (fmt (IZR d + / 2)) as FM by (rewrite E; apply fmt_halves; change (2 ^ 24) with 16777216; lia).
    rewrite !(rnd_fmt (IZR d + / 2)) by auto. replace (IZR d + / 2 - / 2)%R with (IZR d) by lra.
    apply rnd_fmt, fmt_Z. change (2 ^ 24) with 16777216; lia.
  Qed.
  Lemma win_same n d : 1 <= n <= 2 ^ 23 -> 0 <= d < n ->
    nearw (/ 10000) d (fst (win sin n n d)) (snd (win sin n n d)) /\ fst (win sin n n d) <= d < fst (win sin n n d) + zlen (snd (win sin n n d)) /\
    zlen (snd (win sin n n d)) <= 7.
  Proof.
    intros Hn Hd. change (2 ^ 23) with 8388608 in Hn. unfold win.
    assert (1 <= n <= 2 ^ 24) as Hn' by (change (2 ^ 24) with 16777216; lia).
    destruct (center_ok n n d Hn' Hn' Hd) as (Fc & Vc & Bc). destruct (div_range n n ltac:(lia) ltac:(lia)) as (Fr & Vr & Br).
    rewrite ncoord_id in Vc by (change (2 ^ 23) with 8388608; lia).
    assert (IZR n / IZR n = 1)%R as E1 by (field; apply IZR_neq; lia). rewrite E1, (rnd_fmt 1) in Vr by (apply (fmt_Z 1); lia).
    destruct one_ok as [F1 V1]. destruct (maximum_ok _ _ Fr F1) as [Fs Vs]. rewrite V1, Vr, Rmax_left in Vs by lra.
    unfold contribution. set (scale := f_div (f_of_Z n) (f_of_Z n)) in *. set (fs := f_maximum scale f_one) in *.
    set (c := f_sub (f_mul (f_add (f_of_Z d) f_half) scale) f_half) in *. destruct f3_ok as [F3' V3'].
    assert (0 <= IZR d <= 8388608)%R as RD by (split; apply IZR_le; lia).
    destruct (mul_bound F3 fs 4%R) as (Fp & Vp & _); auto.
    { apply (fmt_bpow 2); lia. } { rewrite V3', Vs, Rabs_pos_eq; lra. } { apply (bpow_lt 2 128); lia. }
    rewrite V3', Vs, Rmult_1_r, rnd_fmt in Vp by (apply (fmt_Z 3); lia). set (s := f_mul F3 fs) in *.
    destruct (sub_bound c s (bpow radix2 24)) as (Fl & Vl & _); auto.
    { apply fmt_bpow; lia. } { rewrite Vc, Vp, pow24. apply Rabs_le; lra. } { apply bpow_lt; lia. }
    destruct (add_bound c s (bpow radix2 24)) as (Fh & Vh & _); auto.
    { apply fmt_bpow; lia. } { rewrite Vc, Vp, pow24. apply Rabs_le; lra. } { apply bpow_lt; lia. }
    rewrite Vc, Vp, <- minus_IZR, rnd_fmt in Vl by (apply fmt_Z; change (2 ^ 24) with 16777216; lia).
    rewrite Vc, Vp, <- plus_IZR, rnd_fmt in Vh by (apply fmt_Z; change (2 ^ 24) with 16777216; lia).
    destruct (floor_ok _ Fl) as [Ff Vf]. destruct (ceil_ok _ Fh) as [Fe Ve].
    unfold to_isize, to_usize. rewrite !to_Z_ok by (auto; lia). rewrite Vf, Ve, Vl, Vh, Zfloor_IZR, Zceil_IZR, !Ztrunc_IZR.
    assert (Z.min (2 ^ 63 - 1) (Z.max (- 2 ^ 63) (d - 3)) = d - 3) as -> by lia.
    assert (Z.min (2 ^ 64 - 1) (Z.max 0 (d + 3)) = d + 3) as -> by lia.
    destruct (Z.ltb_spec (d + 3 + 1) (2 ^ 64)) as [_|C]; [|lia]. cbn [rbind].
    unfold usub. destruct (Z.ltb_spec (Z.min (d + 3 + 1) n) (Z.max (d - 3) 0)) as [C|_]; [lia|]. cbn [rbind fst snd].
    set (st := Z.max (d - 3) 0). set (m := Z.min (d + 3 + 1) n - st). set (g := fun i => lanczos_kernel sin (f_div (f_sub (f_of_Z (st + i)) c) fs)).
    assert (nearw (/ 100000) d st (map g (idxs (Z.to_nat m)))) as NW.
    { apply nearw_map. intros i Hi. unfold g, delta. destruct (of_Z_exact (st + i) ltac:(change (2 ^ 24) with 16777216; lia)) as [Fi Vi].
      destruct (sub_bound (f_of_Z (st + i)) c 4%R) as (Fx & Vx & _); auto.
      { apply (fmt_bpow 2); lia. } { rewrite Vi, Vc, <- minus_IZR, <- abs_IZR. apply IZR_le. lia. } { apply (bpow_lt 2 128); lia. }
      rewrite Vi, Vc, <- minus_IZR, rnd_fmt in Vx by (apply fmt_Z; change (2 ^ 24) with 16777216; lia).
      destruct (div_bound (f_sub (f_of_Z (st + i)) c) fs 4%R) as (Fy & Vy & _); auto; [rewrite Vs; lra| | | |].
      { apply (fmt_bpow 2); lia. } { rewrite Vx, Vs. unfold Rdiv. rewrite Rinv_1, Rmult_1_r, <- abs_IZR. apply IZR_le. lia. } { apply (bpow_lt 2 128); lia. }
      rewrite Vx, Vs in Vy. unfold Rdiv in Vy. rewrite Rinv_1, Rmult_1_r, rnd_fmt in Vy by (apply fmt_Z; change (2 ^ 24) with 16777216; lia).
      destruct (kernel_int _ (st + i - d) Fy Vy ltac:(lia)) as [FK EK]. split; auto.
      destruct (Z.eqb_spec (st + i - d) 0); destruct (Z.eqb_spec (st + i) d); try lia; exact EK. }
    set (ws := map g (idxs (Z.to_nat m))) in *.
    assert (zlen ws = m) as LW by (unfold ws, zlen, idxs; rewrite !map_length, seq_length; lia).
    assert (1 <= m <= 7) as BM by lia. assert (1 <= IZR m <= 7)%R as RM by (split; apply IZR_le; lia).
    assert (fin (fold_left f_add ws f_zero) /\ (Rabs (val (fold_left f_add ws f_zero) - 1) <= / 10000 * (3 / 4))%R) as [Ft Et].
    { destruct (sum_near (/ 100000) d ltac:(lra) ws st f_zero 0%R NW fin_zero) as [A B].
      - rewrite val_zero. unfold past. destruct (Z.ltb_spec d st); [lia|]. rewrite Rminus_0_r, Rabs_R0. lra.
      - lra.
      - rewrite LW. assert (IZR m * (/ 100000 + / 4194304) <= 7 * (/ 100000 + / 4194304))%R by (apply Rmult_le_compat_r; lra). lra.
      - split; auto. rewrite LW in B. replace (past d (st + m)) with 1%R in B by (unfold past; destruct (Z.ltb_spec d (st + m)); [reflexivity|lia]).
        assert (IZR m * (/ 100000 + / 4194304) <= 7 * (/ 100000 + / 4194304))%R by (apply Rmult_le_compat_r; lra). lra. }
    set (t := fold_left f_add ws f_zero) in *. fold g. fold ws. fold t.
    destruct (abs_ok t Ft) as [Fat Vat]. destruct eps_ok as [Fep Vep]. rewrite lt_ok by auto. rewrite Vep, Vat.
    rewrite Rlt_bool_true by (apply Rabs_le_inv in Et; rewrite Rabs_pos_eq; lra).
    assert (zlen (map (fun w => f_div w t) ws) = m) as LM by (unfold zlen in *; rewrite map_length; lia). rewrite LM.
    split; [|lia]. apply (nearw_div (/ 100000)); auto; lra.
  Qed.
  Lemma line_same n p d : 1 <= n <= 2 ^ 23 -> 0 <= d < n -> (forall i, is_byte (p i)) -> line sin n n p d = p d.
  Proof.
    intros Hn Hd HP. destruct (win_same n d Hn Hd) as (NW & IN & LE). unfold line, pick. set (con := win sin n n d) in *.
    assert (IZR (zlen (snd con)) <= 7)%R as RL by (apply IZR_le; auto).
    destruct (wsum_near p d HP (snd con) (fst con) f_zero 0%R NW fin_zero) as [F E].
    - rewrite val_zero. unfold past. destruct (Z.ltb_spec d (fst con)); [lia|]. rewrite Rmult_0_r, Rminus_0_r, Rabs_R0. lra.
    - lra.
    - lra.
    - replace (past d (fst con + zlen (snd con))) with 1%R in E by (unfold past; destruct (Z.ltb_spec d (fst con + zlen (snd con))); [reflexivity|lia]).
      set (v := wsum p (fst con) (snd con) f_zero) in *. rewrite Rmult_1_r in E. apply Rabs_le_inv in E.
      destruct (round_ok v F) as [Fr Vr]. destruct f255_ok as [F2 V2].
      destruct (clamp_ok (f_round v) f_zero F255 Fr fin_zero F2 ltac:(rewrite val_zero, V2; lra)) as [Fc Vc].
      unfold to_u8. rewrite to_Z_ok by (auto; lia). rewrite Vc, val_zero, V2, Vr. pose proof (byte_R _ (HP d)) as PD. specialize (HP d). unfold is_byte in HP.
      assert (rhaz (val v) = p d) as -> by (apply Z.le_antisymm; [apply rhaz_lt|apply rhaz_gt]; lra).
      rewrite Rmax_right, Rmin_right by lra. rewrite Ztrunc_IZR, Z.max_r, Z.min_r by lia. reflexivity.
  Qed.
End Sin.
