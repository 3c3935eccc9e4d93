(** Lanczos resizing loses the last pixel of a long line. *)
From Coq Require Import Reals Lra Lia.
From Flocq Require Import Core Relative BinarySingleNaN.
From Verif Require Import Base Lz77Model PngFilterModel PngPaletteModel PngFilterProofs F32Model F32Proofs ResizeModel ResizeF32 ResizeSpec ResizeProofs ResizeLanczos ResizeSame ResizeTop LanczosSpec LanczosReal LanczosTop LanczosLargeSpec.
Open Scope Z_scope.

Lemma fmt_dy m e r : Z.abs m < 2 ^ 24 -> -149 <= e -> F2R (Float radix2 m e) = r -> fmt r.
Proof. intros H E <-. apply fmt_F2R; auto. Qed.
Lemma big B : (B <= 1)%R -> (B < bpow radix2 128)%R.
Proof. intros H. eapply Rle_lt_trans; [exact H|]. apply (bpow_lt 0 128). lia. Qed.
(** the sine near a third and two thirds of pi *)
Lemma third_sine k y : (k = 1 \/ k = 2)%R -> (Rabs (y - - (k * PI / 3)) <= / 1000)%R -> (Rabs (sin y) <= 0.868)%R.
Proof.
  intros K H. assert (Rabs (sin (- (k * PI / 3))) <= 0.8661)%R as A.
  { rewrite sin_neg, Rabs_Ropp. assert (sin (k * PI / 3) = sqrt 3 / 2)%R as ->.
    { destruct K as [-> | ->]; [rewrite <- sin_PI3; f_equal; field|]. replace (2 * PI / 3)%R with (PI - PI / 3)%R by field. rewrite sin_minus, sin_PI, cos_PI, sin_PI3. ring. }
    assert (0 <= sqrt 3)%R by apply sqrt_pos. rewrite Rabs_pos_eq by lra. assert (sqrt 3 <= 1.7321)%R; [|lra].
    rewrite <- (sqrt_square 1.7321) by lra. apply sqrt_le_1_alt. lra. }
  pose proof (sin_lip y (- (k * PI / 3))) as L. apply Rabs_le_inv in A, L, H. apply Rabs_le. pose proof (Rle_refl 0). 
  assert (Rabs (y - - (k * PI / 3)) <= / 1000)%R by (apply Rabs_le; lra). lra.
Qed.
(** weights: [s] and [t] are the two sines, [q] the divisor *)
Lemma weight_small s t q B C D G : fin s -> fin t -> fin q -> (Rabs (val s) <= B)%R -> (Rabs (val t) <= 0.875)%R -> (G <= Rabs (val q))%R -> (0 < G)%R ->
  fmt (3 * B) -> (3 * B <= 1)%R -> fmt C -> (3 * B * 0.875 <= C)%R -> (C <= 1)%R -> fmt D -> (C <= D * G)%R -> (0 <= D <= 1)%R ->
  let w := f_div (f_mul (f_mul F3 s) t) q in fin w /\ (Rabs (val w) <= D)%R.
Proof.
  intros Fs Ft Fq Hs Ht Hq G0 F1 L1 F2 H2 L2 F4 H4 L4 w. destruct f3_ok as [F3' V3]. pose proof (Rabs_pos (val s)) as P1. pose proof (Rabs_pos (val t)) as P2.
  destruct (mul_bound F3 s (3 * B)%R F3' Fs F1) as (M1 & _ & B1); [rewrite Rabs_mult, V3, (Rabs_pos_eq 3) by lra; lra|apply big; lra|].
  destruct (mul_bound (f_mul F3 s) t C M1 Ft F2) as (M2 & _ & B2).
  { rewrite Rabs_mult. eapply Rle_trans; [|exact H2]. apply Rmult_le_compat; auto using Rabs_pos. } { apply big; lra. }
  assert (val q <> 0)%R as QN by (intro Q; rewrite Q, Rabs_R0 in Hq; lra).
  destruct (div_bound (f_mul (f_mul F3 s) t) q D M2 Fq QN F4) as (M3 & _ & B3); [|apply big; lra|split; auto].
  unfold Rdiv. rewrite Rabs_mult, Rabs_inv. apply Rmult_le_reg_r with (Rabs (val q)); [lra|]. rewrite Rmult_assoc, Rinv_l, Rmult_1_r by lra.
  eapply Rle_trans; [exact B2|]. eapply Rle_trans; [exact H4|]. apply Rmult_le_compat_l; lra.
Qed.
(** the window of the last pixel *)
Lemma win_long sin : win sin 8388610 8388610 8388609 =
  (let ws := [lanczos_kernel sin (f_of_Z (-3)); lanczos_kernel sin (f_of_Z (-2)); lanczos_kernel sin (f_of_Z (-1))] in
   let t := fold_left f_add ws f_zero in (8388607, if f_lt F_EPSILON (f_abs t) then map (fun w => f_div w t) ws else ws)).
Proof.
  unfold win, contribution.
  assert (f_div (f_of_Z 8388610) (f_of_Z 8388610) = f_one) as -> by (vm_compute; reflexivity).
  assert (f_maximum f_one f_one = f_one) as -> by (vm_compute; reflexivity).
  assert (f_sub (f_mul (f_add (f_of_Z 8388609) f_half) f_one) f_half = f_of_Z 8388610) as -> by (vm_compute; reflexivity).
  assert (Z.max (to_isize (f_floor (f_sub (f_of_Z 8388610) (f_mul F3 f_one)))) 0 = 8388607) as -> by (vm_compute; reflexivity).
  assert (to_usize (f_ceil (f_add (f_of_Z 8388610) (f_mul F3 f_one))) = 8388613) as -> by (vm_compute; reflexivity).
  assert (8388613 + 1 <? 2 ^ 64 = true) as -> by reflexivity. cbn [rbind].
  assert (usub (Z.min (8388613 + 1) 8388610) 8388607 = Ok 3) as -> by reflexivity. cbn [rbind]. change (Z.to_nat 3) with 3%nat.
  assert (idxs 3 = [0; 1; 2]) as -> by reflexivity. cbn [map].
  assert (f_div (f_sub (f_of_Z (8388607 + 0)) (f_of_Z 8388610)) f_one = f_of_Z (-3)) as -> by (vm_compute; reflexivity).
  assert (f_div (f_sub (f_of_Z (8388607 + 1)) (f_of_Z 8388610)) f_one = f_of_Z (-2)) as -> by (vm_compute; reflexivity).
  assert (f_div (f_sub (f_of_Z (8388607 + 2)) (f_of_Z 8388610)) f_one = f_of_Z (-1)) as -> by (vm_compute; reflexivity).
  reflexivity.
Qed.
Section Sin.
  Context (sin : f32 -> f32) (GS : good_sine sin) (SM : small_at_pi sin).
  Lemma kernel_3 : lanczos_kernel sin (f_of_Z (-3)) = f_zero.
  Proof. unfold lanczos_kernel. assert (f_lt (f_abs (f_of_Z (-3))) F_EPSILON = false) as -> by (vm_compute; reflexivity). assert (f_ge (f_abs (f_of_Z (-3))) F3 = true) as -> by (vm_compute; reflexivity). reflexivity. Qed.
  Lemma at_value m : fin m -> (Rabs (val m) <= 3)%R -> (Rabs (Rtrigo_def.sin (val m)) <= 0.868)%R -> fin (sin m) /\ (Rabs (val (sin m)) <= 0.875)%R.
  Proof.
    intros F B S. destruct (GS m F ltac:(lra)) as [F' E]. split; auto. change (bpow radix2 (-22)) with (/ 4194304)%R in E. apply Rabs_le_inv in E, S. apply Rabs_le.
    pose proof (Rabs_pos (val m)). lra.
  Qed.
  Lemma kernel_1 : fin (lanczos_kernel sin (f_of_Z (-1))) /\ (Rabs (val (lanczos_kernel sin (f_of_Z (-1)))) <= 10 / 134217728)%R.
  Proof.
    unfold lanczos_kernel. assert (f_lt (f_abs (f_of_Z (-1))) F_EPSILON = false) as -> by (vm_compute; reflexivity). assert (f_ge (f_abs (f_of_Z (-1))) F3 = false) as -> by (vm_compute; reflexivity). cbv zeta.
    destruct SM as [S1 _]. assert (f_mul F_PI (f_of_Z (-1)) = S754_finite true 13176795 (-22)) as E1 by (vm_compute; reflexivity).
    assert (f_div (f_mul F_PI (f_of_Z (-1))) F3 = S754_finite true 8784530 (-23)) as E2 by (vm_compute; reflexivity).
    rewrite E2. rewrite E1 in *. set (m := S754_finite true 13176795 (-22)) in *. set (a := S754_finite true 8784530 (-23)).
    assert (fin m /\ val m = (- 13176795 / 4194304)%R) as [Fm Vm]. { split; [split; reflexivity|]. unfold m. rewrite val_fin, F2R_neg by lia. reflexivity. }
    assert (fin a /\ val a = (- 8784530 / 8388608)%R) as [Fa Va]. { split; [split; reflexivity|]. unfold a. rewrite val_fin, F2R_neg by lia. reflexivity. }
    destruct (GS m Fm) as [FS _]. { rewrite Vm. apply Rabs_le. lra. }
    destruct (at_value a Fa) as [FT ST]. { rewrite Va. apply Rabs_le. lra. }
    { apply (third_sine 1); auto. rewrite Va. pose proof pi_bounds. apply Rabs_le. lra. }
    assert (exists m' e', f_mul m a = S754_finite false m' e' /\ (3.28 <= F2R (Float radix2 (Zpos m') e'))%R /\ fin (f_mul m a)) as (m' & e' & Eq & Lq & Fq).
    { eexists _, _. split; [vm_compute; reflexivity|]. split; [rewrite F2R_neg by lia; cbn; lra|split; reflexivity]. }
    apply (weight_small (sin m) (sin a) (f_mul m a) (3 / 33554432) (63 / 268435456) (10 / 134217728) 3.28); auto; try lra.
    - rewrite Eq, val_fin. cbn [cond_Zopp]. rewrite Rabs_pos_eq; lra.
    - apply (fmt_dy 9 (-25)); [reflexivity|lia|]. rewrite F2R_neg by lia. change (2 ^ (- (-25))) with 33554432. lra.
    - apply (fmt_dy 63 (-28)); [reflexivity|lia|]. rewrite F2R_neg by lia. change (2 ^ (- (-28))) with 268435456. lra.
    - apply (fmt_dy 10 (-27)); [reflexivity|lia|]. rewrite F2R_neg by lia. change (2 ^ (- (-27))) with 134217728. lra.
  Qed.
  Lemma kernel_2 : fin (lanczos_kernel sin (f_of_Z (-2))) /\ (Rabs (val (lanczos_kernel sin (f_of_Z (-2)))) <= 5 / 134217728)%R.
  Proof.
    unfold lanczos_kernel. assert (f_lt (f_abs (f_of_Z (-2))) F_EPSILON = false) as -> by (vm_compute; reflexivity). assert (f_ge (f_abs (f_of_Z (-2))) F3 = false) as -> by (vm_compute; reflexivity). cbv zeta.
    destruct SM as [_ S1]. assert (f_mul F_PI (f_of_Z (-2)) = S754_finite true 13176795 (-21)) as E1 by (vm_compute; reflexivity).
    assert (f_div (f_mul F_PI (f_of_Z (-2))) F3 = S754_finite true 8784530 (-22)) as E2 by (vm_compute; reflexivity).
    rewrite E2. rewrite E1 in *. set (m := S754_finite true 13176795 (-21)) in *. set (a := S754_finite true 8784530 (-22)).
    assert (fin m /\ val m = (- 13176795 / 2097152)%R) as [Fm Vm]. { split; [split; reflexivity|]. unfold m. rewrite val_fin, F2R_neg by lia. reflexivity. }
    assert (fin a /\ val a = (- 8784530 / 4194304)%R) as [Fa Va]. { split; [split; reflexivity|]. unfold a. rewrite val_fin, F2R_neg by lia. reflexivity. }
    destruct (GS m Fm) as [FS _]. { rewrite Vm. apply Rabs_le. lra. }
    destruct (at_value a Fa) as [FT ST]. { rewrite Va. apply Rabs_le. lra. }
    { apply (third_sine 2); auto. rewrite Va. pose proof pi_bounds. apply Rabs_le. lra. }
    assert (exists m' e', f_mul m a = S754_finite false m' e' /\ (13.12 <= F2R (Float radix2 (Zpos m') e'))%R /\ fin (f_mul m a)) as (m' & e' & Eq & Lq & Fq).
    { eexists _, _. split; [vm_compute; reflexivity|]. split; [rewrite F2R_neg by lia; cbn; lra|split; reflexivity]. }
    apply (weight_small (sin m) (sin a) (f_mul m a) (3 / 16777216) (63 / 134217728) (5 / 134217728) 13.12); auto; try lra.
    - rewrite Eq, val_fin. cbn [cond_Zopp]. rewrite Rabs_pos_eq; lra.
    - apply (fmt_dy 9 (-24)); [reflexivity|lia|]. rewrite F2R_neg by lia. change (2 ^ (- (-24))) with 16777216. lra.
    - apply (fmt_dy 63 (-27)); [reflexivity|lia|]. rewrite F2R_neg by lia. change (2 ^ (- (-27))) with 134217728. lra.
    - apply (fmt_dy 5 (-27)); [reflexivity|lia|]. rewrite F2R_neg by lia. change (2 ^ (- (-27))) with 134217728. lra.
  Qed.
  Lemma line_long : line sin 8388610 8388610 (fun _ => 255) 8388609 = 0.
  Proof.
    unfold line, pick. rewrite win_long. cbv zeta. rewrite kernel_3. destruct kernel_1 as [F1 B1]. destruct kernel_2 as [F2 B2].
    set (w1 := lanczos_kernel sin (f_of_Z (-1))) in *. set (w2 := lanczos_kernel sin (f_of_Z (-2))) in *. clearbody w1 w2.
    assert (f_add f_zero f_zero = f_zero) as Z0 by reflexivity. cbn [fold_left]. rewrite Z0.
    assert (forall m e, Z.abs m < 2 ^ 24 -> -149 <= e -> fmt (F2R (Float radix2 m e))) as FM by (intros; apply fmt_F2R; auto).
    assert (fmt (5 / 134217728)%R) as G1 by (apply (fmt_dy 5 (-27)); [reflexivity|lia|]; rewrite F2R_neg by lia; change (2 ^ (- (-27))) with 134217728; lra).
    assert (fmt (15 / 134217728)%R) as G2 by (apply (fmt_dy 15 (-27)); [reflexivity|lia|]; rewrite F2R_neg by lia; change (2 ^ (- (-27))) with 134217728; lra).
    destruct (add_bound f_zero w2 (5 / 134217728)%R fin_zero F2 G1) as (A1 & _ & C1); [rewrite val_zero, Rplus_0_l; exact B2|apply big; lra|].
    destruct (add_bound (f_add f_zero w2) w1 (15 / 134217728)%R A1 F1 G2) as (A2 & _ & C2); [apply Rabs_le_inv in C1, B1; apply Rabs_le; lra|apply big; lra|].
    destruct (abs_ok _ A2) as [A3 C3]. destruct eps_ok as [FE VE].
    rewrite lt_ok, C3, VE, Rlt_bool_false by (auto; lra). cbn [fst snd wsum].
    destruct (of_Z_exact 255 ltac:(lia)) as [F255' V255].
    assert (forall w, fin w -> (Rabs (val w) <= 10 / 134217728)%R -> fin (f_mul (f_of_Z 255) w) /\ (Rabs (val (f_mul (f_of_Z 255) w)) <= / 32)%R) as MB.
    { intros w Fw Bw. destruct (mul_bound (f_of_Z 255) w (/ 32)%R) as (X & _ & Y); auto.
      - apply (fmt_dy 1 (-5)); [reflexivity|lia|]. rewrite F2R_neg by lia. change (2 ^ (- (-5))) with 32. lra.
      - rewrite Rabs_mult, V255, (Rabs_pos_eq 255) by lra. lra.
      - apply big. lra. }
    assert (fmt (/ 32)%R) as G3 by (apply (fmt_dy 1 (-5)); [reflexivity|lia|]; rewrite F2R_neg by lia; change (2 ^ (- (-5))) with 32; lra).
    assert (fmt (/ 16)%R) as G4 by (apply (fmt_dy 1 (-4)); [reflexivity|lia|]; rewrite F2R_neg by lia; change (2 ^ (- (-4))) with 16; lra).
    assert (fmt (/ 8)%R) as G5 by (apply (fmt_dy 1 (-3)); [reflexivity|lia|]; rewrite F2R_neg by lia; change (2 ^ (- (-3))) with 8; lra).
    destruct (MB f_zero fin_zero) as [M0 D0]; [rewrite val_zero, Rabs_R0; lra|]. destruct (MB w2 F2 ltac:(lra)) as [M2 D2]. destruct (MB w1 F1 ltac:(lra)) as [M1 D1].
    destruct (add_bound f_zero _ (/ 32)%R fin_zero M0 G3) as (S0 & _ & K0); [rewrite val_zero, Rplus_0_l; exact D0|apply big; lra|].
    destruct (add_bound _ _ (/ 16)%R S0 M2 G4) as (S1 & _ & K1); [apply Rabs_le_inv in K0, D2; apply Rabs_le; lra|apply big; lra|].
    destruct (add_bound _ _ (/ 8)%R S1 M1 G5) as (S2 & _ & K2); [apply Rabs_le_inv in K1, D1; apply Rabs_le; lra|apply big; lra|].
    apply eq_IZR. rewrite rhaz_level by exact S2. apply Rabs_le_inv in K2.
    assert (rhaz (val (f_add (f_add (f_add f_zero (f_mul (f_of_Z 255) f_zero)) (f_mul (f_of_Z 255) w2)) (f_mul (f_of_Z 255) w1))) = 0) as -> by (apply Z.le_antisymm; [apply rhaz_lt|apply rhaz_gt]; lra).
    unfold level. rewrite Rmin_left, Rmax_left; lra.
  Qed.
  Lemma long_line_l data : Forall (fun b => b = 255) data -> zlen data = 8388610 ->
    resizable long_line data /\ exists out, resize sin data long_line = Ok out /\ zlen out = 8388610 /\ znth out 8388609 = 0.
  Proof.
    intros FD L. assert (resizable long_line data) as HR.
    { unfold resizable, long_line, bytes. cbn [r_sw r_sh r_dw r_dh r_ct bytes_per_pixel]. change (2 ^ 24) with 16777216. repeat (split; [lia|]). split; [|lia].
      eapply Forall_impl; [|exact FD]. intros b ->. unfold is_byte. lia. }
    split; [exact HR|]. destruct (lanczos_l sin data long_line HR eq_refl) as (out & E & _ & Lo & P). exists out. split; [exact E|].
    change (r_dw long_line * r_dh long_line * bytes_per_pixel (r_ct long_line)) with 8388610 in Lo. split; [exact Lo|].
    specialize (P 8388609 0 0). cbn [long_line r_sw r_sh r_dw r_dh r_ct bytes_per_pixel] in P. specialize (P ltac:(lia) ltac:(lia) ltac:(lia)).
    set (q := line sin 8388610 8388610 (fun i => px data 8388610 1 i 0 0) 8388609) in *.
    assert (q = 0) as Q.
    { unfold q. rewrite (line_ext sin _ _ _ (fun _ => 255)); try (change (2 ^ 24) with 16777216; lia); [exact line_long|].
      intros i Hi. unfold px. rewrite Forall_forall in FD. apply FD. unfold znth. apply nth_In. unfold zlen in L. lia. }
    rewrite (line_flat sin GS 1 1 _ 0 0) in P; try lia.
    - unfold px in P. exact P.
    - unfold is_byte. lia.
    - intros j Hj. replace j with 0 by lia. exact Q.
  Qed.
End Sin.
(** such a sine exists *)
Definition near_sine (x : f32) : f32 :=
  if Req_EM_T (val x) (- 13176795 / 4194304) then f_const 3 (-25) else if Req_EM_T (val x) (- 13176795 / 2097152) then f_const (-3) (-24) else fine_sine x.
Lemma near_vals : (fin (f_const 3 (-25)) /\ val (f_const 3 (-25)) = (3 / 33554432)%R) /\ (fin (f_const (-3) (-24)) /\ val (f_const (-3) (-24)) = (- 3 / 16777216)%R).
Proof.
  assert (f_const 3 (-25) = S754_finite false 12582912 (-47)) as -> by (vm_compute; reflexivity).
  assert (f_const (-3) (-24) = S754_finite true 12582912 (-46)) as -> by (vm_compute; reflexivity).
  split; (split; [split; reflexivity|]); rewrite val_fin, F2R_neg by lia; cbn [cond_Zopp].
  - change (2 ^ (- (-47))) with 140737488355328. lra.
  - change (2 ^ (- (-46))) with 70368744177664. unfold cond_Zopp. change (- Z.pos 12582912) with (-12582912). lra.
Qed.
Lemma near_sine_ok : good_sine near_sine /\ small_at_pi near_sine.
Proof.
  destruct near_vals as [[F1 V1] [F2 V2]]. pose proof pi_bounds as PB. split.
  - intros x F B. unfold near_sine. destruct (Req_EM_T (val x) (- 13176795 / 4194304)) as [E|E]; [|destruct (Req_EM_T (val x) (- 13176795 / 2097152)) as [E'|E']; [|apply fine_sine_good; auto]].
    + split; auto. rewrite V1, E. change (bpow radix2 (-22)) with (/ 4194304)%R. rewrite (Rabs_left (- 13176795 / 4194304)) by lra.
      pose proof (sin_lip (- 13176795 / 4194304) (- PI)) as L. rewrite sin_neg, sin_PI in L. rewrite (Rabs_left (_ - - PI)) in L by lra. apply Rabs_le_inv in L. apply Rabs_le. lra.
    + split; auto. rewrite V2, E'. change (bpow radix2 (-22)) with (/ 4194304)%R. rewrite (Rabs_left (- 13176795 / 2097152)) by lra.
      pose proof (sin_lip (- 13176795 / 2097152) (- (2 * PI))) as L. rewrite sin_neg, sin_2PI in L. rewrite (Rabs_left (_ - - (2 * PI))) in L by lra. apply Rabs_le_inv in L. apply Rabs_le. lra.
  - assert (val (f_mul F_PI (f_of_Z (-1))) = - 13176795 / 4194304)%R as M1.
    { assert (f_mul F_PI (f_of_Z (-1)) = S754_finite true 13176795 (-22)) as -> by (vm_compute; reflexivity). rewrite val_fin, F2R_neg by lia. reflexivity. }
    assert (val (f_mul F_PI (f_of_Z (-2))) = - 13176795 / 2097152)%R as M2.
    { assert (f_mul F_PI (f_of_Z (-2)) = S754_finite true 13176795 (-21)) as -> by (vm_compute; reflexivity). rewrite val_fin, F2R_neg by lia. reflexivity. }
    split; unfold near_sine.
    + rewrite M1. destruct (Req_EM_T _ _) as [_|N]; [|exfalso; apply N; reflexivity]. rewrite V1, Rabs_pos_eq; lra.
    + rewrite M2. destruct (Req_EM_T _ _) as [Q|_]; [lra|]. destruct (Req_EM_T _ _) as [_|N]; [|exfalso; apply N; reflexivity]. rewrite V2, Rabs_left; lra.
Qed.
