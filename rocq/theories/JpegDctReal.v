(** Real arithmetic for the forward DCT: cosines of multiples of pi / 16, the
    one-dimensional transform, its bounds, and the AAN factorisation. *)
From Coq Require Import Reals Lra Lia.
From Verif Require Import Base JpegIdctReal JpegDctSpec.
Open Scope R_scope.

Definition C (k : nat) : R := cos (INR k * PI / 16).
Lemma C0 : C 0 = 1. Proof. unfold C. replace (INR 0 * PI / 16) with 0 by (cbn; lra). apply cos_0. Qed.
Lemma C8 : C 8 = 0. Proof. unfold C. replace (INR 8 * PI / 16) with (PI / 2) by (cbn; lra). apply cos_PI2. Qed.
Lemma C_period k : C (k + 32) = C k.
Proof. unfold C. rewrite plus_INR. replace ((INR k + INR 32) * PI / 16) with (INR k * PI / 16 + 2 * INR 1 * PI) by (cbn; lra). apply cos_period. Qed.
Lemma C_refl k : (k <= 32)%nat -> C (32 - k) = C k.
Proof. intros H. unfold C. rewrite minus_INR by auto. replace ((INR 32 - INR k) * PI / 16) with (- (INR k * PI / 16) + 2 * INR 1 * PI) by (cbn; lra). rewrite cos_period. apply cos_neg. Qed.
Lemma C_half k : (k <= 16)%nat -> C (16 - k) = - C k.
Proof. intros H. unfold C. rewrite minus_INR by auto. replace ((INR 16 - INR k) * PI / 16) with (- (INR k * PI / 16) + PI) by (cbn; lra). rewrite neg_cos. rewrite cos_neg. reflexivity. Qed.
(** reduction to 0..8 with a sign *)
Definition red (n : nat) : bool * nat :=
  let m := (n mod 32)%nat in let m := if (16 <? m)%nat then (32 - m)%nat else m in
  if (8 <? m)%nat then (true, (16 - m)%nat) else (false, m).
Definition CC (n : nat) : R := let (s, k) := red n in if s then - C k else C k.
Lemma C_red n : C n = CC n.
Proof.
  unfold CC, red. assert (C n = C (n mod 32)) as E.
  { rewrite (Nat.div_mod n 32) at 1 by lia. generalize (n / 32)%nat. intros q. induction q as [|q IH]; [f_equal; lia|].
    replace (32 * S q + n mod 32)%nat with (32 * q + n mod 32 + 32)%nat by lia. rewrite C_period. exact IH. }
  rewrite E. pose proof (Nat.mod_upper_bound n 32). set (m := (n mod 32)%nat) in *. clearbody m.
  destruct (Nat.ltb_spec 16 m).
  - rewrite <- (C_refl m) by lia. destruct (Nat.ltb_spec 8 (32 - m)); [|reflexivity]. rewrite <- (C_half (16 - (32 - m))) by lia. f_equal. lia.
  - destruct (Nat.ltb_spec 8 m); [|reflexivity]. rewrite <- (C_half (16 - m)) by lia. f_equal. lia.
Qed.
Lemma basis_C u x : basis u x = CC ((2 * x + 1) * u).
Proof. rewrite <- C_red. unfold basis, C. rewrite mult_INR. reflexivity. Qed.

(** products *)
Lemma C_mul a b : (b <= a)%nat -> 2 * C a * C b = C (a + b) + C (a - b).
Proof.
  intros H. unfold C. rewrite plus_INR, minus_INR by auto. replace ((INR a + INR b) * PI / 16) with (INR a * PI / 16 + INR b * PI / 16) by lra.
  replace ((INR a - INR b) * PI / 16) with (INR a * PI / 16 - INR b * PI / 16) by lra. rewrite cos_plus, cos_minus. lra.
Qed.
Lemma C_pos k : (k < 8)%nat -> 0 < C k.
Proof. intros H. unfold C. pose proof PI_RGT_0. apply lt_INR in H. replace (INR 8) with 8 in H by (cbn; lra). pose proof (pos_INR k). apply cos_gt_0; nra. Qed.
Lemma sq k : 2 * C k * C k = C (k + k) + 1.
Proof. rewrite C_mul by lia. rewrite Nat.sub_diag, C0. reflexivity. Qed.
(** bounds from the squares *)
Lemma sq_bounds x lo hi : 0 < x -> 0 <= lo -> 0 <= hi -> lo * lo <= x * x <= hi * hi -> lo <= x <= hi.
Proof. intros. split; nra. Qed.
Ltac bnd := apply sq_bounds; [apply C_pos; lia|lra|lra|].
Lemma C4b : 0.7071067811 <= C 4 <= 0.7071067812.
Proof. bnd. pose proof (sq 4) as E. change (4 + 4)%nat with 8%nat in E. rewrite C8 in E. lra. Qed.
Lemma C2b : 0.9238795324 <= C 2 <= 0.9238795326.
Proof. bnd. pose proof (sq 2) as E. change (2 + 2)%nat with 4%nat in E. pose proof C4b. lra. Qed.
Lemma C6b : 0.3826834323 <= C 6 <= 0.3826834325.
Proof. bnd. pose proof (sq 6) as E. change (6 + 6)%nat with (16 - 4)%nat in E. rewrite C_half in E by lia. pose proof C4b. lra. Qed.
Lemma C1b : 0.9807852803 <= C 1 <= 0.9807852805.
Proof. bnd. pose proof (sq 1) as E. change (1 + 1)%nat with 2%nat in E. pose proof C2b. lra. Qed.
Lemma C3b : 0.8314696122 <= C 3 <= 0.8314696124.
Proof. bnd. pose proof (sq 3) as E. change (3 + 3)%nat with 6%nat in E. pose proof C6b. lra. Qed.
Lemma C5b : 0.5555702329 <= C 5 <= 0.5555702332.
Proof. bnd. pose proof (sq 5) as E. change (5 + 5)%nat with (16 - 6)%nat in E. rewrite C_half in E by lia. pose proof C6b. lra. Qed.
Lemma C7b : 0.1950903218 <= C 7 <= 0.1950903223.
Proof. bnd. pose proof (sq 7) as E. change (7 + 7)%nat with (16 - 2)%nat in E. rewrite C_half in E by lia. pose proof C2b. lra. Qed.

(** ** One dimension *)
Definition T (u : nat) (X : nat -> R) : R := / 2 * cfac u * rsum (fun x => X x * basis u x) 8.
Lemma cfac0 : cfac 0 = C 4.
Proof. unfold cfac, C. replace (INR 4 * PI / 16) with (PI / 4) by (cbn; lra). rewrite cos_PI4. lra. Qed.
Ltac evalC := rewrite ?basis_C; repeat match goal with |- context [CC ?n] => let r := eval cbv -[C Ropp] in (CC n) in change (CC n) with r end; rewrite ?C0, ?C8.
Ltac openT := unfold T, rsum; cbn [map seq fold_right]; evalC; rewrite ?cfac0; cbn [cfac].
Lemma T0 X : T 0 X = / 2 * C 4 * (X 0%nat + X 1%nat + X 2%nat + X 3%nat + X 4%nat + X 5%nat + X 6%nat + X 7%nat). Proof. openT. ring. Qed.
Lemma T1 X : T 1 X = / 2 * (C 1 * (X 0%nat - X 7%nat) + C 3 * (X 1%nat - X 6%nat) + C 5 * (X 2%nat - X 5%nat) + C 7 * (X 3%nat - X 4%nat)). Proof. openT. ring. Qed.
Lemma T2 X : T 2 X = / 2 * (C 2 * (X 0%nat + X 7%nat - X 3%nat - X 4%nat) + C 6 * (X 1%nat + X 6%nat - X 2%nat - X 5%nat)). Proof. openT. ring. Qed.
Lemma T3 X : T 3 X = / 2 * (C 3 * (X 0%nat - X 7%nat) - C 7 * (X 1%nat - X 6%nat) - C 1 * (X 2%nat - X 5%nat) - C 5 * (X 3%nat - X 4%nat)). Proof. openT. ring. Qed.
Lemma T4 X : T 4 X = / 2 * C 4 * (X 0%nat + X 7%nat + X 3%nat + X 4%nat - (X 1%nat + X 6%nat + X 2%nat + X 5%nat)). Proof. openT. ring. Qed.
Lemma T5 X : T 5 X = / 2 * (C 5 * (X 0%nat - X 7%nat) - C 1 * (X 1%nat - X 6%nat) + C 7 * (X 2%nat - X 5%nat) + C 3 * (X 3%nat - X 4%nat)). Proof. openT. ring. Qed.
Lemma T6 X : T 6 X = / 2 * (C 6 * (X 0%nat + X 7%nat - X 3%nat - X 4%nat) - C 2 * (X 1%nat + X 6%nat - X 2%nat - X 5%nat)). Proof. openT. ring. Qed.
Lemma T7 X : T 7 X = / 2 * (C 7 * (X 0%nat - X 7%nat) - C 5 * (X 1%nat - X 6%nat) + C 3 * (X 2%nat - X 5%nat) - C 1 * (X 3%nat - X 4%nat)). Proof. openT. ring. Qed.
Ltac eight u := destruct u as [|[|[|[|[|[|[|[|u]]]]]]]]; try lia.

Lemma T_ext u X Y : (forall x, (x < 8)%nat -> X x = Y x) -> T u X = T u Y.
Proof. intros H. unfold T, rsum. cbn [map seq fold_right]. rewrite !H by lia. reflexivity. Qed.
Lemma T_plus u X Y : T u (fun x => X x + Y x) = T u X + T u Y.
Proof. unfold T, rsum. cbn [map seq fold_right]. ring. Qed.
Lemma T_minus u X Y : T u (fun x => X x - Y x) = T u X - T u Y.
Proof. unfold T, rsum. cbn [map seq fold_right]. ring. Qed.
(** constants do not matter beyond the first coefficient *)
Lemma T_const u c : (1 <= u < 8)%nat -> T u (fun _ => c) = 0.
Proof. intros H. eight u; rewrite ?T1, ?T2, ?T3, ?T4, ?T5, ?T6, ?T7; ring. Qed.

Definition norm1 : R := 2.8284272.
Lemma T_bound u X B : (u < 8)%nat -> (forall x, (x < 8)%nat -> Rabs (X x) <= B) -> Rabs (T u X) <= norm1 * B.
Proof.
  intros Hu H. assert (0 <= B) as HB by (eapply Rle_trans; [apply Rabs_pos|apply (H 0%nat); lia]).
  assert (Rabs (rsum (fun x => X x * basis u x) 8) <= B * rsum (fun x => Rabs (basis u x)) 8) as HS.
  { unfold rsum. assert (forall n, (n <= 8)%nat -> Rabs (fold_right Rplus 0 (map (fun x => X x * basis u x) (seq (8 - n) n))) <= B * fold_right Rplus 0 (map (fun x => Rabs (basis u x)) (seq (8 - n) n))) as G.
    { induction n as [|n IH]; intros L. cbn. rewrite Rabs_R0. lra.
      cbn [seq map fold_right]. replace (S (8 - S n)) with (8 - n)%nat by lia. specialize (IH ltac:(lia)).
      eapply Rle_trans; [apply Rabs_triang|]. rewrite Rabs_mult, Rmult_plus_distr_l. apply Rplus_le_compat; [|exact IH].
      apply Rmult_le_compat_r; [apply Rabs_pos|apply H; lia]. }
    exact (G 8%nat ltac:(lia)). }
  unfold T. rewrite !Rabs_mult. rewrite (Rabs_pos_eq (/ 2)) by lra.
  assert (/ 2 * Rabs (cfac u) * rsum (fun x => Rabs (basis u x)) 8 <= norm1) as HN.
  { unfold rsum, norm1. cbn [map seq fold_right].
    pose proof C1b; pose proof C2b; pose proof C3b; pose proof C4b; pose proof C5b; pose proof C6b; pose proof C7b.
    eight u; evalC; rewrite ?cfac0; cbn [cfac]; rewrite ?Rabs_Ropp, ?Rabs_R1;
      repeat match goal with |- context [Rabs (C ?k)] => rewrite (Rabs_pos_eq (C k)) by lra end; lra. }
  eapply Rle_trans; [apply Rmult_le_compat_l; [|exact HS]|].
  { apply Rmult_le_pos; [lra|apply Rabs_pos]. }
  replace (/ 2 * Rabs (cfac u) * (B * rsum (fun x => Rabs (basis u x)) 8)) with (B * (/ 2 * Rabs (cfac u) * rsum (fun x => Rabs (basis u x)) 8)) by ring.
  rewrite (Rmult_comm norm1). apply Rmult_le_compat_l; auto.
Qed.

(** ** Two dimensions *)
Lemma real_fdct_T s n : real_fdct s n = T (n / 8) (fun y => T (n mod 8) (fun x => s (8 * y + x)%nat)).
Proof.
  unfold real_fdct, T. generalize (n mod 8)%nat (n / 8)%nat. intros u v. unfold rsum. 
  change (seq 0 64) with [0;1;2;3;4;5;6;7;8;9;10;11;12;13;14;15;16;17;18;19;20;21;22;23;24;25;26;27;28;29;30;31;32;33;34;35;36;37;38;39;40;41;42;43;44;45;46;47;48;49;50;51;52;53;54;55;56;57;58;59;60;61;62;63]%nat.
  change (seq 0 8) with [0;1;2;3;4;5;6;7]%nat. cbn [map fold_right].
  repeat match goal with |- context [(?a mod 8)%nat] => let r := eval vm_compute in (a mod 8)%nat in change (a mod 8)%nat with r end.
  repeat match goal with |- context [(?a / 8)%nat] => let r := eval vm_compute in (a / 8)%nat in change (a / 8)%nat with r end.
  cbn [Nat.mul Nat.add]. replace (/ 4) with (/ 2 * / 2) by lra. ring.
Qed.

(** ** The AAN factorisation *)
Section Aan.
  Variable X : nat -> R.
  Let t0 := X 0%nat + X 7%nat. Let t7 := X 0%nat - X 7%nat. Let t1 := X 1%nat + X 6%nat. Let t6 := X 1%nat - X 6%nat.
  Let t2 := X 2%nat + X 5%nat. Let t5 := X 2%nat - X 5%nat. Let t3 := X 3%nat + X 4%nat. Let t4 := X 3%nat - X 4%nat.
  Let t10 := t0 + t3. Let t13 := t0 - t3. Let t11 := t1 + t2. Let t12 := t1 - t2.
  Let z1 := (t12 + t13) * C 4.
  Let p10 := t4 + t5. Let p11 := t5 + t6. Let p12 := t6 + t7.
  Let z5 := (p10 - p12) * C 6. Let z2 := p10 * (C 2 - C 6) + z5. Let z4 := p12 * (C 2 + C 6) + z5.
  Let z3 := p11 * C 4. Let z11 := t7 + z3. Let z13 := t7 - z3.
  Let prods : C 4 * C 4 = / 2 /\ C 2 * C 2 = (C 4 + 1) / 2 /\ C 6 * C 6 = (1 - C 4) / 2 /\ C 6 * C 2 = C 4 / 2.
  Proof.
    pose proof (sq 4) as A. change (4 + 4)%nat with 8%nat in A. rewrite C8 in A. pose proof (sq 2) as B. change (2 + 2)%nat with 4%nat in B.
    pose proof (sq 6) as D. change (6 + 6)%nat with (16 - 4)%nat in D. rewrite C_half in D by lia.
    pose proof (C_mul 6 2 ltac:(lia)) as E. change (6 + 2)%nat with 8%nat in E. change (6 - 2)%nat with 4%nat in E. rewrite C8 in E. repeat split; lra.
  Qed.
  Let odds : C 1 * C 1 = (C 2 + 1) / 2 /\ C 3 * C 1 = (C 4 + C 2) / 2 /\ C 5 * C 1 = (C 6 + C 4) / 2 /\ C 7 * C 1 = C 6 / 2 /\
    C 3 * C 3 = (C 6 + 1) / 2 /\ C 5 * C 3 = C 2 / 2 /\ C 7 * C 3 = (C 4 - C 6) / 2 /\ C 5 * C 5 = (1 - C 6) / 2 /\ C 7 * C 5 = (C 2 - C 4) / 2 /\ C 7 * C 7 = (1 - C 2) / 2.
  Proof.
    pose proof (sq 1) as A1. pose proof (sq 3) as A3. pose proof (sq 5) as A5. pose proof (sq 7) as A7.
    pose proof (C_mul 3 1 ltac:(lia)) as B1. pose proof (C_mul 5 1 ltac:(lia)) as B2. pose proof (C_mul 7 1 ltac:(lia)) as B3.
    pose proof (C_mul 5 3 ltac:(lia)) as B4. pose proof (C_mul 7 3 ltac:(lia)) as B5. pose proof (C_mul 7 5 ltac:(lia)) as B6.
    pose proof (C_half 6 ltac:(lia)) as H6. pose proof (C_half 2 ltac:(lia)) as H2. pose proof (C_half 4 ltac:(lia)) as H4. pose proof C8 as H8.
    cbn [Nat.add Nat.sub] in A1, A3, A5, A7, B1, B2, B3, B4, B5, B6, H6, H2, H4. repeat split; lra.
  Qed.
  Ltac fac := destruct prods as (P1 & P2 & P3 & P4); destruct odds as (Q1 & Q2 & Q3 & Q4 & Q5 & Q6 & Q7 & Q8 & Q9 & Q0);
    rewrite ?T0, ?T1, ?T2, ?T3, ?T4, ?T5, ?T6, ?T7; unfold z1, z2, z3, z4, z5, z11, z13, p10, p11, p12, t10, t11, t12, t13, t0, t1, t2, t3, t4, t5, t6, t7.
  Ltac times t H := pose proof (f_equal (Rmult t) H).
  Ltac done := unfold z1, z2, z3, z4, z5, z11, z13, p10, p11, p12, t10, t11, t12, t13, t0, t1, t2, t3, t4, t5, t6, t7 in *; lra.
  Lemma aan0 : t10 + t11 = 4 * C 4 * T 0 X. Proof. fac. times (t10 + t11) P1. done. Qed.
  Lemma aan4 : t10 - t11 = 4 * C 4 * T 4 X. Proof. fac. times (t10 - t11) P1. done. Qed.
  Lemma aan2 : t13 + z1 = 4 * C 2 * T 2 X. Proof. fac. times t13 P2. times t12 P4. done. Qed.
  Lemma aan6 : t13 - z1 = 4 * C 6 * T 6 X. Proof. fac. times t13 P3. times t12 P4. done. Qed.
  Lemma aan1 : z11 + z4 = 4 * C 1 * T 1 X. Proof. fac. times t7 Q1. times t6 Q2. times t5 Q3. times t4 Q4. done. Qed.
  Lemma aan3 : z13 - z2 = 4 * C 3 * T 3 X. Proof. fac. times t7 Q5. times t6 Q7. times t5 Q2. times t4 Q6. done. Qed.
  Lemma aan5 : z13 + z2 = 4 * C 5 * T 5 X. Proof. fac. times t7 Q8. times t6 Q3. times t5 Q9. times t4 Q6. done. Qed.
  Lemma aan7 : z11 - z4 = 4 * C 7 * T 7 X. Proof. fac. times t7 Q0. times t6 Q9. times t5 Q7. times t4 Q4. done. Qed.
End Aan.
