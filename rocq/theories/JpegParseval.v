(** The 8x8 DCT of T.81 over the reals is orthonormal: the inverse undoes the forward
    transform and both keep the sum of squares. *)
From Coq Require Import Reals Lra Lia.
From Verif Require Import Base JpegIdctReal JpegDctSpec JpegDctReal.
Open Scope R_scope.

Definition A (u x : nat) : R := / 2 * cfac u * basis u x.
Definition sum8 (f : nat -> R) : R := f 0%nat + f 1%nat + f 2%nat + f 3%nat + f 4%nat + f 5%nat + f 6%nat + f 7%nat.
Lemma rsum8 f : rsum f 8 = sum8 f.
Proof. unfold rsum, sum8. cbn. ring. Qed.

Lemma prod_tab a b : C a * C b = (CC (a + b) + CC (a - b) + CC (b - a) - 1) / 2.
Proof.
  rewrite <- !C_red. destruct (Nat.le_ge_cases a b) as [H|H].
  - pose proof (C_mul b a H) as E. replace (a - b)%nat with 0%nat by lia. rewrite C0. rewrite (Nat.add_comm a b). lra.
  - pose proof (C_mul a b H) as E. replace (b - a)%nat with 0%nat by lia. rewrite C0. lra.
Qed.
Ltac product a b := let E := fresh "P" in pose proof (prod_tab a b) as E; cbv [CC red Nat.modulo Nat.divmod Nat.add Nat.sub Nat.ltb Nat.leb snd fst] in E; rewrite ?C0, ?C8 in E.
Ltac products := product 1%nat 1%nat; product 1%nat 2%nat; product 1%nat 3%nat; product 1%nat 4%nat; product 1%nat 5%nat; product 1%nat 6%nat; product 1%nat 7%nat;
  product 2%nat 2%nat; product 2%nat 3%nat; product 2%nat 4%nat; product 2%nat 5%nat; product 2%nat 6%nat; product 2%nat 7%nat;
  product 3%nat 3%nat; product 3%nat 4%nat; product 3%nat 5%nat; product 3%nat 6%nat; product 3%nat 7%nat;
  product 4%nat 4%nat; product 4%nat 5%nat; product 4%nat 6%nat; product 4%nat 7%nat;
  product 5%nat 5%nat; product 5%nat 6%nat; product 5%nat 7%nat; product 6%nat 6%nat; product 6%nat 7%nat; product 7%nat 7%nat.
Lemma A_val u x : A u x = / 2 * (match u with O => C 4 | _ => CC ((2 * x + 1) * u) end).
Proof.
  unfold A. rewrite basis_C. destruct u as [|u]; [|unfold cfac; ring].
  rewrite Nat.mul_0_r. change (CC 0) with (C 0). rewrite C0, cfac0. ring.
Qed.
Ltac entries := unfold sum8; rewrite !A_val; cbv [CC red Nat.modulo Nat.divmod Nat.add Nat.mul Nat.sub Nat.ltb Nat.leb snd fst]; rewrite ?C0, ?C8.
Ltac below8 x H := destruct x as [|[|[|[|[|[|[|[|x]]]]]]]]; [..|exfalso; lia]; clear H.
Lemma rows_orth : forall u v, (u < 8)%nat -> (v < 8)%nat -> sum8 (fun x => A u x * A v x) = if Nat.eqb u v then 1 else 0.
Proof. products. intros u v Hu Hv. below8 u Hu; below8 v Hv; cbv [Nat.eqb]; entries; lra. Qed.
Lemma cols_orth : forall x y, (x < 8)%nat -> (y < 8)%nat -> sum8 (fun u => A u x * A u y) = if Nat.eqb x y then 1 else 0.
Proof. products. intros u v Hu Hv. below8 u Hu; below8 v Hv; cbv [Nat.eqb]; entries; lra. Qed.

Definition TI (x : nat) (F : nat -> R) : R := sum8 (fun u => F u * A u x).
Lemma T_A u X : T u X = sum8 (fun x => X x * A u x).
Proof. unfold T. rewrite rsum8. unfold sum8, A. ring. Qed.
Lemma sum8_swap (f : nat -> nat -> R) : sum8 (fun a => sum8 (fun b => f a b)) = sum8 (fun b => sum8 (fun a => f a b)).
Proof. unfold sum8. ring. Qed.
Lemma sum8_ext f g : (forall i, (i < 8)%nat -> f i = g i) -> sum8 f = sum8 g.
Proof. intros H. unfold sum8. rewrite !H by lia. reflexivity. Qed.
Lemma sum8_mul c f : c * sum8 f = sum8 (fun i => c * f i).
Proof. unfold sum8. ring. Qed.
Lemma sum8_pick f x : (x < 8)%nat -> sum8 (fun y => f y * (if Nat.eqb y x then 1 else 0)) = f x.
Proof. intros H. unfold sum8. below8 x H; cbv [Nat.eqb]; ring. Qed.
Lemma inverse1 x X : (x < 8)%nat -> TI x (fun u => T u X) = X x.
Proof.
  intros H. unfold TI. rewrite (sum8_ext _ (fun u => sum8 (fun y => X y * (A u y * A u x)))).
  2:{ intros u _. rewrite T_A. unfold sum8. ring. }
  rewrite sum8_swap. rewrite (sum8_ext _ (fun y => X y * (if Nat.eqb y x then 1 else 0))).
  2:{ intros y Hy. rewrite <- sum8_mul. f_equal. apply cols_orth; assumption. }
  apply sum8_pick. exact H.
Qed.
Lemma squares1 F : sum8 (fun x => TI x F * TI x F) = sum8 (fun u => F u * F u).
Proof.
  rewrite (sum8_ext _ (fun x => sum8 (fun u => sum8 (fun v => F u * F v * (A u x * A v x))))).
  2:{ intros x _. unfold TI at 2. rewrite sum8_mul. apply sum8_ext. intros u _. unfold TI. unfold sum8. ring. }
  rewrite sum8_swap. apply sum8_ext. intros u Hu. rewrite sum8_swap.
  rewrite (sum8_ext _ (fun v => F u * F v * (if Nat.eqb v u then 1 else 0))).
  2:{ intros v Hv. rewrite <- sum8_mul. f_equal. rewrite rows_orth by assumption. rewrite Nat.eqb_sym. reflexivity. }
  apply (sum8_pick (fun v => F u * F v)). exact Hu.
Qed.

(** ** Two dimensions *)
Definition ridct (G : nat -> R) (x y : nat) : R := TI y (fun v => TI x (fun u => G (8 * v + u)%nat)).
Lemma ridct_real coefs x y : real_idct coefs x y = ridct (fun n => IZR (znth coefs (Z.of_nat n))) x y.
Proof.
  unfold real_idct, ridct, TI, sum8, A.
  change (seq 0 64) with [0;1;2;3;4;5;6;7;8;9;10;11;12;13;14;15;16;17;18;19;20;21;22;23;24;25;26;27;28;29;30;31;32;33;34;35;36;37;38;39;40;41;42;43;44;45;46;47;48;49;50;51;52;53;54;55;56;57;58;59;60;61;62;63]%nat.
  cbn [map fold_right].
  repeat match goal with |- context [(?a mod 8)%nat] => let r := eval vm_compute in (a mod 8)%nat in change (a mod 8)%nat with r end.
  repeat match goal with |- context [(?a / 8)%nat] => let r := eval vm_compute in (a / 8)%nat in change (a / 8)%nat with r end.
  cbn [Nat.mul Nat.add]. generalize (fun n => IZR (znth coefs (Z.of_nat n))) as G.
  replace (/ 4) with (/ 2 * / 2) by lra. intros G. ring.
Qed.
Lemma TI_ext x F G : (forall u, (u < 8)%nat -> F u = G u) -> TI x F = TI x G.
Proof. intros H. apply sum8_ext. intros u Hu. rewrite H by exact Hu. reflexivity. Qed.
Lemma TI_minus x F G : TI x F - TI x G = TI x (fun u => F u - G u).
Proof. unfold TI, sum8. ring. Qed.
Lemma ridct_minus F G x y : ridct F x y - ridct G x y = ridct (fun n => F n - G n) x y.
Proof. unfold ridct. rewrite TI_minus. apply TI_ext. intros v _. apply TI_minus. Qed.
Lemma rm8 v u : (u < 8)%nat -> ((8 * v + u) mod 8 = u /\ (8 * v + u) / 8 = v)%nat.
Proof.
  intros H. replace (8 * v + u)%nat with (u + v * 8)%nat by lia. rewrite Nat.mod_add, Nat.div_add by lia.
  rewrite Nat.mod_small, Nat.div_small by lia. lia.
Qed.
Lemma T_TI v x (f : nat -> nat -> R) : T v (fun y => TI x (fun u => f u y)) = TI x (fun u => T v (f u)).
Proof. rewrite T_A. unfold TI. rewrite (sum8_ext (fun u => T v (f u) * A u x) (fun u => sum8 (fun y => f u y * A v y) * A u x)) by (intros u _; rewrite T_A; reflexivity). unfold sum8. ring. Qed.
Lemma inverse2 s x y : (x < 8)%nat -> (y < 8)%nat -> ridct (real_fdct s) x y = s (8 * y + x)%nat.
Proof.
  intros Hx Hy. unfold ridct.
  rewrite (TI_ext y _ (fun v => T v (fun y' => s (8 * y' + x)%nat))).
  - rewrite inverse1 by exact Hy. reflexivity.
  - intros v Hv. rewrite (TI_ext x _ (fun u => T v (fun y' => T u (fun x' => s (8 * y' + x')%nat)))).
    2:{ intros u Hu. rewrite real_fdct_T. destruct (rm8 v u Hu) as [-> ->]. reflexivity. }
    rewrite <- (T_TI v x (fun u y' => T u (fun x' => s (8 * y' + x')%nat))).
    apply T_ext. intros y' Hy'. apply (inverse1 x (fun x' => s (8 * y' + x')%nat) Hx).
Qed.
Lemma rsum64 f : rsum f 64 = sum8 (fun y => sum8 (fun x => f (8 * y + x)%nat)).
Proof.
  unfold rsum, sum8.
  change (seq 0 64) with [0;1;2;3;4;5;6;7;8;9;10;11;12;13;14;15;16;17;18;19;20;21;22;23;24;25;26;27;28;29;30;31;32;33;34;35;36;37;38;39;40;41;42;43;44;45;46;47;48;49;50;51;52;53;54;55;56;57;58;59;60;61;62;63]%nat.
  cbn [map fold_right Nat.mul Nat.add]. ring.
Qed.
Lemma squares2 G : rsum (fun m => ridct G (m mod 8) (m / 8) * ridct G (m mod 8) (m / 8)) 64 = rsum (fun n => G n * G n) 64.
Proof.
  rewrite !rsum64.
  rewrite (sum8_ext _ (fun y => sum8 (fun x => ridct G x y * ridct G x y))).
  2:{ intros y _. apply sum8_ext. intros x Hx. destruct (rm8 y x Hx) as [-> ->]. reflexivity. }
  rewrite sum8_swap. unfold ridct. rewrite (sum8_ext _ (fun x => sum8 (fun v => TI x (fun u => G (8 * v + u)%nat) * TI x (fun u => G (8 * v + u)%nat)))).
  2:{ intros x _. apply squares1. }
  rewrite sum8_swap. apply sum8_ext. intros v _. apply (squares1 (fun u => G (8 * v + u)%nat)).
Qed.
(** coefficients off by [E n] give samples off by as much in the sum of squares *)
Theorem parseval_error coefs s : rsum (fun m => (real_idct coefs (m mod 8) (m / 8) - s m) * (real_idct coefs (m mod 8) (m / 8) - s m)) 64 =
  rsum (fun n => (IZR (znth coefs (Z.of_nat n)) - real_fdct s n) * (IZR (znth coefs (Z.of_nat n)) - real_fdct s n)) 64.
Proof.
  rewrite <- (squares2 (fun n => IZR (znth coefs (Z.of_nat n)) - real_fdct s n)). rewrite !rsum64.
  apply sum8_ext. intros y Hy. apply sum8_ext. intros x Hx. destruct (rm8 y x Hx) as [-> ->].
  rewrite <- ridct_minus, <- ridct_real, inverse2 by assumption. reflexivity.
Qed.
