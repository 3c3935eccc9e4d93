(** The f32 inverse DCT against the real one. *)
From Coq Require Import Reals Lra Lia.
From Flocq Require Import Core BinarySingleNaN.
From Verif Require Import Base PngFilterModel F32Model F32Proofs ResizeModel ResizeF32 ResizeSame JpegIdctReal JpegDctModel JpegDctSpec JpegDctReal JpegDctProofs JpegIdctFModel JpegIdctFSpec.
Open Scope R_scope.

(** * The table of cosines *)
(** the cosine in millionths *)
Definition cz (n : nat) : Z :=
  let (s, k) := red n in
  let v := nth k [1000000; 980785; 923880; 831470; 707107; 555570; 382683; 195090; 0]%Z 0%Z in if s then (- v)%Z else v.
Lemma cz_near n : Rabs (CC n - IZR (cz n) / 1000000) <= 0.000001.
Proof.
  unfold CC, cz. destruct (red n) as [s k] eqn:E. assert (k <= 8)%nat as K.
  { unfold red in E. pose proof (Nat.mod_upper_bound n 32 ltac:(lia)) as MB. set (m := (n mod 32)%nat) in *. clearbody m.
    destruct (Nat.ltb_spec 16 m); (match type of E with context [(8 <? ?z)%nat] => destruct (Nat.ltb_spec 8 z) end); apply (f_equal snd) in E; unfold snd in E; lia. }
  clear E. pose proof C0; pose proof C8; pose proof C1b; pose proof C2b; pose proof C3b; pose proof C4b; pose proof C5b; pose proof C6b; pose proof C7b.
  do 9 (destruct k as [|k]; [cbn [nth]; destruct s; cbn [Z.opp]; apply Rabs_le; lra|]). lia.
Qed.
(** [x] is within [d] millionths of [c] millionths, at most one, with a negative exponent *)
Definition near (x : f32) (c d : Z) : bool :=
  valid_binary 24 128 x &&
  match x with
  | S754_finite s m e => let v := cond_Zopp s (Zpos m) in
      (e <? 0)%Z && (Z.abs (1000000 * v - c * 2 ^ (- e)) <=? d * 2 ^ (- e))%Z && (Z.abs v <=? 2 ^ (- e))%Z
  | _ => false
  end.
Lemma near_ok x c d : near x c d = true -> fin x /\ Rabs (val x - IZR c / 1000000) <= IZR d / 1000000 /\ Rabs (val x) <= 1.
Proof.
  unfold near. intros H. apply andb_prop in H. destruct H as [V H]. destruct x as [s|s| |s m e]; try discriminate H.
  apply andb_prop in H. destruct H as [H B]. apply andb_prop in H. destruct H as [E N].
  apply Z.ltb_lt in E. apply Z.leb_le in N. apply Z.leb_le in B. split; [split; [exact V|reflexivity]|].
  set (v := cond_Zopp s (Zpos m)) in *. assert (val (S754_finite s m e) = IZR v / IZR (2 ^ (- e))) as ->.
  { unfold val. cbn [SF2R]. apply F2R_neg. exact E. }
  assert (0 < IZR (2 ^ (- e))) as P by (apply (IZR_lt 0), Z.pow_pos_nonneg; lia). set (p := (2 ^ (- e))%Z) in *. clearbody p v.
  apply Z.abs_le in N, B. split; apply Rabs_le.
  - assert (IZR v / IZR p - IZR c / 1000000 = (1000000 * IZR v - IZR c * IZR p) / (1000000 * IZR p)) as -> by (field; lra).
    assert (IZR d / 1000000 = IZR d * IZR p / (1000000 * IZR p)) as -> by (field; lra).
    destruct N as [N1 N2]. apply IZR_le in N1, N2. rewrite opp_IZR, minus_IZR, !mult_IZR in N1. rewrite minus_IZR, !mult_IZR in N2.
    replace (- (IZR d * IZR p / (1000000 * IZR p))) with (- (IZR d * IZR p) / (1000000 * IZR p)) by (field; lra). split; apply Rmult_le_compat_r; try (apply Rlt_le, Rinv_0_lt_compat; lra); lra.
  - destruct B as [B1 B2]. apply IZR_le in B1, B2. rewrite opp_IZR in B1. split; [apply Rmult_le_reg_r with (IZR p)|apply Rmult_le_reg_r with (IZR p)]; try exact P;
      unfold Rdiv; rewrite Rmult_assoc, Rinv_l by lra; lra.
Qed.
Definition idx64 : list (nat * nat) := flat_map (fun i => map (fun j => (i, j)) (seq 0 8)) (seq 0 8).
Lemma table_near : forallb (fun ij => near (cos_table (fst ij) (snd ij)) (cz ((2 * fst ij + 1) * snd ij)) 12690) idx64 = true.
Proof. vm_compute. reflexivity. Qed.
Definition tau : R := 0.012691.
Lemma table_ok i j : (i < 8)%nat -> (j < 8)%nat ->
  fin (cos_table i j) /\ Rabs (val (cos_table i j) - basis j i) <= tau /\ Rabs (val (cos_table i j)) <= 1.
Proof.
  intros I J. pose proof (proj1 (forallb_forall _ _) table_near (i, j)) as H. cbn [fst snd] in H.
  destruct (near_ok _ _ _ (H ltac:(apply in_flat_map; exists i; split; [apply in_seq; lia|apply in_map; apply in_seq; lia]))) as (F & N & B).
  split; [exact F|]. split; [|exact B]. rewrite basis_C. pose proof (cz_near ((2 * i + 1) * j)) as Z. clear H. set (c := cz _) in *.
  apply Rabs_le_inv in N, Z. apply Rabs_le. unfold tau. lra.
Qed.
Lemma alpha_ok k : fin (alpha k) /\ Rabs (val (alpha k) - cfac k) <= 0.00000002 /\ Rabs (val (alpha k)) <= 1.
Proof.
  destruct k as [|k]; cbn [alpha].
  - rewrite cfac0. destruct A1_ok as [F A]. split; [exact F|]. split; [exact A|]. pose proof C4b. apply Rabs_le_inv in A. apply Rabs_le. lra.
  - cbn [cfac]. destruct (of_Z_exact 1) as [F V]; [lia|]. split; [exact F|]. rewrite V. split; apply Rabs_le; lra.
Qed.
Lemma cfac_1 k : Rabs (cfac k) <= 1.
Proof. destruct k; [rewrite cfac0; pose proof C4b; apply Rabs_le; lra|cbn [cfac]; apply Rabs_le; lra]. Qed.
Lemma basis_1 u x : Rabs (basis u x) <= 1.
Proof. unfold basis. apply Rabs_le. pose proof (COS_bound (INR (2 * x + 1) * INR u * PI / 16)). lra. Qed.

Opaque cos_table alpha.
(** * One dimension *)
Definition Rs {A} (f : A -> R) (l : list A) : R := fold_right Rplus 0 (map f l).
Lemma Rs_cons {A} (f : A -> R) a l : Rs f (a :: l) = f a + Rs f l. Proof. reflexivity. Qed.
Lemma Rs_nil {A} (f : A -> R) : Rs f [] = 0. Proof. reflexivity. Qed.
Lemma Rs_le {A} (f g : A -> R) l : (forall a, In a l -> f a <= g a) -> Rs f l <= Rs g l.
Proof. induction l as [|a l IH]; intros H; [rewrite !Rs_nil; lra|]. rewrite !Rs_cons. pose proof (H a (or_introl eq_refl)). specialize (IH (fun b Hb => H b (or_intror Hb))). lra. Qed.
Lemma Rs_pos {A} (f : A -> R) l : (forall a, In a l -> 0 <= f a) -> 0 <= Rs f l.
Proof. induction l as [|a l IH]; intros H; [rewrite Rs_nil; lra|]. rewrite Rs_cons. pose proof (H a (or_introl eq_refl)). specialize (IH (fun b Hb => H b (or_intror Hb))). lra. Qed.
Lemma Rs_abs {A} (f : A -> R) l : Rabs (Rs f l) <= Rs (fun a => Rabs (f a)) l.
Proof. induction l as [|a l IH]; [rewrite !Rs_nil, Rabs_R0; lra|]. rewrite !Rs_cons. pose proof (Rabs_triang (f a) (Rs f l)). lra. Qed.
Lemma Rs_plus {A} (f g : A -> R) l : Rs (fun a => f a + g a) l = Rs f l + Rs g l.
Proof. induction l as [|a l IH]; [rewrite !Rs_nil; lra|]. rewrite !Rs_cons, IH. lra. Qed.
Lemma Rs_scal {A} c (f : A -> R) l : Rs (fun a => c * f a) l = c * Rs f l.
Proof. induction l as [|a l IH]; [rewrite !Rs_nil; lra|]. rewrite !Rs_cons, IH. lra. Qed.
Lemma Rs_const {A} c (l : list A) : Rs (fun _ => c) l = INR (length l) * c.
Proof. induction l as [|a l IH]; [rewrite Rs_nil; cbn; lra|]. rewrite Rs_cons, IH. cbn [length]. rewrite S_INR. lra. Qed.
Lemma Rs_ext {A} (f g : A -> R) l : (forall a, In a l -> f a = g a) -> Rs f l = Rs g l.
Proof. intros H. apply Rle_antisym; apply Rs_le; intros a Ha; rewrite (H a Ha); lra. Qed.

Definition U (n : nat) (X : nat -> R) : R := / 2 * Rs (fun k => cfac k * X k * basis k n) (seq 0 8).
Lemma term_le X k n : Rabs (cfac k * X k * basis k n) <= Rabs (X k).
Proof.
  rewrite !Rabs_mult. pose proof (cfac_1 k). pose proof (basis_1 k n). pose proof (Rabs_pos (X k)). pose proof (Rabs_pos (cfac k)). pose proof (Rabs_pos (basis k n)).
  apply Rle_trans with (1 * Rabs (X k) * 1); [|lra]. apply Rmult_le_compat; auto; [apply Rmult_le_pos; auto|]. apply Rmult_le_compat_r; auto.
Qed.
Lemma U_bound n X : Rabs (U n X) <= / 2 * Rs (fun k => Rabs (X k)) (seq 0 8).
Proof.
  unfold U. rewrite Rabs_mult, (Rabs_pos_eq (/ 2)) by lra. apply Rmult_le_compat_l; [lra|]. eapply Rle_trans; [apply Rs_abs|]. apply Rs_le. intros k _. apply term_le.
Qed.
Lemma U_minus n X Y : U n X - U n Y = U n (fun k => X k - Y k).
Proof.
  unfold U. rewrite <- Rmult_minus_distr_l. f_equal. generalize (seq 0 8). intros l. induction l as [|a l IH]; [rewrite !Rs_nil; lra|]. rewrite !Rs_cons, <- IH. ring.
Qed.

Lemma fat_map (f : nat -> f32) n i : (i < n)%nat -> fat (map f (seq 0 n)) i = f i.
Proof. intros N. unfold fat. rewrite (nth_indep _ f_zero (f O)) by (rewrite map_length, seq_length; exact N). rewrite map_nth, seq_nth by exact N. reflexivity. Qed.
Lemma idct_1d_at x n : (n < 8)%nat ->
  fat (idct_1d x) n = f_mul (f_const 1 (-1)) (fold_left (fun s i => f_add s (f_mul (f_mul (alpha i) (fat x i)) (cos_table n i))) (seq 0 8) f_zero).
Proof.
  intros N. unfold idct_1d.
  exact (fat_map (fun n => f_mul (f_const 1 (-1)) (fold_left (fun s i => f_add s (f_mul (f_mul (alpha i) (fat x i)) (cos_table n i))) (seq 0 8) f_zero)) 8 n N).
Qed.
Section One.
  Variable k : Z.
  Hypothesis Hk : (-50 <= k <= 50)%Z.
  Let P : R := bpow radix2 k.
  Let q : R := bpow radix2 (k - 24).
  Let HP : 0 < P. Proof. apply bpow_gt_0. Qed.
  Let Hq : P = 16777216 * q.
  Proof. unfold P, q. replace k with (24 + (k - 24))%Z at 1 by lia. rewrite bpow_plus. reflexivity. Qed.
  Let P1 : bpow radix2 (k + 1) = 2 * P. Proof. rewrite bpow_plus. change (bpow radix2 1) with 2. unfold P. ring. Qed.
  Let P2 : bpow radix2 (k + 2) = 4 * P. Proof. rewrite bpow_plus. change (bpow radix2 2) with 4. unfold P. ring. Qed.
  Let q1 : bpow radix2 (k + 1 - 24) = 2 * q. Proof. replace (k + 1 - 24)%Z with (k - 24 + 1)%Z by lia. rewrite bpow_plus. change (bpow radix2 1) with 2. unfold q. ring. Qed.
  Let q2 : bpow radix2 (k + 2 - 24) = 4 * q. Proof. replace (k + 2 - 24)%Z with (k - 24 + 2)%Z by lia. rewrite bpow_plus. change (bpow radix2 2) with 4. unfold q. ring. Qed.
  Definition tau' : R := 0.0127.

  Lemma one_term_gen x al t a c : fin x -> Rabs (val x) <= P -> fin al -> Rabs (val al - a) <= 0.00000002 -> Rabs (val al) <= 1 -> fin t -> Rabs (val t - c) <= tau -> Rabs (val t) <= 1 -> Rabs c <= 1 ->
    fin (f_mul (f_mul al x) t) /\ Rabs (val (f_mul (f_mul al x) t) - a * val x * c) <= tau' * Rabs (val x) + 3 * q.
  Proof.
    intros F B Fa Va Ba Ft Vt Bt Cb. set (v := val x) in *.
    assert (Rabs (val al * v) <= Rabs v) as B1 by (rewrite Rabs_mult; pose proof (Rabs_pos v); rewrite <- (Rmult_1_l (Rabs v)) at 2; apply Rmult_le_compat_r; auto).
    destruct (mul_err al x k Fa F ltac:(lia)) as [F1 E1]; [fold v; fold P; lra|]. fold v q in E1.
    set (y := f_mul al x) in *. assert (Rabs (val y) <= 2 * P) as By.
    { replace (val y) with ((val y - val al * v) + val al * v) by ring. eapply Rle_trans; [apply Rabs_triang|]. lra. }
    assert (Rabs (val y * val t) <= 2 * P) as B2.
    { rewrite Rabs_mult. pose proof (Rabs_pos (val y)). apply Rle_trans with (Rabs (val y) * 1); [apply Rmult_le_compat_l; auto|lra]. }
    destruct (mul_err y t (k + 1) F1 Ft ltac:(lia)) as [F2 E2]; [rewrite P1; exact B2|]. rewrite q1 in E2. split; [exact F2|].
    assert (val (f_mul y t) - a * v * c = (val (f_mul y t) - val y * val t) + (val y - val al * v) * val t + (val al * v) * (val t - c) + (val al - a) * v * c) as -> by ring.
    eapply Rle_trans; [apply Rabs_triang|]. eapply Rle_trans; [apply Rplus_le_compat_r, Rabs_triang|]. eapply Rle_trans; [apply Rplus_le_compat_r, Rplus_le_compat_r, Rabs_triang|].
    rewrite !(Rabs_mult _ (val t)), (Rabs_mult (val al * v)), (Rabs_mult (_ * v) c), (Rabs_mult (val al - a) v).
    pose proof (Rabs_pos v) as Pv. pose proof (Rabs_pos c). pose proof (Rabs_pos (val t)).
    assert (Rabs (val y - val al * v) * Rabs (val t) <= q * 1) by (apply Rmult_le_compat; auto using Rabs_pos).
    assert (Rabs (val al * v) * Rabs (val t - c) <= Rabs v * tau) by (apply Rmult_le_compat; auto using Rabs_pos).
    assert (Rabs (val al - a) * Rabs v * Rabs c <= 0.00000002 * Rabs v * 1).
    { apply Rmult_le_compat; auto using Rabs_pos; [apply Rmult_le_pos; apply Rabs_pos|]. apply Rmult_le_compat_r; auto. }
    unfold tau, tau' in *. lra.
  Qed.
  Lemma one_term x i n : fin x -> Rabs (val x) <= P -> (i < 8)%nat -> (n < 8)%nat ->
    fin (f_mul (f_mul (alpha i) x) (cos_table n i)) /\
    Rabs (val (f_mul (f_mul (alpha i) x) (cos_table n i)) - cfac i * val x * basis i n) <= tau' * Rabs (val x) + 3 * q.
  Proof.
    intros F B I N. destruct (alpha_ok i) as (Fa & Va & Ba). destruct (table_ok n i N I) as (Ft & Vt & Bt).
    exact (one_term_gen x (alpha i) (cos_table n i) (cfac i) (basis i n) F B Fa Va Ba Ft Vt Bt (basis_1 i n)).
  Qed.
  Lemma loop_err x n : (n < 8)%nat -> forall l s X A E, (forall i, In i l -> (i < 8)%nat /\ fin (x i)) ->
    fin s -> Rabs (val s - X) <= E -> Rabs X <= A -> 0 <= E -> A + Rs (fun i => Rabs (val (x i))) l <= P -> E + tau' * Rs (fun i => Rabs (val (x i))) l + 7 * q * INR (length l) <= P ->
    let r := fold_left (fun s i => f_add s (f_mul (f_mul (alpha i) (x i)) (cos_table n i))) l s in
    fin r /\ Rabs (val r - (X + Rs (fun i => cfac i * val (x i) * basis i n) l)) <= E + tau' * Rs (fun i => Rabs (val (x i))) l + 7 * q * INR (length l).
  Proof.
    intros N. induction l as [|i l IH]; intros s X A E H F V B HE HA Hb; cbn [fold_left]; cbv zeta.
    - split; [exact F|]. rewrite !Rs_nil. cbn [length INR]. replace (val s - (X + 0)) with (val s - X) by ring. lra.
    - rewrite !Rs_cons in *. cbn [length] in *. rewrite S_INR in *. destruct (H i (or_introl eq_refl)) as [Hi Fi].
      assert (0 <= Rs (fun i => Rabs (val (x i))) l) as R0 by (apply Rs_pos; intros; apply Rabs_pos). pose proof (Rabs_pos (val (x i))) as A0. pose proof (pos_INR (length l)) as L0. pose proof (Rabs_pos X).
      assert (0 <= 7 * q * INR (length l)) as Q0 by (apply Rmult_le_pos; lra).
      destruct (one_term (x i) i n Fi) as [Fp Vp]; [unfold tau' in *; lra|exact Hi|exact N|]. set (p := f_mul (f_mul (alpha i) (x i)) (cos_table n i)) in *.
      set (T := cfac i * val (x i) * basis i n) in *. assert (Rabs T <= Rabs (val (x i))) as BT by apply (term_le (fun i => val (x i))).
      assert (Rabs (val s + val p) <= 4 * P) as BS.
      { replace (val s + val p) with ((val s - X) + (val p - T) + X + T) by ring. eapply Rle_trans; [apply Rabs_triang|]. eapply Rle_trans; [apply Rplus_le_compat_r, Rabs_triang|].
        eapply Rle_trans; [apply Rplus_le_compat_r, Rplus_le_compat_r, Rabs_triang|]. unfold tau' in *. lra. }
      destruct (add_err s p (k + 2) F Fp ltac:(lia)) as [Fs Vs]; [rewrite P2; exact BS|]. rewrite q2 in Vs.
      destruct (IH (f_add s p) (X + T) (A + Rabs (val (x i))) (E + tau' * Rabs (val (x i)) + 7 * q)) as [Fr Vr].
      + intros j Hj. apply H. right. exact Hj.
      + exact Fs.
      + replace (val (f_add s p) - (X + T)) with ((val (f_add s p) - (val s + val p)) + (val s - X) + (val p - T)) by ring.
        eapply Rle_trans; [apply Rabs_triang|]. eapply Rle_trans; [apply Rplus_le_compat_r, Rabs_triang|]. lra.
      + eapply Rle_trans; [apply Rabs_triang|]. lra.
      + unfold tau'. lra.
      + lra.
      + lra.
      + split; [exact Fr|]. replace (X + (T + Rs (fun i => cfac i * val (x i) * basis i n) l)) with (X + T + Rs (fun i => cfac i * val (x i) * basis i n) l) by ring. lra.
  Qed.
  Lemma half_err x n l : (n < 8)%nat -> (forall i, In i l -> (i < 8)%nat /\ fin (x i)) -> INR (length l) = 8 -> Rs (fun i => Rabs (val (x i))) l <= P ->
    let o := f_mul (f_const 1 (-1)) (fold_left (fun s i => f_add s (f_mul (f_mul (alpha i) (x i)) (cos_table n i))) l f_zero) in
    fin o /\ Rabs (val o - / 2 * Rs (fun i => cfac i * val (x i) * basis i n) l) <= 0.00635 * Rs (fun i => Rabs (val (x i))) l + 0.0000018 * P.
  Proof.
    intros N F LL HS. cbv zeta.
    assert (0 <= Rs (fun i => Rabs (val (x i))) l) as R0 by (apply Rs_pos; intros; apply Rabs_pos).
    destruct (loop_err x n N l f_zero 0 0 0) as [Fs Vs].
    - exact F.
    - apply fin_zero.
    - rewrite val_zero, Rminus_0_r, Rabs_R0. lra.
    - rewrite Rabs_R0. lra.
    - lra.
    - lra.
    - rewrite LL. unfold tau'. lra.
    - rewrite LL, !Rplus_0_l in Vs. set (s := fold_left _ l f_zero) in *. set (X := Rs (fun i => cfac i * val (x i) * basis i n) l) in *.
      assert (Rabs X <= Rs (fun i => Rabs (val (x i))) l) as BX by (eapply Rle_trans; [apply Rs_abs|]; apply Rs_le; intros i _; apply (term_le (fun i => val (x i)))).
      destruct (const_val 1 (-1)) as [Fh Vh]; [lia|lia|]. replace (2 ^ (- -1))%Z with 2%Z in Vh by reflexivity.
      assert (Rabs (val s) <= 2 * P) as Bs by (replace (val s) with ((val s - X) + X) by ring; eapply Rle_trans; [apply Rabs_triang|]; unfold tau' in *; lra).
      destruct (mul_err (f_const 1 (-1)) s (k + 1) Fh Fs ltac:(lia)) as [Fo Vo].
      { rewrite P1, Vh, Rabs_mult, (Rabs_pos_eq (1 / 2)) by lra. pose proof (Rabs_pos (val s)). lra. }
      rewrite q1, Vh in Vo. split; [exact Fo|].
      replace (val (f_mul (f_const 1 (-1)) s) - / 2 * X) with ((val (f_mul (f_const 1 (-1)) s) - 1 / 2 * val s) + / 2 * (val s - X)) by field.
      eapply Rle_trans; [apply Rabs_triang|]. rewrite (Rabs_mult (/ 2)), (Rabs_pos_eq (/ 2)) by lra. unfold tau' in *. lra.
  Qed.
  Lemma one_dim x n : (n < 8)%nat -> (forall i, (i < 8)%nat -> fin (fat x i)) -> Rs (fun i => Rabs (val (fat x i))) (seq 0 8) <= P ->
    fin (fat (idct_1d x) n) /\
    Rabs (val (fat (idct_1d x) n) - U n (fun i => val (fat x i))) <= 0.00635 * Rs (fun i => Rabs (val (fat x i))) (seq 0 8) + 0.0000018 * P.
  Proof.
    intros N F HS. rewrite idct_1d_at by exact N. apply half_err; [exact N| |rewrite seq_length; cbn; lra|exact HS].
    intros i Hi. apply in_seq in Hi. split; [lia|apply F; lia].
  Qed.
End One.

(** * Two dimensions *)
Lemma real_inverse_U F m : real_inverse F m = U (m mod 8) (fun c => U (m / 8) (fun r => F (8 * r + c)%nat)).
Proof.
  unfold real_inverse, U, Rs. generalize (m mod 8)%nat (m / 8)%nat. intros x y. unfold rsum.
  change (seq 0 64) with [0;1;2;3;4;5;6;7;8;9;10;11;12;13;14;15;16;17;18;19;20;21;22;23;24;25;26;27;28;29;30;31;32;33;34;35;36;37;38;39;40;41;42;43;44;45;46;47;48;49;50;51;52;53;54;55;56;57;58;59;60;61;62;63]%nat.
  change (seq 0 8) with [0;1;2;3;4;5;6;7]%nat. cbn [map fold_right].
  repeat match goal with |- context [(?a mod 8)%nat] => let r := eval vm_compute in (a mod 8)%nat in change (a mod 8)%nat with r end.
  repeat match goal with |- context [(?a / 8)%nat] => let r := eval vm_compute in (a / 8)%nat in change (a / 8)%nat with r end.
  cbn [Nat.mul Nat.add]. replace (/ 4) with (/ 2 * / 2) by lra. ring.
Qed.
Lemma sum_64 (f : nat -> R) : rsum f 64 = Rs (fun c => Rs (fun r => f (8 * r + c)%nat) (seq 0 8)) (seq 0 8).
Proof.
  unfold rsum, Rs.
  change (seq 0 64) with [0;1;2;3;4;5;6;7;8;9;10;11;12;13;14;15;16;17;18;19;20;21;22;23;24;25;26;27;28;29;30;31;32;33;34;35;36;37;38;39;40;41;42;43;44;45;46;47;48;49;50;51;52;53;54;55;56;57;58;59;60;61;62;63]%nat.
  change (seq 0 8) with [0;1;2;3;4;5;6;7]%nat. cbn [map fold_right Nat.mul Nat.add]. ring.
Qed.
Lemma fat_rows (g : nat -> list f32) : (forall r, length (g r) = 8%nat) -> forall n r0 r c, (r < n)%nat -> (c < 8)%nat ->
  fat (flat_map g (seq r0 n)) (8 * r + c) = fat (g (r0 + r)%nat) c.
Proof.
  intros L. unfold fat. induction n as [|n IH]; intros r0 r c R Cc; [lia|]. cbn [seq flat_map].
  destruct r as [|r].
  - rewrite app_nth1 by (rewrite L; lia). replace (r0 + 0)%nat with r0 by lia. reflexivity.
  - rewrite app_nth2 by (rewrite L; lia). rewrite L. replace (8 * S r + c - 8)%nat with (8 * r + c)%nat by lia. rewrite IH by lia. f_equal. f_equal. lia.
Qed.
Lemma len_1d x : length (idct_1d x) = 8%nat. Proof. unfold idct_1d. rewrite map_length, seq_length. reflexivity. Qed.
Definition column (block : list f32) (c : nat) : list f32 := map (fun row => fat block (8 * row + c)) (seq 0 8).
Definition temp_of (block : list f32) : list f32 :=
  let cols := map (fun col => idct_1d (map (fun row => fat block (8 * row + col)) (seq 0 8))) (seq 0 8) in
  flat_map (fun row => map (fun col => fat (nth col cols []) row) (seq 0 8)) (seq 0 8).
Lemma temp_at block r c : (r < 8)%nat -> (c < 8)%nat -> fat (temp_of block) (8 * r + c) = fat (idct_1d (column block c)) r.
Proof.
  intros R Cc. unfold temp_of. cbv zeta. rewrite fat_rows; [|intros; rewrite map_length, seq_length; reflexivity|exact R|exact Cc].
  rewrite fat_map by exact Cc. f_equal. rewrite (nth_indep _ [] (idct_1d (column block O))) by (rewrite map_length, seq_length; exact Cc).
  rewrite (map_nth (fun col => idct_1d (column block col)) (seq 0 8)), seq_nth by exact Cc. reflexivity.
Qed.
Lemma out_at block r c : (r < 8)%nat -> (c < 8)%nat ->
  fat (idct_2d_f32 block) (8 * r + c) = fat (idct_1d (map (fun col => fat (temp_of block) (8 * r + col)) (seq 0 8))) c.
Proof.
  intros R Cc. unfold idct_2d_f32. fold (temp_of block). cbv zeta. rewrite fat_rows; [reflexivity|intros; apply len_1d|exact R|exact Cc].
Qed.
Lemma in8 i : In i (seq 0 8) -> (i < 8)%nat. Proof. intros H. apply in_seq in H. lia. Qed.
Lemma U_ext n X Y : (forall i, (i < 8)%nat -> X i = Y i) -> U n X = U n Y.
Proof. intros H. unfold U. apply f_equal. apply Rs_ext. intros i Hi. rewrite H by (apply in8; exact Hi). reflexivity. Qed.
Lemma inverse_accurate k block : (-50 <= k <= 50)%Z -> (forall n, (n < 64)%nat -> fin (fat block n)) ->
  rsum (fun n => Rabs (val (fat block n))) 64 <= bpow radix2 k ->
  forall m, (m < 64)%nat -> fin (fat (idct_2d_f32 block) m) /\
    Rabs (val (fat (idct_2d_f32 block) m) - real_inverse (fun n => val (fat block n)) m) <= 0.0065 * bpow radix2 k.
Proof.
  intros K F S m M. rewrite real_inverse_U. assert (m mod 8 < 8)%nat as Cc by (apply Nat.mod_upper_bound; lia). assert (m / 8 < 8)%nat as R by (apply Nat.div_lt_upper_bound; lia).
  rewrite (Nat.div_mod m 8) at 1 2 by lia. set (c := (m mod 8)%nat) in *. set (r := (m / 8)%nat) in *. clearbody c r. rewrite out_at by assumption.
  rewrite sum_64 in S. set (A := fun c => Rs (fun r => Rabs (val (fat block (8 * r + c)))) (seq 0 8)) in S. change (Rs A (seq 0 8) <= bpow radix2 k) in S.
  pose proof (bpow_gt_0 radix2 k) as HP. set (P := bpow radix2 k) in *.
  assert (forall j, 0 <= A j) as A0 by (intros j; apply Rs_pos; intros; apply Rabs_pos).
  assert (forall j, (j < 8)%nat -> A j <= P) as AP.
  { intros j J. eapply Rle_trans; [|exact S]. clear -A0 J. unfold Rs. cbn [seq map fold_right].
    pose proof (A0 0%nat); pose proof (A0 1%nat); pose proof (A0 2%nat); pose proof (A0 3%nat); pose proof (A0 4%nat); pose proof (A0 5%nat); pose proof (A0 6%nat); pose proof (A0 7%nat).
    do 8 (destruct j as [|j]; [lra|]). lia. }
  set (Y := fun j => U r (fun i => val (fat block (8 * i + j)))).
  assert (forall j, (j < 8)%nat -> fin (fat (temp_of block) (8 * r + j)) /\ Rabs (val (fat (temp_of block) (8 * r + j)) - Y j) <= 0.00635 * A j + 0.0000018 * P /\ Rabs (Y j) <= / 2 * A j) as T.
  { intros j J. rewrite temp_at by assumption.
    assert (forall i, (i < 8)%nat -> fat (column block j) i = fat block (8 * i + j)) as Cl by (intros i I; unfold column; rewrite fat_map by exact I; reflexivity).
    assert (Rs (fun i => Rabs (val (fat (column block j) i))) (seq 0 8) = A j) as EA by (apply Rs_ext; intros i Hi; rewrite Cl by (apply in8; exact Hi); reflexivity).
    destruct (one_dim k K (column block j) r R) as [F1 V1].
    - intros i I. rewrite Cl by exact I. apply F. lia.
    - rewrite EA. apply AP. exact J.
    - rewrite EA in V1. split; [exact F1|]. split; [|unfold Y; eapply Rle_trans; [apply U_bound|]; apply Rle_refl].
      replace (Y j) with (U r (fun i => val (fat (column block j) i))); [exact V1|].
      unfold Y. apply U_ext. intros i I. rewrite Cl by exact I. reflexivity. }
  set (row := map (fun col => fat (temp_of block) (8 * r + col)) (seq 0 8)).
  assert (forall j, (j < 8)%nat -> fat row j = fat (temp_of block) (8 * r + j)) as Rw by (intros j J; unfold row; rewrite fat_map by exact J; reflexivity).
  assert (forall j, (j < 8)%nat -> Rabs (val (fat row j)) <= 0.50635 * A j + 0.0000018 * P) as Br.
  { intros j J. rewrite Rw by exact J. destruct (T j J) as (_ & V & B). replace (val (fat (temp_of block) (8 * r + j))) with ((val (fat (temp_of block) (8 * r + j)) - Y j) + Y j) by ring.
    eapply Rle_trans; [apply Rabs_triang|]. lra. }
  assert (Rs (fun j => Rabs (val (fat row j))) (seq 0 8) <= 0.5064 * P) as Sr.
  { eapply Rle_trans; [apply Rs_le; intros j Hj; apply Br, in8, Hj|]. rewrite Rs_plus, Rs_scal, Rs_const. change (INR (length (seq 0 8))) with (INR 8). replace (INR 8) with 8 by (cbn; lra). lra. }
  destruct (one_dim k K row c Cc) as [F2 V2].
  - intros j J. rewrite Rw by exact J. apply T. exact J.
  - fold P. lra.
  - fold P in V2. split; [exact F2|].
    match goal with |- Rabs (_ - U c ?g) <= _ => change g with Y end.
    replace (val (fat (idct_1d row) c) - U c Y) with ((val (fat (idct_1d row) c) - U c (fun i => val (fat row i))) + (U c (fun i => val (fat row i)) - U c Y)) by ring.
    eapply Rle_trans; [apply Rabs_triang|]. rewrite U_minus. pose proof (U_bound c (fun i => val (fat row i) - Y i)) as B.
    assert (Rs (fun i => Rabs (val (fat row i) - Y i)) (seq 0 8) <= 0.00637 * P) as D.
    { eapply Rle_trans; [apply Rs_le with (g := fun j => 0.00635 * A j + 0.0000018 * P); intros j Hj; rewrite Rw by (apply in8; exact Hj); apply T, in8, Hj|].
      rewrite Rs_plus, Rs_scal, Rs_const. change (INR (length (seq 0 8))) with (INR 8). replace (INR 8) with 8 by (cbn; lra). lra. }
    lra.
Qed.

(** * One wave *)
Definition wave_block : list f32 := map (fun n => if Nat.eqb n 9 then f_of_Z 500 else f_zero) (seq 0 64).
Lemma wave_inverse v m : real_inverse (one_wave v) m = / 4 * v * basis 1 (m mod 8) * basis 1 (m / 8).
Proof.
  rewrite real_inverse_U. generalize (m mod 8)%nat (m / 8)%nat. intros x y. unfold U, Rs. change (seq 0 8) with [0;1;2;3;4;5;6;7]%nat. cbn [map fold_right Nat.mul Nat.add].
  unfold one_wave. cbn [Nat.eqb]. change (cfac 1) with 1. replace (/ 4) with (/ 2 * / 2) by lra. ring.
Qed.
Lemma wave_fin n : (n < 64)%nat -> fin (fat wave_block n) /\ val (fat wave_block n) = one_wave 500 n.
Proof.
  intros N. unfold wave_block. rewrite fat_map by exact N. unfold one_wave. destruct (Nat.eqb n 9); [apply of_Z_exact; lia|]. split; [apply fin_zero|apply val_zero].
Qed.
Lemma wave_samples m : Rabs (real_inverse (one_wave 500) m) <= 125.
Proof.
  rewrite wave_inverse. pose proof (basis_1 1 (m mod 8)) as B1. pose proof (basis_1 1 (m / 8)) as B2. rewrite !Rabs_mult.
  replace (Rabs (/ 4) * Rabs 500) with 125 by (rewrite !Rabs_pos_eq by lra; lra).
  apply Rle_trans with (125 * 1 * 1); [|lra]. pose proof (Rabs_pos (basis 1 (m mod 8))). pose proof (Rabs_pos (basis 1 (m / 8))). apply Rmult_le_compat; lra.
Qed.
Lemma wave_out : fat (idct_2d_f32 wave_block) 63 = S754_finite false 15355340 (-17).
Proof. vm_compute. reflexivity. Qed.
Lemma wave_off : 3 < Rabs (val (fat (idct_2d_f32 wave_block) 63) - real_inverse (one_wave 500) 63).
Proof.
  rewrite wave_out, wave_inverse. change (63 mod 8)%nat with 7%nat. change (63 / 8)%nat with 7%nat.
  assert (val (S754_finite false 15355340 (-17)) = 15355340 / 131072) as -> by (unfold val; cbn [SF2R]; rewrite F2R_neg by lia; reflexivity).
  rewrite basis_C. assert (CC ((2 * 7 + 1) * 1) = - C 1) as -> by reflexivity. pose proof C1b as B.
  assert (0.9619 <= C 1 * C 1) as Sq by (apply Rle_trans with (0.9807852803 * 0.9807852803); [lra|apply Rmult_le_compat; lra]).
  rewrite Rabs_minus_sym. eapply Rlt_le_trans; [|apply Rle_abs]. lra.
Qed.
Lemma wave_reach : (forall n, (n < 64)%nat -> fin (fat wave_block n)) /\ rsum (fun n => Rabs (val (fat wave_block n))) 64 <= bpow radix2 9.
Proof.
  split; [intros n N; apply wave_fin, N|]. rewrite sum_64. change (bpow radix2 9) with 512.
  assert (forall r c, (r < 8)%nat -> (c < 8)%nat -> Rabs (val (fat wave_block (8 * r + c))) = Rabs (one_wave 500 (8 * r + c))) as E by (intros r c R Cc; rewrite (proj2 (wave_fin (8 * r + c) ltac:(lia))); reflexivity).
  rewrite (Rs_ext _ (fun c => Rs (fun r => Rabs (one_wave 500 (8 * r + c))) (seq 0 8))); [|intros c Hc; apply Rs_ext; intros r Hr; apply E; apply in8; assumption].
  unfold Rs, one_wave. change (seq 0 8) with [0;1;2;3;4;5;6;7]%nat. cbn [map fold_right Nat.mul Nat.add Nat.eqb]. rewrite Rabs_R0, (Rabs_pos_eq 500) by lra. lra.
Qed.
