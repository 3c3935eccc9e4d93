(** The f32 forward DCT against the real one. *)
From Coq Require Import Reals Lra Lia.
From Flocq Require Import Core.
From Verif Require Import Base PngFilterModel JpegBaseModel F32Model F32Proofs ResizeModel ResizeF32 ResizeSame JpegIdctReal JpegDctModel JpegDctSpec JpegDctReal.
Open Scope Z_scope.

(** ** Errors relative to P = 2^k *)
Section Node.
  Variable k : Z.
  Hypothesis Hk : -50 <= k <= 50.
  Let P : R := bpow radix2 k.
  Let HP : (0 < P)%R. Proof. apply bpow_gt_0. Qed.
  Definition node (x : f32) (X m r : R) : Prop := fin x /\ (Rabs (val x - X) <= r * P)%R /\ (Rabs X <= m * P)%R.
  Let scale j w : 0 <= j <= 10 -> bpow radix2 j = w -> bpow radix2 (k + j) = (w * P)%R /\ bpow radix2 (k + j - 24) = (w / 16777216 * P)%R.
  Proof.
    intros Hj E. split; [rewrite bpow_plus, E; unfold P; ring|]. replace (k + j - 24) with (k + j + (- 24)) by lia. rewrite !bpow_plus, E.
    change (bpow radix2 (- 24)) with (/ 16777216)%R. unfold P. field.
  Qed.
  Lemma node_add x y X Y m r m' r' j w : 0 <= j <= 10 -> bpow radix2 j = w -> node x X m r -> node y Y m' r' -> (m + m' + r + r' <= w)%R ->
    node (f_add x y) (X + Y) (m + m') (r + r' + w / 16777216).
  Proof.
    intros Hj E (F1 & V1 & M1) (F2 & V2 & M2) L. destruct (scale j w Hj E) as [E1 E2].
    assert (Rabs (val x + val y) <= w * P)%R as B.
    { replace (val x + val y)%R with ((val x - X) + (val y - Y) + X + Y)%R by ring.
      eapply Rle_trans; [apply Rabs_triang|]. eapply Rle_trans; [apply Rplus_le_compat_r, Rabs_triang|].
      eapply Rle_trans; [apply Rplus_le_compat_r, Rplus_le_compat_r, Rabs_triang|].
      apply Rle_trans with ((m + m' + r + r') * P)%R; [lra|]. apply Rmult_le_compat_r; lra. }
    rewrite <- E1 in B. destruct (add_err x y (k + j) F1 F2 ltac:(lia) B) as [F V]. rewrite E2 in V. split; [exact F|]. split.
    - replace (val (f_add x y) - (X + Y))%R with ((val (f_add x y) - (val x + val y)) + ((val x - X) + (val y - Y)))%R by ring.
      eapply Rle_trans; [apply Rabs_triang|]. pose proof (Rabs_triang (val x - X) (val y - Y)). lra.
    - pose proof (Rabs_triang X Y). lra.
  Qed.
  Lemma node_sub x y X Y m r m' r' j w : 0 <= j <= 10 -> bpow radix2 j = w -> node x X m r -> node y Y m' r' -> (m + m' + r + r' <= w)%R ->
    node (f_sub x y) (X - Y) (m + m') (r + r' + w / 16777216).
  Proof.
    intros Hj E (F1 & V1 & M1) (F2 & V2 & M2) L. destruct (scale j w Hj E) as [E1 E2].
    assert (forall a b, Rabs (a - b) <= Rabs a + Rabs b)%R as TR by (intros a b; pose proof (Rabs_triang a (- b)) as H; rewrite Rabs_Ropp in H; exact H).
    assert (Rabs (val x - val y) <= w * P)%R as B.
    { replace (val x - val y)%R with ((val x - X) - (val y - Y) + (X - Y))%R by ring.
      eapply Rle_trans; [apply Rabs_triang|]. pose proof (TR (val x - X) (val y - Y))%R. pose proof (TR X Y).
      apply Rle_trans with ((m + m' + r + r') * P)%R; [lra|]. apply Rmult_le_compat_r; lra. }
    rewrite <- E1 in B. destruct (sub_err x y (k + j) F1 F2 ltac:(lia) B) as [F V]. rewrite E2 in V. split; [exact F|]. split.
    - replace (val (f_sub x y) - (X - Y))%R with ((val (f_sub x y) - (val x - val y)) + ((val x - X) - (val y - Y)))%R by ring.
      eapply Rle_trans; [apply Rabs_triang|]. pose proof (TR (val x - X) (val y - Y))%R. lra.
    - pose proof (TR X Y). lra.
  Qed.
  Lemma node_mul x X m r a c g d j w : 0 <= j <= 10 -> bpow radix2 j = w -> fin a -> (Rabs (val a - c) <= d)%R -> (Rabs c <= g)%R ->
    node x X m r -> ((m + r) * (g + d) <= w)%R -> (0 <= m)%R -> (0 <= r)%R ->
    node (f_mul x a) (X * c) (m * g) (r * (g + d) + m * d + w / 16777216).
  Proof.
    intros Hj E Fa Va Vc (F1 & V1 & M1) L Hm Hr. destruct (scale j w Hj E) as [E1 E2].
    pose proof (Rabs_pos (val a - c)). pose proof (Rabs_pos c).
    assert (Rabs (val a) <= g + d)%R as BA by (replace (val a) with ((val a - c) + c)%R by ring; eapply Rle_trans; [apply Rabs_triang|lra]).
    assert (Rabs (val x) <= (m + r) * P)%R as BX by (replace (val x) with ((val x - X) + X)%R by ring; eapply Rle_trans; [apply Rabs_triang|lra]).
    assert (Rabs (val x * val a) <= w * P)%R as B.
    { rewrite Rabs_mult. apply Rle_trans with (((m + r) * P) * (g + d))%R; [apply Rmult_le_compat; auto using Rabs_pos|].
      replace (((m + r) * P) * (g + d))%R with (((m + r) * (g + d)) * P)%R by ring. apply Rmult_le_compat_r; lra. }
    rewrite <- E1 in B. destruct (mul_err x a (k + j) F1 Fa ltac:(lia) B) as [F V]. rewrite E2 in V. split; [exact F|]. split.
    - replace (val (f_mul x a) - X * c)%R with ((val (f_mul x a) - val x * val a) + ((val x - X) * val a + X * (val a - c)))%R by ring.
      eapply Rle_trans; [apply Rabs_triang|]. pose proof (Rabs_triang ((val x - X) * val a) (X * (val a - c)))%R as TR. rewrite !Rabs_mult in TR.
      assert (Rabs (val x - X) * Rabs (val a) <= (r * P) * (g + d))%R by (apply Rmult_le_compat; auto using Rabs_pos).
      assert (Rabs X * Rabs (val a - c) <= (m * P) * d)%R by (apply Rmult_le_compat; auto using Rabs_pos). lra.
    - rewrite Rabs_mult. apply Rle_trans with ((m * P) * g)%R; [apply Rmult_le_compat; auto using Rabs_pos|]. lra.
  Qed.
End Node.

(** ** The constants *)
Lemma const_val m e : Z.abs m < 2 ^ 24 -> -149 <= e < 0 -> fin (f_const m e) /\ val (f_const m e) = (IZR m / IZR (2 ^ (- e)))%R.
Proof.
  intros H1 H2. assert (fmt (F2R (Float radix2 m e))) as Ff by (apply fmt_F2R; lia).
  assert (Rabs (F2R (Float radix2 m e)) < bpow radix2 128)%R as L.
  { apply Rlt_le_trans with (bpow radix2 (24 + e)); [|apply bpow_le; lia]. apply F2R_lt_bpow. cbn [Fnum Fexp]. replace (24 + e - e) with 24 by lia. exact H1. }
  rewrite <- (rnd_fmt _ Ff) in L. destruct (const_ok m e L) as [F V]. split; [exact F|]. rewrite V, (rnd_fmt _ Ff). apply F2R_neg. lia.
Qed.
Lemma A1_ok : fin A1 /\ (Rabs (val A1 - C 4) <= 0.00000002)%R.
Proof. destruct (const_val 11863283 (-24)) as [F V]; [reflexivity|lia|]. split; [exact F|]. change (val A1) with (val (f_const 11863283 (-24))). rewrite V. change (2 ^ (- (-24))) with 16777216. pose proof C4b. apply Rabs_le. lra. Qed.
Lemma A2_ok : fin A2 /\ (Rabs (val A2 - (C 2 - C 6)) <= 0.00000002)%R.
Proof. destruct (const_val 9079764 (-24)) as [F V]; [reflexivity|lia|]. split; [exact F|]. change (val A2) with (val (f_const 9079764 (-24))). rewrite V. change (2 ^ (- (-24))) with 16777216. pose proof C2b. pose proof C6b. apply Rabs_le. lra. Qed.
Lemma A4_ok : fin A4 /\ (Rabs (val A4 - (C 2 + C 6)) <= 0.0000001)%R.
Proof. destruct (const_val 10960244 (-23)) as [F V]; [reflexivity|lia|]. split; [exact F|]. change (val A4) with (val (f_const 10960244 (-23))). rewrite V. change (2 ^ (- (-23))) with 8388608. pose proof C2b. pose proof C6b. apply Rabs_le. lra. Qed.
Lemma A5_ok : fin A5 /\ (Rabs (val A5 - C 6) <= 0.00000002)%R.
Proof. destruct (const_val 12840725 (-25)) as [F V]; [reflexivity|lia|]. split; [exact F|]. change (val A5) with (val (f_const 12840725 (-25))). rewrite V. change (2 ^ (- (-25))) with 33554432. pose proof C6b. apply Rabs_le. lra. Qed.
(** a constant near 1 / (4 c) *)
Lemma inv_near s c : (0 < c)%R -> (- (4 * c * 0.0000001) <= 4 * c * s - 1 <= 4 * c * 0.0000001)%R -> (Rabs (s - / (4 * c)) <= 0.0000001)%R.
Proof.
  intros Hc H. replace (s - / (4 * c))%R with ((4 * c * s - 1) * / (4 * c))%R by (field; lra). rewrite Rabs_mult.
  assert (0 < / (4 * c))%R as I0 by (apply Rinv_0_lt_compat; lra). rewrite (Rabs_pos_eq (/ (4 * c))) by lra.
  apply Rle_trans with ((4 * c * 0.0000001) * / (4 * c))%R; [apply Rmult_le_compat_r; [lra|apply Rabs_le; lra]|]. right. field. lra.
Qed.
Lemma S0_ok : fin S0 /\ (Rabs (val S0 - / (4 * C 4)) <= 0.0000001)%R.
Proof. destruct (const_val 11863284 (-25)) as [F V]; [reflexivity|lia|]. split; [exact F|]. change (val S0) with (val (f_const 11863284 (-25))). rewrite V. change (2 ^ (- (-25))) with 33554432. apply (inv_near _ (C 4)); pose proof C4b; lra. Qed.
Lemma S1_ok : fin S1 /\ (Rabs (val S1 - / (4 * C 1)) <= 0.0000001)%R.
Proof. destruct (const_val 8552951 (-25)) as [F V]; [reflexivity|lia|]. split; [exact F|]. change (val S1) with (val (f_const 8552951 (-25))). rewrite V. change (2 ^ (- (-25))) with 33554432. apply (inv_near _ (C 1)); pose proof C1b; lra. Qed.
Lemma S2_ok : fin S2 /\ (Rabs (val S2 - / (4 * C 2)) <= 0.0000001)%R.
Proof. destruct (const_val 9079766 (-25)) as [F V]; [reflexivity|lia|]. split; [exact F|]. change (val S2) with (val (f_const 9079766 (-25))). rewrite V. change (2 ^ (- (-25))) with 33554432. apply (inv_near _ (C 2)); pose proof C2b; lra. Qed.
Lemma S3_ok : fin S3 /\ (Rabs (val S3 - / (4 * C 3)) <= 0.0000001)%R.
Proof. destruct (const_val 10088892 (-25)) as [F V]; [reflexivity|lia|]. split; [exact F|]. change (val S3) with (val (f_const 10088892 (-25))). rewrite V. change (2 ^ (- (-25))) with 33554432. apply (inv_near _ (C 3)); pose proof C3b; lra. Qed.
Lemma S4_ok : fin S4 /\ (Rabs (val S4 - / (4 * C 4)) <= 0.0000001)%R.
Proof. destruct (const_val 11863284 (-25)) as [F V]; [reflexivity|lia|]. split; [exact F|]. change (val S4) with (val (f_const 11863284 (-25))). rewrite V. change (2 ^ (- (-25))) with 33554432. apply (inv_near _ (C 4)); pose proof C4b; lra. Qed.
Lemma S5_ok : fin S5 /\ (Rabs (val S5 - / (4 * C 5)) <= 0.0000001)%R.
Proof. destruct (const_val 15099095 (-25)) as [F V]; [reflexivity|lia|]. split; [exact F|]. change (val S5) with (val (f_const 15099095 (-25))). rewrite V. change (2 ^ (- (-25))) with 33554432. apply (inv_near _ (C 5)); pose proof C5b; lra. Qed.
Lemma S6_ok : fin S6 /\ (Rabs (val S6 - / (4 * C 6)) <= 0.0000001)%R.
Proof. destruct (const_val 10960245 (-24)) as [F V]; [reflexivity|lia|]. split; [exact F|]. change (val S6) with (val (f_const 10960245 (-24))). rewrite V. change (2 ^ (- (-24))) with 16777216. apply (inv_near _ (C 6)); pose proof C6b; lra. Qed.
Lemma S7_ok : fin S7 /\ (Rabs (val S7 - / (4 * C 7)) <= 0.0000001)%R.
Proof. destruct (const_val 10749647 (-23)) as [F V]; [reflexivity|lia|]. split; [exact F|]. change (val S7) with (val (f_const 10749647 (-23))). rewrite V. change (2 ^ (- (-23))) with 8388608. apply (inv_near _ (C 7)); pose proof C7b; lra. Qed.

(** ** One pass *)
Lemma node_in k x B : fin x -> (Rabs (val x) <= B * bpow radix2 k)%R -> node k x (val x) B 0.
Proof. intros F H. split; [exact F|]. split; [|exact H]. replace (val x - val x)%R with 0%R by ring. rewrite Rabs_R0. lra. Qed.
Ltac nadd H1 H2 j w N := pose proof (node_add _ ltac:(eassumption) _ _ _ _ _ _ _ _ j w ltac:(lia) eq_refl H1 H2 ltac:(lra)) as N.
Ltac nsub H1 H2 j w N := pose proof (node_sub _ ltac:(eassumption) _ _ _ _ _ _ _ _ j w ltac:(lia) eq_refl H1 H2 ltac:(lra)) as N.
Ltac nmul H1 A g j w N := pose proof (node_mul _ ltac:(eassumption) _ _ _ _ _ _ g _ j w ltac:(lia) eq_refl (proj1 A) (proj2 A) ltac:(apply Rabs_le; lra) H1 ltac:(lra) ltac:(lra) ltac:(lra)) as N.
Lemma inv4 c lo hi : (0 < lo)%R -> (lo <= c)%R -> (1 <= 4 * lo * hi)%R -> (- hi <= / (4 * c) <= hi)%R.
Proof.
  intros H0 H1 H2. assert (0 < / (4 * c))%R by (apply Rinv_0_lt_compat; lra). split; [|]. 
  - assert (0 < hi)%R by nra. lra.
  - apply Rmult_le_reg_l with (4 * c)%R; [lra|]. rewrite Rinv_r by lra. nra.
Qed.
Definition rr : R := (1 / 100000)%R.
Lemma node_last k x X t c m r s B : -50 <= k <= 50 -> node k x X m r -> X = (4 * c * t)%R -> (0 < c <= 0.981)%R -> (Rabs t <= norm1 * bpow radix2 k)%R ->
  fin s -> (Rabs (val s - / (4 * c)) <= 0.0000001)%R -> (- B <= / (4 * c) <= B)%R -> (0 <= r)%R -> (B <= 2)%R ->
  (r * (B + 0.0000001) + 0.00000112 + 4 / 16777216 <= rr)%R -> fin (f_mul x s) /\ (Rabs (val (f_mul x s) - t) <= rr * bpow radix2 k)%R.
Proof.
  intros Hk (F & V & M) EX Hc Ht Fs Vs HB Hr HB2 HR. pose proof (bpow_gt_0 radix2 k) as HP. set (P := bpow radix2 k) in *.
  assert (Rabs (val s) <= B + 0.0000001)%R as BS.
  { replace (val s) with ((val s - / (4 * c)) + / (4 * c))%R by ring. eapply Rle_trans; [apply Rabs_triang|]. assert (Rabs (/ (4 * c)) <= B)%R by (apply Rabs_le; lra). lra. }
  assert (Rabs (val x * val s - t) <= (r * (B + 0.0000001) + 0.00000112) * P)%R as E.
  { replace (val x * val s - t)%R with ((val x - X) * val s + X * (val s - / (4 * c)))%R by (rewrite EX; field; lra).
    eapply Rle_trans; [apply Rabs_triang|]. rewrite !Rabs_mult.
    assert (Rabs (val x - X) * Rabs (val s) <= (r * P) * (B + 0.0000001))%R by (apply Rmult_le_compat; auto using Rabs_pos).
    assert (Rabs X * Rabs (val s - / (4 * c)) <= (4 * 0.981 * (norm1 * P)) * 0.0000001)%R.
    { apply Rmult_le_compat; auto using Rabs_pos. rewrite EX, Rabs_mult. apply Rmult_le_compat; auto using Rabs_pos. apply Rabs_le. lra. }
    unfold norm1 in *. lra. }
  assert (Rabs (val x * val s) <= bpow radix2 (k + 2))%R as B4.
  { rewrite bpow_plus. fold P. change (bpow radix2 2) with 4%R. replace (val x * val s)%R with ((val x * val s - t) + t)%R by ring.
    eapply Rle_trans; [apply Rabs_triang|]. assert ((r * (B + 0.0000001) + 0.00000112) * P <= rr * P)%R by (apply Rmult_le_compat_r; lra). unfold rr, norm1 in *. lra. }
  destruct (mul_err x s (k + 2) F Fs ltac:(lia) B4) as [F' V']. split; [exact F'|].
  replace (k + 2 - 24) with (k + (- 22)) in V' by lia. rewrite bpow_plus in V'. fold P in V'. change (bpow radix2 (- 22)) with (/ 4194304)%R in V'.
  replace (val (f_mul x s) - t)%R with ((val (f_mul x s) - val x * val s) + (val x * val s - t))%R by ring. eapply Rle_trans; [apply Rabs_triang|].
  apply Rle_trans with ((r * (B + 0.0000001) + 0.00000112 + 4 / 16777216) * P)%R; [lra|]. apply Rmult_le_compat_r; lra.
Qed.
Lemma aan_ok k l : -50 <= k <= 50 -> (forall i, (i < 8)%nat -> fin (fat l i) /\ (Rabs (val (fat l i)) <= bpow radix2 k)%R) ->
  forall u, (u < 8)%nat -> fin (fat (aan_dct_1d l) u) /\ (Rabs (val (fat (aan_dct_1d l) u) - T u (fun i => val (fat l i))) <= rr * bpow radix2 k)%R.
Proof.
  intros Hk H. pose proof (bpow_gt_0 radix2 k) as HP.
  assert (forall i, (i < 8)%nat -> node k (fat l i) (val (fat l i)) 1 0) as N by (intros i Hi; destruct (H i Hi); apply node_in; [auto|lra]).
  pose proof (N 0%nat ltac:(lia)) as N0. pose proof (N 1%nat ltac:(lia)) as N1. pose proof (N 2%nat ltac:(lia)) as N2. pose proof (N 3%nat ltac:(lia)) as N3.
  pose proof (N 4%nat ltac:(lia)) as N4. pose proof (N 5%nat ltac:(lia)) as N5. pose proof (N 6%nat ltac:(lia)) as N6. pose proof (N 7%nat ltac:(lia)) as N7.
  pose proof C1b; pose proof C2b; pose proof C3b; pose proof C4b; pose proof C5b; pose proof C6b; pose proof C7b.
  nadd N0 N7 1 2%R t0. nsub N0 N7 1 2%R t7. nadd N1 N6 1 2%R t1. nsub N1 N6 1 2%R t6.
  nadd N2 N5 1 2%R t2. nsub N2 N5 1 2%R t5. nadd N3 N4 1 2%R t3. nsub N3 N4 1 2%R t4.
  nadd t0 t3 3 8%R t10. nsub t0 t3 3 8%R t13. nadd t1 t2 3 8%R t11. nsub t1 t2 3 8%R t12.
  nadd t10 t11 4 16%R dd0. nsub t10 t11 4 16%R dd4.
  nadd t12 t13 4 16%R s1. nmul s1 A1_ok 0.70710679%R 3 8%R z1. nadd t13 z1 4 16%R dd2. nsub t13 z1 4 16%R dd6.
  nadd t4 t5 3 8%R p10. nadd t5 t6 3 8%R p11. nadd t6 t7 3 8%R p12.
  nsub p10 p12 4 16%R s5. nmul s5 A5_ok 0.38268344%R 2 4%R z5.
  nmul p10 A2_ok 0.54119611%R 2 4%R q2. nadd q2 z5 3 8%R z2.
  nmul p12 A4_ok 1.306563%R 3 8%R q4. nadd q4 z5 4 16%R z4.
  nmul p11 A1_ok 0.70710679%R 2 4%R z3. nadd t7 z3 3 8%R z11. nsub t7 z3 3 8%R z13.
  nadd z13 z2 4 16%R dd5. nsub z13 z2 4 16%R dd3. nadd z11 z4 4 16%R dd1. nsub z11 z4 4 16%R dd7.
  intros u Hu. set (X := fun i => val (fat l i)) in *.
  assert (Rabs (T u X) <= norm1 * bpow radix2 k)%R as HT by (apply T_bound; [lia|]; intros i Hi; apply (H i Hi)).
  eight u.
  - apply (node_last k _ _ _ (C 4) _ _ S0 0.36 Hk dd0 (aan0 X)); [lra|exact HT|exact (proj1 S0_ok)|exact (proj2 S0_ok)|apply (inv4 _ 0.7071); lra|lra|lra|unfold rr; lra].
  - apply (node_last k _ _ _ (C 1) _ _ S1 0.26 Hk dd1 (aan1 X)); [lra|exact HT|exact (proj1 S1_ok)|exact (proj2 S1_ok)|apply (inv4 _ 0.98); lra|lra|lra|unfold rr; lra].
  - apply (node_last k _ _ _ (C 2) _ _ S2 0.28 Hk dd2 (aan2 X)); [lra|exact HT|exact (proj1 S2_ok)|exact (proj2 S2_ok)|apply (inv4 _ 0.92); lra|lra|lra|unfold rr; lra].
  - apply (node_last k _ _ _ (C 3) _ _ S3 0.31 Hk dd3 (aan3 X)); [lra|exact HT|exact (proj1 S3_ok)|exact (proj2 S3_ok)|apply (inv4 _ 0.83); lra|lra|lra|unfold rr; lra].
  - apply (node_last k _ _ _ (C 4) _ _ S4 0.36 Hk dd4 (aan4 X)); [lra|exact HT|exact (proj1 S4_ok)|exact (proj2 S4_ok)|apply (inv4 _ 0.7071); lra|lra|lra|unfold rr; lra].
  - apply (node_last k _ _ _ (C 5) _ _ S5 0.46 Hk dd5 (aan5 X)); [lra|exact HT|exact (proj1 S5_ok)|exact (proj2 S5_ok)|apply (inv4 _ 0.55); lra|lra|lra|unfold rr; lra].
  - apply (node_last k _ _ _ (C 6) _ _ S6 0.66 Hk dd6 (aan6 X)); [lra|exact HT|exact (proj1 S6_ok)|exact (proj2 S6_ok)|apply (inv4 _ 0.38); lra|lra|lra|unfold rr; lra].
  - apply (node_last k _ _ _ (C 7) _ _ S7 1.283 Hk dd7 (aan7 X)); [lra|exact HT|exact (proj1 S7_ok)|exact (proj2 S7_ok)|apply (inv4 _ 0.195); lra|lra|lra|unfold rr; lra].
Qed.
