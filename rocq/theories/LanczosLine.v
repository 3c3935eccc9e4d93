(** A line enlarged with the Lanczos kernel: each sample is the Lanczos average. *)
From Coq Require Import Reals Lra.
From Flocq Require Import Core Relative BinarySingleNaN.
From Verif Require Import Base Lz77Model PngFilterModel PngPaletteModel PngFilterProofs PngPackProofs F32Model F32Proofs ResizeModel ResizeF32 ResizeSpec ResizeProofs ResizeLanczos ResizeSame LanczosSpec LanczosReal LanczosSum LanczosKernel.
Open Scope Z_scope.

(** weights near the values of a function, each with its own error *)
Fixpoint closew (E F : Z -> R) (k : Z) (ws : list f32) : Prop :=
  match ws with [] => True | w :: ws => fin w /\ (Rabs (val w - F k) <= E k)%R /\ closew E F (k + 1) ws end.
Lemma closew_map E F (g : Z -> f32) m : forall k, (forall i, 0 <= i < Z.of_nat m -> fin (g i) /\ (Rabs (val (g i) - F (k + i)%Z) <= E (k + i)%Z)%R) -> closew E F k (map g (idxs m)).
Proof.
  unfold idxs. rewrite map_map.
  assert (forall m s k, (forall i, Z.of_nat s <= i < Z.of_nat (s + m) -> fin (g i) /\ (Rabs (val (g i) - F (k + (i - Z.of_nat s))%Z) <= E (k + (i - Z.of_nat s))%Z)%R) -> closew E F k (map (fun x => g (Z.of_nat x)) (seq s m))) as K.
  { clear m. induction m as [|m IH]; intros s k H; [exact I|]. cbn [seq map closew]. destruct (H (Z.of_nat s) ltac:(lia)) as [A B].
    rewrite Z.sub_diag, Z.add_0_r in B. split; auto. split; auto. apply IH. intros i Hi. destruct (H i ltac:(lia)) as [A' B']. split; auto.
    replace (k + 1 + (i - Z.of_nat (S s))) with (k + (i - Z.of_nat s)) by lia. auto. }
  intros k H. apply K. intros i Hi. rewrite Z.sub_0_r. apply H. lia.
Qed.
Definition cst (e : R) : Z -> R := fun _ => e.
Lemma rsum_pos f : forall n k, (forall i, (0 <= f i)%R) -> (0 <= rsum f k n)%R.
Proof. induction n as [|n IH]; intros k H; cbn [rsum]; [lra|]. pose proof (H k). pose proof (IH (k + 1) H). lra. Qed.
Lemma rsum_abs_pos f n k : (0 <= rsum (fun i => Rabs (f i)) k n)%R.
Proof. apply rsum_pos. intro. apply Rabs_pos. Qed.

Lemma sum_close e F : (0 <= e <= / 1000)%R -> forall ws k acc s a, closew (cst e) F k ws -> fin acc -> (Rabs (val acc - s) <= a)%R -> (0 <= a)%R ->
  (Rabs s + rsum (fun i => Rabs (F i)) k (length ws) <= 7.9)%R -> (a + IZR (zlen ws) * (e + / 2097152) <= / 100)%R ->
  fin (fold_left f_add ws acc) /\ (Rabs (val (fold_left f_add ws acc) - (s + rsum F k (length ws))) <= a + IZR (zlen ws) * (e + / 2097152))%R.
Proof.
  intros E0. induction ws as [|w ws IH]; intros k acc s a N Fa A A0 S B.
  - cbn [fold_left length rsum]. change (zlen []) with 0 in *. rewrite Rplus_0_r. split; auto. lra.
  - destruct N as (Fw & Nw & N). unfold cst in Nw. cbn [fold_left length rsum] in *. assert (zlen (w :: ws) = zlen ws + 1) as ZL by (unfold zlen; cbn [length]; lia). rewrite ZL, plus_IZR in *.
    assert (0 <= IZR (zlen ws))%R as Z0 by (apply IZR_le; unfold zlen; lia).
    assert (0 <= IZR (zlen ws) * (e + / 2097152))%R as Z1 by (apply Rmult_le_pos; lra).
    pose proof (rsum_abs_pos F (length ws) (k + 1)) as RP.
    pose proof (near_rel _ _ _ A) as [A1 _]. pose proof (near_rel _ _ _ Nw) as [W1 _]. 
    pose proof (Rabs_triang (val acc) (val w)) as T.
    destruct (add_err acc w 3) as [Fs Es]; auto; try lia. { change (bpow radix2 3) with 8%R. lra. }
    change (bpow radix2 (3 - 24)) with (/ 2097152)%R in Es.
    pose proof (Rabs_triang s (F k)) as T2.
    destruct (IH (k + 1) (f_add acc w) (s + F k)%R (a + (e + / 2097152))%R) as [FF EE]; auto; try lra.
    + apply Rabs_le_inv in A, Nw, Es. apply Rabs_le. lra.
    + split; auto. rewrite Rplus_assoc in EE. lra.
Qed.
Lemma closew_div e F t T dl : fin t -> (Rabs (val t - T) <= dl)%R -> (0 <= dl <= / 10000)%R -> (0.49 <= T)%R -> (0 <= e <= / 1000)%R -> (forall i, (Rabs (F i) <= 3)%R) ->
  forall ws k, closew (cst e) F k ws -> closew (fun i => (e + Rabs (F i / T) * dl) * (1 / 0.489) + / 2097152)%R (fun i => (F i / T)%R) k (map (fun w => f_div w t) ws).
Proof.
  intros Ft Bt D0 T0 E0 BF. apply Rabs_le_inv in Bt. assert (0.489 <= val t)%R as T1 by lra.
  induction ws as [|w ws IH]; intros k N; [exact I|]. destruct N as (Fw & Nw & N). unfold cst in Nw. cbn [map closew].
  assert (Rabs (val w / val t - F k / T) <= (e + Rabs (F k / T) * dl) * (1 / 0.489))%R as Q.
  { replace (val w / val t - F k / T)%R with ((val w - F k + F k / T * (T - val t)) * / val t)%R by (field; lra).
    rewrite Rabs_mult, (Rabs_inv (val t)), (Rabs_pos_eq (val t)) by lra. apply Rmult_le_compat.
    - apply Rabs_pos.
    - apply Rlt_le, Rinv_0_lt_compat; lra.
    - eapply Rle_trans; [apply Rabs_triang|]. apply Rplus_le_compat; auto. rewrite Rabs_mult. apply Rmult_le_compat_l; [apply Rabs_pos|]. apply Rabs_le; lra.
    - unfold Rdiv at 1. rewrite Rmult_1_l. apply Rinv_le_contravar; lra. }
  pose proof (near_rel _ _ _ Nw) as [W1 _]. specialize (BF k).
  assert (Rabs (val w / val t) <= 3.01 * (/ 0.489))%R as Q1.
  { unfold Rdiv. rewrite Rabs_mult, (Rabs_inv (val t)), (Rabs_pos_eq (val t)) by lra. apply Rmult_le_compat; auto using Rabs_pos; [apply Rlt_le, Rinv_0_lt_compat; lra|lra|apply Rinv_le_contravar; lra]. }
  destruct (div_err w t 3) as [Fd Ed]; auto; try lra; try lia. { change (bpow radix2 3) with 8%R. lra. }
  change (bpow radix2 (3 - 24)) with (/ 2097152)%R in Ed. split; auto. split; [|apply IH; auto].
  apply Rabs_le_inv in Q, Ed. apply Rabs_le. lra.
Qed.
Lemma wsum_close (p : Z -> Z) E G : (forall i, is_byte (p i)) -> (forall i, (0 <= E i <= / 100)%R) -> (forall i, (Rabs (G i) <= 6.5)%R) ->
  forall ws k acc s a, closew E G k ws -> fin acc ->
    (Rabs (val acc - s) <= a)%R -> (0 <= a)%R -> (Rabs s + 255 * rsum (fun i => Rabs (G i)) k (length ws) <= 8100)%R ->
    (a + 255 * rsum E k (length ws) + IZR (zlen ws) * (/ 8192 + / 2048) <= 1)%R ->
    fin (wsum p k ws acc) /\ (Rabs (val (wsum p k ws acc) - (s + rsum (fun i => G i * IZR (p i)) k (length ws))) <= a + 255 * rsum E k (length ws) + IZR (zlen ws) * (/ 8192 + / 2048))%R.
Proof.
  intros HP HE HG. induction ws as [|w ws IH]; intros k acc s a N F A A0 S B.
  - cbn [wsum length rsum] in *. change (zlen []) with 0 in *. rewrite Rplus_0_r. split; auto. lra.
  - destruct N as (Fw & Nw & N). cbn [wsum length rsum] in *. assert (zlen (w :: ws) = zlen ws + 1) as ZL by (unfold zlen; cbn [length]; lia). rewrite ZL, plus_IZR in *.
    assert (0 <= IZR (zlen ws))%R as Z0 by (apply IZR_le; unfold zlen; lia). pose proof (byte_R _ (HP k)) as PK. pose proof (HP k) as PK'. unfold is_byte in PK'.
    destruct (of_Z_exact (p k) ltac:(change (2 ^ 24) with 16777216; lia)) as [Fk Vk]. pose proof (HE k) as Ek. pose proof (HG k) as Gk.
    pose proof (rsum_abs_pos G (length ws) (k + 1)) as RP. pose proof (rsum_pos E (length ws) (k + 1) (fun i => proj1 (HE i))) as RE.
    pose proof (near_rel _ _ _ A) as [A1 _]. pose proof (near_rel _ _ _ Nw) as [W1 _].
    assert (Rabs (IZR (p k) * val w - G k * IZR (p k)) <= 255 * E k)%R as Q.
    { replace (IZR (p k) * val w - G k * IZR (p k))%R with (IZR (p k) * (val w - G k))%R by ring. rewrite Rabs_mult, (Rabs_pos_eq (IZR (p k))) by lra. apply Rmult_le_compat; auto using Rabs_pos; lra. }
    assert (Rabs (G k * IZR (p k)) <= 255 * Rabs (G k))%R as QG.
    { rewrite Rabs_mult, (Rabs_pos_eq (IZR (p k))), Rmult_comm by lra. apply Rmult_le_compat_r; [apply Rabs_pos|lra]. }
    pose proof (near_rel _ _ _ Q) as [Q1 _].
    destruct (mul_err (f_of_Z (p k)) w 11) as [Fm Em]; auto; try lia. { rewrite Vk. change (bpow radix2 11) with 2048%R. lra. }
    change (bpow radix2 (11 - 24)) with (/ 8192)%R in Em. rewrite Vk in Em. pose proof (near_rel _ _ _ Em) as [M1 _].
    pose proof (Rabs_triang (val acc) (val (f_mul (f_of_Z (p k)) w))) as T.
    assert (0 <= IZR (zlen ws) * (/ 8192 + / 2048))%R as Z1 by (apply Rmult_le_pos; lra).
    destruct (add_err acc (f_mul (f_of_Z (p k)) w) 13) as [Fs Es]; auto; try lia. { change (bpow radix2 13) with 8192%R. lra. }
    change (bpow radix2 (13 - 24)) with (/ 2048)%R in Es. pose proof (Rabs_triang s (G k * IZR (p k))) as T2.
    destruct (IH (k + 1) (f_add acc (f_mul (f_of_Z (p k)) w)) (s + G k * IZR (p k))%R (a + 255 * E k + (/ 8192 + / 2048))%R) as [FF EE]; auto; try lra.
    + apply Rabs_le_inv in A, Q, Em, Es. apply Rabs_le. lra.
    + split; auto. rewrite Rplus_assoc in EE. lra.
Qed.
Lemma rsum_plus f g : forall n k, rsum (fun i => f i + g i)%R k n = (rsum f k n + rsum g k n)%R.
Proof. induction n as [|n IH]; intros k; cbn [rsum]; [ring|]. rewrite IH. ring. Qed.
Lemma rsum_cst e : forall n k, rsum (cst e) k n = (INR n * e)%R.
Proof. induction n as [|n IH]; intros k; cbn [rsum]; [cbn; ring|]. rewrite IH, S_INR. unfold cst. ring. Qed.

(** the whole computation on one window *)
Lemma window_mean (p : Z -> Z) F st ws : (forall i, is_byte (p i)) -> (forall i, (Rabs (F i) <= 3)%R) -> closew (cst (/ 175000)) F st ws -> (length ws <= 8)%nat ->
  (rsum (fun i => Rabs (F i)) st (length ws) <= 7.71)%R -> (0.495 <= rsum F st (length ws))%R ->
  let t := fold_left f_add ws f_zero in
  f_lt F_EPSILON (f_abs t) = true /\
  let v := wsum p st (map (fun w => f_div w t) ws) f_zero in
  fin v /\ (Rabs (val v - rsum (fun i => F i * IZR (p i)) st (length ws) / rsum F st (length ws)) <= 0.44)%R.
Proof.
  intros HP HF N L S T t. set (T0 := rsum F st (length ws)) in *.
  assert (zlen ws <= 8) as LZ by (unfold zlen; lia). assert (0 <= IZR (zlen ws) <= 8)%R as LR by (split; [apply IZR_le; unfold zlen; lia|apply IZR_le; auto]).
  assert (IZR (zlen ws) * (/ 175000 + / 2097152) <= 8 * (/ 175000 + / 2097152))%R as LB by (apply Rmult_le_compat_r; lra).
  destruct (sum_close (/ 175000) F ltac:(lra) ws st f_zero 0%R 0%R N fin_zero) as [Ft Et].
  { rewrite val_zero, Rminus_0_r, Rabs_R0. lra. } { lra. } { rewrite Rabs_R0. lra. } { lra. }
  fold t T0 in Ft, Et. rewrite Rplus_0_l in Et. assert (Rabs (val t - T0) <= 4.96 / 100000)%R as Et' by lra. clear Et LB.
  split.
  { destruct (abs_ok t Ft) as [Fat Vat]. destruct eps_ok as [Fep Vep]. rewrite lt_ok by auto. rewrite Vep, Vat. apply Rabs_le_inv in Et'. rewrite Rlt_bool_true; [reflexivity|]. rewrite Rabs_pos_eq; lra. }
  pose proof (closew_div (/ 175000) F t T0 (4.96 / 100000) Ft Et' ltac:(lra) ltac:(lra) ltac:(lra) HF ws st N) as CD.
  set (E := fun i : Z => ((/ 175000 + Rabs (F i / T0) * (4.96 / 100000)) * (1 / 0.489) + / 2097152)%R) in *. set (G := fun i : Z => (F i / T0)%R) in *.
  assert (length (map (fun w => f_div w t) ws) = length ws) as LM by apply map_length. assert (zlen (map (fun w => f_div w t) ws) = zlen ws) as LM' by (unfold zlen; rewrite LM; reflexivity).
  assert (forall i, (Rabs (G i) <= 6.1)%R) as BG.
  { intro i. unfold G, Rdiv. rewrite Rabs_mult, Rabs_inv, (Rabs_pos_eq T0) by lra. specialize (HF i). apply Rle_trans with (3 * / 0.495)%R; [|lra]. apply Rmult_le_compat; auto using Rabs_pos; [apply Rlt_le, Rinv_0_lt_compat; lra|apply Rinv_le_contravar; lra]. }
  assert (forall n k, rsum (fun i => Rabs (G i)) k n = (rsum (fun i => Rabs (F i)) k n * / T0)%R) as RG.
  { intros n k. rewrite <- rsum_scale_r. apply rsum_ext. intros i _. unfold G, Rdiv. rewrite Rabs_mult, Rabs_inv, (Rabs_pos_eq T0) by lra. reflexivity. }
  assert (rsum (fun i => Rabs (G i)) st (length ws) <= 15.6)%R as SG.
  { rewrite RG. apply Rle_trans with (7.71 * / 0.495)%R; [|lra]. apply Rmult_le_compat; auto; [apply rsum_abs_pos|apply Rlt_le, Rinv_0_lt_compat; lra|apply Rinv_le_contravar; lra]. }
  assert (rsum E st (length ws) <= 0.00169)%R as SE.
  { assert (rsum E st (length ws) = rsum (cst (/ 175000 * (1 / 0.489) + / 2097152)) st (length ws) + (4.96 / 100000 * (1 / 0.489)) * rsum (fun i => Rabs (G i)) st (length ws))%R as ->.
    { rewrite <- rsum_scale, <- rsum_plus. apply rsum_ext. intros i _. unfold E, cst, G. ring. }
    rewrite rsum_cst. assert (INR (length ws) <= 8)%R as L8. { replace 8%R with (INR 8) by (cbn; lra). apply le_INR. auto. }
    assert (INR (length ws) * (/ 175000 * (1 / 0.489) + / 2097152) <= 8 * (/ 175000 * (1 / 0.489) + / 2097152))%R by (apply Rmult_le_compat_r; lra).
    assert (4.96 / 100000 * (1 / 0.489) * rsum (fun i => Rabs (G i)) st (length ws) <= 4.96 / 100000 * (1 / 0.489) * 15.6)%R by (apply Rmult_le_compat_l; lra). lra. }
  assert (IZR (zlen ws) * (/ 8192 + / 2048) <= 8 * (/ 8192 + / 2048))%R as LB by (apply Rmult_le_compat_r; lra).
  destruct (wsum_close p E G HP) with (ws := map (fun w => f_div w t) ws) (k := st) (acc := f_zero) (s := 0%R) (a := 0%R) as [Fv Ev]; auto using fin_zero.
  - intro i. unfold E. specialize (BG i). fold (G i). pose proof (Rabs_pos (G i)). assert (0 <= Rabs (G i) * (4.96 / 100000) <= 6.1 * (4.96 / 100000))%R by (split; [apply Rmult_le_pos; lra|apply Rmult_le_compat_r; lra]). lra.
  - intro i. specialize (BG i). lra.
  - rewrite val_zero, Rminus_0_r, Rabs_R0. lra.
  - lra.
  - rewrite LM, Rabs_R0. lra.
  - rewrite LM, LM'. lra.
  - split; auto. rewrite LM, LM', Rplus_0_l in Ev.
    replace (rsum (fun i => F i * IZR (p i)) st (length ws) / T0)%R with (rsum (fun i => G i * IZR (p i)) st (length ws))%R; [lra|].
    unfold Rdiv. rewrite <- rsum_scale_r. apply rsum_ext. intros i _. unfold G, Rdiv. ring.
Qed.
