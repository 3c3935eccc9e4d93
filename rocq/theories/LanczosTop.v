(** Enlarging with Lanczos computes the Lanczos average; reducing does not. *)
From Coq Require Import Reals Lra.
From Flocq Require Import Core Relative BinarySingleNaN.
From Verif Require Import Base Lz77Model PngFilterModel PngPaletteModel PngFilterProofs PngPackProofs F32Model F32Proofs ResizeModel ResizeF32 ResizeSpec ResizeProofs ResizeLanczos ResizeSame ResizeTop LanczosSpec LanczosReal LanczosSum LanczosKernel LanczosLine.
Open Scope Z_scope.

Lemma rsum_shift_abs F st n src : forall m, st + m <= src -> 0 <= st -> n = Z.to_nat m -> 0 <= m -> (rsum (fun i => Rabs (F i)) st n <= rsum (fun i => Rabs (F i)) 0 (Z.to_nat src))%R.
Proof.
  intros m H1 H2 -> H3. replace (Z.to_nat src) with (Z.to_nat st + (Z.to_nat m + Z.to_nat (src - st - m)))%nat by lia. rewrite !rsum_app.
  replace (0 + Z.of_nat (Z.to_nat st)) with st by lia. pose proof (rsum_abs_pos F (Z.to_nat st) 0). pose proof (rsum_abs_pos F (Z.to_nat (src - st - m)) (st + Z.of_nat (Z.to_nat m))). lra.
Qed.
Lemma ncoord_low src dst d : 1 <= src <= 2 ^ 24 -> 1 <= dst <= 2 ^ 24 -> 0 <= d < dst -> (- / 2 <= ncoord src dst d)%R.
Proof.
  intros Hs Hd Hx. destruct (nprod_range src dst d Hs Hd Hx) as (MR & PR & PB). unfold ncoord. set (p := (rnd (IZR d + / 2) * rnd (IZR src / IZR dst))%R) in *.
  assert (fmt (- / 2)) as FH. { replace (- / 2)%R with (IZR (-1) / 2)%R by lra. apply fmt_halves. lia. }
  assert (0 <= rnd p)%R as P0. { rewrite <- (rnd_fmt 0) by apply generic_format_0. apply rnd_le. pose proof (bpow_gt_0 radix2 (-30)). lra. }
  rewrite <- (rnd_fmt (- / 2)) by auto. apply rnd_le. lra.
Qed.

Section Sin.
  Variable sin : f32 -> f32.
  Hypothesis SIN : good_sine sin.

  Lemma win_up src dst d : 1 <= src <= 2 ^ 18 -> src <= dst <= 2 ^ 24 -> 0 <= d < dst ->
    exists st ws a, (a = 1 \/ a = 3)%R /\ let c := ncoord src dst d in
      (let t := fold_left f_add ws f_zero in win sin src dst d = (st, if f_lt F_EPSILON (f_abs t) then map (fun w => f_div w t) ws else ws)) /\
      0 <= st /\ st + zlen ws <= src /\ (length ws <= 8)%nat /\
      (forall i, 0 <= i < src -> i < st \/ st + zlen ws <= i -> lzs c i = 0%R) /\
      closew (cst (/ 175000)) (fun i => a * lzs c i)%R st ws /\
      (0.495 <= a * rsum (lzs c) 0 (Z.to_nat src))%R.
  Proof.
    intros Hs Hd Hx. change (2 ^ 18) with 262144 in Hs.
    assert (1 <= src <= 2 ^ 24) as Hs' by (change (2 ^ 24) with 16777216; lia). assert (1 <= dst <= 2 ^ 24) as Hd' by lia.
    unfold win. destruct (center_ok src dst d Hs' Hd' Hx) as (Fc & Vc & Bc). destruct (div_range src dst ltac:(lia) ltac:(lia)) as (Fr & Vr & Br).
    pose proof (ncoord_low src dst d Hs' Hd' Hx) as CL. pose proof (ncoord_near src dst d Hs' Hd' Hx) as CN.
    destruct (nprod_range src dst d Hs' Hd' Hx) as (MR & _).
    assert (1 <= IZR src <= 262144)%R as RS by (split; apply IZR_le; lia).
    assert (ncoord src dst d <= IZR src - 0.3)%R as CH.
    { apply Rabs_le_inv in CN. unfold centre in CN. change (bpow radix2 (-21)) with (/ 2097152)%R in CN. lra. }
    assert (IZR src / IZR dst <= 1)%R as RQ.
    { assert (1 <= IZR dst)%R by (apply IZR_le; lia). apply (Rmult_le_reg_r (IZR dst)); [lra|]. unfold Rdiv. rewrite Rmult_assoc, Rinv_l, Rmult_1_l, Rmult_1_r by lra. apply IZR_le. lia. }
    assert (val (f_div (f_of_Z src) (f_of_Z dst)) <= 1)%R as RV. { rewrite Vr. rewrite <- (rnd_fmt 1) by (apply (fmt_Z 1); lia). apply rnd_le. auto. }
    destruct one_ok as [F1 V1]. destruct (maximum_ok _ _ Fr F1) as [Fs Vs]. rewrite V1, Rmax_right in Vs by lra.
    unfold contribution. set (scale := f_div (f_of_Z src) (f_of_Z dst)) in *. set (fs := f_maximum scale f_one) in *.
    set (cf := f_sub (f_mul (f_add (f_of_Z d) f_half) scale) f_half) in *. destruct f3_ok as [F3' V3']. set (c := ncoord src dst d) in *.
    destruct (mul_bound F3 fs 4%R) as (Fp & Vp & _); auto.
    { apply (fmt_bpow 2); lia. } { rewrite V3', Vs, Rabs_pos_eq; lra. } { apply (bpow_lt 2 128); lia. }
    rewrite V3', Vs, Rmult_1_r, rnd_fmt in Vp by (apply (fmt_Z 3); lia). set (s := f_mul F3 fs) in *.
    destruct (sub_bound cf s (bpow radix2 24)) as (Fl & Vl & _); auto.
    { apply fmt_bpow; lia. } { rewrite Vc, Vp, pow24. apply Rabs_le; lra. } { apply bpow_lt; lia. }
    destruct (add_bound cf s (bpow radix2 24)) as (Fh & Vh & _); auto.
    { apply fmt_bpow; lia. } { rewrite Vc, Vp, pow24. apply Rabs_le; lra. } { apply bpow_lt; lia. }
    rewrite Vc, Vp in Vl, Vh.
    destruct (floor_ok _ Fl) as [Ff Vf]. destruct (ceil_ok _ Fh) as [Fe Ve].
    unfold to_isize, to_usize. rewrite !to_Z_ok by (auto; lia). rewrite Vf, Ve, Vl, Vh, !Ztrunc_IZR.
    set (lo := Zfloor (rnd (c - 3))). set (hi := Zceil (rnd (c + 3))).
    set (k := Zfloor c). assert (IZR k <= c < IZR k + 1)%R as KB by (split; [apply Zfloor_lb|apply Zfloor_ub]).
    assert (-1 <= k) as K0 by (apply Zfloor_lub; lra). assert (k <= src - 1) as K1 by (apply Z.lt_le_pred, lt_IZR; lra).
    assert (forall z, Z.abs z <= 262150 -> rnd (IZR z) = IZR z) as RZ by (intros z Hz; apply rnd_fmt, fmt_Z; change (2 ^ 24) with 16777216; lia).
    assert (k - 3 <= lo) as L1. { apply Zfloor_lub. rewrite <- (RZ (k - 3)) by lia. apply rnd_le. rewrite minus_IZR. lra. }
    assert (lo <= k - 2) as L2. { apply le_IZR. eapply Rle_trans; [apply Zfloor_lb|]. rewrite <- (RZ (k - 2)) by lia. apply rnd_le. rewrite minus_IZR. lra. }
    assert (hi <= k + 4) as H1. { apply Zceil_glb. rewrite <- (RZ (k + 4)) by lia. apply rnd_le. rewrite plus_IZR. lra. }
    assert (k + 3 <= hi) as H2. { apply le_IZR. eapply Rle_trans; [|apply Zceil_ub]. rewrite <- (RZ (k + 3)) by lia. apply rnd_le. rewrite plus_IZR. lra. }
    assert (forall i, 0 <= i < src -> i < lo -> (3 <= c - IZR i)%R) as OL.
    { intros i Hi Li. destruct (Rle_or_lt 3 (c - IZR i)) as [C|C]; auto. exfalso. assert (lo <= i); [|lia]. apply le_IZR. eapply Rle_trans; [apply Zfloor_lb|]. rewrite <- (RZ i) by lia. apply rnd_le. lra. }
    assert (forall i, 0 <= i < src -> hi < i -> (3 <= IZR i - c)%R) as OH.
    { intros i Hi Li. destruct (Rle_or_lt 3 (IZR i - c)) as [C|C]; auto. exfalso. assert (i <= hi); [|lia]. apply le_IZR. eapply Rle_trans; [|apply Zceil_ub]. rewrite <- (RZ i) by lia. apply rnd_le. lra. }
    assert (Z.min (2 ^ 63 - 1) (Z.max (- 2 ^ 63) lo) = lo) as -> by lia.
    assert (Z.min (2 ^ 64 - 1) (Z.max 0 hi) = hi) as -> by lia.
    destruct (Z.ltb_spec (hi + 1) (2 ^ 64)) as [_|C]; [|lia]. cbn [rbind].
    unfold usub. destruct (Z.ltb_spec (Z.min (hi + 1) src) (Z.max lo 0)) as [C|_]; [lia|]. cbn [rbind fst snd].
    set (st := Z.max lo 0). set (m := Z.min (hi + 1) src - st). set (g := fun i => lanczos_kernel sin (f_div (f_sub (f_of_Z (st + i)) cf) fs)).
    (* the positions *)
    assert (forall i, 0 <= i < m -> exists x, g i = lanczos_kernel sin x /\ fin x /\ val x = rnd (IZR (st + i) - c) /\ (Rabs (IZR (st + i) - c) <= 8)%R) as GX.
    { intros i Hi. unfold g. destruct (of_Z_exact (st + i) ltac:(change (2 ^ 24) with 16777216; lia)) as [Fi Vi].
      assert (Rabs (IZR (st + i) - c) <= 8)%R as B8. { assert (IZR (k - 3) <= IZR (st + i))%R as Q1 by (apply IZR_le; lia). assert (IZR (st + i) <= IZR (k + 4))%R as Q2 by (apply IZR_le; lia). rewrite minus_IZR in Q1. rewrite (plus_IZR k) in Q2. apply Rabs_le. lra. }
      destruct (sub_bound (f_of_Z (st + i)) cf 8%R) as (Fx & Vx & Bx); auto.
      { apply (fmt_bpow 3); lia. } { rewrite Vi, Vc. auto. } { apply (bpow_lt 3 128); lia. }
      rewrite Vi, Vc in Vx. eexists. split; [reflexivity|].
      destruct (div_bound (f_sub (f_of_Z (st + i)) cf) fs 8%R) as (Fy & Vy & _); auto; [rewrite Vs; lra|apply (fmt_bpow 3); lia|rewrite Vs; unfold Rdiv; rewrite Rinv_1, Rmult_1_r; auto|apply (bpow_lt 3 128); lia|].
      split; auto. split; auto. rewrite Vy, Vs. unfold Rdiv. rewrite Rinv_1, Rmult_1_r, Vx. rewrite (rnd_fmt (rnd _)); [reflexivity|apply fmt_rnd]. }
    assert (zlen (map g (idxs (Z.to_nat m))) = m) as LW by (unfold zlen, idxs; rewrite !map_length, seq_length; lia).
    assert (length (map g (idxs (Z.to_nat m))) = Z.to_nat m) as LW' by (unfold idxs; rewrite !map_length, seq_length; lia).
    assert (forall i, 0 <= i < src -> i < st \/ st + m <= i -> lzs c i = 0%R) as OUT.
    { intros i Hi [C|C]; apply lz_out.
      - pose proof (OL i Hi ltac:(lia)). rewrite Rabs_left1; lra.
      - pose proof (OH i Hi ltac:(lia)). rewrite Rabs_pos_eq; lra. }
    pose proof (total_low src c ltac:(lia) (conj CL CH)) as TL.
    assert (forall y, (Rabs (rnd y) < / 8388608)%R -> (Rabs y <= / 8388608)%R) as SMALL.
    { intros y Hy. assert (fmt (/ 8388608)) as FE by (apply (fmt_bpow (-23)); lia). assert (fmt (- / 8388608)) as FE' by (apply generic_format_opp; auto).
      apply Rabs_lt_inv in Hy. apply Rabs_le. split.
      - destruct (Rle_or_lt (- / 8388608) y) as [C|C]; auto. assert (rnd y <= rnd (- / 8388608))%R as Q by (apply rnd_le; lra). rewrite (rnd_fmt (- / 8388608)) in Q by auto. lra.
      - destruct (Rle_or_lt y (/ 8388608)) as [C|C]; auto. assert (rnd (/ 8388608) <= rnd y)%R as Q by (apply rnd_le; lra). rewrite (rnd_fmt (/ 8388608)) in Q by auto. lra. }
    (* is a sample at the centre? *)
    assert ((exists j, 0 <= j < m /\ (Rabs (rnd (IZR (st + j) - c)) < / 8388608)%R) \/ (forall i, 0 <= i < m -> (/ 8388608 <= Rabs (rnd (IZR (st + i) - c)))%R)) as [(j & Hj & Bj)|ALL].
    { destruct (Forall_Exists_dec (fun i => (/ 8388608 <= Rabs (rnd (IZR (st + i) - c)))%R) (fun i => Rle_dec _ _) (idxs (Z.to_nat m))) as [A|A].
      - right. intros i Hi. rewrite Forall_forall in A. apply A. apply in_idxs. lia.
      - left. apply Exists_exists in A as (j & Ij & Nj). apply in_idxs in Ij. exists j. split; [lia|]. lra. }
    - (* there is one: its weight is 1 and the others are small *)
      pose proof (SMALL _ Bj) as SJ. 
      exists st, (map g (idxs (Z.to_nat m))), 1%R. split; [auto|]. cbv zeta. split; [reflexivity|]. rewrite LW. split; [lia|]. split; [lia|]. split; [rewrite LW'; lia|].
      split; [exact OUT|]. split.
      + apply closew_map. intros i Hi. unfold cst. destruct (GX i ltac:(lia)) as (x & -> & Fx & Vx & B8). rewrite Rmult_1_l.
        assert (Rabs (IZR (st + i) - c - IZR (i - j)) <= / 8388608)%R as NI. { replace (IZR (st + i) - c - IZR (i - j))%R with (IZR (st + j) - c)%R by (rewrite minus_IZR, !plus_IZR; ring). auto. }
        destruct (Z.eq_dec i j) as [->|NJ].
        * rewrite kernel_one by (auto; rewrite Vx; auto). split; auto. rewrite V1. pose proof (lz_0 (IZR (st + j) - c) ltac:(lra)). unfold lzs. apply Rabs_le. lra.
        * assert (/ 8388608 <= Rabs (val x))%R as BX.
          { rewrite Vx. destruct (Rle_or_lt (/ 8388608) (Rabs (rnd (IZR (st + i) - c)))) as [C|C]; auto. exfalso. pose proof (SMALL _ C) as SI. apply Rabs_le_inv in SI, SJ. rewrite !plus_IZR in *.
            assert (-1 < i - j < 1) as Q by (split; apply lt_IZR; rewrite minus_IZR; lra). lia. }
          destruct (kernel_lz sin SIN x (IZR (st + i) - c) Fx Vx ltac:(lra) BX) as [FK EK]. split; auto.
          (* |L| small, so 3 L and L are close *)
          destruct (Rle_or_lt 3 (Rabs (IZR (st + i) - c))) as [C|C].
          { unfold lzs. rewrite (lz_out _ C) in *. rewrite Rmult_0_r in EK. lra. }
          assert (1 <= Z.abs (i - j) <= 3) as RJ.
          { split; [lia|]. assert (Z.abs (i - j) < 4); [|lia]. apply lt_IZR. rewrite abs_IZR. apply Rabs_le_inv in NI. apply Rabs_lt_inv in C. apply Rabs_lt. lra. }
          pose proof (lz_int (IZR (st + i) - c) (i - j) ltac:(lra) RJ) as LI. unfold lzs.
          apply Rabs_le_inv in LI, EK. apply Rabs_le. lra.
      + rewrite Rmult_1_l. pose proof (total_int src c ltac:(lia) (st + j) ltac:(lia) ltac:(lra)). lra.
    - exists st, (map g (idxs (Z.to_nat m))), 3%R. split; [auto|]. cbv zeta. split; [reflexivity|]. rewrite LW. split; [lia|]. split; [lia|]. split; [rewrite LW'; lia|].
      split; [exact OUT|]. split; [|lra].
      apply closew_map. intros i Hi. unfold cst. destruct (GX i ltac:(lia)) as (x & -> & Fx & Vx & B8).
      assert (/ 8388608 <= Rabs (val x))%R as BX by (rewrite Vx; apply ALL; lia).
      destruct (kernel_lz sin SIN x (IZR (st + i) - c) Fx Vx ltac:(lra) BX) as [FK EK]. split; auto. unfold lzs. lra.
  Qed.

  Lemma rhaz_level v : fin v -> let out := to_u8 (f_clamp (f_round v) f_zero F255) in IZR out = level (IZR (rhaz (val v))).
  Proof.
    intros F out. unfold out. destruct (round_ok v F) as [Fr Vr]. destruct f255_ok as [F2 V2].
    destruct (clamp_ok (f_round v) f_zero F255 Fr fin_zero F2 ltac:(rewrite val_zero, V2; lra)) as [Fc Vc].
    unfold to_u8. rewrite to_Z_ok by (auto; lia). rewrite Vc, val_zero, V2, Vr. unfold level. set (z := rhaz (val v)). clearbody z. clear.
    assert (Rmin 255 (Rmax 0 (IZR z)) = IZR (Z.min 255 (Z.max 0 z)) /\ Rmax 0 (Rmin (IZR z) 255) = IZR (Z.min 255 (Z.max 0 z))) as [-> ->].
    { destruct (Z.le_gt_cases 0 z) as [B|B]; [apply IZR_le in B as B'|apply IZR_lt in B as B']; destruct (Z.le_gt_cases z 255) as [A|A]; try (apply IZR_le in A as A'); try (apply IZR_lt in A as A'); try lia.
      - rewrite (Rmax_right 0), Rmin_right, Rmin_left, Rmax_right by lra. replace (Z.min 255 (Z.max 0 z)) with z by lia. auto.
      - rewrite (Rmax_right 0), Rmin_left, Rmin_right, Rmax_right by lra. replace (Z.min 255 (Z.max 0 z)) with 255 by lia. auto.
      - rewrite (Rmax_left 0), Rmin_right, Rmin_left, Rmax_left by lra. replace (Z.min 255 (Z.max 0 z)) with 0 by lia. auto. }
    rewrite Ztrunc_IZR. f_equal. lia.
  Qed.
  Lemma level_lip x y e : (Rabs (x - y) <= e)%R -> (Rabs (level x - level y) <= e)%R.
  Proof.
    intro H. pose proof (Rabs_pos (x - y)). apply Rabs_le_inv in H. unfold level. apply Rabs_le. unfold Rmax, Rmin.
    destruct (Rle_dec x 255); destruct (Rle_dec y 255); repeat match goal with |- context [Rle_dec ?a ?b] => destruct (Rle_dec a b) end; lra.
  Qed.
  (** one line, enlarged *)
  Lemma line_val src dst p d : 1 <= src <= 2 ^ 18 -> src <= dst <= 2 ^ 24 -> 0 <= d < dst -> (forall i, is_byte (p i)) ->
    let c := ncoord src dst d in
    exists v, fin v /\ line sin src dst p d = to_u8 (f_clamp (f_round v) f_zero F255) /\ (Rabs (val v - lanczos_mean src p c 1) <= 0.44)%R /\ (0 < rsum (lzs c) 0 (Z.to_nat src))%R.
  Proof.
    intros Hs Hd Hx HP c. destruct (win_up src dst d Hs Hd Hx) as (st & ws & a & HA & EW & S0 & S1 & L8 & OUT & CW & TW). fold c in OUT, CW, TW.
    change (2 ^ 18) with 262144 in Hs. assert (0 <= zlen ws) as Z0 by (unfold zlen; lia). assert (length ws = Z.to_nat (zlen ws)) as LZ by (unfold zlen; lia).
    assert (0 < a <= 3)%R as A0 by (destruct HA; lra).
    assert (forall f, rsum (fun i => a * (lzs c i * f i))%R 0 (Z.to_nat src) = rsum (fun i => a * (lzs c i * f i))%R st (length ws)) as PART.
    { intro f. rewrite LZ. apply rsum_part; auto. intros i Hi Ho. rewrite OUT by auto. ring. }
    assert (rsum (fun i => a * lzs c i)%R st (length ws) = a * rsum (lzs c) 0 (Z.to_nat src))%R as ET.
    { rewrite <- rsum_scale. pose proof (PART (fun _ => 1%R)) as Q. rewrite (rsum_ext _ (fun i => a * lzs c i)%R) in Q by (intros; ring). rewrite Q. apply rsum_ext. intros; ring. }
    assert (- / 2 <= c <= IZR src - 0.3)%R as CB.
    { assert (1 <= src <= 2 ^ 24) as Hs' by (change (2 ^ 24) with 16777216; lia). split; [apply ncoord_low; lia|].
      pose proof (ncoord_near src dst d Hs' ltac:(lia) Hx) as CN. destruct (nprod_range src dst d Hs' ltac:(lia) Hx) as (MR & _). fold c in CN.
      assert (1 <= IZR src <= 262144)%R by (split; apply IZR_le; lia). apply Rabs_le_inv in CN. unfold centre in CN. change (bpow radix2 (-21)) with (/ 2097152)%R in CN. lra. }
    destruct (window_mean p (fun i => a * lzs c i)%R st ws HP) as (BT & FV & EV); auto.
    - intro i. rewrite Rabs_mult, (Rabs_pos_eq a) by lra. pose proof (lz_le1 (IZR i - c)) as L1. fold (lzs c i) in L1. pose proof (Rabs_pos (lzs c i)). replace 3%R with (3 * 1)%R by ring. apply Rmult_le_compat; lra.
    - eapply Rle_trans; [apply (rsum_shift_abs (fun i => a * lzs c i)%R st (length ws) src (zlen ws)); auto|].
      rewrite (rsum_ext _ (fun i => a * Rabs (lzs c i))%R) by (intros; rewrite Rabs_mult, (Rabs_pos_eq a) by lra; reflexivity). rewrite rsum_scale.
      pose proof (total_abs src c ltac:(lia)) as TA. pose proof (rsum_abs_pos (lzs c) (Z.to_nat src) 0).
      apply Rle_trans with (3 * 2.57)%R; [apply Rmult_le_compat; lra|lra].
    - rewrite ET. exact TW.
    - unfold line, pick. cbv zeta in EW, BT. rewrite EW, BT. cbn [fst snd]. eexists. split; [exact FV|]. split; [reflexivity|]. cbv zeta in EV. split.
      + replace (lanczos_mean src p c 1) with (rsum (fun i => a * lzs c i * IZR (p i)) st (length ws) / rsum (fun i => a * lzs c i) st (length ws))%R; [exact EV|].
        unfold lanczos_mean. rewrite ET. rewrite (rsum_ext _ (fun i => a * (lzs c i * IZR (p i)))%R) by (intros; ring). rewrite <- PART, rsum_scale.
        rewrite !(rsum_ext (fun i => lanczos3 ((IZR i - c) / 1) * _)%R (fun i => lzs c i * IZR (p i))%R) by (intros; unfold lzs, Rdiv; rewrite Rinv_1, Rmult_1_r; reflexivity).
        rewrite !(rsum_ext (fun i => lanczos3 ((IZR i - c) / 1))%R (lzs c)) by (intros; unfold lzs, Rdiv; rewrite Rinv_1, Rmult_1_r; reflexivity).
        assert (rsum (lzs c) 0 (Z.to_nat src) <> 0)%R by (pose proof (total_low src c ltac:(lia) CB); lra). field. split; [auto|lra].
      + pose proof (total_low src c ltac:(lia) CB). lra.
  Qed.
  Lemma line_mean src dst p d : 1 <= src <= 2 ^ 18 -> src <= dst <= 2 ^ 24 -> 0 <= d < dst -> (forall i, is_byte (p i)) ->
    (Rabs (ncoord src dst d - centre src dst d) <= IZR src * bpow radix2 (-21))%R /\
    (Rabs (IZR (line sin src dst p d) - level (lanczos_mean src p (ncoord src dst d) 1)) <= 0.95)%R.
  Proof.
    intros Hs Hd Hx HP. change (2 ^ 18) with 262144 in Hs. split; [apply ncoord_near; change (2 ^ 24) with 16777216 in *; lia|].
    destruct (line_val src dst p d Hs Hd Hx HP) as (v & Fv & -> & EV & _). rewrite rhaz_level by auto. apply level_lip.
    pose proof (rhaz_near (val v)) as N. apply Rabs_le_inv in N, EV. apply Rabs_le. lra.
  Qed.
  Lemma line_flat src dst p v d : 1 <= src <= 2 ^ 18 -> src <= dst <= 2 ^ 24 -> 0 <= d < dst -> is_byte v -> (forall i, 0 <= i < src -> p i = v) -> line sin src dst p d = v.
  Proof.
    intros Hs Hd Hx HV HP. change (2 ^ 18) with 262144 in Hs. rewrite (line_ext sin src dst p (fun _ => v) d) by (auto; change (2 ^ 24) with 16777216 in *; lia).
    destruct (line_val src dst (fun _ => v) d Hs Hd Hx (fun _ => HV)) as (x & Fx & -> & EX & T0). set (c := ncoord src dst d) in *.
    assert (lanczos_mean src (fun _ => v) c 1 = IZR v) as M.
    { unfold lanczos_mean. rewrite rsum_scale_r.
      rewrite !(rsum_ext (fun i => lanczos3 ((IZR i - c) / 1))%R (lzs c)) by (intros; unfold lzs, Rdiv; rewrite Rinv_1, Rmult_1_r; reflexivity). field. lra. }
    rewrite M in EX. apply eq_IZR. rewrite rhaz_level by auto. apply Rabs_le_inv in EX. unfold is_byte in HV. assert (0 <= IZR v <= 255)%R by (split; apply IZR_le; lia).
    assert (rhaz (val x) = v) as -> by (apply Z.le_antisymm; [apply rhaz_lt|apply rhaz_gt]; lra).
    unfold level. rewrite Rmin_left, Rmax_right; lra.
  Qed.

  (** ** Images *)
  Lemma lanczos_flat_l data o v : resizable o data -> r_algo o = Lanczos3 -> r_sw o <= 2 ^ 18 -> r_sh o <= 2 ^ 18 -> r_sw o <= r_dw o -> r_sh o <= r_dh o ->
    Forall (fun b => b = v) data -> exists out, resize sin data o = Ok out /\ zlen out = r_dw o * r_dh o * bytes_per_pixel (r_ct o) /\ Forall (fun b => b = v) out.
  Proof.
    intros HR A B1 B2 U1 U2 FV. set (bpp := bytes_per_pixel (r_ct o)). destruct (lanczos_l sin data o HR A) as (out & E & _ & L & P). fold bpp in L, P. exists out. split; [exact E|]. split; [exact L|].
    destruct HR as (H1 & H2 & H3 & H4 & HB & LD). fold bpp in LD. pose proof (bpp_range (r_ct o)) as HBP. fold bpp in HBP.
    assert (forall x y c, 0 <= x < r_sw o -> 0 <= y < r_sh o -> 0 <= c < bpp -> px data (r_sw o) bpp x y c = v) as PV.
    { intros x y c Hx Hy Hc. unfold px, znth. rewrite Forall_forall in FV. apply FV. apply nth_In.
      pose proof (index_in data (r_sw o) (r_sh o) bpp H1 H2 (proj1 HBP) LD x y c Hx Hy Hc). unfold zlen in *. lia. }
    assert (is_byte v) as VB. { rewrite <- (PV 0 0 0) by lia. unfold px. unfold bytes in HB. rewrite Forall_forall in HB. apply HB. unfold znth. apply nth_In.
      pose proof (index_in data (r_sw o) (r_sh o) bpp H1 H2 (proj1 HBP) LD 0 0 0 ltac:(lia) ltac:(lia) ltac:(lia)). unfold zlen in *. lia. }
    apply Forall_forall. intros b Hb. apply (In_nth _ _ 0) in Hb as (k & Hk & <-).
    assert (0 <= Z.of_nat k < r_dw o * r_dh o * bpp) as Hi by (rewrite <- L; unfold zlen; lia). set (i := Z.of_nat k) in *.
    pose proof (Z.div_mod i bpp ltac:(lia)). pose proof (Z.mod_pos_bound i bpp ltac:(lia)).
    pose proof (Z.div_mod (i / bpp) (r_dw o) ltac:(lia)). pose proof (Z.mod_pos_bound (i / bpp) (r_dw o) ltac:(lia)).
    assert (0 <= i / bpp < r_dw o * r_dh o). { split; [apply Z.div_pos; lia|]. apply Z.div_lt_upper_bound; nia. }
    assert (0 <= i / bpp / r_dw o < r_dh o). { split; [apply Z.div_pos; lia|]. apply Z.div_lt_upper_bound; nia. }
    specialize (P ((i / bpp) mod r_dw o) (i / bpp / r_dw o) (i mod bpp) ltac:(lia) ltac:(lia) ltac:(lia)).
    rewrite (line_flat (r_sh o) (r_dh o) _ v) in P; auto; try lia.
    - unfold px in P. replace ((i / bpp / r_dw o * r_dw o + (i / bpp) mod r_dw o) * bpp + i mod bpp) with i in P by nia. unfold znth, i in P. rewrite Nat2Z.id in P. exact P.
    - intros j Hj. apply line_flat; auto; try lia. 
  Qed.

  (** ** A reduction to a third *)
  Lemma win_third : win sin 3 1 0 =
    (let ws := [lanczos_kernel sin (f_div (f_sub (f_of_Z 0) f_one) F3); lanczos_kernel sin (f_div (f_sub (f_of_Z 1) f_one) F3); lanczos_kernel sin (f_div (f_sub (f_of_Z 2) f_one) F3)] in
     let t := fold_left f_add ws f_zero in (0, if f_lt F_EPSILON (f_abs t) then map (fun w => f_div w t) ws else ws)).
  Proof.
    unfold win, contribution.
    assert (f_maximum (f_div (f_of_Z 3) (f_of_Z 1)) f_one = F3) as -> by (vm_compute; reflexivity).
    assert (f_sub (f_mul (f_add (f_of_Z 0) f_half) (f_div (f_of_Z 3) (f_of_Z 1))) f_half = f_one) as -> by (vm_compute; reflexivity).
    assert (Z.max (to_isize (f_floor (f_sub f_one (f_mul F3 F3)))) 0 = 0) as -> by (vm_compute; reflexivity).
    assert (to_usize (f_ceil (f_add f_one (f_mul F3 F3))) = 10) as -> by (vm_compute; reflexivity).
    reflexivity.
  Qed.
  Lemma line_third : line sin 3 1 (znth [0; 255; 0]) 0 <= 45.
  Proof.
    unfold line, pick. rewrite win_third. cbv zeta. set (ws := [lanczos_kernel sin _; _; _]).
    destruct f3_ok as [F3' V3]. destruct one_ok as [F1 V1].
    assert (forall i, 0 <= i <= 2 -> let x := f_div (f_sub (f_of_Z i) f_one) F3 in fin x /\ val x = rnd (IZR (i - 1) / 3)) as X.
    { intros i Hi x. destruct (of_Z_exact i ltac:(change (2 ^ 24) with 16777216; lia)) as [Fi Vi].
      assert (-1 <= IZR (i - 1) <= 1)%R as BI by (split; apply IZR_le; lia).
      destruct (sub_bound (f_of_Z i) f_one 1%R) as (Fs & Vs & _); auto; [apply (fmt_Z 1); lia|rewrite Vi, V1, <- minus_IZR; apply Rabs_le; lra|apply (bpow_lt 0 128); lia|].
      rewrite Vi, V1, <- minus_IZR, rnd_fmt in Vs by (apply fmt_Z; change (2 ^ 24) with 16777216; lia).
      destruct (div_bound (f_sub (f_of_Z i) f_one) F3 1%R) as (Fd & Vd & _); auto; [rewrite V3; lra|apply (fmt_Z 1); lia|rewrite Vs, V3; apply Rabs_le; lra|apply (bpow_lt 0 128); lia|].
      rewrite Vs, V3 in Vd. auto. }
    set (F := fun i : Z => if i =? 1 then 1%R else (3 * lanczos3 (IZR (i - 1) / 3))%R).
    assert (Rabs (/ 3) = / 3)%R as A3 by (apply Rabs_pos_eq; lra).
    assert (Rabs (IZR (0 - 1) / 3) = / 3 /\ Rabs (IZR (2 - 1) / 3) = / 3)%R as [N0 N2].
    { change (0 - 1) with (-1). change (2 - 1) with 1. split; [rewrite Rabs_left|rewrite Rabs_pos_eq]; lra. }
    assert (forall i, i = 0 \/ i = 2 -> (2.4 <= F i)%R) as FL.
    { intros i Hi. unfold F. destruct (Z.eqb_spec i 1); [lia|]. assert (Rabs (IZR (i - 1) / 3) <= 0.34)%R as B by (destruct Hi as [-> | ->]; lra).
      pose proof (lz_near _ 0.34 1.069 B ltac:(lra) ltac:(lra)). lra. }
    assert (forall i, (Rabs (F i) <= 3)%R) as F3b.
    { intro i. unfold F. destruct (i =? 1); [rewrite Rabs_R1; lra|]. rewrite Rabs_mult, (Rabs_pos_eq 3) by lra. pose proof (lz_le1 (IZR (i - 1) / 3)). lra. }
    assert (forall i, i = 0 \/ i = 2 -> let k := lanczos_kernel sin (f_div (f_sub (f_of_Z i) f_one) F3) in fin k /\ (Rabs (val k - F i) <= / 175000)%R) as K.
    { intros i Hi k. destruct (X i ltac:(lia)) as [Fx Vx]. assert (Rabs (IZR (i - 1) / 3) = / 3)%R as B by (destruct Hi as [-> | ->]; auto).
      assert (Rabs (rnd (IZR (i - 1) / 3) - IZR (i - 1) / 3) <= / 33554432)%R as E by (apply (rnd_err _ (-1)); [lia|change (bpow radix2 (-1)) with (/ 2)%R; lra]).
      destruct (near_rel _ _ _ E) as [_ E2].
      destruct (kernel_lz sin SIN _ (IZR (i - 1) / 3) Fx Vx ltac:(lra) ltac:(rewrite Vx; lra)) as [FK EK]. split; auto. unfold F. destruct (Z.eqb_spec i 1); [lia|]. fold k in EK. lra. }
    destruct (K 0 ltac:(auto)) as [FK0 EK0]. destruct (K 2 ltac:(auto)) as [FK2 EK2]. pose proof (FL 0 ltac:(auto)) as L0. pose proof (FL 2 ltac:(auto)) as L2. pose proof (F3b 0) as M0. pose proof (F3b 2) as M2.
    assert (F 1 = 1%R) as F1e by reflexivity.
    assert (lanczos_kernel sin (f_div (f_sub (f_of_Z 1) f_one) F3) = f_one) as E1.
    { destruct (X 1 ltac:(lia)) as [Fx Vx]. apply kernel_one; auto. rewrite Vx. change (1 - 1) with 0. replace (0 / 3)%R with 0%R by lra. rewrite rnd_fmt, Rabs_R0 by apply generic_format_0. lra. }
    assert (forall i, is_byte (znth [0; 255; 0] i)) as HP.
    { intro i. unfold znth, is_byte. destruct (Z.to_nat i) as [|[|[|[|n]]]]; cbn; lia. }
    apply Rabs_le_inv in M0, M2.
    destruct (window_mean (znth [0; 255; 0]) F 0 ws HP F3b) as (BT & FV & EV).
    - unfold ws. cbn [closew]. unfold cst. change (0 + 1) with 1. change (1 + 1) with 2. rewrite E1, F1e, V1. split; auto. split; auto. split; auto. split; [rewrite Rminus_diag_eq, Rabs_R0; lra|]. split; auto.
    - unfold ws. cbn. lia.
    - unfold ws. cbn [length rsum]. change (0 + 1) with 1. change (1 + 1) with 2. rewrite F1e, Rabs_R1, !Rabs_pos_eq by lra. lra.
    - unfold ws. cbn [length rsum]. change (0 + 1) with 1. change (1 + 1) with 2. rewrite F1e. lra.
    - cbv zeta in BT, EV. rewrite BT. cbn [fst snd]. apply le_IZR. rewrite rhaz_level by auto.
      change (length ws) with 3%nat in EV. cbn [rsum] in EV. change (0 + 1) with 1 in EV. change (1 + 1) with 2 in EV. rewrite F1e in EV.
      change (znth [0; 255; 0] 0) with 0 in EV. change (znth [0; 255; 0] 1) with 255 in EV. change (znth [0; 255; 0] 2) with 0 in EV.
      set (v := wsum _ _ _ _) in *. replace (F 0%Z * 0 + (1 * 255 + (F 2%Z * 0 + 0)))%R with 255%R in EV by ring.
      assert (255 / (F 0%Z + (1 + (F 2%Z + 0))) <= 255 / 5.8)%R as Q by (unfold Rdiv; apply Rmult_le_compat_l; [lra|]; apply Rinv_le_contravar; lra).
      apply Rabs_le_inv in EV. assert (rhaz (val v) <= 45) as R by (apply rhaz_lt; lra). apply IZR_le in R.
      unfold level. unfold Rmax, Rmin. repeat match goal with |- context [Rle_dec ?a ?b] => destruct (Rle_dec a b) end; lra.
  Qed.
  Lemma mean_third : (85 <= lanczos_mean 3 (znth dot) (centre 3 1 0) 3)%R.
  Proof.
    unfold lanczos_mean, dot. change (Z.to_nat 3) with 3%nat. cbn [rsum]. change (0 + 1) with 1. change (1 + 1) with 2.
    change (znth [0; 255; 0] 0) with 0. change (znth [0; 255; 0] 1) with 255. change (znth [0; 255; 0] 2) with 0.
    assert (centre 3 1 0 = 1)%R as -> by (unfold centre; lra).
    replace ((0 - 1) / 3)%R with (- / 3)%R by lra. replace ((2 - 1) / 3)%R with (/ 3)%R by lra. replace ((1 - 1) / 3)%R with 0%R by lra.
    assert (lanczos3 0 = 1)%R as -> by (unfold lanczos3; destruct (Req_EM_T 0 0); [reflexivity|lra]).
    pose proof (lz_le1 (- / 3)) as A. pose proof (lz_le1 (/ 3)) as B. apply Rabs_le_inv in A, B.
    pose proof (lz_half (/ 3) ltac:(rewrite Rabs_pos_eq; lra)) as C. pose proof (lz_half (- / 3) ltac:(rewrite Rabs_left; lra)) as D.
    replace (lanczos3 (- / 3) * 0 + (1 * 255 + (lanczos3 (/ 3) * 0 + 0)))%R with 255%R by ring.
    replace 85%R with (255 / 3)%R by lra. unfold Rdiv. apply Rmult_le_compat_l; [lra|]. apply Rinv_le_contravar; lra.
  Qed.
  Lemma third_l : exists v, resize sin dot third = Ok [v] /\ (IZR v + 40 <= lanczos_mean 3 (znth dot) (centre 3 1 0) 3)%R.
  Proof.
    assert (resizable third dot) as HR.
    { unfold resizable, third, dot, bytes, zlen. cbn. repeat (split; [lia|]). split; [repeat (apply Forall_cons; [unfold is_byte; lia|]); apply Forall_nil|lia]. }
    destruct (lanczos_l sin dot third HR eq_refl) as (out & E & _ & L & P).
    change (r_dw third * r_dh third * bytes_per_pixel (r_ct third)) with 1 in L.
    destruct out as [|v [|w out]]; [discriminate L| |unfold zlen in L; cbn [length] in L; lia]. exists v. split; [exact E|].
    specialize (P 0 0 0 ltac:(cbn; lia) ltac:(cbn; lia) ltac:(cbn; lia)). cbn [third r_sw r_sh r_dw r_dh r_ct bytes_per_pixel] in P. change (px [v] 1 1 0 0 0) with v in P.
    set (q := line sin 3 1 (fun i => px dot 3 1 i 0 0) 0).
    rewrite (line_flat 1 1 _ q 0) in P; try lia.
    - assert (q <= 45) as Q.
      { unfold q. rewrite (line_ext sin 3 1 _ (znth [0; 255; 0]) 0); try (change (2 ^ 24) with 16777216; lia); [apply line_third|].
        intros i Hi. unfold px. f_equal. lia. }
      pose proof mean_third as M. subst v. apply IZR_le in Q. lra.
    - apply line_byte.
    - intros j Hj. replace j with 0 by lia. reflexivity.
  Qed.
End Sin.

(** such a sine exists *)
Definition fine_sine (x : f32) : f32 :=
  if Rlt_bool (Rabs (val x)) (bpow radix2 (-11)) then x
  else let e := (mag radix2 (val x) - 24)%Z in f_const (Zfloor (Rtrigo_def.sin (val x) * bpow radix2 (- e))) e.
Lemma fine_sine_good : good_sine fine_sine.
Proof.
  intros x F B. unfold fine_sine. destruct (Rlt_bool_spec (Rabs (val x)) (bpow radix2 (-11))) as [C|C].
  - split; auto. change (bpow radix2 (-11)) with (/ 2048)%R in C. change (bpow radix2 (-22)) with (/ 4194304)%R.
    destruct (Req_dec (val x) 0) as [->|N]; [rewrite sin_0, Rminus_0_r, Rabs_R0; lra|].
    pose proof (sc_poly (Rabs (val x)) ltac:(pose proof (Rabs_pos (val x)); lra)) as [_ SP]. rewrite sc_abs in SP. pose proof (sc_le1 (val x)) as S1. apply Rabs_le_inv in S1.
    assert (Rtrigo_def.sin (val x) = val x * sc (val x))%R as -> by (rewrite sc_nz by auto; field; auto).
    replace (val x - val x * sc (val x))%R with ((1 - sc (val x)) * val x)%R by ring. rewrite Rabs_mult. apply Rmult_le_compat_r; [apply Rabs_pos|]. rewrite Rabs_pos_eq by lra.
    assert (Rabs (val x) ^ 2 <= (/ 2048) ^ 2)%R by (apply pow_incr; split; [apply Rabs_pos|lra]). lra.
  - cbv zeta. set (mg := mag radix2 (val x) : Z).
    assert (val x <> 0)%R as N by (intro Q; rewrite Q, Rabs_R0 in C; pose proof (bpow_gt_0 radix2 (-11)); lra).
    assert (bpow radix2 (mg - 1) <= Rabs (val x) < bpow radix2 mg)%R as [M1 M2]. { unfold mg. destruct (mag radix2 (val x)) as [g G]. cbn. apply G. auto. }
    assert (-11 < mg) as G1 by (apply (lt_bpow radix2); lra). assert (mg - 1 < 6) as G2. { apply (lt_bpow radix2). eapply Rle_lt_trans; [exact M1|]. change (bpow radix2 6) with 64%R. lra. }
    set (e := mg - 24) in *. set (y := (Rtrigo_def.sin (val x) * bpow radix2 (- e))%R). pose proof (sin_small (val x)) as SS.
    pose proof (bpow_gt_0 radix2 (- e)) as PE. pose proof (bpow_gt_0 radix2 e) as PE'.
    assert (bpow radix2 (- e) * bpow radix2 e = 1)%R as EE by (rewrite <- bpow_plus; replace (- e + e) with 0 by lia; reflexivity).
    assert (Rabs y <= 16777216)%R as Y.
    { unfold y. rewrite Rabs_mult, (Rabs_pos_eq (bpow radix2 (- e))) by lra. apply Rle_trans with (bpow radix2 mg * bpow radix2 (- e))%R; [apply Rmult_le_compat_r; lra|].
      rewrite <- bpow_plus. unfold e. replace (mg + - (mg - 24)) with 24 by lia. rewrite pow24. lra. }
    apply Rabs_le_inv in Y. pose proof (Zfloor_lb y) as L. pose proof (Zfloor_ub y) as U.
    assert (-16777216 <= Zfloor y) as Z1 by (apply Zfloor_lub; lra). assert (Zfloor y <= 16777216) as Z2 by (apply le_IZR; lra).
    assert (F2R (Float radix2 (Zfloor y) e) = IZR (Zfloor y) * bpow radix2 e)%R as EF by reflexivity.
    assert (fmt (F2R (Float radix2 (Zfloor y) e))) as FM.
    { destruct (Z.eq_dec (Z.abs (Zfloor y)) 16777216) as [Q|Q].
      - assert (Zfloor y = 16777216 \/ Zfloor y = -16777216) as [R|R] by lia.
        + rewrite EF, R. change (IZR 16777216) with (bpow radix2 24). rewrite <- bpow_plus. apply fmt_bpow. lia.
        + rewrite EF, R. replace (IZR (-16777216)) with (- bpow radix2 24)%R by (rewrite pow24; reflexivity). rewrite Ropp_mult_distr_l_reverse, <- bpow_plus. apply generic_format_opp, fmt_bpow. lia.
      - apply fmt_F2R; change (2 ^ 24) with 16777216; lia. }
    destruct (const_ok (Zfloor y) e) as [FC VC].
    + rewrite rnd_fmt, EF by auto. rewrite Rabs_mult, (Rabs_pos_eq (bpow radix2 e)) by lra. apply Rle_lt_trans with (bpow radix2 24 * bpow radix2 e)%R.
      * apply Rmult_le_compat_r; [lra|]. rewrite pow24, <- abs_IZR. apply IZR_le. lia.
      * rewrite <- bpow_plus. apply bpow_lt. lia.
    + split; [exact FC|]. rewrite VC, rnd_fmt, EF by auto.
      assert (Rtrigo_def.sin (val x) = y * bpow radix2 e)%R as SY by (unfold y; rewrite Rmult_assoc, EE, Rmult_1_r; reflexivity). rewrite SY.
      replace (IZR (Zfloor y) * bpow radix2 e - y * bpow radix2 e)%R with ((IZR (Zfloor y) - y) * bpow radix2 e)%R by ring. rewrite Rabs_mult, (Rabs_pos_eq (bpow radix2 e)) by lra.
      apply Rle_trans with (1 * bpow radix2 e)%R; [apply Rmult_le_compat_r; [lra|apply Rabs_le; lra]|]. rewrite Rmult_1_l.
      apply Rle_trans with (bpow radix2 (-22) * bpow radix2 (mg - 1))%R; [|apply Rmult_le_compat_l; [apply bpow_ge_0|lra]].
      rewrite <- bpow_plus. apply bpow_le. unfold e. lia.
Qed.
Lemma enlarge_l sin : good_sine sin -> exists line : Z -> Z -> (Z -> Z) -> Z -> Z,
  (forall data o, resizable o data -> r_algo o = Lanczos3 ->
    let bpp := bytes_per_pixel (r_ct o) in
    exists out, resize sin data o = Ok out /\ zlen out = r_dw o * r_dh o * bpp /\
    forall x y c, 0 <= x < r_dw o -> 0 <= y < r_dh o -> 0 <= c < bpp ->
      px out (r_dw o) bpp x y c = line (r_sh o) (r_dh o) (fun j => line (r_sw o) (r_dw o) (fun i => px data (r_sw o) bpp i j c) x) y) /\
  forall src dst p d, 1 <= src <= 2 ^ 18 -> src <= dst <= 2 ^ 24 -> 0 <= d < dst -> (forall i, is_byte (p i)) ->
    exists c, (Rabs (c - centre src dst d) <= IZR src / 2097152)%R /\
      (Rabs (IZR (line src dst p d) - level (lanczos_mean src p c 1)) <= 0.95)%R.
Proof.
  intro SIN. exists (line sin). split.
  - intros data o HR A. destruct (lanczos_l sin data o HR A) as (out & E & _ & L & P). exists out. auto.
  - intros src dst p d Hs Hd Hx HP. exists (ncoord src dst d). apply (line_mean sin SIN); auto.
Qed.
