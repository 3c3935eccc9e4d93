(** What the decoder's inverse DCT computes on any block: the real inverse DCT of the
    even frequencies, up to a rounding error and a small remainder of the others. *)
From Coq Require Import Reals Lra Lia.
From Flocq Require Import Core.
From Verif Require Import Base Lz77Model PngFilterModel PngFilterProofs JpegBaseModel JpegBaseProofs JpegDecModel JpegDecSpec JpegIdctProofs JpegIdctReal JpegDctSpec JpegDctReal JpegDctIntProofs.
Open Scope Z_scope.

Definition t4 (k : nat) : Z := match k with 0%nat | 3%nat | 4%nat | 7%nat => 8192 | _ => -8192 end.
Definition t2 (k : nat) : Z := match k with 0%nat | 7%nat => 10703 | 1%nat | 6%nat => 4433 | 2%nat | 5%nat => -4433 | _ => -10703 end.
Definition t6 (k : nat) : Z := match k with 0%nat | 7%nat => 4433 | 1%nat | 6%nat => -10704 | 2%nat | 5%nat => 10704 | _ => -4433 end.
Definition ei (k : nat) (d0 d2 d4 d6 : Z) : Z := 8192 * d0 + t2 k * d2 + t4 k * d4 + t6 k * d6.
Lemma fix_mul_exact a c : Z.abs (a * c) < 2 ^ 31 -> fix_mul (8192 * a) c = a * c.
Proof.
  intros H. unfold fix_mul. replace (8192 * a * c) with (a * c * 8192) by ring. rewrite Z.shiftr_div_pow2 by lia. change (2 ^ 13) with 8192. rewrite Z.div_mul by lia.
  apply as_i32_id. lia.
Qed.
Lemma idct_1d_even D d0 d1 d2 d3 d4 d5 d6 d7 : 0 <= D <= 32767 -> - D <= d0 <= D -> - D <= d1 <= D -> - D <= d2 <= D -> - D <= d3 <= D ->
  - D <= d4 <= D -> - D <= d5 <= D -> - D <= d6 <= D -> - D <= d7 <= D ->
  exists l, idct_1d d0 d1 d2 d3 d4 d5 d6 d7 = Ok l /\ length l = 8%nat /\ forall k, (k < 8)%nat -> Z.abs (nth k l 0 - ei k d0 d2 d4 d6) <= 6 * D + 4.
Proof.
  intros HD H0 H1 H2 H3 H4 H5 H6 H7. unfold idct_1d. rewrite !shl13 by lia. add1. sub1. add1.
  rewrite <- Z.mul_add_distr_l. rewrite !fix_mul_exact by (change (2 ^ 31) with 2147483648; lia). sub1. add1. add1. sub1. add1. sub1.
  do 5 add1.
  pose proof (fm (d1 + d5) 9633 (8 * D) ltac:(lia) ltac:(change (2 ^ 24) with 16777216; lia) ltac:(lia)) as Z5.
  pose proof (fm d1 2446 (8 * D) ltac:(lia) ltac:(change (2 ^ 24) with 16777216; lia) ltac:(lia)) as B0.
  pose proof (fm d3 16819 (8 * D) ltac:(lia) ltac:(change (2 ^ 24) with 16777216; lia) ltac:(lia)) as B1.
  pose proof (fm d5 25172 (8 * D) ltac:(lia) ltac:(change (2 ^ 24) with 16777216; lia) ltac:(lia)) as B2.
  pose proof (fm d7 12299 (8 * D) ltac:(lia) ltac:(change (2 ^ 24) with 16777216; lia) ltac:(lia)) as B3.
  pose proof (fm (d1 + d7) (-7373) (8 * D) ltac:(lia) ltac:(change (2 ^ 24) with 16777216; lia) ltac:(lia)) as Z1.
  pose proof (fm (d3 + d5) (-20995) (8 * D) ltac:(lia) ltac:(change (2 ^ 24) with 16777216; lia) ltac:(lia)) as Z2.
  pose proof (fm (d5 + d7) (-16069) (8 * D) ltac:(lia) ltac:(change (2 ^ 24) with 16777216; lia) ltac:(lia)) as Z3.
  pose proof (fm (d1 + d3) (-3196) (8 * D) ltac:(lia) ltac:(change (2 ^ 24) with 16777216; lia) ltac:(lia)) as Z4.
  set (z5 := fix_mul (d1 + d5) 9633) in *. set (b0 := fix_mul d1 2446) in *. set (b1 := fix_mul d3 16819) in *. set (b2 := fix_mul d5 25172) in *. set (b3 := fix_mul d7 12299) in *.
  set (z1 := fix_mul (d1 + d7) (-7373)) in *. set (z2 := fix_mul (d3 + d5) (-20995)) in *. set (z3 := fix_mul (d5 + d7) (-16069)) in *. set (z4 := fix_mul (d1 + d3) (-3196)) in *.
  clearbody z5 b0 b1 b2 b3 z1 z2 z3 z4. do 10 add1.
  assert (- (6 * D + 4) <= b0 + z1 + (z3 + z5) <= 6 * D + 4) as O0 by lia. assert (- (6 * D + 4) <= b1 + z2 + (z4 + z5) <= 6 * D + 4) as O1 by lia.
  assert (- (6 * D + 4) <= b2 + z2 + (z3 + z5) <= 6 * D + 4) as O2 by lia. assert (- (6 * D + 4) <= b3 + z1 + (z4 + z5) <= 6 * D + 4) as O3 by lia.
  revert O0 O1 O2 O3. generalize (b0 + z1 + (z3 + z5)) (b1 + z2 + (z4 + z5)) (b2 + z2 + (z3 + z5)) (b3 + z1 + (z4 + z5)).
  clear z4 Z4 z3 Z3 z2 Z2 z1 Z1 b3 B3 b2 B2 b1 B1 b0 B0 z5 Z5 H1 H3 H5 H7. intros o0 o1 o2 o3 O0 O1 O2 O3.
  do 4 (add1; sub1). eexists. split; [reflexivity|]. split; [reflexivity|]. intros k Hk. unfold ei.
  do 8 (destruct k as [|k]; [clear Hk; cbn [nth t2 t4 t6]; lia|]). lia.
Qed.

(** ** Against the real transform *)
Definition ev (k : nat) (X : nat -> R) : R := (X 0%nat + 2 * C 4 * (X 2%nat * basis 2 k + X 4%nat * basis 4 k + X 6%nat * basis 6 k))%R.
Lemma ev_tab k : (k < 8)%nat -> (Rabs (2 * C 4 * basis 2 k - IZR (t2 k) / 8192) <= 0.00008)%R /\ (2 * C 4 * basis 4 k = IZR (t4 k) / 8192)%R /\ (Rabs (2 * C 4 * basis 6 k - IZR (t6 k) / 8192) <= 0.00008)%R.
Proof.
  intros Hk. pose proof C44 as E4. pose proof C42 as E2. pose proof C46 as E6. pose proof C2b. pose proof C6b.
  do 8 (destruct k as [|k]; [clear Hk; rewrite !basis_C; cbn [t2 t4 t6]; unfold CC, red; cbn -[C INR]; split; [apply Rabs_le; lra|split; [lra|apply Rabs_le; lra]]|]). lia.
Qed.
Lemma ev_form k X : ev k X = (X 0%nat + 2 * C 4 * basis 2 k * X 2%nat + 2 * C 4 * basis 4 k * X 4%nat + 2 * C 4 * basis 6 k * X 6%nat)%R.
Proof. unfold ev. ring. Qed.
Lemma pm2 a b e d E : (Rabs (a - b) <= d)%R -> (Rabs e <= E)%R -> (- (d * E) <= a * e - b * e <= d * E)%R.
Proof.
  intros H He. apply Rabs_le_inv. replace (a * e - b * e)%R with ((a - b) * e)%R by ring. rewrite Rabs_mult. apply Rmult_le_compat; auto using Rabs_pos.
Qed.
Lemma line_real D (X : nat -> Z) : 0 <= D <= 32767 -> (forall i, (i < 8)%nat -> - D <= X i <= D) ->
  exists l, idct_1d (X 0%nat) (X 1%nat) (X 2%nat) (X 3%nat) (X 4%nat) (X 5%nat) (X 6%nat) (X 7%nat) = Ok l /\ length l = 8%nat /\
    (forall k, (k < 8)%nat -> (Rabs (IZR (nth k l 0%Z) - 8192 * ev k (fun i => IZR (X i))) <= 7.35 * IZR D + 4)%R) /\
    (forall k, (k < 8)%nat -> Z.abs (nth k l 0) <= 31600 * D + 4).
Proof.
  intros HD HX. pose proof (HX 0%nat ltac:(lia)) as H0. pose proof (HX 1%nat ltac:(lia)) as H1. pose proof (HX 2%nat ltac:(lia)) as H2. pose proof (HX 3%nat ltac:(lia)) as H3.
  pose proof (HX 4%nat ltac:(lia)) as H4. pose proof (HX 5%nat ltac:(lia)) as H5. pose proof (HX 6%nat ltac:(lia)) as H6. pose proof (HX 7%nat ltac:(lia)) as H7.
  destruct (idct_1d_even D _ _ _ _ _ _ _ _ HD H0 H1 H2 H3 H4 H5 H6 H7) as (l & E & L & N). exists l. split; [exact E|]. split; [exact L|].
  clear H1 H3 H5 H7 HX E. split; intros k Hk; specialize (N k Hk).
  - destruct (ev_tab k Hk) as (T2 & T4 & T6). rewrite ev_form, T4. unfold ei in N.
    apply IZR_le in N. rewrite abs_IZR, minus_IZR, !plus_IZR, !mult_IZR in N.
    assert (forall a, - D <= X a <= D -> (Rabs (IZR (X a)) <= IZR D)%R) as ED.
    { intros a [A1 A2]. apply IZR_le in A1, A2. rewrite opp_IZR in A1. apply Rabs_le. lra. }
    pose proof (pm2 _ _ _ _ _ T2 (ED 2%nat H2)) as P2. pose proof (pm2 _ _ _ _ _ T6 (ED 6%nat H6)) as P6.
    assert (0 <= IZR D)%R as D0 by (apply IZR_le; lia).
    apply Rabs_le_inv in N. apply Rabs_le. clear -N P2 P6 D0.
    set (a := (2 * C 4 * basis 2 k * IZR (X 2%nat))%R) in *. set (b := (2 * C 4 * basis 6 k * IZR (X 6%nat))%R) in *. 
    replace (IZR (t2 k) / 8192 * IZR (X 2%nat))%R with (IZR (t2 k) * IZR (X 2%nat) / 8192)%R in P2 by field. replace (IZR (t6 k) / 8192 * IZR (X 6%nat))%R with (IZR (t6 k) * IZR (X 6%nat) / 8192)%R in P6 by field.
    replace (IZR (t4 k) / 8192 * IZR (X 4%nat))%R with (IZR (t4 k) * IZR (X 4%nat) / 8192)%R by field.
    set (p2 := (IZR (t2 k) * IZR (X 2%nat))%R) in *. set (p4 := (IZR (t4 k) * IZR (X 4%nat))%R) in *. set (p6 := (IZR (t6 k) * IZR (X 6%nat))%R) in *. clearbody a b p2 p4 p6. lra.
  - unfold ei in N. do 8 (destruct k as [|k]; [clear Hk; cbn [nth t2 t4 t6] in *; lia|]). lia.
Qed.
Lemma ev_bound k X B : (k < 8)%nat -> (forall i, (i < 8)%nat -> Rabs (X i) <= B)%R -> (Rabs (ev k X) <= 3.848 * B)%R.
Proof.
  intros Hk H. rewrite ev_form. destruct (ev_tab k Hk) as (T2 & T4 & T6). rewrite T4.
  pose proof (pm2 _ _ _ _ _ T2 (H 2%nat ltac:(lia))) as P2. pose proof (pm2 _ _ _ _ _ T6 (H 6%nat ltac:(lia))) as P6.
  pose proof (H 0%nat ltac:(lia)) as H0. pose proof (H 2%nat ltac:(lia)) as H2. pose proof (H 4%nat ltac:(lia)) as H4. pose proof (H 6%nat ltac:(lia)) as H6.
  pose proof (Rabs_pos (X 0%nat)). apply Rabs_le_inv in H0, H2, H4, H6. clear H. apply Rabs_le.
  do 8 (destruct k as [|k]; [clear Hk; cbn [t2 t4 t6] in *; lra|]). lia.
Qed.
Lemma ev_sub k X Y : (ev k X - ev k Y = ev k (fun i => X i - Y i))%R. Proof. unfold ev. ring. Qed.
Lemma ev_scale k c X : (ev k (fun i => c * X i) = c * ev k X)%R. Proof. unfold ev. ring. Qed.

(** ** Two passes *)
Lemma descale1_real x : Z.abs x <= 2 ^ 30 -> exists y, descale1 x = Ok y /\ (Rabs (IZR y - IZR x / 2048) <= / 2)%R.
Proof.
  intros H. change (2 ^ 30) with 1073741824 in H. unfold descale1, add32. rewrite i32_ok by (change (2 ^ 31) with 2147483648; lia). cbn [rbind]. eexists. split; [reflexivity|].
  rewrite Z.shiftr_div_pow2 by lia. change (2 ^ 11) with 2048. assert (-1024 <= 2048 * ((x + 1024) / 2048) - x <= 1024) as B by (Z.to_euclidean_division_equations; lia).
  set (q := (x + 1024) / 2048) in *. clearbody q. destruct B as [B1 B2]. apply IZR_le in B1, B2. rewrite minus_IZR, mult_IZR in B1, B2. apply Rabs_le. lra.
Qed.
Lemma clamp_near z x e : (Rabs (IZR z - x) <= e)%R -> (Rabs (IZR (clamp z 0 255) - rclamp x) <= e)%R.
Proof.
  intros H. apply Rabs_le_inv in H. unfold rclamp. assert (0 <= e)%R as He by lra. apply Rabs_le.
  assert (K : IZR (clamp z 0 255) = Rmax 0 (Rmin 255 (IZR z))).
  { unfold clamp, Rmin. rewrite Z.gtb_ltb. destruct (Z.ltb_spec z 0) as [L|L], (Z.ltb_spec 255 z) as [G|G]; try (exfalso; lia); first [apply IZR_lt in L|apply IZR_le in L]; first [apply IZR_lt in G|apply IZR_le in G];
    destruct (Rle_dec 255 (IZR z)); unfold Rmax; match goal with |- context [Rle_dec ?a ?b] => destruct (Rle_dec a b) end; lra. }
  rewrite K. unfold Rmin. repeat match goal with |- context [Rle_dec ?a ?b] => destruct (Rle_dec a b) end; unfold Rmax; repeat match goal with |- context [Rle_dec ?a ?b] => destruct (Rle_dec a b) end; lra.
Qed.
Lemma descale2_real x : Z.abs x <= 2 ^ 30 -> exists y, descale_and_clamp x = Ok y /\ exists z, y = clamp z 0 255 /\ (Rabs (IZR z - (128 + IZR x / 262144)) <= / 2)%R.
Proof.
  intros H. change (2 ^ 30) with 1073741824 in H. unfold descale_and_clamp. unfold add32 at 1. rewrite i32_ok by (change (2 ^ 31) with 2147483648; lia). cbn [rbind].
  rewrite Z.shiftr_div_pow2 by lia. change (2 ^ 18) with 262144. assert (-131072 <= 262144 * ((x + 131072) / 262144) - x <= 131072) as B by (Z.to_euclidean_division_equations; lia).
  set (q := (x + 131072) / 262144) in *. clearbody q. unfold add32. rewrite i32_ok by (change (2 ^ 31) with 2147483648; lia). cbn [rbind]. eexists. split; [reflexivity|]. exists (q + 128). split; [reflexivity|].
  destruct B as [B1 B2]. apply IZR_le in B1, B2. rewrite minus_IZR, mult_IZR in B1, B2. rewrite plus_IZR. apply Rabs_le. lra.
Qed.
Lemma map_res_nth (f : Z -> res Z) (Q : nat -> Z -> Prop) l : (forall i, (i < length l)%nat -> exists b, f (nth i l 0) = Ok b /\ Q i b) ->
  exists r, map_res f l = Ok r /\ length r = length l /\ forall i, (i < length l)%nat -> Q i (nth i r 0).
Proof.
  revert Q. induction l as [|a l IH]; intros Q H; cbn [map_res length] in *; [exists []; split; [reflexivity|split; [reflexivity|lia]]|].
  destruct (H 0%nat ltac:(lia)) as (b & Eb & Qb). cbn [nth] in Eb. rewrite Eb. destruct (IH (fun i => Q (S i))) as (r & -> & L & Hr); [intros i Hi; apply (H (S i)); lia|].
  cbn [rbind]. exists (b :: r). split; [reflexivity|]. split; [cbn [length]; lia|]. intros [|i] Hi; cbn [nth]; [exact Qb|apply Hr; lia].
Qed.
Definition coefR (coefs : list Z) (u v : nat) : R := IZR (znth coefs (Z.of_nat (u + 8 * v))).
Lemma cols_real M coefs : 0 <= M <= 2047 -> (forall n, 0 <= n < 64 -> - M <= znth coefs n <= M) ->
  exists cols, map_res (fun c => let* l := idct_line (column coefs c) in map_res descale1 l) (idxs 8) = Ok cols /\ length cols = 8%nat /\
  forall u r, (u < 8)%nat -> (r < 8)%nat -> let w := nth r (nth u cols []) 0 in
    (Rabs (IZR w / 4 - ev r (coefR coefs u)) <= 0.1255 + 0.0009 * IZR M)%R /\ - (16 * M + 1) <= w <= 16 * M + 1.
Proof.
  intros HM HB. assert (0 <= IZR M)%R as M0 by (apply IZR_le; lia).
  destruct (map_res_idxs (fun c => let* l := idct_line (column coefs c) in map_res descale1 l)
    (fun u col => forall r, (r < 8)%nat -> (Rabs (IZR (nth r col 0%Z) / 4 - ev r (coefR coefs (Z.to_nat u))) <= 0.1255 + 0.0009 * IZR M)%R) 8 []) as (cols & E & L & H).
  - intros u Hu. change (Z.of_nat 8) with 8 in Hu.
    destruct (line_real M (fun v => znth coefs (u + 8 * Z.of_nat v))) as (l & El & Ll & Hl & Bl); [lia|intros i Hi; apply HB; lia|].
    change (idct_line (column coefs u) = Ok l) in El. rewrite El. cbn [rbind].
    destruct (map_res_nth descale1 (fun r w => (Rabs (IZR w / 4 - ev r (coefR coefs (Z.to_nat u))) <= 0.1255 + 0.0009 * IZR M)%R) l) as (r & Er & Lr & Hr).
    { intros i Hi. rewrite Ll in Hi. destruct (descale1_real (nth i l 0)) as (y & Ey & Hy); [specialize (Bl i Hi); change (2 ^ 30) with 1073741824; lia|].
      exists y. split; [exact Ey|]. specialize (Hl i Hi).
      replace (ev i (coefR coefs (Z.to_nat u))) with (ev i (fun v => IZR (znth coefs (u + 8 * Z.of_nat v)))).
      2: { unfold ev, coefR. repeat match goal with |- context [znth coefs (Z.of_nat ?a)] => replace (Z.of_nat a) with (u + 8 * ((Z.of_nat a - u) / 8)) by lia end.
           rewrite !Nat2Z.inj_add, !Nat2Z.inj_mul, !Z2Nat.id by lia. repeat f_equal; try (Z.to_euclidean_division_equations; lia). }
      apply Rabs_le_inv in Hy, Hl. apply Rabs_le. lra. }
    exists r. split; [exact Er|]. rewrite Ll in Hr. exact Hr.
  - exists cols. split; [exact E|]. split; [exact L|]. intros u r Hu Hr. cbv zeta. specialize (H u Hu r Hr). rewrite Nat2Z.id in H. split; [exact H|].
    assert (Rabs (ev r (coefR coefs u)) <= 3.848 * IZR M)%R as B.
    { apply ev_bound; [exact Hr|]. intros i Hi. unfold coefR. destruct (HB (Z.of_nat (u + 8 * i)) ltac:(lia)) as [A1 A2]. apply IZR_le in A1, A2. rewrite opp_IZR in A1. apply Rabs_le. lra. }
    apply Rabs_le_inv in B, H. set (w := nth r (nth u cols []) 0) in *. set (e := ev _ _) in *. clearbody w e.
    assert (- (16 * IZR M + 1) <= IZR w <= 16 * IZR M + 1)%R as G by lra. change 16%R with (IZR 16) in G. change 1%R with (IZR 1) in G. rewrite <- mult_IZR, <- plus_IZR, <- opp_IZR in G. destruct G as [G1 G2]. apply le_IZR in G1, G2. lia.
Qed.
Theorem idct_real M coefs : 0 <= M <= 2047 -> (forall n, 0 <= n < 64 -> - M <= znth coefs n <= M) ->
  exists px, idct_2d coefs = Ok px /\ length px = 64%nat /\ bytes px /\
  forall x y, (x < 8)%nat -> (y < 8)%nat ->
    (Rabs (IZR (nth (8 * y + x) px 0%Z) - rclamp (128 + ev x (fun u => ev y (coefR coefs u)) / 8)) <= 9 / 16 + IZR M / 1100)%R.
Proof.
  intros HM HB. destruct (idct_2d_ok coefs) as (px & Epx & Lpx & Bpx); [intros n Hn; specialize (HB n Hn); lia|]. exists px. split; [exact Epx|]. split; [exact Lpx|]. split; [exact Bpx|].
  destruct (cols_real M coefs HM HB) as (cols & Ec & Lc & Hc). assert (0 <= IZR M)%R as M0 by (apply IZR_le; lia).
  unfold idct_2d in Epx. rewrite Ec in Epx. cbn [rbind] in Epx.
  destruct (map_res_idxs (fun r => let* l := idct_line (map (fun col => znth col r) cols) in map_res descale_and_clamp l)
    (fun y row => length row = 8%nat /\ forall x, (x < 8)%nat -> (Rabs (IZR (nth x row 0%Z) - rclamp (128 + ev x (fun u => ev (Z.to_nat y) (coefR coefs u)) / 8)) <= 9 / 16 + IZR M / 1100)%R) 8 []) as (rows & E & L & H).
  - intros y Hy. change (Z.of_nat 8) with 8 in Hy.
    destruct (line_real (16 * M + 1) (fun u => nth (Z.to_nat y) (nth u cols []) 0)) as (l & El & Ll & Hl & Bl); [lia|intros i Hi; apply (Hc i (Z.to_nat y)); lia|].
    assert (idct_line (map (fun col => znth col y) cols) = Ok l) as ->.
    { rewrite <- El. destruct cols as [|c0 [|c1 [|c2 [|c3 [|c4 [|c5 [|c6 [|c7 [|]]]]]]]]]; try discriminate Lc. reflexivity. }
    cbn [rbind].
    destruct (map_res_nth descale_and_clamp (fun x v => (Rabs (IZR v - rclamp (128 + ev x (fun u => ev (Z.to_nat y) (coefR coefs u)) / 8)) <= 9 / 16 + IZR M / 1100)%R) l) as (r & Er & Lr & Hr).
    { intros i Hi. rewrite Ll in Hi. destruct (descale2_real (nth i l 0)) as (v & Ev & z & -> & Hz); [specialize (Bl i Hi); change (2 ^ 30) with 1073741824; lia|].
      eexists. split; [exact Ev|]. apply clamp_near. specialize (Hl i Hi). rewrite plus_IZR, mult_IZR in Hl.
      assert (Rabs (ev i (fun u => IZR (nth (Z.to_nat y) (nth u cols []) 0%Z) / 4 - ev (Z.to_nat y) (coefR coefs u))) <= 3.848 * (0.1255 + 0.0009 * IZR M))%R as B.
      { apply ev_bound; [exact Hi|]. intros u Hu. apply (Hc u (Z.to_nat y)); lia. }
      rewrite <- (ev_sub i (fun u => IZR (nth (Z.to_nat y) (nth u cols []) 0%Z) / 4)%R) in B.
      replace (ev i (fun u => IZR (nth (Z.to_nat y) (nth u cols []) 0%Z) / 4)%R) with (ev i (fun u => IZR (nth (Z.to_nat y) (nth u cols []) 0%Z)) / 4)%R in B by (unfold ev; field).
      apply Rabs_le_inv in Hz, Hl, B. apply Rabs_le. lra. }
    exists r. split; [exact Er|]. rewrite Ll in *. auto.
  - rewrite E in Epx. cbn [rbind] in Epx. injection Epx as <-. intros x y Hx Hy. destruct (H y Hy) as [L8 K]. specialize (K x Hx). rewrite Nat2Z.id in K.
    replace (nth (8 * y + x) (concat rows) 0) with (nth x (nth y rows []) 0); [exact K|].
    assert (Forall (fun row => length row = 8%nat) rows) as F8. { apply Forall_forall. intros row Hrow. apply In_nth with (d := []) in Hrow. destruct Hrow as (i & Hi & <-). rewrite L in Hi. apply (H i Hi). }
    clear -F8 L Hx Hy. rewrite <- L in Hy. clear L. revert y Hy. induction F8 as [|row rows Hrow F IH]; intros y Hy; cbn [length] in Hy; [lia|]. cbn [concat].
    destruct y; cbn [nth]. { rewrite app_nth1 by lia. f_equal. } rewrite app_nth2 by lia. rewrite (IH y) by lia. f_equal. lia.
Qed.

(** ** The even frequencies *)
Lemma ev_a k X : ev k X = (2 * C 4 * (C 4 * X 0%nat + X 2%nat * basis 2 k + X 4%nat * basis 4 k + X 6%nat * basis 6 k))%R.
Proof. unfold ev. pose proof C44 as E. replace (2 * C 4 * (C 4 * X 0%nat + X 2%nat * basis 2 k + X 4%nat * basis 4 k + X 6%nat * basis 6 k))%R with (2 * C 4 * C 4 * X 0%nat + 2 * C 4 * (X 2%nat * basis 2 k + X 4%nat * basis 4 k + X 6%nat * basis 6 k))%R by ring. rewrite E. ring. Qed.
Lemma basis0 k : basis 0 k = 1%R. Proof. rewrite basis_C. rewrite Nat.mul_0_r. exact C0. Qed.
Lemma drop_odd_real coefs x y : real_idct (drop_odd coefs) x y = (ev x (fun u => ev y (coefR coefs u)) / 8)%R.
Proof.
  unfold real_idct.
  erewrite map_ext_in with (g := fun n => (cfac (n mod 8) * cfac (n / 8) * (if Z.odd (Z.of_nat n mod 8) || Z.odd (Z.of_nat n / 8) then 0 else IZR (znth coefs (Z.of_nat n))) * basis (n mod 8) x * basis (n / 8) y)%R).
  2: { intros n Hn. apply in_seq in Hn. unfold drop_odd. rewrite (znth_map_idxs (fun n => if Z.odd (n mod 8) || Z.odd (n / 8) then 0 else znth coefs n)) by lia.
       destruct (_ || _); reflexivity. }
  rewrite ev_a, !(ev_a y). cbn [seq map fold_right].
  repeat match goal with |- context [Z.odd ?e] => let v := eval vm_compute in (Z.odd e) in change (Z.odd e) with v end.
  repeat match goal with |- context [(?n mod 8)%nat] => let v := eval vm_compute in (n mod 8)%nat in change (n mod 8)%nat with v end.
  repeat match goal with |- context [(?n / 8)%nat] => let v := eval vm_compute in (n / 8)%nat in change (n / 8)%nat with v end.
  cbn [orb]. rewrite !cfac0, !basis0. cbn [cfac]. unfold coefR. cbn [Nat.add Nat.mul].
  rewrite !Rmult_0_r, !Rmult_0_l, !Rplus_0_l.
  match goal with |- ?l = _ => replace l with (2 * C 4 * C 4 * l)%R by (rewrite C44; apply Rmult_1_l) end.
  generalize (basis 2 x) (basis 4 x) (basis 6 x) (basis 2 y) (basis 4 y) (basis 6 y) (C 4). intros. field.
Qed.
Theorem idct_even_frequencies M coefs : 0 <= M <= 2047 -> (forall n, 0 <= n < 64 -> - M <= znth coefs n <= M) ->
  exists px, idct_2d coefs = Ok px /\ length px = 64%nat /\ bytes px /\
  forall x y, (x < 8)%nat -> (y < 8)%nat ->
    (Rabs (IZR (nth (8 * y + x) px 0%Z) - rclamp (128 + real_idct (drop_odd coefs) x y)) <= 9 / 16 + IZR M / 1100)%R.
Proof.
  intros HM HB. destruct (idct_real M coefs HM HB) as (px & E & L & B & H). exists px. split; [exact E|]. split; [exact L|]. split; [exact B|].
  intros x y Hx Hy. rewrite drop_odd_real. apply H; assumption.
Qed.
Theorem idct_no_odd M coefs : 0 <= M <= 2047 -> (forall n, 0 <= n < 64 -> - M <= znth coefs n <= M) ->
  (forall n, 0 <= n < 64 -> Z.odd (n mod 8) = true \/ Z.odd (n / 8) = true -> znth coefs n = 0) ->
  exists px, idct_2d coefs = Ok px /\ length px = 64%nat /\ bytes px /\
  forall x y, (x < 8)%nat -> (y < 8)%nat ->
    (Rabs (IZR (nth (8 * y + x) px 0%Z) - rclamp (128 + real_idct coefs x y)) <= 9 / 16 + IZR M / 1100)%R.
Proof.
  intros HM HB HO. destruct (idct_even_frequencies M coefs HM HB) as (px & E & L & B & H). exists px. split; [exact E|]. split; [exact L|]. split; [exact B|].
  intros x y Hx Hy. replace (real_idct coefs x y) with (real_idct (drop_odd coefs) x y); [apply H; assumption|].
  unfold real_idct. f_equal. f_equal. apply map_ext_in. intros n Hn. apply in_seq in Hn. do 3 f_equal. f_equal. unfold drop_odd.
  rewrite (znth_map_idxs (fun n => if Z.odd (n mod 8) || Z.odd (n / 8) then 0 else znth coefs n)) by lia.
  destruct (Z.odd (Z.of_nat n mod 8) || Z.odd (Z.of_nat n / 8)) eqn:Eo; [|reflexivity]. symmetry. apply HO; [lia|]. apply orb_prop. exact Eo.
Qed.
