(** The entry points of resizing. *)
From Coq Require Import Reals Lra.
From Flocq Require Import Core Relative BinarySingleNaN.
From Verif Require Import Base Lz77Model PngFilterModel PngPaletteModel PngFilterProofs PngPackProofs F32Model F32Proofs ResizeModel ResizeF32 ResizeSpec ResizeProofs ResizeLanczos ResizeSame.
Open Scope Z_scope.

Lemma bpp_range ct : 1 <= bytes_per_pixel ct <= 4. Proof. destruct ct; cbn; lia. Qed.
Lemma image_len_ok w h bpp : 0 <= w <= 2 ^ 24 -> 0 <= h <= 2 ^ 24 -> 0 <= bpp <= 4 -> image_len w h bpp = Some (w * h * bpp).
Proof.
  intros Hw Hh Hb. unfold image_len, mul_fits. change (2 ^ 24) with 16777216 in *.
  assert (0 <= w * h <= 281474976710656) by nia.
  destruct (Z.ltb_spec (w * h) (2 ^ 64)); [|lia]. destruct (Z.ltb_spec (w * h * bpp) (2 ^ 64)); [reflexivity|nia].
Qed.
(** what the algorithms compute once the checks have passed *)
Definition run (sin : f32 -> f32) (data : list Z) (o : ropts) : res (list Z) :=
  let bpp := bytes_per_pixel (r_ct o) in
  match r_algo o with
  | Nearest => resize_nearest data (r_sw o) (r_sh o) (r_dw o) (r_dh o) bpp
  | Bilinear => resize_bilinear data (r_sw o) (r_sh o) (r_dw o) (r_dh o) bpp
  | Lanczos3 => resize_lanczos3 sin data (r_sw o) (r_sh o) (r_dw o) (r_dh o) bpp
  end.
Lemma into_eq sin buf data o : u32o o -> resize_into sin buf data o =
  match resize_rejects o (zlen data) with
  | Some e => (Err e, buf)
  | None => match run sin data o with Ok out => (Ok tt, out) | Err e => (Err e, []) | Panic => (Panic, []) | NoFuel => (NoFuel, []) end
  end.
Proof.
  intros (A & B & C & D). destruct o as [sw sh dw dh ct al]. unfold resize_into, resize_rejects, run. cbn [r_sw r_sh r_dw r_dh r_ct r_algo] in *.
  destruct ((sw =? 0) || (sh =? 0)); [reflexivity|]. destruct ((dw =? 0) || (dh =? 0)); [reflexivity|].
  unfold R_MAX. pose proof (bpp_range ct) as HB.
  destruct ((2 ^ 24 <? sw) || (2 ^ 24 <? sh) || (2 ^ 24 <? dw) || (2 ^ 24 <? dh)) eqn:E1;
    destruct ((2 ^ 24 <? Z.max sw dw) || (2 ^ 24 <? Z.max sh dh)) eqn:E2; try reflexivity; try (exfalso; lia).
  rewrite !image_len_ok by lia. rewrite (Z.eqb_sym). rewrite Z.eqb_sym. destruct (zlen data =? sw * sh * bytes_per_pixel ct); reflexivity.
Qed.
Lemma accept o data : resizable o data -> u32o o /\ resize_rejects o (zlen data) = None.
Proof.
  intros (A & B & C & D & HB & L). split; [unfold u32o; change (2 ^ 24) with 16777216 in *; change (2 ^ 32) with 4294967296; lia|].
  unfold resize_rejects. rewrite L, Z.eqb_refl.
  destruct (((r_sw o =? 0) || (r_sh o =? 0))) eqn:E; [lia|]. destruct (((r_dw o =? 0) || (r_dh o =? 0))) eqn:E'; [lia|].
  destruct ((2 ^ 24 <? Z.max (r_sw o) (r_dw o)) || (2 ^ 24 <? Z.max (r_sh o) (r_dh o))) eqn:E2; [lia|]. reflexivity.
Qed.
Lemma resize_run sin data o : resizable o data -> resize sin data o = run sin data o.
Proof.
  intros H. destruct (accept o data H) as [U N]. unfold resize. rewrite into_eq by auto. rewrite N. destruct (run sin data o); reflexivity.
Qed.
Lemma rejects_l sin buf data o : u32o o -> (exists e, resize_rejects o (zlen data) = Some e) ->
  forall e, resize_rejects o (zlen data) = Some e -> resize_into sin buf data o = (Err e, buf) /\ resize sin data o = Err e.
Proof. intros U _ e E. unfold resize. rewrite !into_eq by auto. rewrite E. auto. Qed.
Lemma buffer_l sin buf data o : u32o o -> resize_rejects o (zlen data) = None ->
  resize_into sin buf data o = resize_into sin [] data o /\
  forall out, resize sin data o = Ok out -> resize_into sin buf data o = (Ok tt, out).
Proof.
  intros U E. unfold resize. rewrite !into_eq by auto. rewrite E. split; [reflexivity|]. intros out. destruct (run sin data o); intros H; inversion H; reflexivity.
Qed.

Section Sin.
  Variables (sin : f32 -> f32) (data : list Z) (o : ropts).
  Hypothesis HR : resizable o data.
  Let bpp := bytes_per_pixel (r_ct o).
  Lemma nearest_l : r_algo o = Nearest -> exists out fx fy, resize sin data o = Ok out /\ bytes out /\ zlen out = r_dw o * r_dh o * bpp /\
    (forall x y c, 0 <= x < r_dw o -> 0 <= y < r_dh o -> 0 <= c < bpp -> px out (r_dw o) bpp x y c = px data (r_sw o) bpp (fx x) (fy y) c) /\
    (forall x, 0 <= x < r_dw o -> 0 <= fx x < r_sw o /\ (Rabs (IZR (fx x) - centre (r_sw o) (r_dw o) x) <= / 2 + IZR (r_sw o) * bpow radix2 (-21))%R) /\
    (forall y, 0 <= y < r_dh o -> 0 <= fy y < r_sh o /\ (Rabs (IZR (fy y) - centre (r_sh o) (r_dh o) y) <= / 2 + IZR (r_sh o) * bpow radix2 (-21))%R) /\
    (forall x x', 0 <= x <= x' -> x' < r_dw o -> fx x <= fx x') /\ (forall y y', 0 <= y <= y' -> y' < r_dh o -> fy y <= fy y').
  Proof.
    intros A. rewrite resize_run by auto. unfold run. rewrite A. destruct HR as (H1 & H2 & H3 & H4 & HB & L). fold bpp in L. pose proof (bpp_range (r_ct o)) as HBP. fold bpp in HBP.
    destruct (nearest_paint data (r_sw o) (r_sh o) (r_dw o) (r_dh o) bpp) as (out & E & BO & LO & P); auto; try lia.
    exists out, (nx (r_sw o) (r_dw o)), (ny (r_sh o) (r_dh o)). split; [exact E|]. split; [exact BO|]. split; [exact LO|]. split; [exact P|].
    split; [intros; split; [apply nearest_range|apply nearest_near]; auto|]. split; [intros; split; [apply nearest_range|apply nearest_near]; auto|].
    split; intros; apply nearest_mono; auto.
  Qed.
  Lemma same_l : r_sw o = r_dw o -> r_sh o = r_dh o -> (r_algo o <> Bilinear -> r_sw o <= 2 ^ 23 /\ r_sh o <= 2 ^ 23) -> (r_algo o = Lanczos3 -> accurate_sine sin) ->
    resize sin data o = Ok data.
  Proof.
    intros E1 E2 S AC. rewrite resize_run by auto. unfold run. destruct HR as (H1 & H2 & H3 & H4 & HB & L). fold bpp. fold bpp in L. pose proof (bpp_range (r_ct o)) as HBP. fold bpp in HBP.
    destruct (r_algo o).
    - destruct S as [S1 S2]; [discriminate|]. apply nearest_same; auto; lia.
    - apply bilinear_same; auto; try lia; right; auto.
    - destruct S as [S1 S2]; [discriminate|].
      destruct (lanczos_paint sin data (r_sw o) (r_sh o) (r_dw o) (r_dh o) bpp) as (out & -> & BO & LO & P); auto; try lia.
      f_equal. apply (px_ext out data (r_dw o) (r_dh o) bpp); [lia|lia|lia|exact LO|congruence|].
      intros x y c Hx Hy Hc. rewrite P by auto. rewrite <- E1, <- E2.
      rewrite line_same; [|auto|lia|lia|intros; apply line_byte]. rewrite line_same; [reflexivity|auto|lia|lia|]. intros. apply znth_byte. auto.
  Qed.
  Lemma bilinear_l : r_algo o = Bilinear -> inside (r_sw o) (r_dw o) -> inside (r_sh o) (r_dh o) ->
    exists out, resize sin data o = Ok out /\ bytes out /\ zlen out = r_dw o * r_dh o * bpp /\
    forall x y c, 0 <= x < r_dw o -> 0 <= y < r_dh o -> 0 <= c < bpp ->
      (Rabs (IZR (px out (r_dw o) bpp x y c) - surface data (r_sw o) (r_sh o) bpp c (along (r_sw o) (r_dw o) x) (along (r_sh o) (r_dh o) y))
       <= / 2 + / 2048 + 255 * IZR (r_sw o + r_sh o) * bpow radix2 (-22))%R /\
      exists x0 y0, 0 <= x0 < r_sw o /\ 0 <= y0 < r_sh o /\
        (Rabs (along (r_sw o) (r_dw o) x - (IZR x0 + / 2)) <= / 2 + IZR (r_sw o) * bpow radix2 (-22))%R /\
        (Rabs (along (r_sh o) (r_dh o) y - (IZR y0 + / 2)) <= / 2 + IZR (r_sh o) * bpow radix2 (-22))%R /\
        let p i j := px data (r_sw o) bpp (Z.min (x0 + i) (r_sw o - 1)) (Z.min (y0 + j) (r_sh o - 1)) c in
        min4 (p 0 0) (p 1 0) (p 0 1) (p 1 1) <= px out (r_dw o) bpp x y c <= max4 (p 0 0) (p 1 0) (p 0 1) (p 1 1).
  Proof.
    intros A I1 I2. rewrite resize_run by auto. unfold run. rewrite A. destruct HR as (H1 & H2 & H3 & H4 & HB & L). fold bpp in L. pose proof (bpp_range (r_ct o)) as HBP. fold bpp in HBP.
    destruct (bilinear_near data (r_sw o) (r_sh o) (r_dw o) (r_dh o) bpp) as (out & E & BO & LO & P); auto; try lia.
    exists out. split; [exact E|]. split; [exact BO|]. split; [exact LO|]. intros x y c Hx Hy Hc. destruct (P x y c Hx Hy Hc) as [N M]. split.
    - pose proof (lcoord_near (r_sw o) (r_dw o) x H1 H3 Hx) as NX. pose proof (lcoord_near (r_sh o) (r_dh o) y H2 H4 Hy) as NY.
      pose proof (lcoord_inside (r_sw o) (r_dw o) x H1 H3 Hx I1) as IX. pose proof (lcoord_inside (r_sh o) (r_dh o) y H2 H4 Hy I2) as IY.
      destruct (lprod_near (r_sw o) (r_dw o) x H1 H3 Hx) as [AX _]. destruct (lprod_near (r_sh o) (r_dh o) y H2 H4 Hy) as [AY _]. rewrite minus_IZR in AX, AY.
      pose proof (surface_lip data (r_sw o) (r_sh o) bpp c (lcoord (r_sw o) (r_dw o) x) (lcoord (r_sh o) (r_dh o) y) (along (r_sw o) (r_dw o) x) (along (r_sh o) (r_dh o) y) HB IX ltac:(lra) IY ltac:(lra)) as SL.
      rewrite plus_IZR. apply Rabs_le_inv in N, SL. apply Rabs_le. lra.
    - destruct (bx0_in (r_sw o) (r_dw o) H1 H3 I1 x Hx) as [B1 C1]. destruct (by0_in (r_sh o) (r_dh o) H2 H4 I2 y Hy) as [B2 C2].
      pose proof (lcoord_near (r_sw o) (r_dw o) x H1 H3 Hx) as NX. pose proof (lcoord_near (r_sh o) (r_dh o) y H2 H4 Hy) as NY. apply Rabs_le_inv in NX, NY.
      exists (bx0 (r_sw o) (r_dw o) x), (by0 (r_sh o) (r_dh o) y). split; [exact B1|]. split; [exact B2|]. split; [apply Rabs_le; lra|]. split; [apply Rabs_le; lra|]. cbv zeta. rewrite !Z.add_0_r.
      rewrite (Z.min_l (bx0 _ _ _)), (Z.min_l (by0 _ _ _)) by lia. exact M.
  Qed.
  Lemma lanczos_l : r_algo o = Lanczos3 -> exists out, resize sin data o = Ok out /\ bytes out /\ zlen out = r_dw o * r_dh o * bpp /\
    forall x y c, 0 <= x < r_dw o -> 0 <= y < r_dh o -> 0 <= c < bpp ->
      px out (r_dw o) bpp x y c = line sin (r_sh o) (r_dh o) (fun j => line sin (r_sw o) (r_dw o) (fun i => px data (r_sw o) bpp i j c) x) y.
  Proof.
    intros A. rewrite resize_run by auto. unfold run. rewrite A. destruct HR as (H1 & H2 & H3 & H4 & HB & L). fold bpp in L. pose proof (bpp_range (r_ct o)) as HBP. fold bpp in HBP.
    apply lanczos_paint; auto; lia.
  Qed.
End Sin.
(** channels are resized separately *)
Lemma sep_l sin : exists line : Z -> Z -> (Z -> Z) -> Z -> Z,
  (forall src dst p d, is_byte (line src dst p d)) /\
  (forall src dst p q d, 1 <= src <= 2 ^ 24 -> 1 <= dst <= 2 ^ 24 -> 0 <= d < dst -> (forall i, 0 <= i < src -> p i = q i) -> line src dst p d = line src dst q d) /\
  (accurate_sine sin -> forall n p d, 1 <= n <= 2 ^ 23 -> 0 <= d < n -> (forall i, is_byte (p i)) -> line n n p d = p d) /\
  forall data o, resizable o data -> r_algo o = Lanczos3 ->
    let bpp := bytes_per_pixel (r_ct o) in
    exists out, resize sin data o = Ok out /\ zlen out = r_dw o * r_dh o * bpp /\
    forall x y c, 0 <= x < r_dw o -> 0 <= y < r_dh o -> 0 <= c < bpp ->
      px out (r_dw o) bpp x y c = line (r_sh o) (r_dh o) (fun j => line (r_sw o) (r_dw o) (fun i => px data (r_sw o) bpp i j c) x) y.
Proof.
  exists (line sin). split; [intros; apply line_byte|]. split; [intros; apply line_ext; auto|]. split; [intros; apply line_same; auto|].
  intros data o HR A. destruct (lanczos_l sin data o HR A) as (out & E & _ & L & P). exists out. auto.
Qed.
Lemma flat_l sin data o v : resizable o data -> r_algo o <> Lanczos3 -> (r_algo o = Bilinear -> inside (r_sw o) (r_dw o) /\ inside (r_sh o) (r_dh o)) ->
  Forall (fun b => b = v) data -> exists out, resize sin data o = Ok out /\ zlen out = r_dw o * r_dh o * bytes_per_pixel (r_ct o) /\ Forall (fun b => b = v) out.
Proof.
  intros HR NL IN FV. set (bpp := bytes_per_pixel (r_ct o)).
  assert (forall x y c, 0 <= x < r_sw o -> 0 <= y < r_sh o -> 0 <= c < bpp -> px data (r_sw o) bpp x y c = v) as PV.
  { intros x y c Hx Hy Hc. unfold px, znth. rewrite Forall_forall in FV. apply FV. apply nth_In. destruct HR as (H1 & H2 & H3 & H4 & HB & L). fold bpp in L.
    pose proof (index_in data (r_sw o) (r_sh o) bpp H1 H2 (proj1 (bpp_range (r_ct o))) L x y c Hx Hy Hc). unfold zlen in *. lia. }
  assert (exists out, resize sin data o = Ok out /\ zlen out = r_dw o * r_dh o * bpp /\
    forall x y c, 0 <= x < r_dw o -> 0 <= y < r_dh o -> 0 <= c < bpp -> px out (r_dw o) bpp x y c = v) as (out & E & L & P).
  { destruct (r_algo o) eqn:A; [| |congruence].
    - destruct (nearest_l sin data o HR A) as (out & fx & fy & E & _ & L & P & FX & FY & _). exists out. split; [exact E|]. split; [exact L|].
      intros x y c Hx Hy Hc. fold bpp in P. rewrite P by auto. apply PV; auto; [apply FX|apply FY]; auto.
    - destruct (IN eq_refl) as [I1 I2]. destruct (bilinear_l sin data o HR A I1 I2) as (out & E & _ & L & P). exists out. split; [exact E|]. split; [exact L|].
      intros x y c Hx Hy Hc. destruct (P x y c Hx Hy Hc) as (_ & x0 & y0 & B1 & B2 & _ & _ & M). cbv beta zeta in M. fold bpp in M. rewrite !PV in M by lia. unfold min4, max4 in M. lia. }
  exists out. split; [exact E|]. split; [exact L|]. apply Forall_forall. intros b Hb. apply (In_nth _ _ 0) in Hb as (k & Hk & <-).
  destruct HR as (H1 & H2 & H3 & H4 & _). pose proof (bpp_range (r_ct o)) as HBP. fold bpp in HBP.
  assert (0 <= Z.of_nat k < r_dw o * r_dh o * bpp) as Hi by (rewrite <- L; unfold zlen; lia). set (i := Z.of_nat k) in *.
  pose proof (Z.div_mod i bpp ltac:(lia)). pose proof (Z.mod_pos_bound i bpp ltac:(lia)).
  pose proof (Z.div_mod (i / bpp) (r_dw o) ltac:(lia)). pose proof (Z.mod_pos_bound (i / bpp) (r_dw o) ltac:(lia)).
  assert (0 <= i / bpp < r_dw o * r_dh o). { split; [apply Z.div_pos; lia|]. apply Z.div_lt_upper_bound; nia. }
  assert (0 <= i / bpp / r_dw o < r_dh o). { split; [apply Z.div_pos; lia|]. apply Z.div_lt_upper_bound; nia. }
  specialize (P ((i / bpp) mod r_dw o) (i / bpp / r_dw o) (i mod bpp) ltac:(lia) ltac:(lia) ltac:(lia)). unfold px in P.
  replace ((i / bpp / r_dw o * r_dw o + (i / bpp) mod r_dw o) * bpp + i mod bpp) with i in P by nia. unfold znth, i in P. rewrite Nat2Z.id in P. exact P.
Qed.
(** ** The bilinear overrun *)
Lemma oob_l sin data : bytes data -> zlen data = 12582914 -> resizable oob data /\ resize sin data oob = Panic.
Proof.
  intros HB L. assert (resizable oob data) as R.
  { unfold resizable, oob. cbn [r_sw r_sh r_dw r_dh r_ct]. change (2 ^ 24) with 16777216. change (bytes_per_pixel Gray) with 1. rewrite L. repeat (split; [lia|]). split; [auto|lia]. }
  split; [exact R|]. rewrite resize_run by auto. unfold run, oob. cbn [r_algo r_sw r_sh r_dw r_dh r_ct]. change (bytes_per_pixel Gray) with 1.
  unfold resize_bilinear, rows. change (idxs (Z.to_nat 1)) with [0]. change (idxs (Z.to_nat 4)) with [0; 1; 2; 3]. cbn [map_res].
  assert (linear_at 1 (linear_ratio 1 1) 0 = (0, 0, f_zero)) as -> by (vm_compute; reflexivity).
  assert (exists f, linear_at 12582914 (linear_ratio 12582914 4) 0 = (0, 1, f)) as (f0 & ->) by (eexists; vm_compute; reflexivity).
  assert (exists f, linear_at 12582914 (linear_ratio 12582914 4) 1 = (4194304, 4194305, f)) as (f1 & ->) by (eexists; vm_compute; reflexivity).
  assert (exists f, linear_at 12582914 (linear_ratio 12582914 4) 2 = (8388609, 8388610, f)) as (f2 & ->) by (eexists; vm_compute; reflexivity).
  assert (exists f, linear_at 12582914 (linear_ratio 12582914 4) 3 = (12582914, 12582913, f)) as (f3 & ->) by (eexists; vm_compute; reflexivity).
  cbn [map_res]. rewrite !get_znth by (rewrite L; lia). cbn [rbind].
  assert (get data ((0 * 12582914 + 12582914) * 1 + 0) = Panic) as ->.
  { unfold get. assert ((0 * 12582914 + 12582914) * 1 + 0 <? 0 = false) as -> by reflexivity. assert (nth_error data (Z.to_nat ((0 * 12582914 + 12582914) * 1 + 0)) = None) as ->; [|reflexivity].
    apply nth_error_None. unfold zlen in L. lia. }
  reflexivity.
Qed.
Lemma rejects_iff data o : u32o o -> bytes data -> (resize_rejects o (zlen data) = None <-> resizable o data).
Proof.
  intros U B. split; [|intro H; apply accept; auto]. destruct U as (U1 & U2 & U3 & U4). unfold resize_rejects, resizable.
  destruct ((r_sw o =? 0) || (r_sh o =? 0)) eqn:E1; [discriminate|]. destruct ((r_dw o =? 0) || (r_dh o =? 0)) eqn:E2; [discriminate|].
  destruct ((2 ^ 24 <? Z.max (r_sw o) (r_dw o)) || (2 ^ 24 <? Z.max (r_sh o) (r_dh o))) eqn:E3; [discriminate|].
  destruct (Z.eqb_spec (zlen data) (r_sw o * r_sh o * bytes_per_pixel (r_ct o))) as [E|E]; [|discriminate]. intros _.
  repeat (split; [lia|]). auto.
Qed.
(** an accurate sine exists *)
Definition some_sine (x : f32) : f32 := f_const (Zfloor (Rtrigo_def.sin (val x) * 4194304)) (-22).
Lemma sine_exists : accurate_sine some_sine.
Proof.
  intros x F B. unfold some_sine. set (y := (Rtrigo_def.sin (val x) * 4194304)%R). pose proof (SIN_bound (val x)) as S.
  assert (-4194304 <= y <= 4194304)%R as Y by (unfold y; lra). pose proof (Zfloor_lb y) as L. pose proof (Zfloor_ub y) as U.
  assert (-4194304 <= Zfloor y) as Z1 by (apply Zfloor_lub; lra). assert (Zfloor y <= 4194304) as Z2 by (apply le_IZR; lra).
  assert (fmt (F2R (Float radix2 (Zfloor y) (-22)))) as FM by (apply fmt_F2R; change (2 ^ 24) with 16777216; lia).
  assert (F2R (Float radix2 (Zfloor y) (-22)) = IZR (Zfloor y) / 4194304)%R as E by (rewrite F2R_neg by lia; reflexivity).
  destruct (const_ok (Zfloor y) (-22)) as [FC VC].
  - rewrite rnd_fmt, E by auto. apply Rle_lt_trans with 2%R; [apply Rabs_le; lra|]. apply (bpow_lt 1 128). lia.
  - split; [exact FC|]. rewrite VC, rnd_fmt, E by auto. change (bpow radix2 (-20)) with (/ 1048576)%R. apply Rabs_le. unfold y in *. lra.
Qed.
