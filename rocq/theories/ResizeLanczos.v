(** Lanczos resampling: it never fails, it is separable, and its windows stay inside
    the source. *)
From Coq Require Import Reals Lra.
From Flocq Require Import Core Relative BinarySingleNaN.
From Verif Require Import Base Lz77Model PngFilterModel PngPaletteModel PngFilterProofs PngPackProofs F32Model F32Proofs ResizeModel ResizeF32 ResizeSpec ResizeProofs.
Open Scope Z_scope.

Lemma to_Z_range lo hi x : lo <= 0 <= hi -> lo <= f_to_Z lo hi x <= hi.
Proof. intros H. destruct x as [s|s| |s m e]; cbn [f_to_Z]; try lia. destruct s; lia. Qed.
Lemma u8_byte x : is_byte (to_u8 x). Proof. unfold is_byte. pose proof (to_Z_range 0 255 x). unfold to_u8. lia. Qed.
(** a float at least as near as any other *)
Lemma rnd_best x y : fmt y -> (Rabs (rnd x - x) <= Rabs (y - x))%R.
Proof. intros H. apply round_N_pt; auto. apply FLT_exp_valid. reflexivity. Qed.

(** ** The window *)
Lemma center_ok src dst d : 1 <= src <= 2 ^ 24 -> 1 <= dst <= 2 ^ 24 -> 0 <= d < dst ->
  let c := f_sub (f_mul (f_add (f_of_Z d) f_half) (f_div (f_of_Z src) (f_of_Z dst))) f_half in
  fin c /\ val c = ncoord src dst d /\ (Rabs (val c) <= bpow radix2 26)%R.
Proof.
  intros Hs Hd Hx c. unfold ncoord.
  destruct (div_range src dst ltac:(lia) ltac:(lia)) as (Fr & Vr & Br). destruct half_ok as [Fh Vh].
  destruct (of_Z_exact d ltac:(lia)) as [Fd Vd].
  assert (0 <= IZR d <= bpow radix2 24)%R as D1.
  { rewrite pow24. change (2 ^ 24) with 16777216 in *. split; apply IZR_le; lia. }
  assert (1 <= IZR src <= bpow radix2 24)%R as S1.
  { rewrite pow24. change (2 ^ 24) with 16777216 in *. split; apply IZR_le; lia. }
  assert (bpow radix2 25 = 2 * bpow radix2 24)%R as P25 by apply (bpow_plus_1 radix2 24).
  assert (bpow radix2 26 = 2 * bpow radix2 25)%R as P26 by apply (bpow_plus_1 radix2 25).
  assert (16777216 <= bpow radix2 24)%R as P24 by (rewrite pow24; lra).
  destruct (add_bound (f_of_Z d) f_half (bpow radix2 25)) as (Fa & Va & Ba); auto.
  { apply fmt_bpow; lia. } { rewrite Vd, Vh, Rabs_pos_eq; lra. } { apply bpow_lt; lia. }
  destruct (nprod_range src dst d Hs Hd Hx) as (MR & PR & PB). rewrite Vd, Vh in Va.
  set (M := ((IZR d + / 2) * (IZR src / IZR dst))%R) in *.
  change (bpow radix2 (-24)) with (/ 16777216)%R in PR.
  destruct (mul_bound (f_add (f_of_Z d) f_half) (f_div (f_of_Z src) (f_of_Z dst)) (bpow radix2 25)) as (Fm & Vm & Bm); auto.
  { apply fmt_bpow; lia. }
  { rewrite Va, Vr. pose proof (bpow_ge_0 radix2 (-30)). rewrite Rabs_pos_eq by lra. lra. }
  { apply bpow_lt; lia. }
  rewrite Va, Vr in Vm.
  destruct (sub_bound (f_mul (f_add (f_of_Z d) f_half) (f_div (f_of_Z src) (f_of_Z dst))) f_half (bpow radix2 26)) as (Fs & Vs & Bs); auto.
  { apply fmt_bpow; lia. } { rewrite Vh. apply Rabs_le. apply Rabs_le_inv in Bm. lra. } { apply bpow_lt; lia. }
  fold c in Fs, Vs, Bs. rewrite Vm, Vh in Vs. auto.
Qed.
Lemma ncoord_high src dst d : 1 <= src <= 2 ^ 24 -> 1 <= dst <= 2 ^ 24 -> 0 <= d < dst -> (ncoord src dst d <= IZR src + 3)%R.
Proof.
  intros Hs Hd Hx. destruct (nprod_range src dst d Hs Hd Hx) as (MR & PR & PB). unfold ncoord.
  set (M := ((IZR d + / 2) * (IZR src / IZR dst))%R) in *. set (p := (rnd (IZR d + / 2) * rnd (IZR src / IZR dst))%R) in *.
  change (bpow radix2 (-24)) with (/ 16777216)%R in PR. change (2 ^ 24) with 16777216 in Hs.
  assert (1 <= IZR src <= 16777216)%R as S1 by (split; apply IZR_le; lia).
  assert (p <= IZR src + 2 + / 1024)%R as P1 by lra.
  assert (rnd p <= IZR src + 3)%R as P2.
  { apply Rle_trans with (rnd (IZR src + 2 + / 1024)); [apply rnd_le; auto|].
    assert (exists y, fmt (IZR y) /\ IZR src + 2 <= IZR y <= IZR src + 2 + / 2 + / 2)%R as (y & Fy & By).
    { destruct (Z.le_gt_cases src 16777214) as [C|C].
      - exists (src + 2). split; [apply fmt_Z; change (2 ^ 24) with 16777216; lia|rewrite plus_IZR; lra].
      - exists 16777218. split.
        + replace (IZR 16777218) with (F2R (Float radix2 8388609 1)); [apply fmt_F2R; lia|]. rewrite F2R_pos by lia. reflexivity.
        + assert (16777215 <= IZR src)%R by (apply IZR_le; lia). assert (src = 16777215 \/ src = 16777216) as [ -> | -> ] by lia; lra. }
    destruct (Rle_or_lt (IZR src + 2 + / 1024) (IZR y)) as [C|C].
    - apply Rle_trans with (IZR y); [|lra]. rewrite <- (rnd_fmt (IZR y)) by auto. apply rnd_le. auto.
    - pose proof (rnd_best (IZR src + 2 + / 1024) (IZR y) Fy) as N. rewrite (Rabs_left1 (IZR y - _)) in N by lra. apply Rabs_le_inv in N. lra. }
  apply Rle_trans with (rnd p); auto. rewrite <- (rnd_fmt (rnd p)) at 2 by apply fmt_rnd. apply rnd_le. lra.
Qed.

Section Sin.
  Variable sin : f32 -> f32.
  Definition win (src dst d : Z) : Z * list f32 :=
    match contribution sin src (f_div (f_of_Z src) (f_of_Z dst)) (f_maximum (f_div (f_of_Z src) (f_of_Z dst)) f_one) d with
    | Ok c => c
    | _ => (0, [])
    end.
  Lemma contribution_ok src dst d : 1 <= src <= 2 ^ 24 -> 1 <= dst <= 2 ^ 24 -> 0 <= d < dst ->
    contribution sin src (f_div (f_of_Z src) (f_of_Z dst)) (f_maximum (f_div (f_of_Z src) (f_of_Z dst)) f_one) d = Ok (win src dst d) /\
    0 <= fst (win src dst d) /\ fst (win src dst d) + zlen (snd (win src dst d)) <= src.
  Proof.
    intros Hs Hd Hx. unfold win.
    destruct (center_ok src dst d Hs Hd Hx) as (Fc & Vc & Bc). destruct (div_range src dst ltac:(lia) ltac:(lia)) as (Fr & Vr & Br).
    destruct one_ok as [F1 V1]. destruct (maximum_ok _ _ Fr F1) as [Fs Vs]. rewrite V1 in Vs.
    pose proof (ncoord_high src dst d Hs Hd Hx) as NH.
    unfold contribution. set (scale := f_div (f_of_Z src) (f_of_Z dst)) in *. set (fs := f_maximum scale f_one) in *.
    set (c := f_sub (f_mul (f_add (f_of_Z d) f_half) scale) f_half) in *.
    assert (1 <= val fs <= bpow radix2 24)%R as BS.
    { rewrite Vs. split; [apply Rmax_r|]. apply Rmax_lub; [lra|]. rewrite pow24; lra. }
    destruct (of_Z_exact 3 ltac:(lia)) as [F3' V3']. fold F3 in F3', V3'.
    assert (bpow radix2 26 = 4 * bpow radix2 24)%R as P26 by apply (bpow_plus radix2 2 24).
    destruct (mul_bound F3 fs (bpow radix2 26)) as (Fp & Vp & Bp); auto.
    { apply fmt_bpow; lia. } { rewrite V3', Rabs_pos_eq; lra. } { apply bpow_lt; lia. }
    assert (3 <= val (f_mul F3 fs))%R as S3.
    { rewrite Vp, V3'. rewrite <- (rnd_fmt 3) at 1 by (apply (fmt_Z 3); lia). apply rnd_le. lra. }
    set (s := f_mul F3 fs) in *. apply Rabs_le_inv in Bc, Bp.
    assert (bpow radix2 27 = 2 * bpow radix2 26)%R as P27 by apply (bpow_plus_1 radix2 26).
    destruct (sub_bound c s (bpow radix2 27)) as (Fl & Vl & Bl); auto.
    { apply fmt_bpow; lia. } { apply Rabs_le; lra. } { apply bpow_lt; lia. }
    destruct (add_bound c s (bpow radix2 27)) as (Fh & Vh & Bh); auto.
    { apply fmt_bpow; lia. } { apply Rabs_le; lra. } { apply bpow_lt; lia. }
    destruct (floor_ok _ Fl) as [Ff Vf]. destruct (ceil_ok _ Fh) as [Fe Ve].
    apply Rabs_le_inv in Bl, Bh. change (bpow radix2 27) with 134217728%R in Bl, Bh.
    unfold to_isize, to_usize. rewrite !to_Z_ok by (auto; lia). rewrite Vf, Ve, !Ztrunc_IZR.
    assert (Zfloor (val (f_sub c s)) <= src) as K1.
    { apply le_IZR. eapply Rle_trans; [apply Zfloor_lb|]. rewrite Vl, Vc. change (2 ^ 24) with 16777216 in Hs.
      rewrite <- (rnd_fmt (IZR src)) by (apply fmt_Z; change (2 ^ 24) with 16777216; lia). apply rnd_le. lra. }
    assert (Zfloor (val (f_sub c s)) <= Zceil (val (f_add c s))) as K2.
    { apply le_IZR. eapply Rle_trans; [apply Zfloor_lb|]. eapply Rle_trans; [|apply Zceil_ub]. rewrite Vl, Vh. apply rnd_le. lra. }
    assert (- 134217728 <= Zfloor (val (f_sub c s))) as K3 by (apply Zfloor_lub; lra).
    assert (Zceil (val (f_add c s)) <= 134217728) as K4 by (apply Zceil_glb; lra).
    set (lo := Zfloor (val (f_sub c s))) in *. set (hi := Zceil (val (f_add c s))) in *. clearbody lo hi.
    change (2 ^ 24) with 16777216 in *.
    assert (Z.min (2 ^ 63 - 1) (Z.max (- 2 ^ 63) lo) = lo) as -> by lia.
    destruct (Z.ltb_spec (Z.min (2 ^ 64 - 1) (Z.max 0 hi) + 1) (2 ^ 64)) as [_|C]; [|lia]. cbn [rbind].
    unfold usub. destruct (Z.ltb_spec (Z.min (Z.min (2 ^ 64 - 1) (Z.max 0 hi) + 1) src) (Z.max lo 0)) as [C|_]; [lia|]. cbn [rbind fst snd].
    split; [reflexivity|]. split; [lia|].
    assert (forall ws : list f32, zlen ws = Z.min (Z.min (2 ^ 64 - 1) (Z.max 0 hi) + 1) src - Z.max lo 0 -> Z.max lo 0 + zlen ws <= src) as K by (intros; lia).
    apply K. match goal with |- zlen (if ?b then _ else _) = _ => destruct b end; unfold zlen, idxs; rewrite ?map_length, seq_length; lia.
  Qed.
  Lemma contributions_ok src dst : 1 <= src <= 2 ^ 24 -> 1 <= dst <= 2 ^ 24 ->
    precompute_contributions sin src dst = Ok (map (win src dst) (idxs (Z.to_nat dst))).
  Proof.
    intros Hs Hd. unfold precompute_contributions. apply map_res_all. intros d H. apply in_idxs in H. apply contribution_ok; auto. lia.
  Qed.

  (** ** One line *)
  Fixpoint wsum (p : Z -> Z) (k : Z) (ws : list f32) (acc : f32) : f32 :=
    match ws with [] => acc | w :: ws => wsum p (k + 1) ws (f_add acc (f_mul (f_of_Z (p k)) w)) end.
  Definition pick (p : Z -> Z) (con : Z * list f32) : Z := to_u8 (f_clamp (f_round (wsum p (fst con) (snd con) f_zero)) f_zero F255).
  Definition line (src dst : Z) (p : Z -> Z) (d : Z) : Z := pick p (win src dst d).
  Lemma weigh_ok at_ p : forall ws k acc, (forall i, k <= i < k + zlen ws -> at_ i = Ok (p i)) -> weigh at_ k ws acc = Ok (wsum p k ws acc).
  Proof.
    induction ws as [|w ws IH]; intros k acc H; [reflexivity|]. cbn [weigh wsum]. unfold zlen in *. cbn [length] in H. rewrite H by lia. cbn [rbind].
    apply IH. intros. apply H. lia.
  Qed.
  Lemma wsum_ext p q : forall ws k acc, (forall i, k <= i < k + zlen ws -> p i = q i) -> wsum p k ws acc = wsum q k ws acc.
  Proof.
    induction ws as [|w ws IH]; intros k acc H; [reflexivity|]. cbn [wsum]. unfold zlen in *. cbn [length] in H. rewrite H by lia. apply IH. intros. apply H. lia.
  Qed.
  Lemma line_ext src dst p q d : 1 <= src <= 2 ^ 24 -> 1 <= dst <= 2 ^ 24 -> 0 <= d < dst -> (forall i, 0 <= i < src -> p i = q i) -> line src dst p d = line src dst q d.
  Proof.
    intros Hs Hd Hx H. destruct (contribution_ok src dst d Hs Hd Hx) as (_ & A & B). unfold line, pick. rewrite (wsum_ext p q); [reflexivity|].
    intros. apply H. lia.
  Qed.
  Lemma resample_ok at_ (p : Z -> Z -> Z) bpp con : (forall c i, 0 <= c < bpp -> fst con <= i < fst con + zlen (snd con) -> at_ c i = Ok (p c i)) ->
    resample at_ bpp con = Ok (map (fun c => pick (p c) con) (idxs (Z.to_nat bpp))).
  Proof.
    intros H. unfold resample. apply map_res_all. intros c Hc. apply in_idxs in Hc. rewrite (weigh_ok _ (p c)); [reflexivity|]. intros i Hi. apply H; lia.
  Qed.
  Lemma line_byte src dst p d : is_byte (line src dst p d). Proof. apply u8_byte. Qed.

  Opaque win pick.
  Section Image.
    Variables (data : list Z) (sw sh dw dh bpp : Z).
    Hypothesis (Hsw : 1 <= sw <= 2 ^ 24) (Hsh : 1 <= sh <= 2 ^ 24) (Hdw : 1 <= dw <= 2 ^ 24) (Hdh : 1 <= dh <= 2 ^ 24).
    Hypothesis (HB : bytes data) (Hbpp : 1 <= bpp) (HL : zlen data = sw * sh * bpp).
    Lemma lanczos_paint : exists out, resize_lanczos3 sin data sw sh dw dh bpp = Ok out /\ bytes out /\ zlen out = dw * dh * bpp /\
      forall x y c, 0 <= x < dw -> 0 <= y < dh -> 0 <= c < bpp ->
        px out dw bpp x y c = line sh dh (fun j => line sw dw (fun i => px data sw bpp i j c) x) y.
    Proof.
      unfold resize_lanczos3. rewrite !contributions_ok by auto. cbn [rbind].
      set (h := fun x y => map (fun c => pick (fun i => px data sw bpp i y c) (win sw dw x)) (idxs (Z.to_nat bpp))).
      assert (forall x y, 0 <= x < dw -> 0 <= y < sh -> zlen (h x y) = bpp) as LH.
      { intros x y Hx Hy. unfold h, zlen, idxs. rewrite !map_length, seq_length. lia. }
      destruct (paint_ok dw sh bpp h ltac:(lia) ltac:(lia) ltac:(lia) LH) as [LT PT].
      assert (rows sh (fun y => let* row := slice_r data (y * (sw * bpp)) (y * (sw * bpp) + sw * bpp) in
          let* l := map_res (resample (fun c x => get row (x * bpp + c)) bpp) (map (win sw dw) (idxs (Z.to_nat dw))) in Ok (concat l)) = Ok (paint dw sh h)) as ->.
      { unfold paint. apply rows_ok; [lia|]. intros y Hy.
        assert (y * (sw * bpp) + sw * bpp <= zlen data) as LE by (rewrite HL; nia).
        rewrite slice_r_ok by (auto; nia). cbn [rbind].
        rewrite (map_res_all _ (fun con => map (fun c => pick (fun i => px data sw bpp i y c) con) (idxs (Z.to_nat bpp)))).
        - cbn [rbind]. f_equal. rewrite map_map, flat_map_concat_map. reflexivity.
        - intros con HC. apply in_map_iff in HC as (x & <- & Hx). apply in_idxs in Hx.
          destruct (contribution_ok sw dw x Hsw Hdw ltac:(lia)) as (_ & A & B).
          apply (resample_ok _ (fun c i => px data sw bpp i y c)). intros c i Hc Hi.
          assert (0 <= i * bpp + c < sw * bpp) by nia.
          rewrite get_znth by (rewrite slice_len by (auto; nia); lia). rewrite znth_slice by nia. unfold px. do 2 f_equal. ring. }
      cbn [rbind].
      set (v := fun x y => map (fun c => line sh dh (fun j => line sw dw (fun i => px data sw bpp i j c) x) y) (idxs (Z.to_nat bpp))).
      assert (forall x y, 0 <= x < dw -> 0 <= y < dh -> zlen (v x y) = bpp) as LV.
      { intros x y Hx Hy. unfold v, zlen, idxs. rewrite !map_length, seq_length. lia. }
      destruct (paint_ok dw dh bpp v ltac:(lia) ltac:(lia) ltac:(lia) LV) as [L P].
      exists (paint dw dh v). split; [|split; [|split; [exact L|]]].
      - unfold paint at 2. apply rows_ok; [lia|]. intros y Hy.
        assert (get (map (win sh dh) (idxs (Z.to_nat dh))) y = Ok (win sh dh y)) as ->.
        { unfold get. assert ((y <? 0) = false) as -> by lia. unfold idxs. rewrite map_map. 
          rewrite nth_error_map, nth_error_nth' with (d := 0%nat) by (rewrite seq_length; lia). rewrite seq_nth by lia. cbn [option_map]. do 2 f_equal. lia. }
        cbn [rbind]. apply rows_ok; [lia|]. intros x Hx.
        destruct (contribution_ok sh dh y Hsh Hdh Hy) as (_ & A & B).
        rewrite (resample_ok _ (fun c j => line sw dw (fun i => px data sw bpp i j c) x)); [reflexivity|].
        intros c j Hc Hj. rewrite get_znth.
        + specialize (PT x j c Hx ltac:(lia) Hc). unfold px at 1 in PT. replace (j * (dw * bpp) + x * bpp + c) with ((j * dw + x) * bpp + c) by ring. rewrite PT.
          unfold h. rewrite (znth_map_idxs (fun c => pick (fun i => px data sw bpp i j c) (win sw dw x))) by lia. reflexivity.
        + rewrite LT. assert (0 <= j < sh) as Hj' by lia. clear - Hbpp Hdw Hx Hc Hj'.
          assert (x * bpp <= (dw - 1) * bpp) as X by (apply Z.mul_le_mono_nonneg_r; lia).
          assert (0 <= x * bpp) as X0 by (apply Z.mul_nonneg_nonneg; lia). assert (0 <= dw * bpp) as D0 by (apply Z.mul_nonneg_nonneg; lia).
          assert (j * (dw * bpp) <= (sh - 1) * (dw * bpp)) as J by (apply Z.mul_le_mono_nonneg_r; lia).
          assert (0 <= j * (dw * bpp)) as J0 by (apply Z.mul_nonneg_nonneg; lia).
          replace (dw * sh * bpp) with ((sh - 1) * (dw * bpp) + dw * bpp) by ring. lia.
      - apply paint_bytes. intros x y Hx Hy. unfold v, bytes. apply Forall_forall. intros b Hb. apply in_map_iff in Hb as (c & <- & _). apply line_byte.
      - intros x y c Hx Hy Hc. rewrite P by auto. unfold v.
        rewrite (znth_map_idxs (fun c => line sh dh (fun j => line sw dw (fun i => px data sw bpp i j c) x) y)) by lia. reflexivity.
    Qed.
  End Image.
End Sin.
