(** Nearest neighbour and bilinear resizing keep the order of brightness. *)
From Coq Require Import Reals Lra Lia.
From Flocq Require Import Core.
From Verif Require Import Base PngFilterModel PngPaletteModel F32Model F32Proofs ResizeModel ResizeSpec ResizeF32 ResizeProofs ResizeTop.
Open Scope Z_scope.

(** ** Mixing two values *)
Definition mixr (p q x : R) : R := rnd (rnd (p * rnd (1 - x)) + rnd (q * x)).
Lemma mix_val P Q X : fin P -> fin Q -> fin X -> (0 <= val P <= 256)%R -> (0 <= val Q <= 256)%R -> (0 <= val X <= 1)%R ->
  val (f_add (f_mul P (f_sub f_one X)) (f_mul Q X)) = mixr (val P) (val Q) (val X).
Proof.
  intros FP FQ FX BP BQ BX. unfold mixr. destruct one_ok as [F1 V1].
  destruct (sub_bound f_one X 1%R) as (Fa & Va & Ba); auto.
  { apply (fmt_Z 1); lia. } { rewrite V1. apply Rabs_le. lra. } { apply (bpow_lt 0 128). lia. }
  rewrite V1 in Va. set (a := f_sub f_one X) in *.
  assert (0 <= val a)%R as A0 by (rewrite Va; apply rnd_pos; lra). rewrite Rabs_pos_eq in Ba by auto.
  destruct (mul_bound P a 256%R) as (Fm & Vm & Bm); auto.
  { apply (fmt_bpow 8); lia. } { rewrite Rabs_pos_eq by (apply Rmult_le_pos; lra). replace 256%R with (256 * 1)%R by ring. apply Rmult_le_compat; lra. } { apply (bpow_lt 8 128). lia. }
  destruct (mul_bound Q X 256%R) as (Fn & Vn & Bn); auto.
  { apply (fmt_bpow 8); lia. } { rewrite Rabs_pos_eq by (apply Rmult_le_pos; lra). replace 256%R with (256 * 1)%R by ring. apply Rmult_le_compat; lra. } { apply (bpow_lt 8 128). lia. }
  apply Rabs_le_inv in Bm, Bn.
  destruct (add_bound (f_mul P a) (f_mul Q X) 512%R) as (Fv & Vv & Bv); auto.
  { apply (fmt_bpow 9); lia. } { apply Rabs_le. lra. } { apply (bpow_lt 9 128). lia. }
  rewrite Vv, Vm, Vn, Va. reflexivity.
Qed.
Lemma mixr_le p q p' q' x : (p <= p')%R -> (q <= q')%R -> (0 <= x <= 1)%R -> (mixr p q x <= mixr p' q' x)%R.
Proof.
  intros P Q X. unfold mixr. apply rnd_le. apply Rplus_le_compat; apply rnd_le; apply Rmult_le_compat_r; try lra. apply rnd_pos. lra.
Qed.
Lemma linear_mix_val p00 p01 p10 p11 X Y : is_byte p00 -> is_byte p01 -> is_byte p10 -> is_byte p11 ->
  fin X -> fin Y -> (0 <= val X <= 1)%R -> (0 <= val Y <= 1)%R ->
  linear_mix p00 p01 p10 p11 X Y =
    Z.min 255 (Z.max 0 (Ztrunc (Rmin 255 (Rmax 0 (IZR (rhaz (mixr (mixr (IZR p00) (IZR p01) (val X)) (mixr (IZR p10) (IZR p11) (val X)) (val Y)))))))).
Proof.
  unfold is_byte. intros B00 B01 B10 B11 FX FY BX BY. unfold linear_mix.
  assert (forall p, 0 <= p < 256 -> fin (f_of_Z p) /\ val (f_of_Z p) = IZR p /\ (0 <= val (f_of_Z p) <= 255)%R) as OK.
  { intros p Hp. destruct (of_Z_exact p ltac:(change (2 ^ 24) with 16777216; lia)) as [F V]. split; auto. split; auto. rewrite V. split; apply IZR_le; lia. }
  destruct (OK p00 B00) as (F00 & V00 & R00). destruct (OK p01 B01) as (F01 & V01 & R01).
  destruct (OK p10 B10) as (F10 & V10 & R10). destruct (OK p11 B11) as (F11 & V11 & R11). clear OK.
  destruct (mix1 (f_of_Z p00) (f_of_Z p01) X) as (Ft & T0 & Et); auto; try lra.
  destruct (mix1 (f_of_Z p10) (f_of_Z p11) X) as (Fb & B0 & Eb); auto; try lra.
  pose proof (mix_val (f_of_Z p00) (f_of_Z p01) X F00 F01 FX ltac:(lra) ltac:(lra) BX) as MT.
  pose proof (mix_val (f_of_Z p10) (f_of_Z p11) X F10 F11 FX ltac:(lra) ltac:(lra) BX) as MB.
  set (top := f_add (f_mul (f_of_Z p00) _) _) in *. set (bot := f_add (f_mul (f_of_Z p10) _) _) in *.
  pose proof (conv_range _ _ _ _ _ R00 R01 BX) as Ct. pose proof (conv_range _ _ _ _ _ R10 R11 BX) as Cb.
  apply Rabs_le_inv in Et, Eb.
  destruct (mix1 top bot Y) as (Fv & V0 & Ev); auto; try lra.
  pose proof (mix_val top bot Y Ft Fb FY ltac:(lra) ltac:(lra) BY) as MV.
  set (v := f_add (f_mul top _) _) in *.
  destruct (round_ok v Fv) as [Fr Vr]. destruct f255_ok as [F2 V2].
  destruct (clamp_ok (f_round v) f_zero F255 Fr fin_zero F2 ltac:(rewrite val_zero, V2; lra)) as [Fc Vc].
  unfold to_u8. rewrite to_Z_ok by (auto; lia). rewrite Vc, val_zero, V2, Vr, MV, MT, MB, V00, V01, V10, V11.
  reflexivity.
Qed.

Lemma linear_mix_le p00 p01 p10 p11 q00 q01 q10 q11 X Y X' Y' :
  is_byte p00 -> is_byte p01 -> is_byte p10 -> is_byte p11 -> is_byte q00 -> is_byte q01 -> is_byte q10 -> is_byte q11 ->
  fin X -> fin Y -> (0 <= val X <= 1)%R -> (0 <= val Y <= 1)%R -> fin X' -> fin Y' -> val X' = val X -> val Y' = val Y ->
  p00 <= q00 -> p01 <= q01 -> p10 <= q10 -> p11 <= q11 ->
  linear_mix p00 p01 p10 p11 X Y <= linear_mix q00 q01 q10 q11 X' Y'.
Proof.
  intros. rewrite (linear_mix_val p00), (linear_mix_val q00) by (assumption || congruence). rewrite H13, H14.
  apply Z.min_le_compat_l, Z.max_le_compat_l, Ztrunc_le, Rle_min_compat_l, Rle_max_compat_l, IZR_le, rhaz_le.
  apply mixr_le; [apply mixr_le| apply mixr_le |]; try apply IZR_le; assumption.
Qed.

(** ** Images *)
Lemma mono_l sin a b o c : resizable o a -> resizable o b -> r_algo o <> Lanczos3 ->
  (r_algo o = Bilinear -> inside (r_sw o) (r_dw o) /\ inside (r_sh o) (r_dh o)) ->
  let bpp := bytes_per_pixel (r_ct o) in 0 <= c < bpp ->
  (forall x y, 0 <= x < r_sw o -> 0 <= y < r_sh o -> px a (r_sw o) bpp x y c <= px b (r_sw o) bpp x y c) ->
  exists out_a out_b, resize sin a o = Ok out_a /\ resize sin b o = Ok out_b /\
    forall x y, 0 <= x < r_dw o -> 0 <= y < r_dh o -> px out_a (r_dw o) bpp x y c <= px out_b (r_dw o) bpp x y c.
Proof.
  intros RA RB NL IN bpp C LE. rewrite !resize_run by assumption. unfold run.
  destruct RA as (H1 & H2 & H3 & H4 & HA & LA). destruct RB as (_ & _ & _ & _ & HB & LB). fold bpp in LA, LB |- *.
  assert (1 <= bpp) as HP by (unfold bpp; destruct (r_ct o); cbn; lia).
  destruct (r_algo o) eqn:A; [| |congruence].
  - destruct (nearest_paint a (r_sw o) (r_sh o) (r_dw o) (r_dh o) bpp) as (oa & Ea & _ & _ & Pa); auto.
    destruct (nearest_paint b (r_sw o) (r_sh o) (r_dw o) (r_dh o) bpp) as (ob & Eb & _ & _ & Pb); auto.
    exists oa, ob. split; [exact Ea|]. split; [exact Eb|]. intros x y X Y. rewrite Pa, Pb by assumption. apply LE; apply nearest_range; assumption.
  - destruct (IN eq_refl) as [I1 I2].
    destruct (bilinear_paint a (r_sw o) (r_sh o) (r_dw o) (r_dh o) bpp) as (oa & Ea & _ & _ & Pa); auto.
    destruct (bilinear_paint b (r_sw o) (r_sh o) (r_dw o) (r_dh o) bpp) as (ob & Eb & _ & _ & Pb); auto.
    exists oa, ob. split; [exact Ea|]. split; [exact Eb|]. intros x y X Y.
    destruct (Pa x y c X Y C) as (xf & yf & F1 & F2 & B1 & B2 & V1 & V2 & ->).
    destruct (Pb x y c X Y C) as (xf' & yf' & F1' & F2' & B1' & B2' & V1' & V2' & ->).
    destruct (bx0_in (r_sw o) (r_dw o)) with (x := x) as [KX _]; auto. destruct (by0_in (r_sh o) (r_dh o)) with (y := y) as [KY _]; auto.
    unfold bx1, by1 in *.
    apply linear_mix_le; auto; try (apply znth_byte; assumption); try congruence; apply LE; lia.
Qed.
Lemma channel_l sin a b o c : resizable o a -> resizable o b -> r_algo o <> Lanczos3 ->
  (r_algo o = Bilinear -> inside (r_sw o) (r_dw o) /\ inside (r_sh o) (r_dh o)) ->
  let bpp := bytes_per_pixel (r_ct o) in 0 <= c < bpp ->
  (forall x y, 0 <= x < r_sw o -> 0 <= y < r_sh o -> px a (r_sw o) bpp x y c = px b (r_sw o) bpp x y c) ->
  exists out_a out_b, resize sin a o = Ok out_a /\ resize sin b o = Ok out_b /\
    forall x y, 0 <= x < r_dw o -> 0 <= y < r_dh o -> px out_a (r_dw o) bpp x y c = px out_b (r_dw o) bpp x y c.
Proof.
  intros RA RB NL IN bpp C EQ.
  destruct (mono_l sin a b o c RA RB NL IN C) as (oa & ob & Ea & Eb & L1). { intros x y X Y. fold bpp. rewrite EQ by assumption. lia. }
  destruct (mono_l sin b a o c RB RA NL IN C) as (ob' & oa' & Eb' & Ea' & L2). { intros x y X Y. fold bpp. rewrite EQ by assumption. lia. }
  rewrite Ea in Ea'. rewrite Eb in Eb'. injection Ea' as <-. injection Eb' as <-.
  exists oa, ob. split; [exact Ea|]. split; [exact Eb|]. intros x y X Y. apply Z.le_antisymm; [apply L1|apply L2]; assumption.
Qed.
