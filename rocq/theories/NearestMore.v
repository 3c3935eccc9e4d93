(** Nearest neighbour resizing: rows and columns, and one enlargement after another. *)
From Coq Require Import Lia.
From Verif Require Import Base PngFilterModel PngPaletteModel F32Model ResizeModel ResizeSpec ResizeProofs ResizeTop NearestProofs NearestMoreSpec.
Open Scope Z_scope.

Lemma turned_l sin a b o : resizable o a -> resizable (turned o) b -> r_algo o = Nearest ->
  let bpp := bytes_per_pixel (r_ct o) in transposed a b (r_sw o) (r_sh o) bpp ->
  exists out_a out_b, resize sin a o = Ok out_a /\ resize sin b (turned o) = Ok out_b /\ transposed out_a out_b (r_dw o) (r_dh o) bpp.
Proof.
  intros RA RB A bpp T. rewrite !resize_run by assumption. unfold run. cbn [turned r_sw r_sh r_dw r_dh r_ct r_algo]. rewrite A. fold bpp.
  destruct RA as (H1 & H2 & H3 & H4 & BA & LA). destruct RB as (_ & _ & _ & _ & BB & LB). cbn [turned r_sw r_sh r_dw r_dh r_ct] in LB. fold bpp in LA, LB.
  assert (1 <= bpp) as HP by (unfold bpp; destruct (r_ct o); cbn; lia).
  destruct (nearest_paint a (r_sw o) (r_sh o) (r_dw o) (r_dh o) bpp) as (oa & Ea & _ & _ & Pa); auto.
  destruct (nearest_paint b (r_sh o) (r_sw o) (r_dh o) (r_dw o) bpp) as (ob & Eb & _ & _ & Pb); auto.
  exists oa, ob. split; [exact Ea|]. split; [exact Eb|]. intros x y c X Y C. rewrite Pa, Pb by assumption.
  change (nx (r_sh o) (r_dh o) y) with (ny (r_sh o) (r_dh o) y). change (ny (r_sw o) (r_dw o) x) with (nx (r_sw o) (r_dw o) x).
  apply T; [apply nearest_range|apply nearest_range|]; assumption.
Qed.
Lemma twice_l sin data sw sh kx ky lx ly ct : resizable (mkR sw sh (sw * (kx * lx)) (sh * (ky * ly)) ct Nearest) data ->
  1 <= kx -> 1 <= ky -> 1 <= lx -> 1 <= ly -> sw * (kx * lx) < 2 ^ 20 -> sh * (ky * ly) < 2 ^ 20 ->
  exists mid big, resize sin data (mkR sw sh (sw * kx) (sh * ky) ct Nearest) = Ok mid /\
    resize sin mid (mkR (sw * kx) (sh * ky) (sw * (kx * lx)) (sh * (ky * ly)) ct Nearest) = Ok big /\
    resize sin data (mkR sw sh (sw * (kx * lx)) (sh * (ky * ly)) ct Nearest) = Ok big.
Proof.
  intros R KX KY LX LY BX BY. pose proof R as (R1 & R2 & R3 & R4 & R5 & R6). cbn [r_sw r_sh r_dw r_dh r_ct] in *.
  assert (kx <= kx * lx) by nia. assert (ky <= ky * ly) by nia.
  assert (1 <= sw * kx <= sw * (kx * lx)) as [MX1 MX2] by nia. assert (1 <= sh * ky <= sh * (ky * ly)) as [MY1 MY2] by nia.
  destruct R1 as [R1a R1b]. destruct R2 as [R2a R2b]. destruct R3 as [R3a R3b]. destruct R4 as [R4a R4b].
  assert (sw * kx <= 2 ^ 24) as MX3 by (apply Z.le_trans with (1 := MX2); assumption). assert (sh * ky <= 2 ^ 24) as MY3 by (apply Z.le_trans with (1 := MY2); assumption).
  assert (resizable (mkR sw sh (sw * kx) (sh * ky) ct Nearest) data) as RM by (unfold resizable; cbn [r_sw r_sh r_dw r_dh r_ct]; repeat split; assumption).
  destruct (upscale_l sin data sw sh kx ky ct RM KX KY) as (mid & E1 & B1 & L1 & P1); [apply Z.le_lt_trans with (1 := MX2); assumption|apply Z.le_lt_trans with (1 := MY2); assumption|].
  assert (1 <= kx * lx) as K1 by nia. assert (1 <= ky * ly) as K2 by nia.
  destruct (upscale_l sin data sw sh (kx * lx) (ky * ly) ct R K1 K2 BX BY) as (big & E3 & B3 & L3 & P3).
  assert (sw * (kx * lx) = sw * kx * lx) as AX by ring. assert (sh * (ky * ly) = sh * ky * ly) as AY by ring. rewrite AX, AY in *.
  assert (resizable (mkR (sw * kx) (sh * ky) (sw * kx * lx) (sh * ky * ly) ct Nearest) mid) as R' by (unfold resizable; cbn [r_sw r_sh r_dw r_dh r_ct]; repeat split; assumption).
  destruct (upscale_l sin mid (sw * kx) (sh * ky) lx ly ct R' LX LY BX BY) as (big' & E2 & B2 & L2 & P2).
  exists mid, big'. split; [exact E1|]. split; [exact E2|]. rewrite E3. f_equal.
  assert (1 <= bytes_per_pixel ct) as Bp by (destruct ct; cbn; discriminate).
  apply (NearestProofs.px_ext big big' (sw * kx * lx) (sh * ky * ly) (bytes_per_pixel ct)); [assumption|assumption|exact L3|exact L2|]. intros x y c X Y C.
  assert (forall n k l z, 1 <= l -> 0 <= z < n * k * l -> 0 <= z / l < n * k) as D by (intros n k l z Hl Hz; split; [apply Z.div_pos; lia|apply Z.div_lt_upper_bound; [lia|rewrite (Z.mul_comm l); lia]]).
  rewrite P3, P2 by assumption. rewrite P1; [|apply D; assumption|apply D; assumption|assumption].
  rewrite !Z.div_div by lia. rewrite (Z.mul_comm lx), (Z.mul_comm ly). reflexivity.
Qed.
