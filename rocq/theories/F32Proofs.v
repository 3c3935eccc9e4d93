(** Flocq's theorems about binary32, for [F32Model]. *)
From Coq Require Import Reals Lra.
From Flocq Require Import Core BinarySingleNaN.
From Verif Require Import Base F32Model.
Open Scope Z_scope.

Local Instance p24 : Prec_gt_0 24 := eq_refl.
Local Instance p24_128 : Prec_lt_emax 24 128 := eq_refl.
Notation fmt := (generic_format radix2 (FLT_exp (-149) 24)).
Notation rnd := (round radix2 (FLT_exp (-149) 24) ZnearestE).
(** a finite binary32 number and its value *)
Definition fin (x : f32) : Prop := valid_binary 24 128 x = true /\ is_finite_SF x = true.
Definition val (x : f32) : R := SF2R radix2 x.

Definition to_b (x : f32) (H : fin x) : binary_float 24 128 := SF2B x (proj1 H).
Lemma b_sf x H : B2SF (to_b x H) = x. Proof. apply B2SF_SF2B. Qed.
Lemma b_val x H : B2R (to_b x H) = val x. Proof. apply B2R_SF2B. Qed.
Lemma b_fin x H : is_finite (to_b x H) = true. Proof. unfold to_b. rewrite is_finite_SF2B. apply H. Qed.
Lemma fin_b (b : binary_float 24 128) : is_finite b = true -> fin (B2SF b).
Proof. intro H. split; [apply valid_binary_B2SF|]. rewrite is_finite_SF_B2SF. exact H. Qed.
Lemma val_b (b : binary_float 24 128) : val (B2SF b) = B2R b. Proof. apply SF2R_B2SF. Qed.

Lemma fin_fmt x : fin x -> fmt (val x).
Proof. intro H. rewrite <- (b_val x H). apply generic_format_B2R. Qed.
Lemma fin_lt x : fin x -> (Rabs (val x) < bpow radix2 128)%R.
Proof. intro H. rewrite <- (b_val x H). apply (abs_B2R_lt_emax 24 128). Qed.

(** SpecFloat's operations are Flocq's *)
Lemma ne_equiv s m l : round_nearest_even m l = choice_mode mode_NE s m l.
Proof. case l; [reflexivity|intro c]. case c; [|reflexivity..]. cbn. unfold Round.cond_incr. now case Z.even. Qed.
Lemma aux_equiv sx mx ex lx : SpecFloat.binary_round_aux 24 128 sx mx ex lx = BinarySingleNaN.binary_round_aux 24 128 mode_NE sx mx ex lx.
Proof.
  unfold SpecFloat.binary_round_aux, BinarySingleNaN.binary_round_aux. set (m := shr_fexp _ _ _ _ _). case m; intros mrs' e'; cbn.
  now rewrite (ne_equiv sx).
Qed.
Lemma round_equiv s m e : SpecFloat.binary_round 24 128 s m e = BinarySingleNaN.binary_round 24 128 mode_NE s m e.
Proof. unfold SpecFloat.binary_round, BinarySingleNaN.binary_round, shl_align_fexp. set (mez := shl_align _ _ _); case mez as [mz ez]. apply aux_equiv. Qed.
Lemma normalize_equiv m e sz : SpecFloat.binary_normalize 24 128 m e sz = B2SF (BinarySingleNaN.binary_normalize 24 128 p24 p24_128 mode_NE m e sz).
Proof. case m as [|p|p]; [reflexivity| |]; cbn; rewrite B2SF_SF2B; apply round_equiv. Qed.
Lemma add_equiv (x y : binary_float 24 128) : f_add (B2SF x) (B2SF y) = B2SF (Bplus mode_NE x y).
Proof.
  unfold f_add. case x as [sx|sx| |sx mx ex Bx]; case y as [sy|sy| |sy my ey By];
    try reflexivity; try (cbn; case Bool.eqb; reflexivity). apply normalize_equiv.
Qed.
Lemma sub_equiv (x y : binary_float 24 128) : f_sub (B2SF x) (B2SF y) = B2SF (Bminus mode_NE x y).
Proof.
  unfold f_sub. case x as [sx|sx| |sx mx ex Bx]; case y as [sy|sy| |sy my ey By];
    try reflexivity; try (cbn; case Bool.eqb; reflexivity). cbn. unfold Zminus. rewrite <- cond_Zopp_negb. apply normalize_equiv.
Qed.
Lemma mul_equiv (x y : binary_float 24 128) : f_mul (B2SF x) (B2SF y) = B2SF (Bmult mode_NE x y).
Proof.
  unfold f_mul. case x as [sx|sx| |sx mx ex Bx]; case y as [sy|sy| |sy my ey By]; try reflexivity.
  cbn. rewrite B2SF_SF2B. apply aux_equiv.
Qed.
Lemma div_equiv (x y : binary_float 24 128) : f_div (B2SF x) (B2SF y) = B2SF (Bdiv mode_NE x y).
Proof.
  unfold f_div. case x as [sx|sx| |sx mx ex Bx]; case y as [sy|sy| |sy my ey By];
    try reflexivity; try (cbn; case Bool.eqb; reflexivity).
  cbn. rewrite B2SF_SF2B. set (melz := SFdiv_core_binary _ _ _ _ _ _). case melz as [[mz ez] lz]. apply aux_equiv.
Qed.

Lemma rlt_true x y : (x < y)%R -> Rlt_bool x y = true. Proof. apply Rlt_bool_true. Qed.
Lemma add_ok x y : fin x -> fin y -> (Rabs (rnd (val x + val y)) < bpow radix2 128)%R ->
  fin (f_add x y) /\ val (f_add x y) = rnd (val x + val y).
Proof.
  intros Hx Hy HB. rewrite <- (b_sf x Hx), <- (b_sf y Hy), add_equiv.
  pose proof (Bplus_correct 24 128 p24 p24_128 mode_NE (to_b x Hx) (to_b y Hy) (b_fin x Hx) (b_fin y Hy)) as K.
  rewrite !b_val in K. change (round radix2 (SpecFloat.fexp 24 128) (round_mode mode_NE)) with rnd in K. rewrite (rlt_true _ _ HB) in K. destruct K as (K1 & K2 & _).
  rewrite !b_sf. split; [apply fin_b; exact K2|]. rewrite val_b. exact K1.
Qed.
Lemma sub_ok x y : fin x -> fin y -> (Rabs (rnd (val x - val y)) < bpow radix2 128)%R ->
  fin (f_sub x y) /\ val (f_sub x y) = rnd (val x - val y).
Proof.
  intros Hx Hy HB. rewrite <- (b_sf x Hx), <- (b_sf y Hy), sub_equiv.
  pose proof (Bminus_correct 24 128 p24 p24_128 mode_NE (to_b x Hx) (to_b y Hy) (b_fin x Hx) (b_fin y Hy)) as K.
  rewrite !b_val in K. change (round radix2 (SpecFloat.fexp 24 128) (round_mode mode_NE)) with rnd in K. rewrite (rlt_true _ _ HB) in K. destruct K as (K1 & K2 & _).
  rewrite !b_sf. split; [apply fin_b; exact K2|]. rewrite val_b. exact K1.
Qed.
Lemma mul_ok x y : fin x -> fin y -> (Rabs (rnd (val x * val y)) < bpow radix2 128)%R ->
  fin (f_mul x y) /\ val (f_mul x y) = rnd (val x * val y).
Proof.
  intros Hx Hy HB. rewrite <- (b_sf x Hx), <- (b_sf y Hy), mul_equiv.
  pose proof (Bmult_correct 24 128 p24 p24_128 mode_NE (to_b x Hx) (to_b y Hy)) as K.
  rewrite !b_val in K. change (round radix2 (SpecFloat.fexp 24 128) (round_mode mode_NE)) with rnd in K. rewrite (rlt_true _ _ HB) in K. destruct K as (K1 & K2 & _).
  rewrite !b_fin in K2. rewrite !b_sf. split; [apply fin_b; exact K2|]. rewrite val_b. exact K1.
Qed.
Lemma div_ok x y : fin x -> fin y -> val y <> 0%R -> (Rabs (rnd (val x / val y)) < bpow radix2 128)%R ->
  fin (f_div x y) /\ val (f_div x y) = rnd (val x / val y).
Proof.
  intros Hx Hy HN HB. rewrite <- (b_sf x Hx), <- (b_sf y Hy), div_equiv.
  pose proof (Bdiv_correct 24 128 p24 p24_128 mode_NE (to_b x Hx) (to_b y Hy)) as K.
  rewrite !b_val in K. specialize (K HN). change (round radix2 (SpecFloat.fexp 24 128) (round_mode mode_NE)) with rnd in K. rewrite (rlt_true _ _ HB) in K. destruct K as (K1 & K2 & _).
  rewrite !b_fin in K2. rewrite !b_sf. split; [apply fin_b; exact K2|]. rewrite val_b. exact K1.
Qed.
Lemma const_ok m e : (Rabs (rnd (F2R (Float radix2 m e))) < bpow radix2 128)%R ->
  fin (f_const m e) /\ val (f_const m e) = rnd (F2R (Float radix2 m e)).
Proof.
  intros HB. unfold f_const. rewrite normalize_equiv.
  pose proof (binary_normalize_correct 24 128 p24 p24_128 mode_NE m e false) as K. cbv zeta in K.
  change (round radix2 (SpecFloat.fexp 24 128) (round_mode mode_NE)) with rnd in K. rewrite (rlt_true _ _ HB) in K. destruct K as (K1 & K2 & _).
  split; [apply fin_b; exact K2|]. rewrite val_b. exact K1.
Qed.
Lemma lt_ok x y : fin x -> fin y -> f_lt x y = Rlt_bool (val x) (val y).
Proof.
  intros Hx Hy. unfold f_lt. rewrite <- (b_sf x Hx), <- (b_sf y Hy) at 1.
  pose proof (Bltb_correct 24 128 (to_b x Hx) (to_b y Hy) (b_fin x Hx) (b_fin y Hy)) as K. rewrite !b_val in K. exact K.
Qed.
Lemma ge_ok x y : fin x -> fin y -> f_ge x y = Rle_bool (val y) (val x).
Proof.
  intros Hx Hy. unfold f_ge. rewrite <- (b_sf x Hx), <- (b_sf y Hy) at 1.
  pose proof (Bleb_correct 24 128 (to_b y Hy) (to_b x Hx) (b_fin y Hy) (b_fin x Hx)) as K. rewrite !b_val in K. exact K.
Qed.

(** ** Bounds *)
Local Instance fmt_valid : Valid_exp (FLT_exp (-149) 24) := FLT_exp_valid (-149) 24.
Local Instance ne_valid : Valid_rnd ZnearestE := valid_rnd_N _.
Lemma rnd_le x y : (x <= y)%R -> (rnd x <= rnd y)%R. Proof. apply round_le; typeclasses eauto. Qed.
Lemma rnd_fmt x : fmt x -> rnd x = x. Proof. apply round_generic. typeclasses eauto. Qed.
Lemma fmt_rnd x : fmt (rnd x). Proof. apply generic_format_round; typeclasses eauto. Qed.
Lemma rnd_opp x : rnd (- x) = (- rnd x)%R. Proof. apply round_NE_opp. Qed.
Lemma fmt_F2R m e : Z.abs m < 2 ^ 24 -> -149 <= e -> fmt (F2R (Float radix2 m e)).
Proof. intros Hm He. apply generic_format_FLT. exists (Float radix2 m e); [reflexivity|exact Hm|exact He]. Qed.
Lemma fmt_Z n : Z.abs n <= 2 ^ 24 -> fmt (IZR n).
Proof.
  intro H. destruct (Z.eq_dec (Z.abs n) (2 ^ 24)) as [E|E].
  - assert (n = 2 ^ 24 \/ n = - 2 ^ 24) as [-> | ->] by lia.
    + change (IZR (2 ^ 24)) with (IZR (Zpower radix2 24)). rewrite IZR_Zpower by lia. apply generic_format_bpow'; [typeclasses eauto|]. vm_compute. discriminate.
    + rewrite opp_IZR. apply generic_format_opp. change (IZR (2 ^ 24)) with (IZR (Zpower radix2 24)). rewrite IZR_Zpower by lia. apply generic_format_bpow'; [typeclasses eauto|]. vm_compute. discriminate.
  - replace (IZR n) with (F2R (Float radix2 n 0)) by (unfold F2R; cbn; lra). apply fmt_F2R; lia.
Qed.
Lemma fmt_bpow k : -149 <= k -> fmt (bpow radix2 k).
Proof. intro H. apply generic_format_bpow. unfold FLT_exp. lia. Qed.
(** a result whose exact value is bounded by a representable number is bounded
    by it *)
Lemma rnd_bound x B : fmt B -> (Rabs x <= B)%R -> (Rabs (rnd x) <= B)%R.
Proof.
  intros HB H. apply Rabs_le. apply Rabs_le_inv in H. destruct H as [H1 H2]. apply rnd_le in H1, H2.
  rewrite rnd_opp, (rnd_fmt B HB) in H1. rewrite (rnd_fmt B HB) in H2. split; assumption.
Qed.
Lemma add_bound x y B : fin x -> fin y -> fmt B -> (Rabs (val x + val y) <= B)%R -> (B < bpow radix2 128)%R ->
  fin (f_add x y) /\ val (f_add x y) = rnd (val x + val y) /\ (Rabs (val (f_add x y)) <= B)%R.
Proof.
  intros Hx Hy HB H HL. pose proof (rnd_bound _ B HB H) as K. destruct (add_ok x y Hx Hy ltac:(lra)) as [F E]. rewrite E. auto.
Qed.
Lemma sub_bound x y B : fin x -> fin y -> fmt B -> (Rabs (val x - val y) <= B)%R -> (B < bpow radix2 128)%R ->
  fin (f_sub x y) /\ val (f_sub x y) = rnd (val x - val y) /\ (Rabs (val (f_sub x y)) <= B)%R.
Proof.
  intros Hx Hy HB H HL. pose proof (rnd_bound _ B HB H) as K. destruct (sub_ok x y Hx Hy ltac:(lra)) as [F E]. rewrite E. auto.
Qed.
Lemma mul_bound x y B : fin x -> fin y -> fmt B -> (Rabs (val x * val y) <= B)%R -> (B < bpow radix2 128)%R ->
  fin (f_mul x y) /\ val (f_mul x y) = rnd (val x * val y) /\ (Rabs (val (f_mul x y)) <= B)%R.
Proof.
  intros Hx Hy HB H HL. pose proof (rnd_bound _ B HB H) as K. destruct (mul_ok x y Hx Hy ltac:(lra)) as [F E]. rewrite E. auto.
Qed.
Lemma div_bound x y B : fin x -> fin y -> val y <> 0%R -> fmt B -> (Rabs (val x / val y) <= B)%R -> (B < bpow radix2 128)%R ->
  fin (f_div x y) /\ val (f_div x y) = rnd (val x / val y) /\ (Rabs (val (f_div x y)) <= B)%R.
Proof.
  intros Hx Hy HN HB H HL. pose proof (rnd_bound _ B HB H) as K. destruct (div_ok x y Hx Hy HN ltac:(lra)) as [F E]. rewrite E. auto.
Qed.
Lemma of_Z_bound n B : fmt B -> (Rabs (IZR n) <= B)%R -> (B < bpow radix2 128)%R ->
  fin (f_of_Z n) /\ val (f_of_Z n) = rnd (IZR n) /\ (Rabs (val (f_of_Z n)) <= B)%R.
Proof.
  intros HB H HL. pose proof (rnd_bound _ B HB H) as K.
  assert (F2R (Float radix2 n 0) = IZR n) as EN by (unfold F2R; cbn; lra).
  destruct (const_ok n 0) as [F E]; [rewrite EN; lra|]. rewrite EN in E. unfold f_of_Z. unfold f_const in *. rewrite E. auto.
Qed.
Lemma bpow_lt a b : a < b -> (bpow radix2 a < bpow radix2 b)%R. Proof. apply bpow_lt. Qed.
Lemma of_Z_exact n : Z.abs n <= 2 ^ 24 -> fin (f_of_Z n) /\ val (f_of_Z n) = IZR n.
Proof.
  intro H. destruct (of_Z_bound n (bpow radix2 24)) as (F & E & _).
  - apply fmt_bpow. lia.
  - rewrite <- abs_IZR. change (bpow radix2 24) with (IZR (2 ^ 24)). apply IZR_le. exact H.
  - apply bpow_lt. lia.
  - split; [exact F|]. rewrite E. apply rnd_fmt, fmt_Z, H.
Qed.
Lemma fin_zero : fin f_zero. Proof. split; reflexivity. Qed.
Lemma val_zero : val f_zero = 0%R. Proof. reflexivity. Qed.
Lemma fin_max : fin f_max. Proof. split; reflexivity. Qed.
Lemma val_max : val f_max = F2R (Float radix2 16777215 104). Proof. reflexivity. Qed.

(** truncation *)
Lemma trunc_ok x : fin x -> f_trunc x = Ztrunc (val x).
Proof.
  intros [_ F]. destruct x as [s|s| |s m e]; try discriminate F; [cbn; symmetry; apply (Ztrunc_IZR 0)|].
  unfold f_trunc, val, SF2R. clear F.
  assert (Ztrunc (F2R (Float radix2 (Zpos m) e)) = if 0 <=? e then Zpos m * 2 ^ e else Zpos m / 2 ^ (- e)) as K.
  { destruct (Z.leb_spec 0 e) as [He|He].
    - unfold F2R. cbn [Fnum Fexp]. rewrite <- IZR_Zpower by lia. rewrite <- mult_IZR. apply Ztrunc_IZR.
    - rewrite Ztrunc_floor by (apply F2R_ge_0; cbn; lia). unfold F2R. cbn [Fnum Fexp].
      replace (bpow radix2 e) with (/ IZR (2 ^ (- e)))%R.
      + apply Zfloor_div. lia.
      + replace e with (- - e) at 2 by lia. rewrite bpow_opp. f_equal. change 2 with (radix_val radix2). apply IZR_Zpower. lia. }
  destruct s; cbn [cond_Zopp].
  - rewrite F2R_Zopp. rewrite Ztrunc_opp, K. reflexivity.
  - symmetry. exact K.
Qed.
Lemma to_Z_ok lo hi x : lo <= 0 <= hi -> fin x -> f_to_Z lo hi x = Z.min hi (Z.max lo (Ztrunc (val x))).
Proof.
  intros HR F. destruct x as [s|s| |s m e]; try (destruct F as [_ F]; discriminate F).
  - cbn. rewrite (Ztrunc_IZR 0). lia.
  - unfold f_to_Z. rewrite (trunc_ok _ F). reflexivity.
Qed.
