(** The AVX2 colour conversion, pixel by pixel. *)
From Coq Require Import Reals Lra.
From Verif Require Import Base JpegBaseModel JpegDecModel JpegBaseProofs F32Model F32Proofs SimdModel SimdDct SimdColorModel SimdColorSpec.
Local Open Scope Z_scope.

(** what one pixel becomes *)
Definition pixel_ycc (r g b : Z) : Z * Z * Z :=
  ((19595 * r + 38470 * g + 7471 * b + 32768) / 65536 - 128,
   (-11056 * r - 21712 * g + 32768 * b + 32768) / 65536,
   (32768 * r - 27440 * g - 5328 * b + 32768) / 65536).
Lemma minus_128 n : Z.abs n <= 1000 -> fin (f_sub (f_of_Z n) (f_of_Z 128)) /\ val (f_sub (f_of_Z n) (f_of_Z 128)) = IZR (n - 128).
Proof.
  intros H. destruct (of_Z_exact n ltac:(lia)) as [F1 E1]. destruct (of_Z_exact 128 ltac:(lia)) as [F2 E2].
  assert (V : (val (f_of_Z n) - val (f_of_Z 128))%R = IZR (n - 128)) by (rewrite E1, E2, minus_IZR; reflexivity).
  destruct (sub_ok (f_of_Z n) (f_of_Z 128) F1 F2) as [F E].
  - rewrite V. rewrite (rnd_fmt (IZR (n - 128))) by (apply fmt_Z; lia). rewrite <- abs_IZR. apply Rle_lt_trans with (IZR (2 ^ 24)); [apply IZR_le; lia|].
    change (IZR (2 ^ 24)) with (Flocq.Core.Raux.bpow Flocq.Core.Zaux.radix2 24). apply bpow_lt. lia.
  - split; [exact F|]. rewrite E, V. apply rnd_fmt, fmt_Z. lia.
Qed.
Lemma weighted_lane cr cg cb r g b i x y z : r i = x -> g i = y -> b i = z -> is_byte x -> is_byte y -> is_byte z ->
  Z.abs cr <= 40000 -> Z.abs cg <= 40000 -> Z.abs cb <= 40000 ->
  signed 32 (weighted cr cg cb r g b i) = (cr * x + cg * y + cb * z + 32768) / 65536.
Proof.
  intros Er Eg Eb Hx Hy Hz H1 H2 H3. unfold weighted, vsrai, vadd, vmullo32, vset1. rewrite Er, Eg, Eb. unfold is_byte in *.
  assert (M : forall c v, wrap 32 (wrap 32 c * v) = wrap 32 (c * v)) by (intros c v; unfold wrap; rewrite Z.mul_mod_idemp_l by lia; reflexivity).
  rewrite !M. set (s := cr * x + cg * y + (cb * z + 32768)).
  assert (WA : forall a c, wrap 32 (wrap 32 a + c) = wrap 32 (a + c)) by (intros a c; unfold wrap; apply Zplus_mod_idemp_l).
  assert (WB : forall a c, wrap 32 (a + wrap 32 c) = wrap 32 (a + c)) by (intros a c; unfold wrap; apply Zplus_mod_idemp_r).
  assert (WC : wrap 32 (wrap 32 (wrap 32 (cr * x) + wrap 32 (cg * y)) + wrap 32 (wrap 32 (cb * z) + 32768)) = wrap 32 s).
  { rewrite WA, WB. rewrite <- Z.add_assoc, WA. rewrite (Z.add_comm (wrap 32 (cg * y))), Z.add_assoc, WB.
    replace (cr * x + (wrap 32 (cb * z) + 32768) + cg * y) with (wrap 32 (cb * z) + (cr * x + 32768 + cg * y)) by ring. rewrite WA. f_equal. subst s. ring. }
  rewrite WC.
  assert (R : - 2 ^ 31 <= s < 2 ^ 31) by (change (2 ^ 31) with 2147483648; subst s; nia).
  rewrite (signed_wrap32 s R). rewrite Z.shiftr_div_pow2 by lia. change (2 ^ 16) with 65536.
  rewrite signed_wrap32 by (change (2 ^ 31) with 2147483648 in *; Z.to_euclidean_division_equations; lia). f_equal. subst s. lia.
Qed.
Lemma pixel_bounds r g b : is_byte r -> is_byte g -> is_byte b ->
  0 <= (19595 * r + 38470 * g + 7471 * b + 32768) / 65536 <= 255 /\ -128 <= (-11056 * r + -21712 * g + 32768 * b + 32768) / 65536 <= 128 /\
  -128 <= (32768 * r + -27440 * g + -5328 * b + 32768) / 65536 <= 128.
Proof. unfold is_byte. intros Hr Hg Hb. Z.to_euclidean_division_equations; lia. Qed.
Lemma triple_ok r g b : is_byte r -> is_byte g -> is_byte b ->
  triple_is (f_sub (f_of_Z ((19595 * r + 38470 * g + 7471 * b + 32768) / 65536)) (f_of_Z 128),
    f_of_Z ((-11056 * r + -21712 * g + 32768 * b + 32768) / 65536), f_of_Z ((32768 * r + -27440 * g + -5328 * b + 32768) / 65536)) (pixel_ycc r g b).
Proof.
  intros Hr Hg Hb. destruct (pixel_bounds r g b Hr Hg Hb) as (B1 & B2 & B3). unfold triple_is, pixel_ycc.
  replace (-11056 * r - 21712 * g) with (-11056 * r + -21712 * g) by lia. replace (32768 * r - 27440 * g - 5328 * b) with (32768 * r + -27440 * g + -5328 * b) by lia.
  split; [apply minus_128; lia|]. split; apply of_Z_exact; lia.
Qed.
Lemma ycc1_ok r g b : is_byte r -> is_byte g -> is_byte b -> exists p, ycc1 r g b = Ok p /\ triple_is p (pixel_ycc r g b).
Proof.
  intros Hr Hg Hb. eexists. split; [|apply triple_ok; auto]. unfold ycc1. unfold is_byte in *.
  assert (LIN : forall a c d, Z.abs a <= 40000 -> Z.abs c <= 40000 -> Z.abs d <= 40000 ->
    (let* x := i32 (a * r) in let* y := i32 (c * g) in let* z := i32 (d * b) in
     let* s := i32 (x + y) in let* s := i32 (s + z) in let* s := i32 (s + 32768) in Ok (Z.shiftr s 16)) = Ok ((a * r + c * g + d * b + 32768) / 65536)).
  { intros a c d Ha Hc Hd. assert (forall v, -40000000 <= v <= 40000000 -> i32 v = Ok v) as I by (intros v Hv; apply i32_ok; change (2 ^ 31) with 2147483648; lia).
    rewrite (I (a * r)) by nia. cbn [rbind]. rewrite (I (c * g)) by nia. cbn [rbind]. rewrite (I (d * b)) by nia. cbn [rbind].
    rewrite I by nia. cbn [rbind]. rewrite I by nia. cbn [rbind]. rewrite I by nia. cbn [rbind]. rewrite Z.shiftr_div_pow2 by lia. reflexivity. }
  cbv zeta. rewrite !LIN by lia. reflexivity.
Qed.
Definition pix (p : Z * Z * Z) : Z * Z * Z := let '(r, g, b) := p in pixel_ycc r g b.
Lemma ycc_tail_ok n : forall rgb, (length rgb <= n)%nat -> bytes rgb -> exists l, ycc_tail rgb = Ok l /\ Forall2 triple_is l (map pix (pixels rgb)).
Proof.
  induction n as [|n IH]; intros rgb HL HB; (destruct rgb as [|r [|g [|b rest]]]; [exists []; split; [reflexivity|constructor]..|]); cbn [length] in HL; [lia|].
  apply Forall_cons_iff in HB as [Hr HB]. apply Forall_cons_iff in HB as [Hg HB]. apply Forall_cons_iff in HB as [Hb HB].
  destruct (ycc1_ok r g b Hr Hg Hb) as (p & Ep & Tp). destruct (IH rest ltac:(lia) HB) as (l & El & Fl).
  exists (p :: l). cbn [ycc_tail pixels map pix]. rewrite Ep. cbn [rbind]. rewrite El. split; [reflexivity|]. constructor; auto.
Qed.
Lemma eight_bytes (rgb : list Z) : (24 <= length rgb)%nat -> exists a, length a = 24%nat /\ rgb = a ++ skipn 24 rgb.
Proof. intros H. exists (firstn 24 rgb). split; [apply firstn_length_le; exact H|symmetry; apply firstn_skipn]. Qed.
Lemma pixels_app n : forall a rest, length a = (3 * n)%nat -> pixels (a ++ rest) = pixels a ++ pixels rest.
Proof.
  induction n as [|n IH]; intros a rest H; [destruct a; [reflexivity|discriminate H]|].
  destruct a as [|r [|g [|b a]]]; cbn [length] in H; [lia..|]. cbn [app pixels]. rewrite IH by lia. reflexivity.
Qed.
Lemma pixels_nth n : forall a i, length a = (3 * n)%nat -> (i < n)%nat -> nth i (pixels a) (0, 0, 0) = (nth (3 * i) a 0, nth (3 * i + 1) a 0, nth (3 * i + 2) a 0).
Proof.
  induction n as [|n IH]; intros a i H Hi; [lia|]. destruct a as [|r [|g [|b a]]]; cbn [length] in H; [lia..|]. destruct i as [|i]; [reflexivity|].
  cbn [pixels]. replace (3 * S i)%nat with (S (S (S (3 * i)))) by lia. cbn [Nat.add nth]. rewrite IH by lia. reflexivity.
Qed.
Lemma pixels_len n : forall a, length a = (3 * n)%nat -> length (pixels a) = n.
Proof. induction n as [|n IH]; intros a H; [destruct a; [reflexivity|discriminate H]|]. destruct a as [|r [|g [|b a]]]; cbn [length] in H; [lia..|]. cbn [pixels length]. rewrite IH by lia. reflexivity. Qed.
Lemma ycc8_ok a rest : length a = 24%nat -> bytes a -> Forall2 triple_is (ycc8 (a ++ rest)) (map pix (pixels a)).
Proof.
  intros L HB. assert (K : map pix (pixels a) = map (fun i => pix (nth i (pixels a) (0, 0, 0))) (seq 0 8)).
  { rewrite <- (map_map (fun i => nth i (pixels a) (0, 0, 0)) pix). f_equal. apply (nth_ext _ _ (0, 0, 0) (0, 0, 0)).
    - rewrite map_length, seq_length. apply (pixels_len 8). exact L.
    - intros i Hi. rewrite (pixels_len 8 a L) in Hi. rewrite (nth_indep (map _ _) (0, 0, 0) ((fun i => nth i (pixels a) (0, 0, 0)) 0%nat)) by (rewrite map_length, seq_length; exact Hi).
      rewrite (map_nth (fun i => nth i (pixels a) (0, 0, 0))). rewrite seq_nth by exact Hi. reflexivity. }
  rewrite K. unfold ycc8. cbv zeta. clear K.
  assert (G : forall l, Forall (fun i => (i < 8)%nat) l -> Forall2 triple_is
    (map (fun i => (f_sub (cvt (weighted 19595 38470 7471 (deinterleave (a ++ rest) 0) (deinterleave (a ++ rest) 1) (deinterleave (a ++ rest) 2)) i) (f_of_Z 128),
      cvt (weighted (-11056) (-21712) 32768 (deinterleave (a ++ rest) 0) (deinterleave (a ++ rest) 1) (deinterleave (a ++ rest) 2)) i,
      cvt (weighted 32768 (-27440) (-5328) (deinterleave (a ++ rest) 0) (deinterleave (a ++ rest) 1) (deinterleave (a ++ rest) 2)) i)) l)
    (map (fun i => pix (nth i (pixels a) (0, 0, 0))) l)); [|apply G; apply Forall_forall; intros i Hi; apply in_seq in Hi; lia].
  induction l as [|i l IH]; intros HF; [constructor|]. apply Forall_cons_iff in HF as [Hi HF]. cbn [map]. constructor; [|apply IH; exact HF].
  rewrite (pixels_nth 8 a i L Hi). cbn [pix]. unfold cvt.
  assert (D : forall k, (k < 3)%nat -> deinterleave (a ++ rest) k i = nth (3 * i + k) a 0) by (intros k Hk; unfold deinterleave; apply app_nth1; lia).
  assert (Y : forall k, (k < 24)%nat -> is_byte (nth k a 0)) by (intros k Hk; unfold bytes in HB; rewrite Forall_forall in HB; apply HB, nth_In; lia).
  pose proof (D 0%nat ltac:(lia)) as D0. rewrite Nat.add_0_r in D0. pose proof (D 1%nat ltac:(lia)) as D1. pose proof (D 2%nat ltac:(lia)) as D2.
  pose proof (Y (3 * i)%nat ltac:(lia)) as Y0. pose proof (Y (3 * i + 1)%nat ltac:(lia)) as Y1. pose proof (Y (3 * i + 2)%nat ltac:(lia)) as Y2.
  rewrite (weighted_lane 19595 38470 7471 _ _ _ i _ _ _ D0 D1 D2 Y0 Y1 Y2) by lia.
  rewrite (weighted_lane (-11056) (-21712) 32768 _ _ _ i _ _ _ D0 D1 D2 Y0 Y1 Y2) by lia.
  rewrite (weighted_lane 32768 (-27440) (-5328) _ _ _ i _ _ _ D0 D1 D2 Y0 Y1 Y2) by lia.
  apply triple_ok; assumption.
Qed.
Lemma ycc_loop_ok f : forall rgb, (length rgb <= f)%nat -> bytes rgb -> exists l, ycc_loop f rgb = Ok l /\ Forall2 triple_is l (map pix (pixels rgb)).
Proof.
  induction f as [|f IH]; intros rgb HL HB; cbn [ycc_loop].
  - destruct rgb; [|cbn in HL; lia]. change (8 <=? zlen [] / 3) with false. cbv iota. apply (ycc_tail_ok 0); auto.
  - destruct (Z.leb_spec 8 (zlen rgb / 3)) as [G|G]; [|apply (ycc_tail_ok (S f)); auto].
    assert (L24 : (24 <= length rgb)%nat) by (unfold zlen in G; Z.to_euclidean_division_equations; lia).
    destruct (eight_bytes rgb L24) as (a & La & Ea).
    assert (HB2 : bytes a /\ bytes (skipn 24 rgb)) by (rewrite Ea in HB; apply Forall_app in HB; exact HB). destruct HB2 as [Ba Bs].
    destruct (IH (skipn 24 rgb)) as (l & El & Fl); [rewrite skipn_length; lia|exact Bs|].
    exists (ycc8 rgb ++ l). rewrite El. split; [reflexivity|]. rewrite Ea at 2. rewrite (pixels_app 8) by exact La. rewrite map_app.
    apply Forall2_app; [|exact Fl]. rewrite Ea. apply ycc8_ok; assumption.
Qed.
Lemma row_avx2 rgb : bytes rgb -> exists l, rgb_to_ycbcr_row_avx2 rgb = Ok l /\ Forall2 triple_is l (map pix (pixels rgb)).
Proof. intros H. apply ycc_loop_ok; [apply Nat.le_refl|exact H]. Qed.

(** ** against the scalar conversion and the exact weights *)
Lemma pixel_close r g b : is_byte r -> is_byte g -> is_byte b ->
  exists y cb cr, rgb_to_ycbcr r g b = Ok (y, cb, cr) /\ let '(a, c, d) := pixel_ycc r g b in
    Z.abs (a - (y - 128)) <= 1 /\ Z.abs (c - (cb - 128)) <= 1 /\ Z.abs (d - (cr - 128)) <= 1.
Proof.
  intros Hr Hg Hb. do 3 eexists. split; [apply rgb_to_ycbcr_ok; auto|]. unfold is_byte in *. unfold pixel_ycc.
  rewrite !clamp_spec by lia. repeat split; Z.to_euclidean_division_equations; lia.
Qed.
Lemma pixel_accurate r g b : is_byte r -> is_byte g -> is_byte b -> let '(a, c, d) := pixel_ycc r g b in
  -128 <= a <= 127 /\ -128 <= c <= 128 /\ -128 <= d <= 128 /\
  Z.abs (1000000 * (a + 128) - (299000 * r + 587000 * g + 114000 * b)) <= 503000 /\
  Z.abs (1000000 * c - (- 168736 * r - 331264 * g + 500000 * b)) <= 509000 /\
  Z.abs (1000000 * d - (500000 * r - 418688 * g - 81312 * b)) <= 504000.
Proof.
  intros Hr Hg Hb. unfold is_byte in *. unfold pixel_ycc. repeat split; Z.to_euclidean_division_equations; lia.
Qed.

Lemma forall2_map {A B C : Type} (P : A -> B -> Prop) (Q : C -> A -> Prop) (f : C -> B) : forall l m,
  (forall c a, In c m -> P a (f c) -> Q c a) -> Forall2 P l (map f m) -> Forall2 Q m l.
Proof.
  induction l as [|a l IH]; intros m H F; destruct m as [|c m]; inversion F; subst; constructor; [apply H; [left; reflexivity|assumption]|].
  apply IH; [|assumption]. intros c' a' Hin. apply H. right. exact Hin.
Qed.
Lemma pixels_bytes n : forall rgb, (length rgb <= n)%nat -> bytes rgb -> Forall (fun p => let '(r, g, b) := p in is_byte r /\ is_byte g /\ is_byte b) (pixels rgb).
Proof.
  induction n as [|n IH]; intros rgb HL HB; (destruct rgb as [|r [|g [|b rest]]]; [constructor..|]); cbn [length] in HL; [lia|].
  apply Forall_cons_iff in HB as [Hr HB]. apply Forall_cons_iff in HB as [Hg HB]. apply Forall_cons_iff in HB as [Hb HB].
  cbn [pixels]. constructor; [auto|]. apply IH; [lia|exact HB].
Qed.
Lemma row_from (Q : Z * Z * Z -> f32 * f32 * f32 -> Prop) :
  (forall r g b p, is_byte r -> is_byte g -> is_byte b -> triple_is p (pixel_ycc r g b) -> Q (r, g, b) p) ->
  forall rgb l, bytes rgb -> rgb_to_ycbcr_row_avx2 rgb = Ok l -> Forall2 Q (pixels rgb) l.
Proof.
  intros H rgb l HB E. destruct (row_avx2 rgb HB) as (l' & E' & F). rewrite E in E'. injection E' as <-.
  apply (forall2_map _ _ _ _ _) with (2 := F). intros [[r g] b] p Hin. pose proof (pixels_bytes _ rgb (le_n _) HB) as P. rewrite Forall_forall in P.
  destruct (P _ Hin) as (Hr & Hg & Hb). cbn [pix]. apply H; assumption.
Qed.
Lemma row_total rgb : bytes rgb -> exists l, rgb_to_ycbcr_row_avx2 rgb = Ok l.
Proof. intros H. destruct (row_avx2 rgb H) as (l & E & _). exists l. exact E. Qed.
Lemma row_near rgb l : bytes rgb -> rgb_to_ycbcr_row_avx2 rgb = Ok l -> Forall2 near_scalar (pixels rgb) l.
Proof.
  apply row_from. intros r g b [[fy fcb] fcr] Hr Hg Hb T. unfold near_scalar. intros y cb cr E.
  destruct (pixel_close r g b Hr Hg Hb) as (y' & cb' & cr' & E' & C). rewrite E in E'. injection E' as <- <- <-.
  destruct (pixel_ycc r g b) as [[a c] d] eqn:EP. exists a, c, d. split; [exact T|]. exact C.
Qed.
Lemma weights_R a r g b x y z k : Z.abs (1000000 * a - (x * r + y * g + z * b)) <= k ->
  (Rabs (IZR a - (IZR x / 1000000 * IZR r + IZR y / 1000000 * IZR g + IZR z / 1000000 * IZR b)) <= IZR k / 1000000)%R.
Proof.
  intros H. apply IZR_le in H. rewrite abs_IZR, minus_IZR, !plus_IZR, !mult_IZR in H. change (IZR 1000000) with 1000000%R in H.
  replace (IZR a - (IZR x / 1000000 * IZR r + IZR y / 1000000 * IZR g + IZR z / 1000000 * IZR b))%R
    with ((1000000 * IZR a - (IZR x * IZR r + IZR y * IZR g + IZR z * IZR b)) / 1000000)%R by field.
  unfold Rdiv at 1. rewrite Rabs_mult, (Rabs_right (/ 1000000)) by lra. unfold Rdiv. apply Rmult_le_compat_r; [lra|exact H].
Qed.
Lemma row_bt601 rgb l : bytes rgb -> rgb_to_ycbcr_row_avx2 rgb = Ok l -> Forall2 bt601_within (pixels rgb) l.
Proof.
  apply row_from. intros r g b [[fy fcb] fcr] Hr Hg Hb T. pose proof (pixel_accurate r g b Hr Hg Hb) as A.
  destruct (pixel_ycc r g b) as [[a c] d] eqn:EP. destruct A as (_ & _ & _ & A1 & A2 & A3). destruct T as [[_ Ty] [[_ Tc] [_ Td]]].
  unfold bt601_within. rewrite Ty, Tc, Td.
  pose proof (weights_R (a + 128) r g b 299000 587000 114000 _ A1) as W1. rewrite plus_IZR in W1.
  pose proof (weights_R c r g b (-168736) (-331264) 500000 509000 ltac:(lia)) as W2.
  pose proof (weights_R d r g b 500000 (-418688) (-81312) 504000 ltac:(lia)) as W3.
  split; [|split].
  - eapply Rle_trans; [|eapply Rle_trans; [exact W1|lra]]. right. f_equal. lra.
  - eapply Rle_trans; [|eapply Rle_trans; [exact W2|lra]]. right. f_equal. lra.
  - eapply Rle_trans; [|eapply Rle_trans; [exact W3|lra]]. right. f_equal. lra.
Qed.
