(** The vector filters, scores and match lengths equal the scalar ones. *)
From Verif Require Import Base DeflateSpec Lz77Spec Lz77Model Lz77Proofs PngFilterModel PngSpec PngFilterProofs SimdModel.

(** ** Loops *)
Definition zseq (s : Z) (n : nat) : list Z := map (fun k => s + Z.of_nat k) (seq 0 n).
Lemma seq_off a b : seq a b = map (Nat.add a) (seq 0 b).
Proof. induction a as [|a IH]; [symmetry; apply map_id|]. rewrite <- seq_shift, IH, map_map. reflexivity. Qed.
Lemma zseq_app s a b : zseq s (a + b) = zseq s a ++ zseq (s + Z.of_nat a) b.
Proof. unfold zseq. rewrite seq_app, map_app. f_equal. cbn [Nat.add]. rewrite (seq_off a), map_map. apply map_ext. intros; lia. Qed.
Lemma zseq_0 n : zseq 0 n = idxs n.
Proof. unfold zseq, idxs. apply map_ext. intros; lia. Qed.
Lemma zseq_S s n : zseq s (S n) = s :: zseq (s + 1) n.
Proof. change (S n) with (1 + n)%nat. rewrite zseq_app. change (zseq s 1) with [s + 0]. rewrite Z.add_0_r. reflexivity. Qed.
Lemma idxs_split a b : idxs (a + b) = idxs a ++ zseq (Z.of_nat a) b.
Proof. rewrite <- !zseq_0, zseq_app. reflexivity. Qed.
Lemma in_zseq s n x : In x (zseq s n) <-> s <= x < s + Z.of_nat n.
Proof.
  unfold zseq. rewrite in_map_iff. split.
  - intros (k & <- & Hk%in_seq). lia.
  - intros H. exists (Z.to_nat (x - s)). rewrite in_seq. split; lia.
Qed.

Lemma tail_loop_ok fuel one g i len : (forall j, i <= j < len -> one j = Ok (g j)) -> len - i <= Z.of_nat fuel ->
  tail_loop fuel one i len = Ok (map g (zseq i (Z.to_nat (len - i)))).
Proof.
  revert i; induction fuel as [|f IH]; intros i H Hf; cbn [tail_loop]; destruct (Z.ltb_spec i len); try lia; cbn [negb].
  - replace (Z.to_nat (len - i)) with 0%nat by lia. reflexivity.
  - rewrite H by lia. cbn [rbind]. rewrite IH by (try lia; intros; apply H; lia). cbn [rbind].
    replace (Z.to_nat (len - i)) with (S (Z.to_nat (len - (i + 1)))) by lia. rewrite zseq_S. reflexivity.
  - replace (Z.to_nat (len - i)) with 0%nat by lia. reflexivity.
Qed.
Lemma vec_loop_ok fuel n blk one g s i len : 0 < n -> 0 <= s <= i -> i <= len ->
  (forall j, s <= j -> j + n <= len -> blk j = Ok (map g (zseq j (Z.to_nat n)))) ->
  (forall j, s <= j < len -> one j = Ok (g j)) -> len - i <= Z.of_nat fuel ->
  vec_loop fuel n blk one i len = Ok (map g (zseq i (Z.to_nat (len - i)))).
Proof.
  intros Hn. revert i; induction fuel as [|f IH]; intros i Hs Hl Hb Ho Hf; cbn [vec_loop]; destruct (Z.leb_spec (i + n) len); try lia; cbn [negb];
    try (apply tail_loop_ok; [intros; apply Ho; lia|lia]).
  rewrite Hb by lia. cbn [rbind]. rewrite IH by (auto; lia). cbn [rbind]. rewrite <- map_app.
  replace (Z.to_nat (len - i)) with (Z.to_nat n + Z.to_nat (len - (i + n)))%nat by lia.
  rewrite zseq_app, Z2Nat.id by lia. reflexivity.
Qed.

(** ** Loads and lanes *)
Lemma vload_ok n l off : 0 <= n -> 0 <= off -> off + n <= zlen l ->
  exists v, vload n l off = Ok v /\ forall k, (k < Z.to_nat n)%nat -> v k = znth l (off + Z.of_nat k).
Proof.
  intros Hn Ho Hl. unfold vload. rewrite slice_r_ok by lia. cbn [rbind]. eexists; split; [reflexivity|]. intros k Hk. cbn beta.
  rewrite <- (slice_nth l off (off + n) (Z.of_nat k)) by lia. rewrite Nat2Z.id. reflexivity.
Qed.
Lemma vstore_map (f : vec) g i n : (forall k, (k < n)%nat -> f k = g (i + Z.of_nat k)) -> vstore n f = map g (zseq i n).
Proof. intros H. unfold vstore, zseq. rewrite map_map. apply map_ext_in. intros k Hk%in_seq. apply H. lia. Qed.

Lemma signed_small w x : 0 < w -> 0 <= x < 2 ^ (w - 1) -> signed w x = x.
Proof. intros Hw H. unfold signed. destruct (Z.ltb_spec x (2 ^ (w - 1))); lia. Qed.
Lemma znth_byte l i : bytes l -> is_byte (znth l i).
Proof. intros H. apply (Forall_nth_d is_byte); auto. unfold is_byte; lia. Qed.

Definition ext8 (f : vec -> vec -> vec) (x : vec) : vec := vjoin 8 (f x (vset1 0)).
Lemma unpack_ext hi x m : (hi = 0 \/ hi = 8)%nat -> ext8 (vunpack hi) x m = x (16 * (m / 8) + hi + m mod 8)%nat.
Proof.
  intros Hh. unfold ext8, vjoin, vunpack, vset1.
  pose proof (Nat.div_mod m 8 ltac:(lia)) as E. pose proof (Nat.mod_upper_bound m 8 ltac:(lia)) as B.
  set (k := (m / 8)%nat) in *. set (j := (m mod 8)%nat) in *.
  assert ((2 * m / 16 = k)%nat) as -> by (symmetry; apply (Nat.div_unique _ 16 k (2 * j)); lia).
  assert ((2 * m mod 16 = 2 * j)%nat) as -> by (symmetry; apply (Nat.mod_unique _ 16 k (2 * j)); lia).
  assert (((2 * m + 1) mod 16 = 2 * j + 1)%nat) as -> by (symmetry; apply (Nat.mod_unique _ 16 k (2 * j + 1)); lia).
  rewrite Nat.even_add, Nat.even_mul. cbn [Nat.even orb eqb].
  rewrite (Nat.mul_comm 2 j), Nat.div_mul by lia. lia.
Qed.
(** widening, a lane-wise operation on the 16-bit lanes, and packing act on each byte *)
Lemma pack_lane (f : vec -> vec) (g : Z -> Z) (lo hi : vec) i :
  vpackus16 lo hi i = sat_u8 (if (i mod 16 <? 8)%nat then lo (8 * (i / 16) + i mod 16)%nat else hi (8 * (i / 16) + (i mod 16 - 8))%nat).
Proof. reflexivity. Qed.
Lemma ext_lo_at x i : (i mod 16 < 8)%nat -> ext8 vunpacklo8 x (8 * (i / 16) + i mod 16)%nat = x i.
Proof.
  intros H. unfold vunpacklo8. rewrite unpack_ext by auto. f_equal. pose proof (Nat.div_mod i 16 ltac:(lia)) as E.
  set (k := (i / 16)%nat) in *. set (j := (i mod 16)%nat) in *.
  assert (((8 * k + j) / 8 = k)%nat) as -> by (symmetry; apply (Nat.div_unique _ 8 k j); lia).
  assert (((8 * k + j) mod 8 = j)%nat) as -> by (symmetry; apply (Nat.mod_unique _ 8 k j); lia). lia.
Qed.
Lemma ext_hi_at x i : (8 <= i mod 16)%nat -> ext8 vunpackhi8 x (8 * (i / 16) + (i mod 16 - 8))%nat = x i.
Proof.
  intros H. unfold vunpackhi8. rewrite unpack_ext by auto. f_equal. pose proof (Nat.div_mod i 16 ltac:(lia)) as E. pose proof (Nat.mod_upper_bound i 16 ltac:(lia)).
  set (k := (i / 16)%nat) in *. set (j := (i mod 16)%nat) in *.
  assert (((8 * k + (j - 8)) / 8 = k)%nat) as -> by (symmetry; apply (Nat.div_unique _ 8 k (j - 8)); lia).
  assert (((8 * k + (j - 8)) mod 8 = j - 8)%nat) as -> by (symmetry; apply (Nat.mod_unique _ 8 k (j - 8)); lia). lia.
Qed.
Lemma sat_byte x : is_byte x -> sat_u8 x = x.
Proof.
  unfold is_byte, sat_u8. intros H. rewrite signed_small by (change (2 ^ (16 - 1)) with 32768; lia).
  destruct (Z.ltb_spec x 0); [lia|]. destruct (Z.gtb_spec x 255); lia.
Qed.

Lemma vavg_lane l a i : is_byte (l i) -> is_byte (a i) -> vavg_avx2 l a i = (l i + a i) / 2.
Proof.
  unfold is_byte. intros Hl Ha. unfold vavg_avx2. fold (ext8 vunpacklo8 l) (ext8 vunpacklo8 a) (ext8 vunpackhi8 l) (ext8 vunpackhi8 a).
  rewrite (pack_lane (fun v => v) (fun z => z)). destruct (Nat.ltb_spec (i mod 16) 8); unfold vsrli, vadd.
  - rewrite !ext_lo_at by auto. rewrite wrap_id by (change (2 ^ 16) with 65536; lia). rewrite Z.shiftr_div_pow2 by lia. change (2 ^ 1) with 2. apply sat_byte. unfold is_byte. lia.
  - rewrite !ext_hi_at by auto. rewrite wrap_id by (change (2 ^ 16) with 65536; lia). rewrite Z.shiftr_div_pow2 by lia. change (2 ^ 1) with 2. apply sat_byte. unfold is_byte. lia.
Qed.
Lemma vhadd_lane l a i : vhadd8 l a i = (l i + a i) / 2.
Proof. unfold vhadd8. rewrite Z.shiftr_div_pow2 by lia. reflexivity. Qed.

(** ** Paeth, on one lane *)
Lemma wrap16_signed x : -32768 <= x < 32768 -> signed 16 (wrap 16 x) = x.
Proof.
  intros H. unfold signed, wrap. change (2 ^ (16 - 1)) with 32768. change (2 ^ 16) with 65536.
  destruct (Z.ltb_spec (x mod 65536) 32768); lia.
Qed.
Lemma wrap16_zero x : wrap 16 x = x mod 65536. Proof. reflexivity. Qed.
Lemma abs16_lane x : -32768 < x < 32768 -> wrap 16 (Z.abs (signed 16 (wrap 16 x))) = Z.abs x.
Proof. intros H. rewrite wrap16_signed by lia. apply wrap_id. change (2 ^ 16) with 65536. lia. Qed.
Lemma abs16_sse2_lane x : -32768 < x < 32768 ->
  let v := wrap 16 x in let sign := wrap 16 (Z.shiftr (signed 16 v) 15) in wrap 16 (Z.lxor v sign - sign) = Z.abs x.
Proof.
  intros H v sign. unfold sign, v. rewrite wrap16_signed by lia. rewrite Z.shiftr_div_pow2 by lia. change (2 ^ 15) with 32768.
  destruct (Z.ltb_spec x 0).
  - replace (x / 32768) with (-1) by lia. change (wrap 16 (-1)) with 65535.
    assert (Z.lxor (wrap 16 x) 65535 = 65535 - wrap 16 x) as ->.
    { unfold wrap. change 65535 with (Z.ones 16). rewrite <- Z.land_ones by lia.
      assert (Z.lxor (Z.land x (Z.ones 16)) (Z.ones 16) = Z.land (Z.lnot x) (Z.ones 16)) as ->.
      { apply Z.bits_inj'. intros n Hn. rewrite Z.lxor_spec, !Z.land_spec, Z.lnot_spec by lia. rewrite Z.testbit_ones_nonneg by lia.
        destruct (n <? 16), (Z.testbit x n); reflexivity. }
      rewrite !Z.land_ones by lia. unfold Z.lnot. change (Z.ones 16) with 65535. change (2 ^ 16) with 65536. lia. }
    unfold wrap. change (2 ^ 16) with 65536. lia.
  - replace (x / 32768) with 0 by lia. change (wrap 16 0) with 0. rewrite Z.lxor_0_r. unfold wrap. change (2 ^ 16) with 65536. lia.
Qed.
Definition abs16_ok (f : vec -> vec) : Prop := forall v i x, v i = wrap 16 x -> -32768 < x < 32768 -> f v i = Z.abs x.
Lemma vabs16_ok : abs16_ok vabs16.
Proof. intros v i x E H. unfold vabs16. rewrite E. apply abs16_lane. lia. Qed.
Lemma vabs16_sse2_ok : abs16_ok vabs16_sse2.
Proof. intros v i x E H. unfold vabs16_sse2, vsub, vxor, vsrai. rewrite E. apply abs16_sse2_lane. lia. Qed.

Definition mask (b : bool) : Z := if b then 65535 else 0.
Lemma mask_and a b : Z.land (mask a) (mask b) = mask (a && b). Proof. destruct a, b; reflexivity. Qed.
Lemma mask_or a b : Z.lor (mask a) (mask b) = mask (a || b). Proof. destruct a, b; reflexivity. Qed.
Lemma mask_not a : 2 ^ 16 - 1 - mask a = mask (negb a). Proof. destruct a; reflexivity. Qed.
Lemma mask_sel a x : is_byte x -> Z.land (mask a) x = if a then x else 0.
Proof.
  unfold is_byte. intros H. destruct a; cbn [mask]; [|apply Z.land_0_l].
  rewrite Z.land_comm. change 65535 with (Z.ones 16). rewrite Z.land_ones by lia. apply Z.mod_small. change (2 ^ 16) with 65536. lia.
Qed.
Lemma mask_sel' a x : is_byte x -> Z.land x (mask a) = if a then x else 0.
Proof. intros H. rewrite Z.land_comm. apply mask_sel; auto. Qed.

Lemma paeth_dist a b c : is_byte a -> is_byte b -> is_byte c ->
  let p := wrap 16 (wrap 16 (a + b) - c) in
  wrap 16 (p - a) = wrap 16 (a + b - c - a) /\ wrap 16 (p - b) = wrap 16 (a + b - c - b) /\ wrap 16 (p - c) = wrap 16 (a + b - c - c).
Proof.
  unfold is_byte, wrap. change (2 ^ 16) with 65536. intros Ha Hb Hc. cbn zeta. lia.
Qed.
Lemma vpaeth16_lane abs16 a b c i : abs16_ok abs16 -> is_byte (a i) -> is_byte (b i) -> is_byte (c i) ->
  vpaeth16 abs16 a b c i = paeth_predictor (a i) (b i) (c i).
Proof.
  intros Hab Ha Hb Hc. destruct (paeth_dist _ _ _ Ha Hb Hc) as (E1 & E2 & E3). unfold vpaeth16.
  set (p := vsub 16 (vadd 16 a b) c).
  assert (D1 : abs16 (vsub 16 p a) i = Z.abs (a i + b i - c i - a i)) by (apply Hab; [exact E1|unfold is_byte in *; lia]).
  assert (D2 : abs16 (vsub 16 p b) i = Z.abs (a i + b i - c i - b i)) by (apply Hab; [exact E2|unfold is_byte in *; lia]).
  assert (D3 : abs16 (vsub 16 p c) i = Z.abs (a i + b i - c i - c i)) by (apply Hab; [exact E3|unfold is_byte in *; lia]).
  set (va := abs16 (vsub 16 p a)) in *. set (vb := abs16 (vsub 16 p b)) in *. set (vc := abs16 (vsub 16 p c)) in *.
  unfold vor, vand, vandnot, vcmpgt, vset1. rewrite D1, D2, D3.
  assert (S1 : signed 16 (Z.abs (a i + b i - c i - a i)) = Z.abs (a i + b i - c i - a i)) by (apply signed_small; [lia|]; change (2 ^ (16 - 1)) with 32768; unfold is_byte in *; lia).
  assert (S2 : signed 16 (Z.abs (a i + b i - c i - b i)) = Z.abs (a i + b i - c i - b i)) by (apply signed_small; [lia|]; change (2 ^ (16 - 1)) with 32768; unfold is_byte in *; lia).
  assert (S3 : signed 16 (Z.abs (a i + b i - c i - c i)) = Z.abs (a i + b i - c i - c i)) by (apply signed_small; [lia|]; change (2 ^ (16 - 1)) with 32768; unfold is_byte in *; lia).
  rewrite S1, S2, S3. unfold paeth_predictor.
  set (pa := Z.abs (a i + b i - c i - a i)) in *. set (pb := Z.abs (a i + b i - c i - b i)) in *. set (pc := Z.abs (a i + b i - c i - c i)) in *.
  change (2 ^ 16 - 1) with (mask true).
  assert (G : forall x y, (if x >? y then mask true else 0) = mask (negb (x <=? y))) by (intros; rewrite Z.gtb_ltb, Z.leb_antisym; destruct (y <? x); reflexivity).
  rewrite !G. change (mask true) with (2 ^ 16 - 1). rewrite !mask_not. change (2 ^ 16 - 1) with (mask true).
  rewrite !mask_and. change (mask true) with (2 ^ 16 - 1). rewrite !mask_not. change (2 ^ 16 - 1) with (mask true).
  rewrite !mask_and, !mask_or. change (mask true) with (2 ^ 16 - 1). rewrite !mask_not. change (2 ^ 16 - 1) with (mask true).
  rewrite !mask_and, !mask_sel by auto.
  destruct (pa <=? pb), (pa <=? pc), (pb <=? pc); cbn [andb orb negb]; rewrite ?Z.lor_0_r, ?Z.lor_0_l; reflexivity.
Qed.
Lemma paeth_byte a b c : is_byte a -> is_byte b -> is_byte c -> is_byte (paeth_predictor a b c).
Proof. intros. unfold paeth_predictor. destruct (_ && _); auto. destruct (_ <=? _); auto. Qed.
Lemma vpaeth_x86_lane abs16 l a u i : abs16_ok abs16 -> is_byte (l i) -> is_byte (a i) -> is_byte (u i) ->
  vpaeth_x86 abs16 l a u i = paeth_predictor (l i) (a i) (u i).
Proof.
  intros Hab Hl Ha Hu. unfold vpaeth_x86. fold (ext8 vunpacklo8 l) (ext8 vunpacklo8 a) (ext8 vunpacklo8 u) (ext8 vunpackhi8 l) (ext8 vunpackhi8 a) (ext8 vunpackhi8 u).
  rewrite (pack_lane (fun v => v) (fun z => z)). destruct (Nat.ltb_spec (i mod 16) 8).
  - rewrite vpaeth16_lane by (rewrite ?ext_lo_at by auto; auto). rewrite !ext_lo_at by auto. apply sat_byte, paeth_byte; auto.
  - rewrite vpaeth16_lane by (rewrite ?ext_hi_at by auto; auto). rewrite !ext_hi_at by auto. apply sat_byte, paeth_byte; auto.
Qed.
Lemma vpaeth16_neon_lane a b c i : is_byte (a i) -> is_byte (b i) -> is_byte (c i) ->
  vpaeth16_neon a b c i = paeth_predictor (a i) (b i) (c i).
Proof.
  intros Ha Hb Hc. destruct (paeth_dist _ _ _ Ha Hb Hc) as (E1 & E2 & E3). unfold vpaeth16_neon.
  set (p := vsub 16 (vadd 16 a b) c).
  assert (D1 : vabs16 (vsub 16 p a) i = Z.abs (a i + b i - c i - a i)) by (apply vabs16_ok; [exact E1|unfold is_byte in *; lia]).
  assert (D2 : vabs16 (vsub 16 p b) i = Z.abs (a i + b i - c i - b i)) by (apply vabs16_ok; [exact E2|unfold is_byte in *; lia]).
  assert (D3 : vabs16 (vsub 16 p c) i = Z.abs (a i + b i - c i - c i)) by (apply vabs16_ok; [exact E3|unfold is_byte in *; lia]).
  set (va := vabs16 (vsub 16 p a)) in *. set (vb := vabs16 (vsub 16 p b)) in *. set (vc := vabs16 (vsub 16 p c)) in *.
  unfold vor, vand, vmvn16, vcle16. rewrite D1, D2, D3.
  assert (S1 : signed 16 (Z.abs (a i + b i - c i - a i)) = Z.abs (a i + b i - c i - a i)) by (apply signed_small; [lia|]; change (2 ^ (16 - 1)) with 32768; unfold is_byte in *; lia).
  assert (S2 : signed 16 (Z.abs (a i + b i - c i - b i)) = Z.abs (a i + b i - c i - b i)) by (apply signed_small; [lia|]; change (2 ^ (16 - 1)) with 32768; unfold is_byte in *; lia).
  assert (S3 : signed 16 (Z.abs (a i + b i - c i - c i)) = Z.abs (a i + b i - c i - c i)) by (apply signed_small; [lia|]; change (2 ^ (16 - 1)) with 32768; unfold is_byte in *; lia).
  rewrite S1, S2, S3. unfold paeth_predictor.
  set (pa := Z.abs (a i + b i - c i - a i)) in *. set (pb := Z.abs (a i + b i - c i - b i)) in *. set (pc := Z.abs (a i + b i - c i - c i)) in *.
  assert (G : forall x : bool, (if x then 2 ^ 16 - 1 else 0) = mask x) by (intros []; reflexivity).
  rewrite !G, !mask_and, !mask_not, !mask_and, !mask_or, !mask_not, !mask_sel' by auto.
  destruct (pa <=? pb), (pa <=? pc), (pb <=? pc); cbn [andb orb negb]; rewrite ?Z.lor_0_r, ?Z.lor_0_l; reflexivity.
Qed.
Lemma vpaeth_neon_lane l a u i : is_byte (l i) -> is_byte (a i) -> is_byte (u i) ->
  vpaeth_neon l a u i = paeth_predictor (l i) (a i) (u i).
Proof.
  intros Hl Ha Hu. unfold vpaeth_neon. destruct (Nat.ltb_spec i 8).
  - rewrite vpaeth16_neon_lane by auto. apply wrap_id. apply (paeth_byte _ _ _ Hl Ha Hu).
  - replace i with (8 + (i - 8))%nat in Hl, Ha, Hu by lia. rewrite vpaeth16_neon_lane by auto. replace (8 + (i - 8))%nat with i in * by lia. apply wrap_id. apply (paeth_byte _ _ _ Hl Ha Hu).
Qed.

(** ** The filters *)
Section Filters.
Context (bpp n : Z) (row prev : list Z).
Hypothesis Hbpp : 0 < bpp.
Hypothesis Hn : 0 < n.
Hypothesis Hlen : length prev = length row.
Hypothesis Hrow : bytes row.
Hypothesis Hprev : bytes prev.
Let zl : zlen prev = zlen row. Proof. unfold zlen; lia. Qed.

Lemma vdiff_map a b g i : (forall k, (k < Z.to_nat n)%nat -> wrap 8 (a k - b k) = g (i + Z.of_nat k)) -> vdiff n a b = map g (zseq i (Z.to_nat n)).
Proof. intros H. apply vstore_map. intros k Hk. apply H; auto. Qed.

Lemma filter_up_vec_eq : filter_up_vec n row prev = filter_up row prev.
Proof.
  rewrite (filter_up_ok bpp) by auto. unfold filter_up_vec, filt.
  rewrite (vec_loop_ok _ n _ _ (fun i => wrap 8 (znth row i - predict 2 (at0 row (i - bpp)) (at0 prev i) (at0 prev (i - bpp)))) 0); try lia; unfold zlen in *; try lia.
  - rewrite Z.sub_0_r, Nat2Z.id, zseq_0. reflexivity.
  - intros j Hj Hj2. destruct (vload_ok n row j) as (v & -> & Hv); unfold zlen; try lia. destruct (vload_ok n prev j) as (w & -> & Hw); unfold zlen; try lia. cbn [rbind].
    f_equal. apply vdiff_map. intros k Hk. rewrite Hv, Hw by auto. rewrite (at0_pos prev (j + Z.of_nat k)) by lia. reflexivity.
  - intros j Hj. rewrite !get_znth by (unfold zlen; lia). cbn [rbind]. rewrite (at0_pos prev j) by lia. reflexivity.
Qed.

Lemma skip_nth j : znth (slice row bpp (zlen row)) j = znth row (bpp + j) \/ j < 0 \/ zlen row < bpp + j + 1.
Proof.
  destruct (Z.ltb_spec j 0); [right; left; lia|]. destruct (Z.ltb_spec (zlen row) (bpp + j + 1)); [right; right; lia|]. left.
  unfold znth at 1. rewrite slice_nth by lia. reflexivity.
Qed.
Lemma sub_body_ok : bpp <= zlen row ->
  sub_body n row bpp = Ok (map (fun i => wrap 8 (znth row i - at0 row (i - bpp))) (zseq bpp (Z.to_nat (zlen row - bpp)))).
Proof.
  intros Hb. unfold sub_body.
  assert (L1 : zlen (slice row bpp (zlen row)) = zlen row - bpp) by (unfold zlen at 1; rewrite slice_length by lia; lia).
  assert (L2 : zlen (slice row 0 (zlen row - bpp)) = zlen row - bpp) by (unfold zlen at 1; rewrite slice_length by lia; lia).
  assert (N1 : forall j, 0 <= j < zlen row - bpp -> znth (slice row bpp (zlen row)) j = znth row (bpp + j)) by (intros; unfold znth at 1; rewrite slice_nth by lia; reflexivity).
  assert (N2 : forall j, 0 <= j < zlen row - bpp -> znth (slice row 0 (zlen row - bpp)) j = znth row j) by (intros; unfold znth at 1; rewrite slice_nth by lia; reflexivity).
  set (rem := slice row bpp (zlen row)) in *. set (lft := slice row 0 (zlen row - bpp)) in *.
  rewrite (vec_loop_ok _ n _ _ (fun i => wrap 8 (znth row (bpp + i) - at0 row i)) 0); try lia.
  - rewrite L1, Z.sub_0_r, zseq_0. f_equal. unfold zseq, idxs. rewrite !map_map. apply map_ext. intros k. do 3 f_equal. lia.
  - intros j Hj Hj2. destruct (vload_ok n rem j) as (v & -> & Hv); try lia. destruct (vload_ok n lft j) as (w & -> & Hw); try lia. cbn [rbind].
    f_equal. apply vdiff_map. intros k Hk. rewrite Hv, Hw, N1, N2 by lia. rewrite at0_pos by lia. reflexivity.
  - intros j Hj. rewrite !get_znth by lia. cbn [rbind]. rewrite N1, N2, at0_pos by lia. reflexivity.
  - unfold zlen in *; lia.
Qed.
Lemma first_slice b : 0 <= b <= bpp -> b <= zlen row ->
  slice_r row 0 b = Ok (map (fun i => wrap 8 (znth row i - at0 row (i - bpp))) (idxs (Z.to_nat b))).
Proof.
  intros Hb Hb2. rewrite slice_r_ok by lia. f_equal. apply (nth_ext _ _ 0 0).
  - rewrite map_length, idxs_length, slice_length by lia. lia.
  - intros k Hk. rewrite slice_length in Hk by lia. replace k with (Z.to_nat (Z.of_nat k)) by lia. rewrite slice_nth by lia.
    change (nth (Z.to_nat (Z.of_nat k)) ?l 0) with (znth l (Z.of_nat k)). rewrite znth_map_idxs by lia.
    unfold at0. destruct (Z.ltb_spec (Z.of_nat k - bpp) 0); [|lia]. pose proof (znth_byte row (Z.of_nat k) Hrow) as B. unfold is_byte in B.
    rewrite wrap_id by (change (2 ^ 8) with 256; lia). rewrite Z.sub_0_r. reflexivity.
Qed.
Lemma filter_sub_vec_eq : filter_sub_vec n row bpp = filter_sub row bpp.
Proof.
  rewrite (filter_sub_ok bpp row prev) by auto. unfold filter_sub_vec. rewrite first_slice by (pose proof (zlen_nonneg row); lia). cbn [rbind].
  destruct (Z.leb_spec (zlen row) bpp).
  - rewrite Z.min_r by lia. unfold filt. unfold zlen. rewrite Nat2Z.id. reflexivity.
  - rewrite Z.min_l by lia. rewrite sub_body_ok by lia. cbn [rbind]. rewrite <- map_app. unfold filt.
    replace (length row) with (Z.to_nat bpp + Z.to_nat (zlen row - bpp))%nat by (unfold zlen in *; lia). rewrite idxs_split, Z2Nat.id by lia. reflexivity.
Qed.
Lemma average_vec_eq avg : (forall l a k, is_byte (l k) -> is_byte (a k) -> avg l a k = (l k + a k) / 2) ->
  filter_average_vec n avg row prev bpp = filter_average row prev bpp.
Proof.
  intros Havg. rewrite (filter_average_ok bpp row prev) by auto. unfold filter_average_vec.
  set (g := fun i => wrap 8 (znth row i - predict 3 (at0 row (i - bpp)) (at0 prev i) (at0 prev (i - bpp)))).
  rewrite (tail_loop_ok _ _ g).
  2:{ intros j Hj. rewrite !get_znth by lia. cbn [rbind]. subst g. cbn beta. rewrite (at0_pos prev j) by lia.
      unfold at0 at 1. destruct (Z.ltb_spec (j - bpp) 0); [|lia]. cbn [predict].
      change (predict 3 0 (znth prev j) (at0 prev (j - bpp))) with ((0 + znth prev j) / 2). rewrite (wrap_id 8 (_ / 2)); [reflexivity|].
      pose proof (znth_byte prev j Hprev) as B. unfold is_byte in B. change (2 ^ 8) with 256. lia. }
  2:{ unfold zlen; lia. }
  cbn [rbind]. rewrite Z.sub_0_r, zseq_0. destruct (Z.leb_spec (zlen row) bpp).
  - rewrite Z.min_r by lia. unfold filt. unfold zlen. rewrite Nat2Z.id. reflexivity.
  - rewrite Z.min_l by lia. rewrite (vec_loop_ok _ n _ _ g bpp); try lia.
    + cbn [rbind]. rewrite <- map_app. unfold filt.
      replace (length row) with (Z.to_nat bpp + Z.to_nat (zlen row - bpp))%nat by (unfold zlen in *; lia). rewrite idxs_split, Z2Nat.id by lia. reflexivity.
    + intros j Hj Hj2. destruct (vload_ok n row j) as (v & -> & Hv); try lia. destruct (vload_ok n prev j) as (w & -> & Hw); try lia. destruct (vload_ok n row (j - bpp)) as (x & -> & Hx); try lia. cbn [rbind].
      f_equal. apply vdiff_map. intros k Hk. rewrite Havg by (rewrite ?Hx, ?Hw by auto; apply znth_byte; auto). rewrite Hv, Hx, Hw by auto. subst g. cbn beta.
      rewrite (at0_pos prev (j + Z.of_nat k)), (at0_pos row) by lia. replace (j + Z.of_nat k - bpp) with (j - bpp + Z.of_nat k) by lia. reflexivity.
    + intros j Hj. rewrite !get_znth by lia. cbn [rbind]. subst g. cbn beta. rewrite (at0_pos prev j), (at0_pos row) by lia.
      change (predict 3 ?a ?b ?c) with ((a + b) / 2). rewrite (wrap_id 8 (_ / 2)); [reflexivity|].
      pose proof (znth_byte prev j Hprev) as B. pose proof (znth_byte row (j - bpp) Hrow) as B2. unfold is_byte in *. change (2 ^ 8) with 256. lia.
    + unfold zlen in *; lia.
Qed.
Lemma paeth_vec_eq pr first : (forall l a u k, is_byte (l k) -> is_byte (a k) -> is_byte (u k) -> pr l a u k = paeth_predictor (l k) (a k) (u k)) ->
  (forall a, is_byte a -> first a = paeth_predictor 0 a 0) ->
  filter_paeth_vec n pr first row prev bpp = filter_paeth row prev bpp.
Proof.
  intros Hpr Hfirst. rewrite (filter_paeth_ok bpp row prev) by auto. unfold filter_paeth_vec.
  set (g := fun i => wrap 8 (znth row i - predict 4 (at0 row (i - bpp)) (at0 prev i) (at0 prev (i - bpp)))).
  rewrite (tail_loop_ok _ _ g).
  2:{ intros j Hj. rewrite !get_znth by lia. cbn [rbind]. subst g. cbn beta. rewrite (at0_pos prev j) by lia.
      unfold at0. destruct (Z.ltb_spec (j - bpp) 0); [|lia]. rewrite Hfirst by (apply znth_byte; auto). reflexivity. }
  2:{ unfold zlen; lia. }
  cbn [rbind]. rewrite Z.sub_0_r, zseq_0. destruct (Z.leb_spec (zlen row) bpp).
  - rewrite Z.min_r by lia. unfold filt. unfold zlen. rewrite Nat2Z.id. reflexivity.
  - rewrite Z.min_l by lia. rewrite (vec_loop_ok _ n _ _ g bpp); try lia.
    + cbn [rbind]. rewrite <- map_app. unfold filt.
      replace (length row) with (Z.to_nat bpp + Z.to_nat (zlen row - bpp))%nat by (unfold zlen in *; lia). rewrite idxs_split, Z2Nat.id by lia. reflexivity.
    + intros j Hj Hj2. destruct (vload_ok n row j) as (v & -> & Hv); try lia. destruct (vload_ok n row (j - bpp)) as (x & -> & Hx); try lia.
      destruct (vload_ok n prev j) as (w & -> & Hw); try lia. destruct (vload_ok n prev (j - bpp)) as (y & -> & Hy); try lia. cbn [rbind].
      f_equal. apply vdiff_map. intros k Hk. rewrite Hpr by (rewrite ?Hx, ?Hw, ?Hy by auto; apply znth_byte; auto). rewrite Hv, Hx, Hw, Hy by auto. subst g. cbn beta.
      rewrite (at0_pos prev (j + Z.of_nat k)), (at0_pos row), (at0_pos prev) by lia. replace (j + Z.of_nat k - bpp) with (j - bpp + Z.of_nat k) by lia. reflexivity.
    + intros j Hj. rewrite !get_znth by lia. cbn [rbind]. subst g. cbn beta. rewrite (at0_pos prev j), (at0_pos row), (at0_pos prev) by lia. reflexivity.
    + unfold zlen in *; lia.
Qed.
End Filters.

Lemma filter_sub_sse2_eq bpp row : 0 < bpp <= zlen row -> bytes row -> filter_sub_sse2 row bpp = filter_sub row bpp.
Proof.
  intros Hb Hr. rewrite (filter_sub_ok bpp row row) by (auto; lia). unfold filter_sub_sse2. rewrite (first_slice bpp row row) by (auto; lia). cbn [rbind]. rewrite (sub_body_ok bpp 16 row row) by (auto; lia). cbn [rbind]. rewrite <- map_app. unfold filt.
  replace (length row) with (Z.to_nat bpp + Z.to_nat (zlen row - bpp))%nat by (unfold zlen in *; lia). rewrite idxs_split, Z2Nat.id by lia. reflexivity.
Qed.

(** ** Scores *)
Lemma chunks_exact_spec fuel n l : (0 < n)%nat -> (length l <= fuel)%nat ->
  concat (fst (chunks_exact fuel n l)) ++ snd (chunks_exact fuel n l) = l /\
  Forall (fun c => length c = n) (fst (chunks_exact fuel n l)) /\ (length (snd (chunks_exact fuel n l)) < n)%nat.
Proof.
  intros Hn. revert l; induction fuel as [|f IH]; intros l Hl; cbn [chunks_exact].
  - destruct l; cbn in *; [auto|lia].
  - destruct (Nat.ltb_spec (length l) n); [cbn; auto|].
    specialize (IH (skipn n l)). rewrite skipn_length in IH. destruct (chunks_exact f n (skipn n l)) as [c r]. cbn [fst snd concat] in *.
    destruct IH as (E & F & G); [lia|]. rewrite <- app_assoc, E, firstn_skipn. split; [reflexivity|]. split; [|exact G].
    constructor; [|exact F]. rewrite firstn_length. lia.
Qed.
Definition score_sum (l : list Z) : Z := fold_left (fun s b => s + score_byte b) l 0.
Lemma score_acc l a : fold_left (fun s b => s + score_byte b) l a = a + score_sum l.
Proof. unfold score_sum. revert a; induction l as [|b l IH]; intros a; cbn [fold_left]; [lia|]. rewrite IH, (IH (0 + score_byte b)). lia. Qed.
Lemma score_sum_cons b l : score_sum (b :: l) = score_byte b + score_sum l.
Proof. unfold score_sum at 1. cbn [fold_left]. rewrite score_acc. lia. Qed.
Lemma score_sum_app a b : score_sum (a ++ b) = score_sum a + score_sum b.
Proof. unfold score_sum at 1. rewrite fold_left_app, score_acc. reflexivity. Qed.
Lemma score_sum_bound l : bytes l -> 0 <= score_sum l <= 128 * zlen l.
Proof.
  induction 1 as [|b l Hb Hl IH]; [unfold score_sum, zlen; cbn; lia|]. rewrite score_sum_cons, zlen_cons.
  unfold score_byte, is_byte in *. destruct (Z.ltb_spec b 128); lia.
Qed.
Lemma score_is f : score_filter f = score_sum f. Proof. reflexivity. Qed.

Lemma xor128_abs b : is_byte b -> Z.abs (Z.lxor b 128 - 128) = score_byte b.
Proof.
  intros H. unfold score_byte, is_byte in *. assert (Z.lxor b 128 = if b <? 128 then b + 128 else b - 128) as ->.
  { assert (E : forall k, (k < 128)%nat -> Z.lxor (Z.of_nat k) 128 = Z.of_nat k + 128 /\ Z.lxor (Z.of_nat k + 128) 128 = Z.of_nat k).
    { intros k Hk. rewrite (Z.add_comm (Z.of_nat k)). 
      assert (Z.lxor (Z.of_nat k) 128 = 128 + Z.of_nat k) as E.
      { rewrite Z.lxor_comm. symmetry. apply Z.add_nocarry_lxor. apply Z.bits_inj'. intros n Hn. rewrite Z.land_spec, Z.bits_0. change 128 with (2 ^ 7). 
        destruct (Z.eq_dec n 7) as [->|N]; [|rewrite Z.pow2_bits_false by lia; reflexivity].
        rewrite <- (Z.mod_small (Z.of_nat k) (2 ^ 7)) by (change (2 ^ 7) with 128; lia). rewrite Z.mod_pow2_bits_high by lia. apply andb_false_r. }
      split; [exact E|]. rewrite <- E, Z.lxor_assoc, Z.lxor_nilpotent, Z.lxor_0_r. reflexivity. }
    destruct (Z.ltb_spec b 128).
    - rewrite <- (Z2Nat.id b) by lia. apply E. lia.
    - replace b with (Z.of_nat (Z.to_nat (b - 128)) + 128) at 1 by lia. rewrite (proj2 (E (Z.to_nat (b - 128)) ltac:(lia))). lia. }
  destruct (Z.ltb_spec b 128); lia.
Qed.
Lemma vsum_ext f g n : (forall i, (i < n)%nat -> f i = g i) -> vsum f n = vsum g n.
Proof. intros H. unfold vsum. f_equal. apply map_ext_in. intros i Hi%in_seq. apply H. lia. Qed.
Lemma vscore_lane c i : bytes c -> vscore (of_list c) i = vsum (fun j => score_byte (nth (8 * i + j) c 0)) 8.
Proof.
  intros H. unfold vscore, vsad8. apply vsum_ext. intros j _. unfold vxor, vset1, of_list. apply xor128_abs. apply (Forall_nth_d is_byte); auto. unfold is_byte; lia.
Qed.
(** lane totals of a list of chunks *)
Definition lane_total (k : nat) (cs : list (list Z)) : Z := fold_right Z.add 0 (map (fun c => vscore (of_list c) k) cs).
Lemma vsum_nonneg f n : (forall i, 0 <= f i) -> 0 <= vsum f n.
Proof. intros H. unfold vsum. induction (seq 0 n) as [|i l IH]; cbn; [lia|]. specialize (H i). lia. Qed.
Lemma vscore_nonneg v i : 0 <= vscore v i. Proof. apply vsum_nonneg. intros; apply Z.abs_nonneg. Qed.
Lemma lane_total_nonneg k cs : 0 <= lane_total k cs.
Proof. unfold lane_total. induction cs; cbn [map fold_right]; [lia|]. pose proof (vscore_nonneg (of_list a) k). lia. Qed.
Lemma score_fold cs acc k : 0 <= acc k -> acc k + lane_total k cs < 2 ^ 64 ->
  fold_left (fun acc c => vadd 64 acc (vscore (of_list c))) cs acc k = acc k + lane_total k cs.
Proof.
  revert acc; induction cs as [|c cs IH]; intros acc Ha Hb; cbn [fold_left]; [unfold lane_total; cbn; lia|].
  assert (lane_total k (c :: cs) = vscore (of_list c) k + lane_total k cs) as E by reflexivity. rewrite E in *.
  pose proof (vscore_nonneg (of_list c) k). pose proof (lane_total_nonneg k cs).
  assert (V : vadd 64 acc (vscore (of_list c)) k = acc k + vscore (of_list c) k) by (apply wrap_id; lia).
  rewrite IH; rewrite V; lia.
Qed.
Lemma score16 c : length c = 16%nat -> bytes c -> vscore (of_list c) 0%nat + vscore (of_list c) 1%nat = score_sum c.
Proof.
  intros L B. rewrite !vscore_lane by auto. clear B. do 16 (destruct c as [|? c]; [discriminate|]). destruct c; [|discriminate].
  unfold vsum, score_sum. cbn [seq map fold_right fold_left Nat.mul Nat.add nth]. lia.
Qed.
Lemma score32 c : length c = 32%nat -> bytes c -> vscore (of_list c) 0%nat + vscore (of_list c) 1%nat + vscore (of_list c) 2%nat + vscore (of_list c) 3%nat = score_sum c.
Proof.
  intros L B. rewrite !vscore_lane by auto. clear B. do 32 (destruct c as [|? c]; [discriminate|]). destruct c; [|discriminate].
  unfold vsum, score_sum. cbn [seq map fold_right fold_left Nat.mul Nat.add nth]. lia.
Qed.
Lemma bytes_concat cs : bytes (concat cs) -> Forall bytes cs.
Proof. induction cs as [|c cs IH]; cbn [concat]; intros H; [constructor|]. apply bytes_app in H as [H1 H2]. constructor; auto. Qed.
Lemma lane_total16 cs : Forall (fun c => length c = 16%nat) cs -> bytes (concat cs) -> lane_total 0%nat cs + lane_total 1%nat cs = score_sum (concat cs).
Proof.
  intros F B. apply bytes_concat in B. induction F as [|c cs Hc F IH]; [reflexivity|]. inversion B; subst. cbn [concat]. rewrite score_sum_app, <- IH, <- score16 by auto.
  unfold lane_total. cbn [map fold_right]. lia.
Qed.
Lemma lane_total32 cs : Forall (fun c => length c = 32%nat) cs -> bytes (concat cs) ->
  lane_total 0%nat cs + lane_total 1%nat cs + lane_total 2%nat cs + lane_total 3%nat cs = score_sum (concat cs).
Proof.
  intros F B. apply bytes_concat in B. induction F as [|c cs Hc F IH]; [reflexivity|]. inversion B; subst. cbn [concat]. rewrite score_sum_app, <- IH, <- score32 by auto.
  unfold lane_total. cbn [map fold_right]. lia.
Qed.
Lemma score_sse2_eq f : bytes f -> zlen f < 2 ^ 57 -> score_filter_sse2 f = score_filter f.
Proof.
  intros B L. unfold score_filter_sse2. rewrite score_is. destruct (chunks_exact_spec (length f) 16 f) as (E & F & _); [lia|lia|].
  destruct (chunks_exact (length f) 16 f) as [cs rest]. cbn [fst snd] in *. pose proof (score_sum_bound f B) as Hb. rewrite <- E in B, Hb. apply bytes_app in B as [B1 B2].
  rewrite score_sum_app, zlen_app in Hb. pose proof (score_sum_bound _ B1). pose proof (score_sum_bound _ B2). pose proof (lane_total16 cs F B1).
  pose proof (lane_total_nonneg 0%nat cs). pose proof (lane_total_nonneg 1%nat cs). rewrite <- E, zlen_app in L. change (2 ^ 57) with (2 ^ 64 / 128) in L. 
  rewrite score_acc, !score_fold by (unfold vset1; change (2 ^ 64) with 18446744073709551616 in *; lia). unfold vset1. rewrite wrap_id by (change (2 ^ 64) with 18446744073709551616 in *; lia).
  rewrite <- E, score_sum_app. lia.
Qed.
Lemma score_avx2_eq f : bytes f -> zlen f < 2 ^ 57 -> score_filter_avx2 f = score_filter f.
Proof.
  intros B L. unfold score_filter_avx2. rewrite score_is. destruct (chunks_exact_spec (length f) 32 f) as (E & F & _); [lia|lia|].
  destruct (chunks_exact (length f) 32 f) as [cs rest]. cbn [fst snd] in *. pose proof (score_sum_bound f B) as Hb. rewrite <- E in B, Hb. apply bytes_app in B as [B1 B2].
  rewrite score_sum_app, zlen_app in Hb. pose proof (score_sum_bound _ B1). pose proof (score_sum_bound _ B2). pose proof (lane_total32 cs F B1).
  pose proof (lane_total_nonneg 0%nat cs). pose proof (lane_total_nonneg 1%nat cs). pose proof (lane_total_nonneg 2%nat cs). pose proof (lane_total_nonneg 3%nat cs). rewrite <- E, zlen_app in L. change (2 ^ 57) with (2 ^ 64 / 128) in L. 
  rewrite score_acc, !score_fold by (unfold vset1; change (2 ^ 64) with 18446744073709551616 in *; lia). unfold vset1.
  rewrite <- E, score_sum_app. lia.
Qed.
Lemma vabs8_lane v i : is_byte (v i) -> vabs8 v i = score_byte (v i).
Proof.
  unfold vabs8, score_byte, signed, is_byte. change (2 ^ (8 - 1)) with 128. change (2 ^ 8) with 256. intros H.
  destruct (Z.ltb_spec (v i) 128); [rewrite Z.abs_eq by lia|rewrite Z.abs_neq by lia; replace (- (v i - 256)) with (256 - v i) by lia];
    apply wrap_id; change (2 ^ 8) with 256; lia.
Qed.
Lemma score_neon_eq f : bytes f -> score_filter_neon f = score_filter f.
Proof.
  intros B. unfold score_filter_neon. rewrite score_is. destruct (chunks_exact_spec (length f) 16 f) as (E & F & _); [lia|lia|].
  destruct (chunks_exact (length f) 16 f) as [cs rest]. cbn [fst snd] in *. rewrite <- E in B |- *. apply bytes_app in B as [B1 B2]. rewrite score_acc, score_sum_app. f_equal.
  clear E. apply bytes_concat in B1. cut (forall a, fold_left (fun acc c => let s := vpaddl (vpaddl (vpaddl (vabs8 (of_list c)))) in acc + (s 0%nat + s 1%nat)) cs a = a + score_sum (concat cs)).
  { intros H. rewrite H. lia. }
  induction F as [|c cs Hc F IH]; intros a; cbn [fold_left concat]; [unfold score_sum; cbn; lia|]. inversion B1; subst. rewrite IH by auto. rewrite score_sum_app.
  cbn zeta. assert (N : forall i, vabs8 (of_list c) i = score_byte (nth i c 0)). { intros i. apply vabs8_lane. apply (Forall_nth_d is_byte); auto. unfold is_byte; lia. }
  unfold vpaddl. rewrite !N. clear N. do 16 (destruct c as [|? c]; [discriminate|]). destruct c; [|discriminate].
  unfold score_sum at 2. cbn [fold_left Nat.mul Nat.add nth]. lia.
Qed.

(** ** Match lengths *)
Lemma vsum_S f n : vsum f (S n) = f 0%nat + vsum (fun i => f (S i)) n.
Proof. unfold vsum. cbn [seq map fold_right]. rewrite <- seq_shift, map_map. reflexivity. Qed.
(** the movemask of [n] comparison lanes, then its trailing ones *)
Fixpoint bits_val (l : list bool) : Z := match l with [] => 0 | b :: r => Z.b2z b + 2 * bits_val r end.
Lemma bits_val_range l : 0 <= bits_val l < 2 ^ zlen l.
Proof.
  induction l as [|b l IH]; [unfold zlen; cbn; lia|]. cbn [bits_val]. rewrite zlen_cons, Z.pow_add_r by (pose proof (zlen_nonneg l); lia). change (2 ^ 1) with 2. destruct b; cbn [Z.b2z]; lia.
Qed.
Lemma vsum_scale f n c : vsum (fun i => c * f i) n = c * vsum f n.
Proof. unfold vsum. induction (seq 0 n) as [|i l IH]; cbn [map fold_right]; lia. Qed.
Lemma movemask_val (e : nat -> bool) n : vmovemask n (fun i => if e i then 2 ^ 8 - 1 else 0) = bits_val (map e (seq 0 n)).
Proof.
  unfold vmovemask. revert e; induction n as [|n IH]; intros e; [reflexivity|]. rewrite vsum_S. cbn [seq map bits_val]. rewrite <- seq_shift, map_map, <- (IH (fun i => e (S i))), <- vsum_scale.
  f_equal.
  - change (2 ^ Z.of_nat 0) with 1. destruct (e 0%nat); reflexivity.
  - apply vsum_ext. intros i _. rewrite Nat2Z.inj_succ, Z.pow_succ_r by lia. ring.
Qed.
Lemma bits_all l : bits_val l = 2 ^ zlen l - 1 -> forall i, (i < length l)%nat -> nth i l true = true.
Proof.
  induction l as [|b l IH]; [cbn; lia|]. cbn [bits_val length]. rewrite zlen_cons, Z.pow_add_r by (pose proof (zlen_nonneg l); lia). change (2 ^ 1) with 2.
  pose proof (bits_val_range l) as R. intros E [|i] Hi; cbn [nth]; destruct b; cbn [Z.b2z] in E; auto; try lia; apply IH; lia.
Qed.
Lemma ctz32 l : (length l <= 32)%nat -> bits_val l <> 2 ^ zlen l - 1 ->
  exists k, ctz 32 (2 ^ 32 - 1 - bits_val l) = Z.of_nat k /\ (k < length l)%nat /\ (forall i, (i < k)%nat -> nth i l true = true) /\ nth k l true = false.
Proof.
  assert (G : forall l m, (length l <= m)%nat -> bits_val l <> 2 ^ zlen l - 1 ->
    exists k, ctz m (2 ^ Z.of_nat m - 1 - bits_val l) = Z.of_nat k /\ (k < length l)%nat /\ (forall i, (i < k)%nat -> nth i l true = true) /\ nth k l true = false).
  { clear. intros l m. revert m; induction l as [|b l IH]; intros m Hm E; [unfold zlen in E; cbn in E; lia|]. destruct m as [|m]; [cbn in Hm; lia|]. cbn [ctz bits_val length] in *.
    rewrite zlen_cons, Z.pow_add_r in E by (pose proof (zlen_nonneg l); lia). change (2 ^ 1) with 2 in E.
    rewrite Nat2Z.inj_succ, Z.pow_succ_r by lia. destruct b; cbn [Z.b2z] in *.
    - replace (2 * 2 ^ Z.of_nat m - 1 - (1 + 2 * bits_val l)) with (2 * (2 ^ Z.of_nat m - 1 - bits_val l)) by lia.
      rewrite Z.odd_mul. cbn [Z.odd andb]. rewrite Z.mul_comm, Z.div_mul by lia. destruct (IH m ltac:(lia) ltac:(lia)) as (k & E1 & E2 & E3 & E4).
      exists (S k). rewrite E1. split; [lia|]. split; [lia|]. split; [|exact E4]. intros [|i] Hi; cbn [nth]; auto. apply E3; lia.
    - exists 0%nat. replace (2 * 2 ^ Z.of_nat m - 1 - (0 + 2 * bits_val l)) with (1 + 2 * (2 ^ Z.of_nat m - 1 - bits_val l)) by lia.
      rewrite Z.odd_add_mul_2. cbn [Z.odd]. split; [reflexivity|]. split; [lia|]. split; [intros; lia|reflexivity]. }
  intros H1 H2. change (2 ^ 32) with (2 ^ Z.of_nat 32). apply G; auto.
Qed.

Section Match.
  Variables (data : list Z) (p1 p2 maxl : Z).
  Hypothesis Hp : bytes data.
  Hypothesis H1 : 0 <= p1 /\ p1 + maxl <= zlen data.
  Hypothesis H2 : 0 <= p2 /\ p2 + maxl <= zlen data.

  Lemma cp_unique a b : common_prefix data p1 p2 maxl a -> common_prefix data p1 p2 maxl b -> a = b.
  Proof.
    intros (A1 & A2 & A3) (B1 & B2 & B3). destruct (Z.lt_trichotomy a b) as [L|[E|L]]; [exfalso|exact E|exfalso].
    - apply A3; [lia|]. apply B2. lia.
    - apply B3; [lia|]. apply A2. lia.
  Qed.

  Lemma match_vec_ok isa tail fuel len : 0 < isa <= 32 -> 0 <= len <= maxl -> maxl - len <= Z.of_nat fuel ->
    (forall i, 0 <= i < len -> znth data (p1 + i) = znth data (p2 + i)) ->
    (forall l, 0 <= l <= maxl -> (forall i, 0 <= i < l -> znth data (p1 + i) = znth data (p2 + i)) -> exists n, tail l = Ok n /\ common_prefix data p1 p2 maxl n) ->
    exists n, match_vec isa tail fuel data p1 p2 len maxl = Ok n /\ common_prefix data p1 p2 maxl n.
  Proof.
    intros Hi. revert len; induction fuel as [|f IH]; intros len Hl Hf He Ht; cbn [match_vec]; destruct (Z.leb_spec (len + isa) maxl); cbn [negb]; try (apply Ht; auto; lia); [lia|].
    destruct (vload_ok isa data (p1 + len)) as (v & -> & Hv); try lia. destruct (vload_ok isa data (p2 + len)) as (w & -> & Hw); try lia. cbn [rbind].
    set (e := fun i => v i =? w i). assert (M : vmovemask (Z.to_nat isa) (vcmpeq 8 v w) = bits_val (map e (seq 0 (Z.to_nat isa)))) by apply (movemask_val e).
    rewrite M. assert (L : length (map e (seq 0 (Z.to_nat isa))) = Z.to_nat isa) by (rewrite map_length, seq_length; reflexivity).
    assert (ZL : zlen (map e (seq 0 (Z.to_nat isa))) = isa) by (unfold zlen; rewrite L; lia).
    assert (N : forall i, (i < Z.to_nat isa)%nat -> nth i (map e (seq 0 (Z.to_nat isa))) true = (znth data (p1 + (len + Z.of_nat i)) =? znth data (p2 + (len + Z.of_nat i)))).
    { intros i Hi2. rewrite nth_indep with (d' := e 0%nat) by (rewrite L; lia). rewrite map_nth, seq_nth by lia. unfold e. cbn [Nat.add]. rewrite Hv, Hw by lia. rewrite !Z.add_assoc. reflexivity. }
    set (bl := map e (seq 0 (Z.to_nat isa))) in *. replace (2 ^ isa - 1) with (2 ^ zlen bl - 1) by (rewrite ZL; reflexivity). destruct (Z.eqb_spec (bits_val bl) (2 ^ zlen bl - 1)) as [E|E]; cbn [negb].
    - apply IH; auto; try lia. intros i Hi2. destruct (Z.ltb_spec i len); [apply He; lia|].
      pose proof (bits_all bl E (Z.to_nat (i - len)) ltac:(lia)) as T. rewrite N in T by lia. apply Z.eqb_eq in T. replace (len + Z.of_nat (Z.to_nat (i - len))) with i in T by lia. exact T.
    - destruct (ctz32 bl ltac:(lia) E) as (k & -> & K1 & K2 & K3). rewrite N in K3 by lia. apply Z.eqb_neq in K3.
      exists (len + Z.of_nat k). split; [reflexivity|]. split; [lia|]. split; [|intros _; exact K3].
      intros i Hi2. destruct (Z.ltb_spec i len); [apply He; lia|].
      pose proof (K2 (Z.to_nat (i - len)) ltac:(lia)) as T. rewrite N in T by lia. apply Z.eqb_eq in T. replace (len + Z.of_nat (Z.to_nat (i - len))) with i in T by lia. exact T.
  Qed.
End Match.
Lemma match_sse2_ok data p1 p2 maxl : bytes data -> 0 <= p1 /\ p1 + maxl <= zlen data -> 0 <= p2 /\ p2 + maxl <= zlen data -> 0 <= maxl ->
  exists n, match_length_sse2 data p1 p2 maxl = Ok n /\ common_prefix data p1 p2 maxl n.
Proof.
  intros Hb H1 H2 Hm. apply match_vec_ok; auto; try lia. intros l Hl He. apply match_words_ok; auto; lia.
Qed.
Lemma match_avx2_ok data p1 p2 maxl : bytes data -> 0 <= p1 /\ p1 + maxl <= zlen data -> 0 <= p2 /\ p2 + maxl <= zlen data -> 0 <= maxl ->
  exists n, match_length_avx2 data p1 p2 maxl = Ok n /\ common_prefix data p1 p2 maxl n.
Proof.
  intros Hb H1 H2 Hm. apply match_vec_ok; auto; try lia. intros l Hl He. destruct (Z.ltb_spec l maxl).
  - destruct (match_sse2_ok data (p1 + l) (p2 + l) (maxl - l)) as (n & -> & C1 & C2 & C3); auto; try lia. cbn [rbind]. exists (l + n). split; [reflexivity|].
    split; [lia|]. split.
    + intros i Hi. destruct (Z.ltb_spec i l); [apply He; lia|]. specialize (C2 (i - l) ltac:(lia)). replace (p1 + l + (i - l)) with (p1 + i) in C2 by lia. replace (p2 + l + (i - l)) with (p2 + i) in C2 by lia. exact C2.
    + intros Hn. rewrite !Z.add_assoc. apply C3. lia.
  - exists l. split; [reflexivity|]. split; [lia|]. split; [auto|lia].
Qed.
Lemma min_all l : Forall (fun x => x = 0 \/ x = 255) l -> (fold_right Z.min 255 l = 255 /\ first_zero l 0 = None) \/ (fold_right Z.min 255 l <> 255 /\ exists k, first_zero l 0 = Some (Z.of_nat k)).
Proof.
  intros F. assert (R : 0 <= fold_right Z.min 255 l <= 255) by (induction F as [|x l [->| ->] F IH]; cbn [fold_right]; lia).
  assert (G : forall a, 0 <= a -> first_zero l a = None -> fold_right Z.min 255 l = 255).
  { clear R. induction F as [|x l [->| ->] F IH]; intros a Ha E; cbn [fold_right first_zero] in *; [reflexivity|discriminate|]. change (255 =? 0) with false in E. cbn iota in E. rewrite (IH (a + 1)); [reflexivity|lia|exact E]. }
  assert (K : forall a, 0 <= a -> forall r, first_zero l a = Some r -> a <= r /\ fold_right Z.min 255 l = 0).
  { clear R G. induction F as [|x l Hx F IH]; intros a Ha r E; cbn [fold_right first_zero] in *; [discriminate|].
    assert (0 <= fold_right Z.min 255 l <= 255) by (clear - F; induction F as [|x l [->| ->] F IH]; cbn [fold_right]; lia).
    destruct Hx as [->| ->]; [injection E as <-; lia|]. change (255 =? 0) with false in E. cbn iota in E. destruct (IH (a + 1) ltac:(lia) r E). lia. }
  destruct (first_zero l 0) as [r|] eqn:E.
  - right. destruct (K 0 ltac:(lia) r E). split; [lia|]. exists (Z.to_nat r). f_equal. lia.
  - left. split; [apply (G 0); [lia|exact E]|reflexivity].
Qed.
Lemma first_zero_spec l a : match first_zero l a with
  | Some r => a <= r < a + zlen l /\ nth (Z.to_nat (r - a)) l 1 = 0 /\ forall i, 0 <= i < r - a -> nth (Z.to_nat i) l 1 <> 0
  | None => forall i, (i < length l)%nat -> nth i l 1 <> 0 end.
Proof.
  revert a; induction l as [|x l IH]; intros a; cbn [first_zero]; [intros i Hi; cbn in Hi; lia|]. rewrite zlen_cons. pose proof (zlen_nonneg l). destruct (Z.eqb_spec x 0) as [->|N].
  - split; [lia|]. rewrite Z.sub_diag. split; [reflexivity|]. intros; lia.
  - specialize (IH (a + 1)). destruct (first_zero l (a + 1)) as [r|].
    + destruct IH as (I1 & I2 & I3). split; [lia|]. replace (Z.to_nat (r - a)) with (S (Z.to_nat (r - (a + 1)))) by lia. split; [exact I2|].
      intros i Hi. destruct (Z.eq_dec i 0) as [->|]; [exact N|]. replace (Z.to_nat i) with (S (Z.to_nat (i - 1))) by lia. apply I3. lia.
    + intros [|i] Hi; [exact N|]. apply IH. cbn in Hi. lia.
Qed.
Lemma match_neon_ok data p1 p2 maxl : bytes data -> 0 <= p1 /\ p1 + maxl <= zlen data -> 0 <= p2 /\ p2 + maxl <= zlen data -> 0 <= maxl ->
  exists n, match_length_neon data p1 p2 maxl = Ok n /\ common_prefix data p1 p2 maxl n.
Proof.
  intros Hb H1 H2 Hm. unfold match_length_neon.
  assert (G : forall fuel len, 0 <= len <= maxl -> maxl - len <= Z.of_nat fuel -> (forall i, 0 <= i < len -> znth data (p1 + i) = znth data (p2 + i)) ->
    exists n, match_neon fuel data p1 p2 len maxl = Ok n /\ common_prefix data p1 p2 maxl n).
  { induction fuel as [|f IH]; intros len Hl Hf He; cbn [match_neon]; destruct (Z.leb_spec (len + 16) maxl); cbn [negb]; try (apply match_words_ok; auto; lia); [lia|].
    destruct (vload_ok 16 data (p1 + len)) as (v & -> & Hv); try lia. destruct (vload_ok 16 data (p2 + len)) as (w & -> & Hw); try lia. cbn [rbind]. change (Z.to_nat 16) with 16%nat in *.
    assert (N : forall i, (i < 16)%nat -> nth i (vstore 16 (vcmpeq 8 v w)) 1 = if znth data (p1 + (len + Z.of_nat i)) =? znth data (p2 + (len + Z.of_nat i)) then 255 else 0).
    { intros i Hi. unfold vstore. rewrite nth_indep with (d' := vcmpeq 8 v w 0%nat) by (rewrite map_length, seq_length; lia). rewrite map_nth, seq_nth by lia. unfold vcmpeq. cbn [Nat.add]. rewrite Hv, Hw by lia. rewrite !Z.add_assoc. reflexivity. }
    assert (L : length (vstore 16 (vcmpeq 8 v w)) = 16%nat) by reflexivity.
    assert (F : Forall (fun x => x = 0 \/ x = 255) (vstore 16 (vcmpeq 8 v w))).
    { apply Forall_forall. intros x Hx. unfold vstore in Hx. apply in_map_iff in Hx as (k & <- & _). unfold vcmpeq. destruct (v k =? w k); auto. }
    set (l := vstore 16 (vcmpeq 8 v w)) in *. clearbody l. pose proof (first_zero_spec l 0) as Z0.
    assert (C : (forall i, (i < 16)%nat -> nth i l 1 <> 0) -> forall i, 0 <= i < len + 16 -> znth data (p1 + i) = znth data (p2 + i)).
    { intros A i Hi. destruct (Z.ltb_spec i len); [apply He; lia|]. specialize (A (Z.to_nat (i - len)) ltac:(lia)). rewrite N in A by lia.
      replace (len + Z.of_nat (Z.to_nat (i - len))) with i in A by lia. destruct (Z.eqb_spec (znth data (p1 + i)) (znth data (p2 + i))); [assumption|congruence]. }
    destruct (min_all l F) as [[E1 E2]|[E1 [k E2]]]; rewrite E2 in *.
    - rewrite E1. cbn. apply IH; auto; try lia. apply C. rewrite L in Z0. exact Z0.
    - destruct (Z.eqb_spec (fold_right Z.min 255 l) 255); [contradiction|]. cbn [negb]. destruct Z0 as (Z1 & Z2 & Z3). unfold zlen in Z1. rewrite L in Z1. rewrite Z.sub_0_r, Nat2Z.id in Z2. rewrite N in Z2 by lia.
      destruct (Z.eqb_spec (znth data (p1 + (len + Z.of_nat k))) (znth data (p2 + (len + Z.of_nat k)))) as [|K]; [discriminate|].
      exists (len + Z.of_nat k). split; [reflexivity|]. split; [lia|]. split; [|intros _; exact K].
      intros i Hi. destruct (Z.ltb_spec i len); [apply He; lia|]. specialize (Z3 (i - len) ltac:(lia)). rewrite N in Z3 by lia. replace (len + Z.of_nat (Z.to_nat (i - len))) with i in Z3 by lia.
      destruct (Z.eqb_spec (znth data (p1 + i)) (znth data (p2 + i))); [assumption|congruence]. }
  apply G; lia.
Qed.
