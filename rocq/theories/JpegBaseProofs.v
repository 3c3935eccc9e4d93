From Verif Require Import Base BitsProofs PngFilterModel JpegBaseModel.
From Coq Require Import Permutation.

Lemma clamp_range x lo hi : lo <= hi -> lo <= clamp x lo hi <= hi.
Proof. unfold clamp. intros. destruct (Z.ltb_spec x lo); [lia|]. destruct (Z.gtb_spec x hi); lia. Qed.
Lemma clamp_spec x lo hi : lo <= hi -> clamp x lo hi = Z.max lo (Z.min hi x).
Proof. unfold clamp. intros. destruct (Z.ltb_spec x lo); [lia|]. destruct (Z.gtb_spec x hi); lia. Qed.
Lemma clamp_id x lo hi : lo <= x <= hi -> clamp x lo hi = x.
Proof. unfold clamp. intros. destruct (Z.ltb_spec x lo); [lia|]. destruct (Z.gtb_spec x hi); lia. Qed.
Lemma i32_ok x : - 2 ^ 31 <= x < 2 ^ 31 -> i32 x = Ok x.
Proof. intros H. unfold i32. destruct (Z.leb_spec (- 2 ^ 31) x), (Z.ltb_spec x (2 ^ 31)); cbn [andb]; auto; lia. Qed.
Lemma i16_ok x : - 2 ^ 15 <= x < 2 ^ 15 -> i16 x = Ok x.
Proof. intros H. unfold i16. destruct (Z.leb_spec (- 2 ^ 15) x), (Z.ltb_spec x (2 ^ 15)); cbn [andb]; auto; lia. Qed.
Lemma as_i16_id x : - 2 ^ 15 <= x < 2 ^ 15 -> as_i16 x = x.
Proof.
  intros H. unfold as_i16, wrap. change (2 ^ 15) with 32768 in *. change (2 ^ 16) with 65536.
  destruct (Z.lt_ge_cases x 0).
  - replace (x mod 65536) with (x + 65536).
    + destruct (Z.ltb_spec (x + 65536) 32768); lia.
    + symmetry. rewrite <- (Z.mod_add x 1) by lia. apply Z.mod_small. lia.
  - rewrite Z.mod_small by lia. destruct (Z.ltb_spec x 32768); lia.
Qed.
Lemma as_i16_range x : - 2 ^ 15 <= as_i16 x < 2 ^ 15.
Proof.
  unfold as_i16. pose proof (wrap_range 16 x ltac:(lia)). change (2 ^ 16) with 65536 in *. change (2 ^ 15) with 32768.
  destruct (Z.ltb_spec (wrap 16 x) 32768); lia.
Qed.

(** ** colour *)
Lemma lin3_ok a r b g c bl : -256 <= a <= 256 -> -256 <= b <= 256 -> -256 <= c <= 256 ->
  is_byte r -> is_byte g -> is_byte bl -> lin3 a r b g c bl = Ok (a * r + b * g + c * bl + 128).
Proof.
  unfold is_byte, lin3. intros Ha Hb Hc Hr Hg Hbl.
  assert (-65536 <= a * r <= 65536) by nia. assert (-65536 <= b * g <= 65536) by nia. assert (-65536 <= c * bl <= 65536) by nia.
  rewrite (i32_ok (a * r)) by lia. cbn [rbind]. rewrite (i32_ok (b * g)) by lia. cbn [rbind].
  rewrite (i32_ok (c * bl)) by lia. cbn [rbind].
  rewrite (i32_ok (a * r + b * g)) by lia. cbn [rbind]. rewrite i32_ok by lia. cbn [rbind].
  apply i32_ok. lia.
Qed.

Lemma rgb_to_ycbcr_ok r g b : is_byte r -> is_byte g -> is_byte b ->
  rgb_to_ycbcr r g b =
    Ok (clamp ((77 * r + 150 * g + 29 * b + 128) / 256) 0 255,
        clamp ((-43 * r - 85 * g + 128 * b + 128) / 256 + 128) 0 255,
        clamp ((128 * r - 107 * g - 21 * b + 128) / 256 + 128) 0 255).
Proof.
  intros Hr Hg Hb. unfold rgb_to_ycbcr. rewrite !lin3_ok by (auto; lia). cbn [rbind].
  rewrite !Z.shiftr_div_pow2 by lia. change (2 ^ 8) with 256. unfold is_byte in *.
  replace (-43 * r + -85 * g + 128 * b + 128) with (-43 * r - 85 * g + 128 * b + 128) by lia.
  replace (128 * r + -107 * g + -21 * b + 128) with (128 * r - 107 * g - 21 * b + 128) by lia.
  rewrite i32_ok by (Z.to_euclidean_division_equations; lia). cbn [rbind].
  rewrite i32_ok by (Z.to_euclidean_division_equations; lia). reflexivity.
Qed.
Lemma rgb_to_ycbcr_range r g b y cb cr : rgb_to_ycbcr r g b = Ok (y, cb, cr) -> is_byte y /\ is_byte cb /\ is_byte cr.
Proof.
  unfold rgb_to_ycbcr. intros H. apply rbind_ok in H as (y0 & _ & H). apply rbind_ok in H as (c1 & _ & H).
  apply rbind_ok in H as (c2 & _ & H). apply rbind_ok in H as (c3 & _ & H). apply rbind_ok in H as (c4 & _ & H).
  injection H as <- <- <-. unfold is_byte.
  pose proof (clamp_range (Z.shiftr y0 8) 0 255). pose proof (clamp_range c2 0 255). pose proof (clamp_range c4 0 255). lia.
Qed.
Lemma rgb_to_ycbcr_gray v : is_byte v -> rgb_to_ycbcr v v v = Ok (v, 128, 128).
Proof.
  intros H. rewrite rgb_to_ycbcr_ok by auto. unfold is_byte in H.
  replace ((77 * v + 150 * v + 29 * v + 128) / 256) with v by (Z.to_euclidean_division_equations; lia).
  replace ((-43 * v - 85 * v + 128 * v + 128) / 256) with 0 by (Z.to_euclidean_division_equations; lia).
  replace ((128 * v - 107 * v - 21 * v + 128) / 256) with 0 by (Z.to_euclidean_division_equations; lia).
  rewrite !clamp_id by lia. reflexivity.
Qed.
(** against the exact BT.601 weights, in millionths *)
Lemma rgb_to_ycbcr_accurate r g b : is_byte r -> is_byte g -> is_byte b ->
  exists y cb cr, rgb_to_ycbcr r g b = Ok (y, cb, cr) /\
    Z.abs (1000000 * y - (299000 * r + 587000 * g + 114000 * b)) <= 1000000 /\
    Z.abs (1000000 * (cb - 128) - (- 168736 * r - 331264 * g + 500000 * b)) <= 1000000 /\
    Z.abs (1000000 * (cr - 128) - (500000 * r - 418688 * g - 81312 * b)) <= 1000000.
Proof.
  intros Hr Hg Hb. do 3 eexists. split; [apply rgb_to_ycbcr_ok; auto|]. unfold is_byte in *.
  rewrite !clamp_spec by lia. repeat split; Z.to_euclidean_division_equations; lia.
Qed.

(** ** quantization tables *)
Fixpoint nodupb (l : list Z) : bool :=
  match l with [] => true | x :: t => negb (existsb (Z.eqb x) t) && nodupb t end.
Lemma nodupb_ok l : nodupb l = true -> NoDup l.
Proof.
  induction l as [|x t IH]; cbn; intros H; [constructor|]. apply andb_prop in H as [H1 H2].
  constructor; auto. intros Hin. apply negb_true_iff in H1. apply not_true_iff_false in H1. apply H1.
  apply existsb_exists. exists x. split; auto. apply Z.eqb_refl.
Qed.
Lemma zigzag_perm : Permutation ZIGZAG (idxs 64).
Proof.
  apply NoDup_Permutation_bis.
  - apply nodupb_ok. vm_compute. reflexivity.
  - vm_compute. lia.
  - intros x Hx. assert (forallb (fun x => existsb (Z.eqb x) (idxs 64)) ZIGZAG = true) as E by (vm_compute; reflexivity).
    rewrite forallb_forall in E. specialize (E x Hx). apply existsb_exists in E as (y & Hy & He).
    apply Z.eqb_eq in He. subst. exact Hy.
Qed.
Lemma scaled_range s t : 1 <= scaled s t <= 255.
Proof. apply clamp_range. lia. Qed.
Lemma table_zigzag_range std q : Forall (fun v => 1 <= v <= 255) (table_zigzag std q) /\ length (table_zigzag std q) = 64%nat.
Proof. split; [|reflexivity]. apply Forall_map. apply Forall_forall. intros. apply scaled_range. Qed.
Lemma table_natural_range std q : Forall (fun v => 1 <= v <= 255) (table_natural std q) /\ length (table_natural std q) = length std.
Proof. split; [|apply map_length]. apply Forall_map. apply Forall_forall. intros. apply scaled_range. Qed.
Lemma znth_map_in f l i : 0 <= i < zlen l -> znth (map f l) i = f (znth l i).
Proof. intros H. unfold znth, zlen in *. rewrite (nth_indep _ 0 (f 0)) by (rewrite map_length; lia). apply map_nth. Qed.
Lemma ZIGZAG_bound i : 0 <= i < 64 -> 0 <= znth ZIGZAG i < 64.
Proof.
  intros H. assert (In (znth ZIGZAG i) ZIGZAG) as Hin by (apply nth_In; change (length ZIGZAG) with 64%nat; lia).
  apply (Permutation_in _ zigzag_perm) in Hin. unfold idxs in Hin. apply in_map_iff in Hin as (k & Hk & Hs).
  apply in_seq in Hs. lia.
Qed.
Lemma tables_agree std q i : length std = 64%nat -> 0 <= i < 64 ->
  znth (table_zigzag std q) i = znth (table_natural std q) (znth ZIGZAG i).
Proof.
  intros Hs Hi. unfold table_zigzag, table_natural. pose proof (ZIGZAG_bound i Hi).
  rewrite (znth_map_in _ ZIGZAG) by exact Hi. rewrite znth_map_in by (unfold zlen; lia). reflexivity.
Qed.
Lemma znth_zigzag_reorder b i : 0 <= i < 64 -> znth (zigzag_reorder b) i = znth b (znth ZIGZAG i).
Proof. intros H. unfold zigzag_reorder. apply znth_map_in. exact H. Qed.
Lemma zigzag_reorder_length b : length (zigzag_reorder b) = 64%nat.
Proof. reflexivity. Qed.

Lemma dequantize_gen c q n : (n <= 64)%nat ->
  let r := fold_left (fun result i => upd result (Z.to_nat (znth UNZIGZAG (Z.of_nat i)))
                                 (znth c (Z.of_nat i) * znth q (Z.of_nat i))) (seq 0 n) (repeat 0 64) in
  length r = 64%nat /\
  forall i, (i < n)%nat -> znth r (znth ZIGZAG (Z.of_nat i)) = znth c (Z.of_nat i) * znth q (Z.of_nat i).
Proof.
  induction n as [|n IH]; intros Hn; [split; [reflexivity|lia]|].
  rewrite seq_S, fold_left_app. cbn [fold_left plus]. destruct (IH ltac:(lia)) as [I1 I2].
  set (r := fold_left _ (seq 0 n) (repeat 0 64)) in *. clearbody r.
  change UNZIGZAG with ZIGZAG. split; [rewrite upd_length; auto|].
  intros i Hi. pose proof (ZIGZAG_bound (Z.of_nat n) ltac:(lia)) as Bn. pose proof (ZIGZAG_bound (Z.of_nat i) ltac:(lia)) as Bi.
  unfold znth at 1. rewrite nth_upd by lia.
  destruct (Nat.eqb_spec (Z.to_nat (znth ZIGZAG (Z.of_nat i))) (Z.to_nat (znth ZIGZAG (Z.of_nat n)))) as [E|E].
  - assert (i = n) as ->; [|reflexivity].
    assert (NoDup ZIGZAG) as ND.
    { apply (Permutation_NoDup (Permutation_sym zigzag_perm)). unfold idxs. apply FinFun.Injective_map_NoDup.
      - intros a b. lia. - apply seq_NoDup. }
    pose proof (proj1 (NoDup_nth ZIGZAG 0) ND i n) as K. change (length ZIGZAG) with 64%nat in K.
    apply K; try lia. unfold znth in E, Bn, Bi. rewrite !Nat2Z.id in *. lia.
  - apply I2. assert (i <> n) by (intros ->; lia). lia.
Qed.
Lemma dequantize_length c q : length (dequantize c q) = 64%nat.
Proof. apply (dequantize_gen c q 64). lia. Qed.
Lemma dequantize_zigzag c q i : 0 <= i < 64 ->
  znth (dequantize c q) (znth ZIGZAG i) = znth c i * znth q i.
Proof.
  intros H. destruct (dequantize_gen c q 64 ltac:(lia)) as [_ D]. specialize (D (Z.to_nat i) ltac:(lia)).
  rewrite Z2Nat.id in D by lia. exact D.
Qed.
(** every natural position is some zigzag position *)
Lemma zigzag_onto n : 0 <= n < 64 -> exists i, 0 <= i < 64 /\ znth ZIGZAG i = n.
Proof.
  intros H. assert (In n (idxs 64)) as Hin.
  { unfold idxs. apply in_map_iff. exists (Z.to_nat n). split; [lia|]. apply in_seq. lia. }
  apply (Permutation_in _ (Permutation_sym zigzag_perm)) in Hin.
  apply (In_nth _ _ 0) in Hin as (i & Hi & E). change (length ZIGZAG) with 64%nat in Hi.
  exists (Z.of_nat i). unfold znth. rewrite Nat2Z.id. lia.
Qed.
Lemma dequantize_of_quantized std quality block n : length std = 64%nat -> 0 <= n < 64 ->
  znth (dequantize (zigzag_reorder block) (table_zigzag std quality)) n =
  znth block n * znth (table_natural std quality) n.
Proof.
  intros Hs Hn. destruct (zigzag_onto n Hn) as (i & Hi & <-).
  rewrite dequantize_zigzag by exact Hi. rewrite znth_zigzag_reorder by exact Hi. rewrite tables_agree by auto. reflexivity.
Qed.

(** ** magnitudes *)
Lemma category_0 : category 0 = 0.
Proof. reflexivity. Qed.
Lemma category_spec v : v <> 0 -> 1 <= category v /\ 2 ^ (category v - 1) <= Z.abs v < 2 ^ category v.
Proof.
  intros H. unfold category. destruct (Z.eqb_spec (Z.abs v) 0); [lia|].
  pose proof (Z.log2_spec (Z.abs v) ltac:(lia)). pose proof (Z.log2_nonneg (Z.abs v)).
  replace (Z.log2 (Z.abs v) + 1 - 1) with (Z.log2 (Z.abs v)) by lia.
  replace (Z.log2 (Z.abs v) + 1) with (Z.succ (Z.log2 (Z.abs v))) by lia. lia.
Qed.
Lemma category_le v n : 0 <= n -> Z.abs v < 2 ^ n -> 0 <= category v <= n.
Proof.
  intros Hn H. destruct (Z.eq_dec v 0) as [->|N]; [rewrite category_0; lia|].
  pose proof (category_spec v N). assert (category v - 1 < n); [|lia].
  apply (Z.pow_lt_mono_r_iff 2); lia.
Qed.
Lemma category_pos v : 0 < category v <-> v <> 0.
Proof.
  split.
  - intros H ->. rewrite category_0 in H. lia.
  - intros H. pose proof (category_spec v H). lia.
Qed.
Lemma encode_value_ok v : v <> 0 -> - 2 ^ 15 < v < 2 ^ 15 ->
  let n := category v in
  exists bits, encode_value v = Ok (bits, n) /\ 1 <= n <= 15 /\ 0 <= bits < 2 ^ n /\ extend_amplitude bits n = v.
Proof.
  intros N H. cbn zeta. set (n := category v). pose proof (category_spec v N) as S. fold n in S.
  pose proof (category_le v 15 ltac:(lia) ltac:(lia)) as C. fold n in C.
  unfold encode_value. fold n. destruct (Z.eqb_spec n 0); [lia|].
  assert (2 ^ n <= 2 ^ 15) as P15 by (apply pow2_le; lia).
  assert (2 ^ n = 2 * 2 ^ (n - 1)) as P2.
  { replace n with (1 + (n - 1)) at 1 by lia. rewrite Zpow_plus by lia. reflexivity. }
  assert ((2 ^ n | 2 ^ 16)) as [d Hd].
  { exists (2 ^ (16 - n)). rewrite <- Zpow_plus by lia. f_equal. lia. }
  change (2 ^ 15) with 32768 in *.
  unfold extend_amplitude. rewrite (shiftl1 (n - 1)) by lia. destruct (Z.ltb_spec v 0) as [Hneg|Hpos].
  - rewrite i16_ok by (change (2 ^ 15) with 32768; lia). cbn [rbind]. destruct (Z.geb_spec n 16); [lia|].
    rewrite land_shl_mask by lia. exists (v - 1 + 2 ^ n).
    assert (wrap 16 (v - 1) mod 2 ^ n = v - 1 + 2 ^ n) as E.
    { unfold wrap. replace (2 ^ 16) with (2 ^ n * d) by lia. rewrite Z.rem_mul_r by lia.
      rewrite Z.mul_comm, Z.mod_add by lia. rewrite Z.mod_mod by lia.
      symmetry. apply (Z.mod_unique (v - 1) (2 ^ n) (-1)); lia. }
    rewrite E. split; [reflexivity|]. split; [lia|]. split; [lia|].
    destruct (Z.ltb_spec (v - 1 + 2 ^ n) (2 ^ (n - 1))); lia.
  - cbn [rbind]. destruct (Z.geb_spec n 16); [lia|]. rewrite land_shl_mask by lia. exists v.
    rewrite wrap_id by (change (2 ^ 16) with 65536; lia). rewrite Z.mod_small by lia.
    split; [reflexivity|]. split; [lia|]. split; [lia|]. destruct (Z.ltb_spec v (2 ^ (n - 1))); lia.
Qed.

(** ** the zigzag order of T.81 figure A.6: diagonals in turn, odd ones
    downwards, even ones upwards *)
Definition zz_key (n : Z) : Z :=
  let r := n / 8 in let c := n mod 8 in
  8 * (r + c) + (if Z.odd (r + c) then r else c).
Lemma zigzag_diagonals i j : 0 <= i < j -> j < 64 -> zz_key (znth ZIGZAG i) < zz_key (znth ZIGZAG j).
Proof.
  intros Hi Hj. assert (forallb (fun i => forallb (fun j => implb (i <? j) (zz_key (znth ZIGZAG i) <? zz_key (znth ZIGZAG j))) (idxs 64)) (idxs 64) = true) as E
    by (vm_compute; reflexivity).
  rewrite forallb_forall in E. assert (forall x, 0 <= x < 64 -> In x (idxs 64)) as Hin.
  { intros x Hx. unfold idxs. apply in_map_iff. exists (Z.to_nat x). split; [lia|]. apply in_seq. lia. }
  specialize (E i (Hin i ltac:(lia))). cbv beta in E. rewrite forallb_forall in E. specialize (E j (Hin j ltac:(lia))).
  cbv beta in E. destruct (Z.ltb_spec i j); [|lia]. cbn [implb] in E. apply Z.ltb_lt in E. exact E.
Qed.
(** ** the quality scale *)
Lemma quality_scale_mono p q : p <= q -> 0 <= quality_scale q <= quality_scale p.
Proof.
  intros H. unfold quality_scale. rewrite !clamp_spec by lia.
  set (a := Z.max 1 (Z.min 100 p)). set (b := Z.max 1 (Z.min 100 q)).
  assert (1 <= a <= b /\ b <= 100) as R by lia. clearbody a b.
  destruct (Z.ltb_spec a 50), (Z.ltb_spec b 50); try lia.
  - split; [apply Z.div_pos; lia|]. apply Z.div_le_compat_l; lia.
  - split; [lia|]. apply Z.le_trans with 100; [lia|]. apply Z.div_le_lower_bound; lia.
Qed.
Lemma scaled_mono s s' t : 0 <= t -> s <= s' -> scaled s t <= scaled s' t.
Proof.
  intros Ht H. unfold scaled. rewrite !clamp_spec by lia.
  assert ((t * s + 50) / 100 <= (t * s' + 50) / 100); [|lia]. apply Z.div_le_mono; [lia|]. nia.
Qed.
Lemma table_natural_mono std p q i : Forall (fun v => 0 <= v) std -> p <= q -> 0 <= i < zlen std ->
  znth (table_natural std q) i <= znth (table_natural std p) i.
Proof.
  intros Hs H Hi. unfold table_natural. rewrite !znth_map_in by auto. apply scaled_mono.
  - unfold znth. apply (Forall_nth_d (fun v => 0 <= v)); auto. lia.
  - apply quality_scale_mono. exact H.
Qed.
Lemma table_natural_50 std i : Forall (fun v => 1 <= v <= 255) std -> 0 <= i < zlen std ->
  znth (table_natural std 50) i = znth std i.
Proof.
  intros Hs Hi. unfold table_natural. rewrite znth_map_in by auto. unfold scaled. change (quality_scale 50) with 100.
  assert (1 <= znth std i <= 255) as R.
  { rewrite Forall_forall in Hs. apply Hs. unfold znth. apply nth_In. unfold zlen in Hi. lia. }
  replace (znth std i * 100 + 50) with (50 + znth std i * 100) by lia. rewrite Z.div_add by lia.
  change (50 / 100) with 0. rewrite clamp_id by lia. lia.
Qed.
