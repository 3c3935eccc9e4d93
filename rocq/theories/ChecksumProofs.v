(** Proofs about the checksum models. *)
From Verif Require Import Base ChecksumModel ChecksumSpec.

(** ** Adler-32 *)
Lemma sumZ_app a b : sumZ (a ++ b) = sumZ a + sumZ b.
Proof. induction a; cbn [app sumZ fold_right] in *; unfold sumZ in *; cbn [fold_right] in *; lia. Qed.
Lemma sumZ_cons a b : sumZ (a :: b) = a + sumZ b.
Proof. reflexivity. Qed.
Lemma sumZ_bytes l : bytes l -> 0 <= sumZ l <= 255 * zlen l.
Proof.
  induction 1 as [|b l Hb Hl IH]; [unfold sumZ, zlen; cbn; lia|].
  rewrite sumZ_cons, zlen_cons. unfold is_byte in *. lia.
Qed.

(** unreduced running sums *)
Fixpoint run_sums (l : list Z) (a b : Z) : Z * Z :=
  match l with
  | [] => (a, b)
  | x :: r => run_sums r (a + x) (b + (a + x))
  end.
Lemma run_sums_app l m a b :
  run_sums (l ++ m) a b = let '(a', b') := run_sums l a b in run_sums m a' b'.
Proof. revert a b; induction l as [|x l IH]; intros a b; cbn; auto. Qed.

Lemma run_sums_lin l a b :
  run_sums l a b = (a + sumZ l, b + zlen l * a + snd (run_sums l 0 0)).
Proof.
  revert a b; induction l as [|x l IH]; intros a b; cbn [run_sums].
  - unfold sumZ, zlen. cbn. f_equal; lia.
  - rewrite IH. rewrite (IH (0 + x) (0 + (0 + x))). cbn [snd].
    rewrite sumZ_cons, zlen_cons. f_equal; lia.
Qed.

Lemma run_sums_bound l n :
  bytes l -> zlen l <= n -> 0 <= snd (run_sums l 0 0) <= 255 * (zlen l * (zlen l + 1) / 2).
Proof.
  intros Hl _. induction l as [|x l IH] using rev_ind; [unfold zlen; cbn; lia|].
  apply bytes_app in Hl as [Hl Hx]. inversion Hx; subst.
  specialize (IH Hl). rewrite run_sums_app.
  rewrite run_sums_lin. cbn [run_sums snd].
  pose proof (sumZ_bytes l Hl). rewrite zlen_app. change (zlen [x]) with 1.
  unfold is_byte in *.
  assert ((zlen l + 1) * (zlen l + 1 + 1) / 2 = zlen l * (zlen l + 1) / 2 + (zlen l + 1)) as ->.
  { replace ((zlen l + 1) * (zlen l + 1 + 1)) with (zlen l * (zlen l + 1) + (zlen l + 1) * 2) by ring.
    rewrite Z.div_add by lia. reflexivity. }
  pose proof (zlen_nonneg l). lia.
Qed.

Definition mod_rel (s t : Z) : Prop := s mod MOD_ADLER = t mod MOD_ADLER.

Lemma adler_inner_ok_gen c s1 s2 :
  bytes c -> 0 <= s1 -> 0 <= s2 ->
  s1 + 255 * zlen c < 2 ^ 32 ->
  s2 + zlen c * s1 + 255 * (zlen c * (zlen c + 1) / 2) < 2 ^ 32 ->
  adler_inner c s1 s2 = Ok (run_sums c s1 s2) /\ adler_inner_w c s1 s2 = run_sums c s1 s2.
Proof.
  revert s1 s2; induction c as [|x c IH]; intros s1 s2 Hc H1 H2 B1 B2; [split; reflexivity|].
  inversion Hc as [|? ? Hx Hc']; subst. cbn [adler_inner adler_inner_w run_sums].
  rewrite zlen_cons in *. unfold is_byte in Hx. pose proof (zlen_nonneg c).
  assert ((1 + zlen c) * (1 + zlen c + 1) / 2 = zlen c * (zlen c + 1) / 2 + (zlen c + 1)) as E.
  { replace ((1 + zlen c) * (1 + zlen c + 1)) with (zlen c * (zlen c + 1) + (zlen c + 1) * 2) by ring.
    rewrite Z.div_add by lia. reflexivity. }
  rewrite E in B2.
  assert (0 <= zlen c * (zlen c + 1) / 2) by (apply Z.div_pos; nia).
  assert (s2 + (s1 + x) + zlen c * (s1 + x) + 255 * (zlen c * (zlen c + 1) / 2) < 2 ^ 32) by nia.
  assert (0 <= zlen c * (s1 + x)) by nia.
  unfold add_u32 at 1. destruct (Z.ltb_spec (s1 + x) (2 ^ 32)); [|lia]. cbn [rbind].
  unfold add_u32. destruct (Z.ltb_spec (s2 + (s1 + x)) (2 ^ 32)); [|lia]. cbn [rbind].
  rewrite (wrap_id 32 (s1 + x)) by lia. rewrite (wrap_id 32 (s2 + (s1 + x))) by lia.
  apply IH; auto; lia.
Qed.

Lemma adler_inner_ok c s1 s2 :
  bytes c -> zlen c <= 5552 -> 0 <= s1 < MOD_ADLER -> 0 <= s2 < MOD_ADLER ->
  adler_inner c s1 s2 = Ok (run_sums c s1 s2) /\ adler_inner_w c s1 s2 = run_sums c s1 s2.
Proof.
  unfold MOD_ADLER. intros Hc Hn H1 H2. pose proof (zlen_nonneg c).
  apply adler_inner_ok_gen; auto; try lia.
  assert (zlen c * s1 <= 5552 * 65520) by nia.
  assert (zlen c * (zlen c + 1) / 2 <= 5552 * 5553 / 2) by (apply Z.div_le_mono; nia).
  change (5552 * 5553 / 2) with 15415128 in *. lia.
Qed.

Lemma run_sums_mod l a b a' b' :
  mod_rel a a' -> mod_rel b b' ->
  mod_rel (fst (run_sums l a b)) (fst (run_sums l a' b')) /\
  mod_rel (snd (run_sums l a b)) (snd (run_sums l a' b')).
Proof.
  revert a b a' b'; induction l as [|x l IH]; intros a b a' b' Ha Hb; [split; assumption|].
  cbn [run_sums]. apply IH; unfold mod_rel, MOD_ADLER in *.
  - rewrite Z.add_mod, Ha, <- Z.add_mod by lia. reflexivity.
  - rewrite !Z.add_assoc. rewrite Z.add_mod. rewrite (Z.add_mod b a), Ha, Hb by lia.
    rewrite <- (Z.add_mod b' a') by lia. rewrite <- Z.add_mod by lia. reflexivity. lia.
Qed.

Lemma adler_chunks_ok cs s1 s2 :
  Forall bytes cs -> Forall (fun c => zlen c <= 5552) cs ->
  0 <= s1 < MOD_ADLER -> 0 <= s2 < MOD_ADLER ->
  exists t1 t2,
    adler_chunks cs s1 s2 = Ok (t1, t2) /\ adler_chunks_w cs s1 s2 = (t1, t2) /\
    0 <= t1 < MOD_ADLER /\ 0 <= t2 < MOD_ADLER /\
    mod_rel t1 (fst (run_sums (concat cs) s1 s2)) /\ mod_rel t2 (snd (run_sums (concat cs) s1 s2)).
Proof.
  revert s1 s2; induction cs as [|c cs IH]; intros s1 s2 Hb Hn H1 H2.
  - exists s1, s2. cbn. unfold mod_rel. repeat split; auto; lia.
  - inversion Hb; inversion Hn; subst. cbn [adler_chunks adler_chunks_w concat].
    destruct (adler_inner_ok c s1 s2) as [E1 E2]; auto. rewrite E1, E2. cbn [rbind].
    rewrite run_sums_app. destruct (run_sums c s1 s2) as [u1 u2]. cbn [rbind].
    destruct (IH (u1 mod MOD_ADLER) (u2 mod MOD_ADLER)) as (t1 & t2 & A & B & C & D & E & F); auto;
      try (apply Z.mod_pos_bound; reflexivity).
    exists t1, t2. repeat split; auto; try lia.
    + unfold mod_rel. rewrite E. apply run_sums_mod; unfold mod_rel; apply Z.mod_mod; discriminate.
    + unfold mod_rel. rewrite F. apply run_sums_mod; unfold mod_rel; apply Z.mod_mod; discriminate.
Qed.

Lemma adler_B_snoc l x : adler_B (l ++ [x]) = adler_B l + adler_A (l ++ [x]).
Proof.
  unfold adler_B. rewrite app_length. cbn [length].
  rewrite Nat.add_1_r, seq_S, map_app, sumZ_app. cbn [map].
  replace (1 + length l)%nat with (length (l ++ [x])) by (rewrite app_length; cbn; lia).
  rewrite firstn_all. rewrite sumZ_cons. change (sumZ []) with 0. rewrite Z.add_0_r.
  f_equal. f_equal. apply map_ext_in. intros n Hn. apply in_seq in Hn.
  rewrite firstn_app. replace (n - length l)%nat with 0%nat by lia.
  cbn [firstn]. rewrite app_nil_r. reflexivity.
Qed.
Lemma run_sums_AB l : run_sums l 1 0 = (adler_A l, adler_B l).
Proof.
  induction l as [|x l IH] using rev_ind; [reflexivity|].
  rewrite run_sums_app, IH. cbn [run_sums]. rewrite adler_B_snoc.
  assert (adler_A (l ++ [x]) = adler_A l + x) as ->.
  { unfold adler_A. rewrite sumZ_app, sumZ_cons. change (sumZ []) with 0. lia. }
  reflexivity.
Qed.

Lemma Forall_concat_chunks (P : Z -> Prop) n l :
  Forall P l -> Forall (Forall P) (chunks n l).
Proof.
  unfold chunks. generalize (length l) as f. intros f; revert l.
  induction f as [|f IH]; intros l H; cbn [chunks_fuel]; [constructor|].
  destruct l; constructor.
  - apply Forall_firstn; auto.
  - apply IH, Forall_skipn; auto.
Qed.

Lemma adler_combine s1 s2 : 0 <= s1 < 65536 -> 0 <= s2 < 65536 ->
  Z.lor (wrap 32 (Z.shiftl s2 16)) s1 = s2 * 65536 + s1.
Proof.
  intros H1 H2. rewrite Z.shiftl_mul_pow2 by lia. change (2 ^ 16) with 65536.
  rewrite wrap_id by (change (2^32) with 4294967296; lia).
  rewrite Z.lor_comm. change 65536 with (2 ^ 16). rewrite (lor_disjoint s1 s2 16) by lia. lia.
Qed.

Lemma adler_all data : bytes data ->
  adler32_checked data = Ok (adler_spec data) /\ adler32 data = adler_spec data.
Proof.
  intros Hd. unfold adler32_checked, adler32.
  destruct (adler_chunks_ok (chunks ADLER_NMAX data) 1 0) as (t1 & t2 & A & B & C & D & E & F).
  - apply Forall_concat_chunks; auto.
  - eapply Forall_impl; [|apply chunks_fuel_len]. cbn beta. intros c Hc.
    unfold zlen, ADLER_NMAX in *. lia.
  - unfold MOD_ADLER; lia.
  - unfold MOD_ADLER; lia.
  - rewrite A, B. cbn [rbind].
    rewrite chunks_concat in E, F by (unfold ADLER_NMAX; lia).
    rewrite run_sums_AB in E, F. cbn [fst snd] in *.
    unfold mod_rel, MOD_ADLER in *.
    rewrite adler_combine by lia.
    rewrite Z.mod_small in E by lia. rewrite Z.mod_small in F by lia.
    unfold adler_spec. rewrite E, F. split; reflexivity.
Qed.

Lemma adler_spec_range data : 0 <= adler_spec data < 2 ^ 32.
Proof. unfold adler_spec. change (2^32) with 4294967296. lia. Qed.

(** ** CRC-32 *)
Lemma crc_poly_eq : crc_poly_reflected = CRC_POLY.
Proof. reflexivity. Qed.

Lemma crc_shift_alt c : crc_shift c = if Z.odd c then Z.lxor (c / 2) CRC_POLY else c / 2.
Proof.
  unfold crc_shift. change 1 with (Z.ones 1) at 1. rewrite Z.land_ones by lia.
  change (2 ^ 1) with 2. rewrite Z.shiftr_div_pow2 by lia. change (2 ^ 1) with 2.
  rewrite Zmod_odd. destruct (Z.odd c); reflexivity.
Qed.

Lemma odd_lxor a b : Z.odd (Z.lxor a b) = xorb (Z.odd a) (Z.odd b).
Proof. rewrite <- !Z.bit0_odd. apply Z.lxor_spec. Qed.
Lemma div2_lxor a b : Z.lxor a b / 2 = Z.lxor (a / 2) (b / 2).
Proof. rewrite <- !Z.div2_div, !Z.div2_spec. apply Z.shiftr_lxor. Qed.

Lemma lxor_swap a b c : Z.lxor (Z.lxor a b) c = Z.lxor (Z.lxor a c) b.
Proof. rewrite !Z.lxor_assoc, (Z.lxor_comm b c). reflexivity. Qed.

Lemma crc_shift_lin a b : crc_shift (Z.lxor a b) = Z.lxor (crc_shift a) (crc_shift b).
Proof.
  rewrite !crc_shift_alt, odd_lxor, div2_lxor.
  destruct (Z.odd a), (Z.odd b); cbn [xorb];
    repeat rewrite Z.lxor_assoc; auto.
  - rewrite (Z.lxor_comm CRC_POLY). rewrite !Z.lxor_assoc, Z.lxor_nilpotent, Z.lxor_0_r. reflexivity.
  - rewrite (Z.lxor_comm (b / 2) CRC_POLY). reflexivity.
Qed.
Lemma crc_shift_double y : crc_shift (2 * y) = y.
Proof.
  rewrite crc_shift_alt. rewrite Z.odd_mul. cbn [Z.odd andb].
  rewrite Z.mul_comm, Z.div_mul by lia. reflexivity.
Qed.
Lemma iter_S {A} (f : A -> A) n x : Nat.iter (S n) f x = f (Nat.iter n f x).
Proof. reflexivity. Qed.
Lemma iter_0 {A} (f : A -> A) x : Nat.iter 0 f x = x.
Proof. reflexivity. Qed.
Lemma iter_lin n a b :
  Nat.iter n crc_shift (Z.lxor a b) = Z.lxor (Nat.iter n crc_shift a) (Nat.iter n crc_shift b).
Proof. induction n as [|n IH]; [reflexivity|]. rewrite !iter_S, IH. apply crc_shift_lin. Qed.
Lemma iter_plus {A} (f : A -> A) n m x : Nat.iter (n + m) f x = Nat.iter n f (Nat.iter m f x).
Proof. induction n as [|n IH]; [reflexivity|]. cbn [Nat.add]. rewrite !iter_S, IH; auto. Qed.
Lemma iter_shift n m y : Nat.iter (n + m) crc_shift (2 ^ Z.of_nat m * y) = Nat.iter n crc_shift y.
Proof.
  rewrite iter_plus. f_equal. revert y; induction m as [|m IH]; intros y.
  - change (2 ^ Z.of_nat 0) with 1. cbn. lia.
  - rewrite iter_S, pow2_S.
    replace (2 * 2 ^ Z.of_nat m * y) with (2 ^ Z.of_nat m * (2 * y)) by ring.
    rewrite IH. apply crc_shift_double.
Qed.

Lemma split_bits x n : 0 <= n -> x = Z.lxor (Z.land x (2 ^ n - 1)) (2 ^ n * (Z.shiftr x n)).
Proof.
  intros Hn. rewrite land_mask by auto. rewrite Z.shiftr_div_pow2 by auto.
  set (p := 2 ^ n). assert (0 < p) by (apply Z.pow_pos_nonneg; lia).
  rewrite (Z.mul_comm p).
  assert (Z.land (x mod p) (x / p * p) = 0) as Hl.
  { apply Z.bits_inj'; intros i Hi. rewrite Z.land_spec, Z.bits_0. unfold p.
    destruct (Z.lt_ge_cases i n).
    - rewrite Z.mul_pow2_bits_low by lia. apply andb_false_r.
    - rewrite Z.mod_pow2_bits_high by lia. reflexivity. }
  rewrite <- Z.add_nocarry_lxor by exact Hl.
  rewrite Z.add_comm, Z.mul_comm. apply Z.div_mod. lia.
Qed.

Lemma znth_map_range (f : Z -> Z) n i :
  0 <= i < Z.of_nat n -> znth (map f (zrange n)) i = f i.
Proof.
  intros H. unfold znth, zrange. rewrite map_map.
  rewrite nth_indep with (d' := f (Z.of_nat 0)).
  - rewrite (map_nth (fun x => f (Z.of_nat x)) (seq 0 n) 0%nat).
    rewrite seq_nth by lia. f_equal. lia.
  - rewrite map_length, seq_length. lia.
Qed.

Lemma land255 x : 0 <= Z.land x 255 < 256.
Proof. change 255 with (Z.ones 8). rewrite Z.land_ones by lia. change (2 ^ 8) with 256. lia. Qed.

Lemma crc_table0_spec i : 0 <= i < 256 -> znth crc_table0 i = Nat.iter 8 crc_shift i.
Proof. intros. unfold crc_table0. rewrite znth_map_range by lia. reflexivity. Qed.

Lemma shift8_table x :
  Z.lxor (Z.shiftr x 8) (znth crc_table0 (Z.land x 255)) = Nat.iter 8 crc_shift x.
Proof.
  rewrite crc_table0_spec by apply land255.
  rewrite (split_bits x 8) at 3 by lia. change (2 ^ 8 - 1) with 255.
  rewrite iter_lin. rewrite (iter_shift 0 8). cbn [Nat.iter nat_rect]. apply Z.lxor_comm.
Qed.

Lemma crc_next_spec f :
  crc_next_table (map f (zrange 256)) = map (fun i => Nat.iter 8 crc_shift (f i)) (zrange 256).
Proof.
  unfold crc_next_table. rewrite map_map. apply map_ext. intros i. apply shift8_table.
Qed.

Lemma crc_tab_spec t i : (t < 8)%nat -> 0 <= i < 256 ->
  crc_tab t i = Nat.iter (8 * (t + 1)) crc_shift i.
Proof.
  intros Ht Hi. unfold crc_tab, crc_tables. unfold crc_table0. rewrite !crc_next_spec.
  unfold crc_entry0.
  do 8 (destruct t as [|t]; [cbn [nth]; rewrite znth_map_range by lia; rewrite <- ?iter_plus; reflexivity|]).
  lia.
Qed.

Lemma crc_step1_spec c b : 0 <= b < 256 -> crc_step1 c b = Nat.iter 8 crc_shift (Z.lxor c b).
Proof.
  intros Hb. unfold crc_step1. change (crc_tab 0) with (znth crc_table0).
  rewrite <- (shift8_table (Z.lxor c b)). f_equal.
  rewrite Z.shiftr_lxor. rewrite (Z.shiftr_div_pow2 b) by lia. change (2 ^ 8) with 256.
  rewrite (Z.div_small b) by lia. symmetry. apply Z.lxor_0_r.
Qed.

#[local] Opaque crc_step1 crc_tab crc_table0.

Lemma lor_lxor_disj a b n : 0 <= n -> 0 <= a < 2 ^ n -> Z.lor a (2 ^ n * b) = Z.lxor a (2 ^ n * b).
Proof.
  intros Hn Ha. symmetry. apply Z.lxor_lor.
  apply Z.bits_inj'; intros i Hi. rewrite Z.land_spec, Z.bits_0. rewrite (Z.mul_comm (2^n)).
  destruct (Z.lt_ge_cases i n).
  - rewrite Z.mul_pow2_bits_low by lia. apply andb_false_r.
  - replace a with (a mod 2 ^ n) by (apply Z.mod_small; lia).
    rewrite Z.mod_pow2_bits_high by lia. reflexivity.
Qed.

Lemma mul_pow2_lxor a b n : 0 <= n -> 2 ^ n * Z.lxor a b = Z.lxor (2 ^ n * a) (2 ^ n * b).
Proof.
  intros. rewrite !(Z.mul_comm (2 ^ n)), <- !Z.shiftl_mul_pow2 by auto. apply Z.shiftl_lxor.
Qed.

Lemma le32_sum a b c d : 0 <= a < 256 -> 0 <= b < 256 -> 0 <= c < 256 -> 0 <= d < 256 ->
  le32 a b c d = a + 256 * (b + 256 * (c + 256 * d)).
Proof.
  intros. unfold le32. rewrite !Z.shiftl_mul_pow2 by lia.
  assert (Z.lor (c * 2 ^ 16) (d * 2 ^ 24) = (c + d * 2 ^ 8) * 2 ^ 16) as ->.
  { replace (d * 2 ^ 24) with ((d * 2 ^ 8) * 2 ^ 16) by lia.
    rewrite <- !(Z.shiftl_mul_pow2 _ 16) by lia. rewrite <- Z.shiftl_lor. f_equal.
    apply lor_disjoint; lia. }
  assert (Z.lor (b * 2 ^ 8) ((c + d * 2 ^ 8) * 2 ^ 16) = (b + (c + d * 2 ^ 8) * 2 ^ 8) * 2 ^ 8) as ->.
  { replace ((c + d * 2 ^ 8) * 2 ^ 16) with (((c + d * 2 ^ 8) * 2 ^ 8) * 2 ^ 8) by lia.
    rewrite <- !(Z.shiftl_mul_pow2 _ 8) by lia. rewrite <- Z.shiftl_lor. f_equal.
    rewrite !(Z.shiftl_mul_pow2) by lia. apply lor_disjoint; lia. }
  rewrite lor_disjoint by lia. lia.
Qed.

(** One slice of a 32-bit word through 8*(k+1) register shifts. *)
Lemma iter_slice k x :
  Nat.iter (8 * (k + 2)) crc_shift x =
  Z.lxor (Nat.iter (8 * (k + 2)) crc_shift (Z.land x 255))
         (Nat.iter (8 * (k + 1)) crc_shift (Z.shiftr x 8)).
Proof.
  rewrite (split_bits x 8) at 1 by lia. change (2 ^ 8 - 1) with 255.
  rewrite iter_lin. f_equal.
  replace (8 * (k + 2))%nat with (8 * (k + 1) + 8)%nat by lia.
  apply (iter_shift (8 * (k + 1)) 8).
Qed.

Lemma word_slices k x : 0 <= x < 2 ^ 32 ->
  Nat.iter (8 * (k + 4)) crc_shift x =
  Z.lxor (Z.lxor (Z.lxor
    (Nat.iter (8 * (k + 4)) crc_shift (Z.land x 255))
    (Nat.iter (8 * (k + 3)) crc_shift (Z.land (Z.shiftr x 8) 255)))
    (Nat.iter (8 * (k + 2)) crc_shift (Z.land (Z.shiftr x 16) 255)))
    (Nat.iter (8 * (k + 1)) crc_shift (Z.land (Z.shiftr x 24) 255)).
Proof.
  intros Hx.
  assert (Nat.iter (8 * (k + 4)) crc_shift x = Z.lxor (Nat.iter (8 * (k + 4)) crc_shift (Z.land x 255))
         (Nat.iter (8 * (k + 3)) crc_shift (Z.shiftr x 8))) as ->.
  { pose proof (iter_slice (k + 2) x) as E. replace (k + 2 + 2)%nat with (k + 4)%nat in E by lia.
    replace (k + 2 + 1)%nat with (k + 3)%nat in E by lia. exact E. }
  assert (Nat.iter (8 * (k + 3)) crc_shift (Z.shiftr x 8) =
          Z.lxor (Nat.iter (8 * (k + 3)) crc_shift (Z.land (Z.shiftr x 8) 255))
         (Nat.iter (8 * (k + 2)) crc_shift (Z.shiftr x 16))) as ->.
  { pose proof (iter_slice (k + 1) (Z.shiftr x 8)) as E. replace (k + 1 + 2)%nat with (k + 3)%nat in E by lia.
    replace (k + 1 + 1)%nat with (k + 2)%nat in E by lia. rewrite Z.shiftr_shiftr in E by lia. exact E. }
  rewrite (iter_slice k (Z.shiftr x 16)). rewrite Z.shiftr_shiftr by lia. change (16 + 8) with 24.
  assert (Z.shiftr x 24 = Z.land (Z.shiftr x 24) 255) as E.
  { change 255 with (Z.ones 8). rewrite Z.land_ones by lia. rewrite Z.shiftr_div_pow2 by lia.
    rewrite Z.mod_small; [reflexivity|].
    split; [apply Z.div_pos; lia|]. apply Z.div_lt_upper_bound; lia. }
  rewrite E at 1. rewrite !Z.lxor_assoc. reflexivity.
Qed.

Lemma crc_range_shift c : 0 <= c < 2 ^ 32 -> 0 <= crc_shift c < 2 ^ 32.
Proof.
  intros H. rewrite crc_shift_alt. destruct (Z.odd c); [|lia].
  assert (0 <= c / 2) by lia.
  split; [apply Z.lxor_nonneg; unfold CRC_POLY; lia|].
  assert (0 <= Z.lxor (c / 2) CRC_POLY) by (apply Z.lxor_nonneg; unfold CRC_POLY; lia).
  destruct (Z.eq_dec (Z.lxor (c / 2) CRC_POLY) 0) as [->|]; [lia|].
  apply Z.log2_lt_pow2; [lia|].
  pose proof (Z.log2_lxor (c / 2) CRC_POLY ltac:(lia) ltac:(unfold CRC_POLY; lia)).
  assert (Z.log2 (c / 2) < 32). { destruct (Z.eq_dec (c/2) 0) as [->|]; [cbn; lia|]. apply Z.log2_lt_pow2; lia. }
  change (Z.log2 CRC_POLY) with 31 in *. lia.
Qed.
Lemma crc_range_iter n c : 0 <= c < 2 ^ 32 -> 0 <= Nat.iter n crc_shift c < 2 ^ 32.
Proof. intros; induction n; [assumption|]. rewrite iter_S. auto using crc_range_shift. Qed.

Lemma lxor_range a b n : 0 <= n -> 0 <= a < 2 ^ n -> 0 <= b < 2 ^ n -> 0 <= Z.lxor a b < 2 ^ n.
Proof.
  intros Hn Ha Hb. assert (0 <= Z.lxor a b) by (apply Z.lxor_nonneg; lia). split; auto.
  destruct (Z.eq_dec (Z.lxor a b) 0) as [->|]; [apply Z.pow_pos_nonneg; lia|].
  destruct (Z.eq_dec a 0) as [->|]; [rewrite Z.lxor_0_l; lia|].
  destruct (Z.eq_dec b 0) as [->|]; [rewrite Z.lxor_0_r; lia|].
  apply Z.log2_lt_pow2; [lia|].
  pose proof (Z.log2_lxor a b ltac:(lia) ltac:(lia)).
  assert (Z.log2 a < n) by (apply Z.log2_lt_pow2; lia).
  assert (Z.log2 b < n) by (apply Z.log2_lt_pow2; lia). lia.
Qed.

Lemma crc_range_step1 c b : 0 <= c < 2 ^ 32 -> 0 <= b < 256 -> 0 <= crc_step1 c b < 2 ^ 32.
Proof.
  intros. rewrite crc_step1_spec by auto. apply crc_range_iter. apply lxor_range; lia.
Qed.
Lemma crc_range_fold l c : bytes l -> 0 <= c < 2 ^ 32 -> 0 <= fold_left crc_step1 l c < 2 ^ 32.
Proof.
  intros H; revert c; induction H; intros c Hc; cbn [fold_left]; auto.
  apply IHForall. apply crc_range_step1; auto.
Qed.

(** Feeding the four bytes of a little-endian word *)
Lemma feed4 k c a b d e : is_byte a -> is_byte b -> is_byte d -> is_byte e ->
  Nat.iter (8 * k) crc_shift (fold_left crc_step1 [a; b; d; e] c) =
  Nat.iter (8 * (k + 4)) crc_shift (Z.lxor c (le32 a b d e)).
Proof.
  unfold is_byte. intros Ha Hb Hd He. cbn [fold_left].
  rewrite !crc_step1_spec by auto.
  assert (forall n x y, Z.lxor (Nat.iter n crc_shift x) y =
            Nat.iter n crc_shift (Z.lxor x (2 ^ Z.of_nat n * y))) as P.
  { intros n x y. rewrite iter_lin. f_equal. symmetry. apply (iter_shift 0 n). }
  rewrite (P 8%nat (Z.lxor c a) b). rewrite <- (iter_plus crc_shift 8 8).
  rewrite (P (8 + 8)%nat _ d). rewrite <- (iter_plus crc_shift 8 (8 + 8)).
  rewrite (P (8 + (8 + 8))%nat _ e). rewrite <- (iter_plus crc_shift 8 (8 + (8 + 8))).
  rewrite <- iter_plus.
  replace (8 * (k + 4))%nat with (8 * k + (8 + (8 + (8 + 8))))%nat by lia.
  f_equal. rewrite !Z.lxor_assoc. f_equal.
  assert (le32 a b d e = Z.lor a (2 ^ 8 * Z.lor b (2 ^ 8 * Z.lor d (2 ^ 8 * e)))) as ->.
  { unfold le32. rewrite !(Z.mul_comm (2 ^ 8)), <- !Z.shiftl_mul_pow2, !Z.shiftl_lor, !Z.shiftl_shiftl by lia.
    reflexivity. }
  rewrite !lor_lxor_disj by lia. rewrite !mul_pow2_lxor by lia. rewrite !Z.mul_assoc. reflexivity.
Qed.

Lemma crc_step8_spec c b0 b1 b2 b3 b4 b5 b6 b7 :
  0 <= c < 2 ^ 32 ->
  is_byte b0 -> is_byte b1 -> is_byte b2 -> is_byte b3 ->
  is_byte b4 -> is_byte b5 -> is_byte b6 -> is_byte b7 ->
  crc_step8 c b0 b1 b2 b3 b4 b5 b6 b7 = fold_left crc_step1 [b0; b1; b2; b3; b4; b5; b6; b7] c.
Proof.
  intros Hc H0 H1 H2 H3 H4 H5 H6 H7.
  assert (forall a b c d, is_byte a -> is_byte b -> is_byte c -> is_byte d ->
            0 <= le32 a b c d < 2 ^ 32) as R.
  { unfold is_byte. intros. rewrite le32_sum by auto. lia. }
  change [b0; b1; b2; b3; b4; b5; b6; b7] with ([b0; b1; b2; b3] ++ [b4; b5; b6; b7]).
  rewrite fold_left_app.
  pose proof (feed4 0 (fold_left crc_step1 [b0; b1; b2; b3] c) b4 b5 b6 b7 H4 H5 H6 H7) as F.
  change (8 * 0)%nat with 0%nat in F. rewrite iter_0 in F. rewrite F; clear F.
  rewrite iter_lin. rewrite (feed4 (0 + 4) c b0 b1 b2 b3 H0 H1 H2 H3).
  unfold crc_step8.
  change (0 + 4 + 4)%nat with (4 + 4)%nat.
  rewrite (word_slices 4 (Z.lxor c (le32 b0 b1 b2 b3))) by (apply lxor_range; auto; lia).
  rewrite (word_slices 0 (le32 b4 b5 b6 b7)) by auto.
  rewrite !crc_tab_spec by (try apply land255; lia).
  cbn [Nat.add Nat.mul]. rewrite !Z.lxor_assoc. reflexivity.
Qed.

#[local] Opaque crc_step8.

Lemma crc_loop_spec n data c : (length data <= n)%nat -> bytes data -> 0 <= c < 2 ^ 32 ->
  crc_loop c data = fold_left crc_step1 data c.
Proof.
  revert data c; induction n as [|n IH]; intros data c Hn Hd Hc.
  - destruct data; [reflexivity|cbn in Hn; lia].
  - do 8 (destruct data as [|? data]; [reflexivity|]).
    cbn [crc_loop]. repeat match goal with H : bytes (_ :: _) |- _ => inversion H; subst; clear H end.
    repeat match goal with H : Forall is_byte (_ :: _) |- _ => inversion H; subst; clear H end.
    rewrite crc_step8_spec by auto.
    rewrite IH.
    + symmetry.
      match goal with |- fold_left _ (?b0 :: ?b1 :: ?b2 :: ?b3 :: ?b4 :: ?b5 :: ?b6 :: ?b7 :: ?r) _ = _ =>
        apply (fold_left_app crc_step1 [b0; b1; b2; b3; b4; b5; b6; b7] r) end.
    + cbn [length] in Hn; lia.
    + assumption.
    + apply crc_range_fold; auto. repeat constructor; unfold is_byte in *; lia.
Qed.

Lemma crc_update_app c a b : crc_update c (a ++ b) = crc_update (crc_update c a) b.
Proof. apply fold_left_app. Qed.

(** register steps against the bit-serial definition *)
Lemma crc_bit_alt c b : crc_bit c b = crc_shift (Z.lxor c (Z.b2z b)).
Proof.
  unfold crc_bit. rewrite crc_shift_alt, odd_lxor, div2_lxor, crc_poly_eq.
  assert (Z.odd (Z.b2z b) = b) as -> by (destruct b; reflexivity).
  assert (Z.b2z b / 2 = 0) as -> by (destruct b; reflexivity).
  rewrite Z.lxor_0_r. reflexivity.
Qed.
Lemma val_of_lxor_cons b r : val_of (b :: r) = Z.lxor (Z.b2z b) (2 * val_of r).
Proof.
  cbn [val_of]. change 2 with (2 ^ 1). rewrite <- lor_lxor_disj by (destruct b; cbn; lia).
  rewrite (Z.mul_comm (2 ^ 1)). symmetry. apply lor_disjoint; destruct b; cbn; lia.
Qed.
Lemma crc_bits_val l c :
  fold_left crc_bit l c = Nat.iter (length l) crc_shift (Z.lxor c (val_of l)).
Proof.
  revert c; induction l as [|b r IH]; intros c.
  - cbn. rewrite Z.lxor_0_r. reflexivity.
  - cbn [fold_left length]. rewrite IH, crc_bit_alt, val_of_lxor_cons.
    replace (S (length r)) with (length r + 1)%nat by lia. rewrite iter_plus. f_equal.
    rewrite <- Z.lxor_assoc. change (Nat.iter 1 crc_shift ?x) with (crc_shift x).
    rewrite (crc_shift_lin _ (2 * val_of r)), crc_shift_double. reflexivity.
Qed.
Lemma crc_step1_bits c b : is_byte b -> crc_step1 c b = fold_left crc_bit (bits_of 8 b) c.
Proof.
  intros Hb. rewrite crc_step1_spec by auto. rewrite crc_bits_val, bits_of_length.
  rewrite val_bits_small by exact Hb. reflexivity.
Qed.
Lemma crc_bytes_bits l c : bytes l -> fold_left crc_step1 l c = fold_left crc_bit (bytes_bits l) c.
Proof.
  intros H; revert c; induction H as [|b l Hb Hl IH]; intros c; [reflexivity|].
  rewrite bytes_bits_cons, fold_left_app. cbn [fold_left]. rewrite IH.
  rewrite crc_step1_bits by auto. reflexivity.
Qed.

Lemma lxor_ones32 x : 0 <= x < 2 ^ 32 -> Z.lxor x 0xFFFFFFFF = 2 ^ 32 - 1 - x.
Proof.
  intros H. change 0xFFFFFFFF with (Z.ones 32).
  assert (Z.lxor x (Z.ones 32) = Z.ldiff (Z.ones 32) x) as ->.
  { apply Z.bits_inj'; intros i Hi. rewrite Z.lxor_spec, Z.ldiff_spec.
    destruct (Z.lt_ge_cases i 32).
    - rewrite Z.ones_spec_low by lia. cbn. apply xorb_true_r.
    - rewrite Z.ones_spec_high by lia. cbn.
      replace x with (x mod 2 ^ 32) by (apply Z.mod_small; lia).
      rewrite Z.mod_pow2_bits_high by lia. reflexivity. }
  symmetry. change (2 ^ 32 - 1) with (Z.ones 32). apply Z.sub_nocarry_ldiff.
  apply Z.bits_inj'; intros i Hi. rewrite Z.ldiff_spec, Z.bits_0.
  destruct (Z.lt_ge_cases i 32).
  - rewrite Z.ones_spec_low by lia. apply andb_false_r.
  - replace x with (x mod 2 ^ 32) by (apply Z.mod_small; lia).
    rewrite Z.mod_pow2_bits_high by lia. reflexivity.
Qed.

Lemma crc_all data : bytes data ->
  crc32 data = crc_spec data /\ crc32_bytewise data = crc_spec data /\ 0 <= crc_spec data < 2 ^ 32.
Proof.
  intros Hd. unfold crc32, crc32_bytewise, crc_spec.
  rewrite (crc_loop_spec (length data)) by (auto; lia).
  pose proof (crc_range_fold data 0xFFFFFFFF Hd ltac:(lia)) as R.
  rewrite <- crc_bytes_bits by auto. change (2 ^ 32 - 1) with 0xFFFFFFFF at 2 4 6 7.
  rewrite lxor_ones32 by exact R. change (2 ^ 32 - 1) with 0xFFFFFFFF in *.
  repeat split; lia.
Qed.

Lemma crc_incremental_ok parts : Forall bytes parts ->
  crc_finalize (fold_left crc_update parts crc_new) = crc32 (concat parts).
Proof.
  intros H. assert (forall c, fold_left crc_update parts c = crc_update c (concat parts)) as E.
  { induction parts as [|p ps IH]; intros c; [reflexivity|].
    inversion H; subst. cbn [fold_left concat]. rewrite crc_update_app, <- IH by auto. reflexivity. }
  rewrite E. unfold crc_finalize, crc32, crc_update, crc_new.
  assert (bytes (concat parts)) as Hb.
  { clear E. induction H; cbn; [constructor|]. apply bytes_app; auto. }
  rewrite (crc_loop_spec (length (concat parts))) by (auto; lia). reflexivity.
Qed.

(** ** Error detection *)
Lemma crc_shift_inj a b : 0 <= a < 2 ^ 32 -> 0 <= b < 2 ^ 32 -> crc_shift a = crc_shift b -> a = b.
Proof.
  intros Ha Hb. rewrite !crc_shift_alt.
  assert (forall x, 0 <= x < 2 ^ 31 -> Z.testbit (Z.lxor x CRC_POLY) 31 = true) as T.
  { intros x Hx. rewrite Z.lxor_spec. replace x with (x mod 2 ^ 31) by (apply Z.mod_small; lia).
    rewrite Z.mod_pow2_bits_high by lia. reflexivity. }
  assert (forall x, 0 <= x < 2 ^ 31 -> Z.testbit x 31 = false) as F.
  { intros x Hx. replace x with (x mod 2 ^ 31) by (apply Z.mod_small; lia).
    rewrite Z.mod_pow2_bits_high by lia. reflexivity. }
  assert (0 <= a / 2 < 2 ^ 31) as Ha2 by lia. assert (0 <= b / 2 < 2 ^ 31) as Hb2 by lia.
  pose proof (odd_mod a). pose proof (odd_mod b).
  destruct (Z.odd a) eqn:Oa, (Z.odd b) eqn:Ob; cbn [Z.b2z] in *; intros E.
  - assert (a / 2 = b / 2).
    { apply (f_equal (fun z => Z.lxor z CRC_POLY)) in E.
      rewrite !Z.lxor_assoc, !Z.lxor_nilpotent, !Z.lxor_0_r in E. exact E. }
    lia.
  - apply (f_equal (fun z => Z.testbit z 31)) in E. rewrite T, F in E by auto. discriminate.
  - apply (f_equal (fun z => Z.testbit z 31)) in E. rewrite T, F in E by auto. discriminate.
  - lia.
Qed.
Lemma iter_inj n a b : 0 <= a < 2 ^ 32 -> 0 <= b < 2 ^ 32 ->
  Nat.iter n crc_shift a = Nat.iter n crc_shift b -> a = b.
Proof.
  intros Ha Hb; induction n as [|n IH]; [auto|]. rewrite !iter_S. intros E.
  apply IH. apply crc_shift_inj; auto; apply crc_range_iter; auto.
Qed.

Lemma lxor_cancel_l a b c : Z.lxor a b = Z.lxor a c -> b = c.
Proof.
  intros E. apply (f_equal (Z.lxor a)) in E.
  rewrite <- !Z.lxor_assoc, !Z.lxor_nilpotent, !Z.lxor_0_l in E. exact E.
Qed.
Lemma lxor_cancel_r a b c : Z.lxor b a = Z.lxor c a -> b = c.
Proof. rewrite !(Z.lxor_comm _ a). apply lxor_cancel_l. Qed.

Lemma val_of_range32 l : (length l <= 32)%nat -> 0 <= val_of l < 2 ^ 32.
Proof.
  intros H. pose proof (val_of_range l). unfold zlen in *.
  assert (2 ^ Z.of_nat (length l) <= 2 ^ 32) by (apply Z.pow_le_mono_r; lia). lia.
Qed.

(** Final registers determine the earlier register when the same bits follow. *)
Lemma crc_suffix_inj l a b : 0 <= a < 2 ^ 32 -> 0 <= b < 2 ^ 32 ->
  fold_left crc_bit l a = fold_left crc_bit l b -> a = b.
Proof.
  revert a b; induction l as [|x l IH]; intros a b Ha Hb; [auto|].
  cbn [fold_left]. rewrite !crc_bit_alt. intros E. apply IH in E.
  - apply crc_shift_inj in E; try (apply lxor_range; auto; destruct x; cbn; lia).
    eapply lxor_cancel_r; eauto.
  - apply crc_range_shift, lxor_range; auto; destruct x; cbn; lia.
  - apply crc_range_shift, lxor_range; auto; destruct x; cbn; lia.
Qed.
Lemma crc_bits_range l c : 0 <= c < 2 ^ 32 -> 0 <= fold_left crc_bit l c < 2 ^ 32.
Proof.
  revert c; induction l as [|x l IH]; intros c Hc; [auto|].
  cbn [fold_left]. apply IH. rewrite crc_bit_alt.
  apply crc_range_shift, lxor_range; auto; destruct x; cbn; lia.
Qed.

Lemma crc_burst_ok (a b : list Z) (pre m1 m2 post : list bool) :
  bytes a -> bytes b ->
  bytes_bits a = pre ++ m1 ++ post -> bytes_bits b = pre ++ m2 ++ post ->
  length m1 = length m2 -> (length m1 <= 32)%nat -> m1 <> m2 ->
  crc32 a <> crc32 b.
Proof.
  intros Ha Hb Ea Eb Hl H32 Hne E.
  destruct (crc_all a Ha) as (E1 & _ & _). destruct (crc_all b Hb) as (E2 & _ & _).
  rewrite E1, E2 in E. unfold crc_spec in E. rewrite Ea, Eb, !fold_left_app in E.
  set (c := fold_left crc_bit pre (2 ^ 32 - 1)) in *.
  assert (0 <= c < 2 ^ 32) as Hc by (apply crc_bits_range; lia).
  assert (fold_left crc_bit post (fold_left crc_bit m1 c) =
          fold_left crc_bit post (fold_left crc_bit m2 c)) as E' by lia.
  apply crc_suffix_inj in E'; try (apply crc_bits_range; auto).
  rewrite !crc_bits_val, <- Hl in E'.
  apply iter_inj in E'; try (apply lxor_range; auto; try lia; apply val_of_range32; lia).
  apply lxor_cancel_l in E'. apply Hne. apply val_of_inj; auto.
Qed.

Lemma crc_one_byte_ok pre x y post :
  bytes pre -> bytes post -> is_byte x -> is_byte y -> x <> y ->
  crc32 (pre ++ x :: post) <> crc32 (pre ++ y :: post).
Proof.
  intros Hp Hq Hx Hy Hne.
  apply (crc_burst_ok _ _ (bytes_bits pre) (bits_of 8 x) (bits_of 8 y) (bytes_bits post)).
  - apply bytes_app; split; auto. constructor; auto.
  - apply bytes_app; split; auto. constructor; auto.
  - rewrite bytes_bits_app, bytes_bits_cons. reflexivity.
  - rewrite bytes_bits_app, bytes_bits_cons. reflexivity.
  - rewrite !bits_of_length. reflexivity.
  - rewrite bits_of_length. lia.
  - intros E. apply Hne. apply (bits_of_inj 8); auto.
Qed.
