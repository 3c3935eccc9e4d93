(** Proofs about the checksum with the SSE4.2 instruction. *)
From Verif Require Import Base ChecksumSpec ChecksumProofs Crc32cModel Crc32cSpec.

Lemma reflect_range n x : 0 <= reflect n x < 2 ^ Z.of_nat n.
Proof.
  revert x. induction n as [|n IH]; intros x; [cbn; lia|]. cbn [reflect]. specialize (IH (x / 2)).
  replace (Z.of_nat (S n)) with (Z.of_nat n + 1) by lia. rewrite Z.pow_add_r by lia. change (2 ^ 1) with 2.
  assert (0 <= x mod 2 < 2) by (apply Z.mod_pos_bound; lia). assert (x mod 2 = 0 \/ x mod 2 = 1) as [-> | ->] by lia; lia.
Qed.
Lemma testbit_high a n i : 0 <= a < 2 ^ n -> 0 <= n <= i -> Z.testbit a i = false.
Proof.
  intros A N. rewrite Z.testbit_false by lia. rewrite Z.div_small; [reflexivity|]. split; [lia|]. apply Z.lt_le_trans with (2 ^ n); [lia|]. apply Z.pow_le_mono_r; lia.
Qed.
Lemma reflect_bit n : forall x i, 0 <= i < Z.of_nat n -> Z.testbit (reflect n x) i = Z.testbit x (Z.of_nat n - 1 - i).
Proof.
  induction n as [|n IH]; intros x i Hi; [lia|]. cbn [reflect].
  assert (2 ^ Z.of_nat n * (x mod 2) + reflect n (x / 2) = Z.lor (Z.shiftl (x mod 2) (Z.of_nat n)) (reflect n (x / 2))) as ->.
  { rewrite <- Z.lxor_lor, <- Z.add_nocarry_lxor; [rewrite Z.shiftl_mul_pow2 by lia; lia| |].
    all: apply Z.bits_inj'; intros k Hk; rewrite Z.land_spec, Z.bits_0; destruct (Z.ltb_spec k (Z.of_nat n));
      [rewrite Z.shiftl_spec_low by lia; reflexivity|rewrite (testbit_high (reflect n (x / 2)) (Z.of_nat n)); [apply andb_false_r|apply reflect_range|lia]]. }
  rewrite Z.lor_spec. destruct (Z.eq_dec i (Z.of_nat n)) as [->|N].
  - rewrite Z.shiftl_spec by lia. rewrite Z.sub_diag. rewrite (testbit_high (reflect n _) (Z.of_nat n)) by (try apply reflect_range; lia).
    rewrite orb_false_r. replace (Z.of_nat (S n) - 1 - Z.of_nat n) with 0 by lia.
    change 2 with (2 ^ 1). rewrite Z.mod_pow2_bits_low by lia. reflexivity.
  - rewrite Z.shiftl_spec_low by lia. rewrite IH by lia. cbn [orb].
    replace (Z.of_nat (S n) - 1 - i) with (Z.succ (Z.of_nat n - 1 - i)) by lia. rewrite <- (Z.div2_bits x) by lia. reflexivity.
Qed.
Lemma reflect_high n x i : Z.of_nat n <= i -> Z.testbit (reflect n x) i = false.
Proof. intros H. apply (testbit_high _ (Z.of_nat n)); [apply reflect_range|lia]. Qed.
Lemma reflect_bits n x i : 0 <= i -> Z.testbit (reflect n x) i = if i <? Z.of_nat n then Z.testbit x (Z.of_nat n - 1 - i) else false.
Proof. intros H. destruct (Z.ltb_spec i (Z.of_nat n)); [apply reflect_bit; lia|apply reflect_high; lia]. Qed.

Lemma reflect_lxor n a b : reflect n (Z.lxor a b) = Z.lxor (reflect n a) (reflect n b).
Proof.
  apply Z.bits_inj'. intros i Hi. rewrite Z.lxor_spec, !reflect_bits by lia. destruct (i <? Z.of_nat n); [apply Z.lxor_spec|reflexivity].
Qed.
(** shedding the top coefficient *)
Lemma reflect_drop n x : reflect n x = reflect (S n) x / 2.
Proof.
  apply Z.bits_inj'. intros i Hi. rewrite Z.div2_bits by lia. rewrite !reflect_bits by lia.
  replace (Z.of_nat (S n) - 1 - Z.succ i) with (Z.of_nat n - 1 - i) by lia.
  replace (Z.succ i <? Z.of_nat (S n)) with (i <? Z.of_nat n); [reflexivity|]. destruct (Z.ltb_spec i (Z.of_nat n)), (Z.ltb_spec (Z.succ i) (Z.of_nat (S n))); lia || reflexivity.
Qed.
Lemma reflect_shift n m x : 0 <= x < 2 ^ Z.of_nat n -> reflect (n + m) (Z.shiftl x (Z.of_nat m)) = reflect n x.
Proof.
  intros X. apply Z.bits_inj'. intros i Hi. rewrite !reflect_bits by lia.
  destruct (Z.ltb_spec i (Z.of_nat n)), (Z.ltb_spec i (Z.of_nat (n + m))); try lia.
  - rewrite Z.shiftl_spec by lia. f_equal. lia.
  - rewrite Z.shiftl_spec_low by lia. reflexivity.
Qed.
Lemma reflect_twice n x : 0 <= x < 2 ^ Z.of_nat n -> reflect n (reflect n x) = x.
Proof.
  intros X. apply Z.bits_inj'. intros i Hi. rewrite reflect_bits by lia. destruct (Z.ltb_spec i (Z.of_nat n)).
  - rewrite reflect_bit by lia. f_equal. lia.
  - symmetry. apply (testbit_high _ (Z.of_nat n)); lia.
Qed.

Lemma iter_in (f : Z -> Z) n y : Nat.iter (S n) f y = Nat.iter n f (f y).
Proof. replace (S n) with (n + 1)%nat by lia. apply iter_plus. Qed.
(** the register without input *)
Definition shiftC (y : Z) : Z := if Z.odd y then Z.lxor (y / 2) crc32c_poly else y / 2.
Lemma divisor_reflected : reflect 33 CRC32C_DIVISOR = 1 + 2 * crc32c_poly.
Proof. reflexivity. Qed.
Lemma mod2_reg n : forall x, reflect 32 (mod2 n x) = Nat.iter n shiftC (reflect (32 + n) x).
Proof.
  induction n as [|n IH]; intros x; [reflexivity|]. cbn [mod2]. rewrite IH.
  assert (forall y, Nat.iter (S n) shiftC y = Nat.iter n shiftC (shiftC y)) as It by (intros y; apply iter_in).
  rewrite It. f_equal. unfold shiftC.
  replace (32 + S n)%nat with (S (32 + n)) by lia.
  assert (Z.odd (reflect (S (32 + n)) x) = Z.testbit x (32 + Z.of_nat n)) as ->.
  { rewrite <- Z.bit0_odd, reflect_bit by lia. f_equal. lia. }
  rewrite reflect_drop. destruct (Z.testbit x (32 + Z.of_nat n)); [|reflexivity].
  rewrite reflect_lxor, div2_lxor. f_equal. replace (S (32 + n))%nat with (33 + n)%nat by lia.
  rewrite reflect_shift by (unfold CRC32C_DIVISOR; cbn; lia). rewrite divisor_reflected.
  replace (1 + 2 * crc32c_poly) with (1 + crc32c_poly * 2) by lia. rewrite Z.div_add by lia. reflexivity.
Qed.
Lemma insn_reg n crc v : 0 <= crc < 2 ^ 32 -> 0 <= v < 2 ^ Z.of_nat n -> crc32_insn n crc v = Nat.iter n shiftC (Z.lxor crc v).
Proof.
  intros C V. unfold crc32_insn. rewrite mod2_reg. f_equal. rewrite reflect_lxor, Z.lxor_comm. f_equal.
  - rewrite reflect_shift by apply reflect_range. apply reflect_twice. exact C.
  - rewrite Nat.add_comm. change 32 with (Z.of_nat 32). rewrite reflect_shift by apply reflect_range. apply reflect_twice. exact V.
Qed.
Lemma reg_bits n : forall c v, 0 <= v < 2 ^ Z.of_nat n -> Nat.iter n shiftC (Z.lxor c v) = fold_left crc32c_bit (bits_of n v) c.
Proof.
  induction n as [|n IH]; intros c v V.
  - change (2 ^ Z.of_nat 0) with 1 in V. replace v with 0 by lia. rewrite Z.lxor_0_r. reflexivity.
  - rewrite iter_in. cbn [bits_of fold_left].
    replace (Z.of_nat (S n)) with (Z.of_nat n + 1) in V by lia. rewrite Z.pow_add_r in V by lia. change (2 ^ 1) with 2 in V.
    assert (0 <= v / 2 < 2 ^ Z.of_nat n) as V2 by (split; [apply Z.div_pos; lia|apply Z.div_lt_upper_bound; lia]).
    rewrite <- IH by exact V2. f_equal. unfold shiftC, crc32c_bit. rewrite odd_lxor, div2_lxor. destruct (xorb (Z.odd c) (Z.odd v)); [apply lxor_swap|reflexivity].
Qed.
Lemma le_value_range l : bytes l -> 0 <= le_value l < 2 ^ (8 * zlen l).
Proof.
  induction 1 as [|b l B _ IH]; [split; reflexivity || discriminate|]. cbn [le_value fold_right]. change (fold_right _ 0 l) with (le_value l).
  unfold zlen in *. cbn [length]. replace (8 * Z.of_nat (S (length l))) with (8 * Z.of_nat (length l) + 8) by lia.
  rewrite Z.pow_add_r by lia. change (2 ^ 8) with 256. unfold is_byte in B. lia.
Qed.
Lemma le_value_bits l : bytes l -> bits_of (8 * length l) (le_value l) = bytes_bits l.
Proof.
  induction 1 as [|b l B _ IH]; [reflexivity|]. rewrite bytes_bits_cons, <- IH. cbn [le_value fold_right length]. change (fold_right _ 0 l) with (le_value l).
  replace (8 * S (length l))%nat with (8 + 8 * length l)%nat by lia. rewrite bits_of_app. unfold is_byte in B. change (2 ^ Z.of_nat 8) with 256. f_equal.
  - rewrite <- (bits_of_mod 8). change (2 ^ Z.of_nat 8) with 256. f_equal. rewrite Z.mul_comm, Z.mod_add by lia. apply Z.mod_small. lia.
  - f_equal. rewrite Z.mul_comm, Z.div_add by lia. rewrite Z.div_small by lia. lia.
Qed.
Lemma bit_range c b : 0 <= c < 2 ^ 32 -> 0 <= crc32c_bit c b < 2 ^ 32.
Proof.
  intros C. assert (0 <= c / 2 < 2 ^ 32) as H by (split; [apply Z.div_pos; lia|apply Z.div_lt_upper_bound; lia]).
  unfold crc32c_bit. destruct (xorb _ _); [|exact H].
  assert (0 <= crc32c_poly < 2 ^ 32) as P by (cbn; lia).
  assert (0 <= Z.lxor (c / 2) crc32c_poly) as N by (apply Z.lxor_nonneg; lia).
  split; [exact N|]. destruct (Z.eq_dec (Z.lxor (c / 2) crc32c_poly) 0) as [->|Z0]; [lia|].
  apply Z.log2_lt_pow2; [lia|]. eapply Z.le_lt_trans; [apply Z.log2_lxor; lia|].
  apply Z.max_lub_lt.
  - destruct (Z.eq_dec (c / 2) 0) as [->|]; [cbn; lia|]. apply Z.log2_lt_pow2; lia.
  - apply Z.log2_lt_pow2; [cbn; lia|lia].
Qed.
Lemma fold_range l : forall c, 0 <= c < 2 ^ 32 -> 0 <= fold_left crc32c_bit l c < 2 ^ 32.
Proof. induction l as [|b l IH]; intros c C; [exact C|]. apply IH, bit_range, C. Qed.
Lemma insn_bytes l crc : bytes l -> 0 <= crc < 2 ^ 32 -> crc32_insn (8 * length l) crc (le_value l) = fold_left crc32c_bit (bytes_bits l) crc.
Proof.
  intros B C. pose proof (le_value_range l B) as V. unfold zlen in V.
  assert (0 <= le_value l < 2 ^ Z.of_nat (8 * length l)) as V' by (replace (Z.of_nat (8 * length l)) with (8 * Z.of_nat (length l)) by lia; exact V).
  rewrite insn_reg, reg_bits, le_value_bits; auto.
Qed.

(** what has been consumed together with what is left *)
Definition total (s : Z * list Z) : Z := fold_left crc32c_bit (bytes_bits (snd s)) (fst s).
Definition fine (s : Z * list Z) : Prop := 0 <= fst s < 2 ^ 32 /\ bytes (snd s).
Lemma bytes_split n l : bytes l -> bytes (firstn n l) /\ bytes (skipn n l).
Proof. intros B. rewrite <- (firstn_skipn n l) in B. apply Forall_app in B. exact B. Qed.
Opaque crc32_insn.
Lemma one_step n crc l : bytes l -> 0 <= crc < 2 ^ 32 -> (n <= length l)%nat ->
  let s := (crc32_insn (8 * n) crc (le_value (firstn n l)), skipn n l) in fine s /\ total s = total (crc, l).
Proof.
  intros B C L. destruct (bytes_split n l B) as [B1 B2]. pose proof (insn_bytes (firstn n l) crc B1 C) as E. rewrite firstn_length, Nat.min_l in E by exact L.
  cbv zeta. unfold fine, total. cbn [fst snd]. rewrite E. split; [split; [apply fold_range, C|exact B2]|].
  rewrite <- fold_left_app, <- bytes_bits_app, firstn_skipn. reflexivity.
Qed.
Lemma step_keeps n s : fine s -> fine (hw_step n s) /\ total (hw_step n s) = total s.
Proof.
  destruct s as [crc l]. intros [C B]. cbn [fst snd] in *. unfold hw_step. destruct (Z.leb_spec (Z.of_nat n) (zlen l)) as [L|L]; [|split; [split; assumption|reflexivity]].
  apply one_step; try assumption. unfold zlen in L. lia.
Qed.
Lemma loop_keeps fuel : forall s, fine s -> (length (snd s) <= fuel)%nat ->
  let t := hw_loop8 fuel (fst s) (snd s) in fine t /\ total t = total s /\ zlen (snd t) < 8.
Proof.
  induction fuel as [|f IH]; intros [crc l] F Lf; cbn [fst snd] in *; cbv zeta; cbn [hw_loop8].
  - split; [exact F|]. split; [reflexivity|]. cbn [snd]. unfold zlen. lia.
  - destruct (Z.leb_spec 8 (zlen l)) as [L|L]; [|split; [exact F|]; split; [reflexivity|exact L]]. unfold zlen in L. destruct F as [C B]. cbn [fst snd] in C, B.
    destruct (one_step 8 crc l B C) as [F' T']; [lia|]. assert (8 * 8 = 64)%nat as E64 by reflexivity. rewrite E64 in F', T'. clear E64. set (c' := crc32_insn 64 crc (le_value (firstn 8 l))) in *. clearbody c'.
    specialize (IH _ F'). cbn [fst snd] in IH. rewrite skipn_length in IH. destruct IH as (A1 & A2 & A3); [lia|]. split; [exact A1|]. split; [rewrite A2; exact T'|exact A3].
Qed.
Lemma step_len n s : 0 < Z.of_nat n -> zlen (snd s) < 2 * Z.of_nat n -> zlen (snd (hw_step n s)) < Z.of_nat n.
Proof.
  destruct s as [c l]. cbn [snd]. intros N L. unfold hw_step. destruct (Z.leb_spec (Z.of_nat n) (zlen l)); cbn [snd]; [|lia]. unfold zlen in *. rewrite skipn_length. lia.
Qed.
Lemma hw_is_crc32c data : bytes data -> crc32_hw data = crc32c_spec data.
Proof.
  intros B. unfold crc32_hw, crc32c_spec. f_equal.
  destruct (loop_keeps (length data) (2 ^ 32 - 1, data)) as (F & T & L); [split; [cbn; lia|exact B]|cbn; lia|]. cbn [fst snd] in *.
  set (s := hw_loop8 _ _ _) in *. destruct (step_keeps 4 s F) as [F4 T4]. pose proof (step_len 4 s ltac:(lia) ltac:(lia)) as L4.
  set (s4 := hw_step 4 s) in *. destruct (step_keeps 2 s4 F4) as [F2 T2]. pose proof (step_len 2 s4 ltac:(lia) ltac:(lia)) as L2.
  assert (total (hw_step 2 s4) = fold_left crc32c_bit (bytes_bits data) (2 ^ 32 - 1)) as TT by (rewrite T2, T4, T; reflexivity). rewrite <- TT.
  clear -F2 L2. destruct (hw_step 2 s4) as [crc l]. destruct F2 as [C Bl]. cbn [fst snd] in *. unfold total. cbn [fst snd].
  destruct l as [|b [|b' l]]; [reflexivity| |unfold zlen in L2; cbn [length] in L2; lia].
  pose proof (insn_bytes [b] crc Bl C) as E. cbn [length le_value fold_right] in E. replace (b + 256 * 0) with b in E by lia. change (8 * 1)%nat with 8%nat in E. rewrite E. reflexivity.
Qed.
Lemma hw_not_crc32 : crc32_hw [49] <> crc_spec [49].
Proof. vm_compute. discriminate. Qed.
