(** Canonical Huffman codes: order, prefix property, and the counting
    algorithm (count lengths, first code per length, assign in symbol order). *)
From Verif Require Import Base BitsProofs CanonSpec InflateModel.

(** ** psum *)
Lemma psum_ext f g n : (forall j, (j < n)%nat -> f j = g j) -> psum f n = psum g n.
Proof.
  induction n as [|n IH]; intros H; cbn [psum]; auto.
  rewrite IH by (intros; apply H; lia). rewrite H by lia. reflexivity.
Qed.
Lemma psum_le f g n : (forall j, (j < n)%nat -> f j <= g j) -> psum f n <= psum g n.
Proof.
  induction n as [|n IH]; intros H; cbn [psum]; [lia|].
  specialize (IH ltac:(intros; apply H; lia)). specialize (H n ltac:(lia)). lia.
Qed.
Lemma psum_const c n : psum (fun _ => c) n = Z.of_nat n * c.
Proof. induction n as [|n IH]; cbn [psum]; [lia|]. rewrite IH. lia. Qed.
Lemma psum_nonneg f n : (forall j, (j < n)%nat -> 0 <= f j) -> 0 <= psum f n.
Proof.
  intros H. replace 0 with (psum (fun _ => 0) n); [apply psum_le; auto|].
  rewrite psum_const; lia.
Qed.
Lemma psum_add f g n : psum (fun j => f j + g j) n = psum f n + psum g n.
Proof. induction n as [|n IH]; cbn [psum]; [lia|]. rewrite IH; lia. Qed.
Lemma psum_mul c f n : psum (fun j => f j * c) n = psum f n * c.
Proof. induction n as [|n IH]; cbn [psum]; [lia|]. rewrite IH; lia. Qed.
Lemma psum_single s c n : (s < n)%nat -> psum (fun j => if Nat.eqb j s then c else 0) n = c.
Proof.
  intros H. assert (forall m, (m <= s)%nat -> psum (fun j => if Nat.eqb j s then c else 0) m = 0) as Z0.
  { intros m Hm. induction m as [|m IH]; cbn [psum]; [lia|].
    rewrite IH by lia. destruct (Nat.eqb_spec m s); lia. }
  induction n as [|n IH]; [lia|]. cbn [psum].
  destruct (Nat.eqb_spec n s).
  - subst. rewrite Z0 by lia. lia.
  - rewrite IH by lia. lia.
Qed.
Lemma psum_shift f n : psum f (S n) = f O + psum (fun j => f (S j)) n.
Proof. induction n as [|n IH]; cbn [psum] in *; [lia|]. rewrite IH. lia. Qed.
Lemma psum_plus f n m : psum f (n + m) = psum f n + psum (fun j => f (n + j)%nat) m.
Proof.
  induction m as [|m IH]; cbn [psum].
  - rewrite Nat.add_0_r. lia.
  - rewrite Nat.add_succ_r. cbn [psum]. rewrite IH. lia.
Qed.
Lemma psum_bound c f n : (forall j, (j < n)%nat -> f j <= c) -> psum f n <= Z.of_nat n * c.
Proof. intros H. rewrite <- psum_const. apply psum_le. auto. Qed.

(** ** lengths *)
Lemma ln_range M lens s : 0 <= M -> lens_ok M lens -> 0 <= ln lens s <= M.
Proof. intros HM H. unfold ln. apply (Forall_nth_d (fun l => 0 <= l <= M)); auto. lia. Qed.
Lemma before_irrefl lens s : before lens s s = false.
Proof. unfold before. destruct (Z.ltb_spec 0 (ln lens s)); lia. Qed.
Lemma before_trans lens a b c : before lens a b = true -> before lens b c = true -> before lens a c = true.
Proof. unfold before. lia. Qed.
Lemma before_total lens a b : 0 < ln lens a -> 0 < ln lens b -> a <> b ->
  before lens a b = true \/ before lens b a = true.
Proof. unfold before. lia. Qed.
Lemma before_le lens a b : before lens a b = true -> 0 < ln lens a <= ln lens b.
Proof. unfold before. lia. Qed.
Lemma pow2_sub_mul a b c : 0 <= b - a -> 0 <= c - b -> 2 ^ (b - a) * 2 ^ (c - b) = 2 ^ (c - a).
Proof. intros. rewrite <- Z.pow_add_r by lia. f_equal. lia. Qed.

Lemma canon_nonneg lens s : 0 <= canon lens s.
Proof. apply psum_nonneg. intros j _. destruct (before lens j s); [apply Z.pow_nonneg|]; lia. Qed.

Lemma canon_step lens s s' : (s < length lens)%nat -> before lens s s' = true ->
  (canon lens s + 1) * 2 ^ (ln lens s' - ln lens s) <= canon lens s'.
Proof.
  intros Hs B. set (d := 2 ^ (ln lens s' - ln lens s)). pose proof (before_le _ _ _ B) as Hl.
  rewrite Z.mul_add_distr_r, Z.mul_1_l. unfold canon at 1. rewrite <- psum_mul.
  match goal with |- ?A + d <= _ =>
    replace (A + d) with (A + psum (fun j => if Nat.eqb j s then d else 0) (length lens))
      by (rewrite (psum_single s d _ Hs); reflexivity) end.
  rewrite <- psum_add. unfold canon.
  apply psum_le. intros j Hj. cbv beta. destruct (Nat.eqb_spec j s) as [->|N].
  - rewrite before_irrefl, B. unfold d. lia.
  - destruct (before lens j s) eqn:Bj.
    + rewrite (before_trans _ _ _ _ Bj B). pose proof (before_le _ _ _ Bj). unfold d.
      rewrite pow2_sub_mul by lia. lia.
    + destruct (before lens j s'); [|lia].
      pose proof (Z.pow_nonneg 2 (ln lens s' - ln lens j)). lia.
Qed.
Lemma canon_kraft M lens s : 0 <= M -> lens_ok M lens -> has_code lens s ->
  (canon lens s + 1) * 2 ^ (M - ln lens s) <= kraft M lens.
Proof.
  intros HM HL (Hs & Hp). pose proof (ln_range M lens s HM HL) as Hl.
  set (d := 2 ^ (M - ln lens s)).
  rewrite Z.mul_add_distr_r, Z.mul_1_l. unfold canon. rewrite <- psum_mul.
  match goal with |- ?A + d <= _ =>
    replace (A + d) with (A + psum (fun j => if Nat.eqb j s then d else 0) (length lens))
      by (rewrite (psum_single s d _ Hs); reflexivity) end.
  rewrite <- psum_add. unfold kraft.
  apply psum_le. intros j Hj. pose proof (ln_range M lens j HM HL). cbv beta. destruct (Nat.eqb_spec j s) as [->|N].
  - rewrite before_irrefl. destruct (Z.ltb_spec 0 (ln lens s)); [|lia]. unfold d. lia.
  - destruct (before lens j s) eqn:Bj.
    + pose proof (before_le _ _ _ Bj). destruct (Z.ltb_spec 0 (ln lens j)); [|lia].
      unfold d. rewrite pow2_sub_mul by lia. lia.
    + destruct (0 <? ln lens j); [|lia]. pose proof (Z.pow_nonneg 2 (M - ln lens j)). lia.
Qed.
Lemma canon_range M lens s : 0 <= M -> code_ok M lens -> has_code lens s ->
  0 <= canon lens s < 2 ^ ln lens s.
Proof.
  intros HM (HL & HK) Hs. split; [apply canon_nonneg|].
  pose proof (canon_kraft M lens s HM HL Hs) as K. pose proof (ln_range M lens s HM HL) as Hl.
  assert (2 ^ M = 2 ^ ln lens s * 2 ^ (M - ln lens s)) as E.
  { rewrite <- Z.pow_add_r by lia. f_equal. lia. }
  pose proof (pow2_gt0 (M - ln lens s) ltac:(lia)). nia.
Qed.

(** ** the prefix property *)
Lemma rev_bits_split d l c : rev (bits_of (d + l) c) = rev (bits_of l (c / 2 ^ Z.of_nat d)) ++ rev (bits_of d c).
Proof. rewrite bits_of_app, rev_app_distr. reflexivity. Qed.

Lemma code_word_length lens s : length (code_word lens s) = Z.to_nat (ln lens s).
Proof. unfold code_word. rewrite rev_length, bits_of_length. reflexivity. Qed.

Lemma app_inv_firstn {A} (a b c d : list A) : a ++ b = c ++ d -> (length a <= length c)%nat ->
  a = firstn (length a) c.
Proof.
  intros E L. apply (f_equal (firstn (length a))) in E. rewrite firstn_app in E.
  rewrite firstn_all, Nat.sub_diag in E. cbn in E. rewrite app_nil_r in E.
  rewrite firstn_app in E. replace (length a - length c)%nat with 0%nat in E by lia.
  cbn in E. rewrite app_nil_r in E. exact E.
Qed.

Lemma canon_no_prefix M lens s s' r r' : 0 <= M -> code_ok M lens ->
  has_code lens s -> has_code lens s' -> before lens s s' = true ->
  code_word lens s ++ r <> code_word lens s' ++ r'.
Proof.
  intros HM HO Hs Hs' B E. pose proof (before_le _ _ _ B) as Hl.
  pose proof (canon_range M lens s HM HO Hs) as R. pose proof (canon_range M lens s' HM HO Hs') as R'.
  apply app_inv_firstn in E; [|rewrite !code_word_length; lia].
  rewrite code_word_length in E. unfold code_word in E.
  replace (Z.to_nat (ln lens s')) with (Z.to_nat (ln lens s' - ln lens s) + Z.to_nat (ln lens s))%nat in E by lia.
  rewrite rev_bits_split, firstn_app in E. rewrite firstn_all2 in E by (rewrite rev_length, bits_of_length; lia).
  rewrite rev_length, bits_of_length, Nat.sub_diag in E. cbn [firstn] in E. rewrite app_nil_r in E.
  apply (f_equal (@rev bool)) in E. rewrite !rev_involutive in E.
  rewrite Z2Nat.id in E by lia.
  assert (canon lens s' / 2 ^ (ln lens s' - ln lens s) < 2 ^ ln lens s).
  { apply Z.div_lt_upper_bound; [apply pow2_gt0; lia|]. rewrite <- Z.pow_add_r by lia.
    replace (ln lens s' - ln lens s + ln lens s) with (ln lens s') by lia. lia. }
  apply bits_of_inj in E.
  - pose proof (canon_step lens s s' (proj1 Hs) B). pose proof (pow2_gt0 (ln lens s' - ln lens s) ltac:(lia)).
    rewrite E in *. pose proof (Z.mul_succ_div_gt (canon lens s') (2 ^ (ln lens s' - ln lens s)) ltac:(lia)). nia.
  - rewrite Z2Nat.id by lia. lia.
  - rewrite Z2Nat.id by lia. split; [|lia]. apply Z.div_pos; [lia|apply pow2_gt0; lia].
Qed.

(** two codes that both start a bit string are the same symbol *)
Theorem canon_unique M lens s s' r r' : 0 <= M -> code_ok M lens ->
  has_code lens s -> has_code lens s' -> code_word lens s ++ r = code_word lens s' ++ r' -> s = s' /\ r = r'.
Proof.
  intros HM HO Hs Hs' E. destruct (Nat.eq_dec s s') as [->|N].
  - split; auto. apply app_inv_head in E. auto.
  - exfalso. destruct (before_total lens s s') as [B|B]; auto; try apply Hs; try apply Hs'.
    + eapply (canon_no_prefix M lens s s'); eauto.
    + eapply (canon_no_prefix M lens s' s); eauto.
Qed.

(** ** the counting algorithm *)
(** number of [j < n] of length [l] *)
Definition cnt (lens : list Z) (l : Z) (n : nat) : Z :=
  psum (fun j => if ln lens j =? l then 1 else 0) n.
(** first code of length [l] *)
Definition first (lens : list Z) (l : Z) : Z :=
  psum (fun j => if (0 <? ln lens j) && (ln lens j <? l) then 2 ^ (l - ln lens j) else 0) (length lens).

Lemma psum_le_ind f n m : (n <= m)%nat -> (forall j, (n <= j)%nat -> f j = 0) -> psum f m = psum f n.
Proof.
  intros H Z0. replace m with (n + (m - n))%nat by lia. rewrite psum_plus.
  rewrite (psum_ext (fun j => f (n + j)%nat) (fun _ => 0)) by (intros; apply Z0; lia). rewrite psum_const. lia.
Qed.

Lemma canon_first lens s : (s < length lens)%nat -> 0 < ln lens s ->
  canon lens s = first lens (ln lens s) + cnt lens (ln lens s) s.
Proof.
  intros Hs Hp. unfold cnt, canon, first.
  rewrite (psum_ext (fun j => if ln lens j =? ln lens s then 1 else 0)
      (fun j => if (ln lens j =? ln lens s) && (j <? s)%nat then 1 else 0) s).
  2:{ intros j Hj. destruct (Z.eqb_spec (ln lens j) (ln lens s)); destruct (Nat.ltb_spec j s); auto; lia. }
  rewrite <- (psum_le_ind _ s (length lens)); [|lia|].
  2:{ intros j Hj. destruct (Nat.ltb_spec j s); [lia|]. rewrite andb_false_r. reflexivity. }
  rewrite <- psum_add. apply psum_ext. intros j Hj. unfold before.
  destruct (Z.ltb_spec 0 (ln lens j)); destruct (Z.ltb_spec (ln lens j) (ln lens s));
    destruct (Z.eqb_spec (ln lens j) (ln lens s)); destruct (Nat.ltb_spec j s); cbn [andb orb]; try lia.
  replace (ln lens s - ln lens j) with 0 by lia. change (2 ^ 0) with 1. lia.
Qed.

Lemma first_1 lens : first lens 1 = 0.
Proof.
  unfold first. rewrite (psum_ext _ (fun _ => 0)); [rewrite psum_const; lia|].
  intros j _. destruct (Z.ltb_spec 0 (ln lens j)), (Z.ltb_spec (ln lens j) 1); cbn; auto; lia.
Qed.
Lemma first_succ lens l : 1 <= l -> first lens (l + 1) = 2 * (first lens l + cnt lens l (length lens)).
Proof.
  intros Hl. unfold first, cnt. rewrite <- psum_add. rewrite (Z.mul_comm 2), <- psum_mul.
  apply psum_ext. intros j _.
  destruct (Z.ltb_spec 0 (ln lens j)); destruct (Z.ltb_spec (ln lens j) (l + 1));
    destruct (Z.ltb_spec (ln lens j) l); destruct (Z.eqb_spec (ln lens j) l); cbn [andb]; try lia.
  - replace (l + 1 - ln lens j) with (Z.succ (l - ln lens j)) by lia.
    rewrite Z.pow_succ_r by lia. lia.
  - replace (l + 1 - ln lens j) with 1 by lia. reflexivity.
Qed.
Lemma first_nonneg lens l : 0 <= first lens l.
Proof. apply psum_nonneg. intros j _. destruct (_ && _); [apply Z.pow_nonneg|]; lia. Qed.
Lemma cnt_nonneg lens l n : 0 <= cnt lens l n.
Proof. apply psum_nonneg. intros j _. destruct (_ =? _); lia. Qed.
Lemma cnt_le lens l n : cnt lens l n <= Z.of_nat n.
Proof.
  unfold cnt. replace (Z.of_nat n) with (Z.of_nat n * 1) by lia. apply psum_bound.
  intros j _. destruct (_ =? _); lia.
Qed.
Lemma first_bound lens l : 1 <= l -> first lens l <= zlen lens * 2 ^ (l - 1).
Proof.
  intros Hl. unfold first, zlen. apply psum_bound. intros j _.
  destruct (Z.ltb_spec 0 (ln lens j)), (Z.ltb_spec (ln lens j) l); cbn [andb];
    try (apply Z.pow_nonneg; lia). apply Z.pow_le_mono_r; lia.
Qed.
Lemma first_kraft M lens l : lens_ok M lens -> 1 <= l <= M ->
  (first lens l + cnt lens l (length lens)) * 2 ^ (M - l) <= kraft M lens.
Proof.
  intros HL Hl. unfold first, cnt, kraft. rewrite <- psum_add, <- psum_mul. apply psum_le.
  intros j _. pose proof (ln_range M lens j ltac:(lia) HL).
  destruct (Z.ltb_spec 0 (ln lens j)); destruct (Z.ltb_spec (ln lens j) l);
    destruct (Z.eqb_spec (ln lens j) l); cbn [andb]; try lia.
  - rewrite Z.add_0_r, pow2_sub_mul by lia. lia.
  - subst l. lia.
Qed.

Lemma ln_cons x l j : ln (x :: l) (S j) = ln l j.
Proof. reflexivity. Qed.
Lemma cnt_cons x l v n : cnt (x :: l) v (S n) = (if x =? v then 1 else 0) + cnt l v n.
Proof. unfold cnt. rewrite psum_shift. reflexivity. Qed.

Lemma znth_upd a i j v : 0 <= i -> 0 <= j < zlen a -> znth (upd a (Z.to_nat j) v) i = if i =? j then v else znth a i.
Proof.
  intros Hi Hj. unfold znth, zlen in *. rewrite nth_upd by lia.
  destruct (Z.eqb_spec i j); destruct (Nat.eqb_spec (Z.to_nat i) (Z.to_nat j)); auto; lia.
Qed.
Lemma zlen_upd {A} (l : list A) i v : zlen (upd l i v) = zlen l.
Proof. unfold zlen. rewrite upd_length. reflexivity. Qed.

Lemma bl_count_gen lens a : zlen a = 16 -> lens_ok 15 lens ->
  let r := fold_left (fun a l => if l >? 0 then upd a (Z.to_nat l) (znth a l + 1) else a) lens a in
  zlen r = 16 /\ forall l, 1 <= l <= 15 -> znth r l = znth a l + cnt lens l (length lens).
Proof.
  revert a; induction lens as [|x t IH]; intros a Ha HL.
  - cbn [fold_left length]. split; auto. intros; unfold cnt; cbn [psum]. lia.
  - inversion HL; subst. cbn [fold_left length].
    destruct (IH (if x >? 0 then upd a (Z.to_nat x) (znth a x + 1) else a)) as [I1 I2].
    + destruct (x >? 0); rewrite ?zlen_upd; auto.
    + auto.
    + split; [exact I1|]. intros l Hl. rewrite I2, cnt_cons by auto.
      destruct (Z.gtb_spec x 0).
      * rewrite znth_upd by lia. destruct (Z.eqb_spec l x); destruct (Z.eqb_spec x l); try lia. subst. lia.
      * destruct (Z.eqb_spec x l); lia.
Qed.
Lemma bl_count_gen0 lens a : zlen a = 16 -> lens_ok 15 lens ->
  znth (fold_left (fun a l => if l >? 0 then upd a (Z.to_nat l) (znth a l + 1) else a) lens a) 0 = znth a 0.
Proof.
  revert a; induction lens as [|x t IH]; intros a Ha HL; cbn [fold_left]; auto.
  inversion HL; subst. destruct (Z.gtb_spec x 0).
  - rewrite IH by (rewrite ?zlen_upd; auto). rewrite znth_upd by lia. destruct (Z.eqb_spec 0 x); lia.
  - apply IH; auto.
Qed.
Lemma znth_repeat0 n i : znth (repeat 0 n) i = 0.
Proof. unfold znth. destruct (nth_in_or_default (Z.to_nat i) (repeat 0 n) 0) as [H|H]; auto. apply repeat_spec in H. auto. Qed.
Lemma bl_count_spec lens : lens_ok 15 lens ->
  zlen (bl_count lens) = 16 /\ znth (bl_count lens) 0 = 0 /\
  forall l, 1 <= l <= 15 -> znth (bl_count lens) l = cnt lens l (length lens).
Proof.
  intros HL. destruct (bl_count_gen lens (repeat 0 16) eq_refl HL) as [I1 I2].
  split; [exact I1|split].
  - unfold bl_count. rewrite bl_count_gen0; auto.
  - intros l Hl. unfold bl_count. rewrite I2 by auto. rewrite znth_repeat0. lia.
Qed.

(** [w] wide enough for every first code *)
Definition fits (w : Z) (lens : list Z) : Prop :=
  forall l, 1 <= l <= 15 -> first lens l < 2 ^ w.

Lemma next_loop_spec w k bits code blc nc lens :
  lens_ok 15 lens -> 0 <= w -> fits w lens ->
  znth blc 0 = 0 -> (forall l, 1 <= l <= 15 -> znth blc l = cnt lens l (length lens)) ->
  zlen nc = 16 -> 1 <= bits -> bits + Z.of_nat k = 16 ->
  (bits = 1 /\ code = 0 \/ 1 < bits /\ code = first lens (bits - 1)) ->
  (forall l, 1 <= l < bits -> znth nc l = first lens l) ->
  zlen (next_loop w k bits code blc nc) = 16 /\
  forall l, 1 <= l <= 15 -> znth (next_loop w k bits code blc nc) l = first lens l.
Proof.
  intros HL Hw HF B0 BL. revert bits code nc; induction k as [|k IH]; intros bits code nc Hn Hb Hk Hc Hd.
  - cbn [next_loop]. split; auto. intros l Hl. apply Hd. lia.
  - cbn [next_loop].
    assert (wrap w (Z.shiftl (code + znth blc (bits - 1)) 1) = first lens bits) as E.
    { rewrite Z.shiftl_mul_pow2 by lia. change (2 ^ 1) with 2. destruct Hc as [[-> ->]|[H1 ->]].
      - replace (1 - 1) with 0 by lia. rewrite B0, first_1. apply wrap_id. pose proof (pow2_gt0 w ltac:(lia)). lia.
      - rewrite BL by lia. rewrite Z.mul_comm, <- first_succ by lia. replace (bits - 1 + 1) with bits by lia.
        apply wrap_id. split; [apply first_nonneg|apply HF; lia]. }
    rewrite E. apply IH; try lia.
    + rewrite zlen_upd; auto.
    + right. split; [lia|]. f_equal. lia.
    + intros l Hl. rewrite znth_upd by lia. destruct (Z.eqb_spec l bits); [subst; auto|]. apply Hd. lia.
Qed.

Lemma next_codes_gen w lens : 0 <= w -> lens_ok 15 lens -> fits w lens ->
  let nc := next_loop w 15 1 0 (bl_count lens) (repeat 0 16) in
  zlen nc = 16 /\ forall l, 1 <= l <= 15 -> znth nc l = first lens l.
Proof.
  intros Hw HL HF. destruct (bl_count_spec lens HL) as (B1 & B2 & B3).
  apply next_loop_spec; auto; try lia.
Qed.
Lemma fits32 lens : zlen lens <= 2 ^ 16 -> fits 32 lens.
Proof.
  intros H l Hl. pose proof (first_bound lens l ltac:(lia)).
  assert (2 ^ (l - 1) <= 2 ^ 14) by (apply Z.pow_le_mono_r; lia).
  pose proof (pow2_gt0 (l - 1) ltac:(lia)). pose proof (zlen_nonneg lens).
  change (2 ^ 32) with 4294967296. change (2 ^ 16) with 65536 in *. change (2 ^ 14) with 16384 in *. nia.
Qed.
Lemma next_codes_spec lens : lens_ok 15 lens -> zlen lens <= 2 ^ 16 ->
  zlen (next_codes lens) = 16 /\ forall l, 1 <= l <= 15 -> znth (next_codes lens) l = first lens l.
Proof.
  intros HL Hn. pose proof (next_codes_gen 32 lens ltac:(lia) HL (fits32 lens Hn)) as H. exact H.
Qed.

Lemma assign_codes_spec lens nc s : lens_ok 15 lens -> zlen nc = 16 -> (s < length lens)%nat -> 0 < ln lens s ->
  znth (assign_codes lens nc) (Z.of_nat s) = znth nc (ln lens s) + cnt lens (ln lens s) s.
Proof.
  revert nc s; induction lens as [|x t IH]; intros nc s HL Hn Hs Hp; [cbn in Hs; lia|].
  inversion HL; subst. destruct s as [|s].
  - cbn [assign_codes]. unfold ln in *. cbn [nth] in *. destruct (Z.gtb_spec x 0); [|lia].
    unfold cnt; cbn [psum]. change (znth (znth nc x :: assign_codes t (upd nc (Z.to_nat x) (znth nc x + 1))) (Z.of_nat 0)) with (znth nc x). lia.
  - cbn [length] in Hs. rewrite ln_cons in Hp. rewrite ln_cons, cnt_cons.
    pose proof (ln_range 15 t s ltac:(lia) ltac:(auto)) as R.
    assert (forall a l, znth (a :: l) (Z.of_nat (S s)) = znth l (Z.of_nat s)) as ZC.
    { intros a l. unfold znth. rewrite !Nat2Z.id. reflexivity. }
    cbn [assign_codes]. destruct (Z.gtb_spec x 0).
    + rewrite ZC, IH by (rewrite ?zlen_upd; auto; lia). rewrite znth_upd by lia.
      destruct (Z.eqb_spec (ln t s) x); destruct (Z.eqb_spec x (ln t s)); try lia. subst x. lia.
    + rewrite ZC, IH by (auto; lia). destruct (Z.eqb_spec x (ln t s)); lia.
Qed.
Lemma assign_codes_length lens nc : length (assign_codes lens nc) = length lens.
Proof. revert nc; induction lens as [|x t IH]; intros nc; cbn; auto. destruct (x >? 0); cbn; rewrite IH; auto. Qed.

Lemma assign_canon lens s : lens_ok 15 lens -> zlen lens <= 2 ^ 16 -> has_code lens s ->
  znth (assign_codes lens (next_codes lens)) (Z.of_nat s) = canon lens s.
Proof.
  intros HL Hn (Hs & Hp). destruct (next_codes_spec lens HL Hn) as [N1 N2].
  rewrite assign_codes_spec, canon_first by auto. f_equal. apply N2.
  pose proof (ln_range 15 lens s ltac:(lia) HL). lia.
Qed.

Lemma code_walk_spec s lens nc : lens_ok 15 lens -> zlen nc = 16 -> (s < length lens)%nat -> 0 < ln lens s ->
  code_walk s lens nc = znth nc (ln lens s) + cnt lens (ln lens s) s.
Proof.
  revert nc s; induction lens as [|x t IH]; intros nc s HL Hn Hs Hp; [cbn in Hs; lia|].
  inversion HL; subst. destruct s as [|s].
  - cbn [code_walk]. unfold ln in *. cbn [nth] in *. destruct (Z.gtb_spec x 0); [|lia]. unfold cnt; cbn [psum]. lia.
  - cbn [length] in Hs. rewrite ln_cons in Hp. rewrite ln_cons, cnt_cons. cbn [code_walk].
    pose proof (ln_range 15 t s ltac:(lia) ltac:(auto)) as R.
    destruct (Z.gtb_spec x 0).
    + rewrite IH by (rewrite ?zlen_upd; auto; lia). rewrite znth_upd by lia.
      destruct (Z.eqb_spec (ln t s) x); destruct (Z.eqb_spec x (ln t s)); try lia. subst x. lia.
    + rewrite IH by (auto; lia). destruct (Z.eqb_spec x (ln t s)); lia.
Qed.
Lemma code_for_symbol_spec lens s : lens_ok 15 lens -> zlen lens <= 2 ^ 16 -> has_code lens s ->
  code_for_symbol lens s = canon lens s.
Proof.
  intros HL Hn (Hs & Hp). unfold code_for_symbol. fold (ln lens s). destruct (Z.eqb_spec (ln lens s) 0); [lia|].
  destruct (next_codes_spec lens HL Hn) as [N1 N2]. rewrite code_walk_spec, canon_first by auto. f_equal.
  apply N2. pose proof (ln_range 15 lens s ltac:(lia) HL). lia.
Qed.
