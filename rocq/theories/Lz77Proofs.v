From Verif Require Import Base DeflateSpec Lz77Model Lz77Spec.

(** ** Slices *)
Lemma slice_r_ok {A} (l : list A) i j :
  0 <= i <= j -> j <= zlen l -> slice_r l i j = Ok (slice l i j).
Proof.
  intros H1 H2; unfold slice_r.
  replace ((0 <=? i) && (i <=? j) && (j <=? zlen l)) with true; auto.
  symmetry; rewrite !andb_true_iff; repeat split; apply Z.leb_le; lia.
Qed.
Lemma slice_length {A} (l : list A) i j :
  0 <= i <= j -> j <= zlen l -> length (slice l i j) = Z.to_nat (j - i).
Proof.
  intros H1 H2; unfold slice, zlen in *. rewrite firstn_length, skipn_length. lia.
Qed.
Lemma nth_skipn' {A} n (l : list A) k d : nth k (skipn n l) d = nth (n + k) l d.
Proof. revert l; induction n; intros [|x l]; cbn; auto; destruct k; auto. Qed.
Lemma nth_firstn' {A} n (l : list A) k d : (k < n)%nat -> nth k (firstn n l) d = nth k l d.
Proof. revert l k; induction n; intros [|x l] [|k] H; cbn; auto; try lia; apply IHn; lia. Qed.
Lemma slice_nth l i j k :
  0 <= i <= j -> 0 <= k < j - i -> nth (Z.to_nat k) (slice l i j) 0 = znth l (i + k).
Proof.
  intros H1 H2; unfold slice, znth.
  rewrite nth_firstn' by lia. rewrite nth_skipn'. f_equal; lia.
Qed.
Lemma bytes_slice l i j : bytes l -> bytes (slice l i j).
Proof. intros H; apply Forall_firstn, Forall_skipn; auto. Qed.
Lemma get_znth l i : 0 <= i < zlen l -> get l i = Ok (znth l i).
Proof. intros H; apply get_ok; auto. Qed.

Lemma le_val_range l : bytes l -> 0 <= le_val l < 256 ^ zlen l.
Proof.
  induction 1 as [|b l Hb Hl IH]; cbn [le_val].
  - rewrite zlen_nil; change (256 ^ 0) with 1; lia.
  - rewrite zlen_cons, Z.pow_add_r by (pose proof (zlen_nonneg l); lia).
    change (256 ^ 1) with 256. unfold is_byte in Hb. nia.
Qed.

(** ** Trailing zeros of the xor locate the first difference *)
Lemma lxor_split x y A B n :
  0 < n -> 0 <= x < 2 ^ n -> 0 <= y < 2 ^ n ->
  Z.lxor (x + 2 ^ n * A) (y + 2 ^ n * B) = Z.lxor x y + 2 ^ n * Z.lxor A B.
Proof.
  intros Hn Hx Hy.
  assert (Hxy : 0 <= Z.lxor x y < 2 ^ n).
  { split; [rewrite Z.lxor_nonneg; lia|].
    destruct (Z.eq_dec (Z.lxor x y) 0) as [->|N]; [lia|].
    assert (0 <= Z.lxor x y) by (rewrite Z.lxor_nonneg; lia).
    apply Z.log2_lt_pow2; [lia|].
    eapply Z.le_lt_trans; [apply Z.log2_lxor; lia|].
    apply Z.max_lub_lt.
    - destruct (Z.eq_dec x 0) as [->|]; [exact Hn|apply Z.log2_lt_pow2; lia].
    - destruct (Z.eq_dec y 0) as [->|]; [exact Hn|apply Z.log2_lt_pow2; lia]. }
  rewrite !(Z.mul_comm (2 ^ n)), <- !lor_disjoint by (auto; lia).
  rewrite <- !Z.shiftl_mul_pow2 by lia.
  apply Z.bits_inj'; intros k Hk.
  rewrite Z.lxor_spec, !Z.lor_spec, Z.lxor_spec, !Z.shiftl_spec by auto.
  destruct (Z.ltb_spec k n) as [L|L].
  - rewrite !(Z.testbit_neg_r _ (k - n)) by lia. rewrite !orb_false_r; auto.
  - rewrite Z.lxor_spec.
    replace (Z.testbit x k) with false; [replace (Z.testbit y k) with false; auto|].
    + symmetry. destruct (Z.eq_dec y 0) as [->|]; [apply Z.bits_0|].
      apply Z.bits_above_log2; [lia|]. apply Z.lt_le_trans with n; auto. apply Z.log2_lt_pow2; lia.
    + symmetry. destruct (Z.eq_dec x 0) as [->|]; [apply Z.bits_0|].
      apply Z.bits_above_log2; [lia|]. apply Z.lt_le_trans with n; auto. apply Z.log2_lt_pow2; lia.
Qed.

Lemma ctz_nonneg n x : 0 <= ctz n x.
Proof. revert x; induction n; intros x; cbn [ctz]; [lia|]. destruct (Z.odd x); [lia|]. specialize (IHn (x / 2)); lia. Qed.
Lemma ctz_lt n m x : (m <= n)%nat -> x mod 2 ^ Z.of_nat m <> 0 -> ctz n x < Z.of_nat m.
Proof.
  revert n x; induction m as [|m IH]; intros n x Hn Hx.
  - exfalso; apply Hx; change (2 ^ Z.of_nat 0) with 1; apply Z.mod_1_r.
  - destruct n as [|n]; [lia|]. cbn [ctz]. destruct (Z.odd x) eqn:E; [lia|].
    assert (ctz n (x / 2) < Z.of_nat m); [|lia].
    apply IH; [lia|]. intros C; apply Hx.
    rewrite pow2_S. pose proof (pow2_pos m).
    rewrite Z.rem_mul_r by lia. rewrite C.
    rewrite Zmod_odd, E. lia.
Qed.
Lemma ctz_mul n m y : ctz (m + n) (2 ^ Z.of_nat m * y) = Z.of_nat m + ctz n y.
Proof.
  induction m as [|m IH].
  - change (2 ^ Z.of_nat 0) with 1. rewrite Z.mul_1_l; cbn [Nat.add]; lia.
  - cbn [Nat.add ctz]. rewrite pow2_S, <- Z.mul_assoc.
    rewrite Z.odd_mul. cbn [Z.odd andb].
    rewrite Z.mul_comm, Z.div_mul by lia. rewrite IH; lia.
Qed.

Lemma ctz_first_diff a b n :
  length a = length b -> bytes a -> bytes b -> (8 * length a <= n)%nat -> le_val a <> le_val b ->
  let k := ctz n (Z.lxor (le_val a) (le_val b)) / 8 in
  0 <= k < zlen a /\
  (forall i, 0 <= i < k -> znth a i = znth b i) /\ znth a k <> znth b k.
Proof.
  revert b n; induction a as [|x a IH]; intros [|y b] n Hl Ha Hb Hn Hd k; try discriminate.
  { exfalso; apply Hd; reflexivity. }
  inversion Ha as [|? ? Hx Ha']; inversion Hb as [|? ? Hy Hb']; subst; clear Ha Hb.
  cbn [le_val] in *. cbn [length] in Hn, Hl. injection Hl as Hl.
  unfold is_byte in Hx, Hy.
  assert (E : Z.lxor (x + 256 * le_val a) (y + 256 * le_val b)
              = Z.lxor x y + 256 * Z.lxor (le_val a) (le_val b))
    by (apply (lxor_split x y (le_val a) (le_val b) 8); lia).
  subst k. rewrite E. rewrite zlen_cons.
  destruct (Z.eq_dec x y) as [->|N].
  - rewrite Z.lxor_nilpotent, Z.add_0_l.
    replace n with (8 + (n - 8))%nat by lia.
    change 256 with (2 ^ Z.of_nat 8). rewrite ctz_mul.
    assert (Hd' : le_val a <> le_val b) by (intros C; apply Hd; rewrite C; reflexivity).
    destruct (IH b (n - 8)%nat Hl Ha' Hb' ltac:(lia) Hd') as (K1 & K2 & K3).
    set (k := ctz (n - 8) (Z.lxor (le_val a) (le_val b)) / 8) in *.
    replace ((Z.of_nat 8 + ctz (n - 8) (Z.lxor (le_val a) (le_val b))) / 8) with (1 + k)
      by (subst k; lia).
    split; [lia|split].
    + intros i Hi. unfold znth.
      destruct (Z.eq_dec i 0) as [->|]; [reflexivity|].
      replace (Z.to_nat i) with (S (Z.to_nat (i - 1))) by lia. cbn [nth].
      apply K2; lia.
    + unfold znth. replace (Z.to_nat (1 + k)) with (S (Z.to_nat k)) by lia. cbn [nth]. exact K3.
  - assert (L : ctz n (Z.lxor x y + 256 * Z.lxor (le_val a) (le_val b)) < Z.of_nat 8).
    { apply ctz_lt; [lia|]. change (2 ^ Z.of_nat 8) with 256.
      rewrite Z.mul_comm, Z_mod_plus_full.
      assert (Z.lxor x y <> 0) by (rewrite Z.lxor_eq_0_iff; auto).
      rewrite Z.mod_small; auto.
      split; [rewrite Z.lxor_nonneg; lia|].
      assert (0 <= Z.lxor x y) by (rewrite Z.lxor_nonneg; lia).
      change 256 with (2 ^ 8). apply Z.log2_lt_pow2; [lia|].
      eapply Z.le_lt_trans; [apply Z.log2_lxor; lia|].
      apply Z.max_lub_lt.
      + destruct (Z.eq_dec x 0) as [->|]; [cbn; lia|]. apply Z.log2_lt_pow2; lia.
      + destruct (Z.eq_dec y 0) as [->|]; [cbn; lia|]. apply Z.log2_lt_pow2; lia. }
    pose proof (ctz_nonneg n (Z.lxor x y + 256 * Z.lxor (le_val a) (le_val b))).
    replace (ctz n (Z.lxor x y + 256 * Z.lxor (le_val a) (le_val b)) / 8) with 0 by lia.
    pose proof (zlen_nonneg a).
    split; [lia|split]; [lia|]. exact N.
Qed.

Lemma le_val_inj a b :
  length a = length b -> bytes a -> bytes b -> le_val a = le_val b -> a = b.
Proof.
  revert b; induction a as [|x a IH]; intros [|y b] Hl Ha Hb E; try discriminate; auto.
  inversion Ha; inversion Hb; subst. cbn [le_val] in E. unfold is_byte in *.
  injection Hl as Hl. assert (x = y) by lia. subst. f_equal. apply IH; auto. lia.
Qed.

(** ** match_length *)
Section MatchLen.
  Variables (data : list Z) (p1 p2 maxl : Z).
  Hypothesis Hp : bytes data.
  Hypothesis H1 : 0 <= p1 /\ p1 + maxl <= zlen data.
  Hypothesis H2 : 0 <= p2 /\ p2 + maxl <= zlen data.

  Lemma match_tail_ok fuel len :
    0 <= len <= maxl -> maxl - len <= Z.of_nat fuel ->
    (forall i, 0 <= i < len -> znth data (p1 + i) = znth data (p2 + i)) ->
    exists n, match_tail fuel data p1 p2 len maxl = Ok n /\ common_prefix data p1 p2 maxl n.
  Proof.
    revert len; induction fuel as [|f IH]; intros len Hl Hf He; cbn [match_tail].
    - destruct (Z.ltb_spec len maxl); [lia|]. cbn [negb].
      exists len; split; auto. split; [lia|]. split; [auto|lia].
    - destruct (Z.ltb_spec len maxl); cbn [negb].
      2:{ exists len; split; auto. split; [lia|]. split; [auto|lia]. }
      rewrite !get_znth by lia. cbn [rbind].
      destruct (Z.eqb_spec (znth data (p1 + len)) (znth data (p2 + len))) as [E|E].
      + apply IH; [lia|lia|]. intros i Hi. destruct (Z.eq_dec i len) as [->|]; auto. apply He; lia.
      + exists len; split; auto. split; [lia|]. split; auto.
  Qed.
  Lemma match_words_ok fuel len :
    0 <= len <= maxl -> maxl - len <= Z.of_nat fuel ->
    (forall i, 0 <= i < len -> znth data (p1 + i) = znth data (p2 + i)) ->
    exists n, match_words fuel data p1 p2 len maxl = Ok n /\ common_prefix data p1 p2 maxl n.
  Proof.
    revert len; induction fuel as [|f IH]; intros len Hl Hf He; cbn [match_words].
    - destruct (Z.leb_spec (len + 8) maxl); [lia|]. cbn [negb]. apply match_tail_ok; auto; lia.
    - destruct (Z.leb_spec (len + 8) maxl); cbn [negb].
      2:{ apply match_tail_ok; auto; lia. }
      rewrite !slice_r_ok by lia. cbn [rbind].
      set (wa := slice data (p1 + len) (p1 + len + 8)).
      set (wb := slice data (p2 + len) (p2 + len + 8)).
      assert (La : length wa = 8%nat) by (unfold wa; rewrite slice_length; lia).
      assert (Lb : length wb = 8%nat) by (unfold wb; rewrite slice_length; lia).
      assert (Na : forall k, 0 <= k < 8 -> znth wa k = znth data (p1 + (len + k))).
      { intros k Hk. unfold wa, znth at 1. rewrite slice_nth by lia. f_equal; lia. }
      assert (Nb : forall k, 0 <= k < 8 -> znth wb k = znth data (p2 + (len + k))).
      { intros k Hk. unfold wb, znth at 1. rewrite slice_nth by lia. f_equal; lia. }
      destruct (Z.eqb_spec (le_val wa) (le_val wb)) as [E|E]; cbn [negb].
      + apply IH; [lia|lia|]. intros i Hi.
        assert (wa = wb) as Ew.
        { apply le_val_inj; auto; [congruence| |]; apply bytes_slice; auto. }
        destruct (Z.ltb_spec i len); [apply He; lia|].
        replace i with (len + (i - len)) by lia.
        rewrite <- Na, <- Nb, Ew by lia. reflexivity.
      + destruct (ctz_first_diff wa wb 64) as (K1 & K2 & K3); auto; [congruence|apply bytes_slice; auto|apply bytes_slice; auto|lia|].
        set (k := ctz 64 (Z.lxor (le_val wa) (le_val wb)) / 8) in *.
        assert (zlen wa = 8) by (unfold zlen; lia).
        exists (len + k). split; auto. split; [lia|]. split.
        * intros i Hi. destruct (Z.ltb_spec i len); [apply He; lia|].
          replace i with (len + (i - len)) by lia.
          rewrite <- Na, <- Nb by lia. apply K2; lia.
        * intros _. rewrite <- Na, <- Nb by lia. exact K3.
  Qed.
  Lemma match_length_scalar_ok :
    0 <= maxl ->
    exists n, match_length_scalar data p1 p2 maxl = Ok n /\ common_prefix data p1 p2 maxl n.
  Proof.
    intros H. apply match_words_ok; [lia|lia|]. intros i Hi; lia.
  Qed.
End MatchLen.

Lemma match_length_ok data p1 p2 :
  bytes data -> 0 <= p1 <= p2 -> p2 <= zlen data ->
  exists n, match_length data p1 p2 = Ok n /\
            common_prefix data p1 p2 (Z.min (zlen data - p2) 258) n.
Proof.
  intros Hb H1 H2; unfold match_length, usub.
  destruct (Z.ltb_spec (zlen data) p2); [lia|]. cbn [rbind].
  apply match_length_scalar_ok; auto; unfold MAX_MATCH_LENGTH; lia.
Qed.

(** ** Runs *)
Definition all_eq (data : list Z) (pos n : Z) : Prop :=
  forall i, 0 <= i < n -> znth data (pos + i) = znth data pos.
Definition run_spec (data : list Z) (pos n : Z) : Prop :=
  1 <= n <= Z.min (zlen data - pos) 258 /\ all_eq data pos n /\
  (n < Z.min (zlen data - pos) 258 -> znth data (pos + n) <> znth data pos).

Lemma run_tail_ok fuel data pos len maxr :
  0 <= pos -> pos + maxr <= zlen data -> 1 <= len <= maxr -> maxr - len <= Z.of_nat fuel ->
  all_eq data pos len ->
  exists n, run_tail fuel data pos (znth data pos) len maxr = Ok n /\
    1 <= n <= maxr /\ all_eq data pos n /\ (n < maxr -> znth data (pos + n) <> znth data pos).
Proof.
  revert len; induction fuel as [|f IH]; intros len Hp Hm Hl Hf He; cbn [run_tail].
  - destruct (Z.ltb_spec len maxr); [lia|]. cbn [negb]. exists len; split; auto. split; [lia|split;[auto|lia]].
  - destruct (Z.ltb_spec len maxr); cbn [negb].
    2:{ exists len; split; auto. split; [lia|split;[auto|lia]]. }
    rewrite get_znth by lia. cbn [rbind].
    destruct (Z.eqb_spec (znth data (pos + len)) (znth data pos)) as [E|E].
    + apply IH; auto; [lia|lia|]. intros i Hi. destruct (Z.eq_dec i len) as [->|]; auto. apply He; lia.
    + exists len; split; auto.
Qed.
Lemma run_chunk_ok chunk data pos len maxr :
  0 <= pos -> 1 <= len -> len + zlen chunk <= maxr -> all_eq data pos len ->
  (forall k, 0 <= k < zlen chunk -> znth chunk k = znth data (pos + (len + k))) ->
  forallb (fun b => b =? znth data pos) chunk = false ->
  let n := run_chunk chunk (znth data pos) len maxr in
  1 <= n < maxr /\ all_eq data pos n /\ znth data (pos + n) <> znth data pos.
Proof.
  revert len; induction chunk as [|b r IH]; intros len Hp Hl Hm He Hk Hf n; [discriminate|].
  subst n; cbn [run_chunk forallb] in *. rewrite zlen_cons in *.
  pose proof (zlen_nonneg r).
  assert (Eb : b = znth data (pos + len)).
  { specialize (Hk 0 ltac:(lia)). rewrite Z.add_0_r in Hk. exact Hk. }
  destruct (Z.eqb_spec b (znth data pos)) as [E|E]; cbn [andb] in *.
  - destruct (Z.ltb_spec len maxr); [|lia].
    apply IH; auto; [lia|lia| |].
    + intros i Hi. destruct (Z.eq_dec i len) as [->|]; [congruence|]. apply He; lia.
    + intros k Hk'. specialize (Hk (1 + k) ltac:(lia)).
      unfold znth in Hk at 1. replace (Z.to_nat (1 + k)) with (S (Z.to_nat k)) in Hk by lia.
      cbn [nth] in Hk. unfold znth at 1. rewrite Hk. f_equal; lia.
  - split; [lia|split]; auto. congruence.
Qed.
Lemma run_words_ok fuel data pos len maxr :
  0 <= pos -> pos + maxr <= zlen data -> 1 <= len <= maxr -> maxr - len <= 8 * Z.of_nat fuel ->
  all_eq data pos len ->
  exists n, run_words fuel data pos (znth data pos) len maxr = Ok n /\
    1 <= n <= maxr /\ all_eq data pos n /\ (n < maxr -> znth data (pos + n) <> znth data pos).
Proof.
  revert len; induction fuel as [|f IH]; intros len Hp Hm Hl Hf He; cbn [run_words].
  - destruct (Z.leb_spec (len + 8) maxr); [lia|]. cbn [negb]. apply run_tail_ok; auto; lia.
  - destruct (Z.leb_spec (len + 8) maxr); cbn [negb].
    2:{ apply run_tail_ok; auto; lia. }
    rewrite slice_r_ok by lia. cbn [rbind].
    set (ch := slice data (pos + len) (pos + len + 8)).
    assert (Lc : zlen ch = 8) by (unfold zlen, ch; rewrite slice_length; lia).
    assert (Nc : forall k, 0 <= k < zlen ch -> znth ch k = znth data (pos + (len + k))).
    { intros k Hk. rewrite Lc in Hk. unfold ch, znth at 1. rewrite slice_nth by lia. f_equal; lia. }
    destruct (forallb (fun b => b =? znth data pos) ch) eqn:F.
    + apply IH; auto; [lia|lia|]. intros i Hi.
      destruct (Z.ltb_spec i len); [apply He; lia|].
      replace i with (len + (i - len)) by lia. rewrite <- Nc by lia.
      rewrite forallb_forall in F. apply Z.eqb_eq. apply F.
      apply nth_In. unfold zlen in *; lia.
    + destruct (run_chunk_ok ch data pos len maxr) as (A & B & C); auto; try lia.
      eexists; split; [reflexivity|]. split; [lia|split]; auto.
Qed.
Lemma detect_run_ok data pos :
  0 <= pos < zlen data ->
  exists n, detect_same_byte_run data pos = Ok n /\ run_spec data pos n.
Proof.
  intros H. unfold detect_same_byte_run, run_spec.
  destruct (Z.leb_spec (zlen data) pos); [lia|].
  destruct (Z.leb_spec (zlen data) (pos + 1)).
  { exists 1; split; auto. split; [lia|]. split; [|lia].
    intros i Hi. f_equal; lia. }
  rewrite !get_znth by lia. cbn [rbind].
  destruct (Z.eqb_spec (znth data (pos + 1)) (znth data pos)) as [E|E]; cbn [negb].
  - destruct (run_words_ok 40 data pos 2 (Z.min (zlen data - pos) MAX_MATCH_LENGTH))
      as (n & A & B); auto; unfold MAX_MATCH_LENGTH in *; try lia.
    { intros i Hi. assert (i = 0 \/ i = 1) as [-> | ->] by lia; auto. f_equal; lia. }
    exists n; split; auto.
  - exists 1; split; auto. split; [lia|]. split; [|auto].
    intros i Hi. f_equal; lia.
Qed.

(** ** Tables *)
Lemma as_i32_le x : 0 <= x -> as_i32 x <= x.
Proof.
  intros H; unfold as_i32, wrap.
  assert (x mod 2 ^ 32 <= x) by (apply Z.mod_le; lia).
  destruct (x mod 2 ^ 32 <? 2 ^ 31); lia.
Qed.

Lemma hash_range x n m : 0 <= n -> 2 ^ n = m -> 0 <= Z.land x (m - 1) < m.
Proof. intros Hn <-. rewrite land_mask by auto. apply Z.mod_pos_bound. apply Z.pow_pos_nonneg; lia. Qed.

Lemma hash3_ok data pos : 0 <= pos -> exists h, hash3 data pos = Ok h /\ 0 <= h < HASH3_SIZE.
Proof.
  intros H; unfold hash3, HASH3_SIZE. destruct (Z.leb_spec (zlen data) (pos + 2)).
  - exists 0; split; auto; lia.
  - rewrite slice_r_ok by lia. cbn [rbind]. eexists; split; [reflexivity|].
    apply (hash_range _ 15); lia.
Qed.
Lemma hash4_ok data pos : 0 <= pos -> exists h, hash4 data pos = Ok h /\ 0 <= h < HASH_SIZE.
Proof.
  intros H; unfold hash4, HASH_SIZE. destruct (Z.leb_spec (zlen data) (pos + 3)).
  - exists 0; split; auto; lia.
  - rewrite slice_r_ok by lia. cbn [rbind]. eexists; split; [reflexivity|].
    apply (hash_range _ 16); lia.
Qed.
Lemma hash4_ht_ok data pos : 0 <= pos -> exists h, hash4_ht data pos = Ok h /\ 0 <= h < HT_HASH_SIZE.
Proof.
  intros H; unfold hash4_ht, HT_HASH_SIZE. destruct (Z.leb_spec (zlen data) (pos + 3)).
  - exists 0; split; auto; lia.
  - rewrite slice_r_ok by lia. cbn [rbind]. eexists; split; [reflexivity|].
    apply (hash_range _ 15); lia.
Qed.
Lemma tget_ok n t i : 0 <= i < n -> tget n t i = Ok (t i).
Proof.
  intros H; unfold tget. destruct (Z.leb_spec 0 i); destruct (Z.ltb_spec i n); try lia; auto.
Qed.
Lemma tset_ok n t i v : 0 <= i < n -> tset n t i v = Ok (fun j => if j =? i then v else t j).
Proof.
  intros H; unfold tset. destruct (Z.leb_spec 0 i); destruct (Z.ltb_spec i n); try lia; auto.
Qed.

(** every stored position is at most [p] *)
Definition tab_ok (p : Z) (st : tables) : Prop :=
  forall i, t_head st i <= p /\ t_head3 st i <= p /\ t_ht0 st i <= p /\ t_ht1 st i <= p /\ t_prev st i <= p.
Lemma tab_ok_mono p q st : p <= q -> tab_ok p st -> tab_ok q st.
Proof. intros H Ht i; specialize (Ht i); lia. Qed.
Lemma empty_tab_ok p : -1 <= p -> tab_ok p empty_tables.
Proof. intros H i; cbn; lia. Qed.

Lemma update_hash_ok st data pos q :
  0 <= pos <= q -> tab_ok q st ->
  exists st', update_hash st data pos = Ok st' /\ tab_ok q st'.
Proof.
  intros Hp Ht; unfold update_hash.
  destruct (Z.leb_spec (zlen data) (pos + 3)); [eauto|].
  destruct (hash3_ok data pos) as (h3 & E3 & R3); [lia|].
  destruct (hash4_ok data pos) as (h4 & E4 & R4); [lia|].
  rewrite E3; cbn [rbind]. rewrite tset_ok by auto. cbn [rbind].
  rewrite E4; cbn [rbind]. rewrite tget_ok by auto. cbn [rbind].
  rewrite !tset_ok by (auto; unfold MAX_DISTANCE; lia). cbn [rbind].
  eexists; split; [reflexivity|].
  pose proof (as_i32_le pos ltac:(lia)).
  intros i; cbn. pose proof (Ht i) as Hi. pose proof (Ht h4) as Hh.
  destruct (i =? h4), (i =? h3), (i =? pos mod MAX_DISTANCE); lia.
Qed.
Lemma update_range_ok n st data pos q :
  0 <= pos -> pos + Z.of_nat n <= q + 1 -> tab_ok q st ->
  exists st', update_range n st data pos = Ok st' /\ tab_ok q st'.
Proof.
  revert st pos; induction n as [|n IH]; intros st pos Hp Hq Ht; cbn [update_range]; [eauto|].
  destruct (update_hash_ok st data pos q) as (st' & E & T); [lia|auto|].
  rewrite E; cbn [rbind]. apply IH; auto; lia.
Qed.
Lemma update_match_ok st data pos len dist q :
  0 <= pos -> 1 <= len -> pos + len <= q -> tab_ok q st ->
  exists st', update_match st data pos len dist = Ok st' /\ tab_ok q st'.
Proof.
  intros Hp Hl Hq Ht; unfold update_match.
  destruct ((dist =? 1) && (MIN_MATCH_LENGTH <=? len)).
  - destruct (update_hash_ok st data pos q) as (st' & E & T); [lia|auto|].
    rewrite E; cbn [rbind]. destruct (1 <? len); [|eauto].
    apply update_hash_ok; auto; lia.
  - apply update_range_ok; auto; lia.
Qed.

(** ** Match finders *)
Section Finder.
  Variables (data : list Z) (pos minl nice : Z).
  Hypothesis Hb : bytes data.
  Hypothesis Hpos : 0 <= pos.
  Hypothesis Hend : pos + 3 <= zlen data.
  Hypothesis Hmin : 3 <= minl <= 258.

  Definition best_ok (bl bd : Z) : Prop :=
    (bl = minl - 1 /\ bd = 0) \/ (minl <= bl /\ valid_match data pos bl bd).

  Lemma prefix_valid c n :
    0 <= c -> 1 <= pos - c <= 32768 -> 3 <= n ->
    common_prefix data c pos (Z.min (zlen data - pos) 258) n ->
    valid_match data pos n (pos - c).
  Proof.
    intros Hc Hd Hn (A & B & _). split; [lia|]. split; [lia|]. split; [lia|]. split; [lia|].
    intros i Hi. replace (pos + i - (pos - c)) with (c + i) by lia. symmetry; apply B; lia.
  Qed.

  Lemma prefix4_ok c : 0 <= c -> exists r, prefix4 data c = Ok r.
  Proof.
    intros H; unfold prefix4. destruct (Z.leb_spec (c + 4) (zlen data)); [|eauto].
    rewrite slice_r_ok by lia. cbn [rbind]; eauto.
  Qed.

  Lemma chain_loop_ok fuel st target cp bl bd :
    tab_ok pos st -> cp <= pos -> best_ok bl bd ->
    exists bl' bd', chain_loop fuel st data pos nice minl target cp bl bd = Ok (bl', bd') /\
      best_ok bl' bd'.
  Proof.
    intros Ht; revert cp bl bd; induction fuel as [|f IH]; intros cp bl bd Hc Hbest; cbn [chain_loop]; [eauto|].
    destruct (Z.ltb_spec cp 0); [eauto|].
    unfold usub at 1. destruct (Z.ltb_spec pos cp); [lia|]. cbn [rbind].
    assert (Hprev : tget MAX_DISTANCE (t_prev st) (cp mod MAX_DISTANCE)
                    = Ok (t_prev st (cp mod MAX_DISTANCE)))
      by (apply tget_ok; unfold MAX_DISTANCE; lia).
    assert (Hn : t_prev st (cp mod MAX_DISTANCE) <= pos) by apply Ht.
    destruct (Z.eqb_spec (pos - cp) 0).
    { rewrite Hprev; cbn [rbind]. apply IH; auto. }
    destruct (Z.ltb_spec (Z.min pos MAX_DISTANCE) (pos - cp)); [eauto|].
    assert (exists cand, (match target with None => Ok None | Some _ => prefix4 data cp end) = Ok cand)
      as (cand & Ec).
    { destruct target; [apply prefix4_ok; lia|eauto]. }
    rewrite Ec; cbn [rbind].
    destruct (match target, cand with Some p, Some c => negb (c =? p) | _, _ => false end).
    { rewrite Hprev; cbn [rbind]. apply IH; auto. }
    destruct (match_length_ok data cp pos Hb ltac:(lia) ltac:(lia)) as (len & El & Hlen).
    rewrite El; cbn [rbind].
    assert (Hbest' : better minl len (pos - cp) bl bd = true -> best_ok len (pos - cp)).
    { unfold better. rewrite !andb_true_iff. intros ((A & _) & _).
      apply Z.leb_le in A. right; split; auto.
      unfold MAX_DISTANCE in *. apply prefix_valid; auto; lia. }
    destruct (better minl len (pos - cp) bl bd).
    - specialize (Hbest' eq_refl).
      destruct ((MAX_MATCH_LENGTH <=? len) || (nice <=? len)); [eauto|].
      rewrite Hprev; cbn [rbind]. apply IH; auto.
    - rewrite Hprev; cbn [rbind]. apply IH; auto.
  Qed.

  Lemma probe3_ok st bl bd :
    tab_ok pos st -> best_ok bl bd ->
    exists r, probe3 st data pos nice minl bl bd = Ok r /\
      match r with
      | inl (bl', bd') => best_ok bl' bd'
      | inr (l, d) => minl <= l /\ valid_match data pos l d
      end.
  Proof.
    intros Ht Hbest; unfold probe3.
    destruct (hash3_ok data pos) as (h3 & E3 & R3); [lia|].
    rewrite E3; cbn [rbind]. rewrite tget_ok by auto. cbn [rbind].
    pose proof (Ht h3) as (_ & Hc & _). set (c := t_head3 st h3) in *.
    destruct (Z.ltb_spec c 0).
    { eexists; split; [reflexivity|]. auto. }
    unfold usub at 1. destruct (Z.ltb_spec pos c); [lia|]. cbn [rbind].
    destruct (Z.eqb_spec (pos - c) 0).
    { eexists; split; [reflexivity|]. auto. }
    destruct (Z.leb_spec (pos - c) MAX_DISTANCE); cbn [andb].
    2:{ eexists; split; [reflexivity|]. auto. }
    destruct (Z.leb_spec (c + 3) (zlen data)).
    2:{ eexists; split; [reflexivity|]. auto. }
    rewrite !slice_r_ok by lia. cbn [rbind].
    destruct (le_val (slice data pos (pos + 3)) =? le_val (slice data c (c + 3))).
    2:{ eexists; split; [reflexivity|]. auto. }
    destruct (match_length_ok data c pos Hb ltac:(lia) ltac:(lia)) as (len & El & Hlen).
    rewrite El; cbn [rbind].
    assert (Z.min len MAX_MATCH_LENGTH = len) as -> by (destruct Hlen; unfold MAX_MATCH_LENGTH; lia).
    assert (Hbest' : better minl len (pos - c) bl bd = true -> minl <= len /\ valid_match data pos len (pos - c)).
    { unfold better. rewrite !andb_true_iff. intros ((A & _) & _).
      apply Z.leb_le in A. split; auto.
      unfold MAX_DISTANCE in *. apply prefix_valid; auto; lia. }
    destruct (better minl len (pos - c) bl bd).
    - specialize (Hbest' eq_refl).
      destruct (nice <=? len); eexists; (split; [reflexivity|]); [exact Hbest'|right; exact Hbest'].
    - eexists; split; [reflexivity|]. auto.
  Qed.

  Lemma run_valid n :
    run_spec data pos n -> minl <= n -> 1 <= pos -> znth data (pos - 1) = znth data pos ->
    valid_match data pos n 1.
  Proof.
    intros (A & B & _) Hn Hp He. split; [lia|]. split; [lia|]. split; [lia|]. split; [lia|].
    intros i Hi. rewrite B by lia. destruct (Z.eq_dec i 0) as [->|].
    - replace (pos + 0 - 1) with (pos - 1) by lia. auto.
    - replace (pos + i - 1) with (pos + (i - 1)) by lia. symmetry; apply B; lia.
  Qed.

  Lemma ht_loop_ok cands bl bd :
    Forall (fun c => c <= pos) cands -> best_ok bl bd ->
    exists bl' bd', ht_loop cands data pos nice minl bl bd = Ok (bl', bd') /\ best_ok bl' bd'.
  Proof.
    intros Hc; revert bl bd; induction Hc as [|c r Hc _ IH]; intros bl bd Hbest; cbn [ht_loop]; [eauto|].
    destruct (Z.ltb_spec c 0); [auto|].
    unfold usub at 1. destruct (Z.ltb_spec pos c); [lia|]. cbn [rbind].
    destruct (Z.eqb_spec (pos - c) 0); cbn [orb]; [auto|].
    destruct (Z.ltb_spec MAX_DISTANCE (pos - c)); cbn [orb]; [auto|].
    destruct (Z.ltb_spec (zlen data) (c + 3)); [auto|].
    rewrite !slice_r_ok by lia. cbn [rbind].
    destruct (le_val (slice data pos (pos + 3)) =? le_val (slice data c (c + 3))); cbn [negb]; [|auto].
    destruct (match_length_ok data c pos Hb ltac:(lia) ltac:(lia)) as (len & El & Hlen).
    rewrite El; cbn [rbind].
    assert (Z.min len MAX_MATCH_LENGTH = len) as -> by (destruct Hlen; unfold MAX_MATCH_LENGTH; lia).
    destruct (Z.ltb_spec len minl); cbn [orb]; [auto|].
    destruct ((len =? 3) && (8192 <? pos - c)); [auto|].
    assert (best_ok len (pos - c)).
    { right; split; auto. unfold MAX_DISTANCE in *. apply prefix_valid; auto; lia. }
    destruct (bl <? len); [|auto].
    destruct (nice <=? len); [eauto|auto].
  Qed.
End Finder.

Definition match_ok (data : list Z) (pos : Z) (m : option (Z * Z)) : Prop :=
  match m with None => True | Some (l, d) => valid_match data pos l d end.

Lemma find_best_match_ok st data pos chain nice minl :
  bytes data -> 0 <= pos -> 3 <= minl <= 258 -> tab_ok pos st ->
  exists m, find_best_match st data pos chain nice minl = Ok m /\ match_ok data pos m.
Proof.
  intros Hb Hp Hm Ht; unfold find_best_match, MIN_MATCH_LENGTH.
  destruct (Z.ltb_spec (zlen data) (pos + 3)).
  { eexists; split; [reflexivity|exact I]. }
  destruct (detect_run_ok data pos) as (run & Er & Hr); [lia|].
  rewrite Er; cbn [rbind].
  assert (exists r, in_run data pos run minl = Ok r /\ (r = true -> minl <= run /\ valid_match data pos run 1))
    as (r & Ei & Hi).
  { unfold in_run. destruct (Z.leb_spec minl run); cbn [andb].
    2:{ eexists; split; [reflexivity|]; discriminate. }
    destruct (Z.leb_spec 1 pos).
    2:{ eexists; split; [reflexivity|]; discriminate. }
    rewrite !get_znth by lia. cbn [rbind]. eexists; split; [reflexivity|].
    intros E; apply Z.eqb_eq in E. split; auto. eapply run_valid; eauto. }
  rewrite Ei; cbn [rbind].
  destruct (r && ((nice <=? run) || (MAX_MATCH_LENGTH <=? run))) eqn:Q.
  { apply andb_true_iff in Q as [-> _]. destruct (Hi eq_refl).
    eexists; split; [reflexivity|]. cbn.
    replace (Z.min run MAX_MATCH_LENGTH) with run; auto.
    destruct Hr; unfold MAX_MATCH_LENGTH; lia. }
  assert (exists bl bd, (if r then (run, 1) else (Z.max 0 (minl - 1), 0)) = (bl, bd) /\ best_ok data pos minl bl bd)
    as (bl & bd & E0 & H0).
  { destruct r; eexists; eexists; (split; [reflexivity|]).
    - right; auto.
    - left; lia. }
  rewrite E0.
  destruct (probe3_ok data pos minl nice Hb Hp ltac:(lia) Hm st bl bd) as (p & Ep & Hpr); auto.
  rewrite Ep; cbn [rbind].
  destruct p as [[bl1 bd1]|[l d]].
  - destruct (hash4_ok data pos) as (h4 & E4 & R4); [lia|].
    rewrite E4; cbn [rbind]. rewrite tget_ok by auto. cbn [rbind].
    destruct (prefix4_ok data pos Hp) as (tg & Et). rewrite Et; cbn [rbind].
    destruct (chain_loop_ok data pos minl nice Hb ltac:(lia) Hm (Z.to_nat chain) st tg (t_head st h4) bl1 bd1)
      as (bl2 & bd2 & Ecl & Hcl); auto.
    { apply Ht. }
    rewrite Ecl; cbn [rbind].
    destruct (Z.leb_spec minl bl2); eexists; (split; [reflexivity|]); [|exact I].
    destruct Hcl as [[-> _]|[_ V]]; [lia|exact V].
  - eexists; split; [reflexivity|]. apply Hpr.
Qed.

Lemma find_best_match_ht_ok st data pos nice minl :
  bytes data -> 0 <= pos -> 3 <= minl <= 258 -> tab_ok pos st ->
  exists m st', find_best_match_ht st data pos nice minl = Ok (m, st') /\ match_ok data pos m /\ tab_ok pos st'.
Proof.
  intros Hb Hp Hm Ht; unfold find_best_match_ht, MIN_MATCH_LENGTH.
  destruct (Z.ltb_spec (zlen data) (pos + 3)).
  { do 2 eexists; split; [reflexivity|]. split; [exact I|auto]. }
  destruct (hash4_ht_ok data pos) as (h & E & R); [lia|].
  rewrite E; cbn [rbind]. rewrite !tget_ok by auto. cbn [rbind].
  rewrite !tset_ok by auto. cbn [rbind].
  pose proof (Ht h) as (_ & _ & A & B & _).
  destruct (ht_loop_ok data pos minl nice Hb Hp ltac:(lia) Hm [t_ht0 st h; t_ht1 st h] (Z.max 0 (minl - 1)) 0)
    as (bl & bd & El & Hl).
  { repeat constructor; auto. }
  { left; lia. }
  rewrite El; cbn [rbind].
  pose proof (as_i32_le pos Hp).
  assert (T : tab_ok pos (mk_tables (t_head st) (t_head3 st) (fun j => if j =? h then as_i32 pos else t_ht0 st j)
                      (fun j => if j =? h then t_ht0 st h else t_ht1 st j) (t_prev st))).
  { intros i; cbn. pose proof (Ht i). destruct (i =? h); lia. }
  destruct (Z.leb_spec minl bl); do 2 eexists; (split; [reflexivity|]); split; auto; [|exact I].
  destruct Hl as [[-> _]|[_ V]]; [lia|exact V].
Qed.

Lemma search_ok cfg st data pos chain minl :
  bytes data -> 0 <= pos -> 3 <= minl <= 258 -> tab_ok pos st ->
  exists m st', search cfg st data pos chain minl = Ok (m, st') /\ match_ok data pos m /\ tab_ok pos st'.
Proof.
  intros Hb Hp Hm Ht; unfold search. destruct (c_ht cfg).
  - apply find_best_match_ht_ok; auto.
  - destruct (find_best_match_ok st data pos (Z.min chain (c_depth cfg)) (c_nice cfg) minl) as (m & E & V); auto.
    rewrite E; cbn [rbind]. eauto.
Qed.

(** ** Expansion *)
Lemma firstn_S_nth {A} n (l : list A) d :
  (n < length l)%nat -> firstn (S n) l = firstn n l ++ [nth n l d].
Proof.
  revert l; induction n; intros [|x l] H; cbn in *; try lia; auto. f_equal; apply IHn; lia.
Qed.
Lemma copy_back_prefix n d data p :
  (1 <= d <= p)%nat -> (p + n <= length data)%nat ->
  (forall i, (i < n)%nat -> nth (p + i) data 0 = nth (p + i - d) data 0) ->
  copy_back n d (firstn p data) = firstn (p + n) data.
Proof.
  revert p; induction n as [|n IH]; intros p Hd Hp He; cbn [copy_back].
  - rewrite Nat.add_0_r; auto.
  - rewrite firstn_length_le by lia.
    rewrite nth_firstn' by lia.
    specialize (He 0%nat ltac:(lia)) as H0. rewrite Nat.add_0_r in H0. rewrite <- H0.
    rewrite <- firstn_S_nth by lia. rewrite IH; [f_equal; lia|lia|lia|].
    intros i Hi. replace (S p + i)%nat with (p + S i)%nat by lia. apply He; lia.
Qed.
Lemma expand1_match data pos len dist :
  0 <= pos -> valid_match data pos len dist ->
  expand1 (firstn (Z.to_nat pos) data) (TMatch len dist) = Some (firstn (Z.to_nat (pos + len)) data).
Proof.
  intros Hp (A & B & C & D & E). cbn [expand1].
  assert (L : zlen (firstn (Z.to_nat pos) data) = pos).
  { unfold zlen in *; rewrite firstn_length_le; lia. }
  rewrite L.
  replace ((3 <=? len) && (len <=? 258) && (1 <=? dist) && (dist <=? 32768) && (dist <=? pos)) with true
    by (symmetry; rewrite !andb_true_iff; repeat split; apply Z.leb_le; lia).
  f_equal. rewrite copy_back_prefix; [f_equal; lia|lia|unfold zlen in *; lia|].
  intros i Hi. specialize (E (Z.of_nat i) ltac:(lia)). unfold znth in E.
  replace (Z.to_nat pos + i)%nat with (Z.to_nat (pos + Z.of_nat i)) by lia. rewrite E. f_equal. lia.
Qed.
Lemma expand1_lit data pos :
  bytes data -> 0 <= pos < zlen data ->
  expand1 (firstn (Z.to_nat pos) data) (TLit (znth data pos)) = Some (firstn (Z.to_nat (pos + 1)) data).
Proof.
  intros Hb Hp. cbn [expand1].
  assert (is_byte (znth data pos)) as [A B] by (unfold znth; apply Forall_nth_d; auto; unfold is_byte; lia).
  destruct (Z.leb_spec 0 (znth data pos)); [|lia]. destruct (Z.ltb_spec (znth data pos) 256); [|lia].
  cbn [andb]. f_equal. replace (Z.to_nat (pos + 1)) with (S (Z.to_nat pos)) by lia.
  rewrite (firstn_S_nth _ _ 0) by (unfold zlen in *; lia). reflexivity.
Qed.
Lemma expand_app out a b :
  expand out (a ++ b) = match expand out a with Some o => expand o b | None => None end.
Proof.
  revert out; induction a as [|t a IH]; intros out; cbn [expand app]; auto.
  destruct (expand1 out t); auto.
Qed.
Lemma expand_snoc out a t : expand out (a ++ [t]) = match expand out a with Some o => expand1 o t | None => None end.
Proof. rewrite expand_app. destruct (expand out a); auto. cbn [expand]. destruct (expand1 l t); auto. Qed.

(** ** The main loop *)
Definition linv (data : list Z) (s : lstate) : Prop :=
  0 <= l_pos s <= zlen data /\ tab_ok (l_pos s) (l_st s) /\
  expand [] (rev (l_out s)) = Some (firstn (Z.to_nat (l_pos s)) data) /\
  match_ok data (l_pos s) (l_pending s) /\ (l_incomp s = true -> l_pending s = None).

Lemma valid_push data pos len dist out :
  0 <= pos -> valid_match data pos len dist ->
  expand [] (rev out) = Some (firstn (Z.to_nat pos) data) ->
  expand [] (rev (push_match out len dist)) = Some (firstn (Z.to_nat (pos + len)) data).
Proof.
  intros Hp V E. unfold push_match. cbn [rev]. rewrite expand_snoc, E.
  pose proof V as (A & B & _).
  rewrite !wrap_id by lia. apply expand1_match; auto.
Qed.
Lemma lit_push data pos out b :
  bytes data -> 0 <= pos < zlen data ->
  expand [] (rev out) = Some (firstn (Z.to_nat pos) data) -> b = znth data pos ->
  expand [] (rev (TLit b :: out)) = Some (firstn (Z.to_nat (pos + 1)) data).
Proof.
  intros Hb Hp E ->. cbn [rev]. rewrite expand_snoc, E. apply expand1_lit; auto.
Qed.

Lemma step_incomp_ok cfg data minl s :
  bytes data -> 3 <= minl <= 258 -> linv data s -> l_incomp s = true -> l_pos s < zlen data ->
  exists s', step_incomp cfg data minl s = Ok s' /\ linv data s' /\ l_pos s < l_pos s' /\
    (length (l_out s') = S (length (l_out s)))%nat.
Proof.
  intros Hb Hm (Hp & Ht & He & Hpend & Hinc) Hi Hlt. unfold step_incomp.
  specialize (Hinc Hi).
  assert (exists hit, (if INCOMP_PROBE <=? l_probe s
     then find_best_match (l_st s) data (l_pos s) (Z.min INCOMP_CHAIN (c_depth cfg)) (c_nice cfg) minl
     else Ok None) = Ok hit /\ match_ok data (l_pos s) hit) as (hit & Eh & Hh).
  { destruct (INCOMP_PROBE <=? l_probe s).
    - apply find_best_match_ok; auto; lia.
    - eexists; split; [reflexivity|exact I]. }
  rewrite Eh; cbn [rbind].
  destruct hit as [[len dist]|].
  - cbn in Hh. pose proof Hh as (A & B & C & D & _).
    destruct (update_match_ok (l_st s) data (l_pos s) len dist (l_pos s + len)) as (st' & Eu & Tu); try lia.
    { eapply tab_ok_mono; [|exact Ht]; lia. }
    rewrite Eu; cbn [rbind]. eexists; split; [reflexivity|].
    split; [|split; [cbn [l_pos]; lia|reflexivity]].
    unfold linv; cbn [l_pos l_st l_out l_pending l_incomp]. rewrite Hinc.
    split; [lia|]. split; [auto|]. split; [apply valid_push; auto; lia|]. split; [exact I|discriminate].
  - rewrite get_znth by lia. cbn [rbind].
    assert (exists st' u', (if INCOMP_UPDATE <=? l_upds s + 1
       then let* t := update_hash (l_st s) data (l_pos s) in Ok (t, 0) else Ok (l_st s, l_upds s + 1)) = Ok (st', u')
       /\ tab_ok (l_pos s) st') as (st' & u' & Eu & Tu).
    { destruct (INCOMP_UPDATE <=? l_upds s + 1); [|eauto].
      destruct (update_hash_ok (l_st s) data (l_pos s) (l_pos s)) as (t & Et & Tt); auto; [lia|].
      rewrite Et; cbn [rbind]; eauto. }
    rewrite Eu; cbn [rbind]. eexists; split; [reflexivity|].
    split; [|split; [cbn [l_pos]; lia|reflexivity]].
    unfold linv; cbn [l_pos l_st l_out l_pending l_incomp]. rewrite Hinc.
    split; [lia|]. split; [eapply tab_ok_mono; [|exact Tu]; lia|].
    split; [apply lit_push; auto; lia|]. split; [exact I|auto].
Qed.

Lemma step_normal_ok cfg data minl s :
  bytes data -> 3 <= minl <= 258 -> linv data s -> l_incomp s = false -> l_pos s < zlen data ->
  exists s', step_normal cfg data minl s = Ok s' /\ linv data s' /\ l_pos s < l_pos s' /\
    (length (l_out s') = S (length (l_out s)))%nat.
Proof.
  intros Hb Hm (Hp & Ht & He & Hpend & Hinc) Hi Hlt. unfold step_normal.
  set (chain := if INCOMP_THRESHOLD <=? l_streak s then INCOMP_CHAIN else c_chain cfg).
  assert (exists best st, (match l_pending s with
     | Some p => Ok (Some p, l_st s)
     | None => search cfg (l_st s) data (l_pos s) chain minl
     end) = Ok (best, st) /\ match_ok data (l_pos s) best /\ tab_ok (l_pos s) st) as (best & st & Eb & Vb & Tb).
  { destruct (l_pending s); [eauto|]. apply search_ok; auto; lia. }
  rewrite Eb; cbn [rbind]. clear Eb.
  destruct best as [[len dist]|].
  - cbn in Vb. pose proof Vb as (A & B & C & D & _).
    destruct (Z.eqb_spec dist 0); [lia|].
    match goal with |- context [rbind (if ?c then ?x else ?y) _] =>
      assert (exists defer st2, (if c then x else y) = Ok (defer, st2) /\
        match_ok data (l_pos s + 1) defer /\ tab_ok (l_pos s + 1) st2) as (defer & st2 & Ed & Vd & Td)
    end.
    { match goal with |- context [if ?c then _ else _] => destruct c end.
      - destruct (update_hash_ok st data (l_pos s) (l_pos s)) as (st1 & E1 & T1); auto; [lia|].
        rewrite E1; cbn [rbind].
        match goal with |- context [search cfg st1 data (l_pos s + 1) ?nc minl] =>
          destruct (search_ok cfg st1 data (l_pos s + 1) nc minl) as (nm & st2 & Es & Vs & Ts); auto end.
        { lia. } { eapply tab_ok_mono; [|exact T1]; lia. }
        rewrite Es; cbn [rbind]. eexists; eexists; split; [reflexivity|]. split; auto.
        destruct nm as [[nl nd]|]; [|exact I].
        destruct ((len + 3 <=? nl) || (c_nice cfg <=? nl)); [exact Vs|exact I].
      - eexists; eexists; split; [reflexivity|]. split; [exact I|].
        eapply tab_ok_mono; [|exact Tb]; lia. }
    rewrite Ed; cbn [rbind]. clear Ed.
    destruct defer as [p|].
    + rewrite get_znth by lia. cbn [rbind]. eexists; split; [reflexivity|].
      split; [|split; [cbn [l_pos]; lia|reflexivity]].
      unfold linv; cbn [l_pos l_st l_out l_pending l_incomp].
      split; [lia|]. split; [auto|]. split; [apply lit_push; auto; lia|]. split; [exact Vd|discriminate].
    + destruct (update_match_ok st2 data (l_pos s) len dist (l_pos s + len)) as (st' & Eu & Tu); try lia.
      { eapply tab_ok_mono; [|exact Td]; lia. }
      rewrite Eu; cbn [rbind]. eexists; split; [reflexivity|].
      split; [|split; [cbn [l_pos]; lia|reflexivity]].
      unfold linv; cbn [l_pos l_st l_out l_pending l_incomp].
      split; [lia|]. split; [auto|]. split; [apply valid_push; auto; lia|]. split; [exact I|discriminate].
  - rewrite get_znth by lia. cbn [rbind].
    destruct (update_hash_ok st data (l_pos s) (l_pos s)) as (st1 & E1 & T1); auto; [lia|].
    rewrite E1; cbn [rbind]. eexists; split; [reflexivity|].
    split; [|split; [cbn [l_pos]; lia|reflexivity]].
    unfold linv; cbn [l_pos l_st l_out l_pending l_incomp].
    split; [lia|]. split; [eapply tab_ok_mono; [|exact T1]; lia|].
    split; [apply lit_push; auto; lia|]. split; [exact I|auto].
Qed.

Lemma lz_loop_ok fuel cfg data minl s :
  bytes data -> 3 <= minl <= 258 -> linv data s -> zlen data - l_pos s <= Z.of_nat fuel ->
  zlen (l_out s) <= l_pos s ->
  exists s', lz_loop fuel cfg data minl s = Ok s' /\ linv data s' /\ l_pos s' = zlen data /\
    zlen (l_out s') <= zlen data.
Proof.
  intros Hb Hm; revert s; induction fuel as [|f IH]; intros s Hs Hf Hc; cbn [lz_loop].
  - destruct (Z.ltb_spec (l_pos s) (zlen data)); [lia|]. cbn [negb].
    exists s. destruct Hs as (? & ?). split; auto. split; [split; auto|]. split; lia.
  - destruct (Z.ltb_spec (l_pos s) (zlen data)); cbn [negb].
    2:{ exists s. destruct Hs as (? & ?). split; auto. split; [split; auto|]. split; lia. }
    assert (exists s', lz_step cfg data minl s = Ok s' /\ linv data s' /\ l_pos s < l_pos s' /\
      length (l_out s') = S (length (l_out s))) as (s' & E & I' & P' & L').
    { unfold lz_step. destruct (l_incomp s) eqn:Q.
      - apply step_incomp_ok; auto.
      - apply step_normal_ok; auto. }
    rewrite E; cbn [rbind]. apply IH; auto; [lia|]. unfold zlen in *; lia.
Qed.

Lemma count_used_ok l used n :
  bytes l -> length used = 256%nat -> exists m, count_used used n l = Ok m.
Proof.
  intros Hb; revert used n; induction Hb as [|b r B _ IH]; intros used n Hl; cbn [count_used]; [eauto|].
  unfold is_byte in B. rewrite (get_ok used b false) by (unfold zlen; lia). cbn [rbind].
  destruct (nth (Z.to_nat b) used false); apply IH; auto. rewrite upd_length; auto.
Qed.
Lemma min_match_ok data depth :
  bytes data -> exists m, calculate_min_match_len data depth = Ok m /\ 3 <= m <= 258.
Proof.
  intros Hb; unfold calculate_min_match_len.
  destruct (count_used_ok (slice data 0 (Z.min (zlen data) 4096)) (repeat false 256) 0) as (n & E).
  { apply bytes_slice; auto. } { apply repeat_length. }
  rewrite E; cbn [rbind]. eexists; split; [reflexivity|].
  unfold choose_min_match_len, MIN_MATCH_LENGTH, MAX_MATCH_LENGTH.
  destruct (depth <=? 4); [lia|].
  destruct (32 <? n), ((64 <? n) && (10 <=? depth)), ((96 <? n) && (20 <=? depth)); lia.
Qed.

Lemma compress_into_ok cfg st old data :
  bytes data ->
  exists ts st', compress_into cfg st old data = Ok (ts, st') /\
    expand [] ts = Some data /\ zlen ts <= zlen data.
Proof.
  intros Hb; unfold compress_into. destruct data as [|x r] eqn:Ed.
  { exists [], st. split; auto. split; auto. rewrite !zlen_nil; lia. }
  rewrite <- Ed in *. destruct (min_match_ok data (c_depth cfg) Hb) as (m & Em & Rm).
  rewrite Em; cbn [rbind].
  destruct (lz_loop_ok (length data) cfg data m (mk_ls 0 0 false 0 0 None empty_tables []))
    as (s & Es & (_ & _ & He & _) & Pl & Lc); auto.
  { unfold linv; cbn [l_pos l_st l_out l_pending l_incomp]. pose proof (zlen_nonneg data).
    split; [lia|]. split; [apply empty_tab_ok; lia|]. split; [reflexivity|]. split; [exact I|auto]. }
  { cbn [l_pos]; unfold zlen; lia. }
  { cbn [l_out l_pos]; rewrite zlen_nil; lia. }
  rewrite Es; cbn [rbind]. do 2 eexists; split; [reflexivity|].
  split.
  - rewrite He, Pl. f_equal. apply firstn_all2. unfold zlen; lia.
  - unfold zlen in *; rewrite rev_length; lia.
Qed.

Lemma compress_into_indep cfg st1 st2 old1 old2 data ts1 ts2 a b :
  compress_into cfg st1 old1 data = Ok (ts1, a) -> compress_into cfg st2 old2 data = Ok (ts2, b) -> ts1 = ts2.
Proof.
  unfold compress_into. destruct data; intros H1 H2; [congruence|].
  destruct (calculate_min_match_len (z :: data) (c_depth cfg)); cbn [rbind] in *; try discriminate.
  destruct (lz_loop (length (z :: data)) cfg (z :: data) a0 (mk_ls 0 0 false 0 0 None empty_tables []));
    cbn [rbind] in *; congruence.
Qed.

(** ** Packed tokens *)
Lemma land_bit31 v : Z.land v LITERAL_FLAG = 0 <-> Z.testbit v 31 = false.
Proof.
  unfold LITERAL_FLAG. split; intros H.
  - assert (Z.testbit (Z.land v (2 ^ 31)) 31 = false) as A by (rewrite H; apply Z.bits_0).
    rewrite Z.land_spec in A. rewrite Z.pow2_bits_true in A by lia. rewrite andb_true_r in A; auto.
  - apply Z.bits_inj'. intros k Hk. rewrite Z.land_spec, Z.bits_0.
    destruct (Z.eq_dec k 31) as [->|N]; [rewrite H; auto|].
    rewrite Z.pow2_bits_false by lia. apply andb_false_r.
Qed.
Lemma pack_literal_ok b : is_byte b ->
  packed_is_literal (pack_literal b) = true /\ packed_as_literal (pack_literal b) = Some b /\
  0 <= pack_literal b < 2 ^ 32.
Proof.
  intros H. unfold is_byte in H.
  assert (E : pack_literal b = b + 1 * 2 ^ 31).
  { unfold pack_literal, LITERAL_FLAG. rewrite Z.lor_comm.
    replace (2 ^ 31) with (1 * 2 ^ 31) at 1 by lia. apply lor_disjoint; lia. }
  assert (L : packed_is_literal (pack_literal b) = true).
  { unfold packed_is_literal. destruct (Z.eqb_spec (Z.land (pack_literal b) LITERAL_FLAG) 0) as [C|]; auto.
    apply land_bit31 in C. unfold pack_literal in C. rewrite Z.lor_spec in C.
    unfold LITERAL_FLAG in C. rewrite Z.pow2_bits_true in C by lia. discriminate. }
  split; auto. split.
  - unfold packed_as_literal; rewrite L, E. f_equal. unfold wrap. lia.
  - rewrite E; lia.
Qed.
Lemma pack_match_ok l d : 0 <= l < 65536 -> 1 <= d <= 32768 ->
  exists v, pack_match l d = Ok v /\ packed_is_literal v = false /\
    packed_as_match v = Ok (Some (l, d)) /\ 0 <= v < 2 ^ 32.
Proof.
  intros Hl Hd; unfold pack_match. destruct (Z.ltb_spec d 1); [lia|].
  eexists; split; [reflexivity|].
  assert (E : Z.lor (wrap 32 (Z.shiftl (d - 1) 16)) l = l + (d - 1) * 2 ^ 16).
  { rewrite Z.lor_comm, Z.shiftl_mul_pow2 by lia. rewrite wrap_id by lia.
    apply lor_disjoint; lia. }
  rewrite E.
  assert (L : packed_is_literal (l + (d - 1) * 2 ^ 16) = false).
  { unfold packed_is_literal. rewrite negb_false_iff. apply Z.eqb_eq. apply land_bit31.
    apply Z.bits_above_log2; [lia|].
    destruct (Z.eq_dec (l + (d - 1) * 2 ^ 16) 0) as [->|]; [cbn; lia|].
    apply Z.log2_lt_pow2; lia. }
  split; auto. split; [|lia].
  unfold packed_as_match; rewrite L.
  rewrite Z.shiftr_div_pow2 by lia.
  assert ((l + (d - 1) * 2 ^ 16) / 2 ^ 16 = d - 1) as -> by lia.
  rewrite wrap_id by lia. destruct (Z.eqb_spec (d - 1) 65535); [lia|].
  change 65535 with (2 ^ 16 - 1). rewrite land_mask by lia.
  do 3 f_equal; lia.
Qed.

(** what a packed word stands for *)
Definition unpack_token (v : Z) : res token :=
  match packed_as_literal v with
  | Some b => Ok (TLit b)
  | None => let* m := packed_as_match v in
            match m with Some (l, d) => Ok (TMatch l d) | None => Panic end
  end.
Lemma pack_unpack t : legal_token t -> exists v, pack_token t = Ok v /\ unpack_token v = Ok t.
Proof.
  destruct t as [b|l d]; cbn [legal_token pack_token]; intros H; unfold unpack_token.
  - destruct (pack_literal_ok b H) as (A & B & _). eexists; split; [reflexivity|]. rewrite B; auto.
  - destruct (pack_match_ok l d) as (v & A & B & C & _); [lia|lia|].
    exists v; split; auto. unfold packed_as_literal; rewrite B, C; cbn [rbind]; auto.
Qed.

Lemma expand1_legal out t o : expand1 out t = Some o -> legal_token t.
Proof.
  destruct t as [b|l d]; cbn [expand1 legal_token].
  - destruct (Z.leb_spec 0 b); destruct (Z.ltb_spec b 256); cbn; intros; try discriminate. unfold is_byte; lia.
  - destruct (Z.leb_spec 3 l); destruct (Z.leb_spec l 258); destruct (Z.leb_spec 1 d);
      destruct (Z.leb_spec d 32768); cbn; intros; try discriminate; lia.
Qed.
Lemma expand_legal ts out o : expand out ts = Some o -> Forall legal_token ts.
Proof.
  revert out; induction ts as [|t ts IH]; intros out; cbn [expand]; [constructor|].
  destruct (expand1 out t) eqn:E; [|discriminate]. intros H.
  constructor; [eapply expand1_legal; eauto|eauto].
Qed.

Lemma pack_all ts : Forall legal_token ts ->
  exists ps, map_res pack_token ts = Ok ps /\ map_res unpack_token ps = Ok ts.
Proof.
  induction 1 as [|t ts Ht _ (ps & A & B)]; cbn [map_res].
  - exists []; auto.
  - destruct (pack_unpack t Ht) as (v & C & D). exists (v :: ps).
    rewrite C; cbn [rbind]; rewrite A; cbn [rbind map_res]. split; auto.
    rewrite D; cbn [rbind]; rewrite B; auto.
Qed.

Lemma compress_packed_ok cfg st old data :
  bytes data ->
  exists ps ts st', compress_packed_into cfg st old data = Ok (ps, st') /\
    compress_into cfg st [] data = Ok (ts, st') /\ map_res unpack_token ps = Ok ts.
Proof.
  intros Hb. destruct (compress_into_ok cfg st [] data Hb) as (ts & st' & E & X & _).
  destruct (pack_all ts (expand_legal _ _ _ X)) as (ps & A & B).
  exists ps, ts, st'. unfold compress_packed_into. rewrite E; cbn [rbind]. rewrite A; cbn [rbind]. auto.
Qed.

Lemma compress_into_legal cfg st old data ts st' :
  bytes data -> compress_into cfg st old data = Ok (ts, st') -> Forall legal_token ts.
Proof.
  intros Hb E. destruct (compress_into_ok cfg st old data Hb) as (ts2 & st2 & E2 & X & _).
  rewrite E2 in E; inversion E; subst. exact (expand_legal _ _ _ X).
Qed.
