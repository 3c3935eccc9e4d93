(** Proofs about packing samples below 8 bits into bytes and back. *)
From Verif Require Import Base Lz77Model PngFilterModel PngPaletteModel PngSpec InflateModel PngDecModel
  PngFilterProofs.

Lemma skipn_skipn_add {A} (a b : nat) (l : list A) : skipn a (skipn b l) = skipn (a + b) l.
Proof.
  revert l. induction b as [|b IH]; intros l.
  - rewrite Nat.add_0_r. reflexivity.
  - rewrite Nat.add_succ_r. destruct l; cbn [skipn]; [destruct a; reflexivity|apply IH].
Qed.
Lemma nth_skipn' {A} (l : list A) k i d : nth i (skipn k l) d = nth (k + i) l d.
Proof.
  revert l; induction k as [|k IH]; intros l; [reflexivity|].
  destruct l; cbn [skipn Nat.add nth]; [destruct i; auto|apply IH].
Qed.
Lemma nth_firstn' {A} (l : list A) k i d : (i < k)%nat -> nth i (firstn k l) d = nth i l d.
Proof.
  revert l i; induction k as [|k IH]; intros l i H; [lia|].
  destruct l; [destruct i; reflexivity|]. destruct i; cbn; auto. apply IH; lia.
Qed.
Lemma znth_slice l i j k : 0 <= i -> 0 <= k < j - i -> znth (slice l i j) k = znth l (i + k).
Proof.
  intros. unfold znth, slice. rewrite nth_firstn' by lia. rewrite nth_skipn'. f_equal; lia.
Qed.

(** ** Unpacking *)
Lemma nth_flat_const {A B} (g : A -> list B) k (l : list A) i (da : A) (db : B) :
  (0 < k)%nat -> (forall x, length (g x) = k) -> (i < k * length l)%nat ->
  nth i (flat_map g l) db = nth (i mod k) (g (nth (i / k) l da)) db.
Proof.
  intros Hk Hg. revert i. induction l as [|x l IH]; intros i Hi; [cbn in Hi; lia|].
  cbn [flat_map]. destruct (Nat.lt_ge_cases i k) as [H|H].
  - rewrite app_nth1 by (rewrite Hg; auto). rewrite Nat.mod_small, Nat.div_small by auto. reflexivity.
  - rewrite app_nth2 by (rewrite Hg; auto). rewrite Hg. rewrite IH by (cbn [length] in Hi; lia).
    assert (i = ((i - k) + 1 * k)%nat) as Ei by lia.
    replace (i mod k)%nat with ((i - k) mod k)%nat.
    2:{ rewrite Ei at 2. rewrite Nat.mod_add by lia. reflexivity. }
    replace (i / k)%nat with (S ((i - k) / k)).
    2:{ rewrite Ei at 2. rewrite Nat.div_add by lia. lia. }
    reflexivity.
Qed.
Lemma flat_const_length {A B} (g : A -> list B) k (l : list A) :
  (forall x, length (g x) = k) -> length (flat_map g l) = (k * length l)%nat.
Proof. intros Hg. induction l as [|x l IH]; cbn [flat_map length]; [lia|]. rewrite app_length, Hg, IH. lia. Qed.

Lemma unpack_bytes_flat per mask w packed : forall n, 0 <= n ->
  unpack_bytes per mask w packed n =
  firstn (Z.to_nat (Z.max 0 (w - n)))
    (flat_map (fun b => map (fun sh => Z.land (Z.shiftr b sh) mask) per) packed).
Proof.
  induction packed as [|b r IH]; intros n Hn; cbn [unpack_bytes flat_map].
  - rewrite firstn_nil. reflexivity.
  - set (m := map _ per). rewrite firstn_app. f_equal.
    rewrite IH by (pose proof (zlen_nonneg (firstn (Z.to_nat (Z.max 0 (w - n))) m)); lia).
    f_equal. unfold zlen. rewrite firstn_length. lia.
Qed.

Definition shifts (d : Z) : list Z :=
  if d =? 1 then [7; 6; 5; 4; 3; 2; 1; 0] else if d =? 2 then [6; 4; 2; 0] else [4; 0].
Definition sub8d (d : Z) : Prop := d = 1 \/ d = 2 \/ d = 4.
Definition depths (d : Z) : Prop := d = 1 \/ d = 2 \/ d = 4 \/ d = 8.

Lemma unpack_row_spec packed w d :
  depths d -> 0 <= w -> bytes packed -> zlen packed = ceil8 (w * d) ->
  zlen (unpack_row packed w d) = w /\
  forall i, 0 <= i < w -> znth (unpack_row packed w d) i = sample_at d packed i.
Proof.
  intros Hd Hw Hb Hl.
  destruct (Z.eq_dec d 8) as [->|N8].
  { assert (zlen packed = w) as Hpw by (rewrite Hl; unfold ceil8; lia).
    unfold unpack_row. cbn [Z.eqb Pos.eqb]. rewrite Hpw, Z.min_id.
    rewrite !firstn_all2 by (unfold zlen in *; try rewrite firstn_all2; lia).
    split; auto. intros i Hi. unfold sample_at.
    replace (i * 8 / 8) with i by lia. replace ((i * 8) mod 8) with 0 by lia.
    change (2 ^ (8 - 8 - 0)) with 1. rewrite Z.div_1_r. symmetry. apply Z.mod_small.
    apply (Forall_nth_d is_byte); auto. unfold is_byte; lia. }
  assert (sub8d d) as Hs by (unfold sub8d, depths in *; lia).
  set (k := Z.to_nat (8 / d)).
  assert (unpack_row packed w d =
    firstn (Z.to_nat w) (flat_map (fun b => map (fun sh => Z.land (Z.shiftr b sh) (2 ^ d - 1)) (shifts d)) packed)) as E.
  { destruct Hs as [-> | [-> | ->]]; unfold unpack_row; cbn [Z.eqb Pos.eqb];
      rewrite unpack_bytes_flat by lia; rewrite Z.sub_0_r, Z.max_r by lia;
      rewrite firstn_firstn, Nat.min_id; reflexivity. }
  rewrite E. set (g := fun b => _).
  assert (forall x, length (g x) = k) as Hg by (intros x; unfold g, k; destruct Hs as [-> | [-> | ->]]; reflexivity).
  assert ((0 < k)%nat) as Hk by (unfold k; destruct Hs as [-> | [-> | ->]]; cbv; lia).
  assert (w <= Z.of_nat (k * length packed)) as Hcap.
  { unfold zlen, ceil8 in Hl. unfold k. destruct Hs as [-> | [-> | ->]].
    - change (Z.to_nat (8 / 1)) with 8%nat. lia.
    - change (Z.to_nat (8 / 2)) with 4%nat. lia.
    - change (Z.to_nat (8 / 4)) with 2%nat. lia. }
  split.
  { unfold zlen. rewrite firstn_length, (flat_const_length g k) by auto. lia. }
  intros i Hi. unfold znth at 1. rewrite nth_firstn' by lia.
  rewrite (nth_flat_const g k packed (Z.to_nat i) 0 0) by (auto; lia).
  set (q := (Z.to_nat i / k)%nat). set (r := (Z.to_nat i mod k)%nat).
  assert (r < k)%nat as Hr by (apply Nat.mod_upper_bound; lia).
  assert (Z.to_nat i = (k * q + r)%nat) as Hdm by (apply Nat.div_mod; lia).
  assert (i * d / 8 = Z.of_nat q /\ (i * d) mod 8 = d * Z.of_nat r) as (Eq & Er).
  { clearbody q r. unfold k in *. destruct Hs as [-> | [-> | ->]].
    - change (Z.to_nat (8 / 1)) with 8%nat in *. lia.
    - change (Z.to_nat (8 / 2)) with 4%nat in *. lia.
    - change (Z.to_nat (8 / 4)) with 2%nat in *. lia. }
  unfold sample_at. rewrite Eq, Er. unfold znth. rewrite Nat2Z.id.
  set (b := nth q packed 0). unfold g.
  assert (r < length (shifts d))%nat as Hrs by (unfold k in Hr; destruct Hs as [-> | [-> | ->]]; cbn in *; exact Hr).
  rewrite nth_indep with (d' := Z.land (Z.shiftr b 0) (2 ^ d - 1)) by (rewrite map_length; auto).
  rewrite (map_nth (fun sh => Z.land (Z.shiftr b sh) (2 ^ d - 1))).
  assert (nth r (shifts d) 0 = 8 - d - d * Z.of_nat r) as ->.
  { clear - Hrs Hs. destruct Hs as [-> | [-> | ->]]; cbn [shifts Z.eqb Pos.eqb length] in *;
      repeat (destruct r as [|r]; [reflexivity|try (exfalso; lia)]). }
  rewrite land_mask by (unfold sub8d in Hs; lia). rewrite Z.shiftr_div_pow2; [reflexivity|].
  clear - Hr Hs. unfold k in Hr. destruct Hs as [-> | [-> | ->]].
  - change (Z.to_nat (8 / 1)) with 8%nat in *. lia.
  - change (Z.to_nat (8 / 2)) with 4%nat in *. lia.
  - change (Z.to_nat (8 / 4)) with 2%nat in *. lia.
Qed.

(** rows of equal length, concatenated *)
Lemma concat_const_len {A} (rows : list (list A)) w :
  Forall (fun r => zlen r = w) rows -> zlen (concat rows) = zlen rows * w.
Proof.
  induction 1 as [|r rows Hr _ IH]; cbn [concat]; [reflexivity|].
  rewrite zlen_app, zlen_cons, IH. lia.
Qed.
Lemma concat_const_nth (rows : list (list Z)) w y i :
  Forall (fun r => zlen r = w) rows -> 0 <= y < zlen rows -> 0 <= i < w ->
  znth (concat rows) (y * w + i) = znth (nth (Z.to_nat y) rows []) i.
Proof.
  intros H. revert y. induction H as [|r rows Hr _ IH]; intros y Hy Hi.
  { rewrite zlen_nil in Hy; lia. }
  cbn [concat]. destruct (Z.eq_dec y 0) as [->|].
  - unfold znth. rewrite app_nth1 by (unfold zlen in Hr; lia). cbn. f_equal; lia.
  - rewrite zlen_cons in Hy.
    replace (znth (r ++ concat rows) (y * w + i)) with (znth (concat rows) ((y - 1) * w + i)).
    2:{ unfold znth. rewrite app_nth2 by (unfold zlen in Hr; nia). f_equal. unfold zlen in Hr. nia. }
    rewrite IH by lia. replace (Z.to_nat y) with (S (Z.to_nat (y - 1))) by lia. reflexivity.
Qed.

Lemma map_idxs_length {B} (g : Z -> B) n : length (map g (idxs n)) = n.
Proof. rewrite map_length, idxs_length; auto. Qed.
Lemma nth_map_idxs {B} (g : Z -> B) n i d : (i < n)%nat -> nth i (map g (idxs n)) d = g (Z.of_nat i).
Proof.
  intros H. rewrite nth_indep with (d' := g 0) by (rewrite map_idxs_length; auto).
  rewrite map_nth, idxs_nth by auto. reflexivity.
Qed.

Lemma unpack_rows_spec data w h d :
  depths d -> 0 <= w -> 0 <= h -> bytes data -> zlen data = ceil8 (w * d) * h ->
  exists out, unpack_rows data w h d = Ok out /\ zlen out = w * h /\
    forall y i, 0 <= y < h -> 0 <= i < w ->
      znth out (y * w + i) = sample_at d (slice data (y * ceil8 (w * d)) ((y + 1) * ceil8 (w * d))) i.
Proof.
  intros Hd Hw Hh Hb Hl. unfold unpack_rows. set (rb := ceil8 (w * d)) in *.
  assert (0 <= rb) as Hrb by (unfold rb, ceil8, depths in *; nia).
  rewrite (map_res_ok _ (fun row => unpack_row (slice data (row * rb) ((row + 1) * rb)) w d)).
  2:{ intros y Hy%in_idxs. rewrite slice_r_ok by nia. reflexivity. }
  cbn [rbind]. eexists; split; [reflexivity|].
  assert (forall y, 0 <= y < h ->
    let p := slice data (y * rb) ((y + 1) * rb) in
    zlen (unpack_row p w d) = w /\ forall i, 0 <= i < w -> znth (unpack_row p w d) i = sample_at d p i) as Hrow.
  { intros y Hy p. apply unpack_row_spec; auto.
    - apply slice_bytes; auto.
    - unfold p. rewrite slice_len; nia. }
  assert (Forall (fun r => zlen r = w)
    (map (fun row => unpack_row (slice data (row * rb) ((row + 1) * rb)) w d) (idxs (Z.to_nat h)))) as HF.
  { apply Forall_forall. intros x (y & <- & Hy%in_idxs)%in_map_iff. apply Hrow. lia. }
  split.
  - rewrite (concat_const_len _ w) by auto. unfold zlen. rewrite map_idxs_length. lia.
  - intros y i Hy Hi. rewrite (concat_const_nth _ w) by (auto; unfold zlen; rewrite map_idxs_length; lia).
    rewrite nth_map_idxs by lia. rewrite Z2Nat.id by lia. apply Hrow; auto.
Qed.

(** ** Packing *)
(** big-endian digits in base 2^bits *)
Definition horner (bits : Z) (l : list Z) : Z := fold_left (fun a v => a * 2 ^ bits + v) l 0.
Lemma horner_snoc bits l v : horner bits (l ++ [v]) = horner bits l * 2 ^ bits + v.
Proof. unfold horner. rewrite fold_left_app. reflexivity. Qed.
Definition digits (bits : Z) (l : list Z) : Prop := Forall (fun v => 0 <= v < 2 ^ bits) l.
Lemma horner_range bits l : 0 <= bits -> digits bits l -> 0 <= horner bits l < 2 ^ (bits * zlen l).
Proof.
  intros Hb. induction l as [|v l IH] using rev_ind; intros H.
  - change (zlen (@nil Z)) with 0. rewrite Z.mul_0_r. cbn. lia.
  - apply Forall_app in H as (H1 & H2). apply Forall_cons_iff in H2 as (Hv & _).
    specialize (IH H1). rewrite horner_snoc, zlen_app.
    change (zlen [v]) with 1. rewrite Z.mul_add_distr_l, Z.mul_1_r.
    pose proof (zlen_nonneg l). rewrite Zpow_plus by nia. nia.
Qed.
Lemma horner_split bits a v c :
  0 <= bits ->
  horner bits (a ++ v :: c) = (horner bits a * 2 ^ bits + v) * 2 ^ (bits * zlen c) + horner bits c.
Proof.
  intros Hb. induction c as [|x c IH] using rev_ind.
  - change (zlen (@nil Z)) with 0. rewrite Z.mul_0_r, Z.pow_0_r. rewrite horner_snoc.
    change (horner bits []) with 0. lia.
  - replace (a ++ v :: c ++ [x]) with ((a ++ v :: c) ++ [x]) by (rewrite <- app_assoc; reflexivity).
    rewrite !horner_snoc, IH, zlen_app. change (zlen [x]) with 1. pose proof (zlen_nonneg c).
    rewrite Z.mul_add_distr_l, Z.mul_1_r, Zpow_plus by nia. ring.
Qed.

Definition byte_of (bits : Z) (c : list Z) : Z := horner bits c * 2 ^ (8 - bits * zlen c).

Lemma byte_of_digit bits c i :
  0 < bits -> digits bits c -> bits * zlen c <= 8 -> 0 <= i < zlen c ->
  (byte_of bits c / 2 ^ (8 - bits - bits * i)) mod 2 ^ bits = znth c i.
Proof.
  intros Hb Hd Hc Hi.
  destruct (nth_split c 0 (n := Z.to_nat i)) as (a & r & E & Ha); [unfold zlen in Hi; lia|].
  fold (znth c i) in E. set (v := znth c i) in *.
  assert (zlen a = i) as Hai by (unfold zlen; lia).
  assert (zlen c = i + 1 + zlen r) as Hcl by (rewrite E, zlen_app, zlen_cons; lia).
  pose proof (zlen_nonneg r) as Hr0.
  unfold byte_of. rewrite E at 1. rewrite horner_split by lia.
  rewrite E in Hd. apply Forall_app in Hd as (Hda & Hd). apply Forall_cons_iff in Hd as (Hv & Hdr).
  pose proof (horner_range bits r ltac:(lia) Hdr) as HR.
  replace (8 - bits - bits * i) with ((bits * zlen r) + (8 - bits * zlen c)) by (rewrite Hcl; ring).
  rewrite Zpow_plus by nia.
  rewrite Z.div_mul_cancel_r by (apply Z.pow_nonzero; nia).
  rewrite Z.div_add_l by (apply Z.pow_nonzero; nia).
  rewrite (Z.div_small (horner bits r)) by lia. rewrite Z.add_0_r.
  rewrite Z.add_comm, Z.mod_add by (apply Z.pow_nonzero; lia). apply Z.mod_small; auto.
Qed.
Lemma byte_of_range bits c : 0 < bits -> digits bits c -> bits * zlen c <= 8 -> is_byte (byte_of bits c).
Proof.
  intros Hb Hd Hc. pose proof (horner_range bits c ltac:(lia) Hd) as H. pose proof (zlen_nonneg c).
  assert (256 = 2 ^ (bits * zlen c) * 2 ^ (8 - bits * zlen c)) as E.
  { rewrite <- Zpow_plus by nia. replace (bits * zlen c + (8 - bits * zlen c)) with 8 by ring. reflexivity. }
  unfold is_byte, byte_of. rewrite E.
  assert (0 < 2 ^ (8 - bits * zlen c)) by (apply Z.pow_pos_nonneg; nia). nia.
Qed.

Lemma chunks_single {A} k (c : list A) : c <> [] -> (length c <= k)%nat -> chunks k c = [c].
Proof.
  intros Hn Hl. destruct k; [destruct c; [congruence|cbn in Hl; lia]|].
  rewrite chunks_cons by (auto; lia). rewrite firstn_all2, skipn_all2 by auto. reflexivity.
Qed.
Lemma chunks_full {A} k (c r : list A) : (0 < k)%nat -> length c = k -> chunks k (c ++ r) = c :: chunks k r.
Proof.
  intros Hk Hl. rewrite chunks_cons; auto.
  - rewrite <- Hl at 1. rewrite firstn_app, firstn_all, Nat.sub_diag, app_nil_r.
    f_equal. f_equal. rewrite <- Hl. rewrite skipn_app, skipn_all, Nat.sub_diag. reflexivity.
  - destruct c; [cbn in Hl; lia|discriminate].
Qed.

Lemma pack_row_chunks bits k row : forall a,
  0 < bits -> bits * Z.of_nat k = 8 -> (length a < k)%nat -> digits bits a -> digits bits row ->
  pack_row bits (2 ^ bits - 1) row (horner bits a) (bits * zlen a) =
  map (byte_of bits) (chunks k (a ++ row)).
Proof.
  induction row as [|v r IH]; intros a Hb Hk Ha Hda Hdr; cbn [pack_row].
  - rewrite app_nil_r. destruct a as [|x a].
    + change (zlen (@nil Z)) with 0. rewrite Z.mul_0_r. reflexivity.
    + replace (0 <? bits * zlen (x :: a)) with true.
      2:{ symmetry; apply Z.ltb_lt. rewrite zlen_cons. pose proof (zlen_nonneg a). nia. }
      rewrite chunks_single by (try discriminate; lia). cbn [map]. f_equal.
      rewrite Z.shiftl_mul_pow2 by (unfold zlen; nia). fold (byte_of bits (x :: a)).
      apply wrap_id. apply (byte_of_range bits); auto. unfold zlen; nia.
  - apply Forall_cons_iff in Hdr as (Hv & Hdr).
    assert (Z.lor (wrap 8 (Z.shiftl (horner bits a) bits)) (Z.land v (2 ^ bits - 1)) = horner bits (a ++ [v])) as ->.
    { rewrite land_mask, Z.mod_small by lia. rewrite horner_snoc, Z.shiftl_mul_pow2 by lia.
      pose proof (horner_range bits a ltac:(lia) Hda) as HR.
      assert (2 ^ (bits * zlen a) * 2 ^ bits <= 2 ^ 8) as Hle.
      { rewrite <- Zpow_plus by (unfold zlen; nia). apply Z.pow_le_mono_r; [lia|]. unfold zlen; nia. }
      rewrite wrap_id by nia. rewrite Z.lor_comm, lor_disjoint by lia. lia. }
    replace (bits * zlen a + bits) with (bits * zlen (a ++ [v])) by (rewrite zlen_app; change (zlen [v]) with 1; ring).
    assert (digits bits (a ++ [v])) as Hdv by (apply Forall_app; split; auto).
    replace (a ++ v :: r) with ((a ++ [v]) ++ r) by (rewrite <- app_assoc; reflexivity).
    destruct (Z.eqb_spec (bits * zlen (a ++ [v])) 8) as [E|E].
    + assert (length (a ++ [v]) = k) as Hlk by (unfold zlen in E; nia).
      rewrite chunks_full by (auto; lia). cbn [map]. f_equal.
      * unfold byte_of. rewrite E. change (2 ^ (8 - 8)) with 1. lia.
      * change 0 with (horner bits []) at 1. rewrite <- (Z.mul_0_r bits).
        change 0 with (zlen (@nil Z)). rewrite IH; auto. { cbn; lia. } constructor.
    + apply IH; auto. rewrite app_length in *. cbn [length] in *. unfold zlen in E.
      rewrite app_length in E. cbn [length] in E. nia.
Qed.

Lemma nth_chunks {A} k (l : list A) q : (0 < k)%nat ->
  nth q (chunks k l) [] = firstn k (skipn (q * k) l).
Proof.
  intros Hk. revert l. induction q as [|q IH]; intros l.
  - cbn [Nat.mul skipn]. destruct l as [|x l]; [rewrite firstn_nil; reflexivity|].
    rewrite chunks_cons by (auto; discriminate). reflexivity.
  - destruct l as [|x l].
    { rewrite skipn_nil, firstn_nil. reflexivity. }
    rewrite chunks_cons by (auto; discriminate). cbn [nth]. rewrite IH.
    rewrite skipn_skipn_add. f_equal. f_equal. lia.
Qed.

Lemma chunks_length {A} k (l : list A) : (0 < k)%nat ->
  zlen (chunks k l) = (zlen l + Z.of_nat k - 1) / Z.of_nat k.
Proof.
  intros Hk. remember (length l) as n eqn:En. revert l En.
  induction n as [n IH] using lt_wf_ind. intros l En.
  destruct l as [|x l].
  - rewrite chunks_nil, !zlen_nil. rewrite Z.div_small by lia. reflexivity.
  - rewrite chunks_cons by (auto; discriminate). rewrite zlen_cons.
    rewrite (IH (length (skipn k (x :: l)))); auto.
    2:{ subst n. rewrite skipn_length. cbn [length]. lia. }
    set (L := x :: l) in *. unfold zlen. rewrite skipn_length.
    destruct (Nat.le_gt_cases k (length L)) as [H|H].
    + replace (Z.of_nat (length L) + Z.of_nat k - 1)
        with ((Z.of_nat (length L - k) + Z.of_nat k - 1) + 1 * Z.of_nat k) by lia.
      rewrite Z.div_add by lia. lia.
    + assert (length L <> 0)%nat by (unfold L; cbn; lia).
      replace (length L - k)%nat with 0%nat by lia.
      change (Z.of_nat 0) with 0. rewrite Z.add_0_l. rewrite Z.div_small by lia.
      replace (Z.of_nat (length L) + Z.of_nat k - 1) with ((Z.of_nat (length L) - 1) + 1 * Z.of_nat k) by lia.
      rewrite Z.div_add by lia. rewrite Z.div_small by lia. lia.
Qed.

Lemma pack_row_spec bits row :
  sub8d bits -> digits bits row ->
  let out := pack_row bits (2 ^ bits - 1) row 0 0 in
  bytes out /\ zlen out = ceil8 (zlen row * bits) /\
  forall i, 0 <= i < zlen row -> sample_at bits out i = znth row i.
Proof.
  intros Hb Hd out. set (k := Z.to_nat (8 / bits)).
  assert (0 < bits) as Hb0 by (unfold sub8d in Hb; lia).
  assert (bits * Z.of_nat k = 8) as Hk by (unfold k; destruct Hb as [-> | [-> | ->]]; reflexivity).
  assert (0 < k)%nat as Hk0 by lia.
  assert (out = map (byte_of bits) (chunks k row)) as ->.
  { unfold out. change 0 with (horner bits []) at 1. rewrite <- (Z.mul_0_r bits).
    change 0 with (zlen (@nil Z)). rewrite (pack_row_chunks bits k); auto. constructor. }
  assert (forall q, digits bits (nth q (chunks k row) [])) as Hdq.
  { intros q. rewrite nth_chunks by auto. apply Forall_firstn, Forall_skipn; auto. }
  assert (forall q, (length (nth q (chunks k row) []) <= k)%nat) as Hlq.
  { intros q. rewrite nth_chunks by auto. rewrite firstn_length; lia. }
  split; [|split].
  - apply Forall_forall. intros x (c & <- & Hc)%in_map_iff.
    apply In_nth with (d := []) in Hc as (q & _ & <-). apply byte_of_range; auto.
    specialize (Hlq q). unfold zlen. nia.
  - unfold zlen at 1. rewrite map_length. fold (zlen (chunks k row)). rewrite chunks_length by auto.
    unfold ceil8. clear - Hb Hk. destruct Hb as [-> | [-> | ->]].
    + replace (Z.of_nat k) with 8 by lia. f_equal. lia.
    + replace (Z.of_nat k) with 4 by lia. lia.
    + replace (Z.of_nat k) with 2 by lia. lia.
  - intros i Hi. unfold sample_at. unfold znth at 1.
    set (K := Z.of_nat k) in *.
    assert (i * bits / 8 = i / K /\ (i * bits) mod 8 = bits * (i mod K)) as (Eq & Er).
    { clear - Hb Hk. destruct Hb as [-> | [-> | ->]].
      - replace K with 8 by lia. lia.
      - replace K with 4 by lia. lia.
      - replace K with 2 by lia. lia. }
    rewrite Eq, Er.
    assert (0 <= i / K) by (apply Z.div_pos; lia).
    assert (i / K < zlen (chunks k row)) as Hq.
    { rewrite chunks_length by auto. fold K. enough (i / K + 1 <= (zlen row + K - 1) / K) by lia.
      apply Z.div_le_lower_bound; [lia|].
      pose proof (Z.mul_div_le i K ltac:(lia)). nia. }
    rewrite nth_indep with (d' := byte_of bits []) by (rewrite map_length; unfold zlen in Hq; lia).
    rewrite map_nth.
    set (c := nth (Z.to_nat (i / K)) (chunks k row) []).
    assert (c = firstn k (skipn (Z.to_nat (i / K) * k) row)) as Ec by (apply nth_chunks; auto).
    assert (0 <= i mod K < K) as Hm by (apply Z.mod_pos_bound; lia).
    assert (i = K * (i / K) + i mod K) as Hdm by (apply Z.div_mod; lia).
    assert (Z.of_nat (Z.to_nat (i / K) * k) = K * (i / K)) as Hqk by (rewrite Nat2Z.inj_mul, Z2Nat.id by lia; unfold K; ring).
    assert (i mod K < zlen c) as Hc.
    { rewrite Ec. unfold zlen. rewrite firstn_length, skipn_length. unfold zlen in Hi.
      clear - Hi Hm Hdm Hqk Hk0. set (m := (Z.to_nat (i / K) * k)%nat) in *.
      set (r := i mod K) in *. clearbody m r. rewrite <- Hqk in Hdm. clear Hqk. unfold K in *. lia. }
    rewrite byte_of_digit; auto.
    + rewrite Ec. unfold znth. rewrite nth_firstn' by lia. rewrite nth_skipn'. f_equal.
      clear - Hi Hm Hdm Hqk. set (m := (Z.to_nat (i / K) * k)%nat) in *.
      set (r := i mod K) in *. clearbody m r. rewrite <- Hqk in Hdm. clear Hqk. lia.
    + apply Hdq.
    + specialize (Hlq (Z.to_nat (i / K))). fold c in Hlq. unfold zlen. nia.
    + lia.
Qed.

(** ** Rows *)
Lemma chunks_exact_map {A} (l : list A) (w n : nat) : (0 < w)%nat -> length l = (n * w)%nat ->
  chunks_exact w l = map (fun y => slice l (y * Z.of_nat w) (y * Z.of_nat w + Z.of_nat w)) (idxs n).
Proof.
  intros Hw. unfold chunks_exact.
  assert (forall f m (q : list A), length q = (m * w)%nat -> (length q <= f)%nat ->
    chunks_exact_fuel f w q = map (fun y => slice q (y * Z.of_nat w) (y * Z.of_nat w + Z.of_nat w)) (idxs m)) as G.
  { intros f. induction f as [|f IH]; intros m q Hq Hf; cbn [chunks_exact_fuel].
    - destruct m; [reflexivity|]. lia.
    - destruct m as [|m].
      + replace (length q <? w)%nat with true; [reflexivity|]. symmetry; apply Nat.ltb_lt; lia.
      + replace (length q <? w)%nat with false by (symmetry; apply Nat.ltb_ge; lia).
        rewrite (IH m) by (rewrite skipn_length; lia).
        unfold idxs. cbn [seq map]. f_equal.
        * unfold slice. cbn [Z.of_nat Z.mul Z.to_nat skipn]. f_equal; lia.
        * rewrite <- seq_shift, !map_map. apply map_ext_in. intros y Hy%in_seq.
          unfold slice. rewrite skipn_skipn_add. f_equal; [lia|]. f_equal. lia. }
  intros Hl. apply G; auto.
Qed.

Lemma flat_map_concat_map' {A B} (f : A -> list B) l : flat_map f l = concat (map f l).
Proof. apply flat_map_concat_map. Qed.

Lemma pack_bits_rows_spec data w h bits :
  sub8d bits -> 0 < w -> 0 <= h -> zlen data = w * h -> digits bits data ->
  exists out, pack_bits_rows data w bits = Ok out /\ bytes out /\
    zlen out = ceil8 (w * bits) * h /\
    forall y i, 0 <= y < h -> 0 <= i < w ->
      sample_at bits (slice out (y * ceil8 (w * bits)) ((y + 1) * ceil8 (w * bits))) i = znth data (y * w + i).
Proof.
  intros Hb Hw Hh Hl Hd. unfold pack_bits_rows.
  replace ((bits =? 1) || (bits =? 2) || (bits =? 4) || (bits =? 8)) with true
    by (unfold sub8d in Hb; lia). cbn [negb].
  replace (bits =? 8) with false by (unfold sub8d in Hb; lia).
  replace (w =? 0) with false by lia. cbn [orb].
  destruct data as [|x data'] eqn:Ed.
  { rewrite zlen_nil in Hl. assert (h = 0) by nia. subst h. exists []. rewrite zlen_nil.
    split; [reflexivity|]. split; [constructor|]. split; [lia|]. intros; lia. }
  rewrite <- Ed in *. clear Ed x data'.
  replace (zlen data mod w =? 0) with true.
  2:{ symmetry; apply Z.eqb_eq. rewrite Hl, Z.mul_comm. apply Z.mod_mul. lia. }
  cbn [negb]. eexists; split; [reflexivity|].
  rewrite (chunks_exact_map data (Z.to_nat w) (Z.to_nat h)) by (unfold zlen in Hl; nia).
  rewrite flat_map_concat_map', map_map. rewrite Z2Nat.id by lia.
  set (rb := ceil8 (w * bits)).
  set (g := fun y => pack_row bits (2 ^ bits - 1) (slice data (y * w) (y * w + w)) 0 0).
  assert (forall y, 0 <= y < h -> bytes (g y) /\ zlen (g y) = rb /\
    forall i, 0 <= i < w -> sample_at bits (g y) i = znth data (y * w + i)) as Hg.
  { intros y Hy. assert (zlen (slice data (y * w) (y * w + w)) = w) as Hs by (rewrite slice_len; nia).
    destruct (pack_row_spec bits (slice data (y * w) (y * w + w))) as (H1 & H2 & H3); auto.
    { apply Forall_firstn, Forall_skipn; auto. }
    rewrite Hs in *. split; auto. split; auto. intros i Hi. unfold g. rewrite H3 by auto.
    apply znth_slice; nia. }
  change (map (fun x => pack_row bits (2 ^ bits - 1) (slice data (x * w) (x * w + w)) 0 0) (idxs (Z.to_nat h)))
    with (map g (idxs (Z.to_nat h))).
  assert (Forall (fun r => zlen r = rb) (map g (idxs (Z.to_nat h)))) as HF.
  { apply Forall_forall. intros r (y & <- & Hy%in_idxs)%in_map_iff. apply Hg; lia. }
  assert (zlen (concat (map g (idxs (Z.to_nat h)))) = rb * h) as HL.
  { rewrite (concat_const_len _ rb) by auto. unfold zlen. rewrite map_idxs_length, Z2Nat.id by lia. ring. }
  split; [|split; auto].
  - apply Forall_concat, Forall_forall. intros r (y & <- & Hy%in_idxs)%in_map_iff. apply Hg; lia.
  - intros y i Hy Hi. destruct (Hg y Hy) as (Hgb & Hgl & Hgs). rewrite <- Hgs by auto.
    assert (0 <= rb) by (unfold rb, ceil8, sub8d in *; nia).
    assert (slice (concat (map g (idxs (Z.to_nat h)))) (y * rb) ((y + 1) * rb) = g y) as ->; [|reflexivity].
    apply (nth_ext _ _ 0 0).
    + assert (zlen (slice (concat (map g (idxs (Z.to_nat h)))) (y * rb) ((y + 1) * rb)) = rb) as Hs
        by (rewrite slice_len; nia). unfold zlen in *; lia.
    + intros n Hn.
      assert (Z.of_nat n < rb) as Hnr.
      { assert (zlen (slice (concat (map g (idxs (Z.to_nat h)))) (y * rb) ((y + 1) * rb)) = rb) as Hs
          by (rewrite slice_len; nia). unfold zlen in *; lia. }
      pose proof (znth_slice (concat (map g (idxs (Z.to_nat h)))) (y * rb) ((y + 1) * rb) (Z.of_nat n)
        ltac:(nia) ltac:(lia)) as E1.
      rewrite (concat_const_nth _ rb) in E1 by (auto; try lia; unfold zlen; rewrite map_idxs_length; lia).
      rewrite nth_map_idxs, Z2Nat.id in E1 by lia. unfold znth in E1. rewrite Nat2Z.id in E1. exact E1.
Qed.

(** unpacking what was packed *)
Lemma pack_unpack data w h bits :
  sub8d bits -> 0 < w -> 0 <= h -> zlen data = w * h -> digits bits data ->
  exists out, pack_bits_rows data w bits = Ok out /\ bytes out /\
    zlen out = ceil8 (w * bits) * h /\ unpack_rows out w h bits = Ok data.
Proof.
  intros Hb Hw Hh Hl Hd.
  destruct (pack_bits_rows_spec data w h bits) as (out & E & Hob & Hol & Hs); auto.
  exists out. split; auto. split; auto. split; auto.
  destruct (unpack_rows_spec out w h bits) as (r & Er & Hrl & Hr); auto; try lia.
  { unfold depths, sub8d in *; lia. }
  rewrite Er. f_equal. apply (nth_ext _ _ 0 0); [unfold zlen in *; lia|].
  intros n Hn.
  pose proof (Z.div_mod (Z.of_nat n) w ltac:(lia)) as Hdm.
  pose proof (Z.mod_pos_bound (Z.of_nat n) w ltac:(lia)) as Hm.
  assert (0 <= Z.of_nat n / w) by (apply Z.div_pos; lia).
  assert (Z.of_nat n / w < h) by (apply Z.div_lt_upper_bound; unfold zlen in Hrl; lia).
  specialize (Hr (Z.of_nat n / w) (Z.of_nat n mod w)). specialize (Hs (Z.of_nat n / w) (Z.of_nat n mod w)).
  rewrite Hs in Hr by lia. specialize (Hr ltac:(lia) ltac:(lia)).
  replace (Z.of_nat n / w * w + Z.of_nat n mod w) with (Z.of_nat n) in Hr by lia.
  unfold znth in Hr. rewrite Nat2Z.id in Hr. exact Hr.
Qed.
