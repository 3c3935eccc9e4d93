(** Huffman tables of the JPEG encoder and decoder agree with the canonical
    code of the announced lengths. *)
From Verif Require Import Base BitsModel BitsProofs CanonSpec CanonProofs PngFilterModel JpegBaseModel JpegHuffModel JpegDecModel JpegBaseProofs MsbSpec MsbProofs.

Lemma nth_repeat_lt {A} (x d : A) n i : (i < n)%nat -> nth i (repeat x n) d = x.
Proof. revert i. induction n as [|n IH]; intros [|i] H; cbn; auto; try lia. apply IH. lia. Qed.

Lemma skipn_cons (l : list Z) k : (k < length l)%nat -> skipn k l = nth k l 0 :: skipn (S k) l.
Proof.
  revert k. induction l as [|v r IH]; intros k H; [cbn in H; lia|]. destruct k as [|k]; [reflexivity|].
  cbn [skipn nth]. apply IH. cbn in H. lia.
Qed.

(** number of codes shorter than [l] *)
Definition pos_of (bits : list Z) (l : Z) : Z := zsum (firstn (Z.to_nat (l - 1)) bits).

Lemma zsum_app a b : zsum (a ++ b) = zsum a + zsum b.
Proof. unfold zsum. induction a as [|x a IH]; cbn [app fold_right]; [lia|]. rewrite IH. lia. Qed.
Lemma zsum_nonneg l : Forall (fun c => 0 <= c) l -> 0 <= zsum l.
Proof. unfold zsum. induction 1; cbn [fold_right]; lia. Qed.
Lemma sizes_from_length len bits : Forall (fun c => 0 <= c) bits -> zlen (sizes_from len bits) = zsum bits.
Proof.
  intros H. revert len. induction H as [|c r Hc Hr IH]; intros len; [reflexivity|].
  cbn [sizes_from]. rewrite zlen_app, IH. unfold zlen. rewrite repeat_length. unfold zsum. cbn [fold_right]. lia.
Qed.
Lemma sizes_from_nth len bits s : Forall (fun c => 0 <= c) bits -> (s < length (sizes_from len bits))%nat ->
  len <= nth s (sizes_from len bits) 0 < len + zlen bits /\
  forall l, len <= l < len + zlen bits ->
    (nth s (sizes_from len bits) 0 = l <->
     zsum (firstn (Z.to_nat (l - len)) bits) <= Z.of_nat s < zsum (firstn (Z.to_nat (l - len + 1)) bits)).
Proof.
  intros H. revert len s. induction H as [|c r Hc Hr IH]; intros len s Hs; [cbn in Hs; lia|].
  cbn [sizes_from] in *. rewrite zlen_cons. rewrite app_length, repeat_length in Hs.
  assert (forall n, (0 < n)%nat -> zsum (firstn n (c :: r)) = c + zsum (firstn (n - 1) r)) as Z1.
  { intros [|n] Hn; [lia|]. cbn [firstn]. unfold zsum. cbn [fold_right]. replace (S n - 1)%nat with n by lia. reflexivity. }
  assert (forall n, 0 <= zsum (firstn n r)) as Zn by (intros n; apply zsum_nonneg, Forall_firstn; auto).
  pose proof (zlen_nonneg r) as Hlr.
  destruct (Nat.lt_ge_cases s (Z.to_nat c)) as [L|L].
  - rewrite app_nth1 by (rewrite repeat_length; auto). rewrite nth_repeat_lt by auto. split; [lia|].
    intros l Hl. destruct (Z.eq_dec l len) as [->|N].
    + rewrite Z.sub_diag. change (Z.to_nat 0) with 0%nat. change (Z.to_nat (0 + 1)) with 1%nat.
      rewrite (Z1 1%nat) by lia. cbn [firstn Nat.sub]. unfold zsum. cbn [fold_right]. split; [lia|auto].
    + rewrite (Z1 (Z.to_nat (l - len))) by lia. split; [lia|]. specialize (Zn (Z.to_nat (l - len) - 1)%nat). lia.
  - rewrite app_nth2 by (rewrite repeat_length; auto). rewrite repeat_length.
    destruct (IH (len + 1) (s - Z.to_nat c)%nat ltac:(lia)) as [I1 I2]. split; [lia|].
    intros l Hl. destruct (Z.eq_dec l len) as [->|N].
    + rewrite Z.sub_diag. change (Z.to_nat (0 + 1)) with 1%nat. rewrite (Z1 1%nat) by lia.
      cbn [firstn Nat.sub]. unfold zsum at 2. cbn [fold_right]. split; lia.
    + rewrite (I2 l) by lia. rewrite (Z1 (Z.to_nat (l - len))), (Z1 (Z.to_nat (l - len + 1))) by lia.
      replace (Z.to_nat (l - len) - 1)%nat with (Z.to_nat (l - (len + 1))) by lia.
      replace (Z.to_nat (l - len + 1) - 1)%nat with (Z.to_nat (l - (len + 1) + 1)) by lia. lia.
Qed.

Section Table.
Variable bits : list Z.
Hypothesis Hlen : length bits = 16%nat.
Hypothesis Hnn : Forall (fun c => 0 <= c) bits.
Let sizes := huff_sizes bits.
Let n := length sizes.

Lemma sizes_len : Z.of_nat n = zsum bits.
Proof. apply (sizes_from_length 1). exact Hnn. Qed.
Lemma size_range s : (s < n)%nat -> 1 <= ln sizes s <= 16.
Proof. intros H. destruct (sizes_from_nth 1 bits s Hnn H) as [R _]. unfold zlen in R. rewrite Hlen in R. unfold ln, sizes, huff_sizes. lia. Qed.
Lemma size_iff s l : (s < n)%nat -> 1 <= l <= 16 -> (ln sizes s = l <-> pos_of bits l <= Z.of_nat s < pos_of bits (l + 1)).
Proof.
  intros H Hl. destruct (sizes_from_nth 1 bits s Hnn H) as [_ R]. specialize (R l). unfold zlen in R. rewrite Hlen in R.
  specialize (R ltac:(lia)). unfold pos_of. replace (l + 1 - 1) with (l - 1 + 1) by lia. exact R.
Qed.
Lemma pos_1 : pos_of bits 1 = 0.
Proof. reflexivity. Qed.
Lemma pos_17 : pos_of bits 17 = Z.of_nat n.
Proof. rewrite sizes_len. unfold pos_of. change (Z.to_nat (17 - 1)) with 16%nat. rewrite <- Hlen, firstn_all. reflexivity. Qed.
Lemma pos_succ l : 1 <= l <= 16 -> pos_of bits (l + 1) = pos_of bits l + znth bits (l - 1).
Proof.
  intros Hl. unfold pos_of. replace (Z.to_nat (l + 1 - 1)) with (S (Z.to_nat (l - 1))) by lia.
  unfold znth. assert (Z.to_nat (l - 1) < length bits)%nat as Hk by lia. revert Hk. generalize (Z.to_nat (l - 1)) as k. clear.
  induction bits as [|b r IH]; intros k Hk; [cbn in Hk; lia|]. destruct k as [|k].
  - cbn. lia.
  - change (firstn (S (S k)) (b :: r)) with (b :: firstn (S k) r). change (firstn (S k) (b :: r)) with (b :: firstn k r).
    cbn [nth]. change (zsum (b :: firstn (S k) r)) with (b + zsum (firstn (S k) r)).
    change (zsum (b :: firstn k r)) with (b + zsum (firstn k r)). rewrite IH by (cbn in Hk; lia). lia.
Qed.
Lemma bits_nth_nonneg i : 0 <= znth bits i.
Proof. unfold znth. apply (Forall_nth_d (fun c => 0 <= c)); auto. lia. Qed.
Lemma pos_mono l m : 1 <= l <= m -> m <= 17 -> pos_of bits l <= pos_of bits m.
Proof.
  intros H1 H2. replace m with (l + Z.of_nat (Z.to_nat (m - l))) in * by lia.
  generalize dependent (Z.to_nat (m - l)). intros k H1 H2. induction k as [|k IH]; [rewrite Z.add_0_r; lia|].
  replace (l + Z.of_nat (S k)) with ((l + Z.of_nat k) + 1) by lia. rewrite pos_succ by lia.
  pose proof (bits_nth_nonneg (l + Z.of_nat k - 1)). lia.
Qed.
Lemma pos_nonneg l : 0 <= pos_of bits l.
Proof. apply zsum_nonneg, Forall_firstn, Hnn. Qed.
Lemma size_sorted i j : (i <= j < n)%nat -> ln sizes i <= ln sizes j.
Proof.
  intros H. pose proof (size_range i ltac:(lia)) as Ri. pose proof (size_range j ltac:(lia)) as Rj.
  destruct (Z.le_gt_cases (ln sizes i) (ln sizes j)) as [|G]; auto.
  pose proof (proj1 (size_iff i (ln sizes i) ltac:(lia) Ri) eq_refl).
  pose proof (proj1 (size_iff j (ln sizes j) ltac:(lia) Rj) eq_refl).
  pose proof (pos_mono (ln sizes j + 1) (ln sizes i) ltac:(lia) ltac:(lia)). lia.
Qed.
Lemma cnt_upto l k : 1 <= l <= 16 -> (k <= n)%nat ->
  cnt sizes l k = Z.max 0 (Z.min (Z.of_nat k) (pos_of bits (l + 1)) - pos_of bits l).
Proof.
  intros Hl. induction k as [|k IH]; intros Hk.
  - unfold cnt. cbn [psum]. pose proof (pos_nonneg l). lia.
  - change (cnt sizes l (S k)) with (cnt sizes l k + (if ln sizes k =? l then 1 else 0)). rewrite IH by lia.
    pose proof (size_iff k l ltac:(lia) Hl). pose proof (pos_mono l (l + 1) ltac:(lia) ltac:(lia)).
    destruct (Z.eqb_spec (ln sizes k) l); lia.
Qed.
Lemma cnt_all l : 1 <= l <= 16 -> cnt sizes l n = znth bits (l - 1).
Proof.
  intros Hl. rewrite cnt_upto by (auto; lia). rewrite pos_succ by lia. pose proof (bits_nth_nonneg (l - 1)).
  pose proof (pos_mono (l + 1) 17 ltac:(lia) ltac:(lia)) as P. rewrite pos_17, pos_succ in P by lia. lia.
Qed.
Lemma canon_at s : (s < n)%nat -> canon sizes s = first sizes (ln sizes s) + (Z.of_nat s - pos_of bits (ln sizes s)).
Proof.
  intros Hs. pose proof (size_range s Hs) as R. rewrite canon_first by (auto; lia). f_equal.
  rewrite cnt_upto by lia. pose proof (proj1 (size_iff s _ Hs R) eq_refl). lia.
Qed.
Lemma first_next l : 1 <= l <= 16 -> first sizes (l + 1) = 2 * (first sizes l + znth bits (l - 1)).
Proof. intros H. rewrite first_succ by lia. fold n. rewrite cnt_all by auto. reflexivity. Qed.
Lemma lens_ok_sizes : lens_ok 16 sizes.
Proof.
  apply Forall_forall. intros x Hx. apply (In_nth _ _ 0) in Hx as (s & Hs & <-). pose proof (size_range s Hs) as R. unfold ln in R. lia.
Qed.
Lemma before_lt i j : (i < j < n)%nat -> before sizes i j = true.
Proof. intros H. unfold before. pose proof (size_range i ltac:(lia)). pose proof (size_sorted i j ltac:(lia)). lia. Qed.

Hypothesis Hk : kraft 16 sizes < 2 ^ 16.

Lemma code_ok16 : code_ok 16 sizes.
Proof. split; [apply lens_ok_sizes|lia]. Qed.
Lemma first_bound16 l : 1 <= l <= 16 -> (first sizes l + znth bits (l - 1)) < 2 ^ l.
Proof.
  intros Hl. pose proof (first_kraft 16 sizes l lens_ok_sizes Hl) as K. fold n in K. rewrite cnt_all in K by auto.
  assert (2 ^ 16 = 2 ^ l * 2 ^ (16 - l)) as E by (rewrite <- Zpow_plus by lia; f_equal; lia).
  pose proof (pow2_gt0 (16 - l) ltac:(lia)). nia.
Qed.
Lemma canon_lt s : (s < n)%nat -> 0 <= canon sizes s /\ canon sizes s + 1 < 2 ^ ln sizes s.
Proof.
  intros Hs. split; [apply canon_nonneg|]. pose proof (size_range s Hs) as R. rewrite canon_at by auto.
  pose proof (first_bound16 (ln sizes s) R). pose proof (proj1 (size_iff s _ Hs R) eq_refl) as B.
  rewrite pos_succ in B by lia. lia.
Qed.
Lemma canon_lt16 s : (s < n)%nat -> 0 <= canon sizes s < 2 ^ 16 - 1.
Proof.
  intros Hs. pose proof (canon_lt s Hs). pose proof (size_range s Hs).
  pose proof (pow2_le (ln sizes s) 16 ltac:(lia)). lia.
Qed.
Lemma has_code_all s : (s < n)%nat -> has_code sizes s.
Proof. intros Hs. split; [exact Hs|]. pose proof (size_range s Hs). lia. Qed.

(** *** encoder tables *)
Variable N : Z.
Variable vals : list Z.
Hypothesis HN : 0 <= N.
Hypothesis Hvl : length vals = n.
Hypothesis Hvr : Forall (fun v => 0 <= v < N) vals.
Hypothesis Hvd : NoDup vals.

(** the table after the first [k] values *)
Definition table_upto (k : nat) (codes : list (Z * Z)) : Prop :=
  length codes = Z.to_nat N /\
  (forall j, (j < k)%nat -> nth (Z.to_nat (znth vals (Z.of_nat j))) codes (0, 0) = (canon sizes j, ln sizes j)) /\
  (forall s, ~ In (Z.of_nat s) (firstn k vals) -> nth s codes (0, 0) = (0, 0)).

Lemma val_at j : (j < n)%nat -> 0 <= znth vals (Z.of_nat j) < N.
Proof. intros H. unfold znth. rewrite Nat2Z.id. rewrite Forall_forall in Hvr. apply Hvr, nth_In. lia. Qed.
Lemma table_0 : table_upto 0 (repeat (0, 0) (Z.to_nat N)).
Proof.
  split; [apply repeat_length|]. split; [lia|]. intros s _.
  destruct (nth_in_or_default s (repeat (0, 0) (Z.to_nat N)) (0, 0)) as [H|H]; auto. apply repeat_spec in H. auto.
Qed.
Lemma table_step k codes : (k < n)%nat -> table_upto k codes ->
  table_upto (S k) (upd codes (Z.to_nat (znth vals (Z.of_nat k))) (canon sizes k, ln sizes k)).
Proof.
  intros Hk' (T1 & T2 & T3). pose proof (val_at k Hk') as Vk. split; [rewrite upd_length; auto|]. split.
  - intros j Hj. pose proof (val_at j ltac:(lia)) as Vj. rewrite nth_upd by lia.
    destruct (Nat.eqb_spec (Z.to_nat (znth vals (Z.of_nat j))) (Z.to_nat (znth vals (Z.of_nat k)))) as [E|E].
    + assert (j = k) as ->; [|reflexivity]. apply (proj1 (NoDup_nth vals 0) Hvd); try lia.
      unfold znth in *. rewrite !Nat2Z.id in *. lia.
    + apply T2. assert (j <> k) by congruence. lia.
  - intros s Hs. assert (firstn (S k) vals = firstn k vals ++ [znth vals (Z.of_nat k)]) as E.
    { unfold znth. rewrite Nat2Z.id. clear -Hvl Hk'. assert (k < length vals)%nat as H by lia. clear Hvl Hk'.
      revert k H. induction vals as [|v r IH]; intros k H; [cbn in H; lia|]. destruct k as [|k]; [reflexivity|].
      cbn [firstn nth app]. rewrite <- (IH k) by (cbn in H; lia). reflexivity. }
    rewrite E, in_app_iff in Hs. rewrite nth_upd by lia.
    destruct (Nat.eqb_spec s (Z.to_nat (znth vals (Z.of_nat k)))) as [Es|Es].
    + exfalso. apply Hs. right. left. lia.
    + apply T3. tauto.
Qed.
Lemma skipn_val k : (k < n)%nat -> skipn k vals = znth vals (Z.of_nat k) :: skipn (S k) vals.
Proof.
  intros H. unfold znth. rewrite Nat2Z.id. assert (k < length vals)%nat as H' by lia. clear - H'.
  revert k H'. induction vals as [|v r IH]; intros k H'; [cbn in H'; lia|]. destruct k as [|k]; [reflexivity|].
  cbn [skipn nth]. apply IH. cbn in H'. lia.
Qed.

Lemma bct_inner_ok l c k codes : 1 <= l <= 16 -> Z.of_nat k + Z.of_nat c = pos_of bits (l + 1) -> pos_of bits l <= Z.of_nat k ->
  table_upto k codes ->
  exists codes', bct_inner c N l (skipn k vals) (first sizes l + (Z.of_nat k - pos_of bits l)) codes =
    Ok (Some (skipn (k + c) vals, first sizes l + znth bits (l - 1), codes')) /\ table_upto (k + c) codes'.
Proof.
  intros Hl. revert k codes. induction c as [|c IH]; intros k codes Hc Hp HT.
  - exists codes. cbn [bct_inner]. rewrite Nat.add_0_r. split; [|exact HT]. repeat f_equal.
    rewrite pos_succ in Hc by lia. lia.
  - pose proof (pos_mono (l + 1) 17 ltac:(lia) ltac:(lia)) as P17. rewrite pos_17 in P17.
    assert (k < n)%nat as Hkn by lia.
    assert (ln sizes k = l) as El by (apply size_iff; auto; lia).
    pose proof (canon_at k Hkn) as Ec. rewrite El in Ec.
    cbn [bct_inner]. rewrite skipn_val by auto. pose proof (val_at k Hkn).
    destruct (Z.leb_spec N (znth vals (Z.of_nat k))); [lia|].
    pose proof (canon_lt16 k Hkn) as C16. rewrite <- Ec.
    destruct (Z.ltb_spec (canon sizes k + 1) (2 ^ 16)); [|lia].
    pose proof (table_step k codes Hkn HT) as HT'. rewrite El in HT'.
    destruct (IH (S k) _ ltac:(lia) ltac:(lia) HT') as (codes' & E & T'). exists codes'.
    replace (k + S c)%nat with (S k + c)%nat by lia. split; [|exact T'].
    rewrite <- E. f_equal. lia.
Qed.
Lemma first_wrap l : 1 <= l <= 16 -> wrap 16 (Z.shiftl (first sizes l + znth bits (l - 1)) 1) =
  if l <? 16 then first sizes (l + 1) else wrap 16 (first sizes (l + 1)).
Proof.
  intros Hl. rewrite Z.shiftl_mul_pow2 by lia. change (2 ^ 1) with 2. rewrite first_next by lia.
  rewrite (Z.mul_comm _ 2). destruct (Z.ltb_spec l 16); [|reflexivity]. apply wrap_id.
  pose proof (first_bound16 l Hl). pose proof (first_nonneg sizes l). pose proof (bits_nth_nonneg (l - 1)).
  assert (2 * 2 ^ l <= 2 ^ 16); [|lia]. replace (2 * 2 ^ l) with (2 ^ (1 + l)) by (rewrite Zpow_plus by lia; reflexivity).
  apply pow2_le. lia.
Qed.
Lemma skipn_bits l : 1 <= l <= 16 -> skipn (Z.to_nat (l - 1)) bits = znth bits (l - 1) :: skipn (Z.to_nat l) bits.
Proof.
  intros Hl. replace (Z.to_nat l) with (S (Z.to_nat (l - 1))) by lia. unfold znth.
  assert (Z.to_nat (l - 1) < length bits)%nat as H by lia. revert H. generalize (Z.to_nat (l - 1)) as k. clear.
  induction bits as [|b r IH]; intros k H; [cbn in H; lia|]. destruct k as [|k]; [reflexivity|]. cbn [skipn nth].
  apply IH. cbn in H. lia.
Qed.
Lemma bct_outer_ok m l codes : Z.of_nat m = 17 - l -> 1 <= l <= 17 ->
  table_upto (Z.to_nat (pos_of bits l)) codes ->
  exists codes', bct_outer (skipn (Z.to_nat (l - 1)) bits) N l (skipn (Z.to_nat (pos_of bits l)) vals)
      (if l <? 17 then first sizes l else wrap 16 (first sizes l)) codes = Ok (Some codes') /\ table_upto n codes'.
Proof.
  revert l codes. induction m as [|m IH]; intros l codes Hm Hl HT.
  - assert (l = 17) as -> by lia. rewrite (skipn_all2 bits) by (rewrite Hlen; apply Nat.le_refl).
    exists codes. split; [reflexivity|]. rewrite pos_17, Nat2Z.id in HT. exact HT.
  - assert (1 <= l <= 16) as Hl' by lia. rewrite skipn_bits by lia. cbn [bct_outer].
    destruct (Z.ltb_spec l 17); [|lia].
    pose proof (pos_nonneg l) as Pn. pose proof (pos_succ l Hl') as Ps. pose proof (bits_nth_nonneg (l - 1)) as Bn.
    destruct (bct_inner_ok l (Z.to_nat (znth bits (l - 1))) (Z.to_nat (pos_of bits l)) codes Hl' ltac:(lia) ltac:(lia) HT) as (c1 & E1 & T1).
    replace (first sizes l + (Z.of_nat (Z.to_nat (pos_of bits l)) - pos_of bits l)) with (first sizes l) in E1 by lia.
    rewrite E1. cbn [rbind]. rewrite first_wrap by lia.
    replace (Z.to_nat (pos_of bits l) + Z.to_nat (znth bits (l - 1)))%nat with (Z.to_nat (pos_of bits (l + 1))) in * by lia.
    destruct (IH (l + 1) c1 ltac:(lia) ltac:(lia) T1) as (c2 & E2 & T2). exists c2. split; [|exact T2].
    rewrite <- E2. replace (l + 1 - 1) with l by lia. f_equal.
    destruct (Z.ltb_spec l 16), (Z.ltb_spec (l + 1) 17); auto; lia.
Qed.
Lemma bct_ok : exists codes, build_code_table N bits vals = Ok (Some codes) /\ table_upto n codes.
Proof.
  destruct (bct_outer_ok 16 1 _ eq_refl ltac:(lia) table_0) as (codes & E & T). exists codes. split; [|exact T].
  unfold build_code_table. rewrite <- E. f_equal. symmetry. apply first_1.
Qed.

(** the infallible variant computes the same table *)
Lemma bc_inner_eq c l vs code codes r : bct_inner c N l vs code codes = Ok (Some r) -> bc_inner c N l vs code codes = Ok r.
Proof.
  revert vs code codes. induction c as [|c IH]; intros vs code codes H; cbn [bct_inner bc_inner] in *; [congruence|].
  destruct vs as [|s t]; [discriminate|]. destruct (Z.leb_spec N s); [discriminate|].
  destruct (Z.ltb_spec s N); [|lia]. destruct (code + 1 <? 2 ^ 16); [|discriminate]. apply IH. exact H.
Qed.
Lemma bc_outer_eq bs l vs code codes r : bct_outer bs N l vs code codes = Ok (Some r) -> bc_outer bs N l vs code codes = Ok r.
Proof.
  revert l vs code codes. induction bs as [|c t IH]; intros l vs code codes H; cbn [bct_outer bc_outer] in *; [congruence|].
  destruct (bct_inner (Z.to_nat c) N l vs code codes) as [[[[v c'] cs]|]| | |] eqn:E; cbn [rbind] in H; try discriminate.
  rewrite (bc_inner_eq _ _ _ _ _ _ E). cbn [rbind]. apply IH. exact H.
Qed.
Lemma bc_ok : exists codes, build_codes_n N bits vals = Ok codes /\ table_upto n codes.
Proof. destruct bct_ok as (codes & E & T). exists codes. split; [|exact T]. apply bc_outer_eq. exact E. Qed.

(** *** decoder tables *)
Lemma first_jump si size : 1 <= si <= size -> size <= 16 -> (forall s, (s < n)%nat -> si < ln sizes s -> size <= ln sizes s) ->
  si < size -> first sizes size = (first sizes si + cnt sizes si n) * 2 ^ (size - si).
Proof.
  intros H1 H2 H3 Hlt. assert (forall d : nat, si + 1 + Z.of_nat d <= size ->
    first sizes (si + 1 + Z.of_nat d) = (first sizes si + cnt sizes si n) * 2 ^ (1 + Z.of_nat d)) as K.
  { induction d as [|d IH]; intros Hd.
    - cbn [Z.of_nat]. rewrite Z.add_0_r. rewrite first_succ by lia. fold n. change (2 ^ (1 + 0)) with 2. lia.
    - replace (si + 1 + Z.of_nat (S d)) with ((si + 1 + Z.of_nat d) + 1) by lia. rewrite first_succ by lia. fold n.
      rewrite IH by lia. assert (cnt sizes (si + 1 + Z.of_nat d) n = 0) as ->.
      { unfold cnt. rewrite (psum_ext _ (fun _ => 0)); [rewrite psum_const; lia|]. intros j Hj. fold (ln sizes j).
        destruct (Z.eqb_spec (ln sizes j) (si + 1 + Z.of_nat d)) as [E|]; auto. specialize (H3 j Hj). lia. }
      replace (1 + Z.of_nat (S d)) with (1 + (1 + Z.of_nat d)) by lia. rewrite (Zpow_plus 1 (1 + Z.of_nat d)) by lia. lia. }
  specialize (K (Z.to_nat (size - si - 1)) ltac:(lia)).
  replace (si + 1 + Z.of_nat (Z.to_nat (size - si - 1))) with size in K by lia.
  replace (1 + Z.of_nat (Z.to_nat (size - si - 1))) with (size - si) in K by lia. exact K.
Qed.
Lemma cnt_full si k : (k <= n)%nat -> (forall s, (k <= s < n)%nat -> ln sizes s <> si) -> cnt sizes si n = cnt sizes si k.
Proof.
  intros Hkn H. unfold cnt. replace n with (k + (n - k))%nat by lia. rewrite psum_plus.
  rewrite (psum_ext (fun j => if ln sizes (k + j) =? si then 1 else 0) (fun _ => 0)); [rewrite psum_const; lia|].
  intros j Hj. destruct (Z.eqb_spec (ln sizes (k + j)) si) as [E|]; auto. exfalso. apply (H (k + j)%nat ltac:(lia) E).
Qed.
Lemma skipn_size k : (k < n)%nat -> skipn k sizes = ln sizes k :: skipn (S k) sizes.
Proof. intros H. apply skipn_cons. exact H. Qed.
Lemma codes_from_ok m k si : (m = n - k)%nat -> (k <= n)%nat -> 1 <= si <= 16 ->
  (forall s, (s < k)%nat -> ln sizes s <= si) -> ((k < n)%nat -> si <= ln sizes k) ->
  codes_from (first sizes si + cnt sizes si k) si (skipn k sizes) = map (canon sizes) (seq k m).
Proof.
  revert k si. induction m as [|m IH]; intros k si Hm Hkn Hsi Hpre Hnext.
  - replace k with n by lia. unfold n. rewrite skipn_all. reflexivity.
  - assert (k < n)%nat as Hlt by lia. specialize (Hnext Hlt). rewrite skipn_size by auto. cbn [codes_from seq map].
    pose proof (size_range k Hlt) as Rk. set (sz := ln sizes k) in *.
    replace (Z.max 0 (sz - si)) with (sz - si) by lia. rewrite Z.shiftl_mul_pow2 by lia.
    assert ((first sizes si + cnt sizes si k) * 2 ^ (sz - si) = canon sizes k) as EC.
    { rewrite canon_first by (auto; lia). fold sz. destruct (Z.eq_dec si sz) as [->|Ne].
      - rewrite Z.sub_diag. change (2 ^ 0) with 1. lia.
      - rewrite (first_jump si sz) by (first [lia | intros s Hs Hgt;
          destruct (Nat.lt_ge_cases s k) as [L|L]; [specialize (Hpre s L); lia|apply size_sorted; lia]]).
        rewrite (cnt_full si k) by (first [lia | intros s Hs; pose proof (size_sorted k s ltac:(lia)) as SS; change (ln sizes k) with sz in SS; lia]).
        assert (cnt sizes sz k = 0) as ->; [|lia].
        unfold cnt. rewrite (psum_ext _ (fun _ => 0)); [rewrite psum_const; lia|]. intros j Hj.
        destruct (Z.eqb_spec (ln sizes j) sz) as [E|]; auto. specialize (Hpre j Hj). lia. }
    rewrite EC. f_equal.
    + apply wrap_id. pose proof (canon_lt16 k Hlt). lia.
    + replace (si + (sz - si)) with sz by lia.
      rewrite <- (IH (S k) sz ltac:(lia) ltac:(lia) Rk).
      * f_equal. rewrite canon_first by (auto; lia). fold sz.
        change (cnt sizes sz (S k)) with (cnt sizes sz k + (if ln sizes k =? sz then 1 else 0)). fold sz. rewrite Z.eqb_refl. lia.
      * intros s Hs. apply size_sorted. lia.
      * intros H. apply size_sorted. lia.
Qed.
Lemma huff_codes_ok : huff_codes bits = map (canon sizes) (seq 0 n).
Proof.
  unfold huff_codes. fold sizes. destruct (Nat.eq_dec n 0) as [E|E].
  - rewrite E. unfold n in E. apply length_zero_iff_nil in E. rewrite E. reflexivity.
  - pose proof (size_range 0 ltac:(lia)) as R. rewrite <- (codes_from_ok n 0 (ln sizes 0)); try lia.
    + f_equal. unfold cnt. cbn [psum]. unfold first. rewrite (psum_ext _ (fun _ => 0)); [rewrite psum_const; lia|].
      intros j Hj. fold (ln sizes j). pose proof (size_sorted 0 j ltac:(fold n in Hj; lia)).
      destruct (Z.ltb_spec (ln sizes j) (ln sizes 0)); [lia|]. rewrite andb_false_r. reflexivity.
Qed.
Lemma huff_code_nth k : (k < n)%nat -> znth (huff_codes bits) (Z.of_nat k) = canon sizes k.
Proof.
  intros H. rewrite huff_codes_ok. unfold znth. rewrite Nat2Z.id.
  rewrite (nth_indep _ 0 (canon sizes 0)) by (rewrite map_length, seq_length; auto).
  rewrite map_nth, seq_nth by auto. reflexivity.
Qed.

Definition rg (l : Z) : Z * Z :=
  if znth bits (l - 1) >? 0
  then (canon sizes (Z.to_nat (pos_of bits (l + 1) - 1)), pos_of bits l - canon sizes (Z.to_nat (pos_of bits l)))
  else (-1, 0).
Lemma ranges_ok m l : Z.of_nat m = 17 - l -> 1 <= l <= 17 ->
  ranges_from (pos_of bits l) (huff_codes bits) (skipn (Z.to_nat (l - 1)) bits) =
  map (fun j => rg (l + Z.of_nat j)) (seq 0 m).
Proof.
  revert l. induction m as [|m IH]; intros l Hm Hl.
  - assert (l = 17) as -> by lia. rewrite (skipn_all2 bits) by (rewrite Hlen; apply Nat.le_refl). reflexivity.
  - assert (1 <= l <= 16) as Hl' by lia. rewrite skipn_bits by lia. cbn [ranges_from seq map].
    rewrite Z.add_0_r. rewrite <- seq_shift, map_map. pose proof (pos_succ l Hl') as Ps.
    pose proof (bits_nth_nonneg (l - 1)) as Bn. pose proof (pos_nonneg l).
    pose proof (pos_mono (l + 1) 17 ltac:(lia) ltac:(lia)) as P17. rewrite pos_17 in P17.
    assert (map (fun x => rg (l + Z.of_nat (S x))) (seq 0 m) =
      ranges_from (pos_of bits (l + 1)) (huff_codes bits) (skipn (Z.to_nat l) bits)) as E.
    { specialize (IH (l + 1) ltac:(lia) ltac:(lia)). replace (l + 1 - 1) with l in IH by lia. rewrite IH.
      apply map_ext. intros j. f_equal. lia. }
    unfold rg at 1. rewrite E.
    destruct (Z.gtb_spec (znth bits (l - 1)) 0) as [G|G].
    + rewrite <- Ps. f_equal. f_equal.
      * rewrite <- (huff_code_nth (Z.to_nat (pos_of bits (l + 1) - 1))) by lia. f_equal. lia.
      * f_equal. rewrite <- (huff_code_nth (Z.to_nat (pos_of bits l))) by lia. f_equal. lia.
    + f_equal. f_equal. lia.
Qed.

Let tab := jtab_build bits vals.
Lemma nth_map_seq (f : nat -> Z) m k : (k < m)%nat -> nth k (map f (seq 0 m)) 0 = f k.
Proof.
  intros H. rewrite (nth_indep _ 0 (f 0%nat)) by (rewrite map_length, seq_length; auto).
  rewrite map_nth, seq_nth by auto. reflexivity.
Qed.
Lemma tab_ranges l : 1 <= l <= 16 -> znth (j_max tab) l = fst (rg l) /\ znth (j_off tab) l = snd (rg l).
Proof.
  intros Hl. unfold tab, jtab_build. cbn [j_max j_off]. rewrite <- pos_1. pose proof (ranges_ok 16 1 eq_refl ltac:(lia)) as R.
  change (skipn (Z.to_nat (1 - 1)) bits) with bits in R. rewrite R. unfold znth.
  replace (Z.to_nat l) with (S (Z.to_nat (l - 1))) by lia. cbn [nth]. rewrite !map_map.
  rewrite !nth_map_seq by lia. replace (1 + Z.of_nat (Z.to_nat (l - 1))) with l by lia. auto.
Qed.
Lemma tab_max l : 1 <= l <= 16 -> znth (j_max tab) l =
  if znth bits (l - 1) >? 0 then canon sizes (Z.to_nat (pos_of bits (l + 1) - 1)) else -1.
Proof. intros Hl. rewrite (proj1 (tab_ranges l Hl)). unfold rg. destruct (znth bits (l - 1) >? 0); reflexivity. Qed.
Lemma tab_off l : 1 <= l <= 16 -> znth bits (l - 1) > 0 -> znth (j_off tab) l =
  pos_of bits l - canon sizes (Z.to_nat (pos_of bits l)).
Proof.
  intros Hl Hb. rewrite (proj2 (tab_ranges l Hl)). unfold rg.
  destruct (Z.gtb_spec (znth bits (l - 1)) 0); [reflexivity|lia].
Qed.

Lemma canon_shift s l : (s < n)%nat -> 1 <= l <= ln sizes s ->
  (l < ln sizes s -> znth (j_max tab) l < canon sizes s / 2 ^ (ln sizes s - l)) /\
  (l = ln sizes s -> canon sizes s <= znth (j_max tab) l /\ canon sizes s + znth (j_off tab) l = Z.of_nat s).
Proof.
  intros Hs Hl. pose proof (size_range s Hs) as Rs. rewrite tab_max by lia.
  pose proof (pos_nonneg l) as Pn. pose proof (pos_succ l ltac:(lia)) as Ps.
  pose proof (pos_mono (l + 1) 17 ltac:(lia) ltac:(lia)) as P17. rewrite pos_17 in P17. split.
  - intros Hlt. pose proof (pow2_gt0 (ln sizes s - l) ltac:(lia)) as Pp. destruct (Z.gtb_spec (znth bits (l - 1)) 0) as [G|G].
    + set (j := Z.to_nat (pos_of bits (l + 1) - 1)). assert (j < n)%nat as Hj by lia.
      assert (ln sizes j = l) as Ej by (apply size_iff; auto; lia).
      assert (before sizes j s = true) as B by (unfold before; lia).
      pose proof (canon_step sizes j s Hj B) as C. rewrite Ej in C.
      apply Z.lt_le_trans with (canon sizes j + 1); [lia|]. apply Z.div_le_lower_bound; lia.
    + apply Z.lt_le_trans with 0; [lia|]. apply Z.div_pos; [|lia]. apply canon_nonneg.
  - intros ->. pose proof (proj1 (size_iff s _ Hs Rs) eq_refl) as B.
    destruct (Z.gtb_spec (znth bits (ln sizes s - 1)) 0) as [G|G]; [|lia].
    rewrite tab_off by lia.
    set (j0 := Z.to_nat (pos_of bits (ln sizes s))). set (j1 := Z.to_nat (pos_of bits (ln sizes s + 1) - 1)).
    assert (ln sizes j0 = ln sizes s) as E0 by (apply size_iff; lia).
    assert (ln sizes j1 = ln sizes s) as E1 by (apply size_iff; lia).
    pose proof (canon_at s Hs) as Cs. pose proof (canon_at j0 ltac:(lia)) as C0. pose proof (canon_at j1 ltac:(lia)) as C1.
    rewrite E0 in C0. rewrite E1 in C1. lia.
Qed.
End Table.
