(** The decoder's Huffman tables: lookup table and slow path against the
    canonical code. *)
From Verif Require Import Base BitsModel BitsProofs CanonSpec InflateModel CanonProofs.

Lemma land_1 v : Z.land v 1 = v mod 2.
Proof. change 1 with (2 ^ 1 - 1) at 1. rewrite land_mask by lia. reflexivity. Qed.
Lemma shiftr_1 v : Z.shiftr v 1 = v / 2.
Proof. rewrite Z.shiftr_div_pow2 by lia. reflexivity. Qed.

Lemma val_rev_cons b l : val_of (rev (b :: l)) = val_of (rev l) + 2 ^ zlen l * Z.b2z b.
Proof.
  cbn [rev]. rewrite val_of_app. unfold zlen. rewrite rev_length. cbn [val_of].
  destruct b; cbn [Z.b2z]; lia.
Qed.
Lemma rev_loop_spec k v r m : 0 <= m -> m + Z.of_nat k <= 16 -> 0 <= r < 2 ^ m ->
  rev_loop k v r = r * 2 ^ Z.of_nat k + val_of (rev (bits_of k v)).
Proof.
  revert v r m; induction k as [|k IH]; intros v r m Hm Hk Hr; cbn [rev_loop].
  - cbn. lia.
  - rewrite land_1, shiftr_1, Z.shiftl_mul_pow2 by lia. change (2 ^ 1) with 2.
    assert (2 ^ (m + 1) = 2 * 2 ^ m) as E by (rewrite Z.pow_add_r by lia; lia).
    assert (2 ^ (m + 1) <= 2 ^ 16) by (apply Z.pow_le_mono_r; lia).
    rewrite wrap_id by lia.
    replace (Z.lor (r * 2) (v mod 2)) with (r * 2 + v mod 2).
    2:{ rewrite Z.lor_comm. replace (r * 2) with (r * 2 ^ 1) by reflexivity.
        rewrite (lor_disjoint (v mod 2) r 1) by (change (2 ^ 1) with 2; lia). lia. }
    rewrite (IH _ _ (m + 1)) by lia.
    cbn [bits_of]. rewrite val_rev_cons, pow2_S, odd_mod. unfold zlen. rewrite bits_of_length. lia.
Qed.
Lemma reverse_bits_spec v l : 0 <= l <= 16 -> reverse_bits v l = val_of (rev (bits_of (Z.to_nat l) v)).
Proof.
  intros H. unfold reverse_bits. rewrite (rev_loop_spec _ _ _ 0) by lia. lia.
Qed.

Definition entry (sym len : Z) : Z := sym + len * 4096.
Lemma entry_eq sym len : 0 <= sym < 4096 -> 0 <= len <= 9 ->
  Z.lor (wrap 16 sym) (wrap 16 (Z.shiftl len 12)) = entry sym len.
Proof.
  intros Hs Hl. rewrite Z.shiftl_mul_pow2 by lia. change (2 ^ 12) with 4096.
  rewrite !wrap_id by (change (2 ^ 16) with 65536; lia).
  change 4096 with (2 ^ 12). rewrite lor_disjoint by (change (2 ^ 12) with 4096; lia). reflexivity.
Qed.
Lemma entry_len sym len : 0 <= sym < 4096 -> 0 <= len -> Z.shiftr (entry sym len) 12 = len.
Proof. intros. rewrite Z.shiftr_div_pow2 by lia. change (2 ^ 12) with 4096. unfold entry. lia. Qed.
Lemma entry_sym sym len : 0 <= sym < 4096 -> 0 <= len -> Z.land (entry sym len) 4095 = sym.
Proof. intros. change 4095 with (2 ^ 12 - 1). rewrite land_mask by lia. change (2 ^ 12) with 4096. unfold entry. lia. Qed.

Lemma fill_loop_spec k i rv len sym lookup :
  0 <= len <= 9 -> 0 <= i -> 0 <= rv < 2 ^ len -> (i + Z.of_nat k) * 2 ^ len <= 512 ->
  0 <= sym < 4096 -> zlen lookup = 512 ->
  zlen (fill_loop k i rv len sym lookup) = 512 /\
  forall idx, 0 <= idx < 512 ->
    znth (fill_loop k i rv len sym lookup) idx =
    if (idx mod 2 ^ len =? rv) && (i <=? idx / 2 ^ len) && (idx / 2 ^ len <? i + Z.of_nat k)
    then entry sym len else znth lookup idx.
Proof.
  intros Hl Hi Hr Hk Hs. revert i lookup Hi Hk; induction k as [|k IH]; intros i lookup Hi Hk Hlen.
  - cbn [fill_loop]. split; auto. intros idx Hx.
    destruct (Z.leb_spec i (idx / 2 ^ len)), (Z.ltb_spec (idx / 2 ^ len) (i + Z.of_nat 0)); rewrite ?andb_false_r; auto; lia.
  - cbn [fill_loop]. rewrite entry_eq by lia.
    rewrite Z.shiftl_mul_pow2, lor_disjoint by lia. pose proof (pow2_gt0 len ltac:(lia)).
    assert (0 <= rv + i * 2 ^ len < 512) by nia.
    destruct (IH (i + 1) (upd lookup (Z.to_nat (rv + i * 2 ^ len)) (entry sym len))) as [I1 I2];
      [lia|lia|rewrite zlen_upd; auto|].
    split; [exact I1|]. intros idx Hx. rewrite I2 by auto. rewrite znth_upd by lia.
    pose proof (Z.div_mod idx (2 ^ len) ltac:(lia)) as DM.
    destruct (Z.eqb_spec (idx mod 2 ^ len) rv) as [E|E]; cbn [andb].
    + destruct (Z.eqb_spec idx (rv + i * 2 ^ len)) as [E2|E2].
      * assert (idx / 2 ^ len = i) as -> by nia.
        destruct (Z.leb_spec (i + 1) i); [lia|]. cbn [andb].
        destruct (Z.leb_spec i i), (Z.ltb_spec i (i + Z.of_nat (S k))); auto; lia.
      * assert (idx / 2 ^ len <> i) by nia.
        destruct (Z.leb_spec (i + 1) (idx / 2 ^ len)), (Z.ltb_spec (idx / 2 ^ len) (i + 1 + Z.of_nat k)),
          (Z.leb_spec i (idx / 2 ^ len)), (Z.ltb_spec (idx / 2 ^ len) (i + Z.of_nat (S k))); cbn [andb]; auto; lia.
    + destruct (Z.eqb_spec idx (rv + i * 2 ^ len)) as [E2|E2]; auto.
      exfalso. apply E. rewrite E2, Z.mod_add by lia. apply Z.mod_small. lia.
Qed.

(** symbol [s] of [lens]/[codes] claims table index [idx] *)
Definition claims (lens codes : list Z) (s : nat) (idx : Z) : Prop :=
  (s < length lens)%nat /\ 1 <= nth s lens 0 <= 9 /\
  idx mod 2 ^ nth s lens 0 = reverse_bits (wrap 16 (nth s codes 0)) (nth s lens 0).

Lemma reverse_bits_range v l : 0 <= l <= 16 -> 0 <= reverse_bits v l < 2 ^ l.
Proof.
  intros H. rewrite reverse_bits_spec by auto.
  pose proof (val_of_range (rev (bits_of (Z.to_nat l) v))) as R.
  unfold zlen in R. rewrite rev_length, bits_of_length, Z2Nat.id in R by lia. exact R.
Qed.

Lemma fill_table_spec lens : forall sym codes lookup,
  Forall (fun l => 0 <= l) lens -> length codes = length lens -> 0 <= sym -> sym + zlen lens <= 4096 ->
  zlen lookup = 512 ->
  zlen (fill_table sym lens codes lookup) = 512 /\
  forall idx, 0 <= idx < 512 ->
    (exists s, claims lens codes s idx /\
       znth (fill_table sym lens codes lookup) idx = entry (sym + Z.of_nat s) (nth s lens 0)) \/
    ((forall s, ~ claims lens codes s idx) /\
       znth (fill_table sym lens codes lookup) idx = znth lookup idx).
Proof.
  induction lens as [|l lt IH]; intros sym codes lookup HL HC Hs Hn Hlen.
  - cbn [fill_table]. split; auto. intros idx Hx. right. split; auto. intros s (C & _). cbn in C. lia.
  - destruct codes as [|c ct]; [discriminate|]. inversion HL; subst. rewrite zlen_cons in Hn. cbn [fill_table].
    pose proof (zlen_nonneg lt) as Hz.
    set (lk := if (l =? 0) || (l >? 9) then lookup else _).
    assert (zlen lk = 512 /\ forall idx, 0 <= idx < 512 ->
      znth lk idx = if (1 <=? l) && (l <=? 9) && (idx mod 2 ^ l =? reverse_bits (wrap 16 c) l)
                    then entry sym l else znth lookup idx) as [K1 K2].
    { unfold lk. destruct (Z.eqb_spec l 0); cbn [orb].
      - split; auto. intros idx _. destruct (Z.leb_spec 1 l); [lia|reflexivity].
      - destruct (Z.gtb_spec l 9).
        + split; auto. intros idx _. destruct (Z.leb_spec l 9); [lia|]. rewrite andb_false_r. reflexivity.
        + rewrite Z.shiftl_mul_pow2, Z.mul_1_l by lia. pose proof (pow2_gt0 (9 - l) ltac:(lia)).
          assert (2 ^ (9 - l) * 2 ^ l = 512) as E.
          { rewrite <- Z.pow_add_r by lia. replace (9 - l + l) with 9 by lia. reflexivity. }
          destruct (fill_loop_spec (Z.to_nat (2 ^ (9 - l))) 0 (reverse_bits (wrap 16 c) l) l sym lookup) as [F1 F2];
            try lia; auto.
          * apply reverse_bits_range. lia.
          * split; [exact F1|]. intros idx Hx. rewrite F2 by auto. rewrite Z2Nat.id by lia.
            destruct (Z.leb_spec 1 l); [|lia]. destruct (Z.leb_spec l 9); [|lia].
            assert (0 <= idx / 2 ^ l < 2 ^ (9 - l)).
            { pose proof (pow2_gt0 l ltac:(lia)). split; [apply Z.div_pos; lia|].
              apply Z.div_lt_upper_bound; [lia|]. rewrite Z.mul_comm. lia. }
            destruct (idx mod 2 ^ l =? reverse_bits (wrap 16 c) l); cbn [andb]; auto.
            destruct (Z.leb_spec 0 (idx / 2 ^ l)), (Z.ltb_spec (idx / 2 ^ l) (0 + 2 ^ (9 - l))); auto; lia. }
    destruct (IH (sym + 1) ct lk) as [I1 I2]; auto; try lia.
    split; [exact I1|]. intros idx Hx. destruct (I2 idx Hx) as [(s & C & E)|(N & E)].
    + left. exists (S s). split.
      * destruct C as (C1 & C2). split; [cbn; lia|exact C2].
      * rewrite E. cbn [nth]. f_equal. lia.
    + rewrite E, (K2 idx Hx).
      destruct (Z.leb_spec 1 l); destruct (Z.leb_spec l 9); cbn [andb];
        try (right; split; auto; intros [|s] (C1 & C2 & C3); cbn [nth length] in *; [lia|apply (N s); repeat split; auto; lia]).
      destruct (Z.eqb_spec (idx mod 2 ^ l) (reverse_bits (wrap 16 c) l)) as [E2|E2].
      * left. exists O. split; [|f_equal; lia]. split; [cbn; lia|]. cbn [nth]. auto.
      * right. split; auto. intros [|s] (C1 & C2 & C3); cbn [nth length] in *; [lia|apply (N s); repeat split; auto; lia].
Qed.

(** ** list_max *)
Lemma list_max_gen l a : a <= fold_left Z.max l a /\ Forall (fun x => x <= fold_left Z.max l a) l.
Proof.
  revert a; induction l as [|x t IH]; intros a; cbn [fold_left]; [split; [lia|constructor]|].
  destruct (IH (Z.max a x)) as [I1 I2]. split; [lia|]. constructor; [lia|auto].
Qed.
Lemma list_max_in l a : fold_left Z.max l a = a \/ In (fold_left Z.max l a) l.
Proof.
  revert a; induction l as [|x t IH]; intros a; cbn [fold_left]; auto.
  destruct (IH (Z.max a x)) as [E|E]; [|right; right; auto]. rewrite E.
  destruct (Z.max_spec a x) as [[_ M]|[_ M]]; rewrite M; auto. right; left; auto.
Qed.
Lemma list_max_bound l m : Forall (fun x => x <= m) l -> 0 <= m -> list_max l <= m.
Proof.
  intros H Hm. unfold list_max. destruct (list_max_in l 0) as [E|E]; [lia|].
  rewrite Forall_forall in H. apply H in E. lia.
Qed.
Lemma ln_le_max lens s : ln lens s <= list_max lens.
Proof.
  unfold ln, list_max. destruct (list_max_gen lens 0) as [H1 H2].
  apply (Forall_nth_d (fun x => x <= fold_left Z.max lens 0)); auto.
Qed.

(** ** what a built table is *)
Definition ht_for (lens : list Z) (t : htable) : Prop :=
  from_lengths lens = Ok t /\ Forall (fun l => 0 <= l) lens /\ zlen lens <= 4096.

Lemma from_lengths_cases lens : Forall (fun l => 0 <= l) lens -> zlen lens <= 4096 ->
  (from_lengths lens = Err EInvalidDecode /\ ~ lens_ok 15 lens) \/
  (exists t, ht_for lens t /\ lens_ok 15 lens).
Proof.
  intros HL Hn. unfold ht_for, from_lengths. destruct (Z.gtb_spec (list_max lens) 15) as [G|G].
  - left. split; auto. intros H.
    assert (list_max lens <= 15); [|lia]. apply list_max_bound; [|lia].
    eapply Forall_impl; [|exact H]. cbn; lia.
  - right. assert (lens_ok 15 lens) as HO.
    { unfold lens_ok. destruct (list_max_gen lens 0) as [_ H2]. fold (list_max lens) in H2.
      rewrite Forall_forall in *. intros x Hx. specialize (HL x Hx). specialize (H2 x Hx). cbv beta in *. lia. }
    destruct (list_max lens =? 0); eexists; repeat split; auto.
Qed.
Lemma ht_for_lens_ok lens t : ht_for lens t -> lens_ok 15 lens.
Proof.
  intros (E & HL & Hn). destruct (from_lengths_cases lens HL Hn) as [[E2 _]|(t' & _ & H)]; auto. congruence.
Qed.
Lemma ht_for_fields lens t : ht_for lens t -> ht_lengths t = lens /\ ht_max t = list_max lens /\
  (list_max lens <> 0 -> ht_lookup t = fill_table 0 lens (assign_codes lens (next_codes lens)) (repeat 0 512)) .
Proof.
  intros (E & _). unfold from_lengths in E. destruct (list_max lens >? 15); [discriminate|].
  destruct (Z.eqb_spec (list_max lens) 0) as [E0|E0]; injection E as <-; cbn; repeat split; auto; intros; congruence.
Qed.

(** matching a code word against a table index made of the next 9 bits *)
Lemma idx_mod bs l : (l <= 9)%nat -> val_of (firstn 9 bs) mod 2 ^ Z.of_nat l =
  val_of (firstn l (firstn 9 bs ++ repeat false 9)).
Proof.
  intros Hl. rewrite <- val_of_bits_of. f_equal.
  assert (val_of (firstn 9 bs) = val_of (firstn 9 bs ++ repeat false 9)) as ->.
  { rewrite val_of_app. cbn [val_of repeat Z.b2z]. lia. }
  set (x := firstn 9 bs ++ repeat false 9).
  assert (l <= length x)%nat as Hx by (unfold x; rewrite app_length, repeat_length; lia).
  transitivity (firstn l (bits_of (length x) (val_of x))); [|rewrite bits_of_val_of; reflexivity].
  replace (length x) with (l + (length x - l))%nat by lia. rewrite bits_of_app, firstn_app, bits_of_length, Nat.sub_diag.
  rewrite firstn_all2 by (rewrite bits_of_length; lia). cbn. rewrite app_nil_r. reflexivity.
Qed.

Lemma claims_iff lens s bs : lens_ok 15 lens -> zlen lens <= 4096 ->
  claims lens (assign_codes lens (next_codes lens)) s (val_of (firstn 9 bs)) <->
  has_code lens s /\ ln lens s <= 9 /\
  firstn (Z.to_nat (ln lens s)) (firstn 9 bs ++ repeat false 9) = code_word lens s.
Proof.
  intros HL Hn. unfold claims, has_code. fold (ln lens s). split.
  - intros (C1 & C2 & C3). split; [split; [auto|lia]|split; [lia|]].
    assert (nth s (assign_codes lens (next_codes lens)) 0 = canon lens s) as EC.
    { rewrite <- (assign_canon lens s HL); [unfold znth; rewrite Nat2Z.id; auto|lia|split; auto; lia]. }
    rewrite EC, reverse_bits_spec in C3 by lia.
    replace (ln lens s) with (Z.of_nat (Z.to_nat (ln lens s))) in C3 at 1 by lia.
    rewrite idx_mod in C3 by lia. apply val_of_inj.
    + rewrite firstn_length, app_length, repeat_length, code_word_length. lia.
    + rewrite C3. unfold code_word. do 2 f_equal.
      rewrite <- (bits_of_mod _ (canon lens s)), <- (bits_of_mod _ (wrap 16 (canon lens s))). f_equal. unfold wrap.
      symmetry. apply Znumtheory.Zmod_div_mod; [apply pow2_pos|apply pow2_gt0; lia|].
      exists (2 ^ (16 - Z.of_nat (Z.to_nat (ln lens s)))). rewrite <- Z.pow_add_r by lia. f_equal. lia.
  - intros ((C1 & C2) & C3 & C4). split; [auto|split; [lia|]].
    assert (nth s (assign_codes lens (next_codes lens)) 0 = canon lens s) as EC.
    { rewrite <- (assign_canon lens s HL); [unfold znth; rewrite Nat2Z.id; auto|lia|split; auto; lia]. }
    rewrite EC, reverse_bits_spec by lia.
    replace (ln lens s) with (Z.of_nat (Z.to_nat (ln lens s))) at 1 by lia.
    rewrite idx_mod by lia. rewrite C4. unfold code_word. do 2 f_equal.
    rewrite <- (bits_of_mod _ (canon lens s)), <- (bits_of_mod _ (wrap 16 (canon lens s))). f_equal. unfold wrap.
    apply Znumtheory.Zmod_div_mod; [apply pow2_pos|apply pow2_gt0; lia|].
    exists (2 ^ (16 - Z.of_nat (Z.to_nat (ln lens s)))). rewrite <- Z.pow_add_r by lia. f_equal. lia.
Qed.

(** ** the slow path *)
Lemma slow_scan_some rest all sym len code x : slow_scan rest all sym len code = Some x ->
  exists s, (s < length rest)%nat /\ x = Z.of_nat (sym + s) /\ nth s rest 0 = len /\
            code = code_for_symbol all (sym + s).
Proof.
  revert sym; induction rest as [|l t IH]; intros sym H; cbn [slow_scan] in H; [discriminate|].
  destruct (Z.eqb_spec l len) as [E|E]; cbn [andb] in H.
  - destruct (Z.eqb_spec code (code_for_symbol all sym)) as [E2|E2].
    + injection H as <-. exists O. rewrite Nat.add_0_r. cbn. repeat split; auto. lia.
    + destruct (IH _ H) as (s & S1 & S2 & S3 & S4). exists (S s). cbn [length nth].
      rewrite Nat.add_succ_r. repeat split; auto. lia.
  - destruct (IH _ H) as (s & S1 & S2 & S3 & S4). exists (S s). cbn [length nth].
    rewrite Nat.add_succ_r. repeat split; auto. lia.
Qed.
Lemma slow_scan_none rest all sym len code s : slow_scan rest all sym len code = None ->
  (s < length rest)%nat -> nth s rest 0 = len -> code <> code_for_symbol all (sym + s).
Proof.
  revert sym s; induction rest as [|l t IH]; intros sym s H Hs Hn; cbn [length] in Hs; [lia|].
  cbn [slow_scan] in H. destruct s as [|s].
  - cbn in Hn. subst l. rewrite Z.eqb_refl in H. cbn [andb] in H. rewrite Nat.add_0_r.
    destruct (Z.eqb_spec code (code_for_symbol all sym)); [discriminate|auto].
  - rewrite Nat.add_succ_r. apply (IH (S sym) s); auto; [|lia].
    destruct ((l =? len) && (code =? code_for_symbol all sym)); [discriminate|auto].
Qed.

Lemma val_rev_snoc p b : val_of (rev (p ++ [b])) = Z.b2z b + 2 * val_of (rev p).
Proof. rewrite rev_app_distr. reflexivity. Qed.
Lemma val_rev_range p : 0 <= val_of (rev p) < 2 ^ zlen p.
Proof. pose proof (val_of_range (rev p)) as R. unfold zlen in *. rewrite rev_length in R. exact R. Qed.

Lemma slow_bit p b : zlen p < 31 ->
  Z.lor (wrap 32 (Z.shiftl (val_of (rev p)) 1)) (Z.b2z b) = val_of (rev (p ++ [b])).
Proof.
  intros H. rewrite val_rev_snoc. pose proof (val_rev_range p) as R. pose proof (zlen_nonneg p).
  assert (2 ^ zlen p <= 2 ^ 30) by (apply Z.pow_le_mono_r; lia).
  rewrite Z.shiftl_mul_pow2 by lia. rewrite wrap_id by (change (2 ^ 32) with (4 * 2 ^ 30); change (2 ^ 1) with 2; lia).
  rewrite Z.lor_comm. rewrite (lor_disjoint (Z.b2z b) (val_of (rev p)) 1) by (destruct b; cbn; lia).
  change (2 ^ 1) with 2. lia.
Qed.

Lemma br_read1 r : br_inv r ->
  match br_bits r with
  | [] => br_read r 1 = Err EInvalidDecode
  | b :: bs => exists r', br_read r 1 = Ok (Z.b2z b, r') /\ br_inv r' /\ br_bits r' = bs
  end.
Proof.
  intros Hi. pose proof (br_read_spec r 1 Hi ltac:(lia)) as S. destruct (br_bits r) as [|b bs] eqn:E.
  - destruct (Z.leb_spec 1 (Z.of_nat (length (@nil bool)))) as [L|L]; [cbn in L; lia|auto].
  - destruct (Z.leb_spec 1 (Z.of_nat (length (b :: bs)))) as [L|L]; [|cbn [length] in L; lia].
    destruct S as (r' & S1 & S2 & S3). change (Z.to_nat 1) with 1%nat in *. cbn [firstn skipn val_of] in *.
    exists r'. rewrite S1. split; [|split; auto]. do 2 f_equal. lia.
Qed.

Lemma slow_loop_sound k : forall len lens r p,
  lens_ok 15 lens -> zlen lens <= 4096 -> br_inv r -> 1 <= len -> zlen p = len - 1 -> len + Z.of_nat k <= 16 ->
  match slow_loop k len (val_of (rev p)) lens r with
  | Ok (x, r') => exists s, x = Z.of_nat s /\ has_code lens s /\ br_inv r' /\
                    p ++ br_bits r = code_word lens s ++ br_bits r' /\
                    (length (br_bits r') < length (br_bits r))%nat
  | Err e => e = EInvalidDecode
  | _ => False
  end.
Proof.
  induction k as [|k IH]; intros len lens r p HL Hn Hi H1 Hp Hk; cbn [slow_loop]; auto.
  pose proof (br_read1 r Hi) as R. destruct (br_bits r) as [|b bs] eqn:EB.
  - rewrite R. cbn. reflexivity.
  - destruct R as (r1 & R1 & R2 & R3). rewrite R1. cbn [rbind]. rewrite slow_bit by lia.
    destruct (slow_scan lens lens 0 len (val_of (rev (p ++ [b])))) as [x|] eqn:ES.
    + apply slow_scan_some in ES. destruct ES as (s & S1 & S2 & S3 & S4). cbn [Nat.add] in *.
      assert (has_code lens s) as HC by (split; [auto|unfold ln; lia]).
      exists s. split; [auto|split; [auto|split; [auto|]]]. rewrite code_for_symbol_spec in S4 by (auto; lia).
      rewrite R3. split; [|cbn; lia]. change (b :: bs) with ([b] ++ bs). rewrite app_assoc. f_equal.
      unfold code_word. rewrite <- S4. fold (ln lens s) in S3. rewrite S3.
      replace (Z.to_nat len) with (length (rev (p ++ [b]))).
      * rewrite bits_of_val_of, rev_involutive. reflexivity.
      * rewrite rev_length, app_length. unfold zlen in Hp. cbn [length]. lia.
    + specialize (IH (len + 1) lens r1 (p ++ [b]) HL Hn R2 ltac:(lia)).
      rewrite zlen_app in IH. specialize (IH ltac:(change (zlen [b]) with 1; lia) ltac:(lia)).
      destruct (slow_loop k (len + 1) (val_of (rev (p ++ [b]))) lens r1) as [[x r']| | |]; auto.
      destruct IH as (s & I1 & I2 & I3 & I4 & I5). exists s. rewrite R3 in *. rewrite <- app_assoc in I4.
      split; [auto|split; [auto|split; [auto|split; [auto|]]]]. cbn [length]. lia.
Qed.

Lemma slow_loop_progress k : forall len lens r p s rest,
  code_ok 15 lens -> zlen lens <= 4096 -> br_inv r -> 1 <= len -> zlen p = len - 1 -> len + Z.of_nat k <= 16 ->
  has_code lens s -> p ++ br_bits r = code_word lens s ++ rest -> len <= ln lens s < len + Z.of_nat k ->
  exists x r', slow_loop k len (val_of (rev p)) lens r = Ok (x, r').
Proof.
  induction k as [|k IH]; intros len lens r p s rest HO Hn Hi H1 Hp Hk HC HB Hl; [lia|]. cbn [slow_loop].
  pose proof HO as (HL & _). pose proof (ln_range 15 lens s ltac:(lia) HL) as R15.
  pose proof (br_read1 r Hi) as R. destruct (br_bits r) as [|b bs] eqn:EB.
  - exfalso. apply (f_equal (@length bool)) in HB. rewrite !app_length, code_word_length in HB. unfold zlen in Hp.
    cbn [length] in HB. lia.
  - destruct R as (r1 & R1 & R2 & R3). rewrite R1. cbn [rbind]. rewrite slow_bit by lia.
    destruct (slow_scan lens lens 0 len (val_of (rev (p ++ [b])))) as [x|] eqn:ES; [eauto|].
    change (b :: bs) with ([b] ++ bs) in HB. rewrite app_assoc in HB.
    destruct (Z.eq_dec len (ln lens s)) as [E|E].
    + exfalso. eapply slow_scan_none in ES; [|apply HC|unfold ln in E; symmetry; exact E]. apply ES. cbn [Nat.add].
      rewrite code_for_symbol_spec by (auto; lia).
      assert (p ++ [b] = code_word lens s) as ->.
      { pose proof (app_inv_firstn _ _ _ _ HB) as F. rewrite app_length, code_word_length in F. unfold zlen in Hp. cbn [length] in F.
        rewrite firstn_all2 in F by (rewrite code_word_length; lia). apply F. lia. }
      unfold code_word. rewrite rev_involutive. apply val_bits_small. rewrite Z2Nat.id by lia.
      apply (canon_range 15); auto; lia.
    + apply (IH (len + 1) lens r1 (p ++ [b]) s rest); auto; try lia.
      * rewrite zlen_app. change (zlen [b]) with 1. lia.
      * rewrite R3. exact HB.
Qed.

(** ** soundness: a decoded symbol is one whose code word starts the input;
    no condition on the lengths beyond what [from_lengths] checks *)
Lemma skipn_code lens s bs : has_code lens s ->
  (Z.to_nat (ln lens s) <= length bs)%nat ->
  firstn (Z.to_nat (ln lens s)) bs = code_word lens s ->
  bs = code_word lens s ++ skipn (Z.to_nat (ln lens s)) bs.
Proof. intros _ _ E. rewrite <- E. symmetry. apply firstn_skipn. Qed.

Lemma firstn_pad n bs : (n <= length bs)%nat -> (n <= 9)%nat ->
  firstn n (firstn 9 bs ++ repeat false 9) = firstn n bs.
Proof.
  intros H H9. rewrite firstn_app. rewrite firstn_firstn. rewrite Nat.min_l by lia.
  rewrite firstn_length. replace (n - Nat.min 9 (length bs))%nat with 0%nat by lia. cbn [firstn]. apply app_nil_r.
Qed.

Lemma lookup_cases lens t bs : ht_for lens t -> list_max lens <> 0 ->
  let idx := val_of (firstn 9 bs) in
  exists e, get (ht_lookup t) idx = Ok e /\
  ((exists s, has_code lens s /\ ln lens s <= 9 /\
      firstn (Z.to_nat (ln lens s)) (firstn 9 bs ++ repeat false 9) = code_word lens s /\
      Z.shiftr e 12 = ln lens s /\ Z.land e 4095 = Z.of_nat s) \/
   (Z.shiftr e 12 = 0 /\ forall s, has_code lens s -> ln lens s <= 9 ->
      firstn (Z.to_nat (ln lens s)) (firstn 9 bs ++ repeat false 9) <> code_word lens s)).
Proof.
  intros HT Hm idx. pose proof HT as (_ & HP & Hn). pose proof (ht_for_lens_ok _ _ HT) as HL.
  destruct (ht_for_fields _ _ HT) as (_ & _ & F). specialize (F Hm). rewrite F.
  destruct (fill_table_spec lens 0 (assign_codes lens (next_codes lens)) (repeat 0 512)) as [T1 T2]; auto; try lia.
  { apply assign_codes_length. }
  assert (0 <= idx < 512) as Hx.
  { unfold idx. pose proof (val_of_range (firstn 9 bs)) as R.
    assert (2 ^ zlen (firstn 9 bs) <= 2 ^ 9).
    { apply Z.pow_le_mono_r; [lia|]. unfold zlen. rewrite firstn_length. lia. }
    change (2 ^ 9) with 512 in *. lia. }
  exists (znth (fill_table 0 lens (assign_codes lens (next_codes lens)) (repeat 0 512)) idx). split.
  { apply get_ok. lia. }
  destruct (T2 idx Hx) as [(s & C & E)|(N & E)]; rewrite E.
  - left. exists s. apply claims_iff in C; auto. destruct C as (C1 & C2 & C3). pose proof C1 as (C1a & C1b).
    repeat split; auto; fold (ln lens s).
    + apply entry_len; unfold zlen in Hn; lia.
    + rewrite entry_sym by (unfold zlen in Hn; lia). lia.
  - right. rewrite znth_repeat0. split; [reflexivity|]. intros s HC H9 EC. apply (N s). apply claims_iff; auto.
Qed.

Theorem ht_decode_sound lens t r : ht_for lens t -> br_inv r ->
  match ht_decode t r with
  | Ok (x, r') => exists s, x = Z.of_nat s /\ has_code lens s /\ br_inv r' /\
                    br_bits r = code_word lens s ++ br_bits r' /\
                    (length (br_bits r') < length (br_bits r))%nat
  | Err e => e = EInvalidDecode
  | _ => False
  end.
Proof.
  intros HT Hi. pose proof HT as (_ & HP & Hn). pose proof (ht_for_lens_ok _ _ HT) as HL.
  destruct (ht_for_fields _ _ HT) as (F1 & F2 & _). unfold ht_decode. rewrite F2.
  destruct (Z.eqb_spec (list_max lens) 0) as [E0|E0]; [reflexivity|].
  destruct (br_try_peek_spec r 9 Hi ltac:(lia)) as (r1 & P1 & P2 & P3 & P4). rewrite P1.
  change (Z.to_nat 9) with 9%nat in *.
  assert (match decode_slow t r1 with
    | Ok (x, r') => exists s, x = Z.of_nat s /\ has_code lens s /\ br_inv r' /\
                      br_bits r = code_word lens s ++ br_bits r' /\ (length (br_bits r') < length (br_bits r))%nat
    | Err e => e = EInvalidDecode | _ => False end) as SL.
  { unfold decode_slow. rewrite F1, F2.
    assert (list_max lens <= 15). { apply list_max_bound; [|lia]. eapply Forall_impl; [|exact HL]. cbn; lia. }
    pose proof (slow_loop_sound (Z.to_nat (list_max lens)) 1 lens r1 [] HL Hn P2) as S. rewrite P3 in S.
    apply S; try reflexivity; lia. }
  destruct (lookup_cases lens t (br_bits r) HT E0) as (e & G & C).
  assert (forall avail, avail = Z.min 9 (Z.of_nat (length (br_bits r))) ->
    match
      (if (Z.shiftr e 12 >? 0) && (Z.shiftr e 12 <=? avail)
       then let* r := br_consume r1 (Z.shiftr e 12) in Ok (Z.land e 4095, r) else decode_slow t r1)
    with
    | Ok (x, r') => exists s, x = Z.of_nat s /\ has_code lens s /\ br_inv r' /\
                    br_bits r = code_word lens s ++ br_bits r' /\ (length (br_bits r') < length (br_bits r))%nat
    | Err e => e = EInvalidDecode | _ => False end) as FA.
  { intros avail Ea. destruct (Z.gtb_spec (Z.shiftr e 12) 0) as [L|L]; cbn [andb]; [|exact SL].
    destruct (Z.leb_spec (Z.shiftr e 12) avail) as [L2|L2]; [|exact SL].
    destruct C as [(s & C1 & C2 & C3 & C4 & C5)|(C4 & _)]; [|lia].
    destruct (br_consume_spec r1 (Z.shiftr e 12) P2) as (r2 & Q1 & Q2 & Q3 & _); [lia|].
    rewrite Q1. cbn [rbind]. exists s. rewrite Q3, P3, C4.
    rewrite firstn_pad in C3 by lia. split; [auto|split; [auto|split; [auto|]]].
    split; [apply skipn_code; auto; lia|]. rewrite skipn_length. lia. }
  specialize (FA _ eq_refl).
  destruct (Z.geb_spec (Z.min 9 (Z.of_nat (length (br_bits r)))) 9) as [A|A].
  - rewrite G. cbn [rbind]. replace (Z.min 9 (Z.of_nat (length (br_bits r)))) with 9 in FA by lia. exact FA.
  - destruct (Z.gtb_spec (Z.min 9 (Z.of_nat (length (br_bits r)))) 0) as [A2|A2]; [|exact SL].
    rewrite G. cbn [rbind]. exact FA.
Qed.

Theorem ht_decode_complete lens t r s rest : ht_for lens t -> kraft 15 lens <= 2 ^ 15 -> br_inv r ->
  has_code lens s -> br_bits r = code_word lens s ++ rest ->
  exists r', ht_decode t r = Ok (Z.of_nat s, r') /\ br_inv r' /\ br_bits r' = rest.
Proof.
  intros HT HK Hi HC HB. pose proof HT as (_ & HP & Hn). pose proof (ht_for_lens_ok _ _ HT) as HL.
  assert (code_ok 15 lens) as HO by (split; auto).
  assert (exists x r', ht_decode t r = Ok (x, r')) as (x & r' & E).
  { destruct (ht_for_fields _ _ HT) as (F1 & F2 & _). unfold ht_decode. rewrite F2.
    pose proof (ln_le_max lens s) as LM. pose proof HC as (HC1 & HC2).
    destruct (Z.eqb_spec (list_max lens) 0) as [E0|E0]; [lia|].
    destruct (br_try_peek_spec r 9 Hi ltac:(lia)) as (r1 & P1 & P2 & P3 & P4). rewrite P1.
    change (Z.to_nat 9) with 9%nat in *.
    assert (list_max lens <= 15). { apply list_max_bound; [|lia]. eapply Forall_impl; [|exact HL]. cbn; lia. }
    assert (exists x r', decode_slow t r1 = Ok (x, r')) as SL.
    { unfold decode_slow. rewrite F1, F2.
      apply (slow_loop_progress (Z.to_nat (list_max lens)) 1 lens r1 [] s rest HO Hn P2); try reflexivity; auto; try lia.
      rewrite P3. exact HB. }
    destruct (lookup_cases lens t (br_bits r) HT E0) as (e & G & C).
    assert (forall avail, avail = Z.min 9 (Z.of_nat (length (br_bits r))) -> exists x r',
      (if (Z.shiftr e 12 >? 0) && (Z.shiftr e 12 <=? avail)
       then let* r := br_consume r1 (Z.shiftr e 12) in Ok (Z.land e 4095, r) else decode_slow t r1) = Ok (x, r')) as FA.
    { intros avail Ea. destruct (Z.gtb_spec (Z.shiftr e 12) 0) as [L|L]; cbn [andb]; [|exact SL].
      destruct (Z.leb_spec (Z.shiftr e 12) avail) as [L2|L2]; [|exact SL].
      destruct (br_consume_spec r1 (Z.shiftr e 12) P2) as (r2 & Q1 & _); [lia|]. rewrite Q1. cbn [rbind]. eauto. }
    specialize (FA _ eq_refl).
    destruct (Z.geb_spec (Z.min 9 (Z.of_nat (length (br_bits r)))) 9) as [A|A].
    - rewrite G. cbn [rbind]. replace (Z.min 9 (Z.of_nat (length (br_bits r)))) with 9 in FA by lia. exact FA.
    - destruct (Z.gtb_spec (Z.min 9 (Z.of_nat (length (br_bits r)))) 0) as [A2|A2]; [|exact SL].
      rewrite G. cbn [rbind]. exact FA. }
  pose proof (ht_decode_sound lens t r HT Hi) as S. rewrite E in S. destruct S as (s' & S1 & S2 & S3 & S4 & _).
  rewrite HB in S4. destruct (canon_unique 15 lens s s' rest (br_bits r') ltac:(lia) HO HC S2 S4) as [E1 E2].
  subst s'. exists r'. rewrite E, S1. auto.
Qed.
