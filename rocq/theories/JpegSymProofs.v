(** Decoding one Huffman symbol of a JPEG scan. *)
From Verif Require Import Base BitsModel BitsProofs CanonSpec CanonProofs PngFilterModel JpegBaseModel JpegHuffModel JpegDecModel JpegBaseProofs MsbSpec MsbProofs JpegTabProofs.

(** A legal table specification: the code lengths satisfy Kraft's inequality
    strictly (no code of all ones), the values are distinct bytes. *)
Definition tab_ok (bits vals : list Z) : Prop :=
  length bits = 16%nat /\ Forall (fun c => 0 <= c <= 255) bits /\
  length vals = length (huff_sizes bits) /\ bytes vals /\ NoDup vals /\ kraft 16 (huff_sizes bits) < 2 ^ 16.

Lemma idxs_S m : idxs (S m) = idxs m ++ [Z.of_nat m].
Proof. unfold idxs. rewrite seq_S, map_app. reflexivity. Qed.
Lemma code_word_msb lens s : code_word lens s = msb (ln lens s) (canon lens s).
Proof. reflexivity. Qed.

Lemma fill_one_spec lk len code v : length lk = 256%nat -> 1 <= len <= 8 -> 0 <= code < 2 ^ len ->
  length (fill_one lk (len, code, v)) = 256%nat /\
  forall i, 0 <= i < 256 -> znth (fill_one lk (len, code, v)) i =
    if i / 2 ^ (8 - len) =? code then Z.lor v (Z.shiftl len 8) else znth lk i.
Proof.
  intros Hl Hlen Hc. unfold fill_one. destruct (Z.leb_spec len 8); [|lia].
  set (f := 8 - len). assert (0 <= f <= 7) as Hf by lia. rewrite shiftl1 by lia.
  rewrite Z.shiftl_mul_pow2 by lia. set (x := Z.lor v (Z.shiftl len 8)).
  pose proof (pow2_gt0 f ltac:(lia)) as Pf.
  assert (2 ^ len * 2 ^ f = 256) as E8 by (rewrite <- Zpow_plus by lia; replace (len + f) with 8 by lia; reflexivity).
  assert (forall m : nat, Z.of_nat m <= 2 ^ f ->
    let r := fold_left (fun lk i => let idx := Z.lor (code * 2 ^ f) i in if idx <? 256 then upd lk (Z.to_nat idx) x else lk) (idxs m) lk in
    length r = 256%nat /\ forall i, 0 <= i < 256 -> znth r i = if (code * 2 ^ f <=? i) && (i <? code * 2 ^ f + Z.of_nat m) then x else znth lk i) as K.
  { induction m as [|m IH]; intros Hm; cbn zeta.
    - cbn [idxs seq map fold_left]. split; [auto|]. intros i Hi.
      destruct (Z.leb_spec (code * 2 ^ f) i), (Z.ltb_spec i (code * 2 ^ f + Z.of_nat 0)); cbn [andb]; auto; lia.
    - rewrite idxs_S, fold_left_app. cbn [fold_left]. destruct (IH ltac:(lia)) as [I1 I2]. cbn zeta in I1, I2.
      set (r := fold_left _ (idxs m) lk) in *. clearbody r.
      assert (Z.lor (code * 2 ^ f) (Z.of_nat m) = code * 2 ^ f + Z.of_nat m) as ->.
      { rewrite Z.lor_comm. rewrite lor_disjoint by lia. lia. }
      assert (code * 2 ^ f + Z.of_nat m < 256) by nia.
      destruct (Z.ltb_spec (code * 2 ^ f + Z.of_nat m) 256); [|lia].
      split; [rewrite upd_length; auto|]. intros i Hi. unfold znth at 1. rewrite nth_upd by nia.
      destruct (Nat.eqb_spec (Z.to_nat i) (Z.to_nat (code * 2 ^ f + Z.of_nat m))) as [E|E].
      + assert (i = code * 2 ^ f + Z.of_nat m) as -> by nia.
        destruct (Z.leb_spec (code * 2 ^ f) (code * 2 ^ f + Z.of_nat m)), (Z.ltb_spec (code * 2 ^ f + Z.of_nat m) (code * 2 ^ f + Z.of_nat (S m))); cbn [andb]; auto; lia.
      + fold (znth r i). rewrite I2 by auto.
        assert (i <> code * 2 ^ f + Z.of_nat m) by (intros ->; apply E; reflexivity).
        destruct (Z.leb_spec (code * 2 ^ f) i), (Z.ltb_spec i (code * 2 ^ f + Z.of_nat m)), (Z.ltb_spec i (code * 2 ^ f + Z.of_nat (S m))); cbn [andb]; auto; lia. }
  destruct (K (Z.to_nat (2 ^ f)) ltac:(lia)) as [K1 K2]. split; [exact K1|]. intros i Hi. cbn zeta in K2. rewrite K2 by auto.
  rewrite Z2Nat.id by lia.
  destruct (Z.eqb_spec (i / 2 ^ f) code) as [E|E].
  - assert (code * 2 ^ f <= i < code * 2 ^ f + 2 ^ f) by (subst code; pose proof (Z.mul_div_le i (2 ^ f) Pf); pose proof (Z.mul_succ_div_gt i (2 ^ f) Pf); lia).
    destruct (Z.leb_spec (code * 2 ^ f) i), (Z.ltb_spec i (code * 2 ^ f + 2 ^ f)); cbn [andb]; auto; lia.
  - destruct (Z.leb_spec (code * 2 ^ f) i), (Z.ltb_spec i (code * 2 ^ f + 2 ^ f)); cbn [andb]; auto.
    exfalso. apply E. symmetry. apply (Z.div_unique_pos i (2 ^ f) code (i - code * 2 ^ f)); lia.
Qed.

Section Symbol.
Variable bits vals : list Z.
Hypothesis Hok : tab_ok bits vals.
Let sizes := huff_sizes bits.
Let n := length sizes.
Let tab := jtab_build bits vals.

Lemma t_len : length bits = 16%nat. Proof. apply Hok. Qed.
Lemma t_nn : Forall (fun c => 0 <= c) bits.
Proof. destruct Hok as (_ & H & _). eapply Forall_impl; [|exact H]. intros a Ha. cbv beta in Ha. lia. Qed.
Lemma t_kraft : kraft 16 sizes < 2 ^ 16. Proof. apply Hok. Qed.
Lemma t_vlen : length vals = length (huff_sizes bits). Proof. apply Hok. Qed.
Lemma t_size s : (s < n)%nat -> 1 <= ln sizes s <= 16.
Proof. apply (size_range bits t_len t_nn). Qed.
Lemma t_canon s : (s < n)%nat -> 0 <= canon sizes s /\ canon sizes s + 1 < 2 ^ ln sizes s.
Proof. apply (canon_lt bits t_len t_nn t_kraft). Qed.
Lemma t_val s : (s < n)%nat -> is_byte (znth vals (Z.of_nat s)).
Proof.
  intros H. unfold znth. rewrite Nat2Z.id. destruct Hok as (_ & _ & HL & HB & _). unfold bytes in HB. rewrite Forall_forall in HB. apply HB, nth_In.
  fold sizes n in HL. lia.
Qed.

Definition hit (v : Z) (k : nat) : Prop := ln sizes k <= 8 /\ v / 2 ^ (8 - ln sizes k) = canon sizes k.
Lemma lookup_spec : length (j_lookup tab) = 256%nat /\ forall v, 0 <= v < 256 ->
  (exists k, (k < n)%nat /\ hit v k /\ znth (j_lookup tab) v = Z.lor (znth vals (Z.of_nat k)) (Z.shiftl (ln sizes k) 8)) \/
  znth (j_lookup tab) v = 0.
Proof.
  unfold tab, jtab_build. cbn [j_lookup]. unfold code_entries. fold sizes. fold n.
  assert (forall m, (m <= n)%nat ->
    let r := fold_left fill_one (map (fun k => (znth sizes k, znth (huff_codes bits) k, znth vals k)) (idxs m)) (repeat 0 256) in
    length r = 256%nat /\ forall v, 0 <= v < 256 ->
     (exists k, (k < m)%nat /\ hit v k /\ znth r v = Z.lor (znth vals (Z.of_nat k)) (Z.shiftl (ln sizes k) 8)) \/ znth r v = 0) as K.
  { induction m as [|m IH]; intros Hm; cbn zeta.
    - cbn [idxs seq map fold_left]. split; [apply repeat_length|]. intros v Hv. right. apply znth_repeat0.
    - rewrite idxs_S, map_app, fold_left_app. cbn [map fold_left]. destruct (IH ltac:(lia)) as [I1 I2]. cbn zeta in I1, I2.
      set (r := fold_left fill_one _ (repeat 0 256)) in *. clearbody r.
      rewrite (huff_code_nth bits t_len t_nn t_kraft vals t_vlen m) by (fold sizes n; lia). fold sizes.
      assert (znth sizes (Z.of_nat m) = ln sizes m) as -> by (unfold znth, ln; rewrite Nat2Z.id; reflexivity).
      pose proof (t_size m ltac:(lia)) as Sm. pose proof (t_canon m ltac:(lia)) as Cm.
      destruct (Z.leb_spec (ln sizes m) 8) as [L|L].
      + destruct (fill_one_spec r (ln sizes m) (canon sizes m) (znth vals (Z.of_nat m)) I1 ltac:(lia) ltac:(lia)) as [F1 F2].
        split; [exact F1|]. intros v Hv. rewrite F2 by auto.
        destruct (Z.eqb_spec (v / 2 ^ (8 - ln sizes m)) (canon sizes m)) as [E|E].
        * left. exists m. split; [lia|]. split; [split; auto|reflexivity].
        * destruct (I2 v Hv) as [(k & Hk & Hh & Ek)|E0]; [left; exists k; split; [lia|auto]|auto].
      + unfold fill_one. destruct (Z.leb_spec (ln sizes m) 8); [lia|]. split; [exact I1|].
        intros v Hv. destruct (I2 v Hv) as [(k & Hk & Hh & Ek)|E0]; [left; exists k; split; [lia|auto]|auto]. }
  exact (K n ltac:(lia)).
Qed.

Lemma slow_ok k len r s rest : (s < n)%nat -> 1 <= len <= ln sizes s -> Z.of_nat k = 17 - len ->
  mr_rep r (msb (ln sizes s - len + 1) (canon sizes s) ++ rest) ->
  exists r', slow_loop k len (canon sizes s / 2 ^ (ln sizes s - len + 1)) tab r = Ok (znth vals (Z.of_nat s), r') /\ mr_rep r' rest.
Proof.
  intros Hs. pose proof (t_size s Hs) as Ss. pose proof (t_canon s Hs) as Cs.
  revert len r. induction k as [|k IH]; intros len r Hlen Hk Hr; [lia|].
  set (d := ln sizes s - len) in *. assert (0 <= d) as Hd by lia. pose proof (pow2_gt0 d Hd) as Pd.
  replace (msb (d + 1) (canon sizes s)) with (msb 1 (canon sizes s / 2 ^ d) ++ msb d (canon sizes s)) in Hr
    by (rewrite <- msb_split by lia; f_equal; lia).
  rewrite <- app_assoc, <- (msb_mod 1) in Hr by lia.
  destruct (mr_read_msb r 1 _ _ Hr ltac:(lia) ltac:(apply Z.mod_pos_bound; lia)) as (r1 & E1 & R1).
  cbn [slow_loop]. rewrite E1. change (2 ^ 1) with 2 in *.
  assert (Z.lor (Z.shiftl (canon sizes s / 2 ^ (d + 1)) 1) ((canon sizes s / 2 ^ d) mod 2) = canon sizes s / 2 ^ d) as EC.
  { rewrite Z.shiftl_mul_pow2 by lia. rewrite Z.lor_comm. pose proof (Z.mod_pos_bound (canon sizes s / 2 ^ d) 2 ltac:(lia)).
    rewrite lor_disjoint by (change (2 ^ 1) with 2; lia). change (2 ^ 1) with 2.
    rewrite (Zpow_plus d 1) by lia. change (2 ^ 1) with 2. rewrite <- Z.div_div by lia.
    pose proof (Z.div_mod (canon sizes s / 2 ^ d) 2 ltac:(lia)). lia. }
  cbn zeta. rewrite EC.
  destruct (canon_shift bits t_len t_nn t_kraft vals t_vlen s len Hs Hlen) as [CS1 CS2]. fold sizes tab d in CS1, CS2.
  destruct (Z.eq_dec len (ln sizes s)) as [E|E].
  - destruct (CS2 E) as [C1 C2]. assert (d = 0) as Ed by lia. rewrite Ed in *. change (2 ^ 0) with 1 in *. rewrite Z.div_1_r.
    destruct (Z.leb_spec (canon sizes s) (znth (j_max tab) len)); [|lia]. rewrite C2.
    assert (zlen (j_values tab) = Z.of_nat n) as EV by (unfold zlen; f_equal; apply Hok).
    rewrite EV. destruct (Z.leb_spec 0 (Z.of_nat s)), (Z.ltb_spec (Z.of_nat s) (Z.of_nat n)); cbn [andb]; try lia.
    exists r1. split; [reflexivity|]. rewrite msb_0 in R1. exact R1.
  - specialize (CS1 ltac:(lia)). destruct (Z.leb_spec (canon sizes s / 2 ^ d) (znth (j_max tab) len)); [lia|].
    replace d with (ln sizes s - (len + 1) + 1) in R1 by lia.
    destruct (IH (len + 1) r1 ltac:(lia) ltac:(lia) R1) as (r' & E' & R'). exists r'. split; [|exact R'].
    rewrite <- E'. f_equal. f_equal. f_equal. lia.
Qed.

Lemma jdecode_ok r s rest : (s < n)%nat -> mr_rep r (code_word sizes s ++ rest) ->
  exists r', jdecode tab r = Ok (znth vals (Z.of_nat s), r') /\ mr_rep r' rest.
Proof.
  intros Hs Hr. pose proof (t_size s Hs) as Ss. pose proof (t_canon s Hs) as Cs.
  assert (forall r1, mr_rep r1 (code_word sizes s ++ rest) ->
    exists r', decode_slow tab r1 = Ok (znth vals (Z.of_nat s), r') /\ mr_rep r' rest) as Slow.
  { intros r1 H1. unfold decode_slow. rewrite code_word_msb in H1.
    replace (ln sizes s) with (ln sizes s - 1 + 1) in H1 by lia.
    destruct (slow_ok 16 1 r1 s rest Hs ltac:(lia) eq_refl H1) as (r' & E & R). exists r'. split; [|exact R].
    rewrite <- E. f_equal. symmetry. apply Z.div_small. replace (ln sizes s - 1 + 1) with (ln sizes s) by lia. lia. }
  unfold jdecode. pose proof (mr_peek_spec r 8 _ Hr ltac:(lia)) as P.
  destruct (Z.leb_spec 8 (zlen (code_word sizes s ++ rest))) as [HL|HL].
  2:{ destruct P as (r1 & -> & R1). apply Slow. exact R1. }
  destruct P as (r1 & -> & R1 & N1). set (bs := code_word sizes s ++ rest) in *.
  change (Z.to_nat 8) with 8%nat. set (v := mval (firstn 8 bs)).
  assert (zlen (firstn 8 bs) = 8) as L8 by (unfold zlen in *; rewrite firstn_length; lia).
  assert (0 <= v < 256) as Hv. { pose proof (mval_range (firstn 8 bs)) as M. rewrite L8 in M. change (2 ^ 8) with 256 in M. exact M. }
  destruct lookup_spec as [LL LS]. rewrite (get_ok _ v 0) by (unfold zlen; lia). fold (znth (j_lookup tab) v).
  set (e := znth (j_lookup tab) v) in *; assert (znth (j_lookup tab) v = e) as Ez by reflexivity; clearbody e.
  cbn [rbind]. destruct (LS v Hv) as [(k & Hk & (Hk8 & Hkv) & Ek)|E0].
  - pose proof (t_size k Hk) as Sk. pose proof (t_val k Hk) as Vk. unfold is_byte in Vk.
    assert (k = s /\ skipn (Z.to_nat (ln sizes k)) bs = rest) as [-> Erest].
    { apply (canon_unique 16 sizes k s (skipn (Z.to_nat (ln sizes k)) bs) rest).
      - lia.
      - apply code_ok16; [apply t_len|apply t_nn|apply t_kraft].
      - apply has_code_all; [apply t_len|apply t_nn|exact Hk].
      - apply has_code_all; [apply t_len|apply t_nn|exact Hs].
      - fold bs. rewrite code_word_msb, <- Hkv.
        assert (msb 8 v = firstn 8 bs) as M8 by (unfold v; rewrite <- L8 at 1; apply msb_mval).
        assert (bs = msb 8 v ++ skipn 8 bs) as Eb by (rewrite M8; symmetry; apply firstn_skipn).
        rewrite <- (firstn_skipn (Z.to_nat (ln sizes k)) bs) at 2. f_equal. rewrite Eb, msb_firstn by lia. reflexivity. }
    assert (e = znth vals (Z.of_nat s) + ln sizes s * 256) as Ee'.
    { rewrite <- Ez, Ek. rewrite Z.shiftl_mul_pow2 by lia. rewrite lor_disjoint by (change (2 ^ 8) with 256; lia).
      change (2 ^ 8) with 256. lia. }
    assert (Z.shiftr e 8 = ln sizes s) as Es.
    { rewrite Z.shiftr_div_pow2 by lia. change (2 ^ 8) with 256. rewrite Ee', Z.div_add by lia. rewrite Z.div_small by lia. lia. }
    rewrite Es. destruct (Z.gtb_spec (ln sizes s) 0), (Z.leb_spec (ln sizes s) 8); cbn [andb]; try lia.
    exists (mr_consume r1 (ln sizes s)). split.
    + f_equal. f_equal. change 255 with (2 ^ 8 - 1). rewrite land_mask by lia. change (2 ^ 8) with 256.
      rewrite Ee', Z.mod_add by lia. apply Z.mod_small. lia.
    + pose proof (mr_consume_spec 31 r1 (ln sizes s) bs R1 ltac:(lia) ltac:(lia)) as C. rewrite Erest in C. exact C.
  - assert (e = 0) as -> by congruence. change (Z.shiftr 0 8) with 0. cbn [Z.gtb Z.compare andb]. apply Slow. exact R1.
Qed.
End Symbol.
