From Verif Require Import Base BitsModel BitsSpec BitsProofs MsbSpec.

(** ** MSB-first bit lists *)
Lemma msb_length n v : length (msb n v) = Z.to_nat n.
Proof. unfold msb. rewrite rev_length, bits_of_length. reflexivity. Qed.
Lemma msb_0 v : msb 0 v = [].
Proof. reflexivity. Qed.
Lemma msb_split n m v : 0 <= n -> 0 <= m -> msb (n + m) v = msb n (v / 2 ^ m) ++ msb m v.
Proof.
  intros. unfold msb. rewrite Z.add_comm, Z2Nat.inj_add by auto. rewrite bits_of_app, rev_app_distr.
  rewrite Z2Nat.id by auto. reflexivity.
Qed.
Lemma msb_mod n v : 0 <= n -> msb n (v mod 2 ^ n) = msb n v.
Proof. intros. unfold msb. f_equal. apply zbits_mod. auto. Qed.
Lemma msb_cat n m a b : 0 <= n -> 0 <= m -> 0 <= b < 2 ^ m ->
  msb (n + m) (a * 2 ^ m + b) = msb n a ++ msb m b.
Proof.
  intros. rewrite msb_split by auto. f_equal.
  - f_equal. rewrite Z.div_add_l by lia. rewrite Z.div_small by lia. lia.
  - rewrite <- (msb_mod m) by auto. rewrite Z.add_comm, Z.mod_add by lia. rewrite Z.mod_small by lia. reflexivity.
Qed.
(** the value of an MSB-first bit list *)
Definition mval (l : list bool) : Z := val_of (rev l).
Lemma mval_msb n v : 0 <= n -> mval (msb n v) = v mod 2 ^ n.
Proof. intros. unfold mval, msb. rewrite rev_involutive. apply val_zbits. auto. Qed.
Lemma msb_mval l : msb (zlen l) (mval l) = l.
Proof.
  unfold msb, mval, zlen. rewrite Nat2Z.id. rewrite <- (rev_length l), bits_of_val_of. apply rev_involutive.
Qed.
Lemma mval_range l : 0 <= mval l < 2 ^ zlen l.
Proof. unfold mval. replace (zlen l) with (zlen (rev l)) by (unfold zlen; rewrite rev_length; auto). apply val_of_range. Qed.
Lemma msb_ones n : 0 <= n -> msb n (2 ^ n - 1) = repeat true (Z.to_nat n).
Proof.
  intros H. rewrite <- (Z2Nat.id n) at 1 2 by auto. generalize (Z.to_nat n) as k. clear n H.
  induction k as [|k IH]; [reflexivity|].
  rewrite Nat2Z.inj_succ. replace (Z.succ (Z.of_nat k)) with (1 + Z.of_nat k) by lia.
  rewrite Zpow_plus by lia. change (2 ^ 1) with 2.
  replace (2 * 2 ^ Z.of_nat k - 1) with (1 * 2 ^ Z.of_nat k + (2 ^ Z.of_nat k - 1)) by lia.
  pose proof (pow2_pos k). rewrite msb_cat by lia. rewrite IH. reflexivity.
Qed.
Lemma msb_firstn n m v l : 0 <= n <= m -> firstn (Z.to_nat n) (msb m v ++ l) = msb n (v / 2 ^ (m - n)).
Proof.
  intros. replace m with (n + (m - n)) at 1 by lia. rewrite msb_split by lia. rewrite <- app_assoc.
  rewrite firstn_app, msb_length, Nat.sub_diag. cbn [firstn]. rewrite app_nil_r.
  rewrite <- (msb_length n (v / 2 ^ (m - n))) at 1. apply firstn_all.
Qed.
Lemma msb_skipn n m v l : 0 <= n <= m -> skipn (Z.to_nat n) (msb m v ++ l) = msb (m - n) v ++ l.
Proof.
  intros. replace m with (n + (m - n)) at 1 by lia. rewrite msb_split by lia. rewrite <- app_assoc.
  rewrite skipn_app, msb_length, Nat.sub_diag. cbn [skipn].
  rewrite <- (msb_length n (v / 2 ^ (m - n))) at 1. rewrite skipn_all. reflexivity.
Qed.

Lemma bytes_msb_app a b : bytes_msb (a ++ b) = bytes_msb a ++ bytes_msb b.
Proof. apply flat_map_app. Qed.
Lemma bytes_msb_cons b l : bytes_msb (b :: l) = msb 8 b ++ bytes_msb l.
Proof. reflexivity. Qed.
Lemma bytes_msb_length l : length (bytes_msb l) = (8 * length l)%nat.
Proof.
  induction l as [|b l IH]; [reflexivity|]. rewrite bytes_msb_cons, app_length, msb_length, IH.
  cbn [length]. lia.
Qed.

(** ** stuffing *)
Lemma unstuff_255 r : unstuff (255 :: 0 :: r) = option_map (cons 255) (unstuff r).
Proof. reflexivity. Qed.
Lemma unstuff_other b r : b <> 255 -> unstuff (b :: r) = option_map (cons b) (unstuff r).
Proof. intros H. cbn [unstuff]. destruct (Z.eqb_spec b 255); [lia|reflexivity]. Qed.
Lemma unstuff_inv l x : unstuff l = Some x ->
  l = [] /\ x = [] \/
  (exists r y, l = 255 :: 0 :: r /\ x = 255 :: y /\ unstuff r = Some y) \/
  (exists b r y, b <> 255 /\ l = b :: r /\ x = b :: y /\ unstuff r = Some y).
Proof.
  destruct l as [|b r]; cbn [unstuff]; intros H; [left; inversion H; auto|right].
  destruct (Z.eqb_spec b 255) as [->|N].
  - left. destruct r as [|z r]; [discriminate|]. destruct (Z.eqb_spec z 0) as [->|]; [|discriminate].
    destruct (unstuff r) as [y|] eqn:Eu; inversion H; subst. exists r, y. auto.
  - right. destruct (unstuff r) as [y|] eqn:Eu; inversion H; subst. exists b, r, y. auto.
Qed.
Lemma unstuff_app a b x y : unstuff a = Some x -> unstuff b = Some y -> unstuff (a ++ b) = Some (x ++ y).
Proof.
  revert x. induction a as [a IH] using (induction_ltof1 _ (@length Z)). unfold ltof in IH.
  intros x Ha Hb. apply unstuff_inv in Ha as [(-> & ->)|[(r & z & -> & -> & Hr)|(c & r & z & N & -> & -> & Hr)]].
  - exact Hb.
  - cbn [app]. rewrite unstuff_255, (IH r ltac:(cbn; lia) z Hr Hb). reflexivity.
  - cbn [app]. rewrite unstuff_other, (IH r ltac:(cbn; lia) z Hr Hb) by auto. reflexivity.
Qed.
Lemma unstuff_stuffed l x : unstuff l = Some x -> stuffed l.
Proof.
  revert x. induction l as [l IH] using (induction_ltof1 _ (@length Z)). unfold ltof in IH.
  intros x Ha. apply unstuff_inv in Ha as [(-> & ->)|[(r & z & -> & -> & Hr)|(c & r & z & N & -> & -> & Hr)]]; intros i Hi.
  - destruct i; discriminate.
  - destruct i as [|[|i]]; cbn in Hi |- *; [reflexivity|discriminate|].
    apply (IH r ltac:(cbn; lia) z Hr i Hi).
  - destruct i as [|i]; cbn in Hi |- *; [congruence|]. apply (IH r ltac:(cbn; lia) z Hr i Hi).
Qed.
Lemma unstuff_bytes l x : bytes l -> unstuff l = Some x -> bytes x.
Proof.
  revert x. induction l as [l IH] using (induction_ltof1 _ (@length Z)). unfold ltof in IH.
  intros x Hb Ha. apply unstuff_inv in Ha as [(-> & ->)|[(r & z & -> & -> & Hr)|(c & r & z & N & -> & -> & Hr)]].
  - constructor.
  - apply Forall_cons_iff in Hb as [H1 Hb]. apply Forall_cons_iff in Hb as [H2 Hb].
    constructor; auto. apply (IH r); cbn; auto; lia.
  - apply Forall_cons_iff in Hb as [H1 Hb]. constructor; auto. apply (IH r); cbn; auto; lia.
Qed.

(** ** BitWriterMsb: [m_rep pre w bits] - after the bytes [pre], the writer [w]
    holds the bit string [bits] *)
Definition m_rep (pre : list Z) (w : bwm) (bits : list bool) : Prop :=
  exists seg l, m_buf w = pre ++ seg /\ unstuff seg = Some l /\ bytes seg /\
    1 <= m_pos w <= 8 /\ 0 <= m_cur w < 256 /\ m_cur w mod 2 ^ m_pos w = 0 /\
    bits = bytes_msb l ++ msb (8 - m_pos w) (m_cur w / 2 ^ m_pos w).

Lemma m_rep_new : m_rep [] m_new [].
Proof.
  exists [], []. cbn. repeat split; try lia; try constructor.
Qed.
Lemma m_rep_len pre w bits : m_rep pre w bits -> Z.of_nat (length bits) mod 8 = (8 - m_pos w) mod 8.
Proof.
  intros (seg & l & _ & _ & _ & Hp & _ & _ & ->). rewrite app_length, bytes_msb_length, msb_length.
  replace (Z.of_nat (8 * length l + Z.to_nat (8 - m_pos w))) with ((8 - m_pos w) + Z.of_nat (length l) * 8) by lia.
  rewrite Z.mod_add by lia. reflexivity.
Qed.

Lemma push_rep pre buf seg l b : buf = pre ++ seg -> unstuff seg = Some l -> bytes seg -> is_byte b ->
  exists seg', m_push_stuffed buf b = pre ++ seg' /\ unstuff seg' = Some (l ++ [b]) /\ bytes seg'.
Proof.
  intros -> Hu Hb H. unfold m_push_stuffed. destruct (Z.eqb_spec b 255) as [->|N].
  - exists (seg ++ [255; 0]). split; [rewrite app_assoc; reflexivity|]. split.
    + apply unstuff_app; auto.
    + apply bytes_app; split; auto. repeat constructor; unfold is_byte; lia.
  - exists (seg ++ [b]). split; [rewrite app_assoc; reflexivity|]. split.
    + apply unstuff_app; auto. rewrite unstuff_other by auto. reflexivity.
    + apply bytes_app; split; auto. constructor; [exact H|constructor].
Qed.

Lemma m_loop_spec pre fuel w v rem bits :
  m_rep pre w bits -> 0 <= rem <= Z.of_nat fuel ->
  m_rep pre (m_loop fuel w v rem) (bits ++ msb rem v).
Proof.
  revert w rem bits; induction fuel as [|f IH]; intros w rem bits Hw Hr.
  - replace rem with 0 by lia. rewrite msb_0, app_nil_r. exact Hw.
  - cbn [m_loop]. destruct (Z.gtb_spec rem 0) as [Hpos|Hz].
    2:{ replace rem with 0 by lia. rewrite msb_0, app_nil_r. exact Hw. }
    destruct Hw as (seg & l & Hbuf & Hu & Hb & Hp & Hc & Hm & ->).
    set (tw := Z.min rem (m_pos w)). set (p' := m_pos w - tw).
    assert (1 <= tw <= 8 /\ tw <= rem /\ 0 <= p' <= 7) as (T1 & T2 & T3) by (unfold p', tw; lia).
    rewrite land_shl_mask by lia. rewrite Z.shiftr_div_pow2 by lia.
    set (x := (v / 2 ^ (rem - tw)) mod 2 ^ tw).
    assert (0 <= x < 2 ^ tw) as Hx by (apply mod_pow2_range; lia).
    assert (2 ^ tw <= 2 ^ 8) as H8 by (apply pow2_le; lia). change (2 ^ 8) with 256 in H8.
    rewrite (wrap_id 8 x) by (change (2 ^ 8) with 256; lia).
    assert (m_pos w = tw + p') as Epos by (unfold p'; lia).
    assert (2 ^ m_pos w = 2 ^ tw * 2 ^ p') as Epow by (rewrite Epos; apply Zpow_plus; lia).
    pose proof (pow2_gt0 p' ltac:(lia)) as Hpp. pose proof (pow2_gt0 tw ltac:(lia)) as Htw.
    set (q := m_cur w / 2 ^ m_pos w).
    assert (m_cur w = q * 2 ^ m_pos w) as Ecur.
    { pose proof (Z.div_mod (m_cur w) (2 ^ m_pos w) ltac:(lia)). unfold q. lia. }
    assert (0 <= x * 2 ^ p' < 2 ^ m_pos w) as Hxp by (rewrite Epow; nia).
    assert (2 ^ m_pos w <= 2 ^ 8) as Hm8 by (apply pow2_le; lia). change (2 ^ 8) with 256 in Hm8.
    rewrite Z.shiftl_mul_pow2 by lia. rewrite (wrap_id 8 (x * 2 ^ p')) by (change (2 ^ 8) with 256; lia).
    assert (Z.lor (m_cur w) (x * 2 ^ p') = q * 2 ^ m_pos w + x * 2 ^ p') as ELor.
    { rewrite Z.lor_comm, Ecur. rewrite lor_disjoint by lia. lia. }
    rewrite ELor. set (cur := q * 2 ^ m_pos w + x * 2 ^ p').
    assert (cur = (q * 2 ^ tw + x) * 2 ^ p') as Ecur' by (unfold cur; rewrite Epow; lia).
    assert (0 <= q) as Hq0 by (apply Z.div_pos; lia).
    assert (256 = 2 ^ (8 - m_pos w) * 2 ^ m_pos w) as E256.
    { rewrite <- Zpow_plus by lia. replace (8 - m_pos w + m_pos w) with 8 by lia. reflexivity. }
    assert (q < 2 ^ (8 - m_pos w)) as Hq1.
    { apply Z.div_lt_upper_bound; lia. }
    assert (0 <= cur < 256) as Hcur.
    { unfold cur. split; [nia|]. rewrite E256.
      assert (q * 2 ^ m_pos w + 2 ^ m_pos w <= 2 ^ (8 - m_pos w) * 2 ^ m_pos w) by nia. lia. }
    assert (msb (8 - p') (cur / 2 ^ p') = msb (8 - m_pos w) q ++ msb tw x) as Ebits.
    { rewrite Ecur', Z.div_mul by lia. replace (8 - p') with ((8 - m_pos w) + tw) by lia.
      apply msb_cat; lia. }
    assert (msb rem v = msb tw x ++ msb (rem - tw) v) as Erem.
    { replace rem with (tw + (rem - tw)) at 1 by lia. rewrite msb_split by lia. f_equal.
      unfold x. rewrite msb_mod by lia. reflexivity. }
    rewrite Erem, !app_assoc. rewrite <- (app_assoc (bytes_msb l)), <- Ebits.
    apply IH; [|lia].
    destruct (Z.eqb_spec p' 0) as [P0|PN].
    + destruct (push_rep pre (m_buf w) seg l cur Hbuf Hu Hb Hcur) as (seg' & E1 & E2 & E3).
      exists seg', (l ++ [cur]). cbn [m_buf m_pos m_cur]. rewrite P0.
      split; [exact E1|]. split; [exact E2|]. split; [exact E3|]. split; [lia|]. split; [lia|].
      split; [reflexivity|]. change (8 - 8) with 0. rewrite msb_0, app_nil_r.
      rewrite bytes_msb_app, bytes_msb_cons. cbn [bytes_msb flat_map]. rewrite app_nil_r.
      change (8 - 0) with 8. change (2 ^ 0) with 1. rewrite Z.div_1_r. reflexivity.
    + exists seg, l. cbn [m_buf m_pos m_cur].
      split; [exact Hbuf|]. split; [exact Hu|]. split; [exact Hb|]. split; [lia|]. split; [lia|].
      split; [rewrite Ecur'; apply Z.mod_mul; lia|]. reflexivity.
Qed.

Lemma m_write_spec pre w bits v n : m_rep pre w bits -> 0 <= n -> m_rep pre (m_write w v n) (bits ++ msb n v).
Proof. intros. apply m_loop_spec; auto. lia. Qed.

Lemma m_flush_spec pre w bits : m_rep pre w bits -> m_rep pre (m_flush w) (pad_ones bits).
Proof.
  intros Hw. pose proof (m_rep_len _ _ _ Hw) as HL. unfold pad_ones, m_flush.
  assert (Z.of_nat ((8 - length bits mod 8) mod 8) = m_pos w mod 8) as EL.
  { destruct Hw as (seg & l & _ & _ & _ & Hp & _). clear -HL Hp.
    rewrite Nat2Z.inj_mod, Nat2Z.inj_sub.
    2:{ pose proof (Nat.mod_upper_bound (length bits) 8 ltac:(lia)). lia. }
    rewrite Nat2Z.inj_mod. change (Z.of_nat 8) with 8. rewrite HL. clear HL.
    assert (m_pos w = 8 \/ m_pos w < 8) as [E|E] by lia.
    - rewrite E. reflexivity.
    - rewrite (Z.mod_small (8 - m_pos w)) by lia. f_equal. lia. }
  destruct (Z.ltb_spec (m_pos w) 8) as [H|H].
  - rewrite Z.mod_small in EL by (destruct Hw as (? & ? & ? & ? & ? & Hp & _); lia).
    replace ((8 - length bits mod 8) mod 8)%nat with (Z.to_nat (m_pos w)) by lia.
    destruct Hw as (seg & l & Hbuf & Hu & Hb & Hp & Hc & Hm & ->).
    assert (2 ^ m_pos w <= 2 ^ 7) as H7 by (apply pow2_le; lia). change (2 ^ 7) with 128 in H7.
    pose proof (pow2_gt0 (m_pos w) ltac:(lia)) as Hpp.
    rewrite shiftl1 by lia. rewrite wrap_id by (change (2 ^ 8) with 256; lia).
    set (q := m_cur w / 2 ^ m_pos w) in *.
    assert (m_cur w = q * 2 ^ m_pos w) as Ecur.
    { pose proof (Z.div_mod (m_cur w) (2 ^ m_pos w) ltac:(lia)). unfold q. lia. }
    assert (Z.lor (m_cur w) (2 ^ m_pos w - 1) = q * 2 ^ m_pos w + (2 ^ m_pos w - 1)) as ELor.
    { rewrite Z.lor_comm, Ecur. rewrite lor_disjoint by lia. lia. }
    rewrite ELor.
    assert (256 = 2 ^ (8 - m_pos w) * 2 ^ m_pos w) as E256.
    { rewrite <- Zpow_plus by lia. replace (8 - m_pos w + m_pos w) with 8 by lia. reflexivity. }
    assert (0 <= q) as Hq0 by (apply Z.div_pos; lia).
    assert (q < 2 ^ (8 - m_pos w)) as Hq1 by (apply Z.div_lt_upper_bound; lia).
    set (cur := q * 2 ^ m_pos w + (2 ^ m_pos w - 1)).
    assert (0 <= cur < 256) as Hcur.
    { unfold cur. split; [nia|]. rewrite E256.
      assert (q * 2 ^ m_pos w + 2 ^ m_pos w <= 2 ^ (8 - m_pos w) * 2 ^ m_pos w) by nia. lia. }
    destruct (push_rep pre (m_buf w) seg l cur Hbuf Hu Hb Hcur) as (seg' & E1 & E2 & E3).
    exists seg', (l ++ [cur]). cbn [m_buf m_pos m_cur].
    split; [exact E1|]. split; [exact E2|]. split; [exact E3|]. split; [lia|]. split; [lia|].
    split; [reflexivity|]. change (8 - 8) with 0. rewrite msb_0, app_nil_r.
    rewrite bytes_msb_app, bytes_msb_cons. cbn [bytes_msb flat_map]. rewrite app_nil_r.
    rewrite <- app_assoc. f_equal. rewrite <- msb_ones by lia.
    rewrite <- msb_cat by lia. f_equal; unfold cur; lia.
  - assert (m_pos w = 8) as E8 by (destruct Hw as (? & ? & ? & ? & ? & Hp & _); lia).
    rewrite E8 in EL. change (8 mod 8) with 0 in EL.
    replace ((8 - length bits mod 8) mod 8)%nat with 0%nat by lia. cbn [repeat]. rewrite app_nil_r. exact Hw.
Qed.

Lemma pad_ones_len bits : exists k, length (pad_ones bits) = (8 * k)%nat.
Proof.
  unfold pad_ones. exists ((length bits + (8 - length bits mod 8) mod 8) / 8)%nat.
  rewrite app_length, repeat_length.
  assert (forall n, (n + (8 - n mod 8) mod 8 = 8 * ((n + (8 - n mod 8) mod 8) / 8))%nat) as H.
  { intros n. apply Nat.div_exact; [lia|]. rewrite Nat.add_mod_idemp_r by lia.
    pose proof (Nat.div_mod n 8 ltac:(lia)). pose proof (Nat.mod_upper_bound n 8 ltac:(lia)).
    replace (n + (8 - n mod 8))%nat with ((n / 8 + 1) * 8)%nat by lia. apply Nat.mod_mul. lia. }
  apply H.
Qed.

(** after a flush the buffer holds exactly the padded bits *)
Lemma m_finish_spec pre w bits : m_rep pre w bits ->
  exists seg l, m_finish w = pre ++ seg /\ bytes seg /\ unstuff seg = Some l /\ bytes_msb l = pad_ones bits.
Proof.
  intros Hw. pose proof (m_flush_spec _ _ _ Hw) as H. unfold m_finish.
  pose proof (m_rep_len _ _ _ H) as HL. destruct (pad_ones_len bits) as [k Hk].
  destruct H as (seg & l & Hbuf & Hu & Hb & Hp & Hc & Hm & E).
  exists seg, l. split; [exact Hbuf|]. split; [exact Hb|]. split; [exact Hu|].
  assert (m_pos (m_flush w) = 8) as E8.
  { rewrite Hk in HL. replace (Z.of_nat (8 * k)) with (Z.of_nat k * 8) in HL by lia.
    rewrite Z.mod_mul in HL by lia. pose proof (Z.mod_small (8 - m_pos (m_flush w)) 8). lia. }
  rewrite E8 in E. change (8 - 8) with 0 in E. rewrite msb_0, app_nil_r in E. auto.
Qed.

Lemma m_steps_spec pre ops w bits : m_rep pre w bits -> Forall (wop_ok 32) ops ->
  m_rep pre (fold_left m_step ops w) (script_bits bits ops).
Proof.
  revert w bits; induction ops as [|o ops IH]; intros w bits Hw Ho; [exact Hw|].
  apply Forall_cons_iff in Ho as [Ho Ht]. cbn [fold_left script_bits]. destruct o as [v n|]; apply IH; auto; cbn [m_step].
  - apply m_write_spec; auto. cbn in Ho. lia.
  - apply m_flush_spec; auto.
Qed.

Lemma m_script_ok ops : Forall (wop_ok 32) ops ->
  exists l, bytes (m_script ops) /\ stuffed (m_script ops) /\ unstuff (m_script ops) = Some l /\
            bytes_msb l = pad_ones (script_bits [] ops).
Proof.
  intros H. destruct (m_finish_spec [] _ _ (m_steps_spec [] ops m_new [] m_rep_new H)) as (seg & l & E & Hb & Hu & Hl).
  unfold m_script. rewrite E. cbn [app]. exists l. split; [exact Hb|]. split; [apply (unstuff_stuffed _ _ Hu)|].
  split; [exact Hu|]. exact Hl.
Qed.

(** ** MsbBitReader on marker-free data; at most [B] bits are buffered *)
Definition mr_repB (B : Z) (r : mr) (bits : list bool) : Prop :=
  exists l, unstuff (mr_rest r) = Some l /\ bytes (mr_rest r) /\ 0 <= mr_n r <= B /\ 0 <= mr_buf r < 2 ^ mr_n r /\
    bits = msb (mr_n r) (mr_buf r) ++ bytes_msb l.
Notation mr_rep := (mr_repB 31).

Lemma mr_rep_new data l : bytes data -> unstuff data = Some l -> mr_rep (mr_new data) (bytes_msb l).
Proof. intros Hb Hu. exists l. cbn. repeat split; auto; lia. Qed.
Lemma mr_rep_length B r bits : mr_repB B r bits -> mr_n r <= zlen bits.
Proof. intros (l & _ & _ & Hn & _ & ->). rewrite zlen_app. pose proof (zlen_nonneg (bytes_msb l)). unfold zlen at 1. rewrite msb_length. lia. Qed.

Lemma mr_fill_spec B fuel r n bits : mr_repB B r bits -> 0 <= n <= 25 -> n + 7 <= B <= 32 -> (length (mr_rest r) < fuel)%nat ->
  if n <=? zlen bits
  then exists r', mr_fill fuel r n = (Ok tt, r') /\ mr_repB B r' bits /\ n <= mr_n r'
  else exists r', mr_fill fuel r n = (Err EInvalidDecode, r') /\ mr_repB B r' bits.
Proof.
  intros Hr0' Hn HB. revert r Hr0'; induction fuel as [|f IH]; intros r Hr Hf; [lia|].
  cbn [mr_fill]. destruct (Z.ltb_spec (mr_n r) n) as [Hlt|Hge].
  2:{ pose proof (mr_rep_length _ _ _ Hr). destruct (Z.leb_spec n (zlen bits)); [|lia]. exists r. auto. }
  destruct Hr as (l & Hu & Hb & Hc & Hv & E).
  assert (forall b rest' l', is_byte b -> bytes rest' -> unstuff rest' = Some l' -> l = b :: l' ->
    mr_repB B (mkmr rest' (Z.lor (wrap 32 (Z.shiftl (mr_buf r) 8)) b) (mr_n r + 8)) bits) as Step.
  { intros b rest' l' Hbb Hrb Hu' ->. exists l'. cbn [mr_rest mr_n mr_buf]. split; [exact Hu'|]. split; [exact Hrb|]. split; [lia|].
    assert (2 ^ (mr_n r + 8) = 2 ^ mr_n r * 256) as EP by (rewrite Zpow_plus by lia; reflexivity).
    assert (2 ^ (mr_n r + 8) <= 2 ^ 32) as HP by (apply pow2_le; lia).
    rewrite Z.shiftl_mul_pow2 by lia. change (2 ^ 8) with 256. unfold is_byte in Hbb.
    rewrite wrap_id by lia.
    assert (Z.lor (mr_buf r * 256) b = mr_buf r * 256 + b) as ->.
    { rewrite Z.lor_comm. change 256 with (2 ^ 8). rewrite lor_disjoint by (change (2 ^ 8) with 256; lia). lia. }
    split; [lia|]. rewrite E, bytes_msb_cons, app_assoc. f_equal.
    change 256 with (2 ^ 8). rewrite msb_cat by (change (2 ^ 8) with 256; lia). reflexivity. }
  apply unstuff_inv in Hu as [(Er & ->)|[(t & y & Er & -> & Ht)|(c & t & y & N & Er & -> & Ht)]].
  - rewrite Er. cbn [mr_next].
    destruct (Z.leb_spec n (zlen bits)) as [HL|HL].
    { rewrite E, zlen_app in HL. unfold zlen in HL. rewrite msb_length in HL. cbn in HL. lia. }
    eexists; split; [reflexivity|]. exists []. cbn [mr_rest mr_n mr_buf]. repeat split; auto; try lia. constructor.
  - rewrite Er in *. cbn [mr_next]. change (255 =? 255) with true. change (0 =? 0) with true. cbn iota.
    cbn [mr_rest mr_n mr_buf]. apply Forall_cons_iff in Hb as [Hb1 Hb]. apply Forall_cons_iff in Hb as [Hb2 Hb].
    apply IH; auto.
    + apply (Step 255 t y); auto.
    + cbn [mr_rest length] in *. lia.
  - rewrite Er in *. cbn [mr_next]. destruct (Z.eqb_spec c 255); [lia|].
    cbn [mr_rest mr_n mr_buf]. apply Forall_cons_iff in Hb as [Hb1 Hb].
    apply IH; auto.
    + apply (Step c t y); auto.
    + cbn [mr_rest length] in *. lia.
Qed.

Lemma mr_peekB_spec B r n bits : mr_repB B r bits -> 0 <= n <= 25 -> n + 7 <= B <= 31 + Z.min n 1 ->
  if n <=? zlen bits
  then exists r', mr_peek r n = (Ok (mval (firstn (Z.to_nat n) bits)), r') /\ mr_repB B r' bits /\ n <= mr_n r'
  else exists r', mr_peek r n = (Err EInvalidDecode, r') /\ mr_repB B r' bits.
Proof.
  intros Hr Hn HB. unfold mr_peek, mr_ensure. destruct (Z.gtb_spec n 25); [lia|].
  pose proof (mr_fill_spec B (S (length (mr_rest r))) r n bits Hr Hn ltac:(lia) ltac:(lia)) as H0.
  destruct (Z.leb_spec n (zlen bits)) as [HL|HL].
  - destruct H0 as (r' & -> & Hr' & Hn'). exists r'.
    assert (mr_n r' <= B) by (destruct Hr' as (? & ? & ? & ? & _); lia).
    destruct (Z.geb_spec (mr_n r' - n) 32) as [G|G]; [lia|].
    split; [|auto]. f_equal. f_equal.
    destruct Hr' as (l & _ & _ & Hc & Hv & ->).
    rewrite land_shl_mask by lia. rewrite Z.shiftr_div_pow2 by lia.
    rewrite msb_firstn by lia. rewrite mval_msb by lia. reflexivity.
  - destruct H0 as (r' & -> & Hr'). exists r'. auto.
Qed.
Lemma mr_peek_spec r n bits : mr_rep r bits -> 0 <= n <= 24 ->
  if n <=? zlen bits
  then exists r', mr_peek r n = (Ok (mval (firstn (Z.to_nat n) bits)), r') /\ mr_rep r' bits /\ n <= mr_n r'
  else exists r', mr_peek r n = (Err EInvalidDecode, r') /\ mr_rep r' bits.
Proof. intros. apply mr_peekB_spec; auto; lia. Qed.

Lemma mr_consume_spec B r n bits : mr_repB B r bits -> 0 <= n <= mr_n r -> B <= 31 + n ->
  mr_rep (mr_consume r n) (skipn (Z.to_nat n) bits).
Proof.
  intros (l & Hu & Hb & Hc & Hv & ->) Hn HB. exists l. unfold mr_consume. cbn [mr_rest mr_n mr_buf].
  split; [exact Hu|]. split; [exact Hb|]. split; [lia|].
  destruct (Z.ltb_spec (mr_n r - n) 32); [|lia].
  assert (2 ^ (mr_n r - n) <= 2 ^ 31) by (apply pow2_le; lia).
  pose proof (pow2_gt0 (mr_n r - n) ltac:(lia)).
  rewrite shiftl1 by lia. rewrite wrap_id by (change (2 ^ 31) with 2147483648 in *; change (2 ^ 32) with 4294967296; lia).
  rewrite land_mask by lia. split; [apply mod_pow2_range; lia|].
  rewrite msb_skipn by lia. rewrite msb_mod by lia. reflexivity.
Qed.

Lemma mr_read_spec r n bits : mr_rep r bits -> 0 <= n <= 25 ->
  if n <=? zlen bits
  then exists r', mr_read r n = (Ok (mval (firstn (Z.to_nat n) bits)), r') /\ mr_rep r' (skipn (Z.to_nat n) bits)
  else exists r', mr_read r n = (Err EInvalidDecode, r') .
Proof.
  intros Hr Hn. unfold mr_read.
  assert (mr_repB (31 + Z.min n 1) r bits) as HrB.
  { destruct Hr as (l & Hu & Hb & Hc & Hv & E). exists l. repeat split; auto; lia. }
  pose proof (mr_peekB_spec _ r n bits HrB Hn ltac:(lia)) as H.
  destruct (Z.leb_spec n (zlen bits)).
  - destruct H as (r' & -> & Hr' & Hn'). eexists; split; [reflexivity|].
    apply (mr_consume_spec (31 + Z.min n 1)); auto; lia.
  - destruct H as (r' & -> & Hr'). eexists; reflexivity.
Qed.

Lemma mr_read_msb r n v rest : mr_rep r (msb n v ++ rest) -> 0 <= n <= 25 -> 0 <= v < 2 ^ n ->
  exists r', mr_read r n = (Ok v, r') /\ mr_rep r' rest.
Proof.
  intros Hr Hn Hv. pose proof (mr_read_spec r n _ Hr Hn) as H.
  assert (zlen (msb n v ++ rest) = n + zlen rest) as EL by (rewrite zlen_app; unfold zlen at 1; rewrite msb_length; lia).
  pose proof (zlen_nonneg rest).
  destruct (Z.leb_spec n (zlen (msb n v ++ rest))); [|lia].
  destruct H as (r' & -> & Hr'). exists r'.
  rewrite msb_firstn in * by lia. rewrite msb_skipn in Hr' by lia.
  rewrite Z.sub_diag in *. change (2 ^ 0) with 1. rewrite Z.div_1_r, mval_msb, Z.mod_small by lia. auto.
Qed.

Fixpoint fields_bits (ops : list (Z * Z)) : list bool :=
  match ops with [] => [] | (v, n) :: t => msb n v ++ fields_bits t end.
Lemma mr_script_spec ops r rest : Forall (fun p => 0 <= snd p <= 25 /\ 0 <= fst p < 2 ^ snd p) ops ->
  mr_rep r (fields_bits ops ++ rest) -> mr_script r ops = Ok (map fst ops).
Proof.
  revert r; induction ops as [|(v, n) t IH]; intros r H Hr; [reflexivity|].
  apply Forall_cons_iff in H as [(H1 & H2) Ht]. cbn [fst snd fields_bits] in *. rewrite <- app_assoc in Hr.
  destruct (mr_read_msb r n v _ Hr H1 H2) as (r' & E & Hr'). cbn [mr_script map fst]. rewrite E.
  rewrite (IH r' Ht Hr'). reflexivity.
Qed.
Lemma fields_script acc ops : script_bits acc (map (fun p => WBits (fst p) (snd p)) ops) = acc ++ fields_bits ops.
Proof.
  revert acc; induction ops as [|(v, n) t IH]; intros acc; cbn [map script_bits fields_bits fst snd]; [rewrite app_nil_r; auto|].
  rewrite IH, app_assoc. reflexivity.
Qed.
Lemma msb_roundtrip ops : Forall (fun p => 0 <= snd p <= 25 /\ 0 <= fst p < 2 ^ snd p) ops ->
  mr_script (mr_new (m_script (map (fun p => WBits (fst p) (snd p)) ops))) ops = Ok (map fst ops).
Proof.
  intros H. assert (Forall (wop_ok 32) (map (fun p => WBits (fst p) (snd p)) ops)) as Ho.
  { apply Forall_map. eapply Forall_impl; [|exact H]. intros p Hp. cbv beta in Hp. cbn. lia. }
  destruct (m_script_ok _ Ho) as (l & Hb & _ & Hu & Hl).
  eapply mr_script_spec; auto.
  rewrite fields_script in Hl. unfold pad_ones in Hl. cbn [app] in Hl.
  pose proof (mr_rep_new _ l Hb Hu) as Hr. rewrite Hl in Hr. exact Hr.
Qed.
