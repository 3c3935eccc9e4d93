(** LSB-first writers and reader refine bit lists. *)
From Verif Require Import Base BitsModel.

Lemma shiftl1 n : 0 <= n -> Z.shiftl 1 n = 2 ^ n.
Proof. intros; rewrite Z.shiftl_mul_pow2 by auto; lia. Qed.
Lemma land_shl_mask v n : 0 <= n -> Z.land v (Z.shiftl 1 n - 1) = v mod 2 ^ n.
Proof. intros; rewrite shiftl1 by auto; apply land_mask; auto. Qed.
Lemma pow2_le a b : 0 <= a <= b -> 2 ^ a <= 2 ^ b.
Proof. intros; apply Z.pow_le_mono_r; lia. Qed.
Lemma pow2_gt0 a : 0 <= a -> 0 < 2 ^ a.
Proof. intros; apply Z.pow_pos_nonneg; lia. Qed.
Lemma mod_pow2_range v n : 0 <= n -> 0 <= v mod 2 ^ n < 2 ^ n.
Proof. intros; apply Z.mod_pos_bound; apply pow2_gt0; auto. Qed.

(** [bits_of] with a Z count *)
Definition zbits (n v : Z) : list bool := bits_of (Z.to_nat n) v.
Lemma zbits_length n v : length (zbits n v) = Z.to_nat n.
Proof. apply bits_of_length. Qed.
Lemma zbits_cat n m a b : 0 <= n -> 0 <= m -> 0 <= a < 2 ^ n ->
  zbits (n + m) (a + b * 2 ^ n) = zbits n a ++ zbits m b.
Proof.
  intros Hn Hm Ha. unfold zbits. rewrite Z2Nat.inj_add by auto.
  rewrite (Z.mul_comm b). replace (2 ^ n) with (2 ^ Z.of_nat (Z.to_nat n)) by (f_equal; lia).
  apply bits_of_cat. rewrite Z2Nat.id by auto. auto.
Qed.
Lemma zbits_split n m v : 0 <= n -> 0 <= m -> zbits (n + m) v = zbits n v ++ zbits m (v / 2 ^ n).
Proof.
  intros. unfold zbits. rewrite Z2Nat.inj_add by auto. rewrite bits_of_app.
  rewrite Z2Nat.id by auto. reflexivity.
Qed.
Lemma zbits_mod n v : 0 <= n -> zbits n (v mod 2 ^ n) = zbits n v.
Proof. intros. unfold zbits. rewrite <- (bits_of_mod (Z.to_nat n) v). rewrite Z2Nat.id by auto. reflexivity. Qed.
Lemma zbits_0 v : zbits 0 v = [].
Proof. reflexivity. Qed.
Lemma val_zbits n v : 0 <= n -> val_of (zbits n v) = v mod 2 ^ n.
Proof. intros. unfold zbits. rewrite val_of_bits_of, Z2Nat.id by auto. reflexivity. Qed.

(** ** BitWriter *)
Definition bw_inv (w : bw) : Prop :=
  0 <= bw_pos w < 8 /\ 0 <= bw_cur w < 2 ^ bw_pos w /\ bytes (bw_buf w).
Definition bw_bits (w : bw) : list bool := bytes_bits (bw_buf w) ++ zbits (bw_pos w) (bw_cur w).

Lemma bw_new_inv : bw_inv bw_new.
Proof. unfold bw_inv, bw_new; cbn. repeat split; try lia. constructor. Qed.

Lemma bw_loop_spec fuel w v rem :
  bw_inv w -> 0 <= rem <= Z.of_nat fuel ->
  bw_inv (bw_loop fuel w v rem) /\ bw_bits (bw_loop fuel w v rem) = bw_bits w ++ zbits rem v.
Proof.
  revert w v rem; induction fuel as [|f IH]; intros w v rem Hi Hr.
  - assert (rem = 0) as -> by lia. cbn. rewrite app_nil_r. auto.
  - cbn [bw_loop]. destruct (Z.gtb_spec rem 0).
    2:{ assert (rem = 0) as -> by lia. rewrite zbits_0, app_nil_r. auto. }
    destruct Hi as (Hp & Hc & Hb).
    set (t := Z.min rem (8 - bw_pos w)) in *. assert (1 <= t <= 8 - bw_pos w) by lia.
    assert (t <= rem) by lia.
    rewrite land_shl_mask by lia.
    pose proof (mod_pow2_range v t ltac:(lia)) as Hm.
    assert (2 ^ (bw_pos w + t) <= 2 ^ 8) as H8 by (apply pow2_le; lia).
    assert (2 ^ t <= 2 ^ 8) by (apply pow2_le; lia).
    rewrite Zpow_plus in H8 by lia.
    rewrite (wrap_id 8 (v mod 2 ^ t)) by lia.
    rewrite Z.shiftl_mul_pow2 by lia.
    pose proof (pow2_gt0 (bw_pos w) ltac:(lia)).
    rewrite wrap_id by nia. rewrite lor_disjoint by lia.
    set (cur := bw_cur w + v mod 2 ^ t * 2 ^ bw_pos w) in *.
    assert (0 <= cur < 2 ^ (bw_pos w + t)) as Hcur.
    { rewrite Zpow_plus by lia. unfold cur. nia. }
    assert (zbits (bw_pos w + t) cur = zbits (bw_pos w) (bw_cur w) ++ zbits t v) as Eb.
    { unfold cur. rewrite zbits_cat by lia. rewrite zbits_mod by lia. reflexivity. }
    assert (zbits rem v = zbits t v ++ zbits (rem - t) (Z.shiftr v t)) as Er.
    { rewrite Z.shiftr_div_pow2 by lia. rewrite <- zbits_split by lia. f_equal; lia. }
    destruct (Z.eqb_spec (bw_pos w + t) 8) as [E8|E8].
    + destruct (IH (mkbw (bw_buf w ++ [cur]) 0 0) (Z.shiftr v t) (rem - t)) as [I1 I2].
      * unfold bw_inv; cbn. repeat split; try lia. apply bytes_app; split; auto.
        constructor; [|constructor]. rewrite E8 in Hcur. exact Hcur.
      * lia.
      * split; [exact I1|]. rewrite I2. unfold bw_bits. cbn [bw_buf bw_pos bw_cur].
        rewrite zbits_0, app_nil_r, bytes_bits_app. cbn [bytes_bits flat_map]. rewrite app_nil_r.
        rewrite E8 in Eb. unfold zbits in Eb at 1. change (Z.to_nat 8) with 8%nat in Eb.
        rewrite Eb, Er. rewrite !app_assoc. reflexivity.
    + destruct (IH (mkbw (bw_buf w) cur (bw_pos w + t)) (Z.shiftr v t) (rem - t)) as [I1 I2].
      * unfold bw_inv; cbn. repeat split; try lia. auto.
      * lia.
      * split; [exact I1|]. rewrite I2. unfold bw_bits. cbn [bw_buf bw_pos bw_cur].
        rewrite Eb, Er. rewrite !app_assoc. reflexivity.
Qed.

Lemma bw_write_spec w v n : bw_inv w -> 0 <= n ->
  bw_inv (bw_write_bits w v n) /\ bw_bits (bw_write_bits w v n) = bw_bits w ++ zbits n v.
Proof. intros; apply bw_loop_spec; auto; lia. Qed.

Lemma bw_finish_spec w : bw_inv w ->
  bytes (bw_finish w) /\
  bytes_bits (bw_finish w) = bw_bits w ++ repeat false (Z.to_nat ((- bw_pos w) mod 8)).
Proof.
  intros (Hp & Hc & Hb). unfold bw_finish, bw_flush, bw_bits.
  destruct (Z.gtb_spec (bw_pos w) 0).
  - cbn [bw_buf]. split.
    + apply bytes_app; split; auto. constructor; [|constructor]. unfold is_byte.
      assert (2 ^ bw_pos w <= 2 ^ 8) by (apply pow2_le; lia). lia.
    + rewrite bytes_bits_app. cbn [bytes_bits flat_map]. rewrite app_nil_r, <- app_assoc. f_equal.
      replace ((- bw_pos w) mod 8) with (8 - bw_pos w) by lia.
      change (bits_of 8 (bw_cur w)) with (zbits 8 (bw_cur w)).
      replace 8 with (bw_pos w + (8 - bw_pos w)) at 1 by lia.
      rewrite zbits_split by lia. f_equal. rewrite Z.div_small by lia.
      unfold zbits. generalize (Z.to_nat (8 - bw_pos w)). induction n; cbn; auto.
      f_equal. exact IHn.
  - assert (bw_pos w = 0) as E by lia. rewrite E. cbn. rewrite !app_nil_r. auto.
Qed.

(** ** BitWriter64 *)
Definition b64_inv (w : bw64) : Prop :=
  0 <= b64_n w < 8 /\ 0 <= b64_acc w < 2 ^ b64_n w /\ bytes (b64_buf w).
Definition b64_bits (w : bw64) : list bool := bytes_bits (b64_buf w) ++ zbits (b64_n w) (b64_acc w).

Lemma b64_new_inv : b64_inv b64_new.
Proof. unfold b64_inv, b64_new; cbn. repeat split; try lia. constructor. Qed.

Lemma b64_drain_spec fuel buf acc n :
  bytes buf -> 0 <= n <= Z.of_nat fuel -> 0 <= acc < 2 ^ n ->
  b64_inv (b64_drain fuel buf acc n) /\
  b64_bits (b64_drain fuel buf acc n) = bytes_bits buf ++ zbits n acc.
Proof.
  revert buf acc n; induction fuel as [|f IH]; intros buf acc n Hb Hn Ha.
  - assert (n = 0) as -> by lia. cbn. unfold b64_inv; cbn. repeat split; auto; lia.
  - cbn [b64_drain]. destruct (Z.geb_spec n 8).
    + rewrite Z.shiftr_div_pow2 by lia. destruct (IH (buf ++ [wrap 8 acc]) (acc / 2 ^ 8) (n - 8)) as [I1 I2].
      * apply bytes_app; split; auto. constructor; [apply wrap8_byte|constructor].
      * lia.
      * split; [apply Z.div_pos; lia|]. apply Z.div_lt_upper_bound; [lia|].
        rewrite <- Zpow_plus by lia. replace (8 + (n - 8)) with n by lia. lia.
      * split; [exact I1|]. rewrite I2. rewrite bytes_bits_app. cbn [bytes_bits flat_map].
        rewrite app_nil_r, <- app_assoc. f_equal. replace n with (8 + (n - 8)) at 2 by lia.
        rewrite zbits_split by lia. f_equal.
        change (bits_of 8 (wrap 8 acc)) with (zbits 8 (acc mod 2 ^ 8)). apply zbits_mod; lia.
    + unfold b64_inv, b64_bits; cbn. repeat split; auto; lia.
Qed.

Lemma b64_write_spec w v n : b64_inv w -> 0 <= n <= 31 ->
  b64_inv (b64_write w v n) /\ b64_bits (b64_write w v n) = b64_bits w ++ zbits n v.
Proof.
  intros (Hn & Ha & Hb) H31. unfold b64_write.
  rewrite (Z.mod_small n) by lia. rewrite shiftl1 by lia.
  assert (2 ^ n <= 2 ^ 31) by (apply pow2_le; lia). pose proof (pow2_gt0 n ltac:(lia)).
  rewrite (wrap_id 32 (2 ^ n)) by lia. rewrite (wrap_id 32 (2 ^ n - 1)) by lia.
  rewrite land_mask by lia. pose proof (mod_pow2_range v n ltac:(lia)).
  assert (2 ^ b64_n w <= 2 ^ 8) by (apply pow2_le; lia). pose proof (pow2_gt0 (b64_n w) ltac:(lia)).
  rewrite Z.shiftl_mul_pow2 by lia. rewrite wrap_id by nia. rewrite lor_disjoint by lia.
  destruct (b64_drain_spec (Z.to_nat (b64_n w + n)) (b64_buf w)
             (b64_acc w + v mod 2 ^ n * 2 ^ b64_n w) (b64_n w + n)) as [I1 I2]; auto.
  - lia.
  - rewrite Zpow_plus by lia. nia.
  - split; [exact I1|]. rewrite I2. unfold b64_bits. rewrite <- app_assoc. f_equal.
    rewrite zbits_cat by lia. rewrite zbits_mod by lia. reflexivity.
Qed.

Lemma b64_finish_spec w : b64_inv w ->
  bytes (b64_finish w) /\
  bytes_bits (b64_finish w) = b64_bits w ++ repeat false (Z.to_nat ((- b64_n w) mod 8)).
Proof.
  intros (Hp & Hc & Hb). unfold b64_finish, b64_flush, b64_bits.
  destruct (Z.gtb_spec (b64_n w) 0).
  - cbn [b64_buf]. split.
    + apply bytes_app; split; auto. constructor; [|constructor]. apply wrap8_byte.
    + rewrite bytes_bits_app. cbn [bytes_bits flat_map]. rewrite app_nil_r, <- app_assoc. f_equal.
      replace ((- b64_n w) mod 8) with (8 - b64_n w) by lia.
      change (bits_of 8 (wrap 8 (b64_acc w))) with (zbits 8 (b64_acc w mod 2 ^ 8)).
      rewrite zbits_mod by lia.
      replace 8 with (b64_n w + (8 - b64_n w)) at 1 by lia.
      rewrite zbits_split by lia. f_equal. rewrite Z.div_small by lia.
      unfold zbits. generalize (Z.to_nat (8 - b64_n w)). induction n; cbn; auto.
      f_equal. exact IHn.
  - assert (b64_n w = 0) as E by lia. rewrite E. cbn. rewrite !app_nil_r. auto.
Qed.

(** ** BitReader *)
Definition br_inv (r : br) : Prop :=
  0 <= br_n r <= 40 /\ 0 <= br_buf r < 2 ^ br_n r /\ bytes (br_rest r).
Definition br_bits (r : br) : list bool := zbits (br_n r) (br_buf r) ++ bytes_bits (br_rest r).

Lemma br_new_inv data : bytes data -> br_inv (br_new data).
Proof. unfold br_inv, br_new; cbn. repeat split; try lia. auto. Qed.
Lemma br_new_bits data : br_bits (br_new data) = bytes_bits data.
Proof. reflexivity. Qed.

Lemma br_bits_length r : br_inv r -> Z.of_nat (length (br_bits r)) = br_n r + 8 * zlen (br_rest r).
Proof.
  intros (Hn & _). unfold br_bits, zlen. rewrite app_length, zbits_length, bytes_bits_length. lia.
Qed.

Lemma br_load rest b buf cnt : 0 <= cnt <= 31 -> 0 <= buf < 2 ^ cnt -> is_byte b ->
  let buf' := Z.lor buf (wrap 64 (Z.shiftl b cnt)) in
  0 <= buf' < 2 ^ (cnt + 8) /\ zbits (cnt + 8) buf' ++ bytes_bits rest = zbits cnt buf ++ bytes_bits (b :: rest).
Proof.
  intros Hc Hb Hbyte. unfold is_byte in Hbyte. cbn zeta.
  assert (2 ^ cnt <= 2 ^ 31) by (apply pow2_le; lia). pose proof (pow2_gt0 cnt ltac:(lia)).
  rewrite Z.shiftl_mul_pow2 by lia. rewrite wrap_id by nia. rewrite lor_disjoint by lia.
  split.
  - rewrite Zpow_plus by lia. change (2 ^ 8) with 256. nia.
  - rewrite zbits_cat by lia. rewrite bytes_bits_cons, <- app_assoc. reflexivity.
Qed.

Lemma br_fill_spec rest buf cnt n :
  br_inv (mkbr rest buf cnt) -> 0 <= n <= 32 ->
  if n <=? Z.of_nat (length (br_bits (mkbr rest buf cnt)))
  then exists r', br_fill rest buf cnt n = Ok r' /\ br_inv r' /\
       br_bits r' = br_bits (mkbr rest buf cnt) /\ n <= br_n r'
  else br_fill rest buf cnt n = Err EInvalidDecode.
Proof.
  revert buf cnt; induction rest as [|b rest IH]; intros buf cnt Hi Hn;
    rewrite (br_bits_length _ Hi); cbn [br_n br_rest br_fill].
  - rewrite zlen_nil. destruct (Z.leb_spec n (cnt + 8 * 0)); destruct (Z.ltb_spec cnt n); try lia; auto.
    eexists; repeat split; eauto; try apply Hi.
  - rewrite zlen_cons. pose proof (zlen_nonneg rest). destruct Hi as (Hc & Hb & Hr). cbn in Hc, Hb, Hr.
    inversion Hr; subst.
    destruct (Z.ltb_spec cnt n).
    + destruct (br_load rest b buf cnt) as [L1 L2]; auto; try lia.
      set (buf' := Z.lor buf (wrap 64 (Z.shiftl b cnt))) in *.
      assert (br_inv (mkbr rest buf' (cnt + 8))) as Hi'.
      { unfold br_inv; cbn. repeat split; auto; lia. }
      specialize (IH buf' (cnt + 8) Hi' Hn). rewrite (br_bits_length _ Hi') in IH. cbn [br_n br_rest] in IH.
      destruct (Z.leb_spec n (cnt + 8 + 8 * zlen rest)); destruct (Z.leb_spec n (cnt + 8 * (1 + zlen rest))); try lia; auto.
      destruct IH as (r' & E & I & B & L). exists r'. repeat split; auto; try apply I.
      rewrite B. unfold br_bits. cbn [br_n br_buf br_rest]. exact L2.
    + destruct (Z.leb_spec n (cnt + 8 * (1 + zlen rest))); [|lia].
      eexists; repeat split; eauto; cbn; auto; lia.
Qed.

Lemma firstn_zbits_app n m v l : 0 <= n <= m ->
  firstn (Z.to_nat n) (zbits m v ++ l) = zbits n v.
Proof.
  intros. replace m with (n + (m - n)) by lia. rewrite zbits_split by lia. rewrite <- app_assoc.
  rewrite firstn_app, zbits_length, Nat.sub_diag. cbn [firstn]. rewrite app_nil_r.
  rewrite firstn_all2; auto. rewrite zbits_length; lia.
Qed.
Lemma skipn_zbits_app n m v l : 0 <= n <= m ->
  skipn (Z.to_nat n) (zbits m v ++ l) = zbits (m - n) (v / 2 ^ n) ++ l.
Proof.
  intros. replace m with (n + (m - n)) at 1 by lia. rewrite zbits_split by lia. rewrite <- app_assoc.
  rewrite skipn_app, zbits_length, Nat.sub_diag. cbn [skipn].
  rewrite skipn_all2; [reflexivity|]. rewrite zbits_length; lia.
Qed.

Lemma br_consume_spec r n : br_inv r -> 0 <= n <= br_n r ->
  exists r', br_consume r n = Ok r' /\ br_inv r' /\ br_bits r' = skipn (Z.to_nat n) (br_bits r) /\
             br_n r' = br_n r - n.
Proof.
  intros (Hn & Hb & Hr) H. unfold br_consume. destruct (Z.leb_spec n (br_n r)); [|lia].
  eexists; split; [reflexivity|]. rewrite Z.shiftr_div_pow2 by lia. split; [|split]; [| |reflexivity].
  - unfold br_inv; cbn. repeat split; auto; try lia.
    + apply Z.div_pos; [lia|apply pow2_gt0; lia].
    + apply Z.div_lt_upper_bound; [apply pow2_gt0; lia|].
      rewrite <- Zpow_plus by lia. replace (n + (br_n r - n)) with (br_n r) by lia. lia.
  - unfold br_bits. cbn [br_n br_buf br_rest]. rewrite skipn_zbits_app by lia. reflexivity.
Qed.

Lemma br_read_spec r n : br_inv r -> 0 <= n <= 32 ->
  if n <=? Z.of_nat (length (br_bits r))
  then exists r', br_read r n = Ok (val_of (firstn (Z.to_nat n) (br_bits r)), r') /\ br_inv r' /\
       br_bits r' = skipn (Z.to_nat n) (br_bits r)
  else br_read r n = Err EInvalidDecode.
Proof.
  intros Hi Hn. destruct r as [rest buf cnt]. pose proof (br_fill_spec rest buf cnt n Hi Hn) as F.
  unfold br_read, br_peek, br_ensure. cbn [br_rest br_buf br_n].
  destruct (n <=? _); [|rewrite F; reflexivity].
  destruct F as (r1 & -> & I1 & B1 & L1). cbn [rbind].
  destruct (br_consume_spec r1 n I1 ltac:(lia)) as (r2 & -> & I2 & B2 & _). cbn [rbind].
  exists r2. split; [|split; auto; rewrite B2, B1; reflexivity].
  rewrite land_shl_mask by lia. rewrite <- B1. do 2 f_equal.
  unfold br_bits at 1. rewrite firstn_zbits_app by lia. rewrite val_zbits by lia.
  apply wrap_id. pose proof (mod_pow2_range (br_buf r1) n ltac:(lia)).
  assert (2 ^ n <= 2 ^ 32) by (apply pow2_le; lia). lia.
Qed.

Lemma br_fill_try_spec rest buf cnt n :
  br_inv (mkbr rest buf cnt) -> 0 <= n <= 32 ->
  br_inv (br_fill_try rest buf cnt n) /\
  br_bits (br_fill_try rest buf cnt n) = br_bits (mkbr rest buf cnt) /\
  Z.min n (br_n (br_fill_try rest buf cnt n)) = Z.min n (Z.of_nat (length (br_bits (mkbr rest buf cnt)))).
Proof.
  revert buf cnt; induction rest as [|b rest IH]; intros buf cnt Hi Hn;
    rewrite (br_bits_length _ Hi); cbn [br_n br_rest br_fill_try].
  - rewrite zlen_nil. destruct (Z.ltb_spec cnt n); repeat split; try apply Hi; cbn; lia.
  - rewrite zlen_cons. pose proof (zlen_nonneg rest). pose proof Hi as (Hc & Hb & Hr). cbn in Hc, Hb, Hr.
    inversion Hr; subst.
    destruct (Z.ltb_spec cnt n).
    + destruct (br_load rest b buf cnt) as [L1 L2]; auto; try lia.
      set (buf' := Z.lor buf (wrap 64 (Z.shiftl b cnt))) in *.
      assert (br_inv (mkbr rest buf' (cnt + 8))) as Hi'.
      { unfold br_inv; cbn. repeat split; auto; lia. }
      destruct (IH buf' (cnt + 8) Hi' Hn) as (I & B & M). rewrite (br_bits_length _ Hi') in M. cbn [br_n br_rest] in M.
      split; [exact I|]. split; [|lia]. rewrite B. exact L2.
    + split; [exact Hi|]. split; [reflexivity|]. cbn [br_n]. lia.
Qed.

Lemma br_try_peek_spec r n : br_inv r -> 0 <= n <= 32 ->
  exists r', br_try_peek r n = (val_of (firstn (Z.to_nat n) (br_bits r)),
                                Z.min n (Z.of_nat (length (br_bits r))), r') /\
    br_inv r' /\ br_bits r' = br_bits r /\ Z.min n (Z.of_nat (length (br_bits r))) <= br_n r'.
Proof.
  intros Hi Hn. destruct r as [rest buf cnt].
  destruct (br_fill_try_spec rest buf cnt n Hi Hn) as (I & B & M).
  unfold br_try_peek. cbn [br_rest br_buf br_n].
  set (r' := br_fill_try rest buf cnt n) in *. exists r'. rewrite <- M.
  split; [|split; [exact I|split; [exact B|lia]]].
  rewrite Z.min_comm. f_equal. f_equal. destruct I as (Hc & Hb & Hr).
  rewrite land_shl_mask by lia.
  pose proof (mod_pow2_range (br_buf r') (Z.min n (br_n r')) ltac:(lia)).
  assert (2 ^ Z.min n (br_n r') <= 2 ^ 32) by (apply pow2_le; lia).
  rewrite wrap_id by lia. rewrite <- val_zbits by lia.
  rewrite <- (firstn_zbits_app _ (br_n r') (br_buf r') (bytes_bits (br_rest r'))) by lia.
  fold (br_bits r'). rewrite B.
  assert (length (br_bits (mkbr rest buf cnt)) = length (br_bits r')) as Hlen by (rewrite B; auto).
  destruct (Z.le_gt_cases n (br_n r')).
  - rewrite Z.min_l by lia. reflexivity.
  - rewrite (firstn_all2 (n := Z.to_nat n)) by lia. rewrite firstn_all2 by lia. reflexivity.
Qed.

Lemma br_align_spec r : br_inv r ->
  br_inv (br_align r) /\ br_n (br_align r) mod 8 = 0 /\
  br_bits (br_align r) = skipn (length (br_bits r) mod 8) (br_bits r).
Proof.
  intros Hi. pose proof (br_bits_length r Hi) as HL. destruct Hi as (Hc & Hb & Hr).
  assert (length (br_bits r) mod 8 = Z.to_nat (br_n r mod 8))%nat as Em.
  { apply Nat2Z.inj. rewrite Nat2Z.inj_mod, HL. rewrite Z2Nat.id by lia.
    replace (br_n r + 8 * zlen (br_rest r)) with (br_n r + zlen (br_rest r) * 8) by lia.
    change (Z.of_nat 8) with 8. rewrite Z.mod_add by lia. reflexivity. }
  rewrite Em. unfold br_align. destruct (Z.gtb_spec (br_n r mod 8) 0).
  - destruct (br_consume_spec r (br_n r mod 8)) as (r' & E & I & B & N); try lia.
    { repeat split; auto; lia. }
    unfold br_consume in E. destruct (_ <=? _) in E; [|discriminate]. injection E as <-.
    repeat split; try apply I; auto. cbn [br_n]. lia.
  - replace (br_n r mod 8) with 0 by lia. cbn [skipn]. repeat split; auto; lia.
Qed.

Lemma br_drain_spec k buf cnt : 8 * Z.of_nat k <= cnt -> 0 <= buf < 2 ^ cnt ->
  exists l buf', br_drain k buf cnt = (l, buf', cnt - 8 * Z.of_nat k) /\ length l = k /\ bytes l /\
    0 <= buf' < 2 ^ (cnt - 8 * Z.of_nat k) /\
    zbits cnt buf = bytes_bits l ++ zbits (cnt - 8 * Z.of_nat k) buf'.
Proof.
  revert buf cnt; induction k as [|k IH]; intros buf cnt Hk Hb.
  - exists [], buf. cbn [br_drain]. replace (cnt - 8 * Z.of_nat 0) with cnt by lia.
    repeat split; auto; try lia. constructor.
  - cbn [br_drain]. rewrite Z.shiftr_div_pow2 by lia.
    destruct (IH (buf / 2 ^ 8) (cnt - 8)) as (l & buf' & E & L & B & R & Z'); [lia| |].
    { split; [apply Z.div_pos; lia|]. apply Z.div_lt_upper_bound; [lia|].
      rewrite <- Zpow_plus by lia. replace (8 + (cnt - 8)) with cnt by lia. lia. }
    rewrite E. exists (wrap 8 buf :: l), buf'.
    replace (cnt - 8 * Z.of_nat (S k)) with (cnt - 8 - 8 * Z.of_nat k) by lia.
    repeat split; auto; try lia.
    + cbn; lia.
    + constructor; auto. apply wrap8_byte.
    + rewrite bytes_bits_cons, <- app_assoc, <- Z'.
      replace cnt with (8 + (cnt - 8)) at 1 by lia. rewrite zbits_split by lia. f_equal.
      change (bits_of 8 (wrap 8 buf)) with (zbits 8 (buf mod 2 ^ 8)). symmetry. apply zbits_mod; lia.
Qed.

Lemma firstn_bytes_bits k l : firstn (8 * k) (bytes_bits l) = bytes_bits (firstn k l).
Proof.
  revert l; induction k as [|k IH]; intros l; [reflexivity|].
  destruct l as [|b l]; [cbn [bytes_bits flat_map firstn]; apply firstn_nil|].
  replace (8 * S k)%nat with (8 + 8 * k)%nat by lia. rewrite bytes_bits_cons.
  change (firstn (8 + 8 * k) (bits_of 8 b ++ bytes_bits l)) with (bits_of 8 b ++ firstn (8 * k) (bytes_bits l)).
  rewrite IH. reflexivity.
Qed.
Lemma skipn_bytes_bits k l : skipn (8 * k) (bytes_bits l) = bytes_bits (skipn k l).
Proof.
  revert l; induction k as [|k IH]; intros l; [reflexivity|].
  destruct l as [|b l]; [cbn [bytes_bits flat_map skipn]; apply skipn_nil|].
  replace (8 * S k)%nat with (8 + 8 * k)%nat by lia. rewrite bytes_bits_cons.
  change (skipn (8 + 8 * k) (bits_of 8 b ++ bytes_bits l)) with (skipn (8 * k) (bytes_bits l)).
  rewrite IH. reflexivity.
Qed.

Lemma br_read_bytes_spec r len : br_inv r -> br_n r mod 8 = 0 -> 0 <= len ->
  if 8 * len <=? Z.of_nat (length (br_bits r))
  then exists l r', br_read_bytes r len = Ok (l, r') /\ br_inv r' /\ bytes l /\ zlen l = len /\
       br_bits r = bytes_bits l ++ br_bits r'
  else br_read_bytes r len = Err EInvalidDecode.
Proof.
  intros Hi H8 Hlen. rewrite (br_bits_length r Hi). destruct Hi as (Hc & Hb & Hr).
  unfold br_read_bytes.
  remember (Z.min (br_n r / 8) len) as fb eqn:Efb. pose proof (zlen_nonneg (br_rest r)).
  destruct (br_drain_spec (Z.to_nat fb) (br_buf r) (br_n r)) as (l & buf' & E & L & B & R & EZ); [lia|auto|].
  rewrite E. destruct (Z.leb_spec (8 * len) (br_n r + 8 * zlen (br_rest r)));
    destruct (Z.gtb_spec (len - fb) (zlen (br_rest r))); try lia; auto.
  eexists; eexists; split; [reflexivity|]. split; [|split; [|split]].
  - unfold br_inv; cbn. repeat split; try lia. apply Forall_skipn; auto.
  - apply bytes_app; split; auto. apply Forall_firstn; auto.
  - unfold zlen in *. rewrite app_length, firstn_length. lia.
  - unfold br_bits. cbn [br_n br_buf br_rest]. rewrite EZ, bytes_bits_app, <- !app_assoc. f_equal.
    destruct (Z.eq_dec (len - fb) 0) as [E0|E0].
    + rewrite E0. cbn [Z.to_nat]. change (Z.to_nat 0) with 0%nat. cbn [firstn skipn bytes_bits flat_map app]. reflexivity.
    + assert (fb = br_n r / 8) by lia. replace (br_n r - 8 * Z.of_nat (Z.to_nat fb)) with 0 by lia.
      rewrite !zbits_0. cbn [app]. rewrite <- bytes_bits_app, firstn_skipn. reflexivity.
Qed.

(** ** Scripts of writes read back *)
From Verif Require Import BitsSpec.

Definition pad (k : nat) : nat := Z.to_nat ((- Z.of_nat k) mod 8).
Fixpoint enc (k : nat) (ops : list wop) : list bool :=
  match ops with
  | [] => []
  | WBits v n :: r => zbits n v ++ enc (k + Z.to_nat n) r
  | WAlign :: r => repeat false (pad k) ++ enc (k + pad k) r
  end.

Lemma bw_bits_len w : bw_inv w -> pad (length (bw_bits w)) = Z.to_nat ((- bw_pos w) mod 8).
Proof.
  intros (Hp & _). unfold pad, bw_bits. rewrite app_length, zbits_length, bytes_bits_length. lia.
Qed.
Lemma b64_bits_len w : b64_inv w -> pad (length (b64_bits w)) = Z.to_nat ((- b64_n w) mod 8).
Proof.
  intros (Hp & _). unfold pad, b64_bits. rewrite app_length, zbits_length, bytes_bits_length. lia.
Qed.
Lemma bw_flush_spec w : bw_inv w ->
  bw_inv (bw_flush w) /\ bw_bits (bw_flush w) = bw_bits w ++ repeat false (pad (length (bw_bits w))).
Proof.
  intros Hi. destruct (bw_finish_spec w Hi) as [F1 F2]. rewrite bw_bits_len by auto.
  rewrite <- F2. unfold bw_finish in *. pose proof Hi as (Hp & Hc & Hb).
  unfold bw_flush in *. destruct (Z.gtb_spec (bw_pos w) 0); cbn [bw_buf] in *.
  - split; [unfold bw_inv; cbn; repeat split; auto; lia|]. unfold bw_bits; cbn. apply app_nil_r.
  - split; auto. unfold bw_bits. replace (bw_pos w) with 0 by lia. cbn. apply app_nil_r.
Qed.
Lemma b64_flush_spec w : b64_inv w ->
  b64_inv (b64_flush w) /\ b64_bits (b64_flush w) = b64_bits w ++ repeat false (pad (length (b64_bits w))).
Proof.
  intros Hi. destruct (b64_finish_spec w Hi) as [F1 F2]. rewrite b64_bits_len by auto.
  rewrite <- F2. unfold b64_finish in *. pose proof Hi as (Hp & Hc & Hb).
  unfold b64_flush in *. destruct (Z.gtb_spec (b64_n w) 0); cbn [b64_buf] in *.
  - split; [unfold b64_inv; cbn; repeat split; auto; lia|]. unfold b64_bits; cbn. apply app_nil_r.
  - split; auto. unfold b64_bits. replace (b64_n w) with 0 by lia. cbn. apply app_nil_r.
Qed.

Lemma bw_run ops w : bw_inv w -> Forall (wop_ok 32) ops ->
  bw_inv (fold_left bw_step ops w) /\
  bw_bits (fold_left bw_step ops w) = bw_bits w ++ enc (length (bw_bits w)) ops.
Proof.
  revert w; induction ops as [|o ops IH]; intros w Hi Ho.
  - cbn. rewrite app_nil_r. auto.
  - inversion Ho; subst. cbn [fold_left]. destruct o as [v n|]; cbn [bw_step wop_ok enc] in *.
    + destruct (bw_write_spec w v n Hi ltac:(lia)) as [I1 B1].
      destruct (IH _ I1 ltac:(auto)) as [I2 B2]. split; auto.
      rewrite B2, B1, app_length, zbits_length, <- app_assoc. reflexivity.
    + destruct (bw_flush_spec w Hi) as [I1 B1].
      destruct (IH _ I1 ltac:(auto)) as [I2 B2]. split; auto.
      rewrite B2, B1, app_length, repeat_length, <- app_assoc. reflexivity.
Qed.
Lemma b64_run ops w : b64_inv w -> Forall (wop_ok 31) ops ->
  b64_inv (fold_left b64_step ops w) /\
  b64_bits (fold_left b64_step ops w) = b64_bits w ++ enc (length (b64_bits w)) ops.
Proof.
  revert w; induction ops as [|o ops IH]; intros w Hi Ho.
  - cbn. rewrite app_nil_r. auto.
  - inversion Ho; subst. cbn [fold_left]. destruct o as [v n|]; cbn [b64_step wop_ok enc] in *.
    + destruct (b64_write_spec w v n Hi ltac:(lia)) as [I1 B1].
      destruct (IH _ I1 ltac:(auto)) as [I2 B2]. split; auto.
      rewrite B2, B1, app_length, zbits_length, <- app_assoc. reflexivity.
    + destruct (b64_flush_spec w Hi) as [I1 B1].
      destruct (IH _ I1 ltac:(auto)) as [I2 B2]. split; auto.
      rewrite B2, B1, app_length, repeat_length, <- app_assoc. reflexivity.
Qed.

Lemma br_run ops r k tail : br_inv r -> Forall (wop_ok 32) ops ->
  br_bits r = enc k ops ++ tail -> Z.of_nat (k + length (br_bits r)) mod 8 = 0 ->
  br_script r ops = Ok (script_values ops).
Proof.
  revert r k; induction ops as [|o ops IH]; intros r k Hi Ho HB H8; [reflexivity|].
  inversion Ho; subst. destruct o as [v n|]; cbn [br_script script_values enc wop_ok] in *.
  - rewrite <- app_assoc in HB. pose proof (br_read_spec r n Hi ltac:(lia)) as S.
    destruct (Z.leb_spec n (Z.of_nat (length (br_bits r)))) as [L|L].
    2:{ rewrite HB, app_length, zbits_length in L. lia. }
    destruct S as (r' & -> & I & B). cbn [rbind].
    rewrite HB in B. rewrite skipn_app, zbits_length, Nat.sub_diag in B. cbn [skipn] in B.
    rewrite skipn_all2 in B by (rewrite zbits_length; lia). cbn [app] in B.
    rewrite (IH r' (k + Z.to_nat n)%nat); auto.
    + cbn [rbind]. rewrite HB. rewrite firstn_zbits_app by lia. rewrite val_zbits by lia. reflexivity.
    + rewrite B. rewrite HB, app_length, zbits_length in H8. lia.
  - rewrite <- app_assoc in HB. destruct (br_align_spec r Hi) as (I & _ & B).
    assert (length (br_bits r) mod 8 = pad k)%nat as Ep by (unfold pad; lia).
    rewrite Ep in B. rewrite HB in B.
    rewrite skipn_app, repeat_length, Nat.sub_diag in B. cbn [skipn] in B.
    rewrite skipn_all2 in B by (rewrite repeat_length; lia). cbn [app] in B.
    apply (IH (br_align r) (k + pad k)%nat); auto.
    rewrite B. rewrite HB, app_length, repeat_length in H8. lia.
Qed.

Lemma wop_ok_mono a b ops : a <= b -> Forall (wop_ok a) ops -> Forall (wop_ok b) ops.
Proof.
  intros Hab. apply Forall_impl. intros [v n|]; cbn; auto. lia.
Qed.

Lemma bw_script_ok ops : Forall (wop_ok 32) ops ->
  bytes (bw_script ops) /\ br_script (br_new (bw_script ops)) ops = Ok (script_values ops).
Proof.
  intros Ho. destruct (bw_run ops bw_new bw_new_inv Ho) as [I B].
  destruct (bw_finish_spec _ I) as [F1 F2]. split; [exact F1|].
  eapply br_run with (k := 0%nat).
  - apply br_new_inv, F1.
  - exact Ho.
  - rewrite br_new_bits. unfold bw_script. rewrite F2, B. reflexivity.
  - rewrite br_new_bits, bytes_bits_length. lia.
Qed.
Lemma b64_script_ok ops : Forall (wop_ok 31) ops ->
  bytes (b64_script ops) /\ br_script (br_new (b64_script ops)) ops = Ok (script_values ops).
Proof.
  intros Ho. destruct (b64_run ops b64_new b64_new_inv Ho) as [I B].
  destruct (b64_finish_spec _ I) as [F1 F2]. split; [exact F1|].
  eapply br_run with (k := 0%nat).
  - apply br_new_inv, F1.
  - apply (wop_ok_mono 31 32); [lia|exact Ho].
  - rewrite br_new_bits. unfold b64_script. rewrite F2, B. reflexivity.
  - rewrite br_new_bits, bytes_bits_length. lia.
Qed.
