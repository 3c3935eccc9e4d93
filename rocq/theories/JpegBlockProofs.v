(** Encoding and decoding blocks of a baseline scan. *)
From Verif Require Import Base BitsModel BitsProofs CanonSpec CanonProofs PngFilterModel JpegBaseModel JpegHuffModel JpegDecModel JpegBaseProofs MsbSpec MsbProofs JpegSpec JpegTabProofs JpegSymProofs.

(** the symbols of a run of AC coefficients, [z] zeros pending *)
Fixpoint ac_syms (l : list Z) (z : Z) : list Z :=
  match l with
  | [] => if z >? 0 then [0] else []
  | a :: t =>
      if a =? 0 then ac_syms t (z + 1)
      else repeat 240 (Z.to_nat (z / 16)) ++ (16 * (z mod 16) + category a) :: ac_syms t 0
  end.

(** encoder codes [codes] and decoder table for one specification *)
Definition enc_ok (bits vals : list Z) (codes : list (Z * Z)) : Prop :=
  tab_ok bits vals /\ exists N, 0 <= N /\ Forall (fun v => 0 <= v < N) vals /\ table_upto bits N vals (length (huff_sizes bits)) codes.

Lemma spec_sizes_eq bits : length bits = 16%nat -> spec_sizes bits = huff_sizes bits.
Proof.
  intros H. unfold spec_sizes, huff_sizes.
  assert (forall l k, concat (map (fun i => repeat (Z.of_nat i + 1) (Z.to_nat (nth (i - k) l 0))) (seq k (length l))) = sizes_from (Z.of_nat k + 1) l) as K.
  { induction l as [|c r IH]; intros k; [reflexivity|]. cbn [length seq map concat sizes_from]. rewrite Nat.sub_diag. cbn [nth]. f_equal.
    replace (Z.of_nat k + 1 + 1) with (Z.of_nat (S k) + 1) by lia. rewrite <- IH. f_equal. apply map_ext_in. intros i Hi. apply in_seq in Hi.
    replace (i - k)%nat with (S (i - S k)) by lia. reflexivity. }
  specialize (K bits 0%nat). rewrite H in K. change (Z.of_nat 0 + 1) with 1 in K. rewrite <- K. f_equal.
Qed.

(** ** encoder *)
Lemma write_sym_ok bits vals codes pre w b0 s : enc_ok bits vals codes -> In s vals -> m_rep pre w b0 ->
  exists w' cw, sym_code bits vals s cw /\ write_sym codes w s = Ok w' /\ m_rep pre w' (b0 ++ cw).
Proof.
  intros (HT & N & HN & HV & (T1 & T2 & T3)) Hin Hw.
  apply (In_nth _ _ 0) in Hin as (k & Hk & Ek). pose proof Hk as Hk0. rewrite (t_vlen _ _ HT) in Hk.
  pose proof (t_size _ _ HT k Hk) as Sk. assert (znth vals (Z.of_nat k) = s) as Es by (unfold znth; rewrite Nat2Z.id; exact Ek).
  assert (0 <= s < N) as Rs.
  { rewrite Forall_forall in HV. apply HV. rewrite <- Ek. apply nth_In. exact Hk0. }
  unfold write_sym. rewrite (get_ok codes s (0, 0)) by (unfold zlen; lia). specialize (T2 k Hk). rewrite Es in T2. rewrite T2. cbn [rbind].
  eexists. exists (code_word (huff_sizes bits) k). split.
  - exists k. split; [exact Hk0|]. split; [exact Ek|]. rewrite spec_sizes_eq by apply HT. reflexivity.
  - split; [reflexivity|]. rewrite code_word_msb. apply m_write_spec; auto. lia.
Qed.
Lemma category_has_size v : v <> 0 -> has_size v (category v).
Proof. intros N. destruct (category_spec v N). split; auto. Qed.
Lemma has_size_category v n : has_size v n -> n = category v.
Proof.
  intros [H1 H2]. assert (v <> 0) as N by (intros ->; change (Z.abs 0) with 0 in H2; pose proof (pow2_gt0 (n - 1) ltac:(lia)); lia).
  destruct (category_spec v N) as [C1 C2].
  destruct (Z.lt_trichotomy n (category v)) as [L|[E|L]]; auto.
  - pose proof (Z.pow_le_mono_r 2 n (category v - 1) ltac:(lia) ltac:(lia)). lia.
  - pose proof (Z.pow_le_mono_r 2 (category v) (n - 1) ltac:(lia) ltac:(lia)). lia.
Qed.
Lemma extend_inv b n v : 1 <= n -> 0 <= b < 2 ^ n -> extend_amplitude b n = v -> b = if 0 <? v then v else v + 2 ^ n - 1.
Proof.
  intros Hn Hb. unfold extend_amplitude. rewrite shiftl1 by lia.
  replace (2 * 2 ^ (n - 1)) with (2 ^ n) by (replace n with (Z.succ (n - 1)) at 1 by lia; rewrite Z.pow_succ_r by lia; reflexivity).
  pose proof (pow2_gt0 (n - 1) ltac:(lia)). destruct (Z.ltb_spec b (2 ^ (n - 1))); intros E; destruct (Z.ltb_spec 0 v); lia.
Qed.
Lemma extend_amp v n : has_size v n -> extend_amplitude (if 0 <? v then v else v + 2 ^ n - 1) n = v /\ 0 <= (if 0 <? v then v else v + 2 ^ n - 1) < 2 ^ n.
Proof.
  intros [Hn Hv]. unfold extend_amplitude. rewrite shiftl1 by lia. pose proof (pow2_gt0 (n - 1) ltac:(lia)).
  assert (2 * 2 ^ (n - 1) = 2 ^ n) as E2 by (replace n with (Z.succ (n - 1)) at 2 by lia; rewrite Z.pow_succ_r by lia; reflexivity).
  rewrite E2. destruct (Z.ltb_spec 0 v) as [P|P].
  - destruct (Z.ltb_spec v (2 ^ (n - 1))); lia.
  - destruct (Z.ltb_spec (v + 2 ^ n - 1) (2 ^ (n - 1))); lia.
Qed.
Lemma write_value_ok pre w b0 v : v <> 0 -> - 2 ^ 15 < v < 2 ^ 15 -> m_rep pre w b0 ->
  exists w', write_value w v = Ok w' /\ m_rep pre w' (b0 ++ amplitude v (category v)).
Proof.
  intros N R Hw. destruct (encode_value_ok v N R) as (bs & E & Hn & Hb & He). cbn zeta in *.
  unfold write_value. rewrite E. cbn [rbind]. exists (m_write w bs (category v)).
  split; [reflexivity|]. unfold amplitude. rewrite <- (extend_inv bs (category v) v) by (auto; lia). apply m_write_spec; auto. lia.
Qed.
Lemma rs_sym z a : 0 <= z < 16 -> 0 <= a <= 15 -> Z.lor (wrap 8 (Z.shiftl z 4)) a = 16 * z + a.
Proof.
  intros Hz Ha. rewrite Z.shiftl_mul_pow2 by lia. change (2 ^ 4) with 16. rewrite wrap_id by (change (2 ^ 8) with 256; lia).
  rewrite Z.lor_comm. change 16 with (2 ^ 4) at 1. rewrite lor_disjoint by (change (2 ^ 4) with 16; lia). change (2 ^ 4) with 16. lia.
Qed.
Lemma repeat_split (z : Z) k : 0 <= k <= z -> repeat 0 (Z.to_nat z) = repeat 0 (Z.to_nat k) ++ repeat 0 (Z.to_nat (z - k)).
Proof. intros H. rewrite <- repeat_app. f_equal. lia. Qed.

Section Enc.
Variable bits vals : list Z.
Variable codes : list (Z * Z).
Hypothesis Henc : enc_ok bits vals codes.
Variable pre : list Z.

Lemma zrl_ok f : forall w b0 z, 0 <= z < 16 * Z.of_nat f + 16 -> (z / 16 > 0 -> In 240 vals) -> m_rep pre w b0 ->
  exists w' bb, write_zrl f codes w z = Ok (w', z mod 16) /\ m_rep pre w' (b0 ++ bb) /\
    forall l b, ac_code bits vals (repeat 0 (Z.to_nat (z mod 16)) ++ l) b -> ac_code bits vals (repeat 0 (Z.to_nat z) ++ l) (bb ++ b).
Proof.
  induction f as [|f IH]; intros w b0 z Hz Hin Hw; cbn [write_zrl]; destruct (Z.geb_spec z 16) as [G|G]; try lia.
  1,3: rewrite (Z.mod_small z 16) by lia; exists w, []; rewrite app_nil_r; split; [reflexivity|]; split; [exact Hw|]; auto.
  assert (z / 16 = (z - 16) / 16 + 1) as Ed by (replace z with ((z - 16) + 1 * 16) at 1 by lia; rewrite Z.div_add by lia; lia).
  assert (z mod 16 = (z - 16) mod 16) as Em by (replace z with ((z - 16) + 1 * 16) at 1 by lia; rewrite Z.mod_add by lia; reflexivity).
  pose proof (Z.div_pos (z - 16) 16 ltac:(lia) ltac:(lia)) as Dp.
  destruct (write_sym_ok bits vals codes pre w b0 240 Henc (Hin ltac:(lia)) Hw) as (w1 & cw & Hc & E1 & R1).
  rewrite E1. cbn [rbind].
  destruct (IH w1 _ (z - 16) ltac:(lia) ltac:(intros _; apply Hin; lia) R1) as (w2 & bb & E2 & R2 & D2).
  exists w2, (cw ++ bb). rewrite E2, Em. split; [reflexivity|]. rewrite app_assoc. split; [exact R2|].
  intros l b HA. rewrite (repeat_split z 16) by lia. rewrite <- !app_assoc. apply ac_zrl; [exact Hc|]. apply D2. exact HA.
Qed.

Lemma encode_ac_ok l : forall w b0 z, 0 <= z -> z + zlen l <= 63 -> Forall (fun a => - 2 ^ 15 < a < 2 ^ 15) l ->
  incl (ac_syms l z) vals -> m_rep pre w b0 ->
  exists w' bb, encode_ac codes w l z = Ok w' /\ m_rep pre w' (b0 ++ bb) /\ ac_code bits vals (repeat 0 (Z.to_nat z) ++ l) bb.
Proof.
  induction l as [|a t IH]; intros w b0 z Hz HL HR HI Hw.
  - cbn [encode_ac ac_syms] in *. rewrite app_nil_r. destruct (Z.gtb_spec z 0) as [G|G].
    + destruct (write_sym_ok bits vals codes pre w b0 0 Henc (HI 0 (or_introl eq_refl)) Hw) as (w1 & cw & Hc & E1 & R1).
      exists w1, cw. split; [exact E1|]. split; [exact R1|]. apply ac_eob; [lia|exact Hc].
    + assert (z = 0) as -> by lia. exists w, []. split; [reflexivity|]. rewrite app_nil_r. split; [exact Hw|]. apply ac_end.
  - apply Forall_cons_iff in HR as [Ha Ht]. rewrite zlen_cons in HL. cbn [encode_ac ac_syms] in *.
    pose proof (zlen_nonneg t) as Ln.
    destruct (Z.eqb_spec a 0) as [->|Na].
    + destruct (IH w b0 (z + 1) ltac:(lia) ltac:(lia) Ht HI Hw) as (w' & bb & E & R & D). exists w', bb.
      split; [exact E|]. split; [exact R|]. replace (repeat 0 (Z.to_nat z) ++ 0 :: t) with (repeat 0 (Z.to_nat (z + 1)) ++ t); [exact D|].
      rewrite (repeat_split (z + 1) z) by lia. replace (z + 1 - z) with 1 by lia. rewrite <- app_assoc. reflexivity.
    + pose proof (Z.mod_pos_bound z 16 ltac:(lia)) as Mz. pose proof (Z.div_mod z 16 ltac:(lia)) as DMz.
      pose proof (Z.div_pos z 16 ltac:(lia) ltac:(lia)) as Dz.
      pose proof (category_le a 15 ltac:(lia) ltac:(lia)) as Ca.
      destruct (zrl_ok 4 w b0 z ltac:(lia) ltac:(intros G; apply HI, in_or_app; left; destruct (Z.to_nat (z / 16)) eqn:Ez; [lia|left; reflexivity]) Hw)
        as (w1 & b1 & E1 & R1 & D1).
      rewrite E1. cbn [rbind]. rewrite rs_sym by lia. set (sym := 16 * (z mod 16) + category a) in *.
      destruct (write_sym_ok bits vals codes pre w1 _ sym Henc ltac:(apply HI, in_or_app; right; left; reflexivity) R1) as (w2 & cw & Hc & E2 & R2).
      rewrite E2. cbn [rbind].
      destruct (write_value_ok pre w2 _ a Na Ha R2) as (w3 & E3 & R3). rewrite E3. cbn [rbind].
      destruct (IH w3 _ 0 ltac:(lia) ltac:(lia) Ht ltac:(intros x Hx; apply HI, in_or_app; right; right; exact Hx) R3) as (w4 & b4 & E4 & R4 & D4).
      exists w4, (b1 ++ cw ++ amplitude a (category a) ++ b4). split; [exact E4|].
      split; [rewrite <- !app_assoc in R4; exact R4|]. apply D1. apply ac_value; auto; [apply category_has_size; exact Na|lia].
Qed.
End Enc.

(** ** decoder *)
Lemma read_amplitude_ok v n r rest : has_size v n -> n <= 15 -> mr_rep r (amplitude v n ++ rest) ->
  exists r', read_amplitude r n = Ok (v, r') /\ mr_rep r' rest.
Proof.
  intros Hs Hn Hr. destruct (extend_amp v n Hs) as [E B]. unfold amplitude in Hr.
  destruct (mr_read_msb r n _ rest Hr ltac:(destruct Hs; lia) B) as (r' & Er & Hr'). exists r'. split; [|exact Hr'].
  unfold read_amplitude. destruct (Z.eqb_spec n 0); [destruct Hs; lia|]. rewrite Er, E. reflexivity.
Qed.
Lemma sym_decode bits vals s cw r rest : tab_ok bits vals -> sym_code bits vals s cw -> mr_rep r (cw ++ rest) ->
  exists r', jdecode (jtab_build bits vals) r = Ok (s, r') /\ mr_rep r' rest.
Proof.
  intros HT (k & Hk & Ek & ->) Hr. rewrite spec_sizes_eq in Hr by apply HT. rewrite (t_vlen _ _ HT) in Hk.
  destruct (jdecode_ok bits vals HT r k rest Hk Hr) as (r' & E & R). exists r'. split; [|exact R]. rewrite E. unfold znth. rewrite Nat2Z.id, Ek. reflexivity.
Qed.
Lemma upd_mid {A} (a b : list A) x y : upd (a ++ x :: b) (length a) y = a ++ y :: b.
Proof. induction a as [|h t IH]; [reflexivity|]. cbn. f_equal. exact IH. Qed.
Lemma sym_run z a : 0 <= z < 16 -> 1 <= a <= 15 -> Z.land (Z.shiftr (16 * z + a) 4) 15 = z /\ Z.land (16 * z + a) 15 = a.
Proof.
  intros Hz Ha. rewrite Z.shiftr_div_pow2 by lia. change 15 with (2 ^ 4 - 1) at 1 2. rewrite !land_mask by lia. change (2 ^ 4) with 16.
  replace (16 * z + a) with (a + z * 16) by lia. rewrite Z.div_add, Z.mod_add by lia. rewrite (Z.div_small a), !Z.mod_small by lia. lia.
Qed.

Lemma dec_ac_ok bits vals : tab_ok bits vals -> forall l bb, ac_code bits vals l bb ->
  forall done fuel r rest, zlen done + zlen l = 64 -> zlen l <= Z.of_nat fuel -> mr_rep r (bb ++ rest) ->
    exists r', dec_ac fuel (jtab_build bits vals) r (zlen done) (done ++ repeat 0 (length l)) = Ok (done ++ l, r') /\ mr_rep r' rest.
Proof.
  intros HT l bb HA. induction HA as [|k w Hk Hw|l w b Hw HA IH|z v n l w b Hz Hv Hn Hw HA IH]; intros done fuel r rest HD HF Hr.
  - rewrite zlen_nil in HD. exists r. split; [|exact Hr]. assert (zlen done = 64) as -> by lia. destruct fuel; reflexivity.
  - assert (zlen (repeat 0 k) = Z.of_nat k) as Lk by (unfold zlen; rewrite repeat_length; reflexivity). rewrite Lk in *. rewrite repeat_length.
    destruct fuel as [|fuel]; [lia|]. cbn [dec_ac]. destruct (Z.ltb_spec (zlen done) 64); [|lia].
    destruct (sym_decode bits vals 0 w r rest HT Hw Hr) as (r1 & Ej & Rj). rewrite Ej. cbn [rbind]. change (0 =? 0) with true. cbn iota. eauto.
  - rewrite zlen_app in *. change (zlen (repeat 0 16)) with 16 in *. pose proof (zlen_nonneg l). pose proof (zlen_nonneg done).
    destruct fuel as [|fuel]; [lia|]. cbn [dec_ac]. destruct (Z.ltb_spec (zlen done) 64); [|lia]. rewrite <- app_assoc in Hr.
    destruct (sym_decode bits vals 240 w r _ HT Hw Hr) as (r1 & Ej & Rj). rewrite Ej. cbn [rbind].
    change (240 =? 0) with false. change (240 =? 240) with true. cbn iota.
    destruct (IH (done ++ repeat 0 16) fuel r1 rest) as (r2 & E2 & R2); [|lia|exact Rj|].
    { rewrite zlen_app. change (zlen (repeat 0 16)) with 16. lia. }
    exists r2. split; [|exact R2]. rewrite zlen_app in E2. change (zlen (repeat 0 16)) with 16 in E2. rewrite <- !app_assoc in E2.
    rewrite <- E2. rewrite app_length, repeat_app. reflexivity.
  - assert (zlen (repeat 0 (Z.to_nat z)) = z) as Lz by (unfold zlen; rewrite repeat_length; lia).
    rewrite zlen_app, zlen_cons, Lz in *. pose proof (zlen_nonneg l). pose proof (zlen_nonneg done).
    destruct fuel as [|fuel]; [lia|]. cbn [dec_ac]. destruct (Z.ltb_spec (zlen done) 64); [|lia]. rewrite <- !app_assoc in Hr.
    destruct (sym_decode bits vals _ w r _ HT Hw Hr) as (r1 & Ej & Rj). rewrite Ej. cbn [rbind].
    pose proof (proj1 Hv) as Hn1. destruct (sym_run z n Hz ltac:(lia)) as [S1 S2].
    destruct (Z.eqb_spec (16 * z + n) 0); [lia|]. destruct (Z.eqb_spec (16 * z + n) 240) as [E240|_]; [lia|]. rewrite S1, S2.
    destruct (Z.geb_spec (zlen done + z) 64); [lia|]. destruct (Z.gtb_spec n 0); [|lia].
    destruct (read_amplitude_ok v n r1 _ Hv Hn Rj) as (r2 & Ea & Ra). rewrite Ea. cbn [rbind].
    destruct (IH (done ++ repeat 0 (Z.to_nat z) ++ [v]) fuel r2 rest) as (r3 & E3 & R3); [|lia|exact Ra|].
    { rewrite !zlen_app, Lz. change (zlen [v]) with 1. lia. }
    exists r3. split; [|exact R3]. rewrite !zlen_app, Lz in E3. change (zlen [v]) with 1 in E3. rewrite Z.add_assoc in E3.
    replace (upd (done ++ repeat 0 (length (repeat 0 (Z.to_nat z) ++ v :: l))) (Z.to_nat (zlen done + z)) (as_i16 v))
      with ((done ++ repeat 0 (Z.to_nat z) ++ [v]) ++ repeat 0 (length l)).
    2:{ rewrite app_length, repeat_length. cbn [length]. rewrite repeat_app, (app_assoc done (repeat 0 (Z.to_nat z)) (repeat 0 (S (length l)))). cbn [repeat].
        replace (Z.to_nat (zlen done + z)) with (length (done ++ repeat 0 (Z.to_nat z))) by (rewrite app_length, repeat_length; unfold zlen; lia).
        rewrite upd_mid, <- !app_assoc. cbn [app]. rewrite as_i16_id; [reflexivity|].
        destruct Hv as [_ Hv]. pose proof (Z.pow_le_mono_r 2 n 15 ltac:(lia) ltac:(lia)). lia. }
    rewrite E3, <- !app_assoc. reflexivity.
Qed.

(** the decoder reads every block coded as in the standard *)
Lemma dec_block_ok dcb dcv acb acv prev zz bb r rest : tab_ok dcb dcv -> tab_ok acb acv ->
  - 2 ^ 15 <= znth zz 0 < 2 ^ 15 -> block_code dcb dcv acb acv prev zz bb -> mr_rep r (bb ++ rest) ->
  exists r', dec_block (jtab_build dcb dcv) (jtab_build acb acv) r prev = Ok (zz, znth zz 0, r') /\ mr_rep r' rest.
Proof.
  intros HD HA Hr16 (dc & ac & b1 & b2 & -> & Hl & Hdc & Hac & ->) Hr. change (znth (dc :: ac) 0) with dc in *. rewrite <- app_assoc in Hr.
  unfold dec_block.
  assert (exists cat r1 r2, jdecode (jtab_build dcb dcv) r = Ok (cat, r1) /\
    (if cat >? 0 then read_amplitude r1 cat else Ok (0, r1)) = Ok (dc - prev, r2) /\ mr_rep r2 (b2 ++ rest)) as (cat & r1 & r2 & E1 & E2 & R2).
  { inversion Hdc as [w Hw Ev|v n w Hs Hn Hw Ev]; subst.
    - destruct (sym_decode _ _ _ _ _ _ HD Hw Hr) as (r1 & E1 & R1). exists 0, r1, r1. auto.
    - rewrite <- app_assoc in Hr. destruct (sym_decode _ _ _ _ _ _ HD Hw Hr) as (r1 & E1 & R1).
      destruct (read_amplitude_ok _ _ _ _ Hs Hn R1) as (r2 & E2 & R2). exists n, r1, r2. split; [exact E1|].
      pose proof (proj1 Hs) as H1. destruct (Z.gtb_spec n 0); [|lia]. auto. }
  rewrite E1. cbn [rbind]. rewrite E2. cbn [rbind]. replace (prev + (dc - prev)) with dc by lia. rewrite i32_ok by lia. cbn [rbind].
  destruct (dec_ac_ok acb acv HA ac b2 Hac [dc] 64%nat r2 rest) as (r3 & E3 & R3);
    [change (zlen [dc]) with 1; unfold zlen; lia|unfold zlen; lia|exact R2|].
  exists r3. split; [|exact R3]. change (zlen [dc]) with 1 in E3. rewrite Hl in E3.
  change (upd (repeat 0 64) 0 (as_i16 dc)) with ([as_i16 dc] ++ repeat 0 63). rewrite as_i16_id by lia. rewrite E3. reflexivity.
Qed.

(** ** one block *)
Definition block_ok (b : list Z) : Prop := Forall (fun a => - 2 ^ 15 < a < 2 ^ 15) b.
Definition blk_syms_ok (block : list Z) (prev : Z) (dcv acv : list Z) : Prop :=
  - 2 ^ 15 < znth block 0 - prev < 2 ^ 15 /\ In (category (znth block 0 - prev)) dcv /\
  incl (ac_syms (skipn 1 (zigzag_reorder block)) 0) acv.
Lemma zigzag_skip b : zlen (skipn 1 (zigzag_reorder b)) = 63.
Proof. reflexivity. Qed.
Lemma zigzag_split b : zigzag_reorder b = znth b 0 :: skipn 1 (zigzag_reorder b).
Proof. reflexivity. Qed.
Lemma zigzag_block_ok b : block_ok b -> block_ok (zigzag_reorder b).
Proof.
  intros H. apply Forall_map. apply Forall_forall. intros i _. unfold znth.
  apply (Forall_nth_d (fun a => - 2 ^ 15 < a < 2 ^ 15)); auto. lia.
Qed.

Lemma encode_block_ok t lum dcb dcv acb acv pre w b0 block prev :
  enc_ok dcb dcv (dc_codes t lum) -> enc_ok acb acv (ac_codes t lum) ->
  block_ok block -> blk_syms_ok block prev dcv acv -> -2 ^ 15 <= prev < 2 ^ 15 -> m_rep pre w b0 ->
  exists w' bb, encode_block w block prev lum t = Ok (znth block 0, w') /\ m_rep pre w' (b0 ++ bb) /\
    block_code dcb dcv acb acv prev (zigzag_reorder block) bb.
Proof.
  intros Hdc Hac Hb (Hdiff & Hcat & Hsyms) Hp Hw. unfold encode_block.
  change (znth (zigzag_reorder block) 0) with (znth block 0). rewrite i16_ok by lia. cbn [rbind].
  set (diff := znth block 0 - prev) in *. pose proof (zigzag_block_ok block Hb) as Hz.
  pose proof (category_le diff 15 ltac:(lia) ltac:(lia)) as Cd.
  destruct (write_sym_ok dcb dcv _ pre w b0 (category diff) Hdc Hcat Hw) as (w1 & cw & Hc & E1 & R1).
  rewrite E1. cbn [rbind].
  assert (exists w2 b1, (if category diff >? 0 then write_value w1 diff else Ok w1) = Ok w2 /\ m_rep pre w2 (b0 ++ b1) /\ dc_code dcb dcv diff b1)
    as (w2 & b1 & E2 & R2 & D2).
  { destruct (Z.gtb_spec (category diff) 0) as [G|G].
    - assert (diff <> 0) as N by (apply category_pos; lia). destruct (write_value_ok pre w1 _ diff N Hdiff R1) as (w2 & E2 & R2).
      exists w2, (cw ++ amplitude diff (category diff)). split; [exact E2|]. split; [rewrite app_assoc; exact R2|].
      apply dc_diff; [apply category_has_size; exact N|lia|exact Hc].
    - assert (diff = 0) as E0. { destruct (Z.eq_dec diff 0) as [|n]; auto. apply category_pos in n. lia. }
      exists w1, cw. split; [reflexivity|]. split; [exact R1|]. rewrite E0 in *. apply dc_zero. exact Hc. }
  rewrite E2. cbn [rbind].
  destruct (encode_ac_ok acb acv _ Hac pre (skipn 1 (zigzag_reorder block)) w2 _ 0 ltac:(lia) ltac:(rewrite zigzag_skip; lia)
    ltac:(apply Forall_skipn; exact Hz) Hsyms R2) as (w3 & b3 & E3 & R3 & D3).
  rewrite E3. cbn [rbind]. exists w3, (b1 ++ b3). split; [reflexivity|].
  split; [rewrite app_assoc; exact R3|]. exists (znth block 0), (skipn 1 (zigzag_reorder block)), b1, b3.
  split; [apply zigzag_split|]. split; [reflexivity|]. split; [exact D2|]. split; [exact D3|reflexivity].
Qed.
