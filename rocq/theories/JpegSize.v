(** A JPEG file is bounded by its picture. *)
From Verif Require Import Base BitsModel BitsProofs CanonSpec CanonProofs Lz77Model PngFilterModel PngPaletteModel PngFilterProofs PngPackProofs JpegBaseModel JpegHuffModel JpegDecModel JpegEncModel JpegBaseProofs MsbSpec MsbProofs JpegSpec JpegTabProofs JpegSymProofs JpegBlockProofs JpegFileSpec JpegProgSpec JpegEncProofs JpegCountProofs JpegImgSpec JpegMcuProofs JpegScanProofs JpegTop JpegProgProofs JpegApi JpegSizeSpec.

(** ** codes *)
Lemma zlen_msb n v : 0 <= n -> zlen (msb n v) = n.
Proof. intros H. unfold zlen. rewrite msb_length. lia. Qed.
Lemma zlen_amplitude v n : 0 <= n -> zlen (amplitude v n) = n.
Proof. intros H. unfold amplitude. apply zlen_msb. exact H. Qed.
Lemma sym_code_len bits vals s w : tab_ok bits vals -> sym_code bits vals s w -> zlen w <= 16.
Proof.
  intros T (k & Hk & _ & ->). pose proof (t_len bits vals T) as L. rewrite (spec_sizes_eq bits L), code_word_msb.
  rewrite (t_vlen bits vals T) in Hk. pose proof (t_size bits vals T k Hk). rewrite zlen_msb; lia.
Qed.
Lemma has_size_le v n m : has_size v n -> Z.abs v < 2 ^ m -> 0 <= m -> 1 <= n <= m.
Proof.
  intros H HB Hm. rewrite (has_size_category v n H). pose proof (category_le v m Hm HB). split; [|lia].
  destruct H as [H1 H2]. pose proof (pow2_gt0 (n - 1) ltac:(lia)). pose proof (proj2 (category_pos v) ltac:(lia)). lia.
Qed.
Lemma dc_code_len bits vals v w : tab_ok bits vals -> Z.abs v <= 2047 -> dc_code bits vals v w -> zlen w <= 27.
Proof.
  intros T HV H. destruct H as [w H|v n w HS _ H]; pose proof (sym_code_len _ _ _ _ T H) as L; [lia|].
  pose proof (has_size_le v n 11 HS ltac:(change (2 ^ 11) with 2048; lia) ltac:(lia)). rewrite zlen_app, zlen_amplitude; lia.
Qed.
Lemma ac_code_len bits vals l w : tab_ok bits vals -> ac_code bits vals l w -> Forall (fun a => Z.abs a <= 1023) l -> zlen w <= 26 * zlen l.
Proof.
  intros T H. induction H as [|k w Hk H|l w b H _ IH|r v n l w b Hr HS _ H _ IH]; intros HF.
  - rewrite !zlen_nil. lia.
  - pose proof (sym_code_len _ _ _ _ T H). rewrite zlen_repeat. lia.
  - pose proof (sym_code_len _ _ _ _ T H). apply Forall_app in HF as [_ HF]. specialize (IH HF). rewrite !zlen_app, zlen_repeat. lia.
  - pose proof (sym_code_len _ _ _ _ T H). apply Forall_app in HF as [_ HF]. apply Forall_cons_iff in HF as [HV HF]. specialize (IH HF).
    pose proof (has_size_le v n 10 HS ltac:(change (2 ^ 10) with 1024; lia) ltac:(lia)).
    rewrite !zlen_app, zlen_amplitude, zlen_repeat, zlen_cons by lia. lia.
Qed.
Lemma zz_dc b : length b = 64%nat -> znth (zigzag_reorder b) 0 = znth b 0.
Proof. intros _. reflexivity. Qed.
Lemma interval_len t blocks : tabs_ok t -> forall preds bits, preds_ok preds -> Forall coef_ok blocks ->
  interval_code (tabs_of t) preds (zzs blocks) bits -> zlen bits <= 1665 * zlen blocks.
Proof.
  intros T. induction blocks as [|[c b] r IH]; intros preds bits HP HF H; unfold zzs in H; cbn [map fst snd] in H; inversion H as [|? ? ? ? b1 b2 HB HR]; subst.
  - rewrite !zlen_nil. lia.
  - apply Forall_cons_iff in HF as [HC HF]. destruct (tabs_enc t c T) as [[TD _] [TA _]].
    rewrite zz_dc in HR by apply HC. pose proof (preds_upd preds (c, b) HP HC) as HP2. cbn [fst snd] in HP2. specialize (IH _ _ HP2 HF HR).
    destruct HB as (dc & ac & c1 & c2 & EZ & LA & H1 & H2 & ->).
    pose proof HC as (Bc & HL & HD & HA). cbn [fst snd] in *.
    pose proof (zz_dc b HL) as E0. rewrite EZ in E0. change (znth (dc :: ac) 0) with dc in E0.
    pose proof (proj2 (preds_get preds c HP Bc)) as HPc.
    pose proof (zigzag_ac b HL HA) as HZ. rewrite EZ in HZ. cbn [skipn] in HZ.
    assert (Z.abs (dc - znth preds c) <= 2047) as HDD by lia. pose proof (dc_code_len _ _ _ _ TD HDD H1) as L1. pose proof (ac_code_len _ _ _ _ TA H2 HZ) as L2.
    assert (zlen ac = 63) as L3 by (unfold zlen; lia). rewrite !zlen_app, zlen_cons. lia.
Qed.

(** ** bytes *)
Lemma unstuff_len seg : forall l, unstuff seg = Some l -> zlen seg <= 2 * zlen l.
Proof.
  intros l H. remember (length seg) as n eqn:En. revert seg l H En. induction n as [n IH] using lt_wf_ind. intros seg l H ->.
  destruct (unstuff_inv seg l H) as [[-> ->]|[(r & y & -> & -> & E)|(b & r & y & N & -> & -> & E)]].
  - rewrite zlen_nil. lia.
  - specialize (IH (length r) ltac:(cbn [length]; lia) r y E eq_refl). rewrite !zlen_cons. lia.
  - specialize (IH (length r) ltac:(cbn [length]; lia) r y E eq_refl). rewrite !zlen_cons. lia.
Qed.
Lemma segment_len seg bits : segment seg bits -> 4 * zlen seg <= zlen bits + 7.
Proof.
  intros (_ & l & U & B). pose proof (unstuff_len seg l U). pose proof (f_equal (@length bool) B) as E.
  rewrite bytes_msb_length in E. unfold pad_ones in E. rewrite app_length, repeat_length in E.
  pose proof (Nat.mod_upper_bound (8 - length bits mod 8) 8 ltac:(lia)). unfold zlen in *. lia.
Qed.
Fixpoint total {A} (ivs : list (list A)) : Z := match ivs with [] => 0 | iv :: r => zlen iv + total r end.
Lemma total_concat {A} (ivs : list (list A)) : total ivs = zlen (concat ivs).
Proof. induction ivs as [|iv r IH]; [reflexivity|]. cbn [total concat]. rewrite zlen_app, IH. reflexivity. Qed.
Lemma scan_len t ivs : tabs_ok t -> forall idx out, Forall (Forall coef_ok) ivs -> scan_code (tabs_of t) idx (map zzs ivs) out ->
  4 * zlen out <= 1665 * total ivs + 15 * zlen ivs.
Proof.
  intros T. induction ivs as [|iv r IH]; intros idx out HF H; cbn [map] in H; [inversion H|]. apply Forall_cons_iff in HF as [HI HF].
  inversion H as [? ? bits seg H1 H2 E1 E2 E3|? ? bits seg ? o2 H1 H2 H3 E1 E2 E3]; subst; pose proof (interval_len t iv T _ _ preds0 HI H1); pose proof (segment_len _ _ H2);
    cbn [total]; rewrite !zlen_cons.
  - destruct r as [|? ?]; [|cbn [map] in *; discriminate]. cbn [total]. rewrite zlen_nil. lia.
  - specialize (IH _ _ HF H3). rewrite !zlen_app, !zlen_cons, zlen_nil. lia.
Qed.

(** ** restart intervals *)
Lemma chunks_count {A} n (l : list A) : (0 < n)%nat -> zlen (chunks n l) <= zlen l.
Proof.
  intros Hn. remember (length l) as m eqn:Em. revert l Em. induction m as [m IH] using lt_wf_ind. intros l ->.
  destruct l as [|a l]; [rewrite chunks_nil; reflexivity|].
  rewrite chunks_cons by (lia || discriminate).
  pose proof (skipn_length n (a :: l)). specialize (IH (length (skipn n (a :: l))) ltac:(cbn [length] in *; lia) _ eq_refl).
  rewrite zlen_cons. unfold zlen in *. cbn [length] in *. lia.
Qed.
Lemma concat_map_concat {A} (x : list (list (list A))) : concat (map (@concat A) x) = concat (concat x).
Proof. induction x as [|a r IH]; [reflexivity|]. cbn [map concat]. rewrite IH, concat_app. reflexivity. Qed.
Lemma intervals_concat {A} (ri : option Z) (l : list A) : match ri with Some i => 0 < i | None => True end -> concat (intervals ri l) = l.
Proof. intros H. destruct ri as [i|]; cbn [intervals]; [apply chunks_concat; lia|cbn [concat]; apply app_nil_r]. Qed.
Lemma intervals_count {A} (ri : option Z) (l : list A) : match ri with Some i => 0 < i | None => True end -> l <> [] -> zlen (intervals ri l) <= zlen l.
Proof.
  intros H N. destruct ri as [i|]; cbn [intervals]; [apply chunks_count; lia|].
  destruct l as [|a r]; [contradiction|]. rewrite !zlen_cons, zlen_nil. pose proof (zlen_nonneg r). lia.
Qed.

(** ** the header *)
Lemma nodup_bytes_len l : bytes l -> NoDup l -> (length l <= 256)%nat.
Proof.
  intros HB HN. assert (length (map Z.to_nat l) <= length (seq 0 256))%nat as K.
  { apply NoDup_incl_length.
    - clear -HB HN. induction HN as [|x l Hx HN IH]; [constructor|]. apply Forall_cons_iff in HB as [H1 HB]. cbn [map]. constructor; [|auto].
      intros C. apply in_map_iff in C as (y & E & Hy). unfold bytes in HB. rewrite Forall_forall in HB. specialize (HB y Hy). unfold is_byte in *.
      apply Hx. replace x with y by lia. exact Hy.
    - intros n Hn. apply in_map_iff in Hn as (y & <- & Hy). unfold bytes in HB. rewrite Forall_forall in HB. specialize (HB y Hy). unfold is_byte in HB. apply in_seq. lia. }
  rewrite map_length, seq_length in K. exact K.
Qed.
Lemma zlen_marker m p : zlen (marker_segment m p) = 4 + zlen p.
Proof. unfold marker_segment, hi_lo. rewrite !zlen_app, !zlen_cons, !zlen_nil. lia. Qed.
Lemma zlen_dht cls id bits vals : tab_ok bits vals -> zlen (dht_segment cls id bits vals) <= 277.
Proof.
  intros (L & _ & _ & HB & HN & _). pose proof (nodup_bytes_len vals HB HN). unfold dht_segment.
  rewrite zlen_marker, zlen_cons, zlen_app. unfold zlen. lia.
Qed.
Lemma header_len m o t : tabs_ok t -> zlen (jpeg_header m o (tabs_of t 0) (tabs_of t 1)) <= 1291.
Proof.
  intros ([A1 _] & [A2 _] & [A3 _] & [A4 _]). unfold jpeg_header, tabs_of. change (0 =? 0) with true. change (1 =? 0) with false. cbv iota. cbn [ct_dcb ct_dcv ct_acb ct_acv].
  pose proof (zlen_dht 0 0 _ _ A1). pose proof (zlen_dht 0 1 _ _ A2). pose proof (zlen_dht 1 0 _ _ A3). pose proof (zlen_dht 1 1 _ _ A4).
  assert (forall id b, zlen (dqt_segment id (table_zigzag b (jo_quality o))) = 69) as EQ.
  { intros id b. unfold dqt_segment. rewrite zlen_marker, zlen_cons. destruct (table_zigzag_range b (jo_quality o)) as [_ L]. unfold zlen. rewrite L. lia. }
  assert (zlen (sof_segment m (jo_w o) (jo_h o) (frame_comps (jo_ct o) (jo_sub o))) <= 19) as ES.
  { unfold sof_segment, hi_lo. rewrite zlen_marker. destruct (jo_ct o), (jo_sub o); cbn [frame_comps flat_map app]; rewrite !zlen_cons, zlen_nil; lia. }
  assert (zlen jfif_segment = 18) as EJ by reflexivity.
  assert (zlen match jo_restart o with Some i => dri_segment i | None => [] end <= 6) as ER.
  { destruct (jo_restart o); [|rewrite zlen_nil; lia]. unfold dri_segment, hi_lo. rewrite zlen_marker, !zlen_cons, zlen_nil. lia. }
  rewrite !zlen_app, !EQ. change (zlen [255; 216]) with 2. lia.
Qed.

(** ** blocks *)
Lemma blocks_count q data o : valid_args data o -> zlen (concat (image_mcus q data o)) = coded_blocks o /\
  zlen (image_mcus q data o) = mcus_across o * mcus_down o /\ mcus_across o * mcus_down o <= coded_blocks o.
Proof.
  intros V. pose proof V as (Hw & Hh & _). pose proof (across_pos o ltac:(lia)) as PA. pose proof (down_pos o ltac:(lia)) as PD.
  assert (zlen (image_mcus q data o) = mcus_across o * mcus_down o) as EL by (unfold zlen, image_mcus; rewrite map_length, idxs_length; nia).
  set (n := match jo_ct o, jo_sub o with Gray, _ => 1 | _, S444 => 3 | _, S420 => 6 end).
  assert (coded_blocks o = n * (mcus_across o * mcus_down o)) as EB.
  { unfold coded_blocks, n, pieces, mcus_across, mcus_down, factor. destruct (jo_ct o), (jo_sub o); change (8 * 1) with 8; change (8 * 2) with 16; lia. }
  assert (1 <= n) by (unfold n; destruct (jo_ct o), (jo_sub o); lia).
  split; [|split; [exact EL|nia]].
  assert (forall l : list (list (Z * list Z)), Forall (fun m => zlen m = n) l -> zlen (concat l) = n * zlen l) as K.
  { induction l as [|m l IH]; intros HF; [rewrite zlen_nil; cbn [concat]; rewrite zlen_nil; lia|]. apply Forall_cons_iff in HF as [H1 H2]. cbn [concat]. rewrite zlen_app, zlen_cons. specialize (IH H2). lia. }
  rewrite K; [lia|]. unfold image_mcus. apply Forall_map. apply Forall_forall. intros k _. unfold zlen. rewrite map_length. unfold mcu_places, n. cbv zeta.
  destruct (jo_ct o), (jo_sub o); reflexivity.
Qed.
Lemma coded_pos o : 1 <= jo_w o -> 1 <= jo_h o -> 1 <= coded_blocks o.
Proof.
  intros Hw Hh. assert (forall n k, 1 <= n -> 1 <= k -> 1 <= pieces n k) as K.
  { intros n k Hn Hk. unfold pieces. apply Z.div_le_lower_bound; lia. }
  unfold coded_blocks. pose proof (K _ 8 Hw ltac:(lia)). pose proof (K _ 8 Hh ltac:(lia)). pose proof (K _ 16 Hw ltac:(lia)). pose proof (K _ 16 Hh ltac:(lia)).
  destruct (jo_ct o), (jo_sub o); nia.
Qed.
Lemma baseline_len e data o : valid_args data o -> dctq_ok (je_dctq e) -> jo_prog o = false ->
  exists out, jencode e data o = Ok out /\ zlen out <= 1400 + 420 * coded_blocks o.
Proof.
  intros V HQ HP. destruct (jencode_baseline e data o V HQ HP) as (t & scan & E & HT & SC). eexists. split; [exact E|].
  destruct (image_mcus_ok _ data o V HQ) as (N & _ & F & _). destruct (blocks_count (je_dctq e) data o V) as (B1 & B2 & B3).
  assert (match jo_restart o with Some i => 0 < i | None => True end) as HR.
  { destruct V as (_ & _ & _ & _ & _ & _ & HR). destruct (jo_restart o); [lia|exact I]. }
  set (mcus := image_mcus (je_dctq e) data o) in *. clearbody mcus.
  rewrite <- map_map with (f := @concat _) (g := zzs) in SC.
  apply scan_len in SC; [|exact HT|].
  2:{ apply Forall_map. apply Forall_forall. intros iv Hiv. apply Forall_forall. intros cb Hcb. apply in_concat in Hcb as (m & Hm & Hcb).
      assert (In m mcus) as Hin by (rewrite <- (intervals_concat (jo_restart o) mcus HR); apply in_concat; eauto).
      rewrite Forall_forall in F. specialize (F m Hin). rewrite Forall_forall in F. auto. }
  rewrite total_concat, concat_map_concat, (intervals_concat _ _ HR), B1 in SC.
  pose proof (intervals_count (jo_restart o) mcus HR N) as IC. assert (zlen (map (@concat (Z * list Z)) (intervals (jo_restart o) mcus)) = zlen (intervals (jo_restart o) mcus)) as EM by (unfold zlen; rewrite map_length; reflexivity).
  rewrite EM in SC. pose proof (header_len 192 o t HT) as HH. unfold baseline_file. rewrite !zlen_app.
  assert (zlen (sos_segment (scan_comps (jo_ct o))) <= 14) as ES.
  { unfold sos_segment. rewrite zlen_marker. destruct (jo_ct o); cbn [scan_comps flat_map app]; rewrite !zlen_cons, zlen_nil; lia. }
  change (zlen [255; 217]) with 2. lia.
Qed.

(** ** progressive scans *)
Lemma put_len bits vals sym pre w b0 : tab_ok bits vals -> m_rep pre w b0 -> exists c l cw, get_code_from_table bits vals sym = Ok (c, l) /\
  m_rep pre (m_write w c l) (b0 ++ cw) /\ zlen cw <= 16.
Proof.
  intros T Hw. destruct (find_code bits vals sym T) as [(c & l & E & k & Kn & Ev & -> & ->)|[E N]].
  - pose proof (t_size bits vals T k Kn). eexists _, _, (msb (ln (huff_sizes bits) k) (canon (huff_sizes bits) k)). split; [exact E|]. split; [apply m_write_spec; auto; lia|]. rewrite zlen_msb; lia.
  - exists 0, 4, (msb 4 0). split; [exact E|]. split; [apply m_write_spec; auto; lia|]. rewrite zlen_msb; lia.
Qed.
Section ProgLen.
  Variables (t : htables) (lum : bool) (pre : list Z).
  Hypothesis HD : tab_ok (if lum then dc_lum_bits t else dc_chrom_bits t) (if lum then dc_lum_vals t else dc_chrom_vals t).
  Hypothesis HA : tab_ok (if lum then ac_lum_bits t else ac_chrom_bits t) (if lum then ac_lum_vals t else ac_chrom_vals t).

  Lemma ac_sym_len w b0 s : m_rep pre w b0 -> exists w' cw, write_ac_sym t lum w s = Ok w' /\ m_rep pre w' (b0 ++ cw) /\ zlen cw <= 16.
  Proof.
    intros Hw. destruct (put_len _ _ s pre w b0 HA Hw) as (c & l & cw & E & R & S). exists (m_write w c l), cw. split; [|auto].
    unfold write_ac_sym, get_ac_code. destruct lum; rewrite E; reflexivity.
  Qed.
  Lemma value_len w b0 a n : a <> 0 -> Z.abs a < 2 ^ n -> 0 <= n <= 15 -> m_rep pre w b0 -> exists w' bb, write_value w a = Ok w' /\ m_rep pre w' (b0 ++ bb) /\ zlen bb <= n.
  Proof.
    intros N H Hn Hw. pose proof (Z.pow_le_mono_r 2 n 15 ltac:(lia) ltac:(lia)). destruct (write_value_ok pre w b0 a N ltac:(lia) Hw) as (w' & E & R).
    exists w', (amplitude a (category a)). split; [exact E|]. split; [exact R|]. pose proof (category_le a n ltac:(lia) H). rewrite zlen_amplitude; lia.
  Qed.
  Lemma dc_first_len blocks : forall prev w b0, Forall (fun b => -1024 <= znth b 0 <= 1023) blocks -> -1024 <= prev <= 1023 -> m_rep pre w b0 ->
    exists w' bb, dc_first t lum blocks prev w = Ok w' /\ m_rep pre w' (b0 ++ bb) /\ zlen bb <= 27 * zlen blocks.
  Proof.
    induction blocks as [|b r IH]; intros prev w b0 HB HP Hw.
    - exists w, []. rewrite app_nil_r. split; [reflexivity|]. split; [exact Hw|]. rewrite !zlen_nil. lia.
    - apply Forall_cons_iff in HB as [Hb HB]. cbn [dc_first]. cbv zeta. set (d := znth b 0) in *. clearbody d. rewrite zlen_cons.
      assert (i16 (d - prev) = Ok (d - prev)) as -> by (unfold i16; change (2 ^ 15) with 32768; destruct (Z.leb_spec (- (32768)) (d - prev)), (Z.ltb_spec (d - prev) 32768); try reflexivity; lia).
      cbn [rbind]. destruct (put_len _ _ (category (d - prev)) pre w b0 HD Hw) as (c & l & cw & E & R & S).
      assert (get_dc_code t (category (d - prev)) lum = Ok (c, l)) as -> by (rewrite <- E; unfold get_dc_code; destruct lum; reflexivity).
      cbn [rbind]. destruct (Z.eq_dec (d - prev) 0) as [E0|N0].
      + assert (category (d - prev) = 0) as -> by (rewrite E0; reflexivity). change (0 >? 0) with false. cbv iota. cbn [rbind].
        destruct (IH d _ _ HB Hb R) as (w' & bb & EW & RW & SW). exists w', (cw ++ bb). split; [exact EW|]. rewrite app_assoc. split; [exact RW|]. rewrite zlen_app. lia.
      + destruct (category_spec _ N0) as [HS1 _]. destruct (Z.gtb_spec (category (d - prev)) 0); [|lia].
        destruct (value_len _ _ (d - prev) 11 N0 ltac:(change (2 ^ 11) with 2048; lia) ltac:(lia) R) as (w1 & bv & EV & RV & SV). rewrite EV. cbn [rbind].
        destruct (IH d w1 _ HB Hb RV) as (w' & bb & EW & RW & SW). exists w', ((cw ++ bv) ++ bb). split; [exact EW|].
        rewrite !app_assoc in *. split; [exact RW|]. rewrite !zlen_app. lia.
  Qed.
  Lemma flush_len w b0 e : 0 < e < 32768 -> m_rep pre w b0 -> exists w' bb, flush_eob_run t lum w e = Ok w' /\ m_rep pre w' (b0 ++ bb) /\ zlen bb <= 30.
  Proof.
    intros He Hw. pose proof (Z.log2_nonneg e) as L0. assert (Z.log2 e < 15) as L3 by (apply Z.log2_lt_pow2; [lia|change (2 ^ 15) with 32768; lia]).
    unfold flush_eob_run. destruct (Z.eqb_spec e 0); [lia|]. cbv zeta.
    destruct (ac_sym_len w b0 (wrap 8 (Z.shiftl (Z.log2 e) 4)) Hw) as (w1 & cw & E1 & R1 & S1). rewrite E1. cbn [rbind].
    destruct (Z.gtb_spec (Z.log2 e) 0) as [G|G].
    - eexists. exists (cw ++ msb (Z.log2 e) (e - Z.shiftl 1 (Z.log2 e))). split; [reflexivity|]. rewrite app_assoc. split; [apply m_write_spec; [exact R1|lia]|]. rewrite zlen_app, zlen_msb; lia.
    - exists w1, cw. split; [reflexivity|]. split; [exact R1|lia].
  Qed.
  Lemma first_zrl_len f : forall w b0 z, 0 <= z < 16 * Z.of_nat f + 16 -> m_rep pre w b0 ->
    exists w' bb, first_zrl f t lum w z = Ok (w', z mod 16) /\ m_rep pre w' (b0 ++ bb) /\ zlen bb <= z.
  Proof.
    induction f as [|f IH]; intros w b0 z Hz Hw; cbn [first_zrl]; destruct (Z.geb_spec z 16) as [G|G]; try lia.
    1,3: rewrite (Z.mod_small z 16) by lia; exists w, []; rewrite app_nil_r, zlen_nil; split; [reflexivity|]; split; [exact Hw|lia].
    assert (z mod 16 = (z - 16) mod 16) as Em by (replace z with ((z - 16) + 1 * 16) at 1 by lia; rewrite Z.mod_add by lia; reflexivity).
    destruct (ac_sym_len w b0 240 Hw) as (w1 & cw & E1 & R1 & S1). rewrite E1. cbn [rbind].
    destruct (IH w1 _ (z - 16) ltac:(lia) R1) as (w2 & bb & E2 & R2 & D2).
    exists w2, (cw ++ bb). rewrite E2, Em. split; [reflexivity|]. rewrite app_assoc. split; [exact R2|]. rewrite zlen_app. lia.
  Qed.
  Lemma first_coefs_len l : forall w b0 z, 0 <= z -> z + zlen l <= 63 -> Forall (fun a => Z.abs a <= 1023) l -> m_rep pre w b0 ->
    exists w' bb, first_coefs t lum w l z = Ok w' /\ m_rep pre w' (b0 ++ bb) /\ zlen bb <= 26 * zlen l + z.
  Proof.
    induction l as [|a r IH]; intros w b0 z Hz HL HR Hw.
    - exists w, []. rewrite !app_nil_r, !zlen_nil. split; [reflexivity|]. split; [exact Hw|]. lia.
    - apply Forall_cons_iff in HR as [Ha Hr]. rewrite zlen_cons in *. cbn [first_coefs]. pose proof (zlen_nonneg r) as Ln.
      destruct (Z.eqb_spec a 0) as [->|Na].
      + destruct (IH w b0 (z + 1) ltac:(lia) ltac:(lia) Hr Hw) as (w' & bb & E & R & D). exists w', bb. split; [exact E|]. split; [exact R|]. lia.
      + destruct (first_zrl_len 4 w b0 z ltac:(lia) Hw) as (w1 & b1 & E1 & R1 & D1). rewrite E1. cbn [rbind].
        match goal with |- context [write_ac_sym t lum w1 ?s] => destruct (ac_sym_len w1 _ s R1) as (w2 & cw & E2 & R2 & S2) end. rewrite E2. cbn [rbind].
        destruct (value_len w2 _ a 10 Na ltac:(change (2 ^ 10) with 1024; lia) ltac:(lia) R2) as (w3 & bv & E3 & R3 & S3). rewrite E3. cbn [rbind].
        destruct (IH w3 _ 0 ltac:(lia) ltac:(lia) Hr R3) as (w4 & b4 & E4 & R4 & D4).
        exists w4, (b1 ++ cw ++ bv ++ b4). split; [exact E4|]. split; [rewrite <- !app_assoc in R4; exact R4|]. rewrite !zlen_app. lia.
  Qed.
  Lemma enc_bands_len m bs : forall w b0 e, 0 <= e < 32767 -> Forall (fun b => zlen b <= m /\ Forall (fun a => Z.abs a <= 1023) b) bs -> 0 <= m <= 63 -> m_rep pre w b0 ->
    exists w' bb, enc_bands t lum bs w e = Ok w' /\ m_rep pre w' (b0 ++ bb) /\ zlen bb <= (30 + 26 * m) * zlen bs + 30.
  Proof.
    induction bs as [|b r IH]; intros w b0 e He HB Hm Hw.
    - cbn [enc_bands]. rewrite zlen_nil. destruct (Z.gtb_spec e 0).
      + destruct (flush_len w b0 e ltac:(lia) Hw) as (w' & bb & E & R & S). exists w', bb. split; [exact E|]. split; [exact R|lia].
      + exists w, []. rewrite app_nil_r, zlen_nil. split; [reflexivity|]. split; [exact Hw|lia].
    - apply Forall_cons_iff in HB as [[Hbl Hba] HB]. cbn [enc_bands]. rewrite zlen_cons. unfold enc_band.
      destruct (trim_spec b) as (k & Eb & _ & _). destruct (trim_zeros b) as [|x y] eqn:ET.
      + destruct (Z.ltb_spec (e + 1) (2 ^ 16)); [|change (2 ^ 16) with 65536 in *; lia].
        destruct (Z.eqb_spec (e + 1) 32767) as [EQ|NQ].
        * destruct (flush_len w b0 (e + 1) ltac:(lia) Hw) as (w1 & cw & E1 & R1 & S1). rewrite E1. cbn [rbind].
          destruct (IH w1 _ 0 ltac:(lia) HB Hm R1) as (w2 & bb & E2 & R2 & D2). exists w2, (cw ++ bb). split; [exact E2|].
          rewrite app_assoc. split; [exact R2|]. rewrite zlen_app. lia.
        * cbn [rbind]. destruct (IH w b0 (e + 1) ltac:(lia) HB Hm Hw) as (w2 & bb & E2 & R2 & D2). exists w2, bb. split; [exact E2|]. split; [exact R2|]. lia.
      + assert (zlen (x :: y) <= zlen b) as LB by (rewrite Eb, zlen_app; pose proof (zlen_nonneg (repeat 0 k)); lia).
        assert (Forall (fun a => Z.abs a <= 1023) (x :: y)) as FL by (rewrite Eb in Hba; apply Forall_app in Hba; apply Hba).
        set (l := x :: y) in *. clearbody l.
        assert (exists w1 bf, (if e >? 0 then flush_eob_run t lum w e else Ok w) = Ok w1 /\ m_rep pre w1 (b0 ++ bf) /\ zlen bf <= 30) as (w1 & bf & E1 & R1 & D1).
        { destruct (Z.gtb_spec e 0) as [G|G]; [apply flush_len; [lia|exact Hw]|]. exists w, []. rewrite app_nil_r, zlen_nil. split; [reflexivity|]. split; [exact Hw|lia]. }
        rewrite E1. cbn [rbind].
        destruct (first_coefs_len l w1 _ 0 ltac:(lia) ltac:(lia) FL R1) as (w2 & bc & E2 & R2 & D2). rewrite E2. cbn [rbind].
        destruct (IH w2 _ (if zlen l <? zlen b then 1 else 0) ltac:(destruct (zlen l <? zlen b); lia) HB Hm R2) as (w3 & bb & E3 & R3 & D3).
        exists w3, (bf ++ bc ++ bb). split; [exact E3|]. split; [rewrite <- !app_assoc in *; exact R3|]. rewrite !zlen_app. lia.
  Qed.
End ProgLen.

Lemma band_range10 c b ss se : coef_ok (c, b) -> 1 <= ss -> se <= 63 -> Forall (fun a => Z.abs a <= 1023) (band ss se b).
Proof.
  intros (_ & HL & HD & HA) H1 H2. cbn [snd] in *. unfold band. apply Forall_map, Forall_map, Forall_forall. intros i Hi. apply in_seq in Hi.
  assert (forall j, 1 <= j <= 63 -> 1 <= znth ZIGZAG j <= 63) as KZ.
  { intros j Hj. assert (forallb (fun j => (1 <=? znth ZIGZAG j) && (znth ZIGZAG j <=? 63)) (map Z.of_nat (seq 1 63)) = true) as K by reflexivity.
    rewrite forallb_forall in K. specialize (K j). rewrite andb_true_iff, !Z.leb_le in K. apply K. apply in_map_iff. exists (Z.to_nat j). split; [lia|apply in_seq; lia]. }
  pose proof (KZ (ss + Z.of_nat i) ltac:(lia)) as B. set (j := znth ZIGZAG (ss + Z.of_nat i)) in *. clearbody j.
  destruct b as [|d r]; [discriminate HL|]. cbn [skipn] in HA. unfold znth. replace (Z.to_nat j) with (S (Z.to_nat (j - 1))) by lia. cbn [nth].
  apply (Forall_nth_d (fun a => Z.abs a <= 1023)); [exact HA|lia].
Qed.
(** bits of a scan for every block *)
Definition scan_rate (ss se : Z) : Z := if ss =? 0 then 27 else 30 + 26 * (se - ss + 1).
Lemma prog_scan_len t mcus s : tabs_ok t -> Forall (Forall coef_ok) mcus -> In s prog_script ->
  let '(c, ss, se) := s in
  exists out, encode_prog_scan t mcus (mkscanspec [c] ss se 0 0) = Ok out /\ 4 * zlen out <= scan_rate ss se * zlen (comp_blocks mcus c) + 77.
Proof.
  destruct s as [[c ss] se]. intros HT HM Hin. pose proof (comp_blocks_ok mcus c HM) as HB.
  destruct (tabs_enc t c HT) as [[TD _] [TA _]].
  assert (forall w bits, m_rep [] w bits -> 4 * zlen (m_finish w) <= zlen bits + 7) as FIN.
  { intros w bits Hw. destruct (m_finish_spec [] w bits Hw) as (seg & l & E & B & U & L). cbn [app] in E. rewrite E. apply segment_len. split; [exact B|]. exists l. auto. }
  assert (tab_ok (if c =? 0 then dc_lum_bits t else dc_chrom_bits t) (if c =? 0 then dc_lum_vals t else dc_chrom_vals t)) as HD by (unfold tabs_of in TD; destruct (c =? 0); exact TD).
  assert (tab_ok (if c =? 0 then ac_lum_bits t else ac_chrom_bits t) (if c =? 0 then ac_lum_vals t else ac_chrom_vals t)) as HA by (unfold tabs_of in TA; destruct (c =? 0); exact TA).
  clear TD TA.
  assert (zlen (write_sos_progressive (mkscanspec [c] ss se 0 0)) = 10) as EH.
  { unfold prog_script in Hin. cbn [In] in Hin. decompose [or] Hin; try contradiction; match goal with H : _ = (c, ss, se) |- _ => injection H as <- <- <- end; reflexivity. }
  unfold encode_prog_scan. cbn [sc_comps sc_ss sc_se fold_res]. unfold scan_rate.
  assert ((ss = 0 /\ se = 0) \/ (ss <> 0 /\ 1 <= ss /\ se <= 63 /\ 0 < se - ss + 1 <= 63 /\ forall b, firstn (Z.to_nat (se - ss + 1)) (skipn (Z.to_nat ss) (zigzag_reorder b)) = band ss se b)) as CASES.
  { unfold prog_script in Hin. cbn [In] in Hin. decompose [or] Hin; try contradiction; match goal with H : _ = (c, ss, se) |- _ => injection H as <- <- <- end;
      [left; auto|left; auto|left; auto| | | |]; right; (split; [lia|]; split; [lia|]; split; [lia|]; split; [lia|]; intros b; reflexivity). }
  generalize dependent (comp_blocks mcus c). intros blocks HB.
  destruct CASES as [[-> ->]|(N & S1 & S2 & LB & EB)].
  - change ((0 =? 0) && (0 =? 0)) with true. change (0 =? 0) with true. cbv iota.
    destruct (dc_first_len t (c =? 0) [] HD HA blocks 0 m_new [] ltac:(eapply Forall_impl; [|exact HB]; intros b (_ & _ & H & _); exact H) ltac:(lia) m_rep_new) as (w & bb & E & R & S).
    rewrite E. cbn [rbind]. eexists. split; [reflexivity|]. pose proof (FIN w bb R). rewrite zlen_app, EH. lia.
  - destruct (Z.eqb_spec ss 0); [contradiction|]. cbn [andb]. rewrite (ac_first_bands t (c =? 0) ss se blocks EB).
    destruct (enc_bands_len t (c =? 0) [] HD HA (se - ss + 1) (map (band ss se) blocks) m_new [] 0 ltac:(lia)) as (w & bb & E & R & S).
    { apply Forall_map. eapply Forall_impl; [|exact HB]. intros b Hb. cbv beta. split; [|exact (band_range10 c b ss se Hb S1 S2)].
      unfold band, zlen. rewrite !map_length, seq_length. lia. }
    { lia. }
    { exact m_rep_new. }
    assert (zlen (map (band ss se) blocks) = zlen blocks) as EM by (unfold zlen; rewrite map_length; reflexivity). rewrite EM in S.
    rewrite E. cbn [rbind]. eexists. split; [reflexivity|]. pose proof (FIN w bb R). rewrite zlen_app, EH. lia.
Qed.
Lemma comp_counts mcus : Forall (Forall coef_ok) mcus ->
  zlen (comp_blocks mcus 0) + zlen (comp_blocks mcus 1) + zlen (comp_blocks mcus 2) = zlen (concat mcus).
Proof.
  intros HM. unfold comp_blocks. assert (Forall coef_ok (concat mcus)) as HF.
  { apply Forall_forall. intros x Hx. apply in_concat in Hx as (m & Hm & Hx). rewrite Forall_forall in HM. specialize (HM m Hm). rewrite Forall_forall in HM. auto. }
  induction (concat mcus) as [|[c b] r IH]; [reflexivity|]. apply Forall_cons_iff in HF as [(Hc & _) HF]. cbn [fst] in Hc. specialize (IH HF).
  cbn [filter fst]. assert (c = 0 \/ c = 1 \/ c = 2) as [->|[->| ->]] by lia; cbn [Z.eqb Pos.eqb map]; rewrite !zlen_cons; lia.
Qed.
Lemma progressive_len t mcus : tabs_ok t -> Forall (Forall coef_ok) mcus ->
  exists out, encode_progressive t mcus = Ok out /\ 4 * zlen out <= 1725 * zlen (concat mcus) + 539.
Proof.
  intros HT HM. pose proof (fun s => prog_scan_len t mcus s HT HM) as K. unfold encode_progressive.
  pose proof (comp_counts mcus HM) as CC.
  destruct (K (0, 0, 0) ltac:(unfold prog_script; cbn [In]; tauto)) as (o1 & E1 & L1). destruct (K (1, 0, 0) ltac:(unfold prog_script; cbn [In]; tauto)) as (o2 & E2 & L2).
  destruct (K (2, 0, 0) ltac:(unfold prog_script; cbn [In]; tauto)) as (o3 & E3 & L3). destruct (K (0, 1, 10) ltac:(unfold prog_script; cbn [In]; tauto)) as (o4 & E4 & L4).
  destruct (K (0, 11, 63) ltac:(unfold prog_script; cbn [In]; tauto)) as (o5 & E5 & L5). destruct (K (1, 1, 63) ltac:(unfold prog_script; cbn [In]; tauto)) as (o6 & E6 & L6).
  destruct (K (2, 1, 63) ltac:(unfold prog_script; cbn [In]; tauto)) as (o7 & E7 & L7).
  assert (map_res (encode_prog_scan t mcus) simple_progressive_script = Ok [o1; o2; o3; o4; o5; o6; o7]) as ->.
  { unfold simple_progressive_script. cbn [map_res]. rewrite E1; cbn [rbind]. rewrite E2; cbn [rbind]. rewrite E3; cbn [rbind]. rewrite E4; cbn [rbind]. rewrite E5; cbn [rbind]. rewrite E6; cbn [rbind]. rewrite E7; cbn [rbind]. reflexivity. }
  cbn [rbind concat]. eexists. split; [reflexivity|]. rewrite !zlen_app, zlen_nil.
  change (scan_rate 0 0) with 27 in *. change (scan_rate 1 10) with 290 in *. change (scan_rate 11 63) with 1408 in *. change (scan_rate 1 63) with 1668 in *.
  pose proof (zlen_nonneg (comp_blocks mcus 1)). pose proof (zlen_nonneg (comp_blocks mcus 2)). lia.
Qed.

Theorem jpeg_size e data o : valid_args data o -> quantisers_ok e -> exists out, jencode e data o = Ok out /\ zlen out <= size_bound o.
Proof.
  intros V [Q1 Q2]. pose proof V as (Hw & Hh & _). pose proof (coded_pos o ltac:(lia) ltac:(lia)) as CP. unfold size_bound. destruct (jo_prog o) eqn:HP.
  - destruct (image_scan_ok e data o V Q1) as (t & scan & ET & HT & _).
    set (q := if jo_trellis o then je_trellis e else je_dctq e). assert (dctq_ok q) as HQ by (subst q; destruct (jo_trellis o); assumption).
    destruct (image_mcus_ok q data o V HQ) as (_ & _ & HM & _). destruct (blocks_count q data o V) as (B1 & _).
    destruct (progressive_len t _ HT HM) as (scans & ES & LS). rewrite B1 in LS.
    unfold jencode. rewrite (jencode_into_valid e [] data o V). unfold jpeg_body. rewrite ET. cbn [rbind]. rewrite HP. fold q. rewrite (all_mcus_ok q data o V). cbn [rbind]. rewrite ES. cbn [rbind].
    eexists. split; [reflexivity|]. destruct V as (_ & _ & _ & _ & _ & HC & HR). pose proof (header_ok 194 t o HT Hw Hh HR) as HH. pose proof (header_len 194 o t HT) as HL. rewrite <- HH in HL.
    rewrite !zlen_app in *. change (zlen write_eoi) with 2. lia.
  - destruct (baseline_len e data o V Q1 HP) as (out & E & L). exists out. split; [exact E|]. lia.
Qed.
