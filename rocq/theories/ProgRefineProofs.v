(** The coding functions for successive approximation. *)
From Verif Require Import Base BitsModel BitsProofs CanonSpec CanonProofs Lz77Model PngFilterModel PngPaletteModel PngFilterProofs JpegBaseModel JpegHuffModel JpegDecModel JpegEncModel JpegBaseProofs MsbSpec MsbProofs JpegSpec JpegTabProofs JpegSymProofs JpegBlockProofs JpegFileSpec JpegProgSpec JpegEncProofs JpegCountProofs JpegProgProofs ProgRefineModel ProgRefineSpec.

(** ** the scans of the encoder are a special case *)
Lemma map_shiftr0 l : map (fun c => Z.shiftr c 0) l = l.
Proof. induction l as [|a l IH]; [reflexivity|]. cbn [map]. rewrite Z.shiftr_0_r, IH. reflexivity. Qed.
Lemma first_al0 t lum ss se w b e : encode_ac_first_al t lum ss se 0 w b e = encode_ac_first t lum ss se w b e.
Proof. unfold encode_ac_first_al, encode_ac_first. change (0 <? 16) with true. cbv iota zeta. rewrite map_shiftr0. reflexivity. Qed.
Lemma ac_first0 t lum ss se bs : forall w e, ac_scan_first t lum ss se 0 bs w e = ac_first t lum ss se bs w e.
Proof.
  induction bs as [|b r IH]; intros w e; [reflexivity|]. cbn [ac_scan_first ac_first]. rewrite first_al0.
  destruct (encode_ac_first t lum ss se w b e) as [[w' e']| | |]; cbn [rbind]; auto.
Qed.
Lemma category_0_iff v : category v = 0 <-> v = 0.
Proof.
  split; [|intros ->; reflexivity]. intros H. destruct (Z.eq_dec v 0) as [E|N]; [exact E|]. pose proof (category_has_size v N) as [H1 _]. lia.
Qed.
Lemma dc_first0 t lum bs : forall p w, dc_scan_first t lum 0 bs p w = dc_first t lum bs p w.
Proof.
  induction bs as [|b r IH]; intros p w; [reflexivity|]. cbn [dc_scan_first dc_first]. cbv zeta.
  destruct (i16 (znth b 0 - p)) as [d| | |]; cbn [rbind]; try reflexivity.
  unfold shr16 at 1. change (0 <? 16) with true. cbv iota. cbn [rbind]. rewrite Z.shiftr_0_r.
  destruct (get_dc_code t (category d) lum) as [[c l]| | |]; cbn [rbind]; try reflexivity.
  unfold encode_dc_first, shr16. change (0 <? 16) with true. cbv iota zeta. cbn [rbind fst snd]. rewrite Z.shiftr_0_r.
  destruct (Z.eqb_spec d 0) as [->|N].
  - change (category 0 >? 0) with false. cbv iota. cbn [rbind]. apply IH.
  - pose proof (category_has_size d N) as [H1 _]. destruct (Z.gtb_spec (category d) 0); [|lia].
    destruct (write_value (m_write w c l) d) as [w'| | |]; cbn [rbind]; auto.
Qed.
Lemma fold_res_ext {A B} (f g : A -> B -> res A) l : (forall a b, f a b = g a b) -> forall a, fold_res f l a = fold_res g l a.
Proof. intros H. induction l as [|x l IH]; intros a; [reflexivity|]. cbn [fold_res]. rewrite H. destruct (g a x); cbn [rbind]; auto. Qed.
Lemma simple_scan t mcus s : In s simple_progressive_script -> encode_scan_any t mcus s = encode_prog_scan t mcus s.
Proof.
  intros Hin. assert (sc_ah s = 0 /\ sc_al s = 0) as [EH EL] by (unfold simple_progressive_script in Hin; cbn [In] in Hin; decompose [or] Hin; subst; try contradiction; split; reflexivity).
  unfold encode_scan_any, encode_prog_scan, is_dc_scan, is_first_scan, is_refinement_scan. rewrite EH, EL. change (0 >? 0) with false. change (0 =? 0) with true. cbv iota.
  rewrite (fold_res_ext _ (fun w c => if (sc_ss s =? 0) && (sc_se s =? 0) then dc_first t (c =? 0) (comp_blocks mcus c) 0 w else ac_first t (c =? 0) (sc_ss s) (sc_se s) (comp_blocks mcus c) w 0)); [reflexivity|].
  intros w c. cbv zeta. rewrite dc_first0, ac_first0. reflexivity.
Qed.

(** ** first scans *)
Lemma shr_point al c : 0 <= al -> 0 <= c \/ c mod 2 ^ al = 0 -> Z.shiftr c al = ac_point al c.
Proof.
  intros Ha Hc. rewrite Z.shiftr_div_pow2 by exact Ha. unfold ac_point. pose proof (Z.pow_pos_nonneg 2 al ltac:(lia) Ha) as P.
  destruct (Z.lt_trichotomy c 0) as [L|[->|G]].
  - destruct Hc as [Hc|Hc]; [lia|]. rewrite (Z.sgn_neg c L), Z.abs_neq by lia. rewrite Z.div_opp_l_z by lia. lia.
  - reflexivity.
  - rewrite Z.sgn_pos, Z.abs_eq by lia. lia.
Qed.
Section Scan.
  Variables (t : htables) (lum : bool) (dcb dcv acb acv : list Z) (pre : list Z).
  Hypothesis HD : tab_ok dcb dcv.
  Hypothesis HA : tab_ok acb acv.
  Hypothesis ED : dcb = (if lum then dc_lum_bits t else dc_chrom_bits t) /\ dcv = (if lum then dc_lum_vals t else dc_chrom_vals t).
  Hypothesis EA : acb = (if lum then ac_lum_bits t else ac_chrom_bits t) /\ acv = (if lum then ac_lum_vals t else ac_chrom_vals t).

  Lemma ac_first_al_bands ss se al blocks : 0 <= al < 16 -> forall w e,
    ac_scan_first t lum ss se al blocks w e = enc_bands t lum (map (fun b => map (fun c => Z.shiftr c al) (zz_band ss se b)) blocks) w e.
  Proof.
    intros Hal. induction blocks as [|b r IH]; intros w e; [reflexivity|]. cbn [ac_scan_first enc_bands map].
    assert (encode_ac_first_al t lum ss se al w b e = enc_band t lum w (map (fun c => Z.shiftr c al) (zz_band ss se b)) e) as ->.
    { unfold encode_ac_first_al, enc_band. destruct (Z.ltb_spec al 16); [|lia]. reflexivity. }
    destruct (enc_band t lum w (map (fun c => Z.shiftr c al) (zz_band ss se b)) e) as [[w' e']| | |]; cbn [rbind]; [apply IH|reflexivity|reflexivity|reflexivity].
  Qed.
  Lemma ac_first_al_ok ss se al blocks w b0 : 0 <= al < 16 -> incl (band_syms (map (fun b => map (ac_point al) (zz_band ss se b)) blocks) 0) acv ->
    Forall (fun b => 0 < zlen (zz_band ss se b) <= 63 /\ Forall (fun c => - 2 ^ 15 < c < 2 ^ 15 /\ (0 <= c \/ c mod 2 ^ al = 0)) (zz_band ss se b)) blocks -> m_rep pre w b0 ->
    exists w' bb, ac_scan_first t lum ss se al blocks w 0 = Ok w' /\ m_rep pre w' (b0 ++ bb) /\
      band_code acb acv (map (fun b => map (ac_point al) (zz_band ss se b)) blocks) bb.
  Proof.
    intros Hal HI HB Hw. rewrite ac_first_al_bands by exact Hal.
    assert (map (fun b => map (fun c => Z.shiftr c al) (zz_band ss se b)) blocks = map (fun b => map (ac_point al) (zz_band ss se b)) blocks) as ->.
    { apply map_ext_in. intros b Hb. rewrite Forall_forall in HB. destruct (HB b Hb) as [_ HF]. apply map_ext_in. intros c Hc. rewrite Forall_forall in HF. apply shr_point; [lia|]. apply HF. exact Hc. }
    set (bs := map (fun b => map (ac_point al) (zz_band ss se b)) blocks).
    assert (PR : forall c, - 2 ^ 15 < c < 2 ^ 15 -> - 2 ^ 15 < ac_point al c < 2 ^ 15).
    { intros c Hc. unfold ac_point. pose proof (Z.pow_pos_nonneg 2 al ltac:(lia) ltac:(lia)) as P.
      assert (0 <= Z.abs c / 2 ^ al < 2 ^ 15).
      { split; [apply Z.div_pos; lia|]. apply Z.div_lt_upper_bound; [lia|]. nia. }
      pose proof (Z.sgn_spec c) as S. destruct S as [[S E]|[[S E]|[S E]]]; rewrite E; lia. }
    destruct (enc_bands_ok t lum dcb dcv acb acv pre HA ED EA bs w b0 0 ltac:(lia)) as (w' & bb & E & R & S).
    - unfold bs. apply Forall_map. eapply Forall_impl; [|exact HB]. intros b [L F]. cbv beta. split; [unfold zlen in *; rewrite map_length; exact L|].
      apply Forall_map. eapply Forall_impl; [|exact F]. intros c [Hc _]. apply PR. exact Hc.
    - exact Hw.
    - exists w', bb. split; [exact E|]. split; [exact R|]. exact (S HI).
  Qed.
  Lemma dc_first_al al blocks : 0 <= al < 16 -> Forall (fun b => -1024 <= znth b 0 <= 1023 /\ znth b 0 mod 2 ^ al = 0) blocks ->
    forall prev w, -1024 <= prev <= 1023 -> prev mod 2 ^ al = 0 ->
    dc_scan_first t lum al blocks prev w = dc_first t lum (map (fun b => [dc_point al (znth b 0)]) blocks) (dc_point al prev) w.
  Proof.
    intros Hal. induction blocks as [|b r IH]; intros HB prev w HP HM; [reflexivity|]. apply Forall_cons_iff in HB as [[Hb Mb] HB].
    cbn [dc_scan_first dc_first map]. cbv zeta. change (znth [dc_point al (znth b 0)] 0) with (dc_point al (znth b 0)).
    set (d := znth b 0) in *. clearbody d. pose proof (Z.pow_pos_nonneg 2 al ltac:(lia) ltac:(lia)) as P.
    assert (ED1 : d = 2 ^ al * dc_point al d) by (unfold dc_point; pose proof (Z.div_mod d (2 ^ al) ltac:(lia)); lia).
    assert (ED2 : prev = 2 ^ al * dc_point al prev) by (unfold dc_point; pose proof (Z.div_mod prev (2 ^ al) ltac:(lia)); lia).
    assert (i16 (d - prev) = Ok (d - prev)) as -> by (unfold i16; change (2 ^ 15) with 32768; destruct (Z.leb_spec (- (32768)) (d - prev)), (Z.ltb_spec (d - prev) 32768); try reflexivity; lia).
    cbn [rbind]. unfold shr16 at 1. destruct (Z.ltb_spec al 16); [|lia]. cbn [rbind].
    assert (ES : Z.shiftr (d - prev) al = dc_point al d - dc_point al prev).
    { rewrite Z.shiftr_div_pow2 by lia. replace (d - prev) with ((dc_point al d - dc_point al prev) * 2 ^ al) by lia. apply Z.div_mul. lia. }
    rewrite ES. set (s := dc_point al d - dc_point al prev) in *.
    assert (HS : -2047 <= s <= 2047) by nia.
    assert (i16 s = Ok s) as -> by (unfold i16; change (2 ^ 15) with 32768; destruct (Z.leb_spec (- (32768)) s), (Z.ltb_spec s 32768); try reflexivity; lia).
    cbn [rbind]. destruct (get_dc_code t (category s) lum) as [[c l]| | |]; cbn [rbind]; try reflexivity.
    unfold encode_dc_first, shr16. destruct (Z.ltb_spec al 16); [|lia]. cbv iota zeta. cbn [rbind fst snd]. rewrite ES. fold s. clearbody s.
    destruct (Z.eqb_spec s 0) as [->|N].
    - change (category 0 >? 0) with false. cbv iota. cbn [rbind]. apply IH; auto.
    - pose proof (category_has_size s N) as [H1 _]. destruct (Z.gtb_spec (category s) 0); [|lia].
      destruct (write_value (m_write w c l) s) as [w'| | |]; cbn [rbind]; auto.
  Qed.
  Lemma dc_first_al_ok al blocks w b0 : 0 <= al < 16 -> Forall (fun b => -1024 <= znth b 0 <= 1023 /\ znth b 0 mod 2 ^ al = 0) blocks ->
    incl (prog_dc_syms 0 (map (fun b => dc_point al (znth b 0)) blocks)) dcv -> m_rep pre w b0 ->
    exists w' bb, dc_scan_first t lum al blocks 0 w = Ok w' /\ m_rep pre w' (b0 ++ bb) /\ dc_scan_code dcb dcv 0 (map (fun b => dc_point al (znth b 0)) blocks) bb.
  Proof.
    intros Hal HB HI Hw. pose proof (Z.pow_pos_nonneg 2 al ltac:(lia) ltac:(lia)) as P.
    rewrite (dc_first_al al blocks Hal HB 0 w ltac:(lia) ltac:(apply Z.mod_0_l; lia)). unfold dc_point at 2. rewrite Z.div_0_l by lia.
    destruct (dc_first_ok t lum dcb dcv acb acv pre HD ED EA (map (fun b => [dc_point al (znth b 0)]) blocks) 0 w b0) as (w' & bb & E & R & S).
    - apply Forall_map. eapply Forall_impl; [|exact HB]. intros b [Hb Mb]. cbv beta. change (znth [dc_point al (znth b 0)] 0) with (dc_point al (znth b 0)).
      set (d := znth b 0) in *. assert (ED1 : d = 2 ^ al * dc_point al d) by (unfold dc_point; pose proof (Z.div_mod d (2 ^ al) ltac:(lia)); lia). nia.
    - lia.
    - exact Hw.
    - rewrite map_map in S. cbn beta in S. exists w', bb. split; [exact E|]. split; [exact R|]. exact (S HI).
  Qed.
End Scan.

(** ** DC refinement *)
Lemma msb1 v : 0 <= v <= 1 -> msb 1 v = [Z.odd v].
Proof. intros H. assert (v = 0 \/ v = 1) as [-> | ->] by lia; reflexivity. Qed.
Lemma land1 a : Z.land a 1 = Z.b2z (Z.odd a).
Proof. change 1 with (Z.ones 1) at 1. rewrite Z.land_ones by lia. change (2 ^ 1) with 2. rewrite Zmod_odd. destruct (Z.odd a); reflexivity. Qed.
Lemma land1_range a : 0 <= Z.land a 1 <= 1.
Proof. rewrite land1. destruct (Z.odd a); cbn; lia. Qed.
Lemma odd_land a : Z.odd (Z.land a 1) = Z.odd a.
Proof. rewrite land1. destruct (Z.odd a); reflexivity. Qed.
Lemma odd_abs v : Z.odd (Z.abs v) = Z.odd v.
Proof. destruct v as [|p|p]; reflexivity. Qed.
Lemma dc_refine_ok pre blocks : forall prev w b0, Forall (fun b => -1024 <= znth b 0 <= 1023) blocks -> -1024 <= prev <= 1023 -> m_rep pre w b0 ->
  exists w', dc_scan_refine 0 blocks prev w = Ok w' /\ m_rep pre w' (b0 ++ dc_refine_bits 0 (map (fun b => znth b 0) blocks)).
Proof.
  induction blocks as [|b r IH]; intros prev w b0 HB HP Hw.
  - exists w. cbn. rewrite app_nil_r. auto.
  - apply Forall_cons_iff in HB as [Hb HB]. cbn [dc_scan_refine map]. cbv zeta. set (d := znth b 0) in *.
    assert (i16 (d - prev) = Ok (d - prev)) as -> by (unfold i16; change (2 ^ 15) with 32768; destruct (Z.leb_spec (- (32768)) (d - prev)), (Z.ltb_spec (d - prev) 32768); try reflexivity; lia).
    cbn [rbind]. unfold encode_dc_refine, shr16. change (0 <? 16) with true. cbv iota. cbn [rbind]. rewrite Z.shiftr_0_r.
    destruct (IH d (m_write w (Z.land (Z.abs d) 1) 1) (b0 ++ [Z.odd d]) HB Hb) as (w' & E & R).
    { replace [Z.odd d] with (msb 1 (Z.land (Z.abs d) 1)) by (rewrite msb1 by apply land1_range; rewrite odd_land, odd_abs; reflexivity). apply m_write_spec; [exact Hw|lia]. }
    exists w'. split; [exact E|]. rewrite <- app_assoc in R. unfold dc_refine_bits in *. cbn [map]. unfold dc_point at 1. change (2 ^ 0) with 1. rewrite Z.div_1_r. exact R.
Qed.

(** ** AC refinement *)
Lemma write_bits1_ok pre l : forall w b0, m_rep pre w b0 -> m_rep pre (write_bits1 w (map Z.b2z l)) (b0 ++ l).
Proof.
  induction l as [|b l IH]; intros w b0 Hw; cbn [map]; [rewrite app_nil_r; exact Hw|]. unfold write_bits1. cbn [fold_left].
  replace (b0 ++ b :: l) with ((b0 ++ [b]) ++ l) by (rewrite <- app_assoc; reflexivity). apply IH.
  replace [b] with (msb 1 (Z.b2z b)) by (destruct b; reflexivity). apply m_write_spec; [exact Hw|lia].
Qed.
Lemma level_nonneg al c : 0 <= al -> 0 <= level al c.
Proof. intros H. unfold level. apply Z.div_pos; [lia|]. apply Z.pow_pos_nonneg; lia. Qed.
Lemma zeros_nonneg al l : 0 <= zeros_of al l.
Proof. apply zlen_nonneg. Qed.
Lemma zeros_snoc al l c : zeros_of al (l ++ [c]) = zeros_of al l + (if level al c =? 0 then 1 else 0).
Proof. unfold zeros_of. rewrite filter_app, zlen_app. cbn [filter]. destruct (level al c =? 0); [rewrite zlen_cons|]; rewrite zlen_nil; lia. Qed.
Lemma corrections_snoc al l c : corrections al (l ++ [c]) = corrections al l ++ (if 2 <=? level al c then [Z.odd (level al c)] else []).
Proof. unfold corrections. rewrite filter_app, map_app. cbn [filter]. destruct (2 <=? level al c); reflexivity. Qed.
Lemma quiet_tail al l : 0 <= al -> no_new al l -> corrections al l = [] -> zeros_of al l = zlen l.
Proof.
  intros Ha. induction l as [|c l IH]; intros HN HC; [reflexivity|]. apply Forall_cons_iff in HN as [Hc HN]. pose proof (level_nonneg al c Ha) as P.
  unfold corrections, zeros_of in *. cbn [filter] in *. destruct (Z.leb_spec 2 (level al c)) as [G|G]; [discriminate HC|].
  destruct (Z.eqb_spec (level al c) 0); [|lia]. rewrite !zlen_cons. rewrite IH by auto. reflexivity.
Qed.
Lemma ends_new_tail al h t : ends_new al (h ++ t) -> no_new al t -> corrections al t = [].
Proof.
  intros HE. revert h HE. induction t as [|c t IH]; intros h HE HN; [reflexivity|]. apply Forall_cons_iff in HN as [Hc HN].
  unfold corrections. cbn [filter]. destruct (Z.leb_spec 2 (level al c)) as [G|G].
  - exfalso. exact (HE h c t eq_refl G HN).
  - apply (IH (h ++ [c])); [rewrite <- app_assoc; exact HE|exact HN].
Qed.
Section Refine.
  Variables (t : htables) (lum : bool) (dcb dcv acb acv : list Z) (pre : list Z) (al : Z).
  Hypothesis HA : tab_ok acb acv.
  Hypothesis ED : dcb = (if lum then dc_lum_bits t else dc_chrom_bits t) /\ dcv = (if lum then dc_lum_vals t else dc_chrom_vals t).
  Hypothesis EA : acb = (if lum then ac_lum_bits t else ac_chrom_bits t) /\ acv = (if lum then ac_lum_vals t else ac_chrom_vals t).
  Hypothesis HI : incl refine_symbols acv.
  Hypothesis Hal : 0 <= al < 16.

  Lemma eob_sym n : 0 <= n <= 15 -> In (16 * n) acv.
  Proof.
    intros H. apply HI. unfold refine_symbols. apply in_or_app. left. apply in_map_iff. exists (Z.to_nat n). split; [lia|]. apply in_seq. lia.
  Qed.
  Lemma run_sym r : 0 <= r <= 15 -> In (16 * r + 1) acv.
  Proof.
    intros H. apply HI. unfold refine_symbols. apply in_or_app. right. apply in_map_iff. exists (Z.to_nat r). split; [lia|]. apply in_seq. lia.
  Qed.
  (** the symbol of a pending run *)
  Definition pending (e : Z) (fb : list bool) : Prop :=
    (e = 0 /\ fb = []) \/ (0 < e /\ exists cw, sym_code acb acv (16 * Z.log2 e) cw /\ fb = cw ++ msb (Z.log2 e) (e - 2 ^ Z.log2 e)).
  Lemma flush_pending w b0 e : 0 <= e < 32768 -> m_rep pre w b0 ->
    exists w' fb, (if e >? 0 then flush_eob_run t lum w e else Ok w) = Ok w' /\ m_rep pre w' (b0 ++ fb) /\ pending e fb.
  Proof.
    intros He Hw. destruct (Z.gtb_spec e 0) as [G|G].
    - destruct (flush_ok t lum dcb dcv acb acv pre HA ED EA w b0 e ltac:(lia) Hw) as (w' & cw & E & R & S). destruct (log_props e ltac:(lia)) as [P1 P2].
      exists w', (cw ++ msb (Z.log2 e) (e - 2 ^ Z.log2 e)). split; [exact E|]. split; [exact R|]. right. split; [lia|]. exists cw. split; [apply S, eob_sym; lia|reflexivity].
    - exists w, []. rewrite app_nil_r. split; [reflexivity|]. split; [exact Hw|]. left. split; [lia|reflexivity].
  Qed.
  Lemma old_test c : Z.abs c <= 2 ^ al \/ 2 ^ (al + 1) <= Z.abs c ->
    (Z.abs c >? Z.shiftl 1 al) = (2 <=? level al c) /\ (level al c < 2 -> negb (Z.land (Z.shiftr (Z.abs c) al) 1 =? 0) = (level al c =? 1)) /\
    Z.land (Z.shiftr (Z.abs c) al) 1 = Z.b2z (Z.odd (level al c)).
  Proof.
    intros HC. pose proof (Z.pow_pos_nonneg 2 al ltac:(lia) ltac:(lia)) as P. rewrite Z.pow_add_r in HC by lia. change (2 ^ 1) with 2 in HC.
    rewrite Z.shiftl_1_l, Z.shiftr_div_pow2 by lia. fold (level al c). rewrite land1. unfold level. set (a := Z.abs c) in *. set (q := 2 ^ al) in *.
    assert (0 <= a) as A0 by lia. pose proof (Z.div_mod a q ltac:(lia)) as DM. pose proof (Z.mod_pos_bound a q ltac:(lia)) as MB. pose proof (Z.div_pos a q A0 P) as DP.
    split; [|split; [|reflexivity]].
    - destruct (Z.gtb_spec a q) as [G|G], (Z.leb_spec 2 (a / q)) as [L|L]; try reflexivity; exfalso; destruct HC; nia.
    - intros L. assert (a / q = 0 \/ a / q = 1) as [-> | ->] by lia; reflexivity.
  Qed.
  Lemma refine_coefs_ok l : forall w b0 p e, no_new al p -> clear_cut al l -> short_gaps al (p ++ l) -> 0 <= e < 32768 -> m_rep pre w b0 ->
    exists w' e' h tl, refine_coefs t lum al l w (zeros_of al p) (map Z.b2z (corrections al p)) e = Ok (w', zeros_of al tl, map Z.b2z (corrections al tl), e') /\
      p ++ l = h ++ tl /\ no_new al tl /\
      ((h = [] /\ e' = e /\ w' = w) \/ (h <> [] /\ e' = 0 /\ exists fb bb, pending e fb /\ refine_code acb acv al h bb /\ m_rep pre w' (b0 ++ fb ++ bb))).
  Proof.
    induction l as [|c r IH]; intros w b0 p e HN HC HG He Hw; cbn [refine_coefs].
    - exists w, e, [], p. rewrite app_nil_r. split; [reflexivity|]. split; [reflexivity|]. split; [exact HN|]. left. auto.
    - apply Forall_cons_iff in HC as [Hc HC]. destruct (old_test c Hc) as (T1 & T2 & T3). cbv zeta. rewrite T1, T3.
      pose proof (level_nonneg al c ltac:(lia)) as LN.
      assert (EA1 : p ++ c :: r = (p ++ [c]) ++ r) by (rewrite <- app_assoc; reflexivity).
      destruct (Z.leb_spec 2 (level al c)) as [G|G].
      + specialize (IH w b0 (p ++ [c]) e). rewrite zeros_snoc, corrections_snoc in IH. destruct (Z.eqb_spec (level al c) 0); [lia|]. destruct (Z.leb_spec 2 (level al c)); [|lia].
        rewrite Z.add_0_r, map_app in IH. cbn [map] in IH. rewrite EA1.
        apply IH; auto; [apply Forall_app; split; [exact HN|constructor; [lia|constructor]]|rewrite <- EA1; exact HG].
      + rewrite <- T3, (T2 G). destruct (Z.eqb_spec (level al c) 1) as [E1|N1].
        * assert (HZ : zeros_of al p < 16) by (apply (HG [] p c r eq_refl E1 HN)). pose proof (zeros_nonneg al p) as HZ0.
          destruct (flush_pending w b0 e He Hw) as (w1 & fb & EF & RF & PF). rewrite EF. cbn [rbind].
          cbn [refine_zrl]. destruct (Z.geb_spec (zeros_of al p) 16); [lia|]. cbn [rbind]. rewrite rs_sym by lia.
          destruct (write_ac_sym_ok t lum dcb dcv acb acv pre HA ED EA w1 _ (16 * zeros_of al p + 1) RF) as (w2 & cw & E2 & R2 & S2). rewrite E2. cbn [rbind].
          assert (R3 : m_rep pre (m_write w2 (if c <? 0 then 0 else 1) 1) (((b0 ++ fb) ++ cw) ++ [0 <? c])).
          { replace [0 <? c] with (msb 1 (if c <? 0 then 0 else 1)); [apply m_write_spec; [exact R2|lia]|].
            destruct (Z.ltb_spec c 0) as [Q|Q], (Z.ltb_spec 0 c) as [Q'|Q']; try reflexivity; try lia.
            assert (c = 0) as -> by lia. unfold level in E1. cbn in E1. rewrite Z.div_0_l in E1 by (apply Z.pow_nonzero; lia). discriminate E1. }
          pose proof (write_bits1_ok pre (corrections al p) _ _ R3) as R4.
          assert (SG : short_gaps al ([] ++ r)).
          { intros p' m c' q' E' L' N'. apply (HG (p ++ c :: p') m c' q'); auto. cbn [app] in E'. rewrite E', <- app_assoc. reflexivity. }
          destruct (IH _ _ [] 0 (Forall_nil _) HC SG (conj (Z.le_refl 0) (eq_refl : 0 < 32768)) R4) as (w' & e' & h & tl & EQ & ES & NT & DJ).
          cbn [app] in ES. change (zeros_of al []) with 0 in EQ. change (map Z.b2z (corrections al [])) with (@nil Z) in EQ.
          exists w', e', (p ++ c :: h), tl. split; [exact EQ|]. split; [rewrite ES, <- app_assoc; reflexivity|]. split; [exact NT|]. right.
          split; [destruct p; discriminate|].
          assert (SC : sym_code acb acv (16 * zeros_of al p + 1) cw) by (apply S2, run_sym; lia).
          destruct DJ as [(-> & -> & ->)|(NE & -> & fb2 & bb & PF2 & RC & RR)].
          -- split; [reflexivity|]. exists fb, (cw ++ (0 <? c) :: corrections al p ++ []). split; [exact PF|]. split; [apply rc_new; auto; constructor|].
             rewrite app_nil_r. rewrite <- !app_assoc in R4. exact R4.
          -- split; [reflexivity|]. destruct PF2 as [[_ ->]|[C _]]; [|lia]. exists fb, (cw ++ (0 <? c) :: corrections al p ++ bb). split; [exact PF|]. split; [apply rc_new; auto|].
             rewrite <- !app_assoc in RR. exact RR.
        * assert (level al c = 0) as L0 by lia. specialize (IH w b0 (p ++ [c]) e). rewrite zeros_snoc, corrections_snoc in IH. rewrite L0 in IH. change (0 =? 0) with true in IH. change (2 <=? 0) with false in IH. cbv iota in IH. rewrite app_nil_r in IH.
          rewrite EA1. apply IH; auto; [apply Forall_app; split; [exact HN|constructor; [lia|constructor]]|rewrite <- EA1; exact HG].
  Qed.

  (** a block seen as its band *)
  Definition ref_band (w : bwm) (band : list Z) (eob_run : Z) : res (bwm * Z) :=
    if (al <? 16) && forallb (fun c => negb (c =? -32768)) band then
      let* (w, zero_run, corr, eob_run) := refine_coefs t lum al band w 0 [] eob_run in
      let* (w, eob_run) :=
        (if (zero_run >? 0) || negb (zlen corr =? 0) then
           if eob_run + 1 <? 2 ^ 16 then
             if eob_run + 1 =? 32767 then let* w := flush_eob_run t lum w (eob_run + 1) in Ok (w, 0)
             else Ok (w, eob_run + 1)
           else Panic
         else Ok (w, eob_run)) in
      Ok (write_bits1 w corr, eob_run)
    else Panic.
  Fixpoint ref_bands (bs : list (list Z)) (w : bwm) (e : Z) : res bwm :=
    match bs with
    | [] => if e >? 0 then flush_eob_run t lum w e else Ok w
    | b :: r => let* (w, e) := ref_band w b e in ref_bands r w e
    end.
  Lemma scan_bands ss se blocks : forall w e, ac_scan_refine t lum ss se al blocks w e = ref_bands (map (zz_band ss se) blocks) w e.
  Proof.
    induction blocks as [|b r IH]; intros w e; [reflexivity|]. cbn [ac_scan_refine ref_bands map].
    change (encode_ac_refine t lum ss se al w b e) with (ref_band w (zz_band ss se b) e).
    destruct (ref_band w (zz_band ss se b) e) as [[w' e']| | |]; cbn [rbind]; auto.
  Qed.
  Definition ref_tail (e : Z) (r : list (list Z)) (bb : list bool) : Prop :=
    if e =? 0 then refine_bands acb acv al r bb else
      exists zs r' n w b2, r = zs ++ r' /\ Forall (no_new al) zs /\ concat (map (corrections al) zs) = [] /\ 0 <= n <= 14 /\ 2 ^ n <= e + zlen zs < 2 ^ (n + 1) /\
        sym_code acb acv (16 * n) w /\ refine_bands acb acv al r' b2 /\ bb = w ++ msb n (e + zlen zs - 2 ^ n) ++ b2.
  Definition good_band (b : list Z) : Prop :=
    b <> [] /\ Forall (fun c => - 2 ^ 15 < c < 2 ^ 15) b /\ clear_cut al b /\ short_gaps al b /\ ends_new al b.
  Lemma pending_tail e fb r bb : 0 <= e < 32768 -> pending e fb -> refine_bands acb acv al r bb -> ref_tail e r (fb ++ bb).
  Proof.
    intros He HP HR. unfold ref_tail. destruct HP as [[-> ->]|(G & cw & S & ->)]; [exact HR|]. destruct (Z.eqb_spec e 0); [lia|].
    destruct (log_props e ltac:(lia)) as [P1 P2]. exists [], r, (Z.log2 e), cw, bb. rewrite zlen_nil, Z.add_0_r, app_assoc.
    split; [reflexivity|]. split; [constructor|]. split; [reflexivity|]. auto.
  Qed.
  Lemma coded_ref_tail h tl r b1 bb : refine_code acb acv al h b1 -> no_new al tl -> corrections al tl = [] -> ref_tail (if (0 <? zlen tl) then 1 else 0) r bb ->
    refine_bands acb acv al ((h ++ tl) :: r) (b1 ++ bb).
  Proof.
    intros HC HN HR HT. unfold ref_tail in HT. destruct (Z.ltb_spec 0 (zlen tl)) as [G|G].
    - change (1 =? 0) with false in HT. cbv iota in HT. destruct HT as (zs & r' & n & w & b2 & -> & Z0 & C0 & Hn & Hr & HS & HB & ->).
      assert (concat (map (corrections al) (tl :: zs)) = []) as CC by (cbn [map concat]; rewrite HR, C0; reflexivity).
      assert (tl <> []) as NE by (intros ->; rewrite zlen_nil in G; lia).
      pose proof (rb_eob acb acv al h tl n zs r' w b1 b2 HC NE HN Z0 Hn Hr HS HB) as K. rewrite CC in K. exact K.
    - assert (tl = []) as -> by (destruct tl; [reflexivity|rewrite zlen_cons in G; pose proof (zlen_nonneg tl); lia]). rewrite app_nil_r. change (0 =? 0) with true in HT. cbv iota in HT. apply rb_full; auto.
  Qed.
  Lemma ref_bands_ok bs : forall w b0 e, 0 <= e < 32767 -> Forall good_band bs -> m_rep pre w b0 ->
    exists w' bb, ref_bands bs w e = Ok w' /\ m_rep pre w' (b0 ++ bb) /\ ref_tail e bs bb.
  Proof.
    induction bs as [|b r IH]; intros w b0 e He HB Hw.
    - cbn [ref_bands]. destruct (flush_pending w b0 e ltac:(lia) Hw) as (w' & fb & E & R & P). exists w', fb. split; [exact E|]. split; [exact R|].
      rewrite <- (app_nil_r fb). apply pending_tail; [lia|exact P|constructor].
    - apply Forall_cons_iff in HB as [(NB & RB & CB & GB & EB) HB]. cbn [ref_bands]. unfold ref_band.
      destruct (Z.ltb_spec al 16); [|lia].
      assert (forallb (fun c => negb (c =? -32768)) b = true) as ->.
      { apply forallb_forall. intros c Hc. rewrite Forall_forall in RB. specialize (RB c Hc). change (2 ^ 15) with 32768 in RB. destruct (Z.eqb_spec c (-32768)); [lia|reflexivity]. }
      cbn [andb].
      destruct (refine_coefs_ok b w b0 [] e (Forall_nil _) CB GB ltac:(lia) Hw) as (w1 & e1 & h & tl & E1 & EB1 & NT & DJ).
      change (zeros_of al []) with 0 in E1. change (map Z.b2z (corrections al [])) with (@nil Z) in E1. cbn [app] in EB1. rewrite E1. cbn [rbind]. clear E1.
      assert (CT : corrections al tl = []) by (apply (ends_new_tail al h); [rewrite <- EB1; exact EB|exact NT]).
      rewrite CT. cbn [map]. change (negb (zlen (@nil Z) =? 0)) with false. rewrite orb_false_r. rewrite (quiet_tail al tl ltac:(lia) NT CT).
      change (write_bits1 ?w []) with w. pose proof (zlen_nonneg tl) as ZT.
      destruct DJ as [(-> & -> & ->)|(NE & -> & fb & bb1 & PF & RC & RR)].
      + cbn [app] in EB1. subst tl. assert (0 < zlen b) as LB by (destruct b; [contradiction|rewrite zlen_cons; pose proof (zlen_nonneg b); lia]).
        destruct (Z.gtb_spec (zlen b) 0); [|lia]. destruct (Z.ltb_spec (e + 1) (2 ^ 16)); [|change (2 ^ 16) with 65536 in *; lia].
        assert (forall e' bb, e' = e + 1 -> ref_tail e' r bb -> ref_tail e (b :: r) bb) as EXT.
        { intros e' bb -> HT. unfold ref_tail in *. destruct (Z.eqb_spec (e + 1) 0) as [Q|_]; [lia|]. destruct HT as (zs & r' & n & cw & b2 & -> & Z0 & C0 & Hn & Hr & HS & HC & ->).
          assert (concat (map (corrections al) (b :: zs)) = []) as CC by (cbn [map concat]; rewrite CT, C0; reflexivity).
          destruct (Z.eqb_spec e 0) as [->|Ne].
          - change (0 + 1) with 1 in *. pose proof (rb_eob acb acv al [] b n zs r' cw [] b2 (rc_nil acb acv al) NB NT Z0 Hn Hr HS HC) as K. rewrite CC in K. exact K.
          - exists (b :: zs), r', n, cw, b2. rewrite zlen_cons. replace (e + (1 + zlen zs)) with (e + 1 + zlen zs) by lia.
            split; [reflexivity|]. split; [constructor; assumption|]. split; [exact CC|]. auto. }
        destruct (Z.eqb_spec (e + 1) 32767) as [EQ|NQ].
        * destruct (flush_pending w b0 (e + 1) ltac:(lia) Hw) as (w1 & fb & E1 & R1 & P1). destruct (Z.gtb_spec (e + 1) 0); [|lia]. rewrite E1. cbn [rbind].
          destruct (IH w1 _ 0 ltac:(lia) HB R1) as (w2 & bb & E2 & R2 & D2). exists w2, (fb ++ bb). split; [exact E2|]. rewrite app_assoc. split; [exact R2|].
          apply (EXT (e + 1) _ eq_refl). apply pending_tail; [lia|exact P1|exact D2].
        * cbn [rbind]. destruct (IH w b0 (e + 1) ltac:(lia) HB Hw) as (w2 & bb & E2 & R2 & D2). exists w2, bb. split; [exact E2|]. split; [exact R2|].
          apply (EXT (e + 1) bb eq_refl). exact D2.
      + assert (EX : exists w2 e2, (if zlen tl >? 0 then if 0 + 1 <? 2 ^ 16 then if 0 + 1 =? 32767 then let* w := flush_eob_run t lum w1 (0 + 1) in Ok (w, 0) else Ok (w1, 0 + 1) else Panic else Ok (w1, 0)) = Ok (w2, e2) /\ w2 = w1 /\ e2 = if 0 <? zlen tl then 1 else 0).
        { exists w1, (if 0 <? zlen tl then 1 else 0). split; [|auto]. change (0 + 1) with 1. change (1 <? 2 ^ 16) with true. change (1 =? 32767) with false. cbv iota.
          destruct (Z.gtb_spec (zlen tl) 0), (Z.ltb_spec 0 (zlen tl)); try reflexivity; lia. }
        destruct EX as (w2 & e2 & -> & -> & ->). cbn [rbind].
        destruct (IH w1 _ (if 0 <? zlen tl then 1 else 0) ltac:(destruct (0 <? zlen tl); lia) HB RR) as (w3 & bb & E3 & R3 & D3).
        exists w3, (fb ++ bb1 ++ bb). split; [exact E3|]. split; [rewrite <- !app_assoc in *; exact R3|].
        apply pending_tail; [lia|exact PF|]. rewrite EB1. apply coded_ref_tail; auto.
  Qed.
End Refine.
