(** The progressive scans of the encoder. *)
From Verif Require Import Base BitsModel BitsProofs CanonSpec CanonProofs Lz77Model PngFilterModel PngPaletteModel PngFilterProofs JpegBaseModel JpegHuffModel JpegDecModel JpegEncModel JpegBaseProofs MsbSpec MsbProofs JpegSpec JpegTabProofs JpegSymProofs JpegBlockProofs JpegFileSpec JpegProgSpec JpegEncProofs JpegCountProofs.

(** ** reading a code off the table specification *)
Section Find.
  Variables (bits vals : list Z) (sym : Z).
  Hypothesis T : tab_ok bits vals.
  Local Notation sizes := (huff_sizes bits).
  Local Notation n := (length sizes).
  Let Hlen := t_len bits vals T.
  Let Hnn := t_nn bits vals T.
  Let Hk := t_kraft bits vals T.
  Let Hvl := t_vlen bits vals T.
  Definition found (c l : Z) : Prop := exists k, (k < n)%nat /\ znth vals (Z.of_nat k) = sym /\ c = canon sizes k /\ l = ln sizes k.

  Lemma find_inner_ok l c : forall k, 1 <= l <= 16 -> Z.of_nat k + Z.of_nat c = pos_of bits (l + 1) -> pos_of bits l <= Z.of_nat k ->
    (exists cd, (exists v' c', find_inner c sym l (skipn k vals) (first sizes l + (Z.of_nat k - pos_of bits l)) = Ok (Some (cd, l), v', c')) /\ found cd l) \/
    (find_inner c sym l (skipn k vals) (first sizes l + (Z.of_nat k - pos_of bits l)) = Ok (None, skipn (k + c) vals, first sizes l + znth bits (l - 1)) /\
     forall j, (k <= j < k + c)%nat -> znth vals (Z.of_nat j) <> sym).
  Proof.
    induction c as [|c IH]; intros k Hl Hc Hp.
    - right. cbn [find_inner]. rewrite Nat.add_0_r. split; [|intros j Hj; lia]. repeat f_equal. rewrite (pos_succ bits Hlen) in Hc by lia. lia.
    - pose proof (pos_mono bits Hlen Hnn (l + 1) 17 ltac:(lia) ltac:(lia)) as P17. rewrite (pos_17 bits Hlen Hnn) in P17.
      assert (k < n)%nat as Hkn by lia.
      assert (ln sizes k = l) as El by (apply (size_iff bits Hlen Hnn); auto; lia).
      pose proof (canon_at bits Hlen Hnn k Hkn) as Ec.  rewrite El in Ec.
      pose proof (canon_lt16 bits Hlen Hnn Hk k Hkn) as C16.
      cbn [find_inner]. rewrite (skipn_val bits Hlen vals Hvl k Hkn). rewrite <- Ec.
      destruct (Z.eqb_spec (znth vals (Z.of_nat k)) sym) as [E|N].
      + left. exists (canon sizes k). split; [eexists; eexists; reflexivity|]. exists k. auto.
      + destruct (Z.ltb_spec (canon sizes k + 1) (2 ^ 16)); [|lia]. cbn [tl].
        replace (canon sizes k + 1) with (first sizes l + (Z.of_nat (S k) - pos_of bits l)) by lia.
        destruct (IH (S k) Hl ltac:(lia) ltac:(lia)) as [F|[E F]]; [left; exact F|right].
        replace (k + S c)%nat with (S k + c)%nat by lia. split; [exact E|].
        intros j Hj. destruct (Nat.eq_dec j k) as [->|]; [exact N|apply F; lia].
  Qed.
  Lemma find_outer_ok m : forall l, Z.of_nat m = 17 - l -> 1 <= l <= 17 -> (forall j, Z.of_nat j < pos_of bits l -> znth vals (Z.of_nat j) <> sym) ->
    let r := find_outer (skipn (Z.to_nat (l - 1)) bits) sym l (skipn (Z.to_nat (pos_of bits l)) vals) (if l <? 17 then first sizes l else wrap 16 (first sizes l)) in
    (exists c len, r = Ok (c, len) /\ found c len) \/ (r = Ok (0, 4) /\ forall j, (j < n)%nat -> znth vals (Z.of_nat j) <> sym).
  Proof.
    induction m as [|m IH]; intros l Hm Hl HF; cbv zeta.
    - assert (l = 17) as -> by lia. rewrite (skipn_all2 bits) by (rewrite Hlen; apply Nat.le_refl). right. split; [reflexivity|].
      intros j Hj. apply HF. rewrite (pos_17 bits Hlen Hnn). lia.
    - assert (1 <= l <= 16) as Hl' by lia. rewrite (skipn_bits bits Hlen vals Hvl l Hl'). cbn [find_outer].
      destruct (Z.ltb_spec l 17); [|lia].
      pose proof (pos_nonneg bits Hnn l) as Pn. pose proof (pos_succ bits Hlen l Hl') as Ps. pose proof (bits_nth_nonneg bits Hlen Hnn (l - 1)) as Bn.
      pose proof (find_inner_ok l (Z.to_nat (znth bits (l - 1))) (Z.to_nat (pos_of bits l)) Hl' ltac:(lia) ltac:(lia)) as FI.
      replace (first sizes l + (Z.of_nat (Z.to_nat (pos_of bits l)) - pos_of bits l)) with (first sizes l) in FI by lia.
      destruct FI as [(cd & (v' & c' & E) & F)|[E F]]; rewrite E; cbn [rbind].
      + left. exists cd, l. auto.
      + rewrite (first_wrap bits Hlen Hnn Hk vals Hvl l Hl').
        replace (Z.to_nat (pos_of bits l) + Z.to_nat (znth bits (l - 1)))%nat with (Z.to_nat (pos_of bits (l + 1))) in * by lia.
        specialize (IH (l + 1) ltac:(lia) ltac:(lia)). cbv zeta in IH. replace (l + 1 - 1) with l in IH by lia.
        replace (if l + 1 <? 17 then first sizes (l + 1) else wrap 16 (first sizes (l + 1))) with (if l <? 16 then first sizes (l + 1) else wrap 16 (first sizes (l + 1))) in IH
          by (destruct (Z.ltb_spec l 16), (Z.ltb_spec (l + 1) 17); auto; lia).
        apply IH. intros j Hj. destruct (Z.lt_ge_cases (Z.of_nat j) (pos_of bits l)) as [L|G]; [apply HF; exact L|apply F; lia].
  Qed.
  Lemma find_code : (exists c len, get_code_from_table bits vals sym = Ok (c, len) /\ found c len) \/
    (get_code_from_table bits vals sym = Ok (0, 4) /\ ~ In sym vals).
  Proof.
    assert (get_code_from_table bits vals sym = find_outer (skipn (Z.to_nat (1 - 1)) bits) sym 1 (skipn (Z.to_nat (pos_of bits 1)) vals)
      (if 1 <? 17 then first sizes 1 else wrap 16 (first sizes 1))) as -> by (unfold get_code_from_table; change (1 <? 17) with true; cbv iota; rewrite first_1; reflexivity).
    destruct (find_outer_ok 16 1 eq_refl ltac:(lia) ltac:(intros j Hj; rewrite (pos_1 bits) in Hj; lia)) as [F|[E F]].
    - left. exact F.
    - right. split; [exact E|]. intros Hin. apply (In_nth _ _ 0) in Hin as (k & Hk' & Ek). rewrite Hvl in Hk'. apply (F k Hk').
      unfold znth. rewrite Nat2Z.id. exact Ek.
  Qed.
  (** writing a symbol always works; it writes the code of the symbol if there is one *)
  Lemma put_sym_ok pre w b0 : m_rep pre w b0 -> exists c l cw, get_code_from_table bits vals sym = Ok (c, l) /\ m_rep pre (m_write w c l) (b0 ++ cw) /\
    (In sym vals -> sym_code bits vals sym cw).
  Proof.
    intros Hw. destruct find_code as [(c & l & E & k & Kn & Ev & -> & ->)|[E N]].
    - exists (canon sizes k), (ln sizes k), (code_word sizes k). split; [exact E|]. split.
      + rewrite code_word_msb. apply m_write_spec; auto. pose proof (t_size bits vals T k Kn). lia.
      + intros _. exists k. split; [rewrite Hvl; exact Kn|]. split; [rewrite <- Ev; unfold znth; rewrite Nat2Z.id; reflexivity|].
        rewrite spec_sizes_eq by exact Hlen. reflexivity.
    - exists 0, 4, (msb 4 0). split; [exact E|]. split; [apply m_write_spec; auto; lia|]. intros H. contradiction.
  Qed.
End Find.

Lemma trim_spec l : exists k, l = trim_zeros l ++ repeat 0 k /\ trim_zeros (trim_zeros l) = trim_zeros l /\ (trim_zeros l = [] <-> zero_band l).
Proof.
  induction l as [|a r (k & E & I & Z0)]; [exists 0%nat; split; [reflexivity|]; split; [reflexivity|split; [constructor|reflexivity]]|].
  cbn [trim_zeros]. destruct (trim_zeros r) as [|b t] eqn:ET.
  - destruct (Z.eqb_spec a 0) as [->|N].
    + exists (S k). split; [rewrite E at 1; reflexivity|]. split; [reflexivity|]. split; [|reflexivity]. intros _. constructor; [reflexivity|apply Z0; reflexivity].
    + exists k. split; [rewrite E at 1; reflexivity|]. split; [cbn [trim_zeros]; destruct (Z.eqb_spec a 0); [contradiction|reflexivity]|].
      split; [discriminate|]. intros H. apply Forall_cons_iff in H as [H _]. congruence.
  - exists k. split; [rewrite E at 1; reflexivity|]. split.
    + cbn [trim_zeros] in *. rewrite I. reflexivity.
    + split; [discriminate|]. intros H. apply Forall_cons_iff in H as [_ H]. apply Z0 in H. discriminate H.
Qed.

Lemma drop_trim l : drop_zeros l = trim_zeros l.
Proof. induction l as [|a r IH]; [reflexivity|]. cbn [drop_zeros trim_zeros]. rewrite IH. reflexivity. Qed.

Section Prog.
  Variables (t : htables) (lum : bool) (dcb dcv acb acv : list Z) (pre : list Z).
  Hypothesis HD : tab_ok dcb dcv.
  Hypothesis HA : tab_ok acb acv.
  Hypothesis ED : dcb = (if lum then dc_lum_bits t else dc_chrom_bits t) /\ dcv = (if lum then dc_lum_vals t else dc_chrom_vals t).
  Hypothesis EA : acb = (if lum then ac_lum_bits t else ac_chrom_bits t) /\ acv = (if lum then ac_lum_vals t else ac_chrom_vals t).

  Lemma write_ac_sym_ok w b0 s : m_rep pre w b0 -> exists w' cw, write_ac_sym t lum w s = Ok w' /\ m_rep pre w' (b0 ++ cw) /\ (In s acv -> sym_code acb acv s cw).
  Proof.
    intros Hw. destruct (put_sym_ok acb acv s HA pre w b0 Hw) as (c & l & cw & E & R & S). exists (m_write w c l), cw. split; [|auto].
    unfold write_ac_sym, get_ac_code. destruct EA as [-> ->]. destruct lum; rewrite E; reflexivity.
  Qed.
  Lemma dc_first_ok blocks : forall prev w b0, Forall (fun b => -1024 <= znth b 0 <= 1023) blocks -> -1024 <= prev <= 1023 -> m_rep pre w b0 ->
    exists w' bb, dc_first t lum blocks prev w = Ok w' /\ m_rep pre w' (b0 ++ bb) /\
      (incl (prog_dc_syms prev (map (fun b => znth b 0) blocks)) dcv -> dc_scan_code dcb dcv prev (map (fun b => znth b 0) blocks) bb).
  Proof.
    induction blocks as [|b r IH]; intros prev w b0 HB HP Hw.
    - exists w, []. rewrite app_nil_r. split; [reflexivity|]. split; [exact Hw|]. intros _. constructor.
    - apply Forall_cons_iff in HB as [Hb HB]. cbn [dc_first map prog_dc_syms]. cbv zeta.
      set (d := znth b 0) in *. clearbody d.
      assert (i16 (d - prev) = Ok (d - prev)) as -> by (unfold i16; change (2 ^ 15) with 32768; destruct (Z.leb_spec (- (32768)) (d - prev)), (Z.ltb_spec (d - prev) 32768); try reflexivity; lia).
      cbn [rbind].
      destruct (put_sym_ok dcb dcv (category (d - prev)) HD pre w b0 Hw) as (c & l & cw & E & R & S).
      assert (get_dc_code t (category (d - prev)) lum = Ok (c, l)) as ->.
      { destruct ED as [E1 E2]. rewrite <- E, E1, E2. unfold get_dc_code. destruct lum; reflexivity. }
      cbn [rbind]. destruct (Z.eq_dec (d - prev) 0) as [E0|N0].
      + assert (category (d - prev) = 0) as EC by (rewrite E0; reflexivity). rewrite EC in *. change (0 >? 0) with false. cbv iota. cbn [rbind].
        destruct (IH d (m_write w c l) _ HB Hb R) as (w' & bb & EW & RW & SW). exists w', (cw ++ bb). split; [exact EW|]. rewrite app_assoc. split; [exact RW|].
        intros HI. constructor; [rewrite E0; constructor; apply S; apply HI; left; reflexivity|apply SW; intros x Hx; apply HI; right; exact Hx].
      + pose proof (category_has_size _ N0) as HS. pose proof HS as [HS1 HS2].
        destruct (Z.gtb_spec (category (d - prev)) 0); [|lia].
        destruct (write_value_ok pre (m_write w c l) _ (d - prev) N0 ltac:(change (2 ^ 15) with 32768; lia) R) as (w1 & EV & RV). rewrite EV. cbn [rbind].
        destruct (IH d w1 _ HB Hb RV) as (w' & bb & EW & RW & SW). exists w', ((cw ++ amplitude (d - prev) (category (d - prev))) ++ bb). split; [exact EW|].
        rewrite !app_assoc in *. split; [exact RW|]. intros HI. constructor.
        * constructor; [exact HS| |apply S, HI; left; reflexivity]. pose proof (category_le (d - prev) 15 ltac:(lia) ltac:(change (2 ^ 15) with 32768; lia)). lia.
        * apply SW. intros x Hx. apply HI. right. exact Hx.
  Qed.

  Lemma flush_ok w b0 e : 0 < e < 32768 -> m_rep pre w b0 -> exists w' cw, flush_eob_run t lum w e = Ok w' /\
    m_rep pre w' (b0 ++ cw ++ msb (Z.log2 e) (e - 2 ^ Z.log2 e)) /\ (In (16 * Z.log2 e) acv -> sym_code acb acv (16 * Z.log2 e) cw).
  Proof.
    intros He Hw. pose proof (Z.log2_spec e ltac:(lia)) as [L1 L2]. pose proof (Z.log2_nonneg e) as L0.
    assert (Z.log2 e < 15) as L3 by (apply Z.log2_lt_pow2; [lia|change (2 ^ 15) with 32768; lia]).
    unfold flush_eob_run. destruct (Z.eqb_spec e 0); [lia|]. cbv zeta.
    assert (wrap 8 (Z.shiftl (Z.log2 e) 4) = 16 * Z.log2 e) as ->.
    { rewrite Z.shiftl_mul_pow2 by lia. change (2 ^ 4) with 16. rewrite wrap_id by (change (2 ^ 8) with 256; lia). lia. }
    destruct (write_ac_sym_ok w b0 (16 * Z.log2 e) Hw) as (w1 & cw & E1 & R1 & S1). rewrite E1. cbn [rbind].
    destruct (Z.gtb_spec (Z.log2 e) 0) as [G|G].
    - eexists. exists cw. split; [reflexivity|]. split; [|exact S1]. rewrite shiftl1 by lia. rewrite app_assoc. apply m_write_spec; [exact R1|lia].
    - assert (Z.log2 e = 0) as Z0 by lia. exists w1, cw. split; [reflexivity|]. split; [|exact S1]. rewrite Z0. cbn. rewrite app_nil_r. exact R1.
  Qed.

  Lemma first_zrl_ok f : forall w b0 z, 0 <= z < 16 * Z.of_nat f + 16 -> m_rep pre w b0 ->
    exists w' bb, first_zrl f t lum w z = Ok (w', z mod 16) /\ m_rep pre w' (b0 ++ bb) /\
      ((z / 16 > 0 -> In 240 acv) -> forall l b, l <> [] -> coefs_code acb acv (repeat 0 (Z.to_nat (z mod 16)) ++ l) b -> coefs_code acb acv (repeat 0 (Z.to_nat z) ++ l) (bb ++ b)).
  Proof.
    induction f as [|f IH]; intros w b0 z Hz Hw; cbn [first_zrl]; destruct (Z.geb_spec z 16) as [G|G]; try lia.
    1,3: rewrite (Z.mod_small z 16) by lia; exists w, []; rewrite app_nil_r; split; [reflexivity|]; split; [exact Hw|]; auto.
    assert (z / 16 = (z - 16) / 16 + 1) as Ed by (replace z with ((z - 16) + 1 * 16) at 1 by lia; rewrite Z.div_add by lia; lia).
    assert (z mod 16 = (z - 16) mod 16) as Em by (replace z with ((z - 16) + 1 * 16) at 1 by lia; rewrite Z.mod_add by lia; reflexivity).
    pose proof (Z.div_pos (z - 16) 16 ltac:(lia) ltac:(lia)) as Dp.
    destruct (write_ac_sym_ok w b0 240 Hw) as (w1 & cw & E1 & R1 & S1). rewrite E1. cbn [rbind].
    destruct (IH w1 _ (z - 16) ltac:(lia) R1) as (w2 & bb & E2 & R2 & D2).
    exists w2, (cw ++ bb). rewrite E2, Em. split; [reflexivity|]. rewrite app_assoc. split; [exact R2|].
    intros Hin l b NE HC. rewrite (repeat_split z 16) by lia. rewrite <- !app_assoc. apply cc_zrl; [apply S1, Hin; lia| |intros C; apply app_eq_nil in C as [_ C]; contradiction].
    apply D2; auto. intros _. apply Hin. lia.
  Qed.
  Lemma first_coefs_ok l : forall w b0 z, 0 <= z -> z + zlen l <= 63 -> Forall (fun a => - 2 ^ 15 < a < 2 ^ 15) l ->
    trim_zeros l = l -> (l = [] -> z = 0) -> m_rep pre w b0 ->
    exists w' bb, first_coefs t lum w l z = Ok w' /\ m_rep pre w' (b0 ++ bb) /\ (incl (coef_syms l z) acv -> coefs_code acb acv (repeat 0 (Z.to_nat z) ++ l) bb).
  Proof.
    induction l as [|a r IH]; intros w b0 z Hz HL HR HT HN Hw.
    - rewrite (HN eq_refl). exists w, []. rewrite !app_nil_r. split; [reflexivity|]. split; [exact Hw|]. intros _. constructor.
    - apply Forall_cons_iff in HR as [Ha Hr]. rewrite zlen_cons in HL. cbn [first_coefs coef_syms]. pose proof (zlen_nonneg r) as Ln.
      assert (trim_zeros r = r /\ (r = [] -> a <> 0)) as [TR TN].
      { cbn [trim_zeros] in HT. destruct (trim_zeros r) as [|x y]; [destruct (Z.eqb_spec a 0); [discriminate HT|]; injection HT as <-; auto|].
        injection HT as E. split; [exact E|]. intros ->. discriminate E. }
      destruct (Z.eqb_spec a 0) as [->|Na].
      + destruct (IH w b0 (z + 1) ltac:(lia) ltac:(lia) Hr TR ltac:(intros C; exfalso; apply (TN C); reflexivity) Hw) as (w' & bb & E & R & D). exists w', bb.
        split; [exact E|]. split; [exact R|]. intros HI. specialize (D HI).
        replace (repeat 0 (Z.to_nat z) ++ 0 :: r) with (repeat 0 (Z.to_nat (z + 1)) ++ r); [exact D|].
        rewrite (repeat_split (z + 1) z) by lia. replace (z + 1 - z) with 1 by lia. rewrite <- app_assoc. reflexivity.
      + pose proof (Z.mod_pos_bound z 16 ltac:(lia)) as Mz. pose proof (Z.div_mod z 16 ltac:(lia)) as DMz.
        pose proof (Z.div_pos z 16 ltac:(lia) ltac:(lia)) as Dz.
        pose proof (category_le a 15 ltac:(lia) ltac:(lia)) as Ca.
        destruct (first_zrl_ok 4 w b0 z ltac:(lia) Hw) as (w1 & b1 & E1 & R1 & D1). rewrite E1. cbn [rbind]. rewrite rs_sym by lia.
        set (sym := 16 * (z mod 16) + category a) in *.
        destruct (write_ac_sym_ok w1 _ sym R1) as (w2 & cw & E2 & R2 & S2). rewrite E2. cbn [rbind].
        destruct (write_value_ok pre w2 _ a Na Ha R2) as (w3 & E3 & R3). rewrite E3. cbn [rbind].
        destruct (IH w3 _ 0 ltac:(lia) ltac:(lia) Hr TR ltac:(auto) R3) as (w4 & b4 & E4 & R4 & D4).
        exists w4, (b1 ++ cw ++ amplitude a (category a) ++ b4). split; [exact E4|].
        split; [rewrite <- !app_assoc in R4; exact R4|]. intros HI. apply D1.
        * intros G. apply HI, in_or_app. left. destruct (Z.to_nat (z / 16)) eqn:Ez; [lia|left; reflexivity].
        * discriminate.
        * apply cc_value; [lia|apply category_has_size; exact Na|lia|apply S2, HI, in_or_app; right; left; reflexivity|].
          apply D4. intros x Hx. apply HI, in_or_app. right. right. exact Hx.
  Qed.

  (** a block seen as its band *)
  Definition enc_band (w : bwm) (b : list Z) (eob_run : Z) : res (bwm * Z) :=
    match trim_zeros b with
    | [] =>
        if eob_run + 1 <? 2 ^ 16 then
          if eob_run + 1 =? 32767 then let* w := flush_eob_run t lum w (eob_run + 1) in Ok (w, 0)
          else Ok (w, eob_run + 1)
        else Panic
    | l =>
        let* w := (if eob_run >? 0 then flush_eob_run t lum w eob_run else Ok w) in
        let* w := first_coefs t lum w l 0 in
        Ok (w, if zlen l <? zlen b then 1 else 0)
    end.
  Fixpoint enc_bands (bs : list (list Z)) (w : bwm) (e : Z) : res bwm :=
    match bs with
    | [] => if e >? 0 then flush_eob_run t lum w e else Ok w
    | b :: r => let* (w, e) := enc_band w b e in enc_bands r w e
    end.
  (** the bits still to come when [e] bands are pending *)
  Definition tail_code (e : Z) (r : list (list Z)) (bb : list bool) : Prop :=
    if e =? 0 then band_code acb acv r bb else
      exists zs r' n w b2, r = zs ++ r' /\ Forall zero_band zs /\ 0 <= n <= 14 /\ 2 ^ n <= e + zlen zs < 2 ^ (n + 1) /\
        sym_code acb acv (16 * n) w /\ band_code acb acv r' b2 /\ bb = w ++ msb n (e + zlen zs - 2 ^ n) ++ b2.
  Lemma log_props e : 0 < e < 32768 -> 0 <= Z.log2 e <= 14 /\ 2 ^ Z.log2 e <= e < 2 ^ (Z.log2 e + 1).
  Proof.
    intros He. pose proof (Z.log2_spec e ltac:(lia)) as [L1 L2]. pose proof (Z.log2_nonneg e) as L0.
    assert (Z.log2 e < 15) as L3 by (apply Z.log2_lt_pow2; [lia|change (2 ^ 15) with 32768; lia]). unfold Z.succ in L2. lia.
  Qed.
  (** a band whose coefficients are coded, followed by what comes after *)
  Lemma coded_tail h k r b1 bb : coefs_code acb acv h b1 -> tail_code (if (0 <? k)%nat then 1 else 0) r bb ->
    band_code acb acv ((h ++ repeat 0 k) :: r) (b1 ++ bb).
  Proof.
    intros HC HT. unfold tail_code in HT. destruct (Nat.ltb_spec 0 k) as [G|G].
    - change (1 =? 0) with false in HT. cbv iota in HT. destruct HT as (zs & r' & n & w & b2 & -> & Z0 & Hn & Hr & HS & HB & ->).
      exact (bc_eob acb acv h k n zs r' w b1 b2 HC G Z0 Hn Hr HS HB).
    - assert (k = 0%nat) as -> by lia. cbn [repeat]. rewrite app_nil_r. change (0 =? 0) with true in HT. cbv iota in HT. apply bc_full; auto.
  Qed.
  Lemma enc_bands_ok bs : forall w b0 e, 0 <= e < 32767 -> Forall (fun b => 0 < zlen b <= 63 /\ Forall (fun a => - 2 ^ 15 < a < 2 ^ 15) b) bs -> m_rep pre w b0 ->
    exists w' bb, enc_bands bs w e = Ok w' /\ m_rep pre w' (b0 ++ bb) /\ (incl (band_syms bs e) acv -> tail_code e bs bb).
  Proof.
    induction bs as [|b r IH]; intros w b0 e He HB Hw.
    - cbn [enc_bands band_syms]. unfold tail_code. destruct (Z.eqb_spec e 0) as [->|N].
      + exists w, []. rewrite app_nil_r. split; [reflexivity|]. split; [exact Hw|]. intros _. constructor.
      + destruct (Z.gtb_spec e 0); [|lia]. destruct (flush_ok w b0 e ltac:(lia) Hw) as (w' & cw & E & R & S).
        exists w', (cw ++ msb (Z.log2 e) (e - 2 ^ Z.log2 e)). split; [exact E|]. split; [exact R|]. intros HI.
        destruct (log_props e ltac:(lia)) as [P1 P2].
        exists [], [], (Z.log2 e), cw, []. rewrite zlen_nil, Z.add_0_r. split; [reflexivity|]. split; [constructor|]. split; [exact P1|]. split; [exact P2|].
        split; [apply S, HI; left; reflexivity|]. split; [apply bc_nil|rewrite app_nil_r; reflexivity].
    - apply Forall_cons_iff in HB as [[Hbl Hba] HB]. cbn [enc_bands band_syms]. rewrite drop_trim. unfold enc_band.
      destruct (trim_spec b) as (k & Eb & TT & TZ). destruct (trim_zeros b) as [|x y] eqn:ET.
      + assert (zero_band b) as ZB by (apply TZ; reflexivity). cbn [app] in Eb. assert (0 < k)%nat as Kp by (destruct k; [rewrite Eb in Hbl; change (repeat 0 0) with (@nil Z) in Hbl; rewrite zlen_nil in Hbl; lia|lia]).
        destruct (Z.ltb_spec (e + 1) (2 ^ 16)); [|change (2 ^ 16) with 65536 in *; lia].
        (* extending a pending run by the band *)
        assert (forall e' bb, e' = e + 1 -> tail_code e' r bb -> tail_code e (b :: r) bb) as EXT.
        { intros e' bb -> HT. unfold tail_code in *. destruct (Z.eqb_spec (e + 1) 0) as [Q|_]; [lia|]. destruct HT as (zs & r' & n & cw & b2 & -> & Z0 & Hn & Hr & HS & HC & ->).
          destruct (Z.eqb_spec e 0) as [->|Ne].
          - rewrite Eb. change (repeat 0 k) with ([] ++ repeat 0 k). change (0 + 1) with 1 in *.
            exact (bc_eob acb acv [] k n zs r' cw [] b2 (cc_nil acb acv) Kp Z0 Hn Hr HS HC).
          - exists (b :: zs), r', n, cw, b2. rewrite zlen_cons. replace (e + (1 + zlen zs)) with (e + 1 + zlen zs) by lia.
            split; [reflexivity|]. split; [constructor; assumption|]. auto. }
        destruct (Z.eqb_spec (e + 1) 32767) as [EQ|NQ].
        * destruct (flush_ok w b0 (e + 1) ltac:(lia) Hw) as (w1 & cw & E1 & R1 & S1). rewrite E1. cbn [rbind].
          destruct (IH w1 _ 0 ltac:(lia) HB R1) as (w2 & bb & E2 & R2 & D2).
          exists w2, (cw ++ msb (Z.log2 (e + 1)) (e + 1 - 2 ^ Z.log2 (e + 1)) ++ bb). split; [exact E2|].
          split; [rewrite <- !app_assoc in *; exact R2|]. intros HI. apply (EXT (e + 1) _ eq_refl). unfold tail_code.
          destruct (Z.eqb_spec (e + 1) 0); [lia|]. destruct (log_props (e + 1) ltac:(lia)) as [P1 P2].
          exists [], r, (Z.log2 (e + 1)), cw, bb. rewrite zlen_nil, Z.add_0_r. split; [reflexivity|]. split; [constructor|]. split; [exact P1|]. split; [exact P2|].
          split; [apply S1; rewrite EQ; apply HI; left; reflexivity|]. split; [|reflexivity].
          apply D2. intros s Hs. apply HI. right. exact Hs.
        * cbn [rbind]. destruct (IH w b0 (e + 1) ltac:(lia) HB Hw) as (w2 & bb & E2 & R2 & D2). exists w2, bb. split; [exact E2|]. split; [exact R2|].
          intros HI. apply (EXT (e + 1) bb eq_refl). apply D2. exact HI.
      + assert (zlen (x :: y) <= zlen b) as LB by (rewrite Eb, zlen_app; pose proof (zlen_nonneg (repeat 0 k)); lia).
        assert (Forall (fun a => - 2 ^ 15 < a < 2 ^ 15) (x :: y)) as FL by (rewrite Eb in Hba; apply Forall_app in Hba; apply Hba).
        assert (zlen b = zlen (x :: y) + Z.of_nat k) as LK by (rewrite Eb at 1; rewrite zlen_app, zlen_repeat; lia).
        set (l := x :: y) in *. assert (l <> []) as NE by (subst l; discriminate). clearbody l.
        assert (exists w1 bf, (if e >? 0 then flush_eob_run t lum w e else Ok w) = Ok w1 /\ m_rep pre w1 (b0 ++ bf) /\
          (incl (if e >? 0 then [16 * Z.log2 e] else []) acv -> forall bb, band_code acb acv (b :: r) bb -> tail_code e (b :: r) (bf ++ bb))) as (w1 & bf & E1 & R1 & D1).
        { unfold tail_code. destruct (Z.gtb_spec e 0) as [G|G].
          - destruct (Z.eqb_spec e 0); [lia|]. destruct (flush_ok w b0 e ltac:(lia) Hw) as (w1 & cw & E1 & R1 & S1).
            exists w1, (cw ++ msb (Z.log2 e) (e - 2 ^ Z.log2 e)). split; [exact E1|]. split; [exact R1|]. intros HI bb HBC.
            destruct (log_props e ltac:(lia)) as [P1 P2]. exists [], (b :: r), (Z.log2 e), cw, bb. rewrite zlen_nil, Z.add_0_r, app_assoc.
            split; [reflexivity|]. split; [constructor|]. split; [exact P1|]. split; [exact P2|]. split; [apply S1, HI; left; reflexivity|]. split; [exact HBC|reflexivity].
          - assert (e = 0) as -> by lia. exists w, []. rewrite app_nil_r. split; [reflexivity|]. split; [exact Hw|]. intros _ bb HBC. exact HBC. }
        rewrite E1. cbn [rbind].
        destruct (first_coefs_ok l w1 _ 0 ltac:(lia) ltac:(lia) FL TT ltac:(intros C; contradiction) R1) as (w2 & bc & E2 & R2 & D2). rewrite E2. cbn [rbind].
        destruct (IH w2 _ (if zlen l <? zlen b then 1 else 0) ltac:(destruct (zlen l <? zlen b); lia) HB R2) as (w3 & bb & E3 & R3 & D3).
        exists w3, (bf ++ bc ++ bb). split; [exact E3|]. split; [rewrite <- !app_assoc in *; exact R3|]. intros HI.
        apply D1; [intros s Hs; apply HI, in_or_app; left; exact Hs|]. rewrite Eb at 1. apply coded_tail.
        * apply D2. intros s Hs. apply HI, in_or_app. right. apply in_or_app. left. exact Hs.
        * replace (if (0 <? k)%nat then 1 else 0) with (if zlen l <? zlen b then 1 else 0)
            by (destruct (Z.ltb_spec (zlen l) (zlen b)), (Nat.ltb_spec 0 k); try reflexivity; lia).
          apply D3. intros s Hs. apply HI, in_or_app. right. apply in_or_app. right. exact Hs.
  Qed.
End Prog.

(** ** the scans of a file *)
Lemma ac_first_bands t lum ss se blocks : (forall b, firstn (Z.to_nat (se - ss + 1)) (skipn (Z.to_nat ss) (zigzag_reorder b)) = band ss se b) ->
  forall w e, ac_first t lum ss se blocks w e = enc_bands t lum (map (band ss se) blocks) w e.
Proof.
  intros HB. induction blocks as [|b r IH]; intros w e; [reflexivity|]. cbn [ac_first enc_bands map].
  assert (encode_ac_first t lum ss se w b e = enc_band t lum w (band ss se b) e) as ->.
  { unfold encode_ac_first, enc_band. cbv zeta. rewrite HB. reflexivity. }
  destruct (enc_band t lum w (band ss se b) e) as [[w' e']| | |]; cbn [rbind]; [apply IH|reflexivity|reflexivity|reflexivity].
Qed.
Lemma comp_blocks_ok mcus c : Forall (Forall coef_ok) mcus -> Forall (fun b => coef_ok (c, b)) (comp_blocks mcus c).
Proof.
  intros H. unfold comp_blocks. apply Forall_map, Forall_forall. intros [c' b] Hin. apply filter_In in Hin as [Hin E]. cbn [fst snd] in *.
  apply Z.eqb_eq in E. subst c'. apply in_concat in Hin as (m & Hm & Hb). rewrite Forall_forall in H. specialize (H m Hm). rewrite Forall_forall in H. apply H. exact Hb.
Qed.
Lemma band_range c b ss se : coef_ok (c, b) -> Forall (fun a => - 2 ^ 15 < a < 2 ^ 15) (band ss se b).
Proof.
  intros (_ & HL & HD & HA). cbn [snd] in *. unfold band. apply Forall_map, Forall_forall. intros i _.
  assert (Forall (fun a => - 2 ^ 15 < a < 2 ^ 15) b) as K.
  { change (2 ^ 15) with 32768. destruct b as [|d r]; [constructor|]. constructor; [change (znth (d :: r) 0) with d in HD; lia|].
    eapply Forall_impl; [|exact HA]. intros a Ha. cbv beta in Ha. lia. }
  unfold znth. apply (Forall_nth_d (fun a => - 2 ^ 15 < a < 2 ^ 15)); [exact K|lia].
Qed.
Lemma prog_scan_ok t mcus s : tabs_ok t -> Forall (Forall coef_ok) mcus -> In s prog_script ->
  let '(c, ss, se) := s in
  exists seg bits, encode_prog_scan t mcus (mkscanspec [c] ss se 0 0) = Ok (prog_scan_bytes s seg) /\ segment seg bits /\
    (prog_scan_has_codes (tabs_of t c) ss se (comp_blocks mcus c) -> prog_scan_code (tabs_of t c) ss se (comp_blocks mcus c) bits).
Proof.
  destruct s as [[c ss] se]. intros HT HM Hin. pose proof (comp_blocks_ok mcus c HM) as HB.
  destruct (tabs_enc t c HT) as [[TD _] [TA _]].
  assert (forall w bits, m_rep [] w bits -> exists seg, m_finish w = seg /\ segment seg bits) as FIN.
  { intros w bits Hw. destruct (m_finish_spec [] w bits Hw) as (seg & l & E & B & U & L). exists seg. split; [exact E|]. split; [exact B|]. exists l. auto. }
  assert (ct_dcb (tabs_of t c) = (if c =? 0 then dc_lum_bits t else dc_chrom_bits t) /\ ct_dcv (tabs_of t c) = (if c =? 0 then dc_lum_vals t else dc_chrom_vals t)) as ED
    by (unfold tabs_of; destruct (c =? 0); split; reflexivity).
  assert (ct_acb (tabs_of t c) = (if c =? 0 then ac_lum_bits t else ac_chrom_bits t) /\ ct_acv (tabs_of t c) = (if c =? 0 then ac_lum_vals t else ac_chrom_vals t)) as EA
    by (unfold tabs_of; destruct (c =? 0); split; reflexivity).
  assert (write_sos_progressive (mkscanspec [c] ss se 0 0) = prog_sos_segment [(c + 1, if c =? 0 then 0 else 1, if c =? 0 then 0 else 1)] ss se) as EH.
  { unfold prog_script in Hin. cbn [In] in Hin. decompose [or] Hin; try contradiction; match goal with H : _ = (c, ss, se) |- _ => injection H as <- <- <- end; reflexivity. }
  unfold encode_prog_scan, prog_scan_has_codes, prog_scan_code, prog_scan_bytes. rewrite EH. clear EH. cbn [sc_comps sc_ss sc_se fold_res].
  assert ((ss = 0 /\ se = 0) \/ (ss <> 0 /\ (se =? 0) = false /\ 0 < se - ss + 1 <= 63 /\ forall b, firstn (Z.to_nat (se - ss + 1)) (skipn (Z.to_nat ss) (zigzag_reorder b)) = band ss se b)) as CASES.
  { unfold prog_script in Hin. cbn [In] in Hin. decompose [or] Hin; try contradiction; match goal with H : _ = (c, ss, se) |- _ => injection H as <- <- <- end;
      [left; auto|left; auto|left; auto| | | |]; right; (split; [lia|]; split; [reflexivity|]; split; [lia|]; intros b; reflexivity). }
  generalize dependent (comp_blocks mcus c). intros blocks HB.
  destruct CASES as [[-> ->]|(N & E0 & LB & EB)].
  - change ((0 =? 0) && (0 =? 0)) with true. change (0 =? 0) with true. cbv iota.
    destruct (dc_first_ok t (c =? 0) _ _ _ _ [] TD ED EA blocks 0 m_new [] ltac:(eapply Forall_impl; [|exact HB]; intros b (_ & _ & H & _); exact H) ltac:(lia) m_rep_new) as (w & bb & E & R & S).
    cbn [app] in R. rewrite E. cbn [rbind]. destruct (FIN w bb R) as (seg & EF & SG). exists seg, bb. rewrite EF. auto.
  - destruct (Z.eqb_spec ss 0); [contradiction|]. cbn [andb]. rewrite (ac_first_bands t (c =? 0) ss se blocks EB).
    destruct (enc_bands_ok t (c =? 0) _ _ _ _ [] TA ED EA (map (band ss se) blocks) m_new [] 0 ltac:(lia)) as (w & bb & E & R & S).
    { apply Forall_map. eapply Forall_impl; [|exact HB]. intros b Hb. cbv beta. split; [|exact (band_range c b ss se Hb)].
      unfold band, zlen. rewrite !map_length, seq_length. lia. }
    { exact m_rep_new. }
    cbn [app] in R. rewrite E. cbn [rbind]. destruct (FIN w bb R) as (seg & EF & SG). exists seg, bb. rewrite EF. split; [reflexivity|]. split; [exact SG|].
    intros HI. exact (S HI).
Qed.
Theorem progressive_scans_ok t mcus : tabs_ok t -> Forall (Forall coef_ok) mcus ->
  exists segs, encode_progressive t mcus = Ok (concat (map (fun p => prog_scan_bytes (fst p) (snd p)) (combine prog_script segs))) /\
    Forall2 (fun s seg => let '(c, ss, se) := s in exists bits, segment seg bits /\
      (prog_scan_has_codes (tabs_of t c) ss se (comp_blocks mcus c) -> prog_scan_code (tabs_of t c) ss se (comp_blocks mcus c) bits)) prog_script segs.
Proof.
  intros HT HM. unfold encode_progressive.
  assert (simple_progressive_script = map (fun '(c, ss, se) => mkscanspec [c] ss se 0 0) prog_script) as -> by reflexivity.
  pose proof (fun s H => prog_scan_ok t mcus s HT HM H) as K. clear HM HT. revert K. generalize prog_script as l. intros l K.
  enough (exists segs, map_res (encode_prog_scan t mcus) (map (fun '(c, ss, se) => mkscanspec [c] ss se 0 0) l) = Ok (map (fun p => prog_scan_bytes (fst p) (snd p)) (combine l segs)) /\
    Forall2 (fun s seg => let '(c, ss, se) := s in exists bits, segment seg bits /\
      (prog_scan_has_codes (tabs_of t c) ss se (comp_blocks mcus c) -> prog_scan_code (tabs_of t c) ss se (comp_blocks mcus c) bits)) l segs) as (segs & E & F).
  { exists segs. rewrite E. auto. }
  induction l as [|s r IH]; [exists []; split; [reflexivity|constructor]|].
  destruct IH as (segs & E & F); [intros s' H; apply K; right; exact H|].
  pose proof (K s (or_introl eq_refl)) as KS. destruct s as [[c ss] se]. destruct KS as (seg & bits & E1 & S1 & D1).
  exists (seg :: segs). cbn [map map_res combine fst snd]. rewrite E1. cbn [rbind]. rewrite E. split; [reflexivity|]. constructor; [exists bits; auto|exact F].
Qed.
