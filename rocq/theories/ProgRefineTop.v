(** Successive approximation: whole scans, and inputs that are coded wrongly. *)
From Verif Require Lz77Proofs.
From Verif Require Import Base BitsModel BitsProofs CanonSpec CanonProofs Lz77Model PngFilterModel PngPaletteModel PngFilterProofs JpegBaseModel JpegHuffModel JpegDecModel JpegEncModel JpegBaseProofs MsbSpec MsbProofs JpegSpec JpegTabProofs JpegSymProofs JpegBlockProofs JpegFileSpec JpegProgSpec JpegEncProofs JpegCountProofs JpegProgProofs ProgRefineModel ProgRefineSpec ProgRefineProofs.

Lemma zz_band_eq ss se b : 0 <= ss -> ss <= se <= 63 -> zz_band ss se b = band ss se b.
Proof.
  intros H1 H2. unfold zz_band, band, zigzag_reorder. rewrite skipn_map, firstn_map, map_map.
  apply (nth_ext _ _ 0 0).
  - rewrite !map_length, firstn_length, skipn_length, seq_length. change (length ZIGZAG) with 64%nat. lia.
  - intros i Hi. rewrite map_length, firstn_length, skipn_length in Hi. change (length ZIGZAG) with 64%nat in Hi.
    rewrite (nth_indep _ 0 (znth b 0)) by (rewrite map_length, firstn_length, skipn_length; change (length ZIGZAG) with 64%nat; lia).
    rewrite (map_nth (fun i => znth b i)).
    rewrite (nth_indep (map _ (seq _ _)) 0 ((fun x => znth b (znth ZIGZAG (ss + Z.of_nat x))) 0%nat)) by (rewrite map_length, seq_length; lia).
    rewrite (map_nth (fun x => znth b (znth ZIGZAG (ss + Z.of_nat x)))). rewrite seq_nth by lia. f_equal. unfold znth.
    rewrite Lz77Proofs.nth_firstn' by lia. rewrite Lz77Proofs.nth_skipn'. f_equal. lia.
Qed.
Lemma finish_segment w bits : m_rep [] w bits -> segment (m_finish w) bits.
Proof. intros Hw. destruct (m_finish_spec [] w bits Hw) as (seg & l & E & B & U & L). rewrite E. split; [exact B|]. exists l. auto. Qed.
Lemma tabs_dc t c : ct_dcb (tabs_of t c) = (if c =? 0 then dc_lum_bits t else dc_chrom_bits t) /\ ct_dcv (tabs_of t c) = (if c =? 0 then dc_lum_vals t else dc_chrom_vals t).
Proof. unfold tabs_of. destruct (c =? 0); split; reflexivity. Qed.
Lemma tabs_ac t c : ct_acb (tabs_of t c) = (if c =? 0 then ac_lum_bits t else ac_chrom_bits t) /\ ct_acv (tabs_of t c) = (if c =? 0 then ac_lum_vals t else ac_chrom_vals t).
Proof. unfold tabs_of. destruct (c =? 0); split; reflexivity. Qed.

(** ** what is right *)
Lemma dc_first_scan t c al blocks : tab_ok (ct_dcb (tabs_of t c)) (ct_dcv (tabs_of t c)) -> 0 <= al < 16 ->
  Forall (fun b => -1024 <= znth b 0 <= 1023 /\ znth b 0 mod 2 ^ al = 0) blocks ->
  incl (prog_dc_syms 0 (map (fun b => dc_point al (znth b 0)) blocks)) (ct_dcv (tabs_of t c)) ->
  exists w bits, dc_scan_first t (c =? 0) al blocks 0 m_new = Ok w /\ segment (m_finish w) bits /\
    dc_scan_code (ct_dcb (tabs_of t c)) (ct_dcv (tabs_of t c)) 0 (map (fun b => dc_point al (znth b 0)) blocks) bits.
Proof.
  intros HT Ha HB HI. destruct (dc_first_al_ok t (c =? 0) _ _ _ _ [] HT (tabs_dc t c) (tabs_ac t c) al blocks m_new [] Ha HB HI m_rep_new) as (w & bits & E & R & S).
  exists w, bits. split; [exact E|]. split; [apply finish_segment; exact R|exact S].
Qed.
Lemma dc_refine_scan blocks : Forall (fun b => -1024 <= znth b 0 <= 1023) blocks ->
  exists w, dc_scan_refine 0 blocks 0 m_new = Ok w /\ segment (m_finish w) (dc_refine_bits 0 (map (fun b => znth b 0) blocks)).
Proof.
  intros HB. destruct (dc_refine_ok [] blocks 0 m_new [] HB ltac:(lia) m_rep_new) as (w & E & R). exists w. split; [exact E|]. apply finish_segment. exact R.
Qed.
Lemma ac_first_scan t c ss se al blocks : tab_ok (ct_acb (tabs_of t c)) (ct_acv (tabs_of t c)) -> 0 <= al < 16 -> 1 <= ss -> ss <= se <= 63 ->
  Forall (Forall (fun v => - 2 ^ 15 < v < 2 ^ 15 /\ (0 <= v \/ v mod 2 ^ al = 0))) (map (band ss se) blocks) ->
  incl (band_syms (map (fun b => map (ac_point al) (band ss se b)) blocks) 0) (ct_acv (tabs_of t c)) ->
  exists w bits, ac_scan_first t (c =? 0) ss se al blocks m_new 0 = Ok w /\ segment (m_finish w) bits /\
    band_code (ct_acb (tabs_of t c)) (ct_acv (tabs_of t c)) (map (fun b => map (ac_point al) (band ss se b)) blocks) bits.
Proof.
  intros HT Ha H1 H2 HB HI.
  assert (EM : map (fun b => map (ac_point al) (band ss se b)) blocks = map (fun b => map (ac_point al) (zz_band ss se b)) blocks)
    by (apply map_ext; intros b; rewrite zz_band_eq by lia; reflexivity). rewrite EM in *.
  destruct (ac_first_al_ok t (c =? 0) _ _ _ _ [] HT (tabs_dc t c) (tabs_ac t c) ss se al blocks m_new [] Ha HI) as (w & bits & E & R & S).
  - rewrite Forall_map in HB. eapply Forall_impl; [|exact HB]. intros b Hb. rewrite zz_band_eq by lia. split; [|exact Hb].
    unfold band, zlen. rewrite !map_length, seq_length. lia.
  - exact m_rep_new.
  - exists w, bits. split; [exact E|]. split; [apply finish_segment; exact R|exact S].
Qed.
Lemma ac_refine_scan t c ss se al blocks : tab_ok (ct_acb (tabs_of t c)) (ct_acv (tabs_of t c)) -> incl refine_symbols (ct_acv (tabs_of t c)) ->
  0 <= al < 16 -> 1 <= ss -> ss <= se <= 63 ->
  Forall (fun b => Forall (fun v => - 2 ^ 15 < v < 2 ^ 15) b /\ clear_cut al b /\ short_gaps al b /\ ends_new al b) (map (band ss se) blocks) ->
  exists w bits, ac_scan_refine t (c =? 0) ss se al blocks m_new 0 = Ok w /\ segment (m_finish w) bits /\
    refine_bands (ct_acb (tabs_of t c)) (ct_acv (tabs_of t c)) al (map (band ss se) blocks) bits.
Proof.
  intros HT HI Ha H1 H2 HB. rewrite scan_bands.
  assert (EM : map (zz_band ss se) blocks = map (band ss se) blocks) by (apply map_ext; intros b; apply zz_band_eq; lia). rewrite EM.
  destruct (ref_bands_ok t (c =? 0) _ _ _ _ [] al HT (tabs_dc t c) (tabs_ac t c) HI Ha (map (band ss se) blocks) m_new [] 0 ltac:(lia)) as (w & bits & E & R & S).
  - rewrite Forall_map in *. eapply Forall_impl; [|exact HB]. intros b Hb. split; [|exact Hb]. unfold band. intros C. apply map_eq_nil, map_eq_nil in C.
    assert (K : length (seq 0 (Z.to_nat (se - ss + 1))) = 0%nat) by (rewrite C; reflexivity). rewrite seq_length in K. lia.
  - exact m_rep_new.
  - exists w, bits. split; [exact E|]. split; [apply finish_segment; exact R|exact S].
Qed.

(** ** what is wrong.  A table with 32 codes of 6 bits *)
Definition six_bits : list Z := [0; 0; 0; 0; 0; 32; 0; 0; 0; 0; 0; 0; 0; 0; 0; 0].
Definition six_vals : list Z := rev refine_symbols.
Definition six_tables : htables := mkht six_bits six_vals six_bits six_vals six_bits six_vals six_bits six_vals [] [] [] [].
Lemma six_ok : tab_ok six_bits six_vals.
Proof. apply tab_okb_ok. reflexivity. Qed.
Lemma six_all : incl refine_symbols six_vals.
Proof. intros s Hs. apply in_rev. unfold six_vals. rewrite rev_involutive. exact Hs. Qed.
Ltac six_word := intros w (k & Hk & E & ->); do 32 (destruct k as [|k]; [first [discriminate E|reflexivity]|]); cbn in Hk; lia.
Lemma word_0 : forall w, sym_code six_bits six_vals 0 w -> w = [false; true; true; true; true; true].
Proof. six_word. Qed.
Lemma word_1 : forall w, sym_code six_bits six_vals 1 w -> w = [false; false; true; true; true; true].
Proof. six_word. Qed.

(** a scan that ends with a code for a nonzero value *)
Lemma coefs_zero bits vals l b : coefs_code bits vals l b -> zero_band l -> l = [] /\ b = [].
Proof.
  induction 1 as [|l w b S HC IH NE|r v n l w b Hr Hv Hn S HC IH]; intros HZ.
  - auto.
  - apply Forall_app in HZ as [_ HZ]. destruct (IH HZ). contradiction.
  - apply Forall_app in HZ as [_ HZ]. apply Forall_cons_iff in HZ as [<- _]. destruct Hv as [V1 V2]. change (Z.abs 0) with 0 in V2. pose proof (Z.pow_pos_nonneg 2 (n - 1) ltac:(lia) ltac:(lia)). lia.
Qed.
Lemma refine_quiet bits vals al l b : refine_code bits vals al l b -> no_new al l -> l = [] /\ b = [].
Proof.
  induction 1 as [|p z l w b N1 Z1 L1 S HC IH NE|p c l w b N1 Z1 L1 S HC IH]; intros HZ.
  - auto.
  - apply Forall_app in HZ as [_ HZ]. apply Forall_cons_iff in HZ as [_ HZ]. destruct (IH HZ). contradiction.
  - apply Forall_app in HZ as [_ HZ]. apply Forall_cons_iff in HZ as [HZ _]. contradiction.
Qed.
Lemma one_band n (zs : list (list Z)) : 0 <= n -> 2 ^ n <= 1 + zlen zs < 2 ^ (n + 1) -> zs = [] -> n = 0.
Proof.
  intros Hn [H1 _] ->. rewrite zlen_nil in H1. destruct (Z.eq_dec n 0) as [E|N]; [exact E|].
  assert (2 ^ 1 <= 2 ^ n) by (apply Z.pow_le_mono_r; lia). change (2 ^ 1) with 2 in *. lia.
Qed.
Lemma zero_one_band bits vals z b : zero_band z -> z <> [] -> band_code bits vals [z] b -> sym_code bits vals 0 b.
Proof.
  intros HZ NE H. inversion H as [|h r b1 b2 HC HB E1 E2|h k n zs r w b1 b2 HC Hk Z0 Hn Hr HS HB E1 E2]; subst.
  - destruct (coefs_zero _ _ _ _ HC HZ). contradiction.
  - assert (zs = [] /\ r = []) as [-> ->] by (apply app_eq_nil; assumption).
    assert (n = 0) as -> by (eapply one_band; [lia|exact Hr|reflexivity]).
    apply Forall_app in HZ as [HZ _]. destruct (coefs_zero _ _ _ _ HC HZ) as [-> ->]. inversion HB; subst. cbn [app]. cbn. rewrite app_nil_r. exact HS.
Qed.
Lemma quiet_one_band bits vals al z b : no_new al z -> z <> [] -> refine_bands bits vals al [z] b -> exists w, sym_code bits vals 0 w /\ b = w ++ corrections al z.
Proof.
  intros HZ NE H. inversion H as [|h r b1 b2 HC HB E1 E2|h k n zs r w b1 b2 HC Hk NK Z0 Hn Hr HS HB E1 E2]; subst.
  - destruct (refine_quiet _ _ _ _ _ HC HZ). contradiction.
  - assert (zs = [] /\ r = []) as [-> ->] by (apply app_eq_nil; assumption).
    assert (n = 0) as -> by (eapply one_band; [lia|exact Hr|reflexivity]).
    apply Forall_app in HZ as [HZ _]. destruct (refine_quiet _ _ _ _ _ HC HZ) as [-> ->]. inversion HB; subst. exists w. split; [exact HS|]. cbn. rewrite !app_nil_r. reflexivity.
Qed.
Lemma segment_bits seg bits : segment seg bits -> exists l, unstuff seg = Some l /\ bytes_msb l = pad_ones bits.
Proof. intros [_ H]. exact H. Qed.

Definition dc_block (d : Z) : list Z := d :: repeat 0 63.
Definition ac_block (v : Z) : list Z := 0 :: v :: repeat 0 62.
Lemma dc_first_wrong : ~ (forall t c al blocks w, tab_ok (ct_dcb (tabs_of t c)) (ct_dcv (tabs_of t c)) -> 0 <= al < 16 ->
  Forall (fun b => -1024 <= znth b 0 <= 1023) blocks ->
  incl (prog_dc_syms 0 (map (fun b => dc_point al (znth b 0)) blocks)) (ct_dcv (tabs_of t c)) ->
  dc_scan_first t (c =? 0) al blocks 0 m_new = Ok w ->
  exists bits, segment (m_finish w) bits /\
    dc_scan_code (ct_dcb (tabs_of t c)) (ct_dcv (tabs_of t c)) 0 (map (fun b => dc_point al (znth b 0)) blocks) bits).
Proof.
  intros H. specialize (H six_tables 0 1 [dc_block 1; dc_block 2]).
  assert (E : exists w, dc_scan_first six_tables true 1 [dc_block 1; dc_block 2] 0 m_new = Ok w /\ m_finish w = [125; 255; 0]) by (eexists; split; vm_compute; reflexivity).
  destruct E as (w & E & EF). destruct (H w six_ok) as (bits & SG & DC).
  - lia.
  - repeat (apply Forall_cons; [split; vm_compute; discriminate|]); apply Forall_nil.
  - intros s Hs. apply six_all. vm_compute in Hs. decompose [or] Hs; subst; try contradiction; vm_compute; tauto.
  - exact E.
  - rewrite EF in SG. change (map (fun b => dc_point 1 (znth b 0)) [dc_block 1; dc_block 2]) with [0; 1] in DC.
    inversion DC as [|p d r b1 b2 D1 D2 E1 E2]; subst. inversion D2 as [|p d r b3 b4 D3 D4 E1 E2]; subst. inversion D4; subst.
    assert (b1 = [false; true; true; true; true; true]) as ->.
    { inversion D1 as [w' S|v n w' HS Hn S]; subst; [apply word_0; exact S|]. destruct HS as [V1 V2]. change (Z.abs (0 - 0)) with 0 in V2. pose proof (Z.pow_pos_nonneg 2 (n - 1) ltac:(lia) ltac:(lia)). lia. }
    assert (b3 = [false; false; true; true; true; true; true]) as ->.
    { inversion D3 as [w' S EZ|v n w' HS Hn S]; subst. destruct HS as [V1 V2]. change (Z.abs (1 - 0)) with 1 in V2.
      assert (n = 1) as ->. { destruct (Z.eq_dec n 1) as [Q|Q]; [exact Q|]. assert (2 ^ 1 <= 2 ^ (n - 1)) by (apply Z.pow_le_mono_r; lia). change (2 ^ 1) with 2 in *. lia. }
      rewrite (word_1 w' S). reflexivity. }
    destruct (segment_bits _ _ SG) as (l & U & B). vm_compute in U. injection U as <-. vm_compute in B. discriminate B.
Qed.
Lemma dc_refine_wrong : ~ (forall al blocks w, 0 <= al < 16 -> Forall (fun b => -1024 <= znth b 0 <= 1023) blocks ->
  dc_scan_refine al blocks 0 m_new = Ok w -> segment (m_finish w) (dc_refine_bits al (map (fun b => znth b 0) blocks))).
Proof.
  intros H. specialize (H 1 [dc_block (-1)]).
  assert (E : exists w, dc_scan_refine 1 [dc_block (-1)] 0 m_new = Ok w /\ m_finish w = [127]) by (eexists; split; vm_compute; reflexivity).
  destruct E as (w & E & EF). specialize (H w ltac:(lia) ltac:(apply Forall_cons; [split; vm_compute; discriminate|apply Forall_nil]) E). rewrite EF in H.
  destruct (segment_bits _ _ H) as (l & U & B). vm_compute in U. injection U as <-. vm_compute in B. discriminate B.
Qed.
Lemma ac_first_wrong : ~ (forall t c ss se al blocks w, tab_ok (ct_acb (tabs_of t c)) (ct_acv (tabs_of t c)) -> 0 <= al < 16 -> 1 <= ss -> ss <= se <= 63 ->
  Forall (Forall (fun v => - 2 ^ 15 < v < 2 ^ 15)) (map (band ss se) blocks) ->
  incl (band_syms (map (fun b => map (ac_point al) (band ss se b)) blocks) 0) (ct_acv (tabs_of t c)) ->
  ac_scan_first t (c =? 0) ss se al blocks m_new 0 = Ok w ->
  exists bits, segment (m_finish w) bits /\
    band_code (ct_acb (tabs_of t c)) (ct_acv (tabs_of t c)) (map (fun b => map (ac_point al) (band ss se b)) blocks) bits).
Proof.
  intros H. specialize (H six_tables 0 1 2 1 [ac_block (-1)]).
  assert (E : exists w, ac_scan_first six_tables true 1 2 1 [ac_block (-1)] m_new 0 = Ok w /\ m_finish w = [60; 255; 0]) by (eexists; split; vm_compute; reflexivity).
  destruct E as (w & E & EF). destruct (H w six_ok) as (bits & SG & DC); try lia; try exact E.
  - apply Forall_cons; [|apply Forall_nil]. repeat (apply Forall_cons; [split; vm_compute; reflexivity|]); apply Forall_nil.
  - intros s Hs. apply six_all. vm_compute in Hs. decompose [or] Hs; subst; try contradiction; vm_compute; tauto.
  - rewrite EF in SG. change (map (fun b => map (ac_point 1) (band 1 2 b)) [ac_block (-1)]) with [[0; 0]] in DC.
    apply zero_one_band in DC; [|repeat (apply Forall_cons; [reflexivity|]); apply Forall_nil|discriminate]. rewrite (word_0 _ DC) in SG.
    destruct (segment_bits _ _ SG) as (l & U & B). vm_compute in U. injection U as <-. vm_compute in B. discriminate B.
Qed.
Lemma ac_refine_wrong : ~ (forall t c ss se al blocks w, tab_ok (ct_acb (tabs_of t c)) (ct_acv (tabs_of t c)) -> incl refine_symbols (ct_acv (tabs_of t c)) ->
  0 <= al < 16 -> 1 <= ss -> ss <= se <= 63 -> Forall (Forall (fun v => - 2 ^ 15 < v < 2 ^ 15)) (map (band ss se) blocks) ->
  ac_scan_refine t (c =? 0) ss se al blocks m_new 0 = Ok w ->
  exists bits, segment (m_finish w) bits /\ refine_bands (ct_acb (tabs_of t c)) (ct_acv (tabs_of t c)) al (map (band ss se) blocks) bits).
Proof.
  intros H. specialize (H six_tables 0 1 2 0 [ac_block 2]).
  assert (E : exists w, ac_scan_refine six_tables true 1 2 0 [ac_block 2] m_new 0 = Ok w /\ m_finish w = [63]) by (eexists; split; vm_compute; reflexivity).
  destruct E as (w & E & EF). destruct (H w six_ok six_all) as (bits & SG & DC); try lia; try exact E.
  - apply Forall_cons; [|apply Forall_nil]. repeat (apply Forall_cons; [split; vm_compute; reflexivity|]); apply Forall_nil.
  - rewrite EF in SG. change (map (band 1 2) [ac_block 2]) with [[2; 0]] in DC.
    apply quiet_one_band in DC; [|repeat (apply Forall_cons; [vm_compute; discriminate|]); apply Forall_nil|discriminate]. destruct DC as (w0 & S & ->). rewrite (word_0 _ S) in SG.
    destruct (segment_bits _ _ SG) as (l & U & B). vm_compute in U. injection U as <-. vm_compute in B. discriminate B.
Qed.

(** ** the scripts *)
Definition sends_b (l : list (Z * Z)) : bool :=
  match l with
  | [(0, 0)] | [(0, 1); (1, 0)] | [(0, 2); (2, 1); (1, 0)] => true
  | _ => false
  end.
Lemma sends_b_ok l : sends_b l = true -> sends_fully l.
Proof.
  intros H. assert (l = [(0, 0)] \/ l = [(0, 1); (1, 0)] \/ l = [(0, 2); (2, 1); (1, 0)]) as [-> |[-> | ->]]; [|cbn; lia..].
  unfold sends_b in H. repeat match type of H with context [match ?x with _ => _ end] => destruct x; try discriminate H end; auto.
Qed.
Lemma script_by_table script : forallb (fun c => forallb (fun k => sends_b (scans_of script c k)) (idxs 64)) (idxs 3) = true ->
  forall c k, 0 <= c < 3 -> 0 <= k < 64 -> sends_fully (scans_of script c k).
Proof.
  intros H c k Hc Hk. rewrite forallb_forall in H. assert (IN : forall n i, 0 <= i < Z.of_nat n -> In i (idxs n)).
  { intros n i Hi. unfold idxs. apply in_map_iff. exists (Z.to_nat i). split; [lia|]. apply in_seq. lia. }
  specialize (H c (IN 3%nat c Hc)). rewrite forallb_forall in H. apply sends_b_ok, H, IN. exact Hk.
Qed.
Lemma scripts_complete c k : 0 <= c < 3 -> 0 <= k < 64 -> sends_fully (scans_of default_progressive_script c k) /\ sends_fully (scans_of simple_progressive_script c k).
Proof. intros Hc Hk. split; (apply script_by_table; [vm_compute; reflexivity|exact Hc|exact Hk]). Qed.
Lemma scripts_bands s : In s default_progressive_script \/ In s simple_progressive_script ->
  length (sc_comps s) = 1%nat /\ ((sc_ss s = 0 /\ sc_se s = 0) \/ (1 <= sc_ss s /\ sc_ss s <= sc_se s <= 63)).
Proof.
  intros H. assert (F : Forall (fun s => length (sc_comps s) = 1%nat /\ ((sc_ss s = 0 /\ sc_se s = 0) \/ (1 <= sc_ss s /\ sc_ss s <= sc_se s <= 63))) (default_progressive_script ++ simple_progressive_script)).
  { unfold default_progressive_script, simple_progressive_script. cbn [app]. repeat (apply Forall_cons; [cbn [length sc_comps sc_ss sc_se]; lia|]); apply Forall_nil. }
  rewrite Forall_forall in F. apply F, in_or_app. exact H.
Qed.
