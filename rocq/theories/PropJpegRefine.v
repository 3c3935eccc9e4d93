(** C104, C105: successive approximation and scan scripts. *)
From Verif Require ProgRefineProofs.
From Verif Require Import Base BitsModel JpegBaseModel JpegHuffModel JpegEncModel MsbSpec JpegSpec JpegFileSpec JpegProgSpec JpegSymProofs JpegEncProofs ProgRefineModel ProgRefineSpec ProgRefineTop.

(** C104, proved part.  A first DC scan is right when all DC values are multiples of 2^al. *)
Theorem dc_first_scan_partial : forall t c al blocks, tab_ok (ct_dcb (tabs_of t c)) (ct_dcv (tabs_of t c)) -> 0 <= al < 16 ->
  Forall (fun b => -1024 <= znth b 0 <= 1023 /\ znth b 0 mod 2 ^ al = 0) blocks ->
  incl (prog_dc_syms 0 (map (fun b => dc_point al (znth b 0)) blocks)) (ct_dcv (tabs_of t c)) ->
  exists w bits, dc_scan_first t (c =? 0) al blocks 0 m_new = Ok w /\ segment (m_finish w) bits /\
    dc_scan_code (ct_dcb (tabs_of t c)) (ct_dcv (tabs_of t c)) 0 (map (fun b => dc_point al (znth b 0)) blocks) bits.
Proof. exact dc_first_scan. Qed.
Print Assumptions dc_first_scan_partial.
Example dc_first_case : 4 mod 2 ^ 1 = 0 /\ map (fun b => dc_point 1 (znth b 0)) [dc_block 4; dc_block (-6)] = [2; -3]. Proof. split; reflexivity. Qed.
(** The last DC refinement is right for every DC value. *)
Theorem dc_refine_scan_partial : forall blocks, Forall (fun b => -1024 <= znth b 0 <= 1023) blocks ->
  exists w, dc_scan_refine 0 blocks 0 m_new = Ok w /\ segment (m_finish w) (dc_refine_bits 0 (map (fun b => znth b 0) blocks)).
Proof. exact dc_refine_scan. Qed.
Print Assumptions dc_refine_scan_partial.
Example refine_bit : exists w, encode_dc_refine m_new 5 0 = Ok w /\ m_finish w = [255; 0]. Proof. eexists. split; vm_compute; reflexivity. Qed.
Example dc_refine_case : dc_refine_bits 0 (map (fun b => znth b 0) [dc_block 5; dc_block (-2); dc_block (-7)]) = [true; false; true]. Proof. reflexivity. Qed.
(** A first AC scan is right when every negative value is a multiple of 2^al. *)
Theorem ac_first_scan_partial : forall t c ss se al blocks, tab_ok (ct_acb (tabs_of t c)) (ct_acv (tabs_of t c)) -> 0 <= al < 16 -> 1 <= ss -> ss <= se <= 63 ->
  Forall (Forall (fun v => - 2 ^ 15 < v < 2 ^ 15 /\ (0 <= v \/ v mod 2 ^ al = 0))) (map (band ss se) blocks) ->
  incl (band_syms (map (fun b => map (ac_point al) (band ss se b)) blocks) 0) (ct_acv (tabs_of t c)) ->
  exists w bits, ac_scan_first t (c =? 0) ss se al blocks m_new 0 = Ok w /\ segment (m_finish w) bits /\
    band_code (ct_acb (tabs_of t c)) (ct_acv (tabs_of t c)) (map (fun b => map (ac_point al) (band ss se b)) blocks) bits.
Proof. exact ac_first_scan. Qed.
Print Assumptions ac_first_scan_partial.
Example ac_first_case : exists w, ac_scan_first six_tables true 1 2 1 [ac_block 3] m_new 0 = Ok w /\ m_finish w = [62; 255; 0]. Proof. eexists. split; vm_compute; reflexivity. Qed.
(** An AC refinement scan is right when gaps are short, a value that was nonzero is
    followed by one that becomes nonzero, and magnitudes are clear-cut. *)
Theorem ac_refine_scan_partial : forall t c ss se al blocks, tab_ok (ct_acb (tabs_of t c)) (ct_acv (tabs_of t c)) -> incl refine_symbols (ct_acv (tabs_of t c)) ->
  0 <= al < 16 -> 1 <= ss -> ss <= se <= 63 ->
  Forall (fun b => Forall (fun v => - 2 ^ 15 < v < 2 ^ 15) b /\ clear_cut al b /\ short_gaps al b /\ ends_new al b) (map (band ss se) blocks) ->
  exists w bits, ac_scan_refine t (c =? 0) ss se al blocks m_new 0 = Ok w /\ segment (m_finish w) bits /\
    refine_bands (ct_acb (tabs_of t c)) (ct_acv (tabs_of t c)) al (map (band ss se) blocks) bits.
Proof. exact ac_refine_scan. Qed.
Print Assumptions ac_refine_scan_partial.
Example ac_refine_case : clear_cut 0 [3; -1; 0] /\ short_gaps 0 [3; -1; 0] /\ ends_new 0 [3; -1; 0].
Proof.
  split; [repeat (apply Forall_cons; [cbn; lia|]); apply Forall_nil|]. split.
  - intros p m c q E _ _. assert (L : zlen (p ++ m ++ c :: q) = 3) by (rewrite <- E; reflexivity). rewrite !zlen_app, zlen_cons in L.
    unfold zeros_of. assert (zlen (filter (fun v => level 0 v =? 0) m) <= zlen m) by (clear; induction m as [|v m IH]; [cbn; lia|cbn [filter]; destruct (level 0 v =? 0); rewrite ?zlen_cons; lia]).
    pose proof (zlen_nonneg p). pose proof (zlen_nonneg q). lia.
  - intros p o q E L N. destruct p as [|? [|? [|? p]]]; cbn in E; [injection E as <- <-|injection E as <- <- <-|injection E as <- <- <- <-|injection E as <- <- <- E; destruct p; discriminate].
    + inversion N as [|? ? C]. apply C. reflexivity.
    + vm_compute in L. apply L. reflexivity.
    + vm_compute in L. apply L. reflexivity.
Qed.
(** Without those restrictions each of the four is false. *)
Theorem dc_first_scan_refuted : ~ (forall t c al blocks w, tab_ok (ct_dcb (tabs_of t c)) (ct_dcv (tabs_of t c)) -> 0 <= al < 16 ->
  Forall (fun b => -1024 <= znth b 0 <= 1023) blocks ->
  incl (prog_dc_syms 0 (map (fun b => dc_point al (znth b 0)) blocks)) (ct_dcv (tabs_of t c)) ->
  dc_scan_first t (c =? 0) al blocks 0 m_new = Ok w ->
  exists bits, segment (m_finish w) bits /\
    dc_scan_code (ct_dcb (tabs_of t c)) (ct_dcv (tabs_of t c)) 0 (map (fun b => dc_point al (znth b 0)) blocks) bits).
Proof. exact dc_first_wrong. Qed.
Print Assumptions dc_first_scan_refuted.
Theorem dc_refine_scan_refuted : ~ (forall al blocks w, 0 <= al < 16 -> Forall (fun b => -1024 <= znth b 0 <= 1023) blocks ->
  dc_scan_refine al blocks 0 m_new = Ok w -> segment (m_finish w) (dc_refine_bits al (map (fun b => znth b 0) blocks))).
Proof. exact dc_refine_wrong. Qed.
Print Assumptions dc_refine_scan_refuted.
Theorem ac_first_scan_refuted : ~ (forall t c ss se al blocks w, tab_ok (ct_acb (tabs_of t c)) (ct_acv (tabs_of t c)) -> 0 <= al < 16 -> 1 <= ss -> ss <= se <= 63 ->
  Forall (Forall (fun v => - 2 ^ 15 < v < 2 ^ 15)) (map (band ss se) blocks) ->
  incl (band_syms (map (fun b => map (ac_point al) (band ss se b)) blocks) 0) (ct_acv (tabs_of t c)) ->
  ac_scan_first t (c =? 0) ss se al blocks m_new 0 = Ok w ->
  exists bits, segment (m_finish w) bits /\
    band_code (ct_acb (tabs_of t c)) (ct_acv (tabs_of t c)) (map (fun b => map (ac_point al) (band ss se b)) blocks) bits).
Proof. exact ac_first_wrong. Qed.
Print Assumptions ac_first_scan_refuted.
Theorem ac_refine_scan_refuted : ~ (forall t c ss se al blocks w, tab_ok (ct_acb (tabs_of t c)) (ct_acv (tabs_of t c)) -> incl refine_symbols (ct_acv (tabs_of t c)) ->
  0 <= al < 16 -> 1 <= ss -> ss <= se <= 63 -> Forall (Forall (fun v => - 2 ^ 15 < v < 2 ^ 15)) (map (band ss se) blocks) ->
  ac_scan_refine t (c =? 0) ss se al blocks m_new 0 = Ok w ->
  exists bits, segment (m_finish w) bits /\ refine_bands (ct_acb (tabs_of t c)) (ct_acv (tabs_of t c)) al (map (band ss se) blocks) bits).
Proof. exact ac_refine_wrong. Qed.
Print Assumptions ac_refine_scan_refuted.

(** C105: both scripts send every coefficient of the three components, first without its
    low bits and then bit by bit, each bit once, in bands a scan may have ... *)
Theorem scripts_send_everything : forall c k, 0 <= c < 3 -> 0 <= k < 64 ->
  sends_fully (scans_of default_progressive_script c k) /\ sends_fully (scans_of simple_progressive_script c k).
Proof. exact scripts_complete. Qed.
Print Assumptions scripts_send_everything.
Theorem scripts_have_bands : forall s, In s default_progressive_script \/ In s simple_progressive_script ->
  length (sc_comps s) = 1%nat /\ ((sc_ss s = 0 /\ sc_se s = 0) \/ (1 <= sc_ss s /\ sc_ss s <= sc_se s <= 63)).
Proof. exact scripts_bands. Qed.
Print Assumptions scripts_have_bands.
Example script_case : scans_of default_progressive_script 0 9 = [(0, 2); (2, 1); (1, 0)]. Proof. reflexivity. Qed.
(** ... and for the scans of the script the encoder uses, its general scan routine is the
    one the other theorems are about. *)
Theorem simple_scans_are_first_scans : forall t mcus s, In s simple_progressive_script -> encode_scan_any t mcus s = encode_prog_scan t mcus s.
Proof. exact ProgRefineProofs.simple_scan. Qed.
Print Assumptions simple_scans_are_first_scans.
