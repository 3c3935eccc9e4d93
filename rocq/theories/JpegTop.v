(** The JPEG files of the encoder: layout, and decoding them. *)
From Verif Require Import Base BitsModel BitsProofs CanonSpec CanonProofs Lz77Model PngFilterModel PngPaletteModel PngFilterProofs JpegBaseModel JpegHuffModel JpegDecModel JpegEncModel JpegBaseProofs MsbSpec MsbProofs JpegSpec JpegTabProofs JpegSymProofs JpegBlockProofs JpegImgSpec JpegFileSpec JpegEncProofs JpegCountProofs JpegMcuProofs JpegIdctProofs JpegScanProofs.

(** ** the header the encoder writes *)
Lemma be16_hi_lo x : 0 <= x < 65536 -> be16_bytes x = hi_lo x.
Proof.
  intros H. unfold be16_bytes, hi_lo, wrap. rewrite Z.shiftr_div_pow2 by lia. change (2 ^ 8) with 256.
  rewrite (Z.mod_small (x / 256)); [reflexivity|]. split; [apply Z.div_pos; lia|apply Z.div_lt_upper_bound; lia].
Qed.
Lemma be16_of_hi_lo x : be16 (x / 256) (x mod 256) = x.
Proof. unfold be16. pose proof (Z.div_mod x 256 ltac:(lia)). lia. Qed.

Lemma zsum_sizes bits : Forall (fun c => 0 <= c <= 255) bits -> forall len, zsum bits = zlen (sizes_from len bits).
Proof.
  intros H. induction H as [|c r Hc H IH]; intros len; [reflexivity|]. cbn [zsum fold_right sizes_from].
  rewrite zlen_app, zlen_repeat. fold (zsum r). rewrite (IH (len + 1)). lia.
Qed.
Lemma tab_ok_len bits vals : tab_ok bits vals -> length bits = 16%nat /\ zsum bits = zlen vals /\ zlen vals <= 256.
Proof.
  intros (T1 & T2 & T3 & T4 & T5 & _). split; [exact T1|].
  rewrite (zsum_sizes bits T2 1). split; [unfold zlen; rewrite T3; reflexivity|].
  assert (length vals <= 256)%nat; [|unfold zlen; lia].
  apply (Nat.le_trans _ (length (idxs 256))); [|rewrite idxs_length; lia].
  apply NoDup_incl_length; [exact T5|]. intros v Hv. unfold bytes in T4. rewrite Forall_forall in T4. specialize (T4 v Hv). unfold is_byte in T4.
  apply in_idxs. lia.
Qed.

Lemma huffman_segment cls id bits vals : 0 <= cls <= 1 -> 0 <= id <= 1 -> tab_ok bits vals ->
  write_huffman_table (16 * cls + id) bits vals = dht_segment cls id bits vals.
Proof.
  intros Hc Hi T. destruct (tab_ok_len _ _ T) as (L & S & B). pose proof (zlen_nonneg vals). unfold write_huffman_table, dht_segment, marker_segment.
  rewrite zlen_cons, zlen_app. replace (zlen bits) with 16 by (unfold zlen; lia).
  unfold wrap. rewrite Z.mod_small by (change (2 ^ 16) with 65536; lia). rewrite be16_hi_lo by lia.
  replace (1 + (16 + zlen vals) + 2) with (2 + 1 + 16 + zlen vals) by lia. reflexivity.
Qed.
Definition ctab_ok (T : ctabs) : Prop := tab_ok (ct_dcb T) (ct_dcv T) /\ tab_ok (ct_acb T) (ct_acv T).
Lemma tabs_of_ok t c : tabs_ok t -> ctab_ok (tabs_of t c).
Proof. intros ([A1 _] & [A2 _] & [A3 _] & [A4 _]). unfold ctab_ok, tabs_of. destruct (c =? 0); cbn [ct_dcb ct_dcv ct_acb ct_acv]; auto. Qed.

Lemma header_ok m t o : tabs_ok t -> 1 <= jo_w o <= 65535 -> 1 <= jo_h o <= 65535 ->
  match jo_restart o with Some i => 1 <= i <= 65535 | None => True end ->
  write_soi ++ write_app0 ++ write_dqt (jo_quality o) ++ write_sof m (jo_w o) (jo_h o) (jo_ct o) (jo_sub o) ++ write_dht t ++
    match jo_restart o with Some i => write_dri i | None => [] end = jpeg_header m o (tabs_of t 0) (tabs_of t 1).
Proof.
  intros T Hw Hh HR. pose proof T as ([A1 _] & [A2 _] & [A3 _] & [A4 _]). unfold jpeg_header.
  assert (write_soi = [255; 216]) as -> by reflexivity.
  assert (write_app0 = jfif_segment) as -> by reflexivity.
  assert (write_dqt (jo_quality o) = dqt_segment 0 (table_zigzag STD_LUMINANCE_TABLE (jo_quality o)) ++ dqt_segment 1 (table_zigzag STD_CHROMINANCE_TABLE (jo_quality o))) as ->.
  { unfold write_dqt, dqt_segment, marker_segment. rewrite !zlen_cons.
    destruct (table_zigzag_range STD_LUMINANCE_TABLE (jo_quality o)) as [_ L1]. destruct (table_zigzag_range STD_CHROMINANCE_TABLE (jo_quality o)) as [_ L2].
    unfold zlen. rewrite L1, L2. change (1 + Z.of_nat 64 + 2) with 67. rewrite <- !app_assoc. reflexivity. }
  assert (write_sof m (jo_w o) (jo_h o) (jo_ct o) (jo_sub o) = sof_segment m (jo_w o) (jo_h o) (frame_comps (jo_ct o) (jo_sub o))) as ->.
  { unfold write_sof, sof_segment, marker_segment. cbv zeta. unfold wrap at 1 2. rewrite !Z.mod_small by (change (2 ^ 16) with 65536; lia).
    rewrite !be16_hi_lo by (destruct (jo_ct o); lia). unfold frame_comps. destruct (jo_ct o); [reflexivity| | |]; destruct (jo_sub o); reflexivity. }
  assert (write_dht t = dht_segment 0 0 (dc_lum_bits t) (dc_lum_vals t) ++ dht_segment 0 1 (dc_chrom_bits t) (dc_chrom_vals t) ++
            dht_segment 1 0 (ac_lum_bits t) (ac_lum_vals t) ++ dht_segment 1 1 (ac_chrom_bits t) (ac_chrom_vals t)) as ->.
  { unfold write_dht. rewrite <- !huffman_segment by (try lia; assumption). reflexivity. }
  assert (match jo_restart o with Some i => write_dri i | None => [] end = match jo_restart o with Some i => dri_segment i | None => [] end) as ->.
  { destruct (jo_restart o) as [i|]; [|reflexivity]. unfold write_dri, dri_segment, marker_segment. rewrite (be16_hi_lo i) by lia. reflexivity. }
  unfold tabs_of. cbn [Z.eqb ct_dcb ct_dcv ct_acb ct_acv]. rewrite <- !app_assoc. reflexivity.
Qed.

(** ** reading a marker segment *)
Lemma read_segment m payload rest : m <> 255 -> m <> 216 -> m <> 217 -> (m < 208 \/ 215 < m) -> zlen payload + 2 < 65536 ->
  read_marker (marker_segment m payload ++ rest) = Ok (m, payload, rest).
Proof.
  intros N1 N2 N3 N4 HL. unfold read_marker, marker_segment, hi_lo. cbn [app skip_to_ff skip_ff]. change (255 =? 255) with true. cbv iota. cbn [skip_ff].
  change (255 =? 255) with true. cbv iota. destruct (Z.eqb_spec m 255); [lia|].
  destruct (Z.eqb_spec m 216); [lia|]. destruct (Z.eqb_spec m 217); [lia|]. cbn [orb].
  replace ((208 <=? m) && (m <=? 215)) with false by (destruct (Z.leb_spec 208 m), (Z.leb_spec m 215); try reflexivity; lia).
  rewrite be16_of_hi_lo. cbv zeta. pose proof (zlen_nonneg payload). pose proof (zlen_nonneg rest). rewrite zlen_app.
  destruct (Z.ltb_spec (zlen payload + 2) 2); [lia|]. destruct (Z.gtb_spec (zlen payload + 2 - 2) (zlen payload + zlen rest)); [lia|]. cbn [orb].
  replace (Z.to_nat (zlen payload + 2 - 2)) with (length payload) by (unfold zlen; lia).
  rewrite firstn_app, skipn_app, Nat.sub_diag, firstn_all, skipn_all, app_nil_r. reflexivity.
Qed.
Lemma marker_loop_S f st data : marker_loop (S f) st data =
  (let* (marker, seg, rest) := read_marker data in
      if marker =? 192 then let* st := parse_sof0 st seg in marker_loop f st rest
      else if marker =? 194 then Err EUnsupportedDecode
      else if marker =? 196 then let* st := parse_dht (length seg) st seg in marker_loop f st rest
      else if marker =? 219 then let* st := parse_dqt (length seg) st seg in marker_loop f st rest
      else if marker =? 221 then let* st := parse_dri st seg in marker_loop f st rest
      else if marker =? 218 then let* st := parse_sos st seg in decode_scan st rest
      else if marker =? 217 then Err EInvalidDecode
      else marker_loop f st rest).
Proof. reflexivity. Qed.

(** ** the effect of each segment of the header *)
Lemma dqt_step f st id table rest : 0 <= id <= 1 -> length table = 64%nat ->
  marker_loop (S f) st (dqt_segment id table ++ rest) =
  marker_loop f (mkjs (js_w st) (js_h st) (js_comps st) (upd (js_quant st) (Z.to_nat id) table) (js_dc st) (js_ac st) (js_restart st) (js_maxh st) (js_maxv st)) rest.
Proof.
  intros Hi HL. rewrite marker_loop_S. unfold dqt_segment. rewrite read_segment by (try lia; rewrite zlen_cons; unfold zlen; lia).
  cbn [rbind]. change (219 =? 192) with false. change (219 =? 194) with false. change (219 =? 196) with false. change (219 =? 219) with true. cbv iota.
  cbn [length parse_dqt].
  assert (Z.land (Z.shiftr id 4) 15 = 0 /\ Z.land id 15 = id) as [-> ->] by (assert (id = 0 \/ id = 1) as [-> | ->] by lia; split; reflexivity).
  cbv zeta. destruct (Z.gtb_spec id 3); [lia|]. change (0 =? 0) with true. cbv iota.
  replace (64 >? zlen table) with false by (unfold zlen; rewrite HL; reflexivity).
  replace (firstn 64 table) with table by (rewrite <- HL, firstn_all; reflexivity).
  replace (skipn 64 table) with (@nil Z) by (rewrite <- HL, skipn_all; reflexivity). destruct (length table); reflexivity.
Qed.
Lemma dht_step f st cls id bits vals rest : 0 <= cls <= 1 -> 0 <= id <= 1 -> tab_ok bits vals ->
  marker_loop (S f) st (dht_segment cls id bits vals ++ rest) =
  marker_loop f (if cls =? 0 then
      mkjs (js_w st) (js_h st) (js_comps st) (js_quant st) (upd (js_dc st) (Z.to_nat id) (jtab_build bits vals)) (js_ac st) (js_restart st) (js_maxh st) (js_maxv st)
    else mkjs (js_w st) (js_h st) (js_comps st) (js_quant st) (js_dc st) (upd (js_ac st) (Z.to_nat id) (jtab_build bits vals)) (js_restart st) (js_maxh st) (js_maxv st)) rest.
Proof.
  intros Hc Hi T. destruct (tab_ok_len _ _ T) as (L & S & B). pose proof (zlen_nonneg vals). assert (zlen bits = 16) as L' by (unfold zlen; lia).
  rewrite marker_loop_S. unfold dht_segment. rewrite read_segment by (try lia; rewrite zlen_cons, zlen_app; lia).
  cbn [rbind]. change (196 =? 192) with false. change (196 =? 194) with false. change (196 =? 196) with true. cbv iota.
  cbn [length parse_dht].
  assert (Z.land (Z.shiftr (16 * cls + id) 4) 15 = cls /\ Z.land (16 * cls + id) 15 = id) as [-> ->]
    by (assert (id = 0 \/ id = 1) as [-> | ->] by lia; assert (cls = 0 \/ cls = 1) as [-> | ->] by lia; split; reflexivity).
  cbv zeta. destruct (Z.gtb_spec id 3); [lia|]. rewrite zlen_app, L'. destruct (Z.gtb_spec 16 (16 + zlen vals)); [lia|].
  assert (firstn 16 (bits ++ vals) = bits) as -> by (rewrite firstn_app, L, Nat.sub_diag, <- L, firstn_all; cbn [firstn]; rewrite app_nil_r; reflexivity).
  assert (skipn 16 (bits ++ vals) = vals) as -> by (rewrite skipn_app, L, Nat.sub_diag, <- L, skipn_all; reflexivity).
  rewrite S. destruct (Z.gtb_spec (zlen vals) (zlen vals)); [lia|].
  assert (firstn (Z.to_nat (zlen vals)) vals = vals) as -> by (unfold zlen; rewrite Nat2Z.id, firstn_all; reflexivity).
  assert (skipn (Z.to_nat (zlen vals)) vals = []) as -> by (unfold zlen; rewrite Nat2Z.id, skipn_all; reflexivity).
  destruct (length (bits ++ vals)); cbn [parse_dht]; destruct (cls =? 0); reflexivity.
Qed.
Lemma dri_step f st i rest : 0 <= i <= 65535 ->
  marker_loop (S f) st (dri_segment i ++ rest) =
  marker_loop f (mkjs (js_w st) (js_h st) (js_comps st) (js_quant st) (js_dc st) (js_ac st) i (js_maxh st) (js_maxv st)) rest.
Proof.
  intros Hi. rewrite marker_loop_S. unfold dri_segment. rewrite read_segment by (try lia; unfold hi_lo; rewrite !zlen_cons, zlen_nil; lia).
  cbn [rbind]. change (221 =? 192) with false. change (221 =? 194) with false. change (221 =? 196) with false. change (221 =? 219) with false. change (221 =? 221) with true. cbv iota.
  unfold parse_dri. unfold hi_lo at 1. rewrite !zlen_cons, zlen_nil. change (negb (1 + (1 + 0) =? 2)) with false. cbv iota.
  change (znth (hi_lo i) 0) with (i / 256). change (znth (hi_lo i) 1) with (i mod 256). rewrite be16_of_hi_lo. reflexivity.
Qed.
Lemma app0_step f st rest : marker_loop (S f) st (jfif_segment ++ rest) = marker_loop f st rest.
Proof. rewrite marker_loop_S. unfold jfif_segment. rewrite read_segment; [reflexivity|lia|lia|lia|lia|vm_compute; reflexivity]. Qed.
Definition raw_comps (ct : color_type) (s : subsampling) : list jcomp :=
  map (fun '(_, hs, vs, tq) => mkcomp hs vs tq 0 0) (frame_comps ct s).
Lemma sof_step f st o rest : 0 <= jo_w o <= 65535 -> 0 <= jo_h o <= 65535 -> js_maxh st = 1 -> js_maxv st = 1 ->
  marker_loop (S f) st (sof_segment 192 (jo_w o) (jo_h o) (frame_comps (jo_ct o) (jo_sub o)) ++ rest) =
  marker_loop f (mkjs (jo_w o) (jo_h o) (raw_comps (jo_ct o) (jo_sub o)) (js_quant st) (js_dc st) (js_ac st) (js_restart st) (factor o) (factor o)) rest.
Proof.
  intros Hw Hh M1 M2. rewrite marker_loop_S. unfold sof_segment.
  rewrite read_segment by (try lia; unfold frame_comps, hi_lo; destruct (jo_ct o), (jo_sub o); cbn [app flat_map]; rewrite !zlen_cons, ?zlen_nil; lia).
  cbn [rbind]. change (192 =? 192) with true. cbv iota. unfold parse_sof0, hi_lo. cbn [app].
  assert (forall a b c d n l, znth (8 :: a :: b :: c :: d :: n :: l) 0 = 8 /\ znth (8 :: a :: b :: c :: d :: n :: l) 1 = a /\ znth (8 :: a :: b :: c :: d :: n :: l) 2 = b /\
    znth (8 :: a :: b :: c :: d :: n :: l) 3 = c /\ znth (8 :: a :: b :: c :: d :: n :: l) 4 = d /\ znth (8 :: a :: b :: c :: d :: n :: l) 5 = n) as ZN by (intros; repeat split).
  destruct (ZN (jo_h o / 256) (jo_h o mod 256) (jo_w o / 256) (jo_w o mod 256) (zlen (frame_comps (jo_ct o) (jo_sub o)))
     (flat_map (fun '(id, hs, vs, tq) => [id; 16 * hs + vs; tq]) (frame_comps (jo_ct o) (jo_sub o)))) as (-> & -> & -> & -> & -> & ->).
  rewrite !be16_of_hi_lo, M1, M2. change (negb (8 =? 8)) with false. cbv iota zeta. unfold frame_comps, raw_comps, factor.
  destruct (jo_ct o); [reflexivity| | |]; destruct (jo_sub o); reflexivity.
Qed.
Lemma sos_step f st o rest : js_comps st = raw_comps (jo_ct o) (jo_sub o) ->
  marker_loop (S f) st (sos_segment (scan_comps (jo_ct o)) ++ rest) =
  decode_scan (mkjs (js_w st) (js_h st) (comps_of o) (js_quant st) (js_dc st) (js_ac st) (js_restart st) (js_maxh st) (js_maxv st)) rest.
Proof.
  intros HC. rewrite marker_loop_S. unfold sos_segment.
  rewrite read_segment by (try lia; unfold scan_comps; destruct (jo_ct o); cbn [app flat_map]; rewrite !zlen_cons, ?zlen_nil; lia).
  cbn [rbind]. change (218 =? 192) with false. change (218 =? 194) with false. change (218 =? 196) with false. change (218 =? 219) with false.
  change (218 =? 221) with false. change (218 =? 218) with true. cbv iota. unfold parse_sos. cbn [app]. rewrite HC.
  unfold comps_of, raw_comps, frame_comps, scan_comps, factor. destruct (jo_ct o); [reflexivity| | |]; destruct (jo_sub o); reflexivity.
Qed.

Lemma entropy_end seg : forall l tail, unstuff seg = Some l -> find_entropy_end (seg ++ 255 :: 217 :: tail) = zlen seg.
Proof.
  induction seg as [seg IH] using (well_founded_induction (Wf_nat.well_founded_ltof _ (@length Z))). unfold Wf_nat.ltof in IH.
  intros l tail HU. apply unstuff_inv in HU as [(-> & ->)|[(r & z & -> & -> & Hr)|(b & r & z & N & -> & -> & Hr)]].
  - reflexivity.
  - cbn [app]. cbn [find_entropy_end]. change (255 =? 255) with true. change (0 =? 0) with true. cbn [andb negb].
    specialize (IH r ltac:(cbn; lia) z tail Hr). destruct (r ++ 255 :: 217 :: tail) as [|a q] eqn:E; [destruct r; discriminate E|].
    change (0 =? 255) with false. cbn [andb]. rewrite IH, !zlen_cons. lia.
  - cbn [app]. specialize (IH r ltac:(cbn; lia) z tail Hr). cbn [find_entropy_end]. destruct (r ++ 255 :: 217 :: tail) as [|a q] eqn:E; [destruct r; discriminate E|].
    destruct (Z.eqb_spec b 255); [contradiction|]. cbn [andb]. rewrite IH, zlen_cons. lia.
Qed.

(** ** the decoder on a baseline file without restart markers *)
Lemma decode_file t o q data scan tail : valid_args data o -> dctq_ok q -> tabs_ok t ->
  match jo_restart o with Some i => mcus_across o * mcus_down o <= i | None => True end ->
  (exists bits, segment scan bits /\ interval_code (tabs_of t) [0; 0; 0] (zzs (concat (image_mcus q data o))) bits) ->
  decode_jpeg (baseline_file o (tabs_of t 0) (tabs_of t 1) scan ++ tail) = Ok (dec_image q data o).
Proof.
  intros HV HQ HT HR (bits & HS & HI). pose proof HV as (Hw & Hh & _ & _ & _ & HCT & HRI).
  destruct (tabs_of_ok t 0 HT) as [D0 A0]. destruct (tabs_of_ok t 1 HT) as [D1 A1].
  unfold baseline_file, jpeg_header. rewrite <- !app_assoc. unfold decode_jpeg. cbn [app]. change ((255 =? 255) && (216 =? 216)) with true. cbv iota.
  match goal with |- marker_loop (S (length ?r)) _ _ = _ => assert (exists f, S (length r) = S (S (S (S (S (S (S (S (S (S f)))))))))) as (f & EF) end.
  { unfold jfif_segment, marker_segment. cbn [app length hi_lo]. eexists. reflexivity. }
  rewrite EF. clear EF.
  rewrite app0_step. unfold js_new.
  rewrite (dqt_step _ _ 0) by (try lia; apply table_zigzag_range). cbn [js_w js_h js_comps js_quant js_dc js_ac js_restart js_maxh js_maxv].
  rewrite (dqt_step _ _ 1) by (try lia; apply table_zigzag_range). cbn [js_w js_h js_comps js_quant js_dc js_ac js_restart js_maxh js_maxv].
  rewrite (sof_step _ _ o) by (try lia; reflexivity). cbn [js_w js_h js_comps js_quant js_dc js_ac js_restart js_maxh js_maxv].
  rewrite (dht_step _ _ 0 0 _ _ _ ltac:(lia) ltac:(lia) D0). cbn [Z.eqb js_w js_h js_comps js_quant js_dc js_ac js_restart js_maxh js_maxv].
  rewrite (dht_step _ _ 0 1 _ _ _ ltac:(lia) ltac:(lia) D1). cbn [Z.eqb js_w js_h js_comps js_quant js_dc js_ac js_restart js_maxh js_maxv].
  rewrite (dht_step _ _ 1 0 _ _ _ ltac:(lia) ltac:(lia) A0). cbn [Z.eqb js_w js_h js_comps js_quant js_dc js_ac js_restart js_maxh js_maxv].
  rewrite (dht_step _ _ 1 1 _ _ _ ltac:(lia) ltac:(lia) A1). cbn [Z.eqb js_w js_h js_comps js_quant js_dc js_ac js_restart js_maxh js_maxv].
  set (Q := upd (upd (repeat (repeat 0 64) 4) (Z.to_nat 0) _) (Z.to_nat 1) _).
  set (DC := upd (upd (repeat jtab_default 4) (Z.to_nat 0) _) (Z.to_nat 1) (jtab_build (ct_dcb _) _)).
  set (AC := upd (upd (repeat jtab_default 4) (Z.to_nat 0) _) (Z.to_nat 1) (jtab_build (ct_acb _) _)).
  assert (forall r, st_ok (mkjs (jo_w o) (jo_h o) (comps_of o) Q DC AC r (factor o) (factor o)) o t \/ r <> match jo_restart o with Some i => i | None => 0 end) as SO.
  { intros r. destruct (Z.eq_dec r (match jo_restart o with Some i => i | None => 0 end)) as [ER|N]; [left|right; exact N].
    constructor; try reflexivity; [exact ER| | |]; intros c Hc; assert (c = 0 \/ c = 1 \/ c = 2) as [->|[->| ->]] by lia; reflexivity. }
  destruct HS as (HB & l & HU & HL).
  assert (forall st, st_ok st o t -> decode_scan st (scan ++ [255; 217] ++ tail) = Ok (dec_image q data o)) as DS.
  { intros st Hst. apply (decode_scan_ok st o t q data HV HQ Hst HT HR scan bits ([255; 217] ++ tail)); [|apply (entropy_end scan l tail HU)|exact HI].
    split; [exact HB|]. exists l. auto. }
  destruct (jo_restart o) as [i|] eqn:ERI.
  - rewrite dri_step by lia. cbn [js_w js_h js_comps js_quant js_dc js_ac js_restart js_maxh js_maxv].
    rewrite (sos_step _ _ o) by reflexivity. cbn [js_w js_h js_comps js_quant js_dc js_ac js_restart js_maxh js_maxv].
    apply DS. destruct (SO i) as [S|N]; [exact S|congruence].
  - cbn [app]. rewrite (sos_step _ _ o) by reflexivity. cbn [js_w js_h js_comps js_quant js_dc js_ac js_restart js_maxh js_maxv].
    apply DS. destruct (SO 0) as [S|N]; [exact S|congruence].
Qed.
