(** Decoding any baseline JPEG file: the whole file. *)
From Coq Require Import Reals Lra.
From Verif Require Import Base BitsModel PngFilterModel PngPaletteModel PngFilterProofs JpegBaseModel JpegDecModel JpegBaseProofs MsbSpec JpegSpec JpegSymProofs JpegFileSpec JpegIdctProofs JpegScanProofs JpegTop JpegColour JpegIdctReal JpegDecSpec JpegIdctEven JpegAnySpec JpegAny ResizeProofs JpegUniform.
Open Scope Z_scope.

Lemma zigzag_order_eq : zigzag_order = ZIGZAG.
Proof. reflexivity. Qed.
Lemma dequantize_is zz q : is_dequantised zz q (dequantize zz q).
Proof. split; [apply dequantize_length|]. intros i Hi. rewrite zigzag_order_eq. apply dequantize_zigzag. exact Hi. Qed.
Lemma dequantised_unique zz q c : is_dequantised zz q c -> c = dequantize zz q.
Proof.
  intros [L H]. destruct (dequantize_is zz q) as [L' H']. apply (nth_ext _ _ 0 0); [congruence|]. intros n Hn. rewrite L in Hn.
  destruct (zigzag_onto (Z.of_nat n) ltac:(lia)) as (i & Hi & E). specialize (H i Hi). specialize (H' i Hi). rewrite zigzag_order_eq, E in H, H'.
  unfold znth in H at 1. unfold znth in H' at 1. rewrite Nat2Z.id in H, H'. congruence.
Qed.

Lemma colour_case y cb cr : is_byte y -> is_byte cb -> is_byte cr ->
  exists r g b, ycbcr_pixel y cb cr = [r; g; b] /\ is_byte r /\ is_byte g /\ is_byte b /\ jfif_colour y cb cr r g b.
Proof.
  intros Hy Hb Hr. destruct (decoder_colour_l _ _ _ Hy Hb Hr) as (r & g & b & E & R1 & R2 & R3 & C). exists r, g, b. exact (conj E (conj R1 (conj R2 (conj R3 C)))).
Qed.

Section Any.
  Variables (M : Z) (f : jfile) (B : Z -> Z -> Z -> list Z) (T : Z -> ctabs) (Q : Z -> list Z).
  Hypothesis HM : 0 <= M <= 2047.
  Hypothesis HC : conforming_jpeg M f B T Q.
  Hypothesis HS : usual_sampling f.
  Hypothesis HR : no_restarts f.
  Let n := zlen (f_comps f).
  Let segs := f_before f ++ f_after f.
  Definition final : jstate :=
    mkjs (f_w f) (f_h f) (map cooked (f_comps f)) (set_slots (fun t => t) (quants segs) (repeat (repeat 0 64) 4)) (set_slots build (huffs 0 segs) (repeat jtab_default 4))
         (set_slots build (huffs 1 segs) (repeat jtab_default 4)) (last (intervals_set segs) 0) (maxh f) (maxv f).
  Definition PX (c bx by_ : Z) : list Z := match idct_2d (dequantize (B c bx by_) (Q c)) with Ok px => px | _ => [] end.

  Lemma header_done tail : decode_jpeg (file_bytes f ++ tail) = decode_scan final (f_scan f ++ [255; 217] ++ tail).
  Proof.
    destruct HC as [[Hw Hh] HN HL HG _ _ _ _]. apply Forall_app in HG as [G1 G2].
    assert (Forall comp_legal (f_comps f)) as FL by (apply Forall_forall; exact HL).
    unfold file_bytes. rewrite <- !app_assoc. cbn [app]. unfold decode_jpeg. change ((255 =? 255) && (216 =? 216)) with true. cbv iota.
    match goal with |- marker_loop (S (length ?r)) _ _ = _ => assert (exists k, S (length r) = (length (f_before f) + S (length (f_after f) + S k))%nat) as (k & ->) end.
    { pose proof (flat_map_len_ge seg_bytes (f_before f) seg_bytes_len). pose proof (flat_map_len_ge seg_bytes (f_after f) seg_bytes_len).
      match goal with |- exists k, S (length ?r) = _ => exists (length r - length (f_before f) - length (f_after f) - 1)%nat end.
      rewrite !app_length. unfold sof_segment, marker_segment. cbn [app length]. lia. }
    rewrite segs_step by exact G1.
    rewrite sof_any by (try assumption; try lia; reflexivity). rewrite segs_step by exact G2.
    rewrite sos_any by (try assumption; reflexivity).
    unfold final, segs, maxh, maxv, run_segs, quants, huffs, intervals_set. cbn [js_w js_h js_comps js_quant js_dc js_ac js_restart js_maxh js_maxv js_new].
    rewrite !flat_map_app, !set_slots_app, last_app. reflexivity.
  Qed.
  Lemma comp_final c : comp final c = cooked (comp_at f c).
  Proof. unfold comp, final, comp_at. cbn [js_comps]. change (mkcomp 1 1 0 0 0) with (cooked (mkac 0 1 1 0 0 0)). apply map_nth. Qed.
  Lemma n_final : zlen (js_comps final) = n.
  Proof. unfold final, n, zlen. cbn [js_comps]. rewrite map_length. reflexivity. Qed.
  Lemma comp_legal_at c : 0 <= c < n -> comp_legal (comp_at f c).
  Proof. intros Hc. apply (cj_comp _ _ _ _ _ HC). unfold comp_at. apply nth_In. unfold n, zlen in Hc. lia. Qed.
  Lemma single_factors : single f = true -> maxh f = 1 /\ maxv f = 1 /\ forall c, 0 <= c < n -> a_h (comp_at f c) = 1 /\ a_v (comp_at f c) = 1.
  Proof.
    unfold single. intros E. apply Z.eqb_eq in E. destruct HS as [(_ & A & A')|(N3 & _)]; [|lia].
    unfold maxh, maxv, n, comp_at in *. destruct (f_comps f) as [|c0 [|c1 l]]; [discriminate E| |rewrite !zlen_cons in E; pose proof (zlen_nonneg l); lia].
    change (a_h c0 = 1) in A. change (a_v c0 = 1) in A'. cbn [map fold_right]. rewrite A, A'. split; [reflexivity|]. split; [reflexivity|]. intros c Hc. change (zlen [c0]) with 1 in Hc. assert (c = 0) as -> by lia. cbn. auto.
  Qed.
  Lemma fac_h c : 0 <= c < n -> hfac f c = a_h (comp_at f c) /\ vfac f c = a_v (comp_at f c).
  Proof. intros Hc. unfold hfac, vfac. destruct (single f) eqn:E; [|auto]. destruct (single_factors E) as (_ & _ & K). destruct (K c Hc). lia. Qed.
  Lemma across_eq : across f = div_ceil (f_w f) (maxh f * 8) /\ down f = div_ceil (f_h f) (maxv f * 8).
  Proof.
    unfold across, down, up_div, div_ceil. destruct (single f) eqn:E; [destruct (single_factors E) as (-> & -> & _); auto|]. split; f_equal; lia.
  Qed.
  Lemma max_ge l : forall x : Z, In x l -> x <= fold_right Z.max 1 l.
  Proof. induction l as [|a l IH]; intros x []; cbn [fold_right]; [lia|specialize (IH x H); lia]. Qed.
  Lemma max_pos : 1 <= maxh f /\ 1 <= maxv f.
  Proof. assert (forall l, 1 <= fold_right Z.max 1 l) as G by (intros l; induction l; cbn; lia). split; apply G. Qed.
  Lemma across_pos1 : 1 <= across f /\ 1 <= down f.
  Proof.
    destruct across_eq as [-> ->]. destruct (cj_size _ _ _ _ _ HC). destruct max_pos. unfold div_ceil.
    split; [enough (0 < (f_w f + maxh f * 8 - 1) / (maxh f * 8)) by lia|enough (0 < (f_h f + maxv f * 8 - 1) / (maxv f * 8)) by lia]; apply Z.div_str_pos; lia.
  Qed.
  Lemma order_eq k : order final (across f) k = mcu_order f k.
  Proof.
    unfold order, mcu_order. pose proof n_final as NF. unfold zlen in NF.
    replace (length (js_comps final)) with (length (f_comps f)) by (unfold n, zlen in NF; lia).
    apply flat_map_ext_in. intros c Hc. apply in_idxs in Hc. destruct (fac_h c ltac:(unfold n, zlen; lia)) as [-> ->]. rewrite comp_final. reflexivity.
  Qed.
  Lemma quant_in c : 0 <= c < n -> get (js_quant final) (c_q (comp final c)) = Ok (Q c) /\
    get (js_dc final) (c_dc (comp final c)) = Ok (jtab_build (ct_dcb (T c)) (ct_dcv (T c))) /\ get (js_ac final) (c_ac (comp final c)) = Ok (jtab_build (ct_acb (T c)) (ct_acv (T c))).
  Proof.
    intros Hc. rewrite comp_final. destruct (comp_legal_at c Hc) as (_ & _ & _ & L1 & L2 & L3). destruct (cj_tables _ _ _ _ _ HC c Hc) as (F1 & F2 & F3).
    pose proof (cj_segs _ _ _ _ _ HC) as SG. fold segs in F1, F2, F3, SG.
    assert (Forall (fun d => 0 <= fst d) (quants segs) /\ Forall (fun d => 0 <= fst d) (huffs 0 segs) /\ Forall (fun d => 0 <= fst d) (huffs 1 segs)) as (P1 & P2 & P3).
    { clear - SG. generalize dependent segs. intros l H. induction H as [|[k s] l Hs _ (I1 & I2 & I3)]; [repeat split; constructor|].
      unfold quants, huffs in *. cbn [flat_map snd].
      destruct s as [ts|ts|i|m p]; cbn [app]; auto.
      - split; [|auto]. apply Forall_app. split; [|exact I1]. destruct Hs as [_ Hs]. apply Forall_map. eapply Forall_impl; [|exact Hs]. intros [[p id] t] (_ & Hi & _). cbn. lia.
      - destruct Hs as [_ Hs]. split; [exact I1|].
        assert (forall cls, Forall (fun d : Z * (list Z * list Z) => 0 <= fst d) (flat_map (fun '(k0, id, bits, vals) => if k0 =? cls then [(id, (bits, vals))] else []) ts)) as K.
        { intros cls. apply Forall_forall. intros d Hd. apply in_flat_map in Hd as ([[[k0 id] bits] vals] & Hin & Hd). rewrite Forall_forall in Hs. specialize (Hs _ Hin). cbn in Hs.
          destruct (k0 =? cls); [|destruct Hd]. destruct Hd as [<-|[]]. cbn. lia. }
        split; apply Forall_app; split; auto. }
    unfold final. cbn [js_quant js_dc js_ac cooked c_q c_dc c_ac].
    split; [|split].
    - apply (set_slots_get (fun t => t)); [exact F1|unfold zlen; rewrite repeat_length; lia|exact P1].
    - rewrite (set_slots_get build _ _ _ _ F2); [reflexivity|unfold zlen; rewrite repeat_length; lia|exact P2].
    - rewrite (set_slots_get build _ _ _ _ F3); [reflexivity|unfold zlen; rewrite repeat_length; lia|exact P3].
  Qed.
  Lemma tabs_in c : 0 <= c < n -> tab_ok (ct_dcb (T c)) (ct_dcv (T c)) /\ tab_ok (ct_acb (T c)) (ct_acv (T c)).
  Proof.
    intros Hc. destruct (cj_tables _ _ _ _ _ HC c Hc) as (_ & F2 & F3). pose proof (cj_segs _ _ _ _ _ HC) as SG. fold segs in F2, F3, SG.
    assert (forall cls id t, In (id, t) (huffs cls segs) -> tab_ok (fst t) (snd t)) as K.
    { intros cls id t Hin. unfold huffs in Hin. apply in_flat_map in Hin as ([k s] & Hs & Hin). rewrite Forall_forall in SG. specialize (SG _ Hs). cbn [snd] in Hin.
      destruct s as [ts|ts|i|m p]; cbn [In] in Hin; try contradiction. destruct SG as [_ SG]. apply in_flat_map in Hin as ([[[k0 id'] bits] vals] & Hin & Hd).
      rewrite Forall_forall in SG. specialize (SG _ Hin). cbn in SG. destruct (k0 =? cls); [|destruct Hd]. destruct Hd as [[= <- <-]|[]]. apply huff_legal_ok, SG. }
    split; [destruct F2 as (a & b & E & _)|destruct F3 as (a & b & E & _)].
    - apply (K 0 (a_td (comp_at f c)) (ct_dcb (T c), ct_dcv (T c))). rewrite E. apply in_or_app. right. left. reflexivity.
    - apply (K 1 (a_ta (comp_at f c)) (ct_acb (T c), ct_acv (T c))). rewrite E. apply in_or_app. right. left. reflexivity.
  Qed.
  Lemma facs c : 0 <= c < zlen (js_comps final) -> 1 <= c_h (comp final c) /\ 1 <= c_v (comp final c).
  Proof. rewrite n_final. intros Hc. rewrite comp_final. destruct (comp_legal_at c Hc) as (_ & L1 & L2 & _). cbn [cooked c_h c_v]. lia. Qed.
  Lemma n_ok : 1 <= zlen (js_comps final) <= 3.
  Proof. rewrite n_final. destruct (cj_comps _ _ _ _ _ HC); unfold n; lia. Qed.
  Lemma pok_in c bx by_ : pok final (across f) (down f) (c, bx, by_) -> In (c, bx, by_) (all_blocks f).
  Proof.
    intros HP. destruct across_pos1 as [A1 A2]. destruct (order_covers final (across f) (down f) facs A1 c bx by_ HP) as (k & Hk & Hin).
    unfold all_blocks. apply in_flat_map. exists k. split; [apply in_idxs; lia|]. rewrite <- order_eq. exact Hin.
  Qed.
  Lemma block_px c bx by_ : pok final (across f) (down f) (c, bx, by_) ->
    (- 2 ^ 15 <= znth (B c bx by_) 0 < 2 ^ 15 /\ idct_2d (dequantize (B c bx by_) (Q c)) = Ok (PX c bx by_)) /\ bytes (PX c bx by_) /\
    forall x y, (x < 8)%nat -> (y < 8)%nat -> (Rabs (IZR (nth (8 * y + x) (PX c bx by_) 0%Z) - rclamp (128 + real_idct (drop_odd (dequantize (B c bx by_) (Q c))) x y)) <= 9 / 16 + IZR M / 1100)%R.
  Proof.
    intros HP. destruct (cj_block _ _ _ _ _ HC c bx by_ (pok_in _ _ _ HP)) as (L & D & K).
    destruct (idct_even_frequencies M (dequantize (B c bx by_) (Q c)) HM) as (px & E & _ & BY & AC).
    { intros k Hk. destruct (zigzag_onto k Hk) as (i & Hi & <-). rewrite dequantize_zigzag by exact Hi. specialize (K i Hi). lia. }
    unfold PX. rewrite E. auto.
  Qed.

  Lemma restart_none : js_restart final = 0 \/ across f * down f <= js_restart final.
  Proof using HR.
    clear - HR. unfold no_restarts, restart_interval in HR. cbn [final js_restart]. destruct (Z.eqb_spec (last (intervals_set (f_before f ++ f_after f)) 0) 0); [left|right]; assumption.
  Qed.
  Lemma scan_one : exists bits, segment (f_scan f) bits /\ interval_code T [0; 0; 0] (map (fun '(c, bx, by_) => (c, B c bx by_)) (all_blocks f)) bits.
  Proof.
    pose proof (cj_scan _ _ _ _ _ HC) as H. destruct across_pos1 as [A1 A2]. unfold no_restarts in HR.
    set (ms := map (mcu_order f) (idxs (Z.to_nat (across f * down f)))) in *.
    assert (concat ms = all_blocks f) as EC by (unfold all_blocks, ms; rewrite flat_map_concat_map; reflexivity).
    assert (zlen ms = across f * down f) as EL by (unfold ms, zlen; rewrite map_length, idxs_length; apply Z2Nat.id; nia).
    assert (intervals (restart_interval (f_before f ++ f_after f)) ms = [ms]) as EI.
    { clear H EC. destruct (restart_interval (f_before f ++ f_after f)) as [i|]; [|reflexivity]. cbn [intervals]. rewrite chunks_cons by (unfold zlen in EL; nia || (intros ->; cbn in EL; nia)).
      rewrite firstn_all2, skipn_all2 by (unfold zlen in EL; lia). rewrite chunks_nil. reflexivity. }
    rewrite EI in H. cbn [map] in H. rewrite EC in H. inversion H; subst.
    - exists bits. auto.
    - match goal with K : scan_code _ _ [] _ |- _ => inversion K end.
  Qed.

  Definition any_sample (c x y : Z) : Z := sample_of PX c x y.
  Lemma decode_any tail : decode_jpeg (file_bytes f ++ tail) = Ok (mkjimg (f_w f) (f_h f)
      (flat_map (fun y => flat_map (fun x => gpix final PX x y) (idxs (Z.to_nat (f_w f)))) (idxs (Z.to_nat (f_h f)))) (if single f then Gray else Rgb)).
  Proof.
    rewrite header_done. destruct scan_one as (bits & HSeg & HI). destruct HSeg as (HB & l & HU & HL).
    assert (segment (f_scan f) bits) as SG by (split; [exact HB|]; exists l; auto).
    pose proof n_final as NF. destruct across_pos1 as [A1 A2]. destruct across_eq as [E1 E2]. destruct max_pos as [MP1 MP2]. destruct (cj_size _ _ _ _ _ HC) as [SZ1 SZ2].
    pose proof (cj_comps _ _ _ _ _ HC) as NN.
    replace (if single f then Gray else Rgb) with (if zlen (js_comps final) =? 1 then Gray else Rgb) by (rewrite NF; reflexivity).
    apply (gdecode final T Q B PX (across f) (down f) n_ok facs A1 A2) with (bits := bits); try assumption.
    - intros c Hc. rewrite NF in Hc. apply quant_in. exact Hc.
    - intros c Hc. rewrite NF in Hc. apply quant_in. exact Hc.
    - intros c Hc. rewrite NF in Hc. apply quant_in. exact Hc.
    - intros c Hc. rewrite NF in Hc. apply tabs_in. exact Hc.
    - exact restart_none.
    - intros c bx by_ HP. apply block_px. exact HP.
    - cbn [final js_w]. lia.
    - cbn [final js_h]. lia.
    - rewrite comp_final. cbn [cooked c_h c_v final js_maxh js_maxv]. destruct (single f) eqn:ES.
      + destruct (single_factors ES) as (-> & -> & K). apply K. unfold n. lia.
      + destruct HS as [(N1 & _)|(_ & F1 & F2 & _)]; [unfold single in ES; rewrite N1 in ES; discriminate ES|auto].
    - intros c Hc. rewrite NF in Hc. rewrite comp_final. cbn [cooked c_h c_v final js_maxh js_maxv].
      destruct HS as [(N1 & F1 & F2)|(_ & _ & _ & K)].
      + assert (single f = true) as ES by (unfold single; rewrite N1; reflexivity). destruct (single_factors ES) as (-> & -> & K). destruct (K c Hc) as [-> ->]. split; apply Z.divide_refl.
      + apply K. unfold comp_at. apply nth_In. unfold n, zlen in Hc. lia.
    - rewrite NF. exact NN.
    - intros c bx by_ HP. apply block_px. exact HP.
    - apply (entropy_end _ l). exact HU.
    - assert (flat_map (order final (across f)) (idxs (Z.to_nat (across f * down f))) = all_blocks f) as ->.
      { unfold all_blocks. apply flat_map_ext_in. intros k _. apply order_eq. }
      assert (map (blk B) (all_blocks f) = map (fun '(c, bx, by_) => (c, B c bx by_)) (all_blocks f)) as -> by (apply map_ext; intros [[c bx] by_]; reflexivity). exact HI.
  Qed.
End Any.

Lemma decode_any_image M f B T Q tail : 0 <= M <= 2047 -> conforming_jpeg M f B T Q -> usual_sampling f -> no_restarts f ->
  exists px S, decode_jpeg (file_bytes f ++ tail) = Ok (mkjimg (f_w f) (f_h f) px (if single f then Gray else Rgb)) /\
  zlen px = f_w f * f_h f * zlen (f_comps f) /\
  (forall c x y, 0 <= c < zlen (f_comps f) -> 0 <= x < 8 * hfac f c * across f -> 0 <= y < 8 * vfac f c * down f ->
     is_byte (S c x y) /\ forall coefs, is_dequantised (B c (x / 8) (y / 8)) (Q c) coefs ->
     (Rabs (IZR (S c x y) - rclamp (128 + real_idct (drop_odd coefs) (Z.to_nat (x mod 8)) (Z.to_nat (y mod 8)))) <= 9 / 16 + IZR M / 1100)%R) /\
  forall x y, 0 <= x < f_w f -> 0 <= y < f_h f ->
    let s c := S c (x * a_h (comp_at f c) / maxh f) (y * a_v (comp_at f c) / maxv f) in
    if single f then pixel_at px (f_w f) 1 x y = [S 0 x y]
    else exists r g b, pixel_at px (f_w f) 3 x y = [r; g; b] /\ is_byte r /\ is_byte g /\ is_byte b /\ jfif_colour (s 0) (s 1) (s 2) r g b.
Proof.
  intros HM HC HS HR. pose proof (decode_any M f B T Q HM HC HS HR tail) as E.
  pose proof (n_final f) as NF. destruct (cj_size _ _ _ _ _ HC) as [SZ1 SZ2]. pose proof (cj_comps _ _ _ _ _ HC) as NN.
  set (px := flat_map _ _) in E. set (n := zlen (f_comps f)) in *.
  assert (forall c x y, 0 <= c < n -> 0 <= x < 8 * hfac f c * across f -> 0 <= y < 8 * vfac f c * down f ->
    is_byte (any_sample B Q c x y) /\ (Rabs (IZR (any_sample B Q c x y) - rclamp (128 + real_idct (drop_odd (dequantize (B c (x / 8) (y / 8)) (Q c))%Z) (Z.to_nat (x mod 8)) (Z.to_nat (y mod 8)))) <= 9 / 16 + IZR M / 1100)%R) as SB.
  { intros c x y Hc Hx Hy. destruct (fac_h f HS c Hc) as [F1 F2]. rewrite F1 in Hx. rewrite F2 in Hy.
    assert (pok (final f) (across f) (down f) (c, x / 8, y / 8)) as PK.
    { cbn [pok]. rewrite NF, comp_final. cbn [cooked c_h c_v]. split; [exact Hc|]. split; (split; [apply Z.div_pos; lia|apply Z.div_lt_upper_bound; lia]). }
    destruct (block_px M f B T Q HM HC HS c (x / 8) (y / 8) PK) as (_ & BY & AC). unfold any_sample, sample_of.
    pose proof (Z.mod_pos_bound x 8 ltac:(lia)). pose proof (Z.mod_pos_bound y 8 ltac:(lia)).
    assert (znth (PX B Q c (x / 8) (y / 8)) (8 * (y mod 8) + x mod 8) = nth (8 * Z.to_nat (y mod 8) + Z.to_nat (x mod 8)) (PX B Q c (x / 8) (y / 8)) 0) as ->.
    { unfold znth. f_equal. lia. }
    split; [apply Forall_nth_d; [exact BY|unfold is_byte; lia]|]. apply AC; lia. }
  assert (forall c x y, 0 <= c < n -> 0 <= x < f_w f -> 0 <= y < f_h f -> is_byte (any_sample B Q c (x * a_h (comp_at f c) / maxh f) (y * a_v (comp_at f c) / maxv f))) as SP.
  { intros c x y Hc Hx Hy. destruct (fac_h f HS c Hc) as [F1 F2]. destruct (across_eq f HS) as [A1 A2]. destruct (max_pos f) as [M1 M2].
    destruct (comp_legal_at M f B T Q HC c Hc) as (_ & L1 & L2 & _).
    assert (f_w f <= across f * (maxh f * 8) /\ f_h f <= down f * (maxv f * 8)) as [CW CH].
    { rewrite A1, A2. unfold div_ceil.
      pose proof (Z.div_mod (f_w f + maxh f * 8 - 1) (maxh f * 8) ltac:(lia)). pose proof (Z.mod_pos_bound (f_w f + maxh f * 8 - 1) (maxh f * 8) ltac:(lia)).
      pose proof (Z.div_mod (f_h f + maxv f * 8 - 1) (maxv f * 8) ltac:(lia)). pose proof (Z.mod_pos_bound (f_h f + maxv f * 8 - 1) (maxv f * 8) ltac:(lia)). split; lia. }
    apply SB; [exact Hc|rewrite F1|rewrite F2]; (split; [apply Z.div_pos; nia|apply Z.div_lt_upper_bound; nia]). }
  assert (forall x y, 0 <= x < f_w f -> 0 <= y < f_h f -> zlen (gpix (final f) (PX B Q) x y) = n) as GL.
  { intros x y _ _. unfold gpix. rewrite NF. fold n. destruct (Z.eqb_spec n 1) as [->|N1]; [reflexivity|]. destruct NN as [N|N]; [contradiction|]. rewrite N. reflexivity. }
  exists px, (any_sample B Q). split; [exact E|]. split; [|split].
  - unfold px. rewrite (flat_zlen _ (f_w f * n)). { rewrite Z2Nat.id by lia. lia. }
    intros y Hy. rewrite (flat_zlen _ n). { rewrite Z2Nat.id by lia. lia. } intros x Hx. apply GL; lia.
  - intros c x y Hc Hx Hy. destruct (SB c x y Hc Hx Hy) as [B1 B2]. split; [exact B1|]. intros coefs HD. rewrite (dequantised_unique _ _ _ HD). exact B2.
  - intros x y Hx Hy. cbv zeta. pose proof (nested (gpix (final f) (PX B Q)) (f_w f) (f_h f) n x y ltac:(lia) GL Hx Hy) as NE. fold px in NE. change (pixel_at px (f_w f) n x y = gpix (final f) (PX B Q) x y) in NE.
    unfold single. fold n. destruct (Z.eqb_spec n 1) as [N1|N1].
    + rewrite N1 in NE. rewrite NE. unfold gpix. rewrite NF. fold n. rewrite N1. reflexivity.
    + assert (n = 3) as N3 by (destruct NN; lia). rewrite N3 in NE. rewrite NE. unfold gpix. rewrite NF. fold n. rewrite N3. change (3 =? 1) with false. cbv iota.
      rewrite !comp_final. cbn [cooked c_h c_v final js_maxh js_maxv].
      assert (a_h (comp_at f 0) = maxh f /\ a_v (comp_at f 0) = maxv f) as [H0 V0] by (destruct HS as [(K & _)|(_ & K & K' & _)]; [unfold n in N1; lia|auto]).
      assert (0 <= 0 < n /\ 0 <= 1 < n /\ 0 <= 2 < n) as (J0 & J1 & J2) by (clear - N3; lia).
      pose proof (SP 0 x y J0 Hx Hy) as B0. pose proof (SP 1 x y J1 Hx Hy) as B1. pose proof (SP 2 x y J2 Hx Hy) as B2.
      destruct (max_pos f) as [M1 M2]. rewrite H0, V0 in *. rewrite !Z.div_mul in * by lia.
      destruct (colour_case _ _ _ B0 B1 B2) as (r & g & b & E1 & W). exists r, g, b. split; [exact E1|exact W].
Qed.
