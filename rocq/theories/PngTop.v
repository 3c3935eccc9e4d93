(** The PNG encoder and decoder together. *)
From Coq Require Import Permutation.
From Verif Require Import Base ChecksumModel ChecksumSpec ChecksumProofs InflateModel DeflateSpec InflateProofs Lz77Model Lz77Proofs
  HuffModel DeflateModel DeflateTop PngFilterModel PngPaletteModel PngQuantModel PngDecModel PngModel PngSpec PngEncSpec
  PngFilterProofs PngPackProofs PngDecProofs PngPaletteProofs PngReduceProofs PngFileProofs PngEncodeProofs PngQuantProofs.

(** ** The compressor *)
Lemma fast_comp_ok_l H p e o : length p = 10%nat -> o_optimal o = false -> e_fast e = fast_of H p -> comp_ok e o.
Proof.
  intros Hp Ho He d Hd Hs. unfold room in Hs. rewrite Ho in Hs. unfold compress. rewrite Ho, He. unfold fast_of.
  destruct (deflate_zlib_packed_ok H p d (o_level o) Hp Hd Hs) as (z & p' & -> & _ & Hb & Hz). cbn [rbind]. eauto.
Qed.

(** ** Shape of the files *)
Lemma reduce_pal_depth data w h ct rct rpal rd p : maybe_reduce_color_type data w h ct rct rpal = Ok rd ->
  rd_pal rd = Some p -> rd_depth rd = palette_bit_depth (zlen p).
Proof.
  unfold maybe_reduce_color_type. destruct (_ && rct); [intros [= <-]; discriminate|].
  destruct (if rpal then _ else _) as [[[indexed palette]|]|e| |]; cbn [rbind]; try discriminate.
  - destruct (if palette_bit_depth _ <? 8 then _ else _) as [packed|e| |]; cbn [rbind]; try discriminate.
    intros [= <-]. cbn. intros [= ->]. reflexivity.
  - assert (forall g, reduce_gray g w = Ok rd -> rd_pal rd = None) as Hg.
    { intros g. unfold reduce_gray. destruct (if _ <? 8 then _ else _); cbn [rbind]; try discriminate. intros [= <-]. reflexivity. }
    destruct (negb rct); [intros [= <-]; discriminate|]. unfold reduce_by_type. destruct ct; try (intros [= <-]; discriminate).
    + destruct (all_gray_rgb data); [|intros [= <-]; discriminate]. intros G%Hg. congruence.
    + destruct (analyze_rgba data) as [opq gr]. destruct (opq && gr); [intros G%Hg; congruence|].
      destruct opq; [intros [= <-]; discriminate|]. destruct gr; intros [= <-]; discriminate.
Qed.
Lemma palette_depth_fits n : n <= 256 -> n <= 2 ^ palette_bit_depth n.
Proof.
  intros H. unfold palette_bit_depth. destruct (Z.eqb_spec n 0); [change (2 ^ 8) with 256; lia|].
  destruct (Z.leb_spec n 2); [change (2 ^ 1) with 2; lia|]. destruct (Z.leb_spec n 4); [change (2 ^ 2) with 4; lia|].
  destruct (Z.leb_spec n 16); [change (2 ^ 4) with 16; lia|]. change (2 ^ 8) with 256. lia.
Qed.

Lemma legal_of ctb depth : png_ct_of ctb = Ok (pct ctb) -> valid_depth (pct ctb) depth = true -> depth <= 8 -> legal ctb depth.
Proof.
  unfold pct, png_ct_of, legal. intros Hc Hv Hd.
  destruct (Z.eqb_spec ctb 0) as [->|]; [cbn in Hv|destruct (Z.eqb_spec ctb 2) as [->|]; [cbn in Hv|destruct (Z.eqb_spec ctb 3) as [->|];
    [cbn in Hv|destruct (Z.eqb_spec ctb 4) as [->|]; [cbn in Hv|destruct (Z.eqb_spec ctb 6) as [->|]; [cbn in Hv|discriminate]]]]];
  rewrite ?orb_true_iff, ?Z.eqb_eq in Hv;
  repeat (destruct Hv as [Hv|Hv]); subst; try lia; cbn [In]; tauto.
Qed.

Lemma layout_samples w h depth ctb bpp sb : legal ctb depth -> layout (hdr w h depth ctb) = (bpp, sb) ->
  sb = (w * samples_per_pixel ctb * depth + 7) / 8.
Proof.
  unfold legal. cbn [In]. intros H E. unfold layout, hdr, ceil8 in E. cbn [ih_width ih_depth ih_ct] in E.
  repeat (destruct H as [H|H]; [injection H as <- <-; change (samples_per_pixel _) with 1 || change (samples_per_pixel _) with 2
    || change (samples_per_pixel _) with 3 || change (samples_per_pixel _) with 4; cbn -[Z.mul Z.add Z.div] in E;
    change (3 * 8 / 8) with 3 in E; change (2 * 8 / 8) with 2 in E; change (4 * 8 / 8) with 4 in E; injection E as _ <-; lia|]).
  destruct H.
Qed.

Lemma file_layout w h depth ctb pal trns z filt bpp sb :
  Forall wf_chunk (file_chunks w h depth ctb pal trns z) -> legal ctb depth -> layout (hdr w h depth ctb) = (bpp, sb) ->
  zlib_stream z filt -> zlen filt = h * (sb + 1) -> (ctb = 3 <-> pal <> None) -> (trns <> None -> pal <> None) ->
  (forall p, pal = Some p -> 1 <= zlen p <= 2 ^ depth /\ forall t, trns = Some t -> zlen t <= zlen p) ->
  png_layout w h depth ctb (file_chunks w h depth ctb pal trns z).
Proof.
  intros Hw Hl Hy Hz Lf H3 Ht Hp. constructor; auto.
  exists (option_map plte_data pal), trns, (chunks (Z.to_nat IDAT_CHUNK) z), filt.
  split; [|split; [|split; [|split; [|split; [|split; [|split]]]]]].
  - unfold file_chunks. f_equal. destruct pal, trns; reflexivity.
  - rewrite H3. destruct pal; cbn; split; congruence.
  - destruct pal as [p|]; [|discriminate]. intros q [= <-]. exists (zlen p). destruct (Hp p eq_refl) as (A & B).
    split; [|exact (conj A B)]. unfold plte_data. clear. induction p as [|((r, g), b) p IH]; [reflexivity|].
    cbn [flat_map app]. rewrite !zlen_cons. rewrite IH. lia.
  - intros G%Ht. destruct pal; cbn; congruence.
  - intros E. apply (zlib_nonempty _ _ Hz). rewrite <- (chunks_concat (Z.to_nat IDAT_CHUNK) z) by (apply idat_pos). rewrite E. reflexivity.
  - eapply Forall_impl; [|apply chunks_small, idat_pos]. intros c (A & _) ->. cbn in A. lia.
  - rewrite chunks_concat by apply idat_pos. exact Hz.
  - rewrite Lf, (layout_samples w h depth ctb bpp sb) by auto. ring.
Qed.

(** ** The lossless path *)
Lemma encode_lossless e data o buf : 0 <= o_width o -> 0 <= o_height o -> bytes data -> rejects o (zlen data) = None ->
  should_quantize data o = false -> comp_ok e o -> small o ->
  exists depth ctb cs px oct, encode_into e buf data o = (png_file cs, Ok tt) /\ png_layout (o_width o) (o_height o) depth ctb cs /\
    (forall more, decode_png (png_file cs ++ more) = Ok (mkImage (o_width o) (o_height o) px oct)) /\
    (~ loses (o_reduce o) (o_palette o) (o_ct o) data (o_width o * o_height o) ->
     forall i, 0 <= i < o_width o * o_height o -> shown (o_alpha o) (pixel oct px i) (pixel (o_ct o) data i)) /\
    (loses (o_reduce o) (o_palette o) (o_ct o) data (o_width o * o_height o) ->
     exists k, 17 <= k /\ forall i, 0 <= i < o_width o * o_height o -> pixel oct px i = want_gray (o_ct o) data k i) /\
    (o_reduce o = false -> o_palette o = false -> oct = o_ct o /\ depth = 8 /\ ctb = png_color_type (o_ct o) /\
      px = maybe_optimize_alpha data (o_ct o) (o_alpha o)).
Proof.
  intros Hw0 Hh0 Hb Hr Hq Hc (Hs1 & Hs2).
  pose proof (encode_into_checks e buf data o Hw0 Hh0) as K. rewrite Hr, Hq in K. destruct K as (-> & Hl & Hw & Hh & L).
  set (w := o_width o) in *. set (h := o_height o) in *.
  assert (image_ok (o_ct o) data (w * h)) as Hi by (split; [nia|split; auto]).
  destruct (encode_body_ok e data o Hw Hh Hi Hc Hs1 Hs2) as
    (rd & z & filt & px & want & E & B & C & Zb & W & F & Zs & Lf & D & S & K1 & K2).
  fold w h in E, B, C, W, Lf, D, S, K1, K2, F.
  set (oct := output_ct (hdr_of w h rd) (trns_of rd)) in *.
  assert (rd_depth rd <= 8) as Hd8.
  { assert (forall x, Ok x = Ok rd -> rd_depth x <= 8 -> rd_depth rd <= 8) as G by (intros x [= ->]; auto).
    assert (forall g, reduce_gray g w = Ok rd -> rd_depth rd <= 8) as Hg.
    { intros g. unfold reduce_gray. set (d := match reduce_gray_bit_depth g with Some _ => _ | None => _ end).
      assert (d <= 8) as Hd.
      { unfold d. destruct (reduce_gray_bit_depth g) as [d'|] eqn:Eg; [|lia]. revert Eg. unfold reduce_gray_bit_depth.
        destruct g; [discriminate|]. intros [= <-]. repeat match goal with |- context [if ?x then _ else _] => destruct x end; lia. }
      destruct (if d <? 8 then _ else _); cbn [rbind]; try discriminate. intros [= <-]. exact Hd. }
    revert E. unfold maybe_reduce_color_type. destruct (_ && o_reduce o); [intros; eapply G; eauto; cbn; lia|].
    destruct (if o_palette o then _ else _) as [[[indexed palette]|]|er| |]; cbn [rbind]; try discriminate.
    - destruct (if palette_bit_depth _ <? 8 then _ else _) as [packed|er| |]; cbn [rbind]; try discriminate.
      intros [= <-]. cbn. unfold palette_bit_depth. repeat match goal with |- context [if ?c then _ else _] => destruct c end; lia.
    - destruct (negb (o_reduce o)); [intros [= <-]; change (8 <= 8); lia|]. unfold reduce_by_type. destruct (o_ct o); try (intros [= <-]; change (8 <= 8); lia).
      + destruct (all_gray_rgb data); [|intros [= <-]; cbn; lia]. apply Hg.
      + destruct (analyze_rgba data) as [opq gr]. destruct (opq && gr); [apply Hg|].
        destruct opq; [intros [= <-]; cbn; lia|]. destruct gr; intros [= <-]; cbn; lia. }
  exists (rd_depth rd), (rd_byte rd), (rd_chunks w h rd z), px, oct. split; [rewrite B; reflexivity|]. split.
  { unfold rd_chunks. eapply file_layout; eauto.
    - apply legal_of; auto; apply F.
    - apply (rf_layout _ _ _ _ F).
    - rewrite (rf_pal_byte _ _ _ _ F). unfold plte_of. destruct (rd_pal rd); split; congruence.
    - unfold trns_of, plte_of. destruct (rd_pal rd); congruence.
    - unfold plte_of, trns_of. destruct (rd_pal rd) as [p|] eqn:Ep; [|discriminate]. intros q [= <-]. rewrite zlen_map.
      destruct (rf_pal _ _ _ _ F p Ep) as (Lp & _). split; [|destruct (existsb _ p); [|discriminate]; intros t [= <-]; rewrite zlen_map; lia].
      split; [lia|]. rewrite (reduce_pal_depth _ _ _ _ _ _ _ _ E Ep). apply palette_depth_fits. lia. }
  split; [exact D|]. split; [|split].
  - intros Hn i Hi'. rewrite <- (K2 Hn i Hi'). apply S; auto.
  - intros Hlo. destruct (K1 Hlo) as (k & Hk & ->). exists k. split; auto. intros i Hi'. destruct (S i Hi') as (V & _).
    unfold want_gray in *. set (v := level _ * k) in *.
    assert (visible (v, v, v, 255) = (v, v, v, 255)) as Ev by reflexivity. rewrite Ev in V.
    destruct (pixel oct px i) as [[[r g] b] a]. unfold visible in V. destruct (a =? 0); congruence.
  - intros Er Ep. revert E. unfold maybe_reduce_color_type. rewrite Er, Ep, andb_false_r. cbn [rbind negb]. intros [= <-].
    assert (oct = o_ct o) as -> by (unfold oct; destruct (o_ct o); reflexivity).
    split; auto. split; auto. split; auto.
    revert C. unfold convert_to_pixels. destruct (o_ct o); cbn; intros [= <-]; reflexivity.
Qed.

(** ** The quantised path *)
Lemma last_non_opaque_ok : forall alpha i last, 0 <= last -> last <= i ->
  let r := last_non_opaque i last alpha in
  last <= r /\ (r = last \/ i <= r < i + zlen alpha) /\ forall j, 0 <= j < zlen alpha -> r < i + j -> nth (Z.to_nat j) alpha 255 = 255.
Proof.
  induction alpha as [|a alpha IH]; intros i last H0 H1; cbn [last_non_opaque].
  - rewrite zlen_nil. split; [lia|]. split; [auto|]. lia.
  - rewrite zlen_cons. pose proof (zlen_nonneg alpha).
    destruct (IH (i + 1) (if a =? 255 then last else i)) as (A & B & C); [destruct (a =? 255); lia|destruct (a =? 255); lia|].
    set (r := last_non_opaque _ _ _) in *. split; [destruct (a =? 255); lia|]. split; [destruct (a =? 255); lia|].
    intros j Hj Hr. destruct (Z.eq_dec j 0) as [->|Hj0].
    + cbn [Z.to_nat nth]. destruct (Z.eqb_spec a 255); auto. lia.
    + replace (Z.to_nat j) with (S (Z.to_nat (j - 1))) by lia. cbn [nth]. apply C; lia.
Qed.
Lemma trim_ok alpha : bytes alpha -> exists t, maybe_trim_transparency alpha = Ok t /\
  (forall a, t = Some a -> zlen a <= zlen alpha /\ bytes a) /\
  forall v, 0 <= v < zlen alpha -> match t with Some a => nth (Z.to_nat v) a 255 | None => 255 end = nth (Z.to_nat v) alpha 255.
Proof.
  intros Hb. unfold maybe_trim_transparency. destruct alpha as [|x alpha'] eqn:Ea.
  { exists None. split; auto. split; [discriminate|]. intros v. rewrite zlen_nil. lia. }
  rewrite <- Ea in *. assert (0 < zlen alpha) as Lp by (rewrite Ea, zlen_cons; pose proof (zlen_nonneg alpha'); lia). clear Ea.
  destruct (forallb _ alpha) eqn:Ef.
  { exists None. split; auto. split; [discriminate|]. intros v Hv. rewrite forallb_forall in Ef.
    assert (In (nth (Z.to_nat v) alpha 255) alpha) as Hin by (apply nth_In; unfold zlen in Hv; lia).
    apply Ef in Hin. lia. }
  destruct (last_non_opaque_ok alpha 0 0 ltac:(lia) ltac:(lia)) as (A & B & C). set (r := last_non_opaque 0 0 alpha) in *.
  rewrite slice_r_ok by lia. cbn [rbind]. eexists. split; [reflexivity|]. unfold slice. rewrite Z.sub_0_r. cbn [Z.to_nat skipn].
  split.
  - intros a [= <-]. split; [unfold zlen; rewrite firstn_length; lia|apply Forall_firstn; auto].
  - intros v Hv. destruct (Z.lt_ge_cases v (r + 1)) as [Hlt|Hge].
    + rewrite nth_firstn' by lia. reflexivity.
    + rewrite nth_overflow by (rewrite firstn_length; lia). symmetry. apply C; lia.
Qed.

Lemma encode_quantized e data o buf : 0 <= o_width o -> 0 <= o_height o -> bytes data -> rejects o (zlen data) = None ->
  should_quantize data o = true -> env_ok e o -> small o -> 0 <= o_max_colors o ->
  exists cs pal idx px oct,
    quantize_image (e_float e) (e_top e) data (o_width o) (o_height o) (o_ct o) (Z.min (o_max_colors o) 256) (o_dither o) = Ok (pal, idx) /\
    1 <= zlen pal <= Z.max 1 (Z.min (o_max_colors o) 256) /\ Forall byte4 pal /\
    encode_into e buf data o = (png_file cs, Ok tt) /\ png_layout (o_width o) (o_height o) 8 3 cs /\
    zlen idx = o_width o * o_height o /\ Forall (fun v => 0 <= v < zlen pal) idx /\
    (forall more, decode_png (png_file cs ++ more) = Ok (mkImage (o_width o) (o_height o) px oct)) /\
    (forall i, 0 <= i < o_width o * o_height o -> pixel oct px i = colour_at pal (znth idx i)).
Proof.
  intros Hw0 Hh0 Hb Hr Hq (Hc & Htop) (Hs1 & Hs2) Hm.
  pose proof (encode_into_checks e buf data o Hw0 Hh0) as K. rewrite Hr, Hq in K. destruct K as (-> & Hl & Hw & Hh & L).
  set (w := o_width o) in *. set (h := o_height o) in *.
  assert (image_ok (o_ct o) data (w * h)) as Hi by (split; [nia|split; auto]).
  assert (is_rgb (o_ct o)) as Hct.
  { unfold should_quantize in Hq. unfold is_rgb. destruct (o_qmode o); [discriminate| |]; destruct (o_ct o); auto; discriminate. }
  assert (h * (w * 3 + 1) + 1 < room o) as Hs3.
  { assert (h * (w * 3 + 1) <= h * (w * bytes_per_pixel (o_ct o) + 1)); [|lia]. apply Z.mul_le_mono_nonneg_l; [lia|].
    destruct Hct as [-> | ->]; cbn; lia. }
  pose proof (room_le o) as Hroom.
  destruct (quantize_ok (e_float e) (e_top e) data w h (o_ct o) (Z.min (o_max_colors o) 256) (o_dither o)) as (pal & idx & Q & Lp & Bp & Li & Fi); auto; try nia; try lia.
  rewrite Q. cbn [rbind].
  set (alphas := map (fun '(_, _, _, a) => a) pal). set (cols := map (fun '(r, g, b, _) => (r, g, b)) pal).
  assert (bytes alphas) as Ba by (apply Forall_map; eapply Forall_impl; [|exact Bp]; intros (((r, g), b), a) (_ & _ & _ & G); exact G).
  destruct (trim_ok alphas Ba) as (t & -> & Ht & Hv). cbn [rbind].
  assert (zlen alphas = zlen pal /\ zlen cols = zlen pal) as (La & Lc) by (unfold alphas, cols; rewrite !zlen_map; auto).
  assert (Forall byte3 cols) as Bc by (apply Forall_map; eapply Forall_impl; [|exact Bp]; intros (((r, g), b), a) (G1 & G2 & G3 & _); cbn; auto).
  assert (bytes idx) as Bi by (eapply Forall_impl; [|exact Fi]; intros v Hv'; cbv beta in Hv'; unfold is_byte; lia).
  assert (trns_fits t) as Tf by (intros a Ea; destruct (Ht a Ea); split; auto; lia).
  unfold encode_indexed_into. fold cols. rewrite Lc.
  replace ((zlen pal =? 0) || (256 <? zlen pal)) with false by lia.
  replace (match t with Some a => zlen pal <? zlen a | None => false end) with false by (destruct t as [a|]; auto; destruct (Ht a eq_refl); lia).
  unfold MAX_DIMENSION in *. assert (w * h < 2 ^ 64).
  { change (2 ^ 24) with 16777216 in *. change (2 ^ 64) with 18446744073709551616. nia. }
  unfold checked_expected_len. rewrite Z.mul_1_r. replace (2 ^ 64 <=? w * h) with false by lia.
  replace (negb (zlen idx =? w * h)) with false by lia.
  destruct (indexed_body_ok e idx w h cols t o) as (z & filt & px & -> & Zb & W & Zs & Lf & D & S); auto; try lia.
  cbn [finish_into].
  exists (indexed_chunks w h cols t z), pal, idx, px, (if has_alpha_in_trns t then Rgba else Rgb).
  split; [auto|]. split; [auto|]. split; [auto|]. split; [auto|]. split.
  { unfold indexed_chunks. apply (file_layout w h 8 3 (Some cols) t z filt 1 (ceil8 (w * 8))); auto.
    - unfold legal. cbn [In]. tauto.
    - rewrite Lf. unfold ceil8. f_equal. lia.
    - split; congruence.
    - congruence.
    - intros p [= <-]. rewrite Lc. change (2 ^ 8) with 256. split; [lia|]. intros t' ->. destruct (Ht t' eq_refl). lia. }
  split; [auto|]. split; [auto|]. split; [exact D|].
  intros i Hi'. rewrite S by auto. unfold colour_at. set (v := znth idx i).
  assert (0 <= v < zlen pal) as Rv.
  { unfold v, znth. rewrite Forall_forall in Fi. apply Fi. apply nth_In. unfold zlen in Li. lia. }
  unfold cols. rewrite (map_nth (fun '(r, g, b, _) => (r, g, b)) pal (0, 0, 0, 0)). specialize (Hv v ltac:(lia)).
  assert (nth (Z.to_nat v) alphas 255 = let '(_, _, _, a) := nth (Z.to_nat v) pal (0, 0, 0, 0) in a) as Ea.
  { unfold alphas. rewrite nth_indep with (d' := (fun '(_, _, _, a) => a) (0, 0, 0, 0)) by (rewrite map_length; unfold zlen in Rv; lia).
    rewrite (map_nth (fun '(_, _, _, a) => a) pal (0, 0, 0, 0)). destruct (nth _ pal _) as [[[r g] b] a]. reflexivity. }
  rewrite Ea in Hv. replace (v <? zlen (map (fun '(r, g, b, _) => (r, g, b)) pal)) with true by (rewrite zlen_map; lia).
  destruct (nth (Z.to_nat v) pal (0, 0, 0, 0)) as [[[r g] b] a]. rewrite Hv. reflexivity.
Qed.
