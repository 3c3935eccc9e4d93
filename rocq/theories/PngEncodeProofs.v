(** Proofs about the PNG encoder as a whole. *)
From Verif Require Import Base ChecksumModel ChecksumSpec ChecksumProofs InflateModel DeflateSpec InflateProofs Lz77Model
  DeflateModel DeflateTop PngFilterModel PngPaletteModel PngQuantModel PngDecModel PngModel PngSpec PngEncSpec
  PngFilterProofs PngPackProofs PngDecProofs PngPaletteProofs PngReduceProofs PngFileProofs.

Lemma plte_data_map p : flat_map (fun '(r, g, b, _) => [r; g; b]) (p : list rgba) = plte_data (map (fun '(r, g, b, _) => (r, g, b)) p).
Proof. unfold plte_data. rewrite flat_map_map. apply flat_map_ext. intros (((r, g), b), a). reflexivity. Qed.

Lemma rd_pal_fits w h ct rd : rd_fits w h ct rd -> pal_fits (plte_of rd) /\ trns_fits (trns_of rd).
Proof.
  intros F. unfold pal_fits, trns_fits, plte_of, trns_of. destruct (rd_pal rd) as [p|] eqn:Ep.
  - destruct (rf_pal _ _ _ _ F p Ep) as (L & B). split.
    + intros q [= <-]. rewrite zlen_map. split; [lia|]. apply Forall_map. eapply Forall_impl; [|exact B].
      intros (((r, g), b), a) (H1 & H2 & H3 & _). repeat split; apply H1 || apply H2 || apply H3.
    + destruct (existsb _ p); [|discriminate]. intros q [= <-]. rewrite zlen_map. split; [lia|]. apply Forall_map.
      eapply Forall_impl; [|exact B]. intros (((r, g), b), a) (_ & _ & _ & H4). exact H4.
  - split; discriminate.
Qed.

Definition rd_chunks (w h : Z) (rd : reduced) (z : list Z) : list (list Z * list Z) :=
  file_chunks w h (rd_depth rd) (rd_byte rd) (plte_of rd) (trns_of rd) z.

Lemma encode_body_ok e data o :
  let w := o_width o in let h := o_height o in
  0 < w <= MAX_DIMENSION -> 0 < h <= MAX_DIMENSION -> image_ok (o_ct o) data (w * h) -> comp_ok e o ->
  h * (w * bytes_per_pixel (o_ct o) + 1) + 1 < room o -> (o_palette o = true -> 4 * (w * h) < 2 ^ 32) ->
  exists rd z filt px want,
    maybe_reduce_color_type data w h (o_ct o) (o_reduce o) (o_palette o) = Ok rd /\
    encode_body e data o = Ok (png_file (rd_chunks w h rd z)) /\
    convert_to_pixels (hdr_of w h rd) (maybe_optimize_alpha (rd_data rd) (rd_ct rd) (o_alpha o)) (plte_of rd) (trns_of rd) = Ok px /\
    bytes z /\ Forall wf_chunk (rd_chunks w h rd z) /\ rd_fits w h (o_ct o) rd /\ zlib_stream z filt /\ zlen filt = h * (row_bytes_of w rd + 1) /\
    (forall more, decode_png (png_file (rd_chunks w h rd z) ++ more) = Ok (mkImage w h px (output_ct (hdr_of w h rd) (trns_of rd)))) /\
    (forall i, 0 <= i < w * h -> shown (o_alpha o) (pixel (output_ct (hdr_of w h rd) (trns_of rd)) px i) (want i)) /\
    (loses (o_reduce o) (o_palette o) (o_ct o) data (w * h) -> exists k, 17 <= k /\ want = want_gray (o_ct o) data k) /\
    (~ loses (o_reduce o) (o_palette o) (o_ct o) data (w * h) -> forall i, 0 <= i < w * h -> want i = pixel (o_ct o) data i).
Proof.
  intros w h Hw Hh Hi Hc Hs Hp.
  destruct (maybe_reduce_ok data w h (o_ct o) (o_reduce o) (o_palette o) (o_alpha o)) as (rd & want & E & F & (px & C1 & C2 & C3 & C4) & K1 & K2); auto; try lia.
  exists rd. unfold encode_body. fold w h. rewrite E. cbn [rbind].
  set (d := maybe_optimize_alpha (rd_data rd) (rd_ct rd) (o_alpha o)) in *.
  change (if rd_depth rd <? 8 then ceil8 (w * rd_depth rd) else w * rd_bpp rd) with (row_bytes_of w rd).
  assert (0 <= row_bytes_of w rd) as Hrb.
  { unfold row_bytes_of. pose proof (rf_bpp _ _ _ _ F). destruct (rf_byte_byte _ _ _ _ F) as (_ & B). unfold is_byte in B.
    destruct (rd_depth rd <? 8); [|nia]. unfold ceil8. apply Z.div_pos; [nia|lia]. }
  destruct (apply_filters_good (e_par e) d w h (row_bytes_of w rd) (rd_bpp rd) (o_filter o)) as (filt & -> & Fb & Fl & Fi); auto; try lia.
  { apply (rf_bpp _ _ _ _ F). }
  { rewrite C2. apply (rf_len _ _ _ _ F). }
  cbn [rbind].
  assert (zlen filt + 1 < room o) as Hlf.
  { rewrite Fl. pose proof (rf_small _ _ _ _ F). assert (h * (row_bytes_of w rd + 1) <= h * (w * bytes_per_pixel (o_ct o) + 1)) by (apply Z.mul_le_mono_nonneg_l; lia). lia. }
  destruct (Hc filt Fb Hlf) as (z & -> & Zb & Zs). cbn [rbind].
  destruct (rd_pal_fits _ _ _ _ F) as (Pf & Tf). destruct (rf_byte_byte _ _ _ _ F) as (Bb & Bd).
  assert (0 <= w < 2 ^ 32 /\ 0 <= h < 2 ^ 32) as (Rw & Rh).
  { unfold MAX_DIMENSION in *. change (2 ^ 24) with 16777216 in *. change (2 ^ 32) with 4294967296. lia. }
  pose proof (file_chunks_wf w h (rd_depth rd) (rd_byte rd) (plte_of rd) (trns_of rd) z Rw Rh Bd Bb Pf Tf Zb) as W.
  pose proof (written_file w h (rd_depth rd) (rd_byte rd) (plte_of rd) (trns_of rd) z Rw Rh Bd Bb Pf Tf Zb) as Wr.
  match goal with |- context [if o_strip o then strip_metadata_chunks ?x else Ok ?x] => assert (x = png_file (rd_chunks w h rd z)) as -> end.
  { unfold rd_chunks. rewrite <- Wr. rewrite <- !app_assoc. f_equal. f_equal. unfold plte_of, trns_of. destruct (rd_pal rd) as [p|]; [|reflexivity].
    rewrite plte_data_map. rewrite <- !app_assoc. f_equal. destruct (existsb _ p); reflexivity. }
  exists z, filt, px, want. split; auto. split.
  { unfold rd_chunks. destruct (o_strip o); [|reflexivity]. apply strip_file; auto. }
  split; auto. split; auto. split; auto. split; auto. split; auto. split; auto. split.
  - intros more. unfold rd_chunks. change (hdr_of w h rd) with (hdr w h (rd_depth rd) (rd_byte rd)).
    apply (file_decodes w h (rd_depth rd) (rd_byte rd) (plte_of rd) (trns_of rd) (rd_bpp rd) (row_bytes_of w rd) d filt z px more); auto.
    + apply (rf_byte _ _ _ _ F).
    + apply (rf_depth _ _ _ _ F).
    + apply (rf_layout _ _ _ _ F).
    + apply (rf_bpp _ _ _ _ F).
    + pose proof (rf_small _ _ _ _ F). assert (bytes_per_pixel (o_ct o) <= 4) by (destruct (o_ct o); cbn; lia). nia.
  - split; auto.
Qed.

(** ** The indexed encoder *)
Lemma expand_indexed_px pal trns idx : Forall byte3 pal -> bytes idx ->
  exists px, expand_palette pal trns idx = Ok px /\
    forall i, 0 <= i < zlen idx ->
      pixel (if has_alpha_in_trns trns then Rgba else Rgb) px i =
      let '(r, g, b) := nth (Z.to_nat (znth idx i)) pal (0, 0, 0) in
      (r, g, b, match trns with
                | Some a => if znth idx i <? zlen pal then nth (Z.to_nat (znth idx i)) a 255 else 255
                | None => 255 end).
Proof.
  intros Hp Hb. rewrite expand_palette_ok by (eapply Forall_impl; [|exact Hb]; unfold is_byte; intros; lia).
  eexists. split; [reflexivity|]. rewrite <- flat_map_concat_map'.
  set (g := fun i => _). intros i Hr.
  assert (Hv : is_byte (znth idx i)) by (apply znth_byte; auto). unfold is_byte in Hv.
  set (col := fun v => let '(r, g, b) := nth (Z.to_nat v) pal (0, 0, 0) in
      (r, g, b, match trns with Some a => if v <? zlen pal then nth (Z.to_nat v) a 255 else 255 | None => 255 end)).
  change (let '(r, g0, b) := nth (Z.to_nat (znth idx i)) pal (0, 0, 0) in _) with (col (znth idx i)).
  destruct (has_alpha_in_trns trns) eqn:Ht.
  - destruct trns as [a|]; [|discriminate Ht].
    set (mp := map col idx).
    assert (flat_map g idx = flat_map (fun c => let '(r, gg, b, a) := c in [r; gg; b; a]) mp) as ->.
    { unfold mp. rewrite flat_map_map. apply flat_map_ext. intros v. unfold g, col, pal_rgb, pal_alpha. rewrite ?Ht.
      destruct (nth (Z.to_nat v) pal (0, 0, 0)) as [[r gg] b]. reflexivity. }
    rewrite (pixel_flat_rgba (fun c => c)) by (unfold mp; rewrite zlen_map; auto).
    unfold mp. rewrite nth_indep with (d' := col 0) by (rewrite map_length; unfold zlen in Hr; lia).
    rewrite map_nth. reflexivity.
  - set (mp := map col idx).
    assert (flat_map g idx = flat_map (fun '(r, gg, b, _) => [r; gg; b]) mp) as ->.
    { unfold mp. rewrite flat_map_map. apply flat_map_ext. intros v. unfold g, col, pal_rgb.
      destruct (nth (Z.to_nat v) pal (0, 0, 0)) as [[r gg] b]. destruct trns; reflexivity. }
    rewrite pixel_flat_rgb by (unfold mp; rewrite zlen_map; auto).
    unfold mp. rewrite nth_indep with (d' := col 0) by (rewrite map_length; unfold zlen in Hr; lia).
    rewrite map_nth. fold (znth idx i). unfold col. destruct (nth (Z.to_nat (znth idx i)) pal (0, 0, 0)) as [[r gg] b].
    f_equal. destruct trns as [a|]; auto. destruct (znth idx i <? zlen pal); auto.
    cbn [has_alpha_in_trns] in Ht. destruct (Nat.lt_ge_cases (Z.to_nat (znth idx i)) (length a)) as [Hl|Hl]; [|rewrite nth_overflow; auto].
    set (x := nth (Z.to_nat (znth idx i)) a 255). destruct (Z.eqb_spec x 255) as [->|Hx]; auto.
    exfalso. assert (existsb (fun v => negb (v =? 255)) a = true) as G; [|congruence].
    apply existsb_exists. exists x. split; [apply nth_In; auto|]. apply negb_true_iff, Z.eqb_neq. auto.
Qed.

Definition indexed_chunks (w h : Z) (pal : list (Z * Z * Z)) (trns : option (list Z)) (z : list Z) : list (list Z * list Z) :=
  file_chunks w h 8 3 (Some pal) trns z.
Lemma indexed_body_ok e data w h pal trns o :
  0 < w <= MAX_DIMENSION -> 0 < h <= MAX_DIMENSION -> bytes data -> zlen data = w * h ->
  zlen pal <= 256 -> Forall byte3 pal -> trns_fits trns -> comp_ok e o -> h * (w + 1) + 1 < room o ->
  exists z filt px,
    indexed_body e data w h pal trns o = Ok (png_file (indexed_chunks w h pal trns z)) /\
    bytes z /\ Forall wf_chunk (indexed_chunks w h pal trns z) /\ zlib_stream z filt /\ zlen filt = h * (w + 1) /\
    (forall more, decode_png (png_file (indexed_chunks w h pal trns z) ++ more) =
       Ok (mkImage w h px (if has_alpha_in_trns trns then Rgba else Rgb))) /\
    (forall i, 0 <= i < w * h ->
      pixel (if has_alpha_in_trns trns then Rgba else Rgb) px i =
      let '(r, g, b) := nth (Z.to_nat (znth data i)) pal (0, 0, 0) in
      (r, g, b, match trns with
                | Some a => if znth data i <? zlen pal then nth (Z.to_nat (znth data i)) a 255 else 255
                | None => 255 end)).
Proof.
  intros Hw Hh Hb L Lp Hp Ht Hc Hs. unfold indexed_body, apply_filters.
  replace (w * 1) with w by ring.
  destruct (apply_filters_good (e_par e) data w h w 1 (indexed_filter (o_filter o))) as (filt & -> & Fb & Fl & Fi); auto; try lia.
  cbn [rbind]. destruct (Hc filt Fb ltac:(lia)) as (z & -> & Zb & Zs). cbn [rbind].
  assert (0 <= w < 2 ^ 32 /\ 0 <= h < 2 ^ 32) as (Rw & Rh).
  { unfold MAX_DIMENSION in *. change (2 ^ 24) with 16777216 in *. change (2 ^ 32) with 4294967296. lia. }
  assert (pal_fits (Some pal)) as Pf by (intros q [= <-]; auto).
  assert (is_byte 8 /\ is_byte 3) as (B8 & B3) by (unfold is_byte; lia).
  pose proof (file_chunks_wf w h 8 3 (Some pal) trns z Rw Rh B8 B3 Pf Ht Zb) as W.
  pose proof (written_file w h 8 3 (Some pal) trns z Rw Rh B8 B3 Pf Ht Zb) as Wr.
  destruct (expand_indexed_px pal trns data Hp Hb) as (px & Ex & Hpx).
  exists z, filt, px. split; [|split; [auto|split; [auto|split; [auto|split; [auto|split]]]]].
  - f_equal. unfold indexed_chunks. rewrite <- Wr. rewrite <- !app_assoc. unfold plte_data. reflexivity.
  - intros more. unfold indexed_chunks.
    change (if has_alpha_in_trns trns then Rgba else Rgb) with (output_ct (hdr w h 8 3) trns).
    apply (file_decodes w h 8 3 (Some pal) trns 1 w data filt); auto; try lia.
    + unfold layout, hdr. cbn [ih_ct pct png_ct_of Z.eqb Pos.eqb ih_width ih_depth]. f_equal. unfold ceil8. lia.
    + unfold convert_to_pixels, hdr. cbn [ih_ct pct png_ct_of Z.eqb Pos.eqb ih_width ih_height ih_depth].
      unfold unpack_indices. rewrite unpack8 by (auto; lia). cbn [rbind]. exact Ex.
  - intros i Hi. apply Hpx. lia.
Qed.

(** ** Checks *)
Lemma encode_into_checks e output data o : 0 <= o_width o -> 0 <= o_height o ->
  match rejects o (zlen data) with
  | Some er => encode_into e output data o = (output, Err er)
  | None => encode_into e output data o =
      (if should_quantize data o then
        match
          (let* (pal, idx) := quantize_image (e_float e) (e_top e) data (o_width o) (o_height o) (o_ct o)
                                (Z.min (o_max_colors o) 256) (o_dither o) in
           let* alpha := maybe_trim_transparency (map (fun '(_, _, _, a) => a) pal) in
           Ok (pal, idx, alpha))
        with
        | Ok (pal, idx, alpha) =>
            encode_indexed_into e output idx (o_width o) (o_height o) (map (fun '(r, g, b, _) => (r, g, b)) pal) alpha o
        | Err er => (output, Err er)
        | Panic => (output, Panic)
        | NoFuel => (output, NoFuel)
        end
      else finish_into (encode_body e data o)) /\
      1 <= o_level o <= 9 /\ 0 < o_width o <= MAX_DIMENSION /\ 0 < o_height o <= MAX_DIMENSION /\
      zlen data = o_width o * o_height o * bytes_per_pixel (o_ct o)
  end.
Proof.
  intros Hw Hh. unfold rejects, encode_into. set (w := o_width o) in *. set (h := o_height o) in *. unfold MAX_DIMENSION.
  destruct (Z.ltb_spec (o_level o) 1), (Z.ltb_spec 9 (o_level o)); cbn [orb];
    try (replace (negb ((1 <=? o_level o) && (o_level o <=? 9))) with true by lia; reflexivity).
  replace (negb ((1 <=? o_level o) && (o_level o <=? 9))) with false by lia.
  destruct (Z.eqb_spec w 0), (Z.eqb_spec h 0); cbn [orb]; try reflexivity.
  destruct (Z.ltb_spec (2 ^ 24) w), (Z.ltb_spec (2 ^ 24) h); cbn [orb]; try reflexivity.
  assert (0 < w <= 2 ^ 24 /\ 0 < h <= 2 ^ 24) as (Rw & Rh) by lia.
  assert (1 <= bytes_per_pixel (o_ct o) <= 4) as Hb by (destruct (o_ct o); cbn; lia).
  assert (w * h <= 2 ^ 24 * 2 ^ 24) by (apply Z.mul_le_mono_nonneg; lia).
  assert (0 <= w * h) by nia.
  assert (w * h * bytes_per_pixel (o_ct o) <= 2 ^ 24 * 2 ^ 24 * 4) by (apply Z.mul_le_mono_nonneg; lia).
  change (2 ^ 24) with 16777216 in *.
  unfold checked_expected_len. change (2 ^ 64) with 18446744073709551616.
  replace (18446744073709551616 <=? w * h) with false by lia.
  replace (18446744073709551616 <=? w * h * bytes_per_pixel (o_ct o)) with false by lia.
  destruct (Z.eqb_spec (zlen data) (w * h * bytes_per_pixel (o_ct o))) as [E|E]; cbn [negb]; [|reflexivity].
  split; [reflexivity|]. split; [lia|]. split; [auto|]. split; auto.
Qed.
