(** The PNG decoder on arbitrary conforming files. *)
From Verif Require Import Base ChecksumSpec DeflateSpec DeflateModel DeflateProofs DeflateTop Lz77Model PngFilterModel PngPaletteModel InflateModel InflateProofs PngDecModel PngModel PngSpec PngEncSpec PngFilterProofs PngPackProofs PngDecProofs PngReduceProofs PngFileProofs PngConfSpec.

Definition none_of (ds : list (list Z)) : bool := match ds with [] => true | _ => false end.
Lemma datas_cons t c cs : datas t (c :: cs) = (if zs_eqb (fst c) t then [snd c] else []) ++ datas t cs.
Proof. unfold datas. cbn [filter]. destruct (zs_eqb (fst c) t); reflexivity. Qed.

Lemma run_mid p t mid : forall st, c_end st = false -> datas T_IHDR mid = [] -> datas T_IEND mid = [] ->
  datas T_PLTE mid = [] \/ datas T_PLTE mid = [plte_data p] -> datas T_tRNS mid = [] \/ datas T_tRNS mid = [t] ->
  run_chunks (mid ++ [(T_IEND, [])]) st = Ok (mkC (c_ihdr st) (c_idat st ++ concat (datas T_IDAT mid))
    (if none_of (datas T_PLTE mid) then c_pal st else Some p) (if none_of (datas T_tRNS mid) then c_trns st else Some t) true).
Proof.
  induction mid as [|(ty, d) mid IH]; intros st He Hi Hn Hp Ht.
  - cbn [app run_chunks datas filter map concat none_of]. rewrite app_nil_r. reflexivity.
  - cbn [app run_chunks]. rewrite !datas_cons in *. cbn [fst snd] in *. unfold chunk_effect.
    destruct (zs_eqb ty T_IHDR) eqn:E1; [discriminate Hi|].
    destruct (zs_eqb ty T_IEND) eqn:E5; [discriminate Hn|]. cbn [app] in Hi, Hn.
    destruct (zs_eqb ty T_PLTE) eqn:E2.
    { apply zs_eqb_eq in E2. subst ty. change (zs_eqb T_PLTE T_tRNS) with false in *. change (zs_eqb T_PLTE T_IDAT) with false.
      destruct Hp as [Hp|Hp]; [discriminate Hp|]. cbn [app] in *. injection Hp as -> Hp. rewrite parse_plte_ok. cbn [rbind c_end]. rewrite He.
      rewrite IH by (auto; cbn; auto). cbn [c_ihdr c_idat c_pal c_trns none_of]. rewrite Hp. reflexivity. }
    destruct (zs_eqb ty T_tRNS) eqn:E3.
    { apply zs_eqb_eq in E3. subst ty. change (zs_eqb T_tRNS T_IDAT) with false. cbn [rbind c_end].
      destruct Ht as [Ht|Ht]; [discriminate Ht|]. cbn [app] in *. injection Ht as -> Ht. rewrite He.
      rewrite IH by (auto; cbn; auto). cbn [c_ihdr c_idat c_pal c_trns none_of]. rewrite Ht. reflexivity. }
    destruct (zs_eqb ty T_IDAT) eqn:E4.
    { cbn [rbind c_end app concat] in *. rewrite He. rewrite IH by (auto; cbn; auto). cbn [c_ihdr c_idat c_pal c_trns]. rewrite <- app_assoc. reflexivity. }
    cbn [rbind app] in *. rewrite He. rewrite IH by auto. reflexivity.
Qed.

Lemma img_filtered_len bpp sb prev raw filt : img_filtered bpp sb prev raw filt -> exists n, 0 <= n /\ zlen raw = n * sb /\ zlen filt = n * (sb + 1).
Proof.
  induction 1 as [prev|prev t row f raws filts Ht Hl (Hf & _) _ (n & Hn & IH1 & IH2)].
  - exists 0. rewrite !zlen_nil. lia.
  - exists (n + 1). rewrite zlen_cons, !zlen_app. assert (zlen f = sb) by (unfold zlen in *; lia). lia.
Qed.

Lemma finish_ok w h depth ctb pal trns bpp sb raw filt z px :
  0 < w <= 2 ^ 24 -> 0 < h <= 2 ^ 24 ->
  valid_depth (pct ctb) depth = true -> layout (hdr w h depth ctb) = (bpp, sb) -> 0 < bpp -> 0 <= sb <= w * 8 ->
  bytes raw -> zlen filt = h * (sb + 1) -> img_filtered bpp sb (repeat 0 (Z.to_nat sb)) raw filt ->
  bytes z -> zlib_stream z filt ->
  convert_to_pixels (hdr w h depth ctb) raw pal trns = Ok px ->
  finish_decode (mkC (Some (hdr w h depth ctb)) z pal trns true) = Ok (mkImage w h px (output_ct (hdr w h depth ctb) trns)).
Proof.
  intros Hw Hh Hv Hl Hbpp Hsb Hr Lf Hi Hz Hs Hx.
  unfold finish_decode. cbn [c_end c_ihdr c_idat c_pal c_trns negb hdr ih_width ih_height ih_comp ih_filt ih_inter].
  replace ((w =? 0) || (h =? 0)) with false by lia. unfold MAX_DIMENSION.
  replace ((2 ^ 24 <? w) || (2 ^ 24 <? h)) with false by lia.
  change (negb (0 =? 0)) with false. cbn iota.
  change (ih_ct _) with (pct ctb). change (ih_depth _) with depth. rewrite Hv. cbn [negb].
  fold (hdr w h depth ctb).
  destruct z as [|z0 z']; [destruct (zlib_nonempty _ _ Hs eq_refl)|]. set (z := z0 :: z') in *.
  rewrite expected_size.
  + rewrite Hl. cbn [snd rbind]. change (ih_height (hdr w h depth ctb)) with h.
    replace ((1 + sb) * h) with (zlen filt) by (rewrite Lf; ring).
    destruct (inflate_zlib_complete z filt Hz Hs) as (_ & ->). cbn [rbind].
    unfold reconstruct_image. rewrite Hl. change (ih_height (hdr w h depth ctb)) with h.
    replace (zlen filt <? h * (1 + sb)) with false by (rewrite Lf; lia).
    rewrite (unfilter_rows_ok bpp sb filt Hbpp ltac:(lia) _ raw filt Hi (Z.to_nat h) 0 []); auto.
    * cbn [rbind]. rewrite Hx. reflexivity.
    * apply repeat0_bytes.
    * rewrite zlen_repeat. lia.
    * lia.
    * rewrite Z2Nat.id by lia. rewrite Lf. ring.
  + exact Hv.
  + cbn; lia.
  + rewrite Hl. cbn [snd]. change (ih_height (hdr w h depth ctb)) with h.
    change (2 ^ 24) with 16777216 in *. change (2 ^ 64) with 18446744073709551616.
    assert ((1 + sb) * h <= (1 + 16777216 * 8) * 16777216) by (apply Z.mul_le_mono_nonneg; lia). lia.
Qed.

(** ** Sixteen bits *)
Lemma evens_app a b k : length a = (2 * k)%nat -> evens (a ++ b) = evens a ++ evens b.
Proof.
  revert a. induction k as [|k IH]; intros a Ha.
  - destruct a; [reflexivity|discriminate].
  - destruct a as [|x [|y a]]; cbn in Ha; try lia. cbn [app evens]. rewrite IH by lia. reflexivity.
Qed.
Lemma high_bytes_evens k n l : (0 < k)%nat -> length l = (n * (2 * k))%nat -> high_bytes (2 * k) l = evens l.
Proof.
  intros Hk. unfold high_bytes, chunks_exact. 
  assert (forall f n l, length l = (n * (2 * k))%nat -> (length l <= f)%nat -> flat_map evens (chunks_exact_fuel f (2 * k) l) = evens l) as G.
  { clear n l. induction f as [|f IH]; intros n l Hl Hf.
    - destruct l; [reflexivity|cbn in Hf; lia].
    - cbn [chunks_exact_fuel]. destruct n as [|n].
      + destruct l; [|discriminate]. destruct (Nat.ltb_spec (length (@nil Z)) (2 * k)); [reflexivity|cbn in *; lia].
      + destruct (Nat.ltb_spec (length l) (2 * k)); [lia|]. cbn [flat_map]. rewrite (IH n) by (rewrite skipn_length; lia).
        rewrite <- (evens_app _ _ k) by (rewrite firstn_length; lia). rewrite firstn_skipn. reflexivity. }
  intros Hl. apply (G (length l) n); auto.
Qed.
Lemma evens_nth l : forall j, 0 <= j -> 2 * j + 1 < zlen l -> znth (evens l) j = znth l (2 * j).
Proof.
  remember (length l) as n. revert l Heqn. induction n as [n IH] using lt_wf_ind. intros l Hn j H0 Hj.
  destruct l as [|a [|b l]]; [rewrite zlen_nil in Hj; lia|rewrite zlen_cons, zlen_nil in Hj; lia|]. cbn [evens].
  destruct (Z.eq_dec j 0) as [->|]; [reflexivity|]. rewrite !zlen_cons in Hj.
  specialize (IH (length l) ltac:(subst n; cbn; lia) l eq_refl (j - 1) ltac:(lia) ltac:(lia)).
  unfold znth in *. replace (Z.to_nat j) with (S (Z.to_nat (j - 1))) by lia. cbn [nth]. rewrite IH.
  replace (Z.to_nat (2 * j)) with (S (S (Z.to_nat (2 * (j - 1))))) by lia. reflexivity.
Qed.
Lemma scale_in8 d s : depths d -> 0 <= s < 2 ^ d -> scale_to_8bit s d = in8 d s.
Proof.
  intros Hd Hs.
  assert (forallb (fun d => forallb (fun n => scale_to_8bit (Z.of_nat n) d =? in8 d (Z.of_nat n)) (seq 0 (Z.to_nat (2 ^ d)))) [1; 2; 4; 8] = true) as E by (vm_compute; reflexivity).
  rewrite forallb_forall in E. assert (In d [1; 2; 4; 8]) as Hi by (unfold depths in Hd; cbn; lia). apply E in Hi. rewrite forallb_forall in Hi.
  specialize (Hi (Z.to_nat s)). rewrite in_seq, Z2Nat.id in Hi by lia. lia.
Qed.

(** ** Samples *)
Lemma plain8 w h ctb raw : 0 < w -> 0 < h -> bytes raw -> zlen raw = h * line_bytes ctb 8 w -> 0 < samples_per_pixel ctb ->
  zlen raw = w * h * samples_per_pixel ctb /\
  forall x y c, 0 <= x < w -> 0 <= y < h -> 0 <= c < samples_per_pixel ctb ->
  znth raw ((y * w + x) * samples_per_pixel ctb + c) = in8 8 (png_sample ctb 8 w raw x y c).
Proof.
  intros Hw Hh Hb Hl Hs. set (n := samples_per_pixel ctb) in *.
  assert (line_bytes ctb 8 w = w * n) as El by (unfold line_bytes; fold n; lia). rewrite El in Hl. split; [lia|]. intros x y c Hx Hy Hc.
  unfold png_sample. rewrite El. unfold line_sample. change (8 =? 16) with false. cbn iota. unfold sample_at. fold n.
  replace ((x * n + c) * 8 / 8) with (x * n + c) by lia. replace (((x * n + c) * 8) mod 8) with 0 by lia. change (2 ^ (8 - 8 - 0)) with 1. rewrite Z.div_1_r.
  rewrite znth_slice by nia. pose proof (znth_byte raw (y * (w * n) + (x * n + c)) Hb) as B. unfold is_byte in B.
  change (2 ^ 8) with 256. rewrite Z.mod_small by lia. unfold in8. change (8 =? 16) with false. cbn iota. change (2 ^ 8 - 1) with 255. rewrite Z.div_mul by lia.
  f_equal. ring.
Qed.
Lemma plain16 w h k ctb raw : 0 < w -> 0 < h -> bytes raw -> zlen raw = h * line_bytes ctb 16 w -> (0 < k)%nat -> samples_per_pixel ctb = Z.of_nat k ->
  zlen (high_bytes (2 * k) raw) = w * h * samples_per_pixel ctb /\ bytes (high_bytes (2 * k) raw) /\
  forall x y c, 0 <= x < w -> 0 <= y < h -> 0 <= c < samples_per_pixel ctb ->
  znth (high_bytes (2 * k) raw) ((y * w + x) * samples_per_pixel ctb + c) = in8 16 (png_sample ctb 16 w raw x y c).
Proof.
  intros Hw Hh Hb Hl Hk Hs. assert (line_bytes ctb 16 w = 2 * (w * Z.of_nat k)) as El by (unfold line_bytes; rewrite Hs; lia). rewrite El in Hl.
  assert (length raw = (Z.to_nat (w * h) * (2 * k))%nat) as Ll by (unfold zlen in Hl; nia).
  destruct (high_bytes_size k (Z.to_nat (w * h)) raw Hk Ll Hb) as (L & B). split; [unfold zlen; rewrite L, Hs; nia|]. split; auto.
  intros x y c Hx Hy Hc. rewrite (high_bytes_evens k (Z.to_nat (w * h))) by auto. rewrite Hs in *. set (n := Z.of_nat k) in *.
  assert (0 <= y * w + x < w * h) by nia.
  rewrite evens_nth by nia. unfold png_sample. rewrite El, Hs. unfold line_sample, in8. change (16 =? 16) with true. cbn iota. fold n.
  assert (0 <= x * n + c < w * n) by nia. rewrite !znth_slice by nia.
  pose proof (znth_byte raw (y * (2 * (w * n)) + (2 * (x * n + c) + 1)) Hb) as B2. unfold is_byte in B2.
  rewrite (Z.mul_comm 256), Z.div_add_l by lia. rewrite (Z.div_small _ 256) by lia. rewrite Z.add_0_r. f_equal. ring.
Qed.

Lemma trns_opaque t i : has_alpha_in_trns (Some t) = false -> nth i t 255 = 255.
Proof.
  cbn [has_alpha_in_trns]. revert i. induction t as [|a t IH]; intros i H; [destruct i; reflexivity|].
  cbn [existsb] in H. destruct i; cbn [nth]; [lia|]. apply IH. destruct (negb (a =? 255)); [discriminate|exact H].
Qed.

Lemma znth_map f l i : 0 <= i < zlen l -> znth (map f l) i = f (znth l i).
Proof. intros H. unfold znth. rewrite nth_indep with (d' := f 0) by (rewrite map_length; unfold zlen in H; lia). apply map_nth. Qed.
Lemma gray_scaled w h d o raw : depths d -> unpack_rows raw w h d = Ok o -> zlen o = w * h -> Forall (fun v => 0 <= v < 2 ^ d) o ->
  exists px, unpack_gray raw w h d = Ok px /\ bytes px /\ zlen px = w * h /\ forall i, 0 <= i < w * h -> znth px i = in8 d (znth o i).
Proof.
  intros Hd E L F. unfold unpack_gray. rewrite E. cbn [rbind]. eexists. split; [reflexivity|]. split; [|split].
  - apply Forall_forall. intros v (s & <- & Hs)%in_map_iff. rewrite Forall_forall in F. apply scale_byte; auto.
  - rewrite zlen_map. exact L.
  - intros i Hi. rewrite (znth_map (fun s => scale_to_8bit s d)) by lia. apply scale_in8; auto.
    rewrite Forall_forall in F. apply F. unfold znth. apply nth_In. unfold zlen in L. lia.
Qed.
Lemma indexed_pixels pal trns idx : Forall byte3 pal -> (forall t, trns = Some t -> bytes t) -> Forall (fun v => 0 <= v) idx ->
  exists px, expand_palette pal trns idx = Ok px /\ bytes px /\ zlen px = zlen idx * (if has_alpha_in_trns trns then 4 else 3) /\
  forall i, 0 <= i < zlen idx -> znth idx i < zlen pal -> PngSpec.pixel (if has_alpha_in_trns trns then Rgba else Rgb) px i =
    let '(r, g, b) := nth (Z.to_nat (znth idx i)) pal (0, 0, 0) in (r, g, b, match trns with Some t => nth (Z.to_nat (znth idx i)) t 255 | None => 255 end).
Proof.
  intros Hp Ht Hi. destruct (expand_palette_size pal trns idx Hp Ht Hi) as (px & E & B & L). exists px. split; auto. split; auto. split; auto.
  intros i Hi' Hlt. rewrite expand_palette_ok in E by auto. injection E as <-.
  match goal with |- context [concat (map ?g0 idx)] => set (g := g0) end.
  set (k := if has_alpha_in_trns trns then 4 else 3) in *.
  assert (forall v, zlen (g v) = k) as Lg.
  { intros v. unfold g, k. destruct (pal_rgb pal v) as [[r gg] b]. destruct trns as [t|]; [destruct (has_alpha_in_trns (Some t))|]; reflexivity. }
  assert (forall c, 0 <= c < k -> znth (concat (map g idx)) (i * k + c) = znth (g (znth idx i)) c) as N.
  { intros c Hc. rewrite (concat_const_nth _ k); auto.
    - f_equal. rewrite nth_indep with (d' := g 0) by (rewrite map_length; unfold zlen in Hi'; lia). rewrite map_nth. reflexivity.
    - apply Forall_forall. intros x (v & <- & _)%in_map_iff. apply Lg.
    - rewrite zlen_map. auto. }
  unfold g in N. cbn beta in N. change (nth (Z.to_nat (znth idx i)) pal (0, 0, 0)) with (pal_rgb pal (znth idx i)).
  destruct (pal_rgb pal (znth idx i)) as [[r gg] b] eqn:Er. fold g in N.
  unfold k in N. destruct trns as [t|].
  - destruct (has_alpha_in_trns (Some t)) eqn:Ea; cbn [PngSpec.pixel].
    + replace (4 * i) with (i * 4 + 0) by ring. rewrite <- !Z.add_assoc. cbn [Z.add]. rewrite !N by lia. cbn. unfold pal_alpha. replace (znth idx i <? zlen pal) with true by lia. reflexivity.
    + replace (3 * i) with (i * 3 + 0) by ring. rewrite <- !Z.add_assoc. cbn [Z.add]. rewrite !N by lia. cbn. rewrite (trns_opaque t) by auto. reflexivity.
  - cbn [has_alpha_in_trns] in *. cbn [PngSpec.pixel]. replace (3 * i) with (i * 3 + 0) by ring. rewrite <- !Z.add_assoc. cbn [Z.add]. rewrite !N by lia. reflexivity.
Qed.

Lemma convert_pixels w h depth ctb raw pal pal' trns : 0 < w -> 0 < h -> legal_any ctb depth -> bytes raw -> zlen raw = h * line_bytes ctb depth w ->
  Forall byte3 pal -> (forall t, trns = Some t -> bytes t) ->
  (ctb = 3 -> pal' = Some pal) -> (ctb = 3 -> forall x y, 0 <= x < w -> 0 <= y < h -> png_sample ctb depth w raw x y 0 < zlen pal) -> (ctb = 3 \/ ctb = 4 \/ ctb = 6 \/ trns = None) ->
  exists px, convert_to_pixels (hdr w h depth ctb) raw pal' trns = Ok px /\ output_ct (hdr w h depth ctb) trns = result_ct ctb trns /\
    bytes px /\ zlen px = w * h * PngPaletteModel.bytes_per_pixel (result_ct ctb trns) /\
    forall x y, 0 <= x < w -> 0 <= y < h -> PngSpec.pixel (result_ct ctb trns) px (y * w + x) = png_pixel ctb depth w raw pal trns x y.
Proof.
  intros Hw Hh Hl Hb Hr Bp Bt Hp Hx Ht.
  assert (8 = depth -> forall n, samples_per_pixel ctb = n -> 0 < n -> exists px, Ok raw = Ok px /\ bytes px /\ zlen px = w * h * n /\ forall x y c, 0 <= x < w -> 0 <= y < h -> 0 <= c < n ->
    znth px ((y * w + x) * n + c) = in8 depth (png_sample ctb depth w raw x y c)) as P8.
  { intros <- n <- Hn. exists raw. destruct (plain8 w h ctb raw) as (L & S); auto. }
  assert (16 = depth -> forall k n, samples_per_pixel ctb = Z.of_nat k -> (0 < k)%nat -> n = (2 * k)%nat -> exists px, Ok (high_bytes n raw) = Ok px /\ bytes px /\ zlen px = w * h * Z.of_nat k /\ forall x y c, 0 <= x < w -> 0 <= y < h -> 0 <= c < Z.of_nat k ->
    znth px ((y * w + x) * Z.of_nat k + c) = in8 depth (png_sample ctb depth w raw x y c)) as P16.
  { intros <- k n Hk Hk0 ->. destruct (plain16 w h k ctb raw) as (L & B & S); auto. eexists. split; [reflexivity|]. rewrite Hk in *. auto. }
  assert (depths depth -> samples_per_pixel ctb = 1 -> exists o, unpack_rows raw w h depth = Ok o /\ zlen o = w * h /\ Forall (fun v => 0 <= v < 2 ^ depth) o /\
    forall x y, 0 <= x < w -> 0 <= y < h -> znth o (y * w + x) = png_sample ctb depth w raw x y 0) as PU.
  { intros Hd H1. assert (line_bytes ctb depth w = ceil8 (w * depth)) as El by (unfold line_bytes, ceil8; rewrite H1; f_equal; lia).
    destruct (unpack_rows_spec raw w h depth) as (o & E & L & S); auto; try lia; try (rewrite <- El; lia).
    exists o. split; auto. split; auto. split; [eapply unpack_rows_range; [| | | | |exact E]; auto; try lia; try (rewrite <- El; lia)|].
    intros x y Hx' Hy'. rewrite S by auto. unfold png_sample. rewrite El, H1. unfold line_sample.
    replace (depth =? 16) with false by (unfold depths in Hd; lia). f_equal. lia. }
  destruct Hl as [Hl|Hl]; unfold legal in Hl; cbn [In] in Hl;
    repeat (destruct Hl as [Hl|Hl]; [injection Hl as <- <-|]); try (destruct Hl);
    unfold convert_to_pixels, result_ct, png_pixel, PngSpec.pixel, hdr, output_ct;
    change (ih_ct _) with PGray || change (ih_ct _) with PRgb || change (ih_ct _) with PIndexed || change (ih_ct _) with PGrayAlpha || change (ih_ct _) with PRgba;
    cbn [ih_width ih_height ih_depth Z.eqb Pos.eqb] in *.
  all: try change (some_alpha trns) with (has_alpha_in_trns trns).
  all: try (assert (trns = None) as -> by (destruct Ht as [Ht|[Ht|[Ht|Ht]]]; [discriminate Ht|discriminate Ht|discriminate Ht|exact Ht]); cbn [keyed]).
  all: try (destruct (P8 eq_refl _ eq_refl ltac:(reflexivity)) as (px & E & B & L & S); exists px; split; [exact E|split; [reflexivity|split; [exact B|split; [exact L|]]]];
    intros x y Hx' Hy'; change (samples_per_pixel _) with 1 in S || change (samples_per_pixel _) with 3 in S || change (samples_per_pixel _) with 2 in S || change (samples_per_pixel _) with 4 in S;
    repeat (match goal with |- (_, _) = (_, _) => f_equal end); rewrite <- S by lia; f_equal; ring).
  1-3: destruct PU as (o & E & L & F & S); [unfold depths; lia|reflexivity|]; edestruct gray_scaled as (px & E2 & B & L2 & S2); [|exact E|exact L|exact F|]; [unfold depths; lia|];
    exists px; split; [exact E2|split; [reflexivity|split; [exact B|split; [rewrite L2; cbn; lia|]]]]; intros x y Hx' Hy'; rewrite S2, S by nia; reflexivity.
  1-4: rewrite (Hp eq_refl); destruct PU as (o & E & L & F & S); [unfold depths; lia|reflexivity|]; unfold unpack_indices; rewrite E; cbn [rbind];
    destruct (indexed_pixels pal trns o) as (px & E2 & B & L2 & S2); [auto|auto|eapply Forall_impl; [|exact F]; cbn; intros; lia|];
    exists px; split; [exact E2|split; [reflexivity|split; [exact B|split; [rewrite L2, L; destruct (has_alpha_in_trns trns); reflexivity|]]]];
    intros x y Hx' Hy'; specialize (S2 (y * w + x) ltac:(nia)); rewrite S in S2 by auto; exact (S2 (Hx eq_refl x y Hx' Hy')).
  - destruct (P16 eq_refl 1%nat 2%nat) as (px & E & B & L & S); try reflexivity; try lia. exists px. split; [exact E|split; [reflexivity|split; [exact B|split; [exact L|]]]].
    intros x y Hx' Hy'. repeat (match goal with |- (_, _) = (_, _) => f_equal end); rewrite <- S by lia; f_equal; lia.
  - destruct (P16 eq_refl 3%nat 6%nat) as (px & E & B & L & S); try reflexivity; try lia. exists px. split; [exact E|split; [reflexivity|split; [exact B|split; [exact L|]]]].
    intros x y Hx' Hy'. repeat (match goal with |- (_, _) = (_, _) => f_equal end); rewrite <- S by lia; f_equal; lia.
  - destruct (P16 eq_refl 2%nat 4%nat) as (px & E & B & L & S); try reflexivity; try lia. exists px. split; [exact E|split; [reflexivity|split; [exact B|split; [exact L|]]]].
    intros x y Hx' Hy'. repeat (match goal with |- (_, _) = (_, _) => f_equal end); rewrite <- S by lia; f_equal; lia.
  - destruct (P16 eq_refl 4%nat 8%nat) as (px & E & B & L & S); try reflexivity; try lia. exists px. split; [exact E|split; [reflexivity|split; [exact B|split; [exact L|]]]].
    intros x y Hx' Hy'. repeat (match goal with |- (_, _) = (_, _) => f_equal end); rewrite <- S by lia; f_equal; lia.
Qed.

Lemma legal_facts ctb depth w h : legal_any ctb depth -> 0 < w ->
  png_ct_of ctb = Ok (pct ctb) /\ is_byte depth /\ is_byte ctb /\ valid_depth (pct ctb) depth = true /\
  layout (hdr w h depth ctb) = (filter_unit ctb depth, line_bytes ctb depth w) /\ 0 < filter_unit ctb depth /\ 0 < line_bytes ctb depth w <= w * 8.
Proof.
  intros Hl Hw. destruct Hl as [Hl|Hl]; unfold legal in Hl; cbn [In] in Hl; repeat (destruct Hl as [Hl|Hl]; [injection Hl as <- <-|]); try (destruct Hl);
  (split; [reflexivity|split; [unfold is_byte; lia|split; [unfold is_byte; lia|split; [reflexivity|]]]]); unfold layout, line_bytes, filter_unit, hdr, ceil8; cbn [ih_ct ih_width ih_depth];
  change (pct _) with PGray || change (pct _) with PRgb || change (pct _) with PIndexed || change (pct _) with PGrayAlpha || change (pct _) with PRgba; cbn iota;
  change (samples_per_pixel _) with 1 || change (samples_per_pixel _) with 3 || change (samples_per_pixel _) with 2 || change (samples_per_pixel _) with 4;
  change (3 * 8 / 8) with 3; change (2 * 8 / 8) with 2; change (4 * 8 / 8) with 4; change (3 * 16 / 8) with 6; change (2 * 16 / 8) with 4; change (4 * 16 / 8) with 8;
  (split; [apply f_equal2; lia|lia]).
Qed.
Lemma plte_bytes_inv p : bytes (plte_data p) -> Forall byte3 p.
Proof.
  induction p as [|((r, g), b) p IH]; intros H; [constructor|]. cbn [plte_data flat_map app] in H.
  apply Forall_cons_iff in H as (H1 & H). apply Forall_cons_iff in H as (H2 & H). apply Forall_cons_iff in H as (H3 & H). constructor; [cbn; auto|]. apply IH. exact H.
Qed.
Lemma datas_wf t cs : Forall wf_chunk cs -> Forall bytes (datas t cs).
Proof.
  intros H. unfold datas. apply Forall_map, Forall_forall. intros c (Hc & _)%filter_In. rewrite Forall_forall in H. apply H in Hc as (_ & _ & B & _). exact B.
Qed.
Lemma decode_conforming w h depth ctb pal trns raw cs more : conforming w h depth ctb pal trns raw cs -> (ctb = 3 \/ ctb = 4 \/ ctb = 6 \/ trns = None) ->
  exists px, decode_png (png_file cs ++ more) = Ok (mkImage w h px (result_ct ctb trns)) /\ bytes px /\ zlen px = w * h * bytes_per_pixel (result_ct ctb trns) /\
  forall x y, 0 <= x < w -> 0 <= y < h -> PngSpec.pixel (result_ct ctb trns) px (y * w + x) = png_pixel ctb depth w raw pal trns x y.
Proof.
  intros [(Hw & Hh) Hl (Hb & Hr) Hwf (mid & -> & Hi & Hn & Hp & Ht & filts & Hz & Hf) Hx] Hk.
  destruct (legal_facts ctb depth w h Hl ltac:(lia)) as (Fc & Fd & Fb & Fv & Fl & Fu & Fs).
  apply Forall_cons_iff in Hwf as (Wh & Wm). apply Forall_app in Wm as (Wm & We).
  set (pal' := if none_of (datas T_PLTE mid) then None else Some pal).
  set (pal2 := if none_of (datas T_PLTE mid) then [] else pal).
  assert (Forall byte3 pal2) as Bp.
  { unfold pal2. destruct Hp as [Hp|(_ & Hp)]; rewrite Hp; cbn [none_of]; [|constructor]. pose proof (datas_wf T_PLTE mid Wm) as D. rewrite Hp in D. inversion D. apply plte_bytes_inv. auto. }
  assert (forall t, trns = Some t -> bytes t) as Bt.
  { intros t ->. pose proof (datas_wf T_tRNS mid Wm) as D. rewrite Ht in D. inversion D. auto. }
  assert (ctb = 3 -> pal2 = pal /\ pal' = Some pal) as P3.
  { intros ->. unfold pal2, pal'. destruct Hp as [Hp|(Hp & _)]; [|congruence]. rewrite Hp. auto. }
  destruct (convert_pixels w h depth ctb raw pal2 pal' trns) as (px & E & Eo & B & L & S); auto; try lia.
  { intros C. destruct (P3 C) as (-> & ->). reflexivity. }
  { intros C. destruct (P3 C) as (-> & _). auto. }
  exists px. split; [|split; [exact B|split; [exact L|]]].
  - destruct (img_filtered_len _ _ _ _ _ Hf) as (n & Hn0 & L1 & L2).
    assert (n = h) as -> by nia.
    assert (bytes (concat (datas T_IDAT mid))) as Bz by (apply Forall_concat, datas_wf; auto).
    rewrite (decode_png_chunks _ more (mkC (Some (hdr w h depth ctb)) (concat (datas T_IDAT mid)) pal' trns true)).
    + rewrite <- Eo. eapply finish_ok; [exact Hw|exact Hh|exact Fv|exact Fl|exact Fu|lia|exact Hb|exact L2|exact Hf|exact Bz|exact Hz|exact E].
    + constructor; auto. apply Forall_app; auto.
    + cbn [run_chunks]. unfold chunk_effect at 1. change (zs_eqb T_IHDR T_IHDR) with true. cbn iota.
      rewrite parse_ihdr_ok; auto; try (change (2 ^ 24) with 16777216 in *; change (2 ^ 32) with 4294967296; lia). cbn [rbind c_end c_init].
      rewrite (run_mid pal (match trns with Some t => t | None => [] end)); auto.
      * cbn [c_ihdr c_idat c_pal c_trns app]. f_equal. rewrite Ht. destruct trns; reflexivity.
      * destruct Hp as [Hp|(_ & Hp)]; auto.
      * rewrite Ht. destruct trns; auto.
    + reflexivity.
  - intros x y Hx' Hy'. rewrite S by auto. unfold png_pixel. destruct (Z.eqb_spec ctb 3) as [C|C]; [destruct (P3 C) as (-> & _); reflexivity|].
    destruct (ctb =? 0), (ctb =? 2), (ctb =? 4); reflexivity.
Qed.

(** ** Interlaced files *)
Lemma decode_interlaced w h depth ctb pal trns mid more : 0 < w <= 2 ^ 24 -> 0 < h <= 2 ^ 24 -> legal_any ctb depth ->
  let cs := (T_IHDR, be4 w ++ be4 h ++ [depth; ctb; 0; 0; 1]) :: mid ++ [(T_IEND, [])] in
  Forall wf_chunk cs -> datas T_IHDR mid = [] -> datas T_IEND mid = [] ->
  datas T_PLTE mid = opt_to_list (option_map (flat_map (fun '(r, g, b) => [r; g; b])) pal) -> datas T_tRNS mid = opt_to_list trns ->
  decode_png (png_file cs ++ more) = Err EUnsupportedDecode.
Proof.
  intros Hw Hh Hl cs Hwf Hi Hn Hp Ht. destruct (legal_facts ctb depth w h Hl ltac:(lia)) as (Fc & _).
  assert (exists z pal' trns', run_chunks cs c_init = Ok (mkC (Some (mkIhdr w h depth (pct ctb) 0 0 1)) z pal' trns' true)) as (z & pal' & trns' & R).
  { unfold cs. cbn [run_chunks]. unfold chunk_effect at 1. change (zs_eqb T_IHDR T_IHDR) with true. cbn iota.
    assert (parse_ihdr (be4 w ++ be4 h ++ [depth; ctb; 0; 0; 1]) = Ok (mkIhdr w h depth (pct ctb) 0 0 1)) as ->.
    { pose proof (parse_ihdr_ok w h depth ctb) as P. specialize (P ltac:(change (2 ^ 24) with 16777216 in *; change (2 ^ 32) with 4294967296; lia) ltac:(change (2 ^ 24) with 16777216 in *; change (2 ^ 32) with 4294967296; lia) Fc).
      unfold parse_ihdr in *. change (negb (zlen _ =? 13)) with false in *. cbn iota in *.
      change (get_be32 (be4 w ++ be4 h ++ [depth; ctb; 0; 0; 1]) 0) with (get_be32 (be4 w ++ be4 h ++ [depth; ctb; 0; 0; 0]) 0).
      change (get_be32 (be4 w ++ be4 h ++ [depth; ctb; 0; 0; 1]) 4) with (get_be32 (be4 w ++ be4 h ++ [depth; ctb; 0; 0; 0]) 4).
      destruct (get_be32 (be4 w ++ be4 h ++ [depth; ctb; 0; 0; 0]) 0) as [w'| | |]; [|discriminate..]. cbn [rbind] in *.
      destruct (get_be32 (be4 w ++ be4 h ++ [depth; ctb; 0; 0; 0]) 4) as [h'| | |]; [|discriminate..]. cbn [rbind] in *.
      change (get (be4 w ++ be4 h ++ [depth; ctb; 0; 0; 0]) 8) with (Ok depth) in P. change (get (be4 w ++ be4 h ++ [depth; ctb; 0; 0; 0]) 9) with (Ok ctb) in P.
      change (get (be4 w ++ be4 h ++ [depth; ctb; 0; 0; 1]) 8) with (Ok depth). change (get (be4 w ++ be4 h ++ [depth; ctb; 0; 0; 1]) 9) with (Ok ctb).
      cbn [rbind] in *. rewrite Fc in *. cbn [rbind] in *. unfold hdr in P. injection P as -> ->. reflexivity. }
    cbn [rbind c_end c_init].
    rewrite (run_mid (match pal with Some p => p | None => [] end) (match trns with Some t => t | None => [] end)); auto.
    - eauto.
    - rewrite Hp. destruct pal; auto.
    - rewrite Ht. destruct trns; auto. }
  rewrite (decode_png_chunks cs more _ Hwf R eq_refl). unfold finish_decode. cbn [c_end c_ihdr c_idat c_pal c_trns negb ih_width ih_height ih_comp ih_filt ih_inter].
  replace ((w =? 0) || (h =? 0)) with false by lia. unfold MAX_DIMENSION. replace ((2 ^ 24 <? w) || (2 ^ 24 <? h)) with false by lia. reflexivity.
Qed.

(** ** Concrete files *)
Definition stored_zlib (data : list Z) : list Z := [120; 1] ++ deflate_stored data ++ be4 (adler_spec data).
Lemma stored_zlib_ok data : bytes data -> data <> [] -> 0 <= adler_spec data < 2 ^ 32 -> zlib_stream (stored_zlib data) data.
Proof.
  intros Hb Hn Ha. destruct (deflate_stored_roundtrip_l data Hb Hn) as (D & _). unfold zlib_stream, stored_zlib.
  exists 120, 1, (deflate_stored data). unfold be4. do 4 eexists. split; [reflexivity|].
  split; [unfold is_byte; lia|]. split; [unfold is_byte; lia|]. split; [reflexivity|]. split; [cbn; lia|]. split; [reflexivity|]. split; [reflexivity|].
  split; [exact (be4_bytes _ Ha)|]. split; [exact D|]. change (2 ^ 32) with 4294967296 in Ha. change (2 ^ 24) with 16777216. change (2 ^ 16) with 65536. change (2 ^ 8) with 256. lia.
Qed.
(** 1x1, gray, the only level marked transparent *)
Definition key_chunks : list (list Z * list Z) :=
  [(T_IHDR, be4 1 ++ be4 1 ++ [8; 0; 0; 0; 0]); (T_tRNS, [0; 77]); (T_IDAT, stored_zlib [0; 77]); (T_IEND, [])].
(** 2x2, two bits per index, a comment, two IDAT chunks, rows filtered by Sub and Up *)
Definition idx_chunks : list (list Z * list Z) :=
  [(T_IHDR, be4 2 ++ be4 2 ++ [2; 3; 0; 0; 0]); (T_PLTE, [10; 20; 30; 40; 50; 60; 70; 80; 90]); ([116; 69; 88; 116], [65; 0; 66]); (T_tRNS, [0; 128]);
   (T_IDAT, firstn 5 (stored_zlib [1; 96; 2; 192])); (T_IDAT, skipn 5 (stored_zlib [1; 96; 2; 192])); (T_IEND, [])].
Ltac wf_chunks := repeat (constructor; [split; [reflexivity|split; [repeat constructor; unfold is_byte; lia|split; [vm_compute; repeat constructor; congruence|reflexivity]]]|]); constructor.
Lemma key_conforming : conforming 1 1 8 0 [] (Some [0; 77]) [77] key_chunks.
Proof.
  constructor.
  - change (2 ^ 24) with 16777216. lia.
  - left. cbn. tauto.
  - split; [repeat constructor; unfold is_byte; lia|reflexivity].
  - wf_chunks.
  - exists [(T_tRNS, [0; 77]); (T_IDAT, stored_zlib [0; 77])]. split; [reflexivity|]. split; [reflexivity|]. split; [reflexivity|]. split; [right; split; [lia|reflexivity]|]. split; [reflexivity|].
    exists [0; 77]. split.
    + change (concat _) with (stored_zlib [0; 77] ++ []). rewrite app_nil_r. apply stored_zlib_ok; [repeat constructor; unfold is_byte; lia|discriminate|vm_compute; split; congruence].
    + change [77] with ([77] ++ []). change [0; 77] with (0 :: [77] ++ []). constructor; [lia|reflexivity| |constructor].
      split; [reflexivity|]. intros i Hi. change (zlen [77]) with 1 in Hi. assert (i = 0) as -> by lia. reflexivity.
  - discriminate.
Qed.
Lemma idx_conforming : conforming 2 2 2 3 [(10, 20, 30); (40, 50, 60); (70, 80, 90)] (Some [0; 128]) [96; 32] idx_chunks.
Proof.
  constructor.
  - change (2 ^ 24) with 16777216. lia.
  - left. cbn. tauto.
  - split; [repeat constructor; unfold is_byte; lia|reflexivity].
  - wf_chunks.
  - exists (removelast (tl idx_chunks)). split; [reflexivity|]. split; [reflexivity|]. split; [reflexivity|]. split; [left; reflexivity|]. split; [reflexivity|].
    exists [1; 96; 2; 192]. split.
    + assert (concat (datas T_IDAT (removelast (tl idx_chunks))) = stored_zlib [1; 96; 2; 192]) as -> by (vm_compute; reflexivity). apply stored_zlib_ok; [repeat constructor; unfold is_byte; lia|discriminate|vm_compute; split; congruence].
    + change [96; 32] with ([96] ++ [32] ++ []). change [1; 96; 2; 192] with (1 :: [96] ++ 2 :: [192] ++ []). constructor; [lia|reflexivity| |constructor; [lia|reflexivity| |constructor]].
      * split; [reflexivity|]. intros i Hi. change (zlen [96]) with 1 in Hi. assert (i = 0) as -> by lia. reflexivity.
      * split; [reflexivity|]. intros i Hi. change (zlen [32]) with 1 in Hi. assert (i = 0) as -> by lia. reflexivity.
  - intros _ x y Hx Hy. assert (x = 0 \/ x = 1) as [-> | ->] by lia; assert (y = 0 \/ y = 1) as [-> | ->] by lia; reflexivity.
Qed.
Lemma key_ignored : exists w h depth ctb pal trns raw cs px, conforming w h depth ctb pal trns raw cs /\
  decode_png (png_file cs) = Ok (mkImage w h px Gray) /\ png_pixel ctb depth w raw pal trns 0 0 = (77, 77, 77, 0) /\ PngSpec.pixel Gray px 0 = (77, 77, 77, 255).
Proof.
  exists 1, 1, 8, 0, [], (Some [0; 77]), [77], key_chunks, [77]. split; [exact key_conforming|]. split; [vm_compute; reflexivity|]. split; vm_compute; reflexivity.
Qed.
Lemma decode_conforming_image w h depth ctb pal trns raw cs more : conforming w h depth ctb pal trns raw cs -> (ctb = 3 \/ ctb = 4 \/ ctb = 6 \/ trns = None) ->
  exists px, decode_png (png_file cs ++ more) = Ok (mkImage w h px (result_ct ctb trns)) /\ image_ok (result_ct ctb trns) px (w * h) /\
  forall x y, 0 <= x < w -> 0 <= y < h -> PngSpec.pixel (result_ct ctb trns) px (y * w + x) = png_pixel ctb depth w raw pal trns x y.
Proof.
  intros Hc Hk. destruct (decode_conforming w h depth ctb pal trns raw cs more Hc Hk) as (px & E & B & L & S). exists px. split; auto. split; auto.
  split; auto. destruct Hc as [(Hw & Hh) _ _ _ _ _]. nia.
Qed.
