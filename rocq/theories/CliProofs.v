(** Conversions, and what the program and the WebAssembly interface write. *)
From Coq Require Import Reals.
From Verif Require Import Base DeflateModel DeflateTop LzOptModel LzOptTop LzOptApi PngFilterModel PngPaletteModel PngModel PngDecModel PngSpec PngEncSpec PngTop PngApi
  PngConfSpec PngConf JpegEncModel JpegImgSpec JpegTrellisTop JpegDctSpec JpegSpec JpegAnySpec JpegFidSpec JpegFidelity CliModel CliSpec CliPnm.
Open Scope Z_scope.

(** ** Conversions *)
Lemma luma_eq r g b : is_byte r -> is_byte g -> is_byte b -> luma r g b = (77 * r + 150 * g + 29 * b + 128) / 256 /\ is_byte (luma r g b).
Proof.
  unfold luma, is_byte. intros. rewrite Z.shiftr_div_pow2 by lia. change (2 ^ 8) with 256.
  assert (0 <= (77 * r + 150 * g + 29 * b + 128) / 256 < 256) by lia. rewrite wrap_id by exact H2. auto.
Qed.
Lemma luma_close r g b : is_byte r -> is_byte g -> is_byte b ->
  Z.abs (1000 * luma r g b - (299 * r + 587 * g + 114 * b)) <= 955 /\ (r = g -> g = b -> luma r g b = r).
Proof. intros Hr Hg Hb. destruct (luma_eq r g b Hr Hg Hb) as [-> _]. unfold is_byte in *. split; lia. Qed.

Lemma every_other_nth n : forall l, length l = (2 * n)%nat -> length (every_other l) = n /\ forall i, (i < n)%nat -> nth i (every_other l) 0 = nth (2 * i) l 0.
Proof.
  induction n as [|n IH]; intros l L.
  - destruct l; [|discriminate L]. split; [reflexivity|intros; lia].
  - destruct l as [|a [|b l]]; try (cbn in L; lia). destruct (IH l) as [E F]; [cbn in L; lia|]. cbn [every_other length]. split; [lia|].
    intros [|i] H; [reflexivity|]. cbn [nth]. rewrite F by lia. replace (2 * S i)%nat with (S (S (2 * i))) by lia. reflexivity.
Qed.
Lemma luma_rgb_nth n : forall l, length l = (3 * n)%nat -> length (luma_rgb l) = n /\
  forall i, (i < n)%nat -> nth i (luma_rgb l) 0 = luma (nth (3 * i) l 0) (nth (3 * i + 1) l 0) (nth (3 * i + 2) l 0).
Proof.
  induction n as [|n IH]; intros l L.
  - destruct l; [|discriminate L]. split; [reflexivity|intros; lia].
  - destruct l as [|a [|b [|c l]]]; try (cbn in L; lia). destruct (IH l) as [E F]; [cbn in L; lia|]. cbn [luma_rgb length]. split; [lia|].
    intros [|i] H; [reflexivity|]. cbn [nth]. rewrite F by lia. replace (3 * S i)%nat with (S (S (S (3 * i)))) by lia. reflexivity.
Qed.
Lemma luma_rgba_nth n : forall l, length l = (4 * n)%nat -> length (luma_rgba l) = n /\
  forall i, (i < n)%nat -> nth i (luma_rgba l) 0 = luma (nth (4 * i) l 0) (nth (4 * i + 1) l 0) (nth (4 * i + 2) l 0).
Proof.
  induction n as [|n IH]; intros l L.
  - destruct l; [|discriminate L]. split; [reflexivity|intros; lia].
  - destruct l as [|a [|b [|c [|d l]]]]; try (cbn in L; lia). destruct (IH l) as [E F]; [cbn in L; lia|]. cbn [luma_rgba length]. split; [lia|].
    intros [|i] H; [reflexivity|]. cbn [nth]. rewrite F by lia. replace (4 * S i)%nat with (S (S (S (S (4 * i))))) by lia. reflexivity.
Qed.
Lemma rgba_to_rgb_nth n : forall l, length l = (4 * n)%nat -> length (rgba_to_rgb l) = (3 * n)%nat /\
  forall i, (i < n)%nat -> nth (3 * i) (rgba_to_rgb l) 0 = nth (4 * i) l 0 /\ nth (3 * i + 1) (rgba_to_rgb l) 0 = nth (4 * i + 1) l 0 /\
    nth (3 * i + 2) (rgba_to_rgb l) 0 = nth (4 * i + 2) l 0.
Proof.
  induction n as [|n IH]; intros l L.
  - destruct l; [|discriminate L]. split; [reflexivity|intros; lia].
  - destruct l as [|a [|b [|c [|d l]]]]; try (cbn in L; lia). destruct (IH l) as [E F]; [cbn in L; lia|]. cbn [rgba_to_rgb length]. split; [lia|].
    intros [|i] H; [repeat split|]. replace (4 * S i)%nat with (S (S (S (S (4 * i))))) by lia. replace (3 * S i)%nat with (S (S (S (3 * i)))) by lia. apply (F i). lia.
Qed.
Lemma forall_of_nth (P : Z -> Prop) l : (forall i, (i < length l)%nat -> P (nth i l 0)) -> Forall P l.
Proof. intros H. apply Forall_forall. intros x I. destruct (In_nth l x 0 I) as (k & L & <-). apply H. exact L. Qed.
Lemma nth_byte l i : bytes l -> is_byte (nth i l 0).
Proof. intros H. apply Forall_nth_d; [exact H|unfold is_byte; lia]. Qed.
Lemma znth_nat l i : znth l (Z.of_nat i) = nth i l 0.
Proof. unfold znth. rewrite Nat2Z.id. reflexivity. Qed.
Ltac at_nat i n := let m := fresh "m" in assert (exists m, i = Z.of_nat m) as (m & ->) by (exists (Z.to_nat i); lia).
(** the picture in gray *)
Lemma to_grayscale_ok ct px n : image_ok ct px n -> image_ok Gray (to_grayscale px ct) n /\
  forall i, 0 <= i < n -> exists v, pixel Gray (to_grayscale px ct) i = (v, v, v, 255) /\
    Z.abs (1000 * v - luma_milli (pixel ct px i)) <= 955 /\ forall g a, pixel ct px i = (g, g, g, a) -> v = g.
Proof.
  intros (N & B & L). destruct (Z_of_nat_complete n N) as (m & ->). unfold zlen in L. destruct ct; cbn [to_grayscale bytes_per_pixel] in *.
  - split; [repeat split; auto|]. intros i Hi. exists (znth px i). cbn [pixel luma_milli]. split; [reflexivity|]. split; [lia|]. intros g a E. congruence.
  - destruct (every_other_nth m px ltac:(lia)) as [E F]. split.
    + split; [lia|]. split; [apply forall_of_nth; intros i Hi; rewrite F by lia; apply nth_byte; exact B|unfold zlen; cbn [bytes_per_pixel]; lia].
    + intros i Hi. at_nat i m. exists (nth m0 (every_other px) 0). cbn [pixel luma_milli]. rewrite znth_nat, F by lia.
      replace (2 * Z.of_nat m0) with (Z.of_nat (2 * m0)) by lia. rewrite znth_nat. split; [reflexivity|]. split; [lia|]. intros g a X. congruence.
  - destruct (luma_rgb_nth m px ltac:(lia)) as [E F]. split.
    + split; [lia|]. split; [apply forall_of_nth; intros i Hi; rewrite F by lia; apply luma_eq; apply nth_byte; exact B|unfold zlen; cbn [bytes_per_pixel]; lia].
    + intros i Hi. at_nat i m. exists (nth m0 (luma_rgb px) 0). cbn [pixel luma_milli]. rewrite znth_nat, F by lia.
      replace (3 * Z.of_nat m0) with (Z.of_nat (3 * m0)) by lia. replace (Z.of_nat (3 * m0) + 1) with (Z.of_nat (3 * m0 + 1)) by lia.
      replace (Z.of_nat (3 * m0) + 2) with (Z.of_nat (3 * m0 + 2)) by lia. rewrite !znth_nat. split; [reflexivity|].
      destruct (luma_close (nth (3 * m0) px 0) (nth (3 * m0 + 1) px 0) (nth (3 * m0 + 2) px 0)) as [C D]; try (apply nth_byte; exact B).
      split; [exact C|]. intros g a X. injection X; intros. rewrite D by congruence. congruence.
  - destruct (luma_rgba_nth m px ltac:(lia)) as [E F]. split.
    + split; [lia|]. split; [apply forall_of_nth; intros i Hi; rewrite F by lia; apply luma_eq; apply nth_byte; exact B|unfold zlen; cbn [bytes_per_pixel]; lia].
    + intros i Hi. at_nat i m. exists (nth m0 (luma_rgba px) 0). cbn [pixel luma_milli]. rewrite znth_nat, F by lia.
      replace (4 * Z.of_nat m0) with (Z.of_nat (4 * m0)) by lia. replace (Z.of_nat (4 * m0) + 1) with (Z.of_nat (4 * m0 + 1)) by lia.
      replace (Z.of_nat (4 * m0) + 2) with (Z.of_nat (4 * m0 + 2)) by lia. rewrite !znth_nat. split; [reflexivity|].
      destruct (luma_close (nth (4 * m0) px 0) (nth (4 * m0 + 1) px 0) (nth (4 * m0 + 2) px 0)) as [C D]; try (apply nth_byte; exact B).
      split; [exact C|]. intros g a X. injection X; intros. rewrite D by congruence. congruence.
Qed.
(** the picture without its alpha channel *)
Definition dropped (ct : color_type) : color_type := match ct with Gray | GrayAlpha => Gray | _ => Rgb end.
Definition drop_alpha (px : list Z) (ct : color_type) : list Z := match ct with Gray | Rgb => px | GrayAlpha => every_other px | Rgba => rgba_to_rgb px end.
Lemma drop_alpha_ok ct px n : image_ok ct px n -> image_ok (dropped ct) (drop_alpha px ct) n /\
  forall i, 0 <= i < n -> pixel (dropped ct) (drop_alpha px ct) i = opaque (pixel ct px i).
Proof.
  intros (N & B & L). destruct ct; cbn [dropped drop_alpha].
  - split; [repeat split; auto|]. reflexivity.
  - destruct (to_grayscale_ok GrayAlpha px n) as [O P]; [repeat split; auto|]. split; [exact O|]. intros i Hi. destruct (P i Hi) as (v & E & _ & D).
    cbn [to_grayscale] in E. rewrite E. cbn [pixel opaque]. f_equal; f_equal; try f_equal; eapply D; reflexivity.
  - split; [repeat split; auto|]. reflexivity.
  - destruct (Z_of_nat_complete n N) as (m & ->). unfold zlen in L. cbn [bytes_per_pixel] in L. destruct (rgba_to_rgb_nth m px ltac:(lia)) as [E F]. split.
    + split; [lia|]. split; [|unfold zlen; cbn [bytes_per_pixel]; lia]. apply forall_of_nth. intros i Hi. destruct (F (i / 3)%nat ltac:(lia)) as (A1 & A2 & A3).
      assert (i = (3 * (i / 3))%nat \/ i = (3 * (i / 3) + 1)%nat \/ i = (3 * (i / 3) + 2)%nat) as D by lia.
      destruct D as [D | [D | D]]; rewrite D; [rewrite A1|rewrite A2|rewrite A3]; apply nth_byte; exact B.
    + intros i Hi. at_nat i m. destruct (F m0 ltac:(lia)) as (A1 & A2 & A3). cbn [pixel opaque].
      replace (3 * Z.of_nat m0) with (Z.of_nat (3 * m0)) by lia. replace (Z.of_nat (3 * m0) + 1) with (Z.of_nat (3 * m0 + 1)) by lia.
      replace (Z.of_nat (3 * m0) + 2) with (Z.of_nat (3 * m0 + 2)) by lia.
      replace (4 * Z.of_nat m0) with (Z.of_nat (4 * m0)) by lia. replace (Z.of_nat (4 * m0) + 1) with (Z.of_nat (4 * m0 + 1)) by lia.
      replace (Z.of_nat (4 * m0) + 2) with (Z.of_nat (4 * m0 + 2)) by lia. rewrite !znth_nat. congruence.
Qed.

(** ** Options *)
Lemma compressors_ok e o : pixo_compressors e -> comp_ok e o.
Proof.
  intros (H & p & E & log2 & L & F & T & G & O). destruct (o_optimal o) eqn:X.
  - exact (opt_comp_ok_l H E log2 e o T G X O).
  - exact (fast_comp_ok_l H p e o L X F).
Qed.
Lemma bpp_le ct : 1 <= bytes_per_pixel ct <= 4.
Proof. destruct ct; cbn; lia. Qed.
Lemma small_of o : png_fits (o_width o) (o_height o) -> small o.
Proof.
  intros (W & H & S). pose proof (bpp_le (o_ct o)). assert (2 ^ 30 <= room o) as R by (unfold room; destruct (o_optimal o); vm_compute; discriminate).
  split; [|intros _]; nia.
Qed.
Lemma png_options_keep e data o : pixo_compressors e -> png_fits (o_width o) (o_height o) -> 1 <= o_level o <= 9 -> image_ok (o_ct o) data (o_width o * o_height o) ->
  o_qmode o = QOff -> (o_reduce o = true -> o_palette o = true) ->
  exists f im, encode e data o = Ok f /\ decode_png f = Ok im /\ im_width im = o_width o /\ im_height im = o_height o /\
    (o_reduce o = false -> o_palette o = false -> o_alpha o = false -> im_pixels im = data /\ im_ct im = o_ct o) /\
    forall i, 0 <= i < o_width o * o_height o -> shown (o_alpha o) (pixel (im_ct im) (im_pixels im) i) (pixel (o_ct o) data i).
Proof.
  intros C F L I Q RP. assert (accepted o data) as A by (destruct F as (W & H & _); repeat split; try apply I; lia).
  destruct (pixels_l e data o A (compressors_ok e o C) (small_of o F) Q) as (f & im & E & D & W & H & P).
  { intros (R & Pf & _). rewrite RP in Pf by exact R. discriminate Pf. }
  exists f, im. split; [exact E|]. split; [exact D|]. split; [exact W|]. split; [exact H|]. split; [|exact P].
  intros R0 P0 A0. destruct (lossless_l e data o A (compressors_ok e o C) (small_of o F) A0 R0 P0 Q) as (f' & E' & D').
  rewrite E in E'. injection E' as <-. rewrite D in D'. injection D' as ->. split; reflexivity.
Qed.

(** ** WebAssembly *)
Lemma try_from_code v ct : color_type_try_from v = Some ct <-> v = code_of ct.
Proof.
  unfold color_type_try_from. split.
  - destruct (Z.eqb_spec v 0); [intros E; injection E as <-; assumption|]. destruct (Z.eqb_spec v 1); [intros E; injection E as <-; assumption|].
    destruct (Z.eqb_spec v 2); [intros E; injection E as <-; assumption|]. destruct (Z.eqb_spec v 3); [intros E; injection E as <-; assumption|discriminate].
  - intros ->. destruct ct; reflexivity.
Qed.
Lemma from_preset_cases w h p : png_from_preset w h p = png_fast w h /\ p = 0 \/ png_from_preset w h p = png_balanced w h \/ png_from_preset w h p = png_max w h.
Proof. unfold png_from_preset. destruct (Z.eqb_spec p 0); [auto|]. destruct (p =? 2); auto. Qed.
Lemma wasm_png_l e data w h ct preset : pixo_compressors e -> png_fits w h -> image_ok ct data (w * h) ->
  exists f im, wasm_encode_png e data w h (code_of ct) preset false = Ok f /\ decode_png f = Ok im /\ im_width im = w /\ im_height im = h /\
    (preset = 0 -> im_pixels im = data /\ im_ct im = ct) /\
    forall i, 0 <= i < w * h -> shown (negb (preset =? 0)) (pixel (im_ct im) (im_pixels im) i) (pixel ct data i).
Proof.
  intros C F I. unfold wasm_encode_png, color_type_from_u8. rewrite (proj2 (try_from_code _ ct) eq_refl). cbn [rbind].
  set (o := wasm_png_options w h ct preset false).
  assert (o_width o = w /\ o_height o = h /\ o_ct o = ct /\ o_qmode o = QOff /\ 1 <= o_level o <= 9 /\ (o_reduce o = true -> o_palette o = true) /\
    (preset = 0 -> o_reduce o = false /\ o_palette o = false /\ o_alpha o = false) /\ (o_alpha o = true -> preset <> 0)) as (W & H & T & Q & L & RP & Z0 & Al).
  { unfold o, wasm_png_options, set_preset, set_lossy, png_from_preset. cbn [o_width o_height o_ct set_ct].
    destruct (Z.eqb_spec preset 0); [cbn; repeat split; auto; lia|]. destruct (preset =? 2); cbn; repeat split; auto; lia. }
  destruct (png_options_keep e data o C) as (f & im & E & D & W' & H' & X & P); try (rewrite ?W, ?H, ?T; assumption).
  rewrite W, H, T in *. exists f, im. split; [exact E|]. split; [exact D|]. split; [exact W'|]. split; [exact H'|]. split.
  - intros Z1. destruct (Z0 Z1) as (A1 & A2 & A3). apply X; assumption.
  - intros i Hi. specialize (P i Hi). destruct P as [P1 P2]. split; [exact P1|]. intros N. apply P2. destruct (o_alpha o) eqn:EA; [|reflexivity].
    specialize (Al eq_refl). destruct (Z.eqb_spec preset 0); [contradiction|discriminate N].
Qed.
(** lossy: nothing is lost below 100000 pixels with at most 256 colours *)
Lemma wasm_lossy_l e data w h ct preset D : pixo_compressors e -> (forall l, Permutation.Permutation (e_top e l) l) -> png_fits w h -> image_ok ct data (w * h) ->
  w * h < 100000 -> NoDup D -> zlen D <= 256 -> (forall i, 0 <= i < w * h -> In (pixel ct data i) D) ->
  exists f im, wasm_encode_png e data w h (code_of ct) preset true = Ok f /\ decode_png f = Ok im /\
    forall i, 0 <= i < w * h -> visible (pixel (im_ct im) (im_pixels im) i) = visible (pixel ct data i).
Proof.
  intros C TP F I Sm ND D256 HD. unfold wasm_encode_png, color_type_from_u8. rewrite (proj2 (try_from_code _ ct) eq_refl). cbn [rbind].
  set (o := wasm_png_options w h ct preset true).
  assert (o_width o = w /\ o_height o = h /\ o_ct o = ct /\ o_max_colors o = 256 /\ 1 <= o_level o <= 9 /\ (o_reduce o = true -> o_palette o = true)) as (W & H & T & Q & L & RP).
  { unfold o, wasm_png_options, set_preset, set_lossy, png_from_preset. cbn [o_width o_height o_ct set_ct].
    destruct (Z.eqb_spec preset 0); [cbn; repeat split; auto; lia|]. destruct (preset =? 2); cbn; repeat split; auto; lia. }
  assert (accepted o data) as A by (unfold accepted; rewrite W, H, T; destruct F as (? & ? & _); repeat split; try apply I; lia).
  assert (small o) as S by (apply small_of; rewrite W, H; exact F).
  destruct (should_quantize data o) eqn:SQ.
  - destruct (quantized_exact_l e data o D A) as (f & im & E & DD & P); try (rewrite ?W, ?H, ?T, ?Q; assumption); auto.
    { split; [apply compressors_ok; exact C|exact TP]. }
    rewrite W, H, T in P. exists f, im. split; [exact E|]. split; [exact DD|]. intros i Hi. f_equal. apply P. exact Hi.
  - destruct (accepted_rejects _ _ A) as (Hr & Hw & Hh & Hb).
    destruct (encode_lossless e data o [] Hw Hh Hb Hr SQ (compressors_ok e o C) S) as (depth & ctb & cs & px & oct & E & _ & DD & P & _).
    rewrite W, H, T in *. exists (png_file cs), (mkImage w h px oct). split; [unfold encode; rewrite E; reflexivity|].
    split; [rewrite <- (app_nil_r (png_file cs)); apply DD|]. intros i Hi. apply P; [|exact Hi]. intros (R & Pf & _). rewrite RP in Pf by exact R. discriminate Pf.
Qed.
Lemma wasm_codes_l e je data w h v preset lossy : (forall ct, v <> code_of ct) ->
  wasm_encode_png e data w h v preset lossy = Err EUnsupportedColorType /\ wasm_bytes_per_pixel v = Err EUnsupportedColorType /\
  forall q sub, wasm_encode_jpeg je data w h v q preset sub = Err EUnsupportedColorType.
Proof.
  intros N. unfold wasm_encode_png, wasm_bytes_per_pixel, wasm_encode_jpeg, color_type_from_u8.
  destruct (color_type_try_from v) as [ct|] eqn:E; [apply try_from_code in E; destruct (N ct E)|]. repeat split.
Qed.
Lemma wasm_bpp_l ct : wasm_bytes_per_pixel (code_of ct) = Ok (bytes_per_pixel ct).
Proof. destruct ct; reflexivity. Qed.
Lemma gray_or_rgb ct : ncomps (mkjo 0 0 ct 0 S444 None false false false) = match ct with Gray => 1 | _ => 3 end.
Proof. reflexivity. Qed.
Lemma wasm_jpeg_l data w h ct quality preset sub420 : (ct = Gray \/ ct = Rgb) -> jpeg_fits w h -> 1 <= quality <= 100 -> image_ok ct data (w * h) -> preset <> 2 ->
  exists o f B T Q, wasm_encode_jpeg pixo_env data w h (code_of ct) quality preset sub420 = Ok (file_bytes f) /\
    conforming_jpeg 2047 f B T Q /\ f_w f = w /\ f_h f = h /\ zlen (f_comps f) = bytes_per_pixel ct /\
    jo_w o = w /\ jo_h o = h /\ jo_ct o = ct /\ jo_quality o = quality /\ jo_sub o = (if sub420 then S420 else S444) /\
    forall c bx by_ coefs, In (c, bx, by_) (all_blocks f) -> is_dequantised (B c bx by_) (Q c) coefs -> (square_error data o c bx by_ coefs <= allowed_error (Q c))%R.
Proof.
  intros C (W & H) QQ (N & By & L) P2. set (o := wasm_jpeg_options w h ct quality preset sub420).
  assert (jo_w o = w /\ jo_h o = h /\ jo_ct o = ct /\ jo_quality o = quality /\ jo_sub o = (if sub420 then S420 else S444) /\ jo_restart o = None /\ jo_prog o = false) as (E1 & E2 & E3 & E4 & E5 & E6 & E7).
  { unfold o, wasm_jpeg_options, jo_preset, jo_from_preset. cbn [jo_w jo_h jo_quality jset_quality with_ct jpeg_builder jo_ct].
    destruct (preset =? 0); [cbn; repeat split|]. destruct (Z.eqb_spec preset 2); [contradiction|]. cbn; repeat split. }
  assert (ncomps o = bytes_per_pixel ct) as NC by (unfold ncomps; rewrite E3; destruct C as [-> | ->]; reflexivity).
  destruct (pixo_fidelity data o) as (f & B & T & Q & E & CF & _ & FW & FH & FC & _ & SE).
  { unfold valid_args. rewrite E1, E2, E3, E4, E6, NC. repeat split; try lia; auto. }
  { exact E7. }
  exists o, f, B, T, Q. split. { unfold wasm_encode_jpeg. rewrite (proj2 (try_from_code _ ct) eq_refl). destruct C as [-> | ->]; exact E. }
  split; [exact CF|]. split; [congruence|]. split; [congruence|]. split; [congruence|]. auto 10.
Qed.

(** ** Loading *)
Lemma picture_loads file w h P : picture_file file w h P -> w < 2 ^ 32 -> h < 2 ^ 32 -> h * (4 * w + 1) < 2 ^ 62 ->
  exists im, load_image file = Ok im /\ load_image_from_bytes file = Ok im /\ im_width im = w /\ im_height im = h /\
    image_ok (im_ct im) (im_pixels im) (w * h) /\ 0 < w /\ 0 < h /\
    forall x y, 0 <= x < w -> 0 <= y < h -> pixel (im_ct im) (im_pixels im) (y * w + x) = P x y.
Proof.
  intros [ct w' h' raster f PF By W0 H0|w' h' depth ctb pal trns raw cs more CF T] HW HH HS.
  - assert (zlen raster = w' * h' * bytes_per_pixel ct) as L by apply PF. pose proof (bpp_le ct).
    destruct (pnm_read ct w' h' raster f HW HH) as [E1 E2]; [nia|exact PF|].
    exists (mkImage w' h' raster ct). split; [exact E1|]. split; [exact E2|]. cbn [im_width im_height im_ct im_pixels]. split; [reflexivity|]. split; [reflexivity|].
    split; [split; [nia|split; [exact By|exact L]]|]. split; [exact W0|]. split; [exact H0|]. reflexivity.
  - destruct (decode_conforming_image _ _ _ _ _ _ _ _ more CF T) as (px & E & I & P'). destruct (cf_size _ _ _ _ _ _ _ _ CF) as [W0 H0].
    exists (mkImage w' h' px (result_ct ctb trns)).
    assert (load_image (png_file cs ++ more) = decode_png (png_file cs ++ more) /\ load_image_from_bytes (png_file cs ++ more) = decode_png (png_file cs ++ more)) as [F1 F2].
    { unfold load_image, load_image_from_bytes, detect_format, detect_format_from_bytes, png_file.
      set (X := flat_map _ cs). set (sig := [137; 80; 78; 71; 13; 10; 26; 10]).
      assert (zlen ((sig ++ X) ++ more) <? 8 = false) as -> by (apply Z.ltb_ge; rewrite !zlen_app; pose proof (zlen_nonneg X); pose proof (zlen_nonneg more); change (zlen sig) with 8; lia).
      split; reflexivity. }
    rewrite F1, F2, E. cbn [im_width im_height im_ct im_pixels]. split; [reflexivity|]. split; [reflexivity|]. split; [reflexivity|]. split; [reflexivity|].
    split; [exact I|]. split; [lia|]. split; [lia|]. exact P'.
Qed.

(** ** The program *)
Lemma lower_eqb ext : Forall2 (fun c p => c = p \/ c = p - 32) ext png_letters <-> map lower ext = [112; 110; 103].
Proof.
  unfold png_letters. split.
  - intros H. inversion H as [|a ? l1 ? A F1]; subst. inversion F1 as [|b ? l2 ? B F2]; subst. inversion F2 as [|c ? l3 ? C F3]; subst. inversion F3; subst.
    cbn [map]. destruct A as [-> | ->], B as [-> | ->], C as [-> | ->]; reflexivity.
  - intros H. destruct ext as [|a [|b [|c [|d r]]]]; try discriminate H. cbn [map] in H. injection H as A B C. unfold lower in *.
    apply Forall2_cons; [|apply Forall2_cons; [|apply Forall2_cons; [|apply Forall2_nil]]].
    + destruct ((65 <=? a) && (a <=? 90)); lia.
    + destruct ((65 <=? b) && (b <=? 90)); lia.
    + destruct ((65 <=? c) && (c <=? 90)); lia.
Qed.
Lemma asks_png_iff a : asks_png a <-> output_format_of a = Ok OPng.
Proof.
  unfold asks_png, output_format_of, format_of_ext. destruct (a_output a) as [[so ext]|].
  - split.
    + intros [_ [E|(E & x & X & F)]]; rewrite E; [reflexivity|]. injection X as -> ->. rewrite (proj2 (list_eqb_iff _ _) (proj1 (lower_eqb x) F)). reflexivity.
    + intros E. split; [discriminate|]. destruct (a_format a) as [f|]; [injection E as ->; left; reflexivity|]. right. split; [reflexivity|].
      destruct so; [discriminate E|]. destruct ext as [x|]; [|discriminate E]. exists x. split; [reflexivity|].
      destruct (list_eqb (map lower x) [112; 110; 103]) eqn:Y; [|discriminate E]. apply lower_eqb, list_eqb_iff. exact Y.
  - split.
    + intros [N [E|(_ & x & X & _)]]; [|discriminate X]. destruct (a_stdin a); [destruct (N eq_refl eq_refl)|]. rewrite E. reflexivity.
    + intros E. destruct (a_stdin a); [discriminate E|]. split; [discriminate|]. left. destruct (a_format a) as [[|]|]; try discriminate E. reflexivity.
Qed.
Lemma asks_jpeg_iff a : asks_jpeg a -> output_format_of a = Ok OJpeg.
Proof.
  intros [N J]. assert (output_format_of a <> Ok OPng) as NP by (intros E; apply J, asks_png_iff; exact E).
  unfold output_format_of in *. destruct (a_output a) as [[so ext]|].
  - destruct (a_format a) as [[|]|]; [congruence|reflexivity|]. destruct so; [reflexivity|]. destruct (format_of_ext ext); [congruence|reflexivity].
  - destruct (a_stdin a); [destruct (N eq_refl eq_refl)|]. destruct (a_format a) as [[|]|]; [congruence|reflexivity|reflexivity].
Qed.
Definition out_px (a : args) (im : image) : list Z := if a_grayscale a then to_grayscale (im_pixels im) (im_ct im) else im_pixels im.
Definition out_ct (a : args) (im : image) : color_type := if a_grayscale a then Gray else im_ct im.
Lemma cli_options a w h ct : args_ok a -> let o := cli_png_options a w h ct in
  o_width o = w /\ o_height o = h /\ o_ct o = ct /\ o_qmode o = QOff /\ 1 <= o_level o <= 9 /\ o_reduce o = a_reduce a /\ o_palette o = a_reduce a /\ o_alpha o = a_alpha a.
Proof.
  intros (_ & _ & CL & PR). unfold cli_png_options, set_preset, png_from_preset. cbv zeta.
  destruct (a_compression a) as [l|]; [specialize (CL l eq_refl)|]; destruct (a_preset a) as [p|]; destruct (a_filter a) as [s|];
  try (destruct (PR p eq_refl) as [-> | [-> | ->]]); cbn; repeat split; lia.
Qed.
(** to PNG *)
Lemma cli_png_l e je a file w h P : pixo_compressors e -> args_ok a -> asks_png a -> picture_file file w h P -> png_fits w h ->
  exists out im, run e je a file = Ok out /\ decode_png out = Ok im /\ im_width im = w /\ im_height im = h /\
    forall x y, 0 <= x < w -> 0 <= y < h ->
      if a_grayscale a then exists v, pixel (im_ct im) (im_pixels im) (y * w + x) = (v, v, v, 255) /\ gray_of (P x y) v
      else shown (a_alpha a) (pixel (im_ct im) (im_pixels im) (y * w + x)) (P x y).
Proof.
  intros C AO AP PF F. destruct F as (W & H & S) eqn:EF. clear EF. destruct (picture_loads file w h P PF) as (im & L1 & L2 & IW & IH & I & _ & _ & PX); [lia|lia|lia|].
  apply asks_png_iff in AP. unfold run. replace (if a_stdin a then load_image_from_bytes file else load_image file) with (Ok im) by (destruct (a_stdin a); congruence).
  cbn [rbind]. rewrite AP. cbn [rbind]. rewrite IW, IH.
  assert (convert a OPng im = (out_px a im, out_ct a im)) as -> by (unfold convert, out_px, out_ct; destruct (a_grayscale a); reflexivity).
  assert (image_ok (out_ct a im) (out_px a im) (w * h)) as I2.
  { unfold out_ct, out_px. destruct (a_grayscale a); [apply to_grayscale_ok; exact I|exact I]. }
  destruct (cli_options a w h (out_ct a im) AO) as (O1 & O2 & O3 & O4 & O5 & O6 & O7 & O8).
  set (o := cli_png_options a w h (out_ct a im)) in *.
  destruct (png_options_keep e (out_px a im) o C) as (f & im' & E & D & W' & H' & _ & P').
  { rewrite O1, O2. exact F. } { exact O5. } { rewrite O1, O2, O3. exact I2. } { exact O4. } { congruence. }
  rewrite E. cbn [rbind]. pose proof (bpp_le (out_ct a im)).
  destruct (Z.leb_spec (2 ^ 32) (w * h * bytes_per_pixel (out_ct a im))) as [Big|_]; [exfalso; nia|]. rewrite andb_false_r.
  exists f, im'. split; [reflexivity|]. split; [exact D|]. split; [congruence|]. split; [congruence|]. intros x y Hx Hy.
  assert (0 <= y * w + x < w * h) as Hi by nia. rewrite O1, O2, O3, O8 in P'. specialize (P' _ Hi).
  unfold out_ct, out_px in P'. destruct (a_grayscale a); [|rewrite <- (PX x y Hx Hy); exact P'].
  destruct (to_grayscale_ok _ _ _ I) as [_ G]. destruct (G _ Hi) as (v & V & G1 & G2). exists v. rewrite (PX x y Hx Hy) in G1, G2. split; [|split; assumption].
  destruct P' as [P' _]. rewrite V in P'. unfold visible in P'. destruct (pixel (im_ct im') (im_pixels im') (y * w + x)) as [[[r g] b] al].
  destruct (Z.eqb_spec al 0); [discriminate P'|]. exact P'.
Qed.
(** without the optimisations the very bytes come back *)
Lemma cli_exact_l e je a ct w h raster file : pixo_compressors e -> args_ok a -> asks_png a -> pnm_file white decimal ct w h raster file -> bytes raster -> png_fits w h ->
  a_grayscale a = false -> a_alpha a = false -> a_reduce a = false ->
  exists out, run e je a file = Ok out /\ decode_png out = Ok (mkImage w h raster ct).
Proof.
  intros C AO AP PF By F G A R. destruct F as (W & H & S) eqn:EF. clear EF.
  assert (zlen raster = w * h * bytes_per_pixel ct) as L by apply PF. pose proof (bpp_le ct) as BP.
  destruct (pnm_read ct w h raster file) as [L1 L2]; [lia|lia|nia|exact PF|].
  apply asks_png_iff in AP. unfold run. replace (if a_stdin a then load_image_from_bytes file else load_image file) with (Ok (mkImage w h raster ct)) by (destruct (a_stdin a); congruence).
  cbn [rbind im_width im_height]. rewrite AP. cbn [rbind]. unfold convert. rewrite G. cbn [im_pixels im_ct].
  destruct (cli_options a w h ct AO) as (O1 & O2 & O3 & O4 & O5 & O6 & O7 & O8). set (o := cli_png_options a w h ct) in *.
  destruct (png_options_keep e raster o C) as (f & im' & E & D & W' & H' & X & _).
  { rewrite O1, O2. exact F. } { exact O5. } { rewrite O1, O2, O3. split; [nia|split; [exact By|exact L]]. } { exact O4. } { congruence. }
  rewrite E. cbn [rbind]. destruct (Z.leb_spec (2 ^ 32) (w * h * bytes_per_pixel ct)) as [Big|_]; [exfalso; nia|]. rewrite andb_false_r.
  exists f. split; [reflexivity|]. rewrite D. destruct X as [X1 X2]; [congruence|congruence|congruence|]. destruct im'. cbn in *. congruence.
Qed.
(** to JPEG *)
Definition jout_px (a : args) (im : image) : list Z := if a_grayscale a then to_grayscale (im_pixels im) (im_ct im) else drop_alpha (im_pixels im) (im_ct im).
Definition jout_ct (a : args) (im : image) : color_type := if a_grayscale a then Gray else dropped (im_ct im).
Lemma jconvert a im : convert a OJpeg im = (jout_px a im, jout_ct a im).
Proof. unfold convert, jout_px, jout_ct. destruct (a_grayscale a); [reflexivity|]. destruct (im_ct im); reflexivity. Qed.
Lemma cli_joptions a w h ct : args_ok a -> a_preset a <> Some 2 -> let o := cli_jpeg_options a w h ct in
  jo_w o = w /\ jo_h o = h /\ jo_ct o = ct /\ jo_quality o = a_quality a /\ jo_sub o = a_sub a /\ jo_restart o = (if a_restart a =? 0 then None else Some (a_restart a)) /\ jo_prog o = false.
Proof.
  intros (_ & _ & _ & PR) N2. unfold cli_jpeg_options, jo_from_preset. cbv zeta.
  destruct (a_preset a) as [p|]; [|cbn; repeat split]. destruct (PR p eq_refl) as [-> | [-> | ->]]; [cbn; repeat split|cbn; repeat split|congruence].
Qed.
Lemma cli_jpeg_l e a file w h P : args_ok a -> a_preset a <> Some 2 -> asks_jpeg a -> picture_file file w h P -> jpeg_fits w h ->
  (a_stdin a = true -> 3 * (w * h) < 2 ^ 32) ->
  exists data o f B T Q, run e pixo_env a file = Ok (file_bytes f) /\ conforming_jpeg 2047 f B T Q /\ f_w f = w /\ f_h f = h /\
    zlen (f_comps f) = bytes_per_pixel (jo_ct o) /\
    jo_w o = w /\ jo_h o = h /\ jo_quality o = a_quality a /\ jo_sub o = a_sub a /\ image_ok (jo_ct o) data (w * h) /\
    (forall x y, 0 <= x < w -> 0 <= y < h ->
      if a_grayscale a then exists v, pixel (jo_ct o) data (y * w + x) = (v, v, v, 255) /\ gray_of (P x y) v
      else pixel (jo_ct o) data (y * w + x) = opaque (P x y)) /\
    forall c bx by_ coefs, In (c, bx, by_) (all_blocks f) -> is_dequantised (B c bx by_) (Q c) coefs -> (square_error data o c bx by_ coefs <= allowed_error (Q c))%R.
Proof.
  intros AO N2 AJ PF F SI. destruct F as (W & H) eqn:EF. clear EF. destruct (picture_loads file w h P PF) as (im & L1 & L2 & IW & IH & I & _ & _ & PX); [lia|lia|nia|].
  apply asks_jpeg_iff in AJ. unfold run. replace (if a_stdin a then load_image_from_bytes file else load_image file) with (Ok im) by (destruct (a_stdin a); congruence).
  cbn [rbind]. rewrite AJ. cbn [rbind]. rewrite IW, IH, jconvert.
  assert (image_ok (jout_ct a im) (jout_px a im) (w * h)) as I2.
  { unfold jout_ct, jout_px. destruct (a_grayscale a); [apply to_grayscale_ok; exact I|apply drop_alpha_ok; exact I]. }
  assert (jout_ct a im = Gray \/ jout_ct a im = Rgb) as GC by (unfold jout_ct; destruct (a_grayscale a), (im_ct im); auto).
  destruct (cli_joptions a w h (jout_ct a im) AO N2) as (O1 & O2 & O3 & O4 & O5 & O6 & O7). set (o := cli_jpeg_options a w h (jout_ct a im)) in *.
  assert (ncomps o = bytes_per_pixel (jout_ct a im)) as NC by (unfold ncomps; rewrite O3; destruct GC as [-> | ->]; reflexivity).
  destruct I2 as (I2a & I2b & I2c).
  destruct (pixo_fidelity (jout_px a im) o) as (f & B & T & Q & E & CF & _ & FW & FH & FC & _ & SE).
  { destruct AO as (AQ & AR & _). unfold valid_args. rewrite O1, O2, O3, O4, O6, NC. split; [lia|]. split; [lia|]. split; [lia|]. split; [exact I2b|]. split; [exact I2c|]. split; [exact GC|].
    destruct (Z.eqb_spec (a_restart a) 0); [exact Logic.I|]. lia. }
  { exact O7. }
  rewrite E. cbn [rbind].
  assert (a_stdin a && (2 ^ 32 <=? w * h * bytes_per_pixel (jout_ct a im)) = false) as ->.
  { destruct (a_stdin a); [|reflexivity]. cbn [andb]. apply Z.leb_gt. specialize (SI eq_refl). destruct GC as [-> | ->]; cbn [bytes_per_pixel]; lia. }
  exists (jout_px a im), o, f, B, T, Q. split; [reflexivity|]. split; [exact CF|]. split; [congruence|]. split; [congruence|]. split; [congruence|].
  split; [exact O1|]. split; [exact O2|]. split; [exact O4|]. split; [exact O5|]. rewrite O3. split; [split; [exact I2a|split; [exact I2b|exact I2c]]|]. split; [|exact SE].
  intros x y Hx Hy. assert (0 <= y * w + x < w * h) as Hi by nia. unfold jout_ct, jout_px. destruct (a_grayscale a).
  - destruct (to_grayscale_ok _ _ _ I) as [_ G]. destruct (G _ Hi) as (v & V & G1 & G2). rewrite (PX x y Hx Hy) in G1, G2. exists v. split; [exact V|]. split; assumption.
  - destruct (drop_alpha_ok _ _ _ I) as [_ G]. rewrite (G _ Hi), (PX x y Hx Hy). reflexivity.
Qed.
(** stdin, large *)
Lemma cli_stdin_l e a file w h raster : args_ok a -> a_preset a <> Some 2 -> asks_jpeg a -> a_stdin a = true -> a_grayscale a = false ->
  pnm_file white decimal Rgb w h raster file -> bytes raster -> jpeg_fits w h -> 2 ^ 32 <= 3 * (w * h) ->
  run e pixo_env a file = Panic.
Proof.
  intros AO N2 AJ SI G PF By (W & H) Big. assert (zlen raster = w * h * bytes_per_pixel Rgb) as L by apply PF. cbn [bytes_per_pixel] in L.
  destruct (pnm_read Rgb w h raster file) as [L1 L2]; [lia|lia|nia|exact PF|].
  apply asks_jpeg_iff in AJ. unfold run. rewrite SI, L2. cbn [rbind im_width im_height]. rewrite AJ. cbn [rbind]. unfold convert. rewrite G. cbn [im_ct im_pixels].
  destruct (cli_joptions a w h Rgb AO N2) as (O1 & O2 & O3 & O4 & O5 & O6 & O7). set (o := cli_jpeg_options a w h Rgb) in *.
  destruct (pixo_fidelity raster o) as (f & B & T & Q & E & _).
  { destruct AO as (AQ & AR & _). unfold valid_args, ncomps. rewrite O1, O2, O3, O4, O6. split; [lia|]. split; [lia|]. split; [lia|]. split; [exact By|]. split; [exact L|]. split; [right; reflexivity|].
    destruct (Z.eqb_spec (a_restart a) 0); [exact Logic.I|]. lia. }
  { exact O7. }
  rewrite E. cbn [rbind andb bytes_per_pixel]. destruct (Z.leb_spec (2 ^ 32) (w * h * 3)); [reflexivity|lia].
Qed.
(** ** A file and standard input *)
Lemma starts_firstn p n l : (length p <= n)%nat -> starts_with p (firstn n l) = starts_with p l.
Proof.
  revert n l. induction p as [|a p IH]; intros n l H; [destruct (firstn n l), l; reflexivity|]. destruct n as [|n]; [cbn in H; lia|]. destruct l as [|b l]; [reflexivity|].
  cbn [firstn starts_with]. rewrite IH by (cbn in H; lia). reflexivity.
Qed.
Lemma detect_same data : detect_format data = detect_format_from_bytes data.
Proof.
  unfold detect_format, detect_format_from_bytes. destruct (Z.ltb_spec (zlen data) 8); [reflexivity|].
  destruct (Z.ltb_spec (zlen (firstn 8 data)) 8) as [L|_]; [unfold zlen in *; rewrite firstn_length in L; lia|]. rewrite !starts_firstn by (cbn; lia). reflexivity.
Qed.
Lemma starts_app p l : starts_with p l = true -> exists r, l = p ++ r.
Proof.
  revert l. induction p as [|a p IH]; intros l H; [exists l; reflexivity|]. destruct l as [|b l]; [discriminate H|]. cbn in H. apply andb_true_iff in H as [A B].
  apply Z.eqb_eq in A. subst b. destruct (IH l B) as (r & ->). exists r. reflexivity.
Qed.
Lemma load_same data : load_image data = load_image_from_bytes data.
Proof.
  unfold load_image, load_image_from_bytes at 1. rewrite detect_same. unfold detect_format_from_bytes at 1 2.
  destruct (Z.ltb_spec (zlen data) 8) as [_|L]; [reflexivity|]. destruct (starts_with [137; 80; 78; 71; 13; 10; 26; 10] data); [reflexivity|].
  destruct (starts_with [255; 216; 255] data); [reflexivity|]. destruct (starts_with [80; 54] data) eqn:S6.
  - cbn [rbind]. destruct (starts_app _ _ S6) as (X & ->). pose proof (pnm_outcome_l Rgb X (or_intror eq_refl)) as [E _].
    destruct (load_pnm Rgb X (or_intror eq_refl) L) as [E1 E2]. cbn [magic] in *. congruence.
  - destruct (starts_with [80; 53] data) eqn:S5; [|reflexivity]. cbn [rbind]. destruct (starts_app _ _ S5) as (X & ->).
    pose proof (pnm_outcome_l Gray X (or_introl eq_refl)) as [E _]. destruct (load_pnm Gray X (or_introl eq_refl) L) as [E1 E2]. cbn [magic] in *. congruence.
Qed.
Lemma stdin_same_l e je a data : a_output a <> None ->
  run e je (from_stdin a true) data = run e je (from_stdin a false) data \/
  exists im, load_image data = Ok im /\ 2 ^ 32 <= im_width im * im_height im * 4 /\ run e je (from_stdin a true) data = Panic.
Proof.
  intros N. unfold run. cbn [from_stdin a_stdin]. rewrite <- load_same. destruct (load_image data) as [im|er| |]; cbn [rbind]; try (left; reflexivity).
  assert (forall b, output_format_of (from_stdin a b) = output_format_of (from_stdin a false)) as OF.
  { intros b. unfold output_format_of. cbn [from_stdin a_output a_stdin a_format]. destruct (a_output a) as [[so ext]|]; [reflexivity|congruence]. }
  rewrite (OF true). destruct (output_format_of (from_stdin a false)) as [f|er| |]; cbn [rbind]; try (left; reflexivity).
  change (convert (from_stdin a true) f im) with (convert (from_stdin a false) f im). destruct (convert (from_stdin a false) f im) as [px ct].
  change (cli_png_options (from_stdin a true)) with (cli_png_options (from_stdin a false)). change (cli_jpeg_options (from_stdin a true)) with (cli_jpeg_options (from_stdin a false)).
  destruct (match f with OPng => _ | OJpeg => _ end) as [out|er| |]; cbn [rbind]; try (left; reflexivity). cbn [andb].
  destruct (Z.leb_spec (2 ^ 32) (im_width im * im_height im * bytes_per_pixel ct)) as [Big|_]; [|left; reflexivity].
  right. exists im. split; [reflexivity|]. split; [|reflexivity]. pose proof (bpp_le ct). nia.
Qed.

(** a picture of zeros *)
Definition zeros_file (side : Z) (digits : list Z) : list Z := magic Rgb ++ ([32] ++ digits ++ [32] ++ digits ++ [32; 50; 53; 53]) ++ [10] ++ repeat 0 (Z.to_nat (side * side * 3)) ++ [].
Lemma zeros_pnm side digits : 0 < side -> decimal digits side -> ~ In 35 digits -> pnm_file white decimal Rgb side side (repeat 0 (Z.to_nat (side * side * 3))) (zeros_file side digits).
Proof.
  intros P D N. split; [right; reflexivity|]. split; [unfold zlen; rewrite repeat_length, Z2Nat.id by nia; reflexivity|].
  exists ([32] ++ digits ++ [32] ++ digits ++ [32; 50; 53; 53]), 10, []. split; [|split; [right; right; left; reflexivity|reflexivity]].
  exists [32], digits, [32], digits, [32], [50; 53; 53]. assert (blank white [32]) as B by (split; [discriminate|constructor; [left; reflexivity|constructor]]).
  split; [exact B|]. split; [exact D|]. split; [exact B|]. split; [exact D|]. split; [exact B|]. split; [split; [discriminate|split; [repeat constructor; lia|reflexivity]]|].
  assert (forall l r, ~ In 35 l -> uncommented r r -> uncommented (l ++ r) (l ++ r)) as A.
  { intros l r. induction l as [|x l IH]; intros NI U; [exact U|]. cbn [app]. apply UChar; [intros ->; apply NI; left; reflexivity|]. apply IH; [intros I; apply NI; right; exact I|exact U]. }
  repeat (apply A; [first [exact N|cbn; lia]|]). repeat (apply UChar; [lia|]). apply UEnd.
Qed.
Lemma zeros_bytes n : bytes (repeat 0 n).
Proof. unfold bytes. apply Forall_forall. intros x I. apply repeat_spec in I. subst x. cbv beta; unfold is_byte; lia. Qed.
Definition plain_args : args := mkArgs true (Some (false, None)) None 85 false 0 None S444 None None false false false false.
Lemma stdin_large_l e : exists file w h P a, picture_file file w h P /\ jpeg_fits w h /\ args_ok a /\ asks_jpeg a /\ a_preset a = None /\
  run e pixo_env (from_stdin a true) file = Panic /\ exists out, run e pixo_env (from_stdin a false) file = Ok out.
Proof.
  set (ds := [54; 53; 53; 51; 53]). set (file := zeros_file 65535 ds).
  assert (pnm_file white decimal Rgb 65535 65535 (repeat 0 (Z.to_nat (65535 * 65535 * 3))) file) as PF.
  { apply zeros_pnm; [lia| |cbn; lia]. split; [discriminate|]. split; [repeat constructor; lia|reflexivity]. }
  pose proof (PicturePnm Rgb 65535 65535 _ file PF (zeros_bytes _) ltac:(lia) ltac:(lia)) as PP.
  assert (jpeg_fits 65535 65535) as JF by (unfold jpeg_fits; lia).
  assert (forall b, args_ok (from_stdin plain_args b)) as AO by (intros b; split; [cbn; lia|]; split; [cbn; lia|]; split; discriminate).
  assert (forall b, asks_jpeg (from_stdin plain_args b)) as AJ.
  { intros b. split; [discriminate|]. intros [_ [X|[_ (x & X & _)]]]; discriminate X. }
  eexists file, 65535, 65535, _, plain_args. split; [exact PP|]. split; [exact JF|]. split; [exact (AO true)|]. split; [exact (AJ true)|]. split; [reflexivity|]. split.
  - apply (cli_stdin_l e (from_stdin plain_args true) file 65535 65535 (repeat 0 (Z.to_nat (65535 * 65535 * 3))) (AO true)); [discriminate|apply AJ|reflexivity|reflexivity|exact PF|apply zeros_bytes|exact JF|lia].
  - destruct (cli_jpeg_l e (from_stdin plain_args false) file 65535 65535 (fun x y : Z => pixel Rgb (repeat 0 (Z.to_nat (65535 * 65535 * 3))) (y * 65535 + x)) (AO false)) as (data & o & f & B & T & Q & R & _); [discriminate|apply AJ|exact PP|exact JF|discriminate|].
    exists (file_bytes f). exact R.
Qed.
