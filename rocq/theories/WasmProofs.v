(** Proofs about resizing from JavaScript and the presets with a lossless flag. *)
From Coq Require Import Reals Permutation.
From Verif Require Import Base DeflateModel LzOptApi PngFilterModel PngPaletteModel PngModel PngDecModel PngSpec PngEncSpec F32Model ResizeModel ResizeSpec ResizeTop
  CliModel CliSpec CliProofs WasmSpec PropResize.
Open Scope Z_scope.

Lemma algo_codes v a : resize_algorithm_from_u8 v = Ok a <-> v = algo_code a.
Proof.
  unfold resize_algorithm_from_u8. split.
  - destruct (Z.eqb_spec v 0); [intros E; injection E as <-; assumption|]. destruct (Z.eqb_spec v 1); [intros E; injection E as <-; assumption|].
    destruct (Z.eqb_spec v 2); [intros E; injection E as <-; assumption|discriminate].
  - intros ->. destruct a; reflexivity.
Qed.
Lemma wasm_resize_eq sin data sw sh dw dh ct a :
  wasm_resize_image sin data sw sh dw dh (code_of ct) (algo_code a) = resize sin data (mkR sw sh dw dh ct a).
Proof. destruct ct, a; reflexivity. Qed.
Lemma wasm_resize_refused sin data sw sh dw dh v u :
  (forall ct, v <> code_of ct) \/ (forall a, u <> algo_code a) -> wasm_resize_image sin data sw sh dw dh v u = Err EUnsupportedColorType.
Proof.
  unfold wasm_resize_image, color_type_from_u8. intros H.
  destruct (color_type_try_from v) as [ct|] eqn:E; [|reflexivity]. apply try_from_code in E. cbn [rbind].
  destruct H as [H|H]; [destruct (H ct E)|].
  assert (resize_algorithm_from_u8 u = Err EUnsupportedColorType) as ->; [|reflexivity].
  generalize (H Nearest), (H Bilinear), (H Lanczos3). unfold resize_algorithm_from_u8, algo_code. intros N0 N1 N2.
  destruct (Z.eqb_spec u 0); [contradiction|]. destruct (Z.eqb_spec u 1); [contradiction|]. destruct (Z.eqb_spec u 2); [contradiction|]. reflexivity.
Qed.
Lemma wasm_resize_ok sin data sw sh dw dh ct a : resizable (mkR sw sh dw dh ct a) data ->
  (a = Bilinear -> inside sw dw /\ inside sh dh) ->
  exists out, wasm_resize_image sin data sw sh dw dh (code_of ct) (algo_code a) = Ok out /\ resize sin data (mkR sw sh dw dh ct a) = Ok out /\
    zlen out = dw * dh * bytes_per_pixel ct.
Proof.
  intros R I. rewrite wasm_resize_eq. destruct a.
  - destruct (nearest_resize sin data _ R eq_refl) as (out & _ & _ & E & _ & L & _). exists out. auto.
  - destruct (I eq_refl). destruct (bilinear_resize_partial sin data _ R eq_refl) as (out & E & _ & L & _); [assumption..|]. exists out. auto.
  - destruct (lanczos_resize sin) as (line & _ & _ & _ & H). destruct (H data _ R eq_refl) as (out & E & L & _). exists out. auto.
Qed.

(** * presets *)
Lemma preset_lossless_l e data w h ct preset : pixo_compressors e -> png_fits w h -> image_ok ct data (w * h) ->
  exists f im, encode e data (set_ct (png_from_preset_with_lossless w h preset true) ct) = Ok f /\ decode_png f = Ok im /\ im_width im = w /\ im_height im = h /\
    (preset = 0 -> im_pixels im = data /\ im_ct im = ct) /\
    forall i, 0 <= i < w * h -> shown (negb (preset =? 0)) (pixel (im_ct im) (im_pixels im) i) (pixel ct data i).
Proof.
  intros C F I. destruct (wasm_png_l e data w h ct preset C F I) as (f & im & E & R). exists f, im. split; [|exact R].
  rewrite <- E. unfold wasm_encode_png, color_type_from_u8. rewrite (proj2 (try_from_code _ ct) eq_refl). cbn [rbind]. f_equal.
  unfold png_from_preset_with_lossless, wasm_png_options, set_preset, png_from_preset. cbn [o_width o_height o_ct set_ct png_builder].
  destruct (preset =? 0); [reflexivity|]. destruct (preset =? 2); reflexivity.
Qed.
Lemma preset_lossy_l e data w h ct preset D : pixo_compressors e -> (forall l, Permutation (e_top e l) l) -> png_fits w h -> image_ok ct data (w * h) ->
  w * h < 100000 -> NoDup D -> zlen D <= 256 -> (forall i, 0 <= i < w * h -> In (pixel ct data i) D) ->
  exists f im, encode e data (set_ct (png_from_preset_with_lossless w h preset false) ct) = Ok f /\ decode_png f = Ok im /\
    forall i, 0 <= i < w * h -> visible (pixel (im_ct im) (im_pixels im) i) = visible (pixel ct data i).
Proof.
  intros C P F I S N Z H. destruct (wasm_lossy_l e data w h ct preset D C P F I S N Z H) as (f & im & E & R). exists f, im. split; [|exact R].
  rewrite <- E. unfold wasm_encode_png, color_type_from_u8. rewrite (proj2 (try_from_code _ ct) eq_refl). cbn [rbind]. f_equal.
  unfold png_from_preset_with_lossless, wasm_png_options, set_preset, png_from_preset. cbn [o_width o_height o_ct set_ct png_builder].
  destruct (preset =? 0); [reflexivity|]. destruct (preset =? 2); reflexivity.
Qed.
Lemma preset_wasm_l e data w h ct preset lossy :
  encode e data (set_ct (png_from_preset_with_lossless w h preset (negb lossy)) ct) = wasm_encode_png e data w h (code_of ct) preset lossy.
Proof.
  unfold wasm_encode_png, color_type_from_u8. rewrite (proj2 (try_from_code _ ct) eq_refl). cbn [rbind]. f_equal.
  unfold png_from_preset_with_lossless, wasm_png_options, set_preset, png_from_preset. cbn [o_width o_height o_ct set_ct png_builder].
  destruct lossy; destruct (preset =? 0); [reflexivity| |reflexivity|]; destruct (preset =? 2); reflexivity.
Qed.
