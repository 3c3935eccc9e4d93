(** Property theorems for lossy PNG files: reduced palettes. *)
From Coq Require Import Permutation.
From Verif Require Import Base Lz77Model HuffModel DeflateModel DeflateTop PngFilterModel PngPaletteModel PngQuantModel PngDecModel PngModel PngSpec PngEncSpec PropPng QuantSpec QuantMore.

(** C93: no channel of a reduced picture leaves the range it has in the
    original; an opaque picture stays opaque, a gray one gray. *)
Theorem quantized_range : forall e data o c lo hi, accepted o data -> env_ok e o -> small o -> 0 <= o_max_colors o -> should_quantize data o = true ->
  (forall i, 0 <= i < o_width o * o_height o -> lo <= channel_of c (pixel (o_ct o) data i) <= hi) ->
  exists f im, encode e data o = Ok f /\ decode_png f = Ok im /\
    forall i, 0 <= i < o_width o * o_height o -> lo <= channel_of c (pixel (im_ct im) (im_pixels im) i) <= hi.
Proof. exact range_l. Qed.
Print Assumptions quantized_range.
Theorem quantized_gray : forall e data o, accepted o data -> env_ok e o -> small o -> 0 <= o_max_colors o -> should_quantize data o = true ->
  (forall i, 0 <= i < o_width o * o_height o -> is_gray (pixel (o_ct o) data i)) ->
  exists f im, encode e data o = Ok f /\ decode_png f = Ok im /\
    forall i, 0 <= i < o_width o * o_height o -> is_gray (pixel (im_ct im) (im_pixels im) i).
Proof. exact gray_l. Qed.
Print Assumptions quantized_gray.
(** an image and options that meet the hypotheses, with the real compressor *)
Example quantized_nonvacuous : accepted three_opts three /\ env_ok ex_env three_opts /\ small three_opts /\ should_quantize three three_opts = true /\
  (forall i, 0 <= i < 3 -> 100 <= channel_of Green (pixel Rgb three i) <= 104 /\ is_gray (pixel Rgb three i)).
Proof.
  destruct three_ok as (A & B). split; [exact A|]. split; [split; [|intros; apply Permutation_refl]|].
  { apply (png_compressor list_heap pool_init); reflexivity. }
  split; [exact B|]. split; [reflexivity|]. intros i Hi. assert (i = 0 \/ i = 1 \/ i = 2) as [-> | [-> | ->]] by lia; vm_compute; intuition discriminate.
Qed.

(** C94: a picture with no more colours than asked for is kept in automatic
    mode, whatever its size; forced, it is kept below 100000 pixels
    ([png_quantized_exact]) but not above. *)
Theorem few_colours_kept_partial : forall e data o D, accepted o data -> comp_ok e o -> small o -> o_qmode o = QAuto -> 0 <= o_max_colors o ->
  colours_are (o_ct o) data (o_width o * o_height o) D -> zlen D <= Z.min (o_max_colors o) 256 ->
  ~ loses (o_reduce o) (o_palette o) (o_ct o) data (o_width o * o_height o) ->
  exists f im, encode e data o = Ok f /\ decode_png f = Ok im /\ im_width im = o_width o /\ im_height im = o_height o /\
    forall i, 0 <= i < o_width o * o_height o -> shown (o_alpha o) (pixel (im_ct im) (im_pixels im) i) (pixel (o_ct o) data i).
Proof. exact (fun e data o D a b c d m f g h => auto_kept_l e data o D a b c d m f (or_introl g) h). Qed.
Print Assumptions few_colours_kept_partial.
(** every colour that no sampled pixel has is lost *)
Theorem unsampled_colour_lost : forall e data o D i, accepted o data -> env_ok e o -> small o -> should_quantize data o = true ->
  colours_are (o_ct o) data (o_width o * o_height o) D -> zlen D <= o_max_colors o -> zlen D <= 256 ->
  100000 <= o_width o * o_height o -> 0 <= i < o_width o * o_height o ->
  (forall k, 0 <= k * (o_width o * o_height o / 50000) < o_width o * o_height o -> pixel (o_ct o) data (k * (o_width o * o_height o / 50000)) <> pixel (o_ct o) data i) ->
  exists f im, encode e data o = Ok f /\ decode_png f = Ok im /\ pixel (im_ct im) (im_pixels im) i <> pixel (o_ct o) data i.
Proof. exact lost_l. Qed.
Print Assumptions unsampled_colour_lost.
(** and every colour that a sampled pixel has is kept *)
Theorem sampled_colour_kept : forall e data o D i k, accepted o data -> env_ok e o -> small o -> should_quantize data o = true ->
  colours_are (o_ct o) data (o_width o * o_height o) D -> zlen D <= o_max_colors o -> zlen D <= 256 ->
  0 <= i < o_width o * o_height o ->
  let stride := Z.max (o_width o * o_height o / 50000) 1 in
  0 <= k * stride < o_width o * o_height o -> pixel (o_ct o) data (k * stride) = pixel (o_ct o) data i ->
  exists f im, encode e data o = Ok f /\ decode_png f = Ok im /\ pixel (im_ct im) (im_pixels im) i = pixel (o_ct o) data i.
Proof. exact sampled_l. Qed.
Print Assumptions sampled_colour_kept.
Theorem few_colours_kept_refuted : exists data o D i, accepted o data /\ small o /\ o_qmode o = QForce /\
  colours_are (o_ct o) data (o_width o * o_height o) D /\ zlen D = 2 /\ o_max_colors o = 256 /\ 0 <= i < o_width o * o_height o /\
  forall e, env_ok e o -> exists f im, encode e data o = Ok f /\ decode_png f = Ok im /\ pixel (im_ct im) (im_pixels im) i <> pixel (o_ct o) data i.
Proof.
  exact (ex_intro _ dotted (ex_intro _ dotted_opts (ex_intro _ two_colours (ex_intro _ 1
    (conj (proj1 dotted_ok) (conj (proj2 dotted_ok) (conj eq_refl (conj dotted_colours (conj eq_refl (conj eq_refl
    (conj (conj Z.le_0_1 eq_refl) dotted_l))))))))))).
Qed.
Print Assumptions few_colours_kept_refuted.
Example few_colours_nonvacuous : env_ok ex_env dotted_opts /\ ~ loses false false Rgb dotted 100000.
Proof.
  split; [split; [apply (png_compressor list_heap pool_init); reflexivity|intros; apply Permutation_refl]|]. intros (H & _). discriminate.
Qed.

(** C95: below 40000 pixels, automatic mode keeps a picture with at most
    [max_colors] colours or more than 32 times as many, and reduces the others. *)
Theorem auto_keeps : forall e data o D, accepted o data -> comp_ok e o -> small o -> o_qmode o = QAuto -> 0 <= o_max_colors o ->
  colours_are (o_ct o) data (o_width o * o_height o) D ->
  zlen D <= Z.min (o_max_colors o) 256 \/ (o_width o * o_height o < 40000 /\ 32 * Z.min (o_max_colors o) 256 < zlen D) ->
  ~ loses (o_reduce o) (o_palette o) (o_ct o) data (o_width o * o_height o) ->
  exists f im, encode e data o = Ok f /\ decode_png f = Ok im /\ im_width im = o_width o /\ im_height im = o_height o /\
    forall i, 0 <= i < o_width o * o_height o -> shown (o_alpha o) (pixel (im_ct im) (im_pixels im) i) (pixel (o_ct o) data i).
Proof. exact auto_kept_l. Qed.
Print Assumptions auto_keeps.
Theorem auto_reduces : forall e data o D, accepted o data -> env_ok e o -> small o -> o_qmode o = QAuto -> o_ct o = Rgb \/ o_ct o = Rgba -> 0 <= o_max_colors o ->
  colours_are (o_ct o) data (o_width o * o_height o) D -> o_width o * o_height o < 40000 ->
  Z.min (o_max_colors o) 256 < zlen D <= 32 * Z.min (o_max_colors o) 256 ->
  exists f im pal, encode e data o = Ok f /\ decode_png f = Ok im /\ im_width im = o_width o /\ im_height im = o_height o /\
    1 <= zlen pal <= Z.min (o_max_colors o) 256 /\
    forall i, 0 <= i < o_width o * o_height o -> In (pixel (im_ct im) (im_pixels im) i) pal.
Proof. exact auto_reduced_l. Qed.
Print Assumptions auto_reduces.
Example auto_nonvacuous : colours_are Rgb three 3 [(100,100,100,255); (103,103,103,255); (104,104,104,255)] /\
  should_quantize three (mkOpts 3 1 Rgb 6 SNone false false false false false QAuto 2 false) = true /\
  should_quantize three (mkOpts 3 1 Rgb 6 SNone false false false false false QAuto 3 false) = false.
Proof.
  split; [|split; vm_compute; reflexivity]. split; [repeat constructor; cbn; intuition congruence|]. intros c. split.
  - intros [<-|[<-|[<-|[]]]]; [exists 0|exists 1|exists 2]; (split; [lia|reflexivity]).
  - intros (i & Hi & <-). assert (i = 0 \/ i = 1 \/ i = 2) as [-> | [-> | ->]] by lia; vm_compute; intuition.
Qed.

(** C96: without dithering, a pixel that is not opaque gets the nearest of the
    colours shown.  An opaque pixel gets one not much farther than any: within
    4 m + 9 in each channel if some colour shown is within m. *)
Theorem nearest_shown_partial : forall e data o, accepted o data -> env_ok e o -> small o -> 0 <= o_max_colors o -> should_quantize data o = true -> o_dither o = false ->
  exists f im, encode e data o = Ok f /\ decode_png f = Ok im /\
    forall i j, 0 <= i < o_width o * o_height o -> 0 <= j < o_width o * o_height o ->
    let p := pixel (o_ct o) data i in let q := pixel (im_ct im) (im_pixels im) i in let t := pixel (im_ct im) (im_pixels im) j in
    (alpha_of p <> 255 -> dist p q <= dist p t) /\ (forall m, near m p t -> near (4 * m + 9) p q).
Proof. exact chosen_l. Qed.
Print Assumptions nearest_shown_partial.
(** an opaque pixel need not even get its own colour where that is in use *)
Theorem nearest_shown_refuted : exists data o, accepted o data /\ small o /\ should_quantize data o = true /\ o_dither o = false /\
  forall e, env_ok e o -> exists f im, encode e data o = Ok f /\ decode_png f = Ok im /\
    pixel (o_ct o) data 1 = pixel (im_ct im) (im_pixels im) 2 /\ pixel (im_ct im) (im_pixels im) 1 <> pixel (o_ct o) data 1.
Proof. exact (ex_intro _ three (ex_intro _ three_opts (conj (proj1 three_ok) (conj (proj2 three_ok) (conj eq_refl (conj eq_refl three_l)))))). Qed.
Print Assumptions nearest_shown_refuted.

(** C97: without dithering, what a pixel becomes depends on its colour and on
    how often each colour occurs, not on where the pixels are. *)
Theorem quantized_same_colour : forall e data o, accepted o data -> env_ok e o -> small o -> 0 <= o_max_colors o -> should_quantize data o = true -> o_dither o = false ->
  exists f im, encode e data o = Ok f /\ decode_png f = Ok im /\
    forall i j, 0 <= i < o_width o * o_height o -> 0 <= j < o_width o * o_height o ->
    pixel (o_ct o) data i = pixel (o_ct o) data j -> pixel (im_ct im) (im_pixels im) i = pixel (im_ct im) (im_pixels im) j.
Proof. exact same_l. Qed.
Print Assumptions quantized_same_colour.
Theorem quantized_order_partial : forall e data o data' o', accepted o data -> accepted o' data' -> env_ok e o -> env_ok e o' -> small o -> small o' ->
  0 <= o_max_colors o -> o_max_colors o' = o_max_colors o -> should_quantize data o = true -> should_quantize data' o' = true ->
  o_dither o = false -> o_dither o' = false -> o_width o * o_height o < 100000 ->
  Permutation (all_pixels (o_ct o) data (o_width o * o_height o)) (all_pixels (o_ct o') data' (o_width o' * o_height o')) ->
  exists f im f' im', encode e data o = Ok f /\ decode_png f = Ok im /\ encode e data' o' = Ok f' /\ decode_png f' = Ok im' /\
    forall i j, 0 <= i < o_width o * o_height o -> 0 <= j < o_width o' * o_height o' ->
    pixel (o_ct o) data i = pixel (o_ct o') data' j ->
    pixel (im_ct im) (im_pixels im) i = pixel (im_ct im') (im_pixels im') j.
Proof. exact order_l. Qed.
Print Assumptions quantized_order_partial.
(** from 100000 pixels on, places matter: two pixels swapped *)
Theorem quantized_order_refuted : exists data o data' i j, accepted o data /\ accepted o data' /\ small o /\ should_quantize data o = true /\
  should_quantize data' o = true /\ o_dither o = false /\
  Permutation (all_pixels (o_ct o) data (o_width o * o_height o)) (all_pixels (o_ct o) data' (o_width o * o_height o)) /\
  pixel (o_ct o) data i = pixel (o_ct o) data' j /\
  forall e, env_ok e o -> exists f im f' im', encode e data o = Ok f /\ decode_png f = Ok im /\ encode e data' o = Ok f' /\ decode_png f' = Ok im' /\
    pixel (im_ct im) (im_pixels im) i <> pixel (im_ct im') (im_pixels im') j.
Proof.
  exact (ex_intro _ dotted (ex_intro _ dotted_opts (ex_intro _ dotted0 (ex_intro _ 1 (ex_intro _ 0
    (conj (proj1 dotted_ok) (conj dotted0_ok (conj (proj2 dotted_ok) (conj eq_refl (conj eq_refl (conj eq_refl (conj dotted_swap
    (conj (eq_trans (dotted_pixel 1 Z.le_0_1) (eq_sym (dotted0_pixel 0 (Z.le_refl 0)))) swapped_l))))))))))))).
Qed.
Print Assumptions quantized_order_refuted.
(** the rows of one picture stacked and laid side by side, RGB and RGBA *)
Example order_nonvacuous : Permutation (all_pixels Rgb three 3) (all_pixels Rgba [104;104;104;255; 100;100;100;255; 103;103;103;255] 3).
Proof.
  vm_compute. eapply perm_trans; [apply perm_skip; apply perm_swap|]. apply perm_swap.
Qed.
