(** C87: which filter a row of a PNG file gets. *)
From Verif Require Import Base PngFilterModel PngSpec PngFilterProofs FilterSpec FilterChoice.

(** A filter asked for by name is the one that every row gets, sequentially or in parallel. *)
Theorem named_filter_used par data width height sb bpp s t : named s = Some t -> well_sized data sb height bpp ->
  exists o, apply_filters_with_row_bytes par data width height sb bpp s = Ok o /\
    rows_such (fun prev row t' f => t' = t /\ row_filtered t bpp prev row f) sb (repeat 0 (Z.to_nat sb)) data o.
Proof. exact (named_filters par data width height sb bpp s t). Qed.
Example named_filter_case : named SPaeth = Some 4 /\ well_sized twice 4 2 1 /\
  apply_filters_with_row_bytes true twice 4 2 4 1 SPaeth = Ok [4; 1; 255; 0; 0; 4; 0; 0; 0; 0].
Proof.
  split; [reflexivity|]. split; [|vm_compute; reflexivity]. unfold well_sized, twice. split; [lia|]. split; [lia|]. split; [lia|]. split; [|reflexivity].
  repeat constructor; unfold is_byte; lia.
Qed.
Print Assumptions named_filter_used.

(** The strategy that counts pairs makes every row of an image of more than 4096 pixels as
    good as any filter makes it. *)
Theorem bigrams_filter_best par data width height sb bpp : 4096 < width * height -> well_sized data sb height bpp ->
  exists o, apply_filters_with_row_bytes par data width height sb bpp SBigrams = Ok o /\
    rows_such (fun prev row t f => row_filtered t bpp prev row f /\ best_by different_pairs bpp prev row f) sb (repeat 0 (Z.to_nat sb)) data o.
Proof. exact (bigrams_best par data width height sb bpp). Qed.
Print Assumptions bigrams_filter_best.

(** An image of at most 4096 pixels gets the filter Sub from the strategies that search. *)
Theorem small_image_sub par data width height sb bpp s : is_search s = true -> width * height <= 4096 -> well_sized data sb height bpp ->
  exists o, apply_filters_with_row_bytes par data width height sb bpp s = Ok o /\
    rows_such (fun prev row t' f => t' = 1 /\ row_filtered 1 bpp prev row f) sb (repeat 0 (Z.to_nat sb)) data o.
Proof. exact (fun S L W => eq_ind_r (fun x => exists o, x = Ok o /\ _) (named_filters par data width height sb bpp SSub 1 eq_refl W) (small_search par data width height sb bpp s S L)). Qed.
Print Assumptions small_image_sub.

(** Minimal sums: every row whose sum is above the bound that ends the search early, a
    quarter of its length and one, has the least sum of all filters.  Missing: rows below
    that bound, of which it is false, see [minsum_filter_refuted]. *)
Theorem minsum_filter_partial par data width height sb bpp s : (s = SMinSum \/ s = SAdaptive /\ 4096 < width * height) -> well_sized data sb height bpp ->
  exists o, apply_filters_with_row_bytes par data width height sb bpp s = Ok o /\
    rows_such (fun prev row t f => row_filtered t bpp prev row f /\
      (sb / 4 + 1 < sum_abs f -> best_by sum_abs bpp prev row f)) sb (repeat 0 (Z.to_nat sb)) data o.
Proof. exact (minsum_near par data width height sb bpp s). Qed.
Example minsum_filter_case : well_sized [90; 91; 92; 93; 90; 91; 92; 94] 4 2 1 /\
  apply_filters_with_row_bytes false [90; 91; 92; 93; 90; 91; 92; 94] 4 2 4 1 SMinSum = Ok [1; 90; 1; 1; 1; 2; 0; 0; 0; 1] /\
  4 / 4 + 1 < sum_abs [90; 1; 1; 1].
Proof.
  split; [|split; [vm_compute; reflexivity|vm_compute; reflexivity]]. unfold well_sized. split; [lia|]. split; [lia|]. split; [lia|]. split; [|reflexivity].
  repeat constructor; unfold is_byte; lia.
Qed.
Print Assumptions minsum_filter_partial.

Theorem minsum_filter_refuted : exists o, apply_filters_with_row_bytes false twice 4 2 4 1 SMinSum = Ok o /\
  ~ rows_such (fun prev row t f => best_by sum_abs 1 prev row f) 4 [0; 0; 0; 0] twice o.
Proof. exact minsum_not_best. Qed.
Print Assumptions minsum_filter_refuted.
