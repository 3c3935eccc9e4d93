(** C88: the feature [parallel] and the files that are written. *)
From Verif Require Import Base DeflateTop Lz77Model HuffModel DeflateModel PngFilterModel PngPaletteModel PngQuantModel PngModel PngSpec PngEncSpec PngTop ParallelProofs.

(** With and without the feature the encoder leaves the same buffer and returns the same
    value, for every strategy but the default one, and for that when the image is small, low
    or quantised.  Missing: larger images with the default strategy, of which it is false,
    see [parallel_same_refuted]. *)
Theorem parallel_same_partial : forall e buf data o, 0 <= o_width o -> 0 <= o_height o -> bytes data -> (o_palette o = true -> 4 * (o_width o * o_height o) < 2 ^ 32) ->
  o_filter o <> SAdaptiveFast \/ o_width o * o_height o <= 4096 \/ o_height o <= 32 \/ should_quantize data o = true ->
  encode_into (with_par e true) buf data o = encode_into (with_par e false) buf data o.
Proof. exact encode_same. Qed.
(** 34 rows of 125 pixels, with a strategy that searches in parallel *)
Example parallel_same_case : let o := mkOpts 125 34 Gray 2 SBigrams false false false false false QOff 256 false in
  o_filter o <> SAdaptiveFast /\ is_search (o_filter o) = true /\ 4096 < o_width o * o_height o /\ 32 < o_height o.
Proof. cbv zeta. cbn [o_filter o_width o_height]. split; [discriminate|]. split; [reflexivity|]. split; lia. Qed.
Print Assumptions parallel_same_partial.

Theorem parallel_same_refuted : forall e, comp_ok e stripes_opts -> accepted stripes_opts stripes /\
  exists a b, encode (with_par e true) stripes stripes_opts = Ok a /\ encode (with_par e false) stripes stripes_opts = Ok b /\ a <> b.
Proof. exact (fun e C => conj stripes_ok (default_differs e C)). Qed.
Print Assumptions parallel_same_refuted.
Example parallel_same_refuted_case : comp_ok (mkEnv (fast_of list_heap pool_init) (fun _ _ => Panic) (mkF Z (fun x => x) Z.add Z.sub Z.mul Z.div (fun x => x)) (fun l => l) true) stripes_opts.
Proof. apply (fast_comp_ok_l list_heap pool_init); reflexivity. Qed.
