(** Property theorems for the optimal-parsing DEFLATE compressor.  They hold for any
    [f32::log2] that maps 1 .. 2^32-1 to finite values between 0 and 32; the other
    f32 operations are IEEE binary32. *)
From Verif Require Import Base CanonSpec DeflateSpec InflateModel InflateProofs HuffModel HuffProofs Lz77Model Lz77Spec Lz77Proofs
  DeflateModel DeflateTop F32Model F32Proofs LzOptModel LzOptProofs LzOptTop LzOptBest PngFilterModel PngPaletteModel PngQuantModel
  PngDecModel PngModel PngSpec PngEncSpec LzOptApi PropDeflate PropPng.

(** C06: a DEFLATE stream for the data, read back by the decoder, whatever the
    number of iterations.  The bound comes from the u32 sum of blended counts. *)
Theorem deflate_optimal_roundtrip : forall H log2 data iterations, log2_ok log2 -> bytes data -> 3 * (zlen data + 1) < 2 ^ 32 ->
  exists o, deflate_optimal H log2 data iterations = Ok o /\ deflate_stream o data /\ inflate o = Ok data.
Proof. exact opt_roundtrip_l. Qed.
Print Assumptions deflate_optimal_roundtrip.
Theorem deflate_optimal_split_roundtrip : forall H E log2 data iterations maxb,
  est_total E -> log2_ok log2 -> bytes data -> 3 * (zlen data + 1) < 2 ^ 32 ->
  exists o, deflate_optimal_split H E log2 data iterations maxb = Ok o /\ deflate_stream o data /\ inflate o = Ok data.
Proof. exact opt_split_roundtrip_l. Qed.
Print Assumptions deflate_optimal_split_roundtrip.
Theorem deflate_optimal_zlib_roundtrip : forall H E log2 data iterations,
  est_total E -> log2_ok log2 -> bytes data -> 3 * (zlen data + 1) < 2 ^ 32 ->
  exists o, deflate_optimal_zlib H E log2 data iterations = Ok o /\ zlib_stream o data /\
    inflate_zlib o None = Ok data /\ inflate_zlib o (Some (zlen data)) = Ok data.
Proof. exact opt_zlib_roundtrip_l. Qed.
Print Assumptions deflate_optimal_zlib_roundtrip.
Theorem deflate_optimal_split_zlib_roundtrip : forall H E log2 data iterations maxb,
  est_total E -> log2_ok log2 -> bytes data -> 3 * (zlen data + 1) < 2 ^ 32 ->
  exists o, deflate_optimal_split_zlib H E log2 data iterations maxb = Ok o /\ zlib_stream o data /\
    inflate_zlib o None = Ok data /\ inflate_zlib o (Some (zlen data)) = Ok data.
Proof. exact opt_split_zlib_roundtrip_l. Qed.
Print Assumptions deflate_optimal_split_zlib_roundtrip.
Definition abc : list Z := [97;98;99;97;98;99;97;98;99;97;98;99;97;98;99;97;98].
Example deflate_optimal_nonvacuous : log2_ok int_log2 /\ est_total z_est /\ bytes abc /\
  (let* o := deflate_optimal_zlib list_heap z_est int_log2 abc 2 in let* r := inflate_zlib o (Some 17) in Ok (firstn 2 o, r)) = Ok ([120; 218], abc).
Proof.
  split; [exact int_log2_ok|]. split; [intros a b; discriminate|]. split; [apply bytes_of_check; vm_compute; reflexivity|].
  vm_compute. reflexivity.
Qed.

(** C51: a pass that reuses cached matches returns the tokens of a pass that searches
    again, whatever is left in the search tables; and they expand to the data. *)
Theorem match_cache_transparent : forall cfg data cm st1 st2 c, bytes data -> cost_ok cm -> held_cache cfg data c ->
  exists ts st1' st2' c', compress_optimal cfg data cm st1 = Ok (ts, st1') /\ compress_optimal_cached cfg data cm st2 c = Ok (ts, st2', c') /\
    expand [] ts = Some data /\ zlen ts <= zlen data.
Proof. exact cache_transparent_l. Qed.
Print Assumptions match_cache_transparent.
Definition pass1 := compress_optimal_cached (lz_config 9) abc cost_fixed empty_tables (cache_new (length abc)).
Example match_cache_nonvacuous : cost_ok cost_fixed /\ exists ts st c, pass1 = Ok (ts, st, c) /\
  held_cache (lz_config 9) abc c /\ is_populated c = true /\ ts = [TLit 97; TLit 98; TLit 99; TMatch 14 3].
Proof.
  split; [exact cost_fixed_ok|].
  assert (match pass1 with Ok (ts, _, c) => (is_populated c, ts) | _ => (false, []) end = (true, [TLit 97; TLit 98; TLit 99; TMatch 14 3])) as K
    by (vm_compute; reflexivity).
  destruct pass1 as [[[ts st] c]|e| |] eqn:E; [|discriminate K|discriminate K|discriminate K]. apply pair_equal_spec in K as [K1 K2]. exists ts, st, c. split; auto. split; auto.
  exact (held_pass _ _ _ _ _ _ _ _ (held_new _ _) cost_fixed_ok E).
Qed.

(** C52: no sequence of literals and cached matches that spells the data has a
    smaller f32 cost, added up from left to right, than the tokens returned. *)
Theorem optimal_parse_cheapest : forall cfg data cm st c, bytes data -> cost_ok cm -> held_cache cfg data c ->
  exists ts st' c' cost, compress_optimal_cached cfg data cm st c = Ok (ts, st', c') /\ total_cost cm ts f_zero = Ok cost /\
    forall ts', parse_of data c' 0 ts' -> exists cost', total_cost cm ts' f_zero = Ok cost' /\ f_lt cost' cost = false.
Proof. exact cheapest_l. Qed.
Print Assumptions optimal_parse_cheapest.
Example optimal_parse_nonvacuous : exists ts st c, pass1 = Ok (ts, st, c) /\
  parse_of abc c 0 [TLit 97; TLit 98; TLit 99; TMatch 3 3; TMatch 11 3] /\ parse_of abc c 0 (map TLit abc).
Proof.
  assert (match pass1 with Ok (_, _, c) => parse_check abc c 0 [TLit 97; TLit 98; TLit 99; TMatch 3 3; TMatch 11 3] &&
    parse_check abc c 0 (map TLit abc) | _ => false end = true) as K by (vm_compute; reflexivity).
  destruct pass1 as [[[ts st] c]|e| |] eqn:E; [|discriminate K|discriminate K|discriminate K]. apply andb_true_iff in K as [K1 K2].
  exists ts, st, c. split; auto. split; apply parse_check_ok; auto.
Qed.

(** C53: the iterations never make the result larger than the dynamic block of
    the tokens they start from. *)
Theorem deflate_optimal_never_larger : forall H log2 data iterations, log2_ok log2 -> bytes data -> 3 * (zlen data + 1) < 2 ^ 32 -> data <> [] ->
  exists ts st o r, compress_into (lz_config 9) empty_tables [] data = Ok (ts, st) /\ encode_dynamic_huffman H ts = Ok o /\
    deflate_optimal H log2 data iterations = Ok r /\ zlen r <= zlen o.
Proof. exact opt_le_l. Qed.
Print Assumptions deflate_optimal_never_larger.

(** The optimal compressor meets the condition [comp_ok] of the PNG theorems. *)
Theorem png_compressor_optimal : forall H E log2 e o, est_total E -> log2_ok log2 -> o_optimal o = true ->
  e_opt e = deflate_optimal_zlib H E log2 -> comp_ok e o.
Proof. exact opt_comp_ok_l. Qed.
Print Assumptions png_compressor_optimal.
Example png_optimal_nonvacuous :
  let e := mkEnv (fast_of list_heap pool_init) (deflate_optimal_zlib list_heap z_est int_log2) ex_fops (fun l => l) false in
  let o := mkOpts 3 2 Rgba 6 SPaeth false false false false true QOff 256 false in
  accepted o ex_rgba /\ comp_ok e o /\ small o.
Proof.
  cbv zeta. split; [|split].
  - split; [cbn; lia|]. split; [cbn; lia|]. split; [cbn; lia|]. split; [cbn; lia|]. split; [apply bytes_of_check; vm_compute; reflexivity|reflexivity].
  - apply (png_compressor_optimal list_heap z_est int_log2); [intros a b; discriminate|exact int_log2_ok|reflexivity|reflexivity].
  - split; [reflexivity|discriminate].
Qed.
