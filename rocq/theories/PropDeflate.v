(** Property theorems for the DEFLATE and zlib compressors. *)
From Verif Require Import Base CanonSpec DeflateSpec InflateModel InflateProofs HuffModel HuffProofs Lz77Model Lz77Spec Lz77Proofs
  DeflateModel DeflateSyms DeflateProofs DeflateRle DeflateBlock DeflateTop.

(** an estimator and an input used in the examples *)
Definition z_est : estimator :=
  mk_est Z 0 (fun a b _ => zlen (filter (fun x => 0 <? x) a)) Z.add Z.ltb (fun x => x - 10) (fun a b => Some (a ?= b)).
Definition text : list Z := [1;2;3;4;1;2;3;4;1;2;3;4;5;6;6;6;6;6;6;6;6;6;6;6;7;1;2;3;4;5;6;9].

(** C01: whatever the pool of compressors holds, deflate succeeds, its output
    is a DEFLATE stream (RFC 1951) for the data, and inflating gives the data.
    The bound comes from the u32 symbol counters. *)
Theorem deflate_roundtrip : forall H E p data level, est_total E -> length p = 10%nat -> bytes data -> zlen data < 2 ^ 32 - 1 ->
  exists o p', deflate H E p data level = Ok (o, p') /\ length p' = 10%nat /\ deflate_stream o data /\ inflate o = Ok data.
Proof. exact deflate_roundtrip_l. Qed.
Print Assumptions deflate_roundtrip.
Example deflate_nonvacuous : est_total z_est /\ length pool_init = 10%nat /\ bytes text /\
  (let* (o, _) := deflate list_heap z_est pool_init text 6 in inflate o) = Ok text /\
  (let* (o, _) := d_compress list_heap z_est (deflater_new 6) text in inflate o) = Ok text.
Proof.
  split; [intros a b; discriminate|]. split; [reflexivity|].
  split; [apply bytes_of_check; vm_compute; reflexivity|]. split; vm_compute; reflexivity.
Qed.

(** C01 for the packed-token entry point *)
Theorem deflate_packed_roundtrip : forall H p data level, length p = 10%nat -> bytes data -> zlen data < 2 ^ 32 - 1 ->
  exists o p', deflate_packed H p data level = Ok (o, p') /\ length p' = 10%nat /\ deflate_stream o data /\ inflate o = Ok data.
Proof. exact deflate_packed_roundtrip_l. Qed.
Print Assumptions deflate_packed_roundtrip.

(** C02: the zlib entry points *)
Theorem deflate_zlib_roundtrip : forall H E p data level, est_total E -> length p = 10%nat -> bytes data -> zlen data < 2 ^ 32 - 1 ->
  exists o p', deflate_zlib H E p data level = Ok (o, p') /\ length p' = 10%nat /\ zlib_stream o data /\
    inflate_zlib o None = Ok data /\ inflate_zlib o (Some (zlen data)) = Ok data.
Proof. exact deflate_zlib_roundtrip_l. Qed.
Print Assumptions deflate_zlib_roundtrip.
Theorem deflate_zlib_packed_roundtrip : forall H p data level, length p = 10%nat -> bytes data -> zlen data < 2 ^ 32 - 1 ->
  exists o p', deflate_zlib_packed H p data level = Ok (o, p') /\ length p' = 10%nat /\ zlib_stream o data /\
    inflate_zlib o None = Ok data /\ inflate_zlib o (Some (zlen data)) = Ok data.
Proof. exact deflate_zlib_packed_roundtrip_l. Qed.
Print Assumptions deflate_zlib_packed_roundtrip.
Example zlib_nonvacuous :
  (let* (o, _) := deflate_zlib_packed list_heap pool_init text 9 in let* r := inflate_zlib o (Some 32) in
   Ok (firstn 2 o, r)) = Ok ([120; 218], text).
Proof. vm_compute. reflexivity. Qed.

(** C03: the packed block writers emit exactly the bytes of the enum ones. *)
Theorem packed_writers_agree : forall H ps ts, map_res unpack_token ps = Ok ts ->
  encode_dynamic_huffman_packed H ps = encode_dynamic_huffman H ts /\
  encode_fixed_huffman_packed ps = encode_fixed_huffman ts /\
  encode_best_huffman_packed H ps = encode_best_huffman H ts.
Proof. exact packed_writers_l. Qed.
Print Assumptions packed_writers_agree.
Example packed_writers_nonvacuous : exists ps, map_res pack_token [TLit 7; TMatch 10 1; TLit 9] = Ok ps /\
  map_res unpack_token ps = Ok [TLit 7; TMatch 10 1; TLit 9].
Proof. eexists; split; reflexivity. Qed.

(** C04: stored blocks *)
Theorem deflate_stored_roundtrip : forall data, bytes data -> data <> [] ->
  deflate_stream (deflate_stored data) data /\ inflate (deflate_stored data) = Ok data.
Proof. exact deflate_stored_roundtrip_l. Qed.
Print Assumptions deflate_stored_roundtrip.
Theorem deflate_stored_length : forall data,
  zlen (deflate_stored data) = zlen data + 5 * ((zlen data + 65534) / 65535).
Proof. exact deflate_stored_size. Qed.
Print Assumptions deflate_stored_length.
Example stored_nonvacuous : (let o := deflate_stored (repeat 7 300) in (zlen o, inflate o)) = (305, Ok (repeat 7 300)).
Proof. vm_compute. reflexivity. Qed.
(** on the empty input the stored encoder returns no block at all *)
Theorem deflate_stored_empty_refuted : exists data, bytes data /\ inflate (deflate_stored data) = Err EInvalidDecode.
Proof. exact deflate_stored_empty_l. Qed.
Print Assumptions deflate_stored_empty_refuted.

(** C05: a compressor in any state whatever (any tables, any left-over tokens)
    gives a valid stream for the new input, and exactly the bytes a fresh
    compressor of the same level gives. *)
Theorem deflater_reuse : forall H E data d, est_total E -> bytes data -> zlen data < 2 ^ 32 - 1 ->
  1 <= d_level d <= 9 ->
  let fresh := deflater_new (d_level d) in
  (exists o d' f', d_compress H E d data = Ok (o, d') /\ d_compress H E fresh data = Ok (o, f') /\ d_level d' = d_level d /\ inflate o = Ok data) /\
  (exists o d' f', d_compress_zlib H E d data = Ok (o, d') /\ d_compress_zlib H E fresh data = Ok (o, f') /\ d_level d' = d_level d /\ inflate_zlib o None = Ok data) /\
  (exists o d' f', d_compress_packed H d data = Ok (o, d') /\ d_compress_packed H fresh data = Ok (o, f') /\ d_level d' = d_level d /\ inflate o = Ok data) /\
  (exists o d' f', d_compress_packed_zlib H d data = Ok (o, d') /\ d_compress_packed_zlib H fresh data = Ok (o, f') /\ d_level d' = d_level d /\ inflate_zlib o None = Ok data).
Proof. exact deflater_reuse_l. Qed.
Print Assumptions deflater_reuse.
(** C05: the pooled entry points return the same bytes whatever the pool went through *)
Theorem pool_history_irrelevant : forall H E p1 p2 data level, length p1 = 10%nat -> length p2 = 10%nat ->
  same_out (deflate H E p1 data level) (deflate H E p2 data level) /\
  same_out (deflate_packed H p1 data level) (deflate_packed H p2 data level) /\
  same_out (deflate_zlib H E p1 data level) (deflate_zlib H E p2 data level) /\
  same_out (deflate_zlib_packed H p1 data level) (deflate_zlib_packed H p2 data level).
Proof. exact pool_indep_l. Qed.
Print Assumptions pool_history_irrelevant.
Example reuse_nonvacuous :
  (let* (_, d) := d_compress list_heap z_est (deflater_new 6) text in
   let* (a, _) := d_compress list_heap z_est d (tl text) in
   let* (b, _) := d_compress list_heap z_est (deflater_new 6) (tl text) in
   Ok (list_eqb a b)) = Ok true.
Proof. vm_compute. reflexivity. Qed.

(** C07: any list of split points, in order and within the token list, gives
    a stream for the same data. *)
Theorem block_splitting_transparent : forall H ts splits out, Forall legal_token ts -> zlen ts + 1 < 2 ^ 32 ->
  bounds_ok 0 splits (zlen ts) -> expand [] ts = Some out ->
  exists w, write_blocks H BitsModel.b64_new ts (0 :: splits ++ [zlen ts]) = Ok w /\
    deflate_stream (BitsModel.b64_finish w) out /\ inflate (BitsModel.b64_finish w) = Ok out.
Proof. exact split_transparent_l. Qed.
Print Assumptions block_splitting_transparent.
Definition toks : list token := [TLit 65; TLit 66; TMatch 5 2; TLit 67; TMatch 258 1; TLit 68].
Example split_nonvacuous : bounds_ok 0 [1; 1; 4] (zlen toks) /\
  (let* w := write_blocks list_heap BitsModel.b64_new toks [0; 1; 1; 4; 6] in inflate (BitsModel.b64_finish w))
  = Ok ([65;66;65;66;65;66;65;67] ++ repeat 67 258 ++ [68]).
Proof. split; [vm_compute; intuition discriminate|vm_compute; reflexivity]. Qed.
(** C07: the splits the encoder itself chooses *)
Theorem encoder_splitting_transparent : forall H E ts out maxb, est_total E -> Forall legal_token ts -> zlen ts + 1 < 2 ^ 32 ->
  expand [] ts = Some out ->
  exists o, encode_with_block_splitting H E ts maxb = Ok o /\ deflate_stream o out /\ inflate o = Ok out.
Proof. exact encoder_split_l. Qed.
Print Assumptions encoder_splitting_transparent.

(** C11: the code-length runs, read by the RFC's rules, are the code lengths;
    symbols and extra bits are legal. *)
Theorem code_length_rle_roundtrip : forall ll dl, Forall (fun l => 0 <= l <= 15) (ll ++ dl) -> zlen (ll ++ dl) < 2 ^ 32 ->
  exists items cf, rle_code_lengths ll dl = Ok (items, cf) /\
    cl_run [] (map instr_of items) = Some (ll ++ dl) /\ Forall item_wf items.
Proof. exact rle_roundtrip_l. Qed.
Print Assumptions code_length_rle_roundtrip.
Example rle_nonvacuous : (let* (i, _) := rle_code_lengths (repeat 0 150 ++ [8;8;8;8;8;8;8;8;8;3]) [0;0;0;5] in Ok i)
  = Ok [(18,127,7);(18,1,7);(8,0,0);(16,3,2);(8,0,0);(8,0,0);(3,0,0);(17,0,3);(5,0,0)].
Proof. vm_compute. reflexivity. Qed.

(** C12: symbol, extra-bit count and extra value are the RFC's.  [sym_ok f off
    tab v]: some row (base, bits) of the RFC table number k has v = base + x
    with x fitting the bits, and f v = (off + k, bits, x). *)
Theorem length_symbols_rfc : forall l, 3 <= l <= 258 -> sym_ok length_code 257 rfc_length l.
Proof. exact length_code_ok. Qed.
Print Assumptions length_symbols_rfc.
Theorem distance_symbols_rfc : forall d, 1 <= d <= 32768 -> sym_ok distance_code 0 rfc_distance d.
Proof. exact distance_code_ok. Qed.
Print Assumptions distance_symbols_rfc.
Example symbols_nonvacuous : length_code 200 = Ok (283, 5, 5) /\ length_code 258 = Ok (285, 0, 0) /\ distance_code 20000 = Ok (28, 13, 3615).
Proof. vm_compute. auto. Qed.
