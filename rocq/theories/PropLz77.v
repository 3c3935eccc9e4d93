(** C08, C46 and the token part of C03 *)
From Verif Require Import Base DeflateSpec Lz77Model Lz77Spec Lz77Proofs.

(** C46: the word-at-a-time comparison returns exactly the length of the
    longest common prefix, capped at the limit, for all positions and limits
    inside the buffer. *)
Theorem match_length_exact : forall data p1 p2 maxl, bytes data ->
  0 <= p1 /\ p1 + maxl <= zlen data -> 0 <= p2 /\ p2 + maxl <= zlen data -> 0 <= maxl ->
  exists n, match_length_scalar data p1 p2 maxl = Ok n /\ common_prefix data p1 p2 maxl n.
Proof. exact match_length_scalar_ok. Qed.
Print Assumptions match_length_exact.
Example match_length_nonvacuous :
  match_length_scalar [1;2;3;4;5;6;7;8;9;10;0;1;2;3;4;5;6;7;8;9;11;0] 0 11 11 = Ok 9.
Proof. reflexivity. Qed.

(** C46: as the match finder calls it, with the cap of 258 and the end of the
    buffer as limits. *)
Theorem match_length_capped : forall data p1 p2, bytes data -> 0 <= p1 <= p2 -> p2 <= zlen data ->
  exists n, match_length data p1 p2 = Ok n /\
            common_prefix data p1 p2 (Z.min (zlen data - p2) 258) n.
Proof. exact match_length_ok. Qed.
Print Assumptions match_length_capped.

(** C08: whatever the configuration, the left-over tables and the left-over
    token buffer, the LZ77 stage terminates without panic and its tokens
    expand, by the RFC 1951 rules, to the input. *)
Theorem lz77_tokens_expand : forall cfg st old data, bytes data ->
  exists ts st', compress_into cfg st old data = Ok (ts, st') /\ expand [] ts = Some data /\
                 zlen ts <= zlen data.
Proof. exact compress_into_ok. Qed.
Print Assumptions lz77_tokens_expand.
Definition sample : list Z :=
  [1;2;3;4;1;2;3;4;1;2;3;4;5;6;6;6;6;6;6;6;6;6;6;6;7;1;2;3;4;5;6;9].
Example lz77_nonvacuous :
  (let* (ts, _) := compress_into (lz_config 6) empty_tables [TLit 7] sample in Ok ts)
  = Ok [TLit 1;TLit 2;TLit 3;TLit 4;TMatch 8 4;TLit 5;TLit 6;TMatch 10 1;TLit 7;TMatch 6 17;TLit 9].
Proof. vm_compute. reflexivity. Qed.

(** C08: the tokens are within the limits of the format.  Reaching before the
    start of the output would make [expand] fail. *)
Theorem lz77_tokens_legal : forall cfg st old data ts st', bytes data ->
  compress_into cfg st old data = Ok (ts, st') ->
  Forall legal_token ts.
Proof. exact compress_into_legal. Qed.
Print Assumptions lz77_tokens_legal.

(** C05 (LZ77 part): the tokens do not depend on the left-over state. *)
Theorem lz77_history_irrelevant : forall cfg st1 st2 old1 old2 data ts1 ts2 a b,
  compress_into cfg st1 old1 data = Ok (ts1, a) -> compress_into cfg st2 old2 data = Ok (ts2, b) -> ts1 = ts2.
Proof. exact compress_into_indep. Qed.
Print Assumptions lz77_history_irrelevant.

(** C03: packing a legal token loses nothing. *)
Theorem packed_token_roundtrip : forall t, legal_token t ->
  exists v, pack_token t = Ok v /\ unpack_token v = Ok t.
Proof. exact pack_unpack. Qed.
Print Assumptions packed_token_roundtrip.
Example packed_nonvacuous : legal_token (TMatch 258 32768) /\
  (let* v := pack_token (TMatch 258 32768) in unpack_token v) = Ok (TMatch 258 32768).
Proof. split; [cbn; lia|reflexivity]. Qed.

(** C03: the packed compressor produces exactly the packed form of the tokens
    of the enum compressor. *)
Theorem lz77_packed_agrees : forall cfg st old data, bytes data ->
  exists ps ts st', compress_packed_into cfg st old data = Ok (ps, st') /\
    compress_into cfg st [] data = Ok (ts, st') /\ map_res unpack_token ps = Ok ts.
Proof. exact compress_packed_ok. Qed.
Print Assumptions lz77_packed_agrees.
