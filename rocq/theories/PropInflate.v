(** C10 (decoder side), C16, C17 *)
From Verif Require Import Base BitsModel BitsSpec BitsProofs ChecksumSpec CanonSpec CanonProofs DeflateSpec InflateModel HtProofs InflateProofs.

(** C10: codes that satisfy Kraft's inequality are uniquely decodable: no two
    different symbols' code words start the same bit sequence. *)
Theorem canonical_prefix_free : forall lens s s' rest rest', code_ok 15 lens -> has_code lens s -> has_code lens s' ->
  code_word lens s ++ rest = code_word lens s' ++ rest' -> s = s' /\ rest = rest'.
Proof. intros lens s s' r r'. exact (canon_unique 15 lens s s' r r' ltac:(lia)). Qed.
Print Assumptions canonical_prefix_free.

(** C10: the inflater's tables for any such set of lengths exist and decode
    every concatenation of code words, whatever bits follow. *)
Theorem decoder_decodes_canonical : forall lens syms rest data, code_ok 15 lens -> zlen lens <= 4096 ->
  Forall (has_code lens) syms -> bytes data -> bytes_bits data = flat_map (code_word lens) syms ++ rest ->
  exists t r', from_lengths lens = Ok t /\ decode_n (length syms) t (br_new data) = Ok (map Z.of_nat syms, r') /\ br_bits r' = rest.
Proof. exact decode_new_complete. Qed.
Print Assumptions decoder_decodes_canonical.

Example decoder_nonvacuous : let lens := [2;1;3;3] in code_ok 15 lens /\ Forall (has_code lens) [1;0;3;2;1]%nat /\
  flat_map (code_word lens) [1;0;3;2;1]%nat = [false; true;false; true;true;true; true;true;false; false].
Proof.
  split; [split; [repeat constructor; lia|vm_compute; discriminate]|]. split; [|reflexivity].
  repeat constructor; vm_compute; lia.
Qed.

(** C16: inflate returns data or an error on every byte sequence: the model's
    [Panic] (index, overflow, shift) and [NoFuel] are never reached. *)
Theorem inflate_never_panics : forall data, bytes data ->
  (exists out, bytes out /\ inflate data = Ok out) \/ inflate data = Err EInvalidDecode.
Proof. exact inflate_total_bytes. Qed.
Print Assumptions inflate_never_panics.
Theorem inflate_zlib_never_panics : forall data expected, bytes data ->
  (exists out, inflate_zlib data expected = Ok out) \/ inflate_zlib data expected = Err EInvalidDecode \/
  inflate_zlib data expected = Err EUnsupportedDecode.
Proof. exact inflate_zlib_total. Qed.
Print Assumptions inflate_zlib_never_panics.

(** RFC 1951 conformance: a DEFLATE stream decodes to what it denotes (also
    with anything after the final block), and whatever is accepted is a
    sequence of DEFLATE blocks denoting the result, up to the Kraft check on
    the transmitted codes, which the code does not make. *)
Theorem inflate_decodes_deflate : forall data out rest, bytes data ->
  blocks code_ok [] (bytes_bits data) out rest -> inflate data = Ok out.
Proof. exact inflate_complete. Qed.
Print Assumptions inflate_decodes_deflate.
Theorem inflate_accepts_only_blocks : forall data out, bytes data -> inflate data = Ok out ->
  exists rest, blocks lens_ok [] (bytes_bits data) out rest.
Proof. exact inflate_sound. Qed.
Print Assumptions inflate_accepts_only_blocks.

(** a DEFLATE stream denotes one byte string only *)
Theorem deflate_denotation_unique : forall data o1 o2, bytes data -> deflate_stream data o1 -> deflate_stream data o2 -> o1 = o2.
Proof. exact deflate_stream_functional. Qed.
Print Assumptions deflate_denotation_unique.

(** C17: what inflate_zlib returns has the Adler-32 stored in the trailer and
    the expected length. *)
Theorem zlib_accepted_consistent : forall data expected out, bytes data -> inflate_zlib data expected = Ok out ->
  zlib_accepts data out /\ (forall x, expected = Some x -> zlen out = x).
Proof. exact inflate_zlib_sound. Qed.
Print Assumptions zlib_accepted_consistent.
(** and every zlib stream is accepted, with or without an expected size *)
Theorem zlib_stream_decodes : forall data out, bytes data -> zlib_stream data out ->
  inflate_zlib data None = Ok out /\ inflate_zlib data (Some (zlen out)) = Ok out.
Proof. exact inflate_zlib_complete. Qed.
Print Assumptions zlib_stream_decodes.

(** C17 consequence: replacing the trailer of an accepted stream by any other
    four bytes is detected. *)
Theorem zlib_trailer_detected : forall pre a b c d a' b' c' d' out, bytes (pre ++ [a; b; c; d]) -> bytes (pre ++ [a'; b'; c'; d']) ->
  inflate_zlib (pre ++ [a; b; c; d]) None = Ok out -> [a; b; c; d] <> [a'; b'; c'; d'] ->
  inflate_zlib (pre ++ [a'; b'; c'; d']) None = Err EInvalidDecode.
Proof. exact zlib_trailer_err. Qed.
Print Assumptions zlib_trailer_detected.

(** finding: bytes between the final block and the checksum are ignored *)
Theorem zlib_trailing_garbage_accepted_refuted : exists data out, bytes data /\ inflate_zlib data None = Ok out /\
  ~ zlib_stream data out.
Proof. exact zlib_garbage. Qed.
Print Assumptions zlib_trailing_garbage_accepted_refuted.

(** a stream produced by zlib: "abracadabra abracadabra!" three times *)
Example inflate_zlib_example :
  inflate_zlib [120;218;75;76;42;74;76;78;76;73;4;82;10;137;8;182;98;34;137;226;0;216;114;26;188] (Some 72) =
  Ok (concat (repeat [97;98;114;97;99;97;100;97;98;114;97;32;97;98;114;97;99;97;100;97;98;114;97;33] 3)).
Proof. vm_compute. reflexivity. Qed.
