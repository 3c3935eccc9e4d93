(** C13, C14, C15 *)
From Verif Require Import Base ChecksumModel ChecksumSpec ChecksumProofs.

(** C13: the chunked loop with overflow-checked u32 additions never panics and
    returns the RFC 1950 value, for every byte string. *)
Theorem adler32_correct : forall data, bytes data ->
  adler32_checked data = Ok (adler_spec data).
Proof. intros data H; exact (proj1 (adler_all data H)). Qed.
Print Assumptions adler32_correct.

(** C13: the wrapping (release-mode) loop gives the same value. *)
Theorem adler32_release_correct : forall data, bytes data -> adler32 data = adler_spec data.
Proof. intros data H; exact (proj2 (adler_all data H)). Qed.
Print Assumptions adler32_release_correct.

Example adler32_nonvacuous : bytes [87;105;107;105] /\ adler_spec [87;105;107;105] = 0x03DA0195.
Proof. split; [repeat constructor; unfold is_byte; lia | reflexivity]. Qed.

(** C14: slicing-by-8 CRC equals the bit-serial definition. *)
Theorem crc32_correct : forall data, bytes data -> crc32 data = crc_spec data.
Proof. intros data H; exact (proj1 (crc_all data H)). Qed.
Print Assumptions crc32_correct.

(** C14: the byte-at-a-time fallback equals the same definition. *)
Theorem crc32_fallback_correct : forall data, bytes data -> crc32_bytewise data = crc_spec data.
Proof. intros data H; exact (proj1 (proj2 (crc_all data H))). Qed.
Print Assumptions crc32_fallback_correct.

(** C14: feeding the data in any pieces gives the one-shot value. *)
Theorem crc32_incremental : forall parts, Forall bytes parts ->
  crc_finalize (fold_left crc_update parts crc_new) = crc32 (concat parts).
Proof. exact crc_incremental_ok. Qed.
Print Assumptions crc32_incremental.

Example crc32_nonvacuous :
  bytes [49;50;51;52;53;54;55;56;57] /\ crc32 [49;50;51;52;53;54;55;56;57] = 0xCBF43926.
Proof. split; [repeat constructor; unfold is_byte; lia | vm_compute; reflexivity]. Qed.

(** C15: two byte strings whose bits differ only inside a window of at most 32
    consecutive bits (same position, same length) have different CRCs. *)
Theorem crc32_detects_burst : forall a b pre m1 m2 post,
  bytes a -> bytes b ->
  bytes_bits a = pre ++ m1 ++ post -> bytes_bits b = pre ++ m2 ++ post ->
  length m1 = length m2 -> (length m1 <= 32)%nat -> m1 <> m2 ->
  crc32 a <> crc32 b.
Proof. exact crc_burst_ok. Qed.
Print Assumptions crc32_detects_burst.

(** C15: changing one byte to any other value changes the CRC. *)
Theorem crc32_detects_byte : forall pre x y post,
  bytes pre -> bytes post -> is_byte x -> is_byte y -> x <> y ->
  crc32 (pre ++ x :: post) <> crc32 (pre ++ y :: post).
Proof. exact crc_one_byte_ok. Qed.
Print Assumptions crc32_detects_byte.

Example burst_nonvacuous :
  exists pre m1 m2 post, bytes_bits [1;255;7;9;8;3] = pre ++ m1 ++ post /\
    bytes_bits [1;255;6;9;200;3] = pre ++ m2 ++ post /\ length m1 = length m2 /\
    (length m1 <= 32)%nat /\ m1 <> m2.
Proof.
  exists (bytes_bits [1;255]), (bytes_bits [7;9;8]), (bytes_bits [6;9;200]), (bytes_bits [3]).
  repeat split; try reflexivity; [cbn; lia | discriminate].
Qed.
