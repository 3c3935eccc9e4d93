(** C09, C10 (encoder side) *)
From Verif Require Import Base CanonSpec CanonProofs HuffModel HuffProofs.

(** C09: from any frequency table (total below 2^32, as many symbols as codes
    of the limit length at most) the code lengths stay within the limit, are
    non-zero exactly for the symbols that occur, satisfy Kraft's inequality,
    with equality if two symbols occur; the codes are the canonical ones.
    Any priority queue, any tie-breaking. *)
Theorem huffman_codes_valid : forall (H : heap) fs M,
  1 <= M <= 15 -> Forall (fun f => 0 <= f) fs -> fold_right Z.add 0 fs < 2 ^ 32 -> zlen fs <= 2 ^ M -> zlen fs < 2 ^ 15 ->
  exists codes, build_codes H fs M = Ok codes /\
    let lens := map snd codes in
    length lens = length fs /\ lens_ok M lens /\
    (forall s, has_code lens s <-> 0 < nth s fs 0) /\
    kraft M lens <= 2 ^ M /\
    (forall i j, i <> j -> 0 < nth i fs 0 -> 0 < nth j fs 0 -> kraft M lens = 2 ^ M) /\
    (forall s, 0 < nth s fs 0 -> nth s codes (0, 0) = (canon lens s, nth s lens 0)).
Proof. exact build_codes_flat. Qed.
Print Assumptions huffman_codes_valid.

Example huffman_nonvacuous : let fs := [1;1;2;3;5;8;13;21;34;55] in
  Forall (fun f => 0 <= f) fs /\ fold_right Z.add 0 fs < 2 ^ 32 /\ zlen fs <= 2 ^ 4 /\
  build_codes list_heap fs 4 = Ok [(2,3);(10,4);(11,4);(12,4);(13,4);(14,4);(15,4);(3,3);(4,3);(0,2)].
Proof. repeat split; try (vm_compute; congruence). repeat constructor; lia. Qed.

(** C09: the limit on the total matters: the u32 sum of two frequencies can
    overflow (panic with overflow checks). *)
Theorem huffman_total_2_32_refuted : forall H, build_codes H [2 ^ 31; 2 ^ 31] 15 = Panic.
Proof. exact build_codes_overflow. Qed.
Print Assumptions huffman_total_2_32_refuted.

(** C10: the encoder's canonical code assignment (u16 arithmetic) is the
    canonical code of RFC 1951 for every admissible list of lengths. *)
Theorem canonical_codes_correct : forall M lens, 1 <= M <= 15 -> code_ok M lens -> zlen lens < 2 ^ 15 ->
  exists codes, generate_canonical_codes lens = Ok codes /\ map snd codes = lens /\
    (forall s, has_code lens s -> nth s codes (0, 0) = (canon lens s, nth s lens 0)).
Proof. exact generate_ok. Qed.
Print Assumptions canonical_codes_correct.
Example canonical_nonvacuous : code_ok 15 [3;3;3;3;3;2;4;4] /\
  generate_canonical_codes [3;3;3;3;3;2;4;4] = Ok [(2,3);(3,3);(4,3);(5,3);(6,3);(0,2);(14,4);(15,4)].
Proof. split; [split; [repeat constructor; lia|vm_compute; congruence]|vm_compute; reflexivity]. Qed.
