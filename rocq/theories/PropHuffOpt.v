(** Huffman codes are as short as any code can be, until the length limit is reached (C86). *)
From Verif Require Import Base HuffModel HuffOptSpec HuffOpt.
Open Scope Z_scope.

(** C86: with at most one symbol more than the limit, or with frequencies that add up to less
    than a Fibonacci number (2584 for the limit 15), no prefix code of any kind takes fewer
    bits.  Missing: larger inputs, where the limit may be reached. *)
Theorem huffman_shortest_partial : forall H fs M codes, 1 <= M <= 15 -> Forall (fun f => 0 <= f) fs -> fold_right Z.add 0 fs < 2 ^ 32 -> zlen fs <= 2 ^ M -> zlen fs < 2 ^ 15 ->
  Z.of_nat (occurring fs) <= M + 1 \/ fold_right Z.add 0 fs < fibonacci (Z.to_nat (M + 3)) ->
  build_codes H fs M = Ok codes -> forall word, prefix_code fs word -> coded_bits fs (map snd codes) <= coded_bits fs (word_lengths fs word).
Proof. exact build_opt. Qed.
Print Assumptions huffman_shortest_partial.
(** six symbols, 224 bits; the straightforward code of three bits each takes 300 *)
Example huffman_shortest_case : fibonacci (Z.to_nat (15 + 3)) = 2584 /\
  match build_codes list_heap [5; 9; 12; 13; 16; 45] 15 with Ok codes => coded_bits [5; 9; 12; 13; 16; 45] (map snd codes) = 224 | _ => False end /\
  prefix_code [5; 9; 12; 13; 16; 45] (fun i => bits_of 3 (Z.of_nat i)) /\ coded_bits [5; 9; 12; 13; 16; 45] (word_lengths [5; 9; 12; 13; 16; 45] (fun i => bits_of 3 (Z.of_nat i))) = 300.
Proof.
  split; [reflexivity|]. split; [vm_compute; reflexivity|]. split; [|vm_compute; reflexivity].
  intros i Hi. split; [discriminate|]. intros j t Hj D E. apply D.
  do 6 (destruct i as [|i]; [do 6 (destruct j as [|j]; [first [reflexivity|discriminate E]|]); cbn [nth] in Hj; destruct j; lia|]). cbn [nth] in Hi. destruct i; lia.
Qed.

(** C86 fails at the limit: 17 symbols for which another code with words of at most 15 bits
    takes 8 percent less. *)
Theorem huffman_shortest_refuted : exists fs codes word, Forall (fun f => 0 <= f) fs /\ fold_right Z.add 0 fs < 2 ^ 32 /\ build_codes list_heap fs 15 = Ok codes /\ prefix_code fs word /\
  (forall i, zlen (word i) <= 15) /\ 100 * coded_bits fs (map snd codes) > 108 * coded_bits fs (word_lengths fs word).
Proof. exact limited_costs_more. Qed.
Print Assumptions huffman_shortest_refuted.
