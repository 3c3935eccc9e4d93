(** What a JPEG Huffman table costs, read off the two lists a DHT segment carries. *)
From Verif Require Import Base.

(** the code lengths in order: [bits] has the number of codes of length 1, 2, ... *)
Fixpoint lengths_from (len : Z) (bits : list Z) : list Z :=
  match bits with [] => [] | c :: r => repeat len (Z.to_nat c) ++ lengths_from (len + 1) r end.
(** bits for all occurrences of all symbols; [counts] has the occurrences of symbol 0, 1, ... *)
Definition table_cost (counts bits vals : list Z) : Z :=
  fold_right Z.add 0 (map (fun p => nth (Z.to_nat (fst p)) counts 0 * snd p) (combine vals (lengths_from 1 bits))).
