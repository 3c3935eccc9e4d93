(** How good a code is: the bits it takes, the codes it competes with. *)
From Verif Require Import Base.

(** bits for all occurrences of all symbols, with frequencies [fs] and code lengths [lens] *)
Definition coded_bits (fs lens : list Z) : Z := fold_right Z.add 0 (map (fun p => fst p * snd p) (combine fs lens)).
(** any code whatever: one non-empty word for each symbol that occurs, none the beginning of another *)
Definition prefix_code (fs : list Z) (word : nat -> list bool) : Prop :=
  forall i, 0 < nth i fs 0 -> word i <> [] /\ forall j t, 0 < nth j fs 0 -> i <> j -> word j <> word i ++ t.
Definition word_lengths (fs : list Z) (word : nat -> list bool) : list Z := map (fun i => zlen (word i)) (seq 0 (length fs)).
(** 0, 1, 1, 2, 3, 5, ... *)
Fixpoint fibonacci (n : nat) : Z := match n with O => 0 | S k => match k with O => 1 | S j => fibonacci k + fibonacci j end end.
(** the number of symbols that occur *)
Definition occurring (fs : list Z) : nat := length (filter (fun f => 0 <? f) fs).
