(** Runs of equal bytes (C111). *)
From Verif Require Import Base.

(** the number of runs: where a byte differs from the one before, and one for the first *)
Fixpoint changes (x : Z) (l : list Z) : Z :=
  match l with [] => 0 | y :: r => (if x =? y then 0 else 1) + changes y r end.
Definition runs (l : list Z) : Z := match l with [] => 0 | x :: r => 1 + changes x r end.
(** a forty-third of the data, and so much for each run and for the block headers *)
Definition runs_bound (n r : Z) : Z := n / 43 + 1680 * r + 600.
