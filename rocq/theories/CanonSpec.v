(** Specification of canonical Huffman codes (RFC 1951, 3.2.2; also the JPEG
    code construction of ITU-T T.81 annex C), independent of any algorithm.

    Order the symbols that have a code by (length, symbol).  The code of a
    symbol, read as a binary fraction, is the total width of the codes that
    come before it. *)
From Verif Require Import Base.

Fixpoint psum (f : nat -> Z) (n : nat) : Z :=
  match n with O => 0 | S k => psum f k + f k end.

Definition ln (lens : list Z) (s : nat) : Z := nth s lens 0.

(** [j] comes strictly before [s] *)
Definition before (lens : list Z) (j s : nat) : bool :=
  (0 <? ln lens j) && ((ln lens j <? ln lens s) || ((ln lens j =? ln lens s) && (j <? s)%nat)).

(** value of the code of [s], an integer of [ln lens s] bits *)
Definition canon (lens : list Z) (s : nat) : Z :=
  psum (fun j => if before lens j s then 2 ^ (ln lens s - ln lens j) else 0) (length lens).

(** the code as it appears in the bit stream: most significant bit first *)
Definition code_word (lens : list Z) (s : nat) : list bool :=
  rev (bits_of (Z.to_nat (ln lens s)) (canon lens s)).

(** Kraft sum in units of 2^-M *)
Definition kraft (M : Z) (lens : list Z) : Z :=
  psum (fun j => if 0 <? ln lens j then 2 ^ (M - ln lens j) else 0) (length lens).

(** all lengths in 0..M *)
Definition lens_ok (M : Z) (lens : list Z) : Prop := Forall (fun l => 0 <= l <= M) lens.
(** a set of lengths for which the code above is a prefix code *)
Definition code_ok (M : Z) (lens : list Z) : Prop := lens_ok M lens /\ kraft M lens <= 2 ^ M.
(** symbol [s] has a code *)
Definition has_code (lens : list Z) (s : nat) : Prop := (s < length lens)%nat /\ 0 < ln lens s.
