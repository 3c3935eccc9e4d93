(** What the LZ77 stage must deliver, stated on the input bytes only. *)
From Verif Require Import Base DeflateSpec.

(** [n] is the length of the longest common prefix of the suffixes at [p1]
    and [p2], looking at no more than [maxl] bytes *)
Definition common_prefix (data : list Z) (p1 p2 maxl n : Z) : Prop :=
  0 <= n <= maxl /\
  (forall i, 0 <= i < n -> znth data (p1 + i) = znth data (p2 + i)) /\
  (n < maxl -> znth data (p1 + n) <> znth data (p2 + n)).

(** [(len, dist)] is a legal DEFLATE match at [pos]: the [len] bytes at [pos]
    repeat those [dist] bytes earlier *)
Definition valid_match (data : list Z) (pos len dist : Z) : Prop :=
  3 <= len <= 258 /\ 1 <= dist <= 32768 /\ dist <= pos /\ pos + len <= zlen data /\
  forall i, 0 <= i < len -> znth data (pos + i) = znth data (pos + i - dist).

(** legal tokens: byte literals, lengths 3..258, distances 1..32768 *)
Definition legal_token (t : token) : Prop :=
  match t with
  | TLit b => is_byte b
  | TMatch l d => 3 <= l <= 258 /\ 1 <= d <= 32768
  end.
