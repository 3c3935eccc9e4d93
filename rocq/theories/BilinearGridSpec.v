(** Output positions of a bilinear resize that fall on a source pixel. *)
From Verif Require Import Base.
Open Scope Z_scope.

(** position [d] of [dst] lies on position [i] of [src] when the first and the last
    positions of both are matched; a single destination pixel takes position 0 *)
Definition lands (src dst d i : Z) : Prop := 0 <= i < src /\ d * (src - 1) = i * (dst - 1) /\ (dst = 1 -> i = 0).
