(** What a choice of filters is to achieve, row by row. *)
From Verif Require Import Base PngFilterModel PngSpec.

(** sum of the filtered bytes, taken as signed numbers, without their signs *)
Definition sum_abs (f : list Z) : Z := fold_right (fun b s => Z.min b (256 - b) + s) 0 f.
(** number of different pairs of neighbouring bytes *)
Definition pair_dec (p q : Z * Z) : {p = q} + {p <> q}.
Proof. decide equality; apply Z.eq_dec. Defined.
Definition different_pairs (f : list Z) : Z := zlen (nodup pair_dec (combine f (tl f))).
(** [P] holds of every row of an image: of the row above it, the row itself, the number of
    its filter and its filtered bytes *)
Inductive rows_such (P : list Z -> list Z -> Z -> list Z -> Prop) (sb : Z) : list Z -> list Z -> list Z -> Prop :=
| RS_nil prev : rows_such P sb prev [] []
| RS_row prev row t f raws filts : zlen row = sb -> zlen f = sb -> P prev row t f -> rows_such P sb row raws filts ->
    rows_such P sb prev (row ++ raws) (t :: f ++ filts).
(** the five filters *)
Definition a_filter (t : Z) : Prop := 0 <= t <= 4.
(** [f] scores no worse than any other filtering of the row *)
Definition best_by (score : list Z -> Z) (bpp : Z) (prev row f : list Z) : Prop :=
  forall t g, a_filter t -> row_filtered t bpp prev row g -> score f <= score g.
(** the number of a filter that is asked for by name *)
Definition named (s : strategy) : option Z :=
  match s with SNone => Some 0 | SSub => Some 1 | SUp => Some 2 | SAverage => Some 3 | SPaeth => Some 4 | _ => None end.
