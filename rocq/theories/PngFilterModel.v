(** Model of src/png/filter.rs (the scalar code; the SIMD variants of
    src/simd are in SimdModel.v) and of src/png/bit_depth.rs. *)
From Verif Require Import Base Lz77Model.

(** filter.rs 43-47 and src/png/mod.rs 345-364 *)
Inductive strategy : Type :=
| SNone | SSub | SUp | SAverage | SPaeth | SMinSum | SAdaptive | SAdaptiveFast | SBigrams.
Definition FILTER_NONE := 0.
Definition FILTER_SUB := 1.
Definition FILTER_UP := 2.
Definition FILTER_AVERAGE := 3.
Definition FILTER_PAETH := 4.

(** the index range [0..n] *)
Definition idxs (n : nat) : list Z := map Z.of_nat (seq 0 n).

(** filter.rs 281-298: [i16] arithmetic on values in 0..255 cannot overflow *)
Definition paeth_predictor (a b c : Z) : Z :=
  let p := a + b - c in
  let pa := Z.abs (p - a) in
  let pb := Z.abs (p - b) in
  let pc := Z.abs (p - c) in
  if (pa <=? pb) && (pa <=? pc) then a
  else if pb <=? pc then b
  else c.

(** filter.rs 217-220 *)
Definition filter_sub (row : list Z) (bpp : Z) : res (list Z) :=
  map_res (fun i =>
    let* byte := get row i in
    let* lft := if bpp <=? i then get row (i - bpp) else Ok 0 in
    Ok (wrap 8 (byte - lft))) (idxs (length row)).
(** filter.rs 233-235 *)
Definition filter_up (row prev : list Z) : res (list Z) :=
  map_res (fun i =>
    let* byte := get row i in
    let* above := get prev i in
    Ok (wrap 8 (byte - above))) (idxs (length row)).
(** filter.rs 248-253 *)
Definition filter_average (row prev : list Z) (bpp : Z) : res (list Z) :=
  map_res (fun i =>
    let* byte := get row i in
    let* lft := if bpp <=? i then get row (i - bpp) else Ok 0 in
    let* above := get prev i in
    let avg := wrap 8 ((lft + above) / 2) in
    Ok (wrap 8 (byte - avg))) (idxs (length row)).
(** filter.rs 266-272 *)
Definition filter_paeth (row prev : list Z) (bpp : Z) : res (list Z) :=
  map_res (fun i =>
    let* byte := get row i in
    let* lft := if bpp <=? i then get row (i - bpp) else Ok 0 in
    let* above := get prev i in
    let* ul := if bpp <=? i then get prev (i - bpp) else Ok 0 in
    Ok (wrap 8 (byte - paeth_predictor lft above ul))) (idxs (length row)).

(** filter.rs 622-625: [(b as i8).unsigned_abs() as u64], summed (the sum is
    below 2^64 for any row that fits in memory) *)
Definition score_filter (f : list Z) : Z :=
  fold_left (fun s b => s + (if b <? 128 then b else 256 - b)) f 0.
(** filter.rs 635-649: number of distinct adjacent pairs; the [seen] table is
    a list of keys *)
Fixpoint score_bigrams_go (seen : list Z) (f : list Z) : Z :=
  match f with
  | a :: ((b :: _) as t) =>
      let key := Z.lor (Z.shiftl a 8) b in
      if existsb (Z.eqb key) seen then score_bigrams_go seen t
      else 1 + score_bigrams_go (key :: seen) t
  | _ => 0
  end.
Definition score_bigrams (f : list Z) : Z := score_bigrams_go [] f.

Definition U64MAX : Z := 2 ^ 64 - 1.

(** filter.rs 384-392 (= 461-470, 520-526): the final match on the winner *)
Definition emit_best (best : Z) (none sub up avg paeth : list Z) : res (list Z) :=
  if best =? FILTER_NONE then Ok (best :: none)
  else if best =? FILTER_SUB then Ok (best :: sub)
  else if best =? FILTER_UP then Ok (best :: up)
  else if best =? FILTER_AVERAGE then Ok (best :: avg)
  else if best =? FILTER_PAETH then Ok (best :: paeth)
  else Panic.

(** filter.rs 302-393; the result is what is appended to [output] *)
Definition adaptive_filter (row prev : list Z) (bpp : Z) : res (list Z) :=
  let early := zlen row / 4 + 1 in
  let s0 := score_filter row in
  if (s0 <? U64MAX) && (s0 <=? early) then Ok (FILTER_NONE :: row)
  else
    let best := if s0 <? U64MAX then s0 else U64MAX in
    let bf := FILTER_NONE in
    if best =? 0 then Ok (bf :: row)
    else
      let* sub := filter_sub row bpp in
      let s := score_filter sub in
      if (s <? best) && ((s =? 0) || (s <=? early)) then Ok (FILTER_SUB :: sub)
      else
        let '(best, bf) := if s <? best then (s, FILTER_SUB) else (best, bf) in
        let* up := filter_up row prev in
        let s := score_filter up in
        if (s <? best) && ((s =? 0) || (s <=? early)) then Ok (FILTER_UP :: up)
        else
          let '(best, bf) := if s <? best then (s, FILTER_UP) else (best, bf) in
          let* avg := filter_average row prev bpp in
          let s := score_filter avg in
          if (s <? best) && ((s =? 0) || (s <=? early)) then Ok (FILTER_AVERAGE :: avg)
          else
            let '(best, bf) := if s <? best then (s, FILTER_AVERAGE) else (best, bf) in
            let* paeth := filter_paeth row prev bpp in
            let s := score_filter paeth in
            let bf := if s <? best then FILTER_PAETH else bf in
            emit_best bf row sub up avg paeth.

(** filter.rs 410-471 *)
Definition bigrams_filter (row prev : list Z) (bpp : Z) : res (list Z) :=
  let s := score_bigrams row in
  let '(best, bf) := if s <? U64MAX then (s, FILTER_NONE) else (U64MAX, FILTER_NONE) in
  let* sub := filter_sub row bpp in
  let s := score_bigrams sub in
  let '(best, bf) := if s <? best then (s, FILTER_SUB) else (best, bf) in
  let* up := filter_up row prev in
  let s := score_bigrams up in
  let '(best, bf) := if s <? best then (s, FILTER_UP) else (best, bf) in
  let* avg := filter_average row prev bpp in
  let s := score_bigrams avg in
  let '(best, bf) := if s <? best then (s, FILTER_AVERAGE) else (best, bf) in
  let* paeth := filter_paeth row prev bpp in
  let s := score_bigrams paeth in
  let bf := if s <? best then FILTER_PAETH else bf in
  emit_best bf row sub up avg paeth.

(** filter.rs 474-527 *)
Definition adaptive_filter_fast (row prev : list Z) (bpp : Z) : res (list Z) :=
  let* sub := filter_sub row bpp in
  let best := score_filter sub in
  let early := zlen row / 8 + 1 in
  if best <=? early then Ok (FILTER_SUB :: sub)
  else
    let* up := filter_up row prev in
    let us := score_filter up in
    let '(best, bf) := if us <? best then (us, FILTER_UP) else (best, FILTER_SUB) in
    if best <=? early then
      (if bf =? FILTER_SUB then Ok (bf :: sub)
       else if bf =? FILTER_UP then Ok (bf :: up)
       else Ok [bf])
    else
      let* paeth := filter_paeth row prev bpp in
      let ps := score_filter paeth in
      let bf := if ps <? best then FILTER_PAETH else bf in
      if bf =? FILTER_SUB then Ok (bf :: sub)
      else if bf =? FILTER_UP then Ok (bf :: up)
      else if bf =? FILTER_PAETH then Ok (bf :: paeth)
      else Panic.

(** filter.rs 529-571 *)
Definition filter_row (row prev : list Z) (bpp : Z) (s : strategy) : res (list Z) :=
  match s with
  | SNone => Ok (FILTER_NONE :: row)
  | SSub => let* f := filter_sub row bpp in Ok (FILTER_SUB :: f)
  | SUp => let* f := filter_up row prev in Ok (FILTER_UP :: f)
  | SAverage => let* f := filter_average row prev bpp in Ok (FILTER_AVERAGE :: f)
  | SPaeth => let* f := filter_paeth row prev bpp in Ok (FILTER_PAETH :: f)
  | SMinSum => adaptive_filter row prev bpp
  | SAdaptive => adaptive_filter row prev bpp
  | SAdaptiveFast => adaptive_filter_fast row prev bpp
  | SBigrams => bigrams_filter row prev bpp
  end.

Definition is_search (s : strategy) : bool :=
  match s with SAdaptive | SAdaptiveFast | SBigrams => true | _ => false end.

(** filter.rs 586-605: one row of the parallel path; the rows are written to
    disjoint slices of the output, so the order in which rayon runs them is
    irrelevant.  [copy_from_slice] panics when the lengths differ. *)
Definition parallel_row (data : list Z) (row_bytes bpp : Z) (s : strategy) (y : Z)
  : res (list Z) :=
  let* row := slice_r data (y * row_bytes) (y * row_bytes + row_bytes) in
  let* prev := if y =? 0 then Ok (repeat 0 (Z.to_nat row_bytes))
               else slice_r data ((y - 1) * row_bytes) (y * row_bytes) in
  let* r := filter_row row prev bpp s in
  if zlen r =? row_bytes + 1 then Ok r else Panic.
(** filter.rs 574-608 *)
Definition apply_filters_parallel (data : list Z) (height : Z) (row_bytes bpp : Z)
  (s : strategy) : res (list Z) :=
  let* rows := map_res (parallel_row data row_bytes bpp s) (idxs (Z.to_nat height)) in
  Ok (concat rows).

(** filter.rs 131-190: the sequential loop.  [last] is
    [last_adaptive_filter]; the logging counters are not modelled. *)
Fixpoint filter_rows (n : nat) (y : Z) (data prev : list Z) (row_bytes bpp : Z)
  (s : strategy) (last : option Z) : res (list Z) :=
  match n with
  | O => Ok []
  | S m =>
      let* row := slice_r data (y * row_bytes) (y * row_bytes + row_bytes) in
      let zero := repeat 0 (Z.to_nat row_bytes) in
      let pr := if y =? 0 then zero else prev in
      let* (out, last') :=
        match s with
        | SMinSum => let* o := adaptive_filter row pr bpp in Ok (o, last)
        | SAdaptiveFast =>
            let* o := filter_row row pr bpp
              (match last with
               | Some f => if f =? FILTER_SUB then SSub
                           else if f =? FILTER_UP then SUp
                           else if f =? FILTER_PAETH then SPaeth
                           else SAdaptiveFast
               | None => SAdaptiveFast
               end) in
            Ok (o, match o with f :: _ => Some f | [] => last end)
        | _ => let* o := filter_row row pr bpp s in Ok (o, last)
        end in
      let* rest := filter_rows m (y + 1) data row row_bytes bpp s last' in
      Ok (out ++ rest)
  end.

(** filter.rs 64-206, with the feature [parallel] given by [par] *)
Definition apply_filters_with_row_bytes (par : bool) (data : list Z)
  (width height row_bytes bpp : Z) (s0 : strategy) : res (list Z) :=
  let s := if (width * height <=? 4096) && is_search s0 then SSub else s0 in
  if par && ((32 <? height) && is_search s) then
    apply_filters_parallel data height row_bytes bpp s
  else if negb (zlen data =? row_bytes * height) then Panic
  else filter_rows (Z.to_nat height) 0 data (repeat 0 (Z.to_nat row_bytes)) row_bytes bpp s None.
(** filter.rs 52-61 *)
Definition apply_filters (par : bool) (data : list Z) (width height bpp : Z) (s : strategy)
  : res (list Z) :=
  apply_filters_with_row_bytes par data width height (width * bpp) bpp s.

(** ** bit_depth.rs *)
(** bit_depth.rs 18-30 *)
Definition palette_bit_depth (len : Z) : Z :=
  if len =? 0 then 8
  else if len <=? 2 then 1
  else if len <=? 4 then 2
  else if len <=? 16 then 4
  else 8.
(** bit_depth.rs 32-46 (with 11-16 for colour type Gray) *)
Definition reduce_gray_bit_depth (data : list Z) : option Z :=
  match data with
  | [] => None
  | x :: r =>
      let m := fold_left Z.max r x in
      Some (if m <=? 1 then 1 else if m <=? 3 then 2 else if m <=? 15 then 4 else 8)
  end.

(** bit_depth.rs 121-141: the inner loop over one row; [acc] is a u8 *)
Fixpoint pack_row (bits mask : Z) (row : list Z) (acc n : Z) : list Z :=
  match row with
  | [] => if 0 <? n then [wrap 8 (Z.shiftl acc (8 - n))] else []
  | v :: r =>
      let acc' := Z.lor (wrap 8 (Z.shiftl acc bits)) (Z.land v mask) in
      let n' := n + bits in
      if n' =? 8 then acc' :: pack_row bits mask r 0 0
      else pack_row bits mask r acc' n'
  end.
(** [data.chunks_exact(n)]: full chunks only; panics for n = 0 are excluded by
    the callers' guards *)
Fixpoint chunks_exact_fuel {A} (fuel n : nat) (l : list A) : list (list A) :=
  match fuel with
  | O => []
  | S f => if (length l <? n)%nat then []
           else firstn n l :: chunks_exact_fuel f n (skipn n l)
  end.
Definition chunks_exact {A} (n : nat) (l : list A) : list (list A) :=
  chunks_exact_fuel (length l) n l.
(** bit_depth.rs 105-148 (called through [pack_gray_rows] and
    [pack_indexed_rows], lines 70-76); the debug assertions are panics here *)
Definition pack_bits_rows (data : list Z) (width bits : Z) : res (list Z) :=
  if negb ((bits =? 1) || (bits =? 2) || (bits =? 4) || (bits =? 8)) then Panic
  else if bits =? 8 then Ok data
  else if (width =? 0) || match data with [] => true | _ => false end then Ok []
  else
    let mask := 2 ^ bits - 1 in
    let out := flat_map (fun row => pack_row bits mask row 0 0)
                 (chunks_exact (Z.to_nat width) data) in
    if negb (zlen data mod width =? 0) then Panic else Ok out.
