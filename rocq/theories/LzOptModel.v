(** Model of the optimal parser of src/compress/lz77.rs (match search with a
    distance per length, forward dynamic programming with f32 costs, match
    cache, back trace, cost models) and of the iterated encoders of
    src/compress/deflate.rs built on it.

    The three DP vectors (costs, lengths, distances; all of length n + 1) are one
    list of triples.  f32 arithmetic is exact binary32 ([F32Model]); [f32::log2]
    is a library function whose rounding is platform-defined, and is a parameter. *)
From Verif Require Import Base BitsModel DeflateSpec Lz77Model HuffModel DeflateModel F32Model.

(** ** Matches at one position *)
Notation sublen := (list Z) (only parsing).
(** [[0u16; 259]] *)
Definition no_sublen : sublen := repeat 0 259.
(** lz77.rs 903-905: [for len in len..len+n { sublen[len] = 1 }] *)
Fixpoint fill_ones (n : nat) (len : Z) (sub : sublen) : res sublen :=
  match n with
  | O => Ok sub
  | S n' => let* _ := get sub len in fill_ones n' (len + 1) (upd sub (Z.to_nat len) 1)
  end.
(** lz77.rs 965-969: [for len in len..len+n], keep the shorter distance *)
Fixpoint fill_min (n : nat) (len d : Z) (sub : sublen) : res sublen :=
  match n with
  | O => Ok sub
  | S n' => let* s := get sub len in
            fill_min n' (len + 1) d (if (s =? 0) || (d <? s) then upd sub (Z.to_nat len) d else sub)
  end.
(** lz77.rs 897-913; the flag says "return now" *)
Definition sub_run (data : list Z) (pos : Z) : res (sublen * Z * bool) :=
  let* run := detect_same_byte_run data pos in
  let* r := in_run data pos run MIN_MATCH_LENGTH in
  if r then
    let* sub := fill_ones (Z.to_nat (run - MIN_MATCH_LENGTH + 1)) MIN_MATCH_LENGTH no_sublen in
    Ok (sub, run, MAX_MATCH_LENGTH <=? run)
  else Ok (no_sublen, 0, false).
(** lz77.rs 915-937 *)
Definition sub_probe3 (st : tables) (data : list Z) (pos : Z) (sub : sublen) (maxl : Z) : res (sublen * Z) :=
  let* h3 := hash3 data pos in
  let* c3 := tget HASH3_SIZE (t_head3 st) h3 in
  if c3 <? 0 then Ok (sub, maxl)
  else
    let* d := usub pos c3 in
    if d =? 0 then Ok (sub, maxl)
    else if (d <=? MAX_DISTANCE) && (c3 + 3 <=? zlen data) then
      let* a := slice_r data pos (pos + 3) in
      let* b := slice_r data c3 (c3 + 3) in
      if le_val a =? le_val b then
        let* sub := fill_min 1 3 (wrap 16 d) sub in
        Ok (sub, Z.max maxl 3)
      else Ok (sub, maxl)
    else Ok (sub, maxl).
(** lz77.rs 947-981; [fuel] is chain_remaining *)
Fixpoint sub_chain (fuel : nat) (st : tables) (data : list Z) (pos cp : Z) (sub : sublen) (maxl : Z)
  : res (sublen * Z) :=
  match fuel with
  | O => Ok (sub, maxl)
  | S f =>
      if cp <? 0 then Ok (sub, maxl)
      else
        let* d := usub pos cp in
        if d =? 0 then
          let* nx := tget MAX_DISTANCE (t_prev st) (cp mod MAX_DISTANCE) in
          sub_chain f st data pos nx sub maxl
        else if Z.min pos MAX_DISTANCE <? d then Ok (sub, maxl)
        else
          let* len := match_length data cp pos in
          if (MIN_MATCH_LENGTH <=? len) && negb ((len =? 3) && (8192 <? d)) then
            let* sub := fill_min (Z.to_nat (len - MIN_MATCH_LENGTH + 1)) MIN_MATCH_LENGTH (wrap 16 d) sub in
            if (maxl <? len) && (MAX_MATCH_LENGTH <=? len) then Ok (sub, len)
            else
              let* nx := tget MAX_DISTANCE (t_prev st) (cp mod MAX_DISTANCE) in
              sub_chain f st data pos nx sub (if maxl <? len then len else maxl)
          else
            let* nx := tget MAX_DISTANCE (t_prev st) (cp mod MAX_DISTANCE) in
            sub_chain f st data pos nx sub maxl
  end.
(** lz77.rs 886-984 *)
Definition find_match_with_sublen (cfg : config) (st : tables) (data : list Z) (pos : Z) : res (sublen * Z) :=
  if zlen data <? pos + MIN_MATCH_LENGTH then Ok (no_sublen, 0)
  else
    let* (sub, maxl, stop) := sub_run data pos in
    if (stop : bool) then Ok (sub, maxl)
    else
      let* (sub, maxl) := sub_probe3 st data pos sub maxl in
      let* h := hash4 data pos in
      let* cp := tget HASH_SIZE (t_head st) h in
      sub_chain (Z.to_nat (Z.min (c_chain cfg) (c_depth cfg))) st data pos cp sub maxl.

(** ** Costs *)
(** lz77.rs 1213-1218 *)
Record cost_model : Type := mk_cost { lit_len_costs : list f32; dist_costs : list f32 }.
(** lz77.rs 1225-1258 *)
Definition cost_fixed : cost_model :=
  mk_cost (repeat (f_of_Z 8) 144 ++ repeat (f_of_Z 9) 112 ++ repeat (f_of_Z 7) 24 ++ repeat (f_of_Z 8) 6)
          (repeat (f_of_Z 5) 30).
(** [iter().sum()] on u32: panics on overflow *)
Fixpoint sum32 (l : list Z) (acc : Z) : res Z :=
  match l with [] => Ok acc | x :: r => if acc + x <? U32 then sum32 r (acc + x) else Panic end.
(** lz77.rs 1272-1281, 1291-1299 *)
Definition entropy_costs (log2 : f32 -> f32) (total : Z) (counts : list Z) : list f32 :=
  let lt := log2 (f_of_Z total) in
  map (fun c => if 0 <? c then f_sub lt (log2 (f_of_Z c)) else f_of_Z 15) counts.
(** lz77.rs 1264-1312 *)
Definition cost_from_statistics (log2 : f32 -> f32) (lc dc : list Z) : res cost_model :=
  let* lt := sum32 lc 0 in
  if 0 <? lt then
    let* dt := sum32 dc 0 in
    Ok (mk_cost (entropy_costs log2 lt lc)
                (if 0 <? dt then entropy_costs log2 dt dc else repeat (f_of_Z 5) 30))
  else Ok cost_fixed.
(** lz77.rs 1369-1374 *)
Fixpoint len_scan (n : nat) (i len : Z) : res (Z * Z) :=
  match n with
  | O => Ok (285, 0)
  | S n' => let* b := get LENGTH_BASE (i + 1) in
            if len <? b then let* e := get LENGTH_EXTRA i in Ok (257 + i, e) else len_scan n' (i + 1) len
  end.
(** lz77.rs 1355-1376; the debug assertion panics *)
Definition length_to_symbol (len : Z) : res (Z * Z) :=
  if (MIN_MATCH_LENGTH <=? len) && (len <=? MAX_MATCH_LENGTH) then len_scan 28 0 len else Panic.
(** lz77.rs 1380-1396; the debug assertion panics *)
Definition distance_to_symbol (dist : Z) : res (Z * Z) :=
  if (1 <=? dist) && (dist <=? 32768) then
    if dist <? 5 then Ok (dist - 1, 0)
    else
      let d := dist - 1 in
      let msb := Z.log2 d in
      let second := Z.land (Z.shiftr d (msb - 1)) 1 in
      let code := Z.min (2 * msb + second) 29 in
      let* e := get DISTANCE_EXTRA code in Ok (code, e)
  else Panic.
(** lz77.rs 1314-1317 *)
Definition literal_cost (cm : cost_model) (b : Z) : res f32 := get (lit_len_costs cm) b.
(** lz77.rs 1319-1331 *)
Definition match_cost (cm : cost_model) (len dist : Z) : res f32 :=
  let* (ls, le) := length_to_symbol len in
  let* lc := get (lit_len_costs cm) ls in
  let* (ds, de) := distance_to_symbol dist in
  let* dc := get (dist_costs cm) ds in
  Ok (f_add (f_add lc (f_of_Z le)) (f_add dc (f_of_Z de))).

(** ** Forward dynamic programming *)
(** cost, token length, token distance per end position *)
Notation dp_row := (f32 * Z * Z)%type (only parsing).
(** [if cost < costs[e] { costs[e] = cost; length_array[e] = len; dist_array[e] = dist; }] *)
Definition relax (dp : list dp_row) (e : Z) (c : f32) (len dist : Z) : res (list dp_row) :=
  let* (old, _, _) := get dp e in
  Ok (if f_lt c old then upd dp (Z.to_nat e) (c, len, dist) else dp).
(** lz77.rs 1032-1045 (= 1123-1136): [for len in len..len+k] *)
Fixpoint try_matches (k : nat) (cm : cost_model) (n i : Z) (sub : sublen) (len : Z) (dp : list dp_row)
  : res (list dp_row) :=
  match k with
  | O => Ok dp
  | S k' =>
      let* dist := get sub len in
      let* dp :=
        (if dist =? 0 then Ok dp
         else
           let* (ci, _, _) := get dp i in
           let* mc := match_cost cm len dist in
           if i + len <=? n then relax dp (i + len) (f_add ci mc) len dist else Ok dp) in
      try_matches k' cm n i sub (len + 1) dp
  end.
Definition try_all (cm : cost_model) (data : list Z) (i : Z) (m : sublen * Z) (dp : list dp_row) : res (list dp_row) :=
  let '(sub, maxl) := m in
  try_matches (Z.to_nat (maxl - MIN_MATCH_LENGTH + 1)) cm (zlen data) i sub MIN_MATCH_LENGTH dp.
(** lz77.rs 1022-1027 (= 1099-1104) *)
Definition try_literal (cm : cost_model) (data : list Z) (i : Z) (dp : list dp_row) : res (list dp_row) :=
  let* (ci, _, _) := get dp i in
  let* b := get data i in
  let* lc := literal_cost cm b in
  relax dp (i + 1) (f_add ci lc) 1 0.
(** lz77.rs 1009-1013, 1084-1088 *)
Definition dp_init (n : nat) : list dp_row := (f_zero, 0, 0) :: repeat (f_max, 0, 0) n.
(** the resets of lz77.rs 1002-1004, 1077-1079: the two-way table is left alone *)
Definition reset_tables (st : tables) : tables :=
  mk_tables (fun _ => -1) (fun _ => -1) (t_ht0 st) (t_ht1 st) (fun _ => -1).

(** lz77.rs 1145-1200: the second backward walk; the first one only repeats its
    reads.  Most recent token first. *)
Fixpoint walk_back (fuel : nat) (dp : list dp_row) (p : Z) : res (list (Z * Z)) :=
  if p <=? 0 then Ok []
  else match fuel with
       | O => NoFuel
       | S f =>
           let* (_, len, dist) := get dp p in
           if len =? 0 then Ok []
           else let* q := usub p len in
                let* r := walk_back f dp q in Ok ((len, dist) :: r)
       end.
(** lz77.rs 1179-1199 *)
Fixpoint emit_tokens (data : list Z) (pos : Z) (l : list (Z * Z)) : res (list token) :=
  match l with
  | [] => Ok []
  | (len, dist) :: r =>
      let* t := (if dist =? 0 then let* b := get data pos in Ok (TLit b) else Ok (TMatch len dist)) in
      let* ts := emit_tokens data (pos + len) r in
      Ok (t :: ts)
  end.
Definition trace_backwards (dp : list dp_row) (data : list Z) : res (list token) :=
  let* l := walk_back (length data) dp (zlen data) in
  emit_tokens data 0 (rev l).

Section Opt.
  Variables (cfg : config) (data : list Z) (cm : cost_model).
  (** lz77.rs 1016-1049: [for i in i..i+k] *)
  Fixpoint opt_loop (k : nat) (i : Z) (st : tables) (dp : list dp_row) : res (tables * list dp_row) :=
    match k with
    | O => Ok (st, dp)
    | S k' =>
        let* (ci, _, _) := get dp i in
        if f_ge ci f_max then opt_loop k' (i + 1) st dp
        else
          let* dp := try_literal cm data i dp in
          let* m := find_match_with_sublen cfg st data i in
          let* dp := try_all cm data i m dp in
          let* st := update_hash st data i in
          opt_loop k' (i + 1) st dp
    end.
  (** lz77.rs 996-1053 *)
  Definition compress_optimal (st : tables) : res (list token * tables) :=
    match data with
    | [] => Ok ([], st)
    | _ =>
        let* (st, dp) := opt_loop (length data) 0 (reset_tables st) (dp_init (length data)) in
        let* ts := trace_backwards dp data in
        Ok (ts, st)
    end.

  (** lz77.rs 91-144: one entry per position; [get]/[set] outside do nothing *)
  Notation cache := (list (sublen * Z)) (only parsing).
  Definition cache_get (c : cache) (i : Z) : sublen * Z :=
    match get c i with Ok e => e | _ => (no_sublen, 0) end.
  (** [max_length as u16] *)
  Definition cache_set (c : cache) (i : Z) (e : sublen * Z) : cache :=
    upd c (Z.to_nat i) (fst e, wrap 16 (snd e)).
  Definition is_populated (c : cache) : bool := existsb (fun e => 0 <? snd e) c.

  (** lz77.rs 1094-1137 *)
  Fixpoint opt_loop_cached (use : bool) (k : nat) (i : Z) (st : tables) (c : cache) (dp : list dp_row)
    : res (tables * cache * list dp_row) :=
    match k with
    | O => Ok (st, c, dp)
    | S k' =>
        let* (ci, _, _) := get dp i in
        if f_ge ci f_max then opt_loop_cached use k' (i + 1) st c dp
        else
          let* dp := try_literal cm data i dp in
          let* (st, c) :=
            (if use then Ok (st, c)
             else
               let* m := find_match_with_sublen cfg st data i in
               let* st := update_hash st data i in
               Ok (st, cache_set c i m)) in
          let* dp := try_all cm data i (cache_get c i) dp in
          opt_loop_cached use k' (i + 1) st c dp
    end.
  (** lz77.rs 1066-1141 *)
  Definition compress_optimal_cached (st : tables) (c : cache) : res (list token * tables * cache) :=
    match data with
    | [] => Ok ([], st, c)
    | _ =>
        let use := is_populated c in
        let* (st, c, dp) := opt_loop_cached use (length data) 0 (if use then st else reset_tables st) c (dp_init (length data)) in
        let* ts := trace_backwards dp data in
        Ok (ts, st, c)
    end.
End Opt.
(** lz77.rs 113-117 *)
Definition cache_new (n : nat) : list (list Z * Z) := repeat (no_sublen, 0) n.

(** ** The iterated encoders *)
(** deflate.rs 330-336, 788-794 *)
Fixpoint total_cost (cm : cost_model) (ts : list token) (acc : f32) : res f32 :=
  match ts with
  | [] => Ok acc
  | TLit b :: r => let* c := literal_cost cm b in total_cost cm r (f_add acc c)
  | TMatch l d :: r => let* c := match_cost cm l d in total_cost cm r (f_add acc c)
  end.
(** the f32 nearest to 0.001: 8589935 * 2^-33 *)
Definition F32_0_001 : f32 := f_const 8589935 (-33).
(** deflate.rs 338, 796 *)
Definition converged (iter : Z) (prev cost : f32) : bool :=
  (2 <? iter) && f_lt (SFabs (f_sub prev cost)) (f_mul cost F32_0_001).
(** deflate.rs 345-350, 804-809: [(old as f32 * 0.5 + new as f32) as u32] *)
Definition blend1 (old new : Z) : Z :=
  f_to_Z 0 (U32 - 1) (f_add (f_mul (f_of_Z old) (f_const 1 (-1))) (f_of_Z new)).
Fixpoint blend (old new : list Z) : list Z :=
  match old, new with a :: r, b :: s => blend1 a b :: blend r s | _, _ => [] end.

Section Iterate.
  Variables (H : heap) (E : estimator) (log2 : f32 -> f32) (data : list Z).
  (** deflate.rs 315-354; [k] iterations are left *)
  Fixpoint refine (k : nat) (iter : Z) (st : tables) (c : list (list Z * Z)) (lc dc : list Z) (prev : f32) (best : list Z)
    : res (list Z) :=
    match k with
    | O => Ok best
    | S k' =>
        let* cm := cost_from_statistics log2 lc dc in
        let* (ts, st, c) := compress_optimal_cached (lz_config 9) data cm st c in
        let* out := encode_dynamic_huffman H ts in
        let best := if zlen out <? zlen best then out else best in
        let* (lc', dc') := count_symbols ts in
        let* cost := total_cost cm ts f_zero in
        if converged iter prev cost then Ok best
        else refine k' (iter + 1) st c (blend lc lc') (blend dc dc') cost best
    end.
  (** deflate.rs 291-357 *)
  Definition deflate_optimal (iterations : Z) : res (list Z) :=
    match data with
    | [] => empty_deflate_fixed_block
    | _ =>
        let* (ts, st) := compress_into (lz_config 9) empty_tables [] data in
        let* (lc, dc) := count_symbols ts in
        let* best := encode_dynamic_huffman H ts in
        refine (Z.to_nat iterations) 0 st (cache_new (length data)) lc dc f_max best
    end.
  (** deflate.rs 780-810: the tokens of the last iteration *)
  Fixpoint refine_tokens (k : nat) (iter : Z) (st : tables) (c : list (list Z * Z)) (lc dc : list Z) (prev : f32) (best : list token)
    : res (list token * tables) :=
    match k with
    | O => Ok (best, st)
    | S k' =>
        let* cm := cost_from_statistics log2 lc dc in
        let* (ts, st, c) := compress_optimal_cached (lz_config 9) data cm st c in
        let* (lc', dc') := count_symbols ts in
        let* cost := total_cost cm ts f_zero in
        if converged iter prev cost then Ok (ts, st)
        else refine_tokens k' (iter + 1) st c (blend lc lc') (blend dc dc') cost ts
    end.
  (** deflate.rs 762-851 *)
  Definition deflate_optimal_split (iterations maxb : Z) : res (list Z) :=
    match data with
    | [] => empty_deflate_fixed_block
    | _ =>
        let* (ts, st) := compress_into (lz_config 9) empty_tables [] data in
        let* (lc, dc) := count_symbols ts in
        let* (best, st) := refine_tokens (Z.to_nat iterations) 0 st (cache_new (length data)) lc dc f_max ts in
        if existsb (fun t => match t with TMatch _ d => d =? 0 | _ => false end) best then
          let* (ts, _) := compress_into (lz_config 9) st [] data in
          encode_best_huffman H ts
        else
          let* splits := find_block_splits E best maxb in
          match splits with
          | [] => let* w := write_dynamic_huffman_block H b64_new best true in Ok (b64_finish w)
          | _ => let* w := write_blocks H b64_new best (0 :: splits ++ [zlen best]) in Ok (b64_finish w)
          end
    end.
  (** deflate.rs 854-874 *)
  Definition deflate_optimal_split_zlib (iterations maxb : Z) : res (list Z) :=
    match data with
    | [] => empty_zlib 9
    | _ => let* o := deflate_optimal_split iterations maxb in Ok (zlib_wrap 9 data o)
    end.
  (** deflate.rs 371-398 *)
  Definition deflate_optimal_zlib (iterations : Z) : res (list Z) :=
    match data with
    | [] => empty_zlib 9
    | _ =>
        if 512 * 1024 <? zlen data
        then let* o := deflate_optimal iterations in Ok (zlib_wrap 9 data o)
        else deflate_optimal_split_zlib iterations 15
    end.
End Iterate.
