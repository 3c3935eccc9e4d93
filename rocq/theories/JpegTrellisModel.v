(** src/jpeg/trellis.rs: trellis quantisation.  [powi(2)] is modelled as x * x. *)
From Verif Require Import Base PngFilterModel JpegBaseModel F32Model ResizeModel JpegDctModel.

(** trellis.rs 33-42 *)
Record tstate := mkts { ts_cost : f32; ts_run : Z; ts_parent : Z; ts_value : Z }.
(** 23, 26, 29 *)
Definition DEFAULT_LAMBDA : f32 := f_of_Z 1.
Definition MAX_STATES : nat := 8.

(** [i16] addition of 1 or -1, checked *)
Definition i16_add (a b : Z) : res Z := if (-32768 <=? a + b) && (a + b <=? 32767) then Ok (a + b) else Panic.
Definition contains (l : list Z) (x : Z) : bool := existsb (Z.eqb x) l.
Definition F1_5 : f32 := f_const 3 (-1).
(** 216-250; [a > b] is [b < a] *)
Definition generate_candidates (fq : f32) : res (list Z) :=
  let rounded := to_i16 (f_round fq) in
  let floor_val := to_i16 (f_floor fq) in
  let ceil_val := to_i16 (f_ceil fq) in
  let cs := [0] in
  let cs := if negb (floor_val =? 0) && negb (contains cs floor_val) then cs ++ [floor_val] else cs in
  let cs := if negb (rounded =? 0) && negb (contains cs rounded) then cs ++ [rounded] else cs in
  let cs := if negb (ceil_val =? 0) && negb (contains cs ceil_val) then cs ++ [ceil_val] else cs in
  if f_lt F1_5 (f_abs fq) then
    let* extended := if f_ge fq f_zero then i16_add ceil_val 1 else i16_add floor_val (-1) in
    Ok (if contains cs extended then cs else cs ++ [extended])
  else Ok cs.

(** 303-310: bits of the magnitude *)
Definition tcategory (v : Z) : Z := if v =? 0 then 0 else Z.log2 (Z.abs v) + 1.
(** 266-288; 0.3 is the binary32 number nearest to it *)
Definition F0_3 : f32 := f_const 10066330 (-25).
Definition estimate_ac_huffman_length (rs : Z) : f32 :=
  if rs =? 0x00 then f_of_Z 4 else if rs =? 0x01 then f_of_Z 2 else if rs =? 0x02 then f_const 5 (-1)
  else if rs =? 0x03 then f_of_Z 3 else if rs =? 0x04 then f_of_Z 4 else if rs =? 0x11 then f_of_Z 3
  else if rs =? 0x12 then f_of_Z 4 else if rs =? 0x21 then f_of_Z 4 else if rs =? 0xF0 then f_of_Z 10
  else f_add (f_add (f_of_Z 3) (f_mul (f_of_Z (Z.shiftr rs 4)) f_half)) (f_mul (f_of_Z (Z.land rs 15)) F0_3).
(** 252-264 *)
Definition estimate_ac_rate (value run : Z) : f32 :=
  let cat := tcategory value in
  f_add (estimate_ac_huffman_length (Z.lor (Z.shiftl run 4) cat)) (f_of_Z cat).
(** 290-297 *)
Definition ZRL_RATE : f32 := f_of_Z 10.
Definition EOB_RATE : f32 := f_of_Z 4.

(** 121-133: rate and new run *)
Definition rate_run (candidate run : Z) : f32 * Z :=
  if candidate =? 0 then
    let new_run := Z.min 255 (run + 1) in
    if new_run >=? 16 then (ZRL_RATE, 0) else (f_zero, new_run)
  else (estimate_ac_rate candidate run, 0).
(** 113-146: the state reached from [parent] with [candidate] *)
Definition next_state (lambda coef q : f32) (parent : tstate) (idx candidate : Z) : tstate :=
  let reconstructed := f_mul (f_of_Z candidate) q in
  let d := f_sub coef reconstructed in
  let distortion := f_mul d d in
  let '(rate, run) := rate_run candidate (ts_run parent) in
  mkts (f_add (f_add (ts_cost parent) rate) (f_mul lambda distortion)) run idx candidate.
Definition same_key (a b : tstate) : bool := (ts_value a =? ts_value b) && (ts_run a =? ts_run b).
(** 149-157: replace the state with the same key if cheaper, else append *)
Fixpoint merge_state (l : list tstate) (s : tstate) : list tstate :=
  match l with
  | [] => [s]
  | x :: l' => if same_key x s then (if f_lt (ts_cost s) (ts_cost x) then s else x) :: l' else x :: merge_state l' s
  end.
(** 161-165: a stable sort by cost.  No cost is a NaN (proved), so the comparison is a
    total preorder and every stable sort gives this list. *)
Fixpoint insert_state (s : tstate) (l : list tstate) : list tstate :=
  match l with
  | [] => [s]
  | x :: l' => if f_lt (ts_cost s) (ts_cost x) then s :: x :: l' else x :: insert_state s l'
  end.
Definition sort_states (l : list tstate) : list tstate := fold_left (fun acc s => insert_state s acc) l [].
(** the pairs of the two loops 110-111, in order *)
Definition number {A} (l : list A) : list (Z * A) := combine (idxs (length l)) l.
(** 102-169: one coefficient *)
Definition trellis_step (lambda : f32) (states : list tstate) (coef q : f32) : res (list tstate) :=
  let* candidates := generate_candidates (f_div coef q) in
  let next := fold_left (fun acc '(idx, parent) => fold_left (fun acc c => merge_state acc (next_state lambda coef q parent idx c)) candidates acc)
                        (number states) [] in
  Ok (firstn MAX_STATES (sort_states next)).
(** 88-175: the columns after the first; stops at an empty column *)
Fixpoint trellis_columns (lambda : f32) (states : list tstate) (ac : list (f32 * f32)) : res (list (list tstate)) :=
  match ac with
  | [] => Ok []
  | (coef, q) :: ac =>
      let* next := trellis_step lambda states coef q in
      match next with
      | [] => Ok [[]]
      | _ => let* rest := trellis_columns lambda next ac in Ok (next :: rest)
      end
  end.
(** 185-189: the first state of least cost *)
Fixpoint min_index (best : f32) (bi i : Z) (l : list tstate) : Z :=
  match l with
  | [] => bi
  | s :: l => if f_lt (ts_cost s) best then min_index (ts_cost s) i (i + 1) l else min_index best bi (i + 1) l
  end.
(** 178-183 *)
Definition with_eob (s : tstate) : tstate :=
  if ts_run s >? 0 then mkts (f_add (ts_cost s) EOB_RATE) (ts_run s) (ts_parent s) (ts_value s) else s.
(** 198-204: from the last column back to the first; values in forward order *)
Fixpoint walk_back (columns : list (list tstate)) (idx : Z) (acc : list Z) : list Z :=
  match columns with
  | [] => acc
  | col :: rest =>
      match nth_error col (Z.to_nat idx) with
      | Some s => walk_back rest (ts_parent s) (ts_value s :: acc)
      | None => walk_back rest idx (0 :: acc)
      end
  end.
(** 67-213; [table] holds the integers of the f32 table.  63 columns are walked: a
    shorter [all_states] (an empty column) would be an index out of range *)
Definition trellis_quantize (lambda : f32) (dct : list f32) (table : list Z) : res (list Z) :=
  let dc := quantize_one (fat dct 0) (znth table 0) in
  let ac := map (fun n => (fat dct (Z.to_nat n), f_of_Z (znth table n))) (skipn 1 ZIGZAG) in
  let* columns := trellis_columns lambda [mkts f_zero 0 0 0] ac in
  let last_ := map with_eob (last columns []) in
  match last_ with
  | [] => Ok (dc :: repeat 0 63)
  | s :: l =>
      if (length columns <? 63)%nat then Panic
      else
        let path := walk_back (rev columns) (min_index (ts_cost s) 0 1 l) [] in
        Ok (fold_left (fun r '(i, v) => upd r (Z.to_nat (znth ZIGZAG (i + 1))) v) (number path) (dc :: repeat 0 63))
  end.
(** mod.rs 970-976 with [use_trellis] *)
Definition dct_trellis (table samples : list Z) : res (list Z) :=
  trellis_quantize DEFAULT_LAMBDA (dct_2d (map sample_f samples)) table.

Example trellis_flat : dct_trellis (repeat 16 64) (repeat 160 64) = Ok (20 :: repeat 0 63). Proof. vm_compute. reflexivity. Qed.
