(** Work shared between threads (feature [parallel]): rayon's [par_chunks_mut] and
    [par_iter().map().collect()].  A task only reads shared input and only writes its own part
    of the result.  Threads are modelled as an arbitrary interleaving of the single writes of
    all tasks; how rayon divides tasks among threads does not matter then. *)
From Verif Require Import Base Lz77Model PngFilterModel PngPaletteModel F32Model ResizeModel JpegBaseModel JpegEncModel.

(** what several threads do, one step at a time, in any order that respects each thread *)
Inductive schedule {A : Type} : list (list A) -> list A -> Prop :=
| sch_done ls : Forall (fun t => t = []) ls -> schedule ls []
| sch_step a x t b l : schedule (a ++ t :: b) l -> schedule (a ++ (x :: t) :: b) (x :: l).
(** writes [(index, value)] to a buffer *)
Definition run_writes {V : Type} (ws : list (nat * V)) (buf : list V) : list V :=
  fold_left (fun b w => upd b (fst w) (snd w)) ws buf.
(** the writes of task [k], which fills chunk [k] from left to right *)
Definition row_task {V : Type} (stride k : nat) (row : list V) : list (nat * V) :=
  combine (seq (k * stride) (length row)) row.
Definition row_tasks {V : Type} (stride : nat) (rows : list (list V)) : list (list (nat * V)) :=
  map (fun p => row_task stride (fst p) (snd p)) (combine (seq 0 (length rows)) rows).
(** [buf.par_chunks_mut(stride).enumerate().for_each(..)] with [f k] the contents of chunk
    [k]: all possible outcomes.  The buffers in use are whole multiples of [stride] long.  A
    row of another length than its chunk counts as a panic (with a short one the code would
    leave zeros, see [zlen] in PropResize.v). *)
Inductive par_rows {V : Type} (stride : nat) (f : Z -> res (list V)) (buf : list V) : res (list V) -> Prop :=
| par_done rows ws : map_res f (idxs (length buf / stride)) = Ok rows -> Forall (fun r => length r = stride) rows ->
    schedule (row_tasks stride rows) ws -> par_rows stride f buf (Ok (run_writes ws buf))
| par_panic k : (k < length buf / stride)%nat -> (forall r, f (Z.of_nat k) = Ok r -> length r <> stride) -> par_rows stride f buf Panic.
(** [items.par_iter().map(f).collect()]: slot [k] of a fresh vector gets [f items[k]];
    [fresh] is whatever its memory holds *)
Definition par_map {A V : Type} (f : A -> res V) (items : list A) (fresh : list V) (r : res (list V)) : Prop :=
  length fresh = length items /\ par_rows 1 (fun k => let* a := get items k in let* v := f a in Ok [v]) fresh r.

(** resize.rs 535-549, 566-584: the two passes with threads; [temp] and [output] start as
    they are allocated *)
Definition h_row (data : list Z) (sw bpp : Z) (hc : list (Z * list f32)) (y : Z) : res (list Z) :=
  let* row := slice_r data (y * (sw * bpp)) (y * (sw * bpp) + sw * bpp) in
  let* l := map_res (resample (fun c x => get row (x * bpp + c)) bpp) hc in Ok (concat l).
Definition v_row (temp : list Z) (dw bpp : Z) (vc : list (Z * list f32)) (dy : Z) : res (list Z) :=
  let* con := get vc dy in
  rows dw (fun dx => resample (fun c y => get temp (y * (dw * bpp) + dx * bpp + c)) bpp con).
Inductive lanczos_threads (sin : f32 -> f32) (data : list Z) (sw sh dw dh bpp : Z) : res (list Z) -> Prop :=
| two_passes hc vc temp r : precompute_contributions sin sw dw = Ok hc -> precompute_contributions sin sh dh = Ok vc ->
    par_rows (Z.to_nat (dw * bpp)) (h_row data sw bpp hc) (repeat 0 (Z.to_nat (sh * dw * bpp))) (Ok temp) ->
    par_rows (Z.to_nat (dw * bpp)) (v_row temp dw bpp vc) (repeat 0 (Z.to_nat (dh * dw * bpp))) r ->
    lanczos_threads sin data sw sh dw dh bpp r
| first_pass_fails hc vc : precompute_contributions sin sw dw = Ok hc -> precompute_contributions sin sh dh = Ok vc ->
    par_rows (Z.to_nat (dw * bpp)) (h_row data sw bpp hc) (repeat 0 (Z.to_nat (sh * dw * bpp))) Panic ->
    lanczos_threads sin data sw sh dw dh bpp Panic
| weights_fail : precompute_contributions sin sw dw = Panic \/ precompute_contributions sin sh dh = Panic -> lanczos_threads sin data sw sh dw dh bpp Panic.

(** png/filter.rs 574-608 with threads *)
Definition filters_threads (data : list Z) (height row_bytes bpp : Z) (s : strategy) : res (list Z) -> Prop :=
  par_rows (Z.to_nat (row_bytes + 1)) (parallel_row data row_bytes bpp s) (repeat 0 (Z.to_nat ((row_bytes + 1) * height))).

(** jpeg/mod.rs 927-929: coefficients by component *)
Definition coeffs : Type := list (list Z) * list (list Z) * list (list Z).
Definition of_comp (c : Z) (m : list (Z * list Z)) : list (list Z) := map snd (filter (fun p => fst p =? c) m).
(** the [push]es and [extend]s of 1073, 1098-1100, 1124-1126, 1221-1223, 1239-1243 *)
Definition push_mcu (acc : coeffs) (m : list (Z * list Z)) : coeffs :=
  let '(ys, cbs, crs) := acc in (ys ++ of_comp 0 m, cbs ++ of_comp 1 m, crs ++ of_comp 2 m).
(** jpeg/mod.rs 1048-1132: two nested loops *)
Definition coefficients_sequential (q : list Z -> list Z -> list Z) (data : list Z) (o : jopts) : res coeffs :=
  let step := mcu_step o in
  fold_res (fun acc y => fold_res (fun acc x => let* m := mcu_coefs q data o (x * step, y * step) in Ok (push_mcu acc m))
    (idxs (Z.to_nat (pad_to (jo_w o) step / step))) acc) (idxs (Z.to_nat (pad_to (jo_h o) step / step))) ([], [], []).
(** 1137-1248: a list of corners, a parallel map, and the results taken apart *)
Inductive coefficients_threads (q : list Z -> list Z -> list Z) (data : list Z) (o : jopts) : res coeffs -> Prop :=
| ct_done fresh mcus : par_map (mcu_coefs q data o) (corners (jo_w o) (jo_h o) (mcu_step o)) fresh (Ok mcus) ->
    coefficients_threads q data o (Ok (fold_left push_mcu mcus ([], [], [])))
| ct_panic fresh : par_map (mcu_coefs q data o) (corners (jo_w o) (jo_h o) (mcu_step o)) fresh Panic -> coefficients_threads q data o Panic.
