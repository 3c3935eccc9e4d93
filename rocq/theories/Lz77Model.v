(** Model of src/compress/lz77.rs: the greedy/lazy matcher, the hash-table
    matcher of level 1, and the packed token representation.

    Conventions.  Hash tables are total functions from index to entry together
    with an explicit bounds check on every access ([tget]/[tset]); an access
    outside the Rust [Vec] panics.  [usize] additions on positions never
    overflow because slice lengths are at most [isize::MAX]; they are plain
    additions here.  [usize] subtraction panics below zero ([usub]). *)
From Verif Require Import Base DeflateSpec.

(** lz77.rs 14-34 *)
Definition MAX_DISTANCE : Z := 32768.
Definition MAX_MATCH_LENGTH : Z := 258.
Definition MIN_MATCH_LENGTH : Z := 3.
Definition GOOD_MATCH_LENGTH : Z := 16.
Definition HASH_SIZE : Z := 65536.
Definition HASH3_SIZE : Z := 32768.
Definition HT_HASH_SIZE : Z := 32768.

(** [a - b] on usize *)
Definition usub (a b : Z) : res Z := if a <? b then Panic else Ok (a - b).
(** [x as i32] for a usize [x] *)
Definition as_i32 (x : Z) : Z := let w := wrap 32 x in if w <? 2 ^ 31 then w else w - 2 ^ 32.
(** [&data[i..j]] *)
Definition slice_r {A} (l : list A) (i j : Z) : res (list A) :=
  if (0 <=? i) && (i <=? j) && (j <=? zlen l) then Ok (slice l i j) else Panic.

(** little-endian integer from bytes ([u32::from_le_bytes], [u64::from_ne_bytes]
    on a little-endian target) *)
Fixpoint le_val (l : list Z) : Z := match l with [] => 0 | b :: r => b + 256 * le_val r end.

(** lz77.rs 58-191: packed tokens *)
Definition LITERAL_FLAG : Z := 2 ^ 31.
(** lz77.rs 152-154 *)
Definition pack_literal (b : Z) : Z := Z.lor LITERAL_FLAG b.
(** lz77.rs 157-164; the debug assertion and the u16 subtraction both panic at 0 *)
Definition pack_match (len dist : Z) : res Z :=
  if dist <? 1 then Panic else Ok (Z.lor (wrap 32 (Z.shiftl (dist - 1) 16)) len).
(** lz77.rs 167-169 *)
Definition packed_is_literal (v : Z) : bool := negb (Z.land v LITERAL_FLAG =? 0).
(** lz77.rs 172-178 *)
Definition packed_as_literal (v : Z) : option Z :=
  if packed_is_literal v then Some (wrap 8 v) else None.
(** lz77.rs 181-190; [+ 1] on u16 panics at 65535 *)
Definition packed_as_match (v : Z) : res (option (Z * Z)) :=
  if packed_is_literal v then Ok None
  else let d := wrap 16 (Z.shiftr v 16) in
       if d =? 65535 then Panic else Ok (Some (Z.land v 65535, d + 1)).

(** lz77.rs 239-246 *)
Definition hash4 (data : list Z) (pos : Z) : res Z :=
  if zlen data <=? pos + 3 then Ok 0
  else let* l := slice_r data pos (pos + 4) in
       Ok (Z.land (Z.shiftr (wrap 32 (le_val l * 506832829)) 16) (HASH_SIZE - 1)).
(** lz77.rs 250-256 *)
Definition hash3 (data : list Z) (pos : Z) : res Z :=
  if zlen data <=? pos + 2 then Ok 0
  else let* l := slice_r data pos (pos + 3) in
       Ok (Z.land (Z.shiftr (wrap 32 (le_val l * 506832829)) 17) (HASH3_SIZE - 1)).
(** lz77.rs 320-326 *)
Definition hash4_ht (data : list Z) (pos : Z) : res Z :=
  if zlen data <=? pos + 3 then Ok 0
  else let* l := slice_r data pos (pos + 4) in
       Ok (Z.land (Z.shiftr (wrap 32 (le_val l * 506832829)) 17) (HT_HASH_SIZE - 1)).

(** lz77.rs 299-306: walk the chunk that is not all equal *)
Fixpoint run_chunk (chunk : list Z) (byte len maxr : Z) : Z :=
  match chunk with
  | [] => len
  | b :: r => if (b =? byte) && (len <? maxr) then run_chunk r byte (len + 1) maxr else len
  end.
(** lz77.rs 311-313 *)
Fixpoint run_tail (fuel : nat) (data : list Z) (pos byte len maxr : Z) : res Z :=
  if negb (len <? maxr) then Ok len else
  match fuel with
  | O => NoFuel
  | S f => let* b := get data (pos + len) in
           if b =? byte then run_tail f data pos byte (len + 1) maxr else Ok len
  end.
(** lz77.rs 293-315 *)
Fixpoint run_words (fuel : nat) (data : list Z) (pos byte len maxr : Z) : res Z :=
  if negb (len + 8 <=? maxr) then run_tail 8 data pos byte len maxr else
  match fuel with
  | O => NoFuel
  | S f => let* chunk := slice_r data (pos + len) (pos + len + 8) in
           if forallb (fun b => b =? byte) chunk then run_words f data pos byte (len + 8) maxr
           else Ok (run_chunk chunk byte len maxr)
  end.
(** lz77.rs 272-316 *)
Definition detect_same_byte_run (data : list Z) (pos : Z) : res Z :=
  if zlen data <=? pos then Ok 0
  else if zlen data <=? pos + 1 then Ok 1
  else let* byte := get data pos in
       let maxr := Z.min (zlen data - pos) MAX_MATCH_LENGTH in
       let* nb := get data (pos + 1) in
       if negb (nb =? byte) then Ok 1
       else run_words 40 data pos byte 2 maxr.

(** number of trailing zero bits of a 64-bit word *)
Fixpoint ctz (n : nat) (x : Z) : Z :=
  match n with O => 0 | S n' => if Z.odd x then 0 else 1 + ctz n' (x / 2) end.
(** lz77.rs 856-858; simd/fallback.rs 84-86 *)
Fixpoint match_tail (fuel : nat) (data : list Z) (p1 p2 len maxl : Z) : res Z :=
  if negb (len <? maxl) then Ok len else
  match fuel with
  | O => NoFuel
  | S f => let* a := get data (p1 + len) in
           let* b := get data (p2 + len) in
           if a =? b then match_tail f data p1 p2 (len + 1) maxl else Ok len
  end.
(** lz77.rs 836-853; simd/fallback.rs 65-81 (little-endian target) *)
Fixpoint match_words (fuel : nat) (data : list Z) (p1 p2 len maxl : Z) : res Z :=
  if negb (len + 8 <=? maxl) then match_tail 8 data p1 p2 len maxl else
  match fuel with
  | O => NoFuel
  | S f => let* wa := slice_r data (p1 + len) (p1 + len + 8) in
           let* wb := slice_r data (p2 + len) (p2 + len + 8) in
           let a := le_val wa in let b := le_val wb in
           if negb (a =? b) then Ok (len + ctz 64 (Z.lxor a b) / 8)
           else match_words f data p1 p2 (len + 8) maxl
  end.
(** lz77.rs 832-861 = simd/fallback.rs 61-89 *)
Definition match_length_scalar (data : list Z) (p1 p2 maxl : Z) : res Z :=
  match_words (Z.to_nat maxl) data p1 p2 0 maxl.
(** lz77.rs 816-828.  The SIMD dispatch is modelled by the scalar routine;
    the vector ones (SimdModel.v) are equal to it, PropSimd.v. *)
Definition match_length (data : list Z) (p1 p2 : Z) : res Z :=
  let* r := usub (zlen data) p2 in
  match_length_scalar data p1 p2 (Z.min r MAX_MATCH_LENGTH).

(** ** Tables *)
Definition table := Z -> Z.
Definition tget (n : Z) (t : table) (i : Z) : res Z :=
  if (0 <=? i) && (i <? n) then Ok (t i) else Panic.
Definition tset (n : Z) (t : table) (i v : Z) : res table :=
  if (0 <=? i) && (i <? n) then Ok (fun j => if j =? i then v else t j) else Panic.

(** lz77.rs 363-374, without the configuration *)
Record tables : Type := mk_tables {
  t_head : table; t_head3 : table; t_ht0 : table; t_ht1 : table; t_prev : table }.
(** the [fill(-1)] resets, lz77.rs 423-428; also the initial state 383-388 *)
Definition empty_tables : tables :=
  mk_tables (fun _ => -1) (fun _ => -1) (fun _ => -1) (fun _ => -1) (fun _ => -1).

(** lz77.rs 61-77 *)
Inductive lazy_kind : Type := LazyNone | Lazy1 | Lazy2.
Record config : Type := mk_config {
  c_chain : Z; c_depth : Z; c_nice : Z; c_lazy : lazy_kind; c_ht : bool }.
(** lz77.rs 1415-1488 *)
Definition config_for_level (level : Z) : config :=
  if level =? 1 then mk_config 4 4 32 LazyNone true
  else if level =? 2 then mk_config 8 6 10 LazyNone false
  else if level =? 3 then mk_config 16 12 14 LazyNone false
  else if level =? 4 then mk_config 32 16 30 LazyNone false
  else if level =? 5 then mk_config 64 16 30 Lazy1 false
  else if level =? 6 then mk_config 128 35 65 Lazy1 false
  else if level =? 7 then mk_config 256 100 130 Lazy1 false
  else if level =? 8 then mk_config 1024 300 MAX_MATCH_LENGTH Lazy2 false
  else mk_config 4096 600 MAX_MATCH_LENGTH Lazy2 false.
(** lz77.rs 378-381 *)
Definition lz_config (level : Z) : config := config_for_level (Z.max 1 (Z.min level 9)).

(** lz77.rs 864-876 *)
Definition update_hash (st : tables) (data : list Z) (pos : Z) : res tables :=
  if zlen data <=? pos + 3 then Ok st
  else
    let* h3 := hash3 data pos in
    let* t3 := tset HASH3_SIZE (t_head3 st) h3 (as_i32 pos) in
    let* h := hash4 data pos in
    let* old := tget HASH_SIZE (t_head st) h in
    let* pv := tset MAX_DISTANCE (t_prev st) (pos mod MAX_DISTANCE) old in
    let* hd := tset HASH_SIZE (t_head st) h (as_i32 pos) in
    Ok (mk_tables hd t3 (t_ht0 st) (t_ht1 st) pv).
(** [for i in 0..n { update_hash(data, pos + i) }] *)
Fixpoint update_range (n : nat) (st : tables) (data : list Z) (pos : Z) : res tables :=
  match n with
  | O => Ok st
  | S n' => let* st' := update_hash st data pos in update_range n' st' data (pos + 1)
  end.
(** lz77.rs 566-577 (and 448-457) *)
Definition update_match (st : tables) (data : list Z) (pos len dist : Z) : res tables :=
  if (dist =? 1) && (MIN_MATCH_LENGTH <=? len) then
    let* st1 := update_hash st data pos in
    if 1 <? len then update_hash st1 data (pos + len - 1) else Ok st1
  else update_range (Z.to_nat len) st data pos.

(** lz77.rs 657-659, 723-725: does (len, dist) replace the best match? *)
Definition better (minl len dist bl bd : Z) : bool :=
  (minl <=? len) && negb ((len =? 3) && (8192 <? dist)) &&
  ((bl <? len) || ((len =? bl) && (dist <? bd))).

(** lz77.rs 678-687 / 704-710: the 4-byte word at a position, if there is one *)
Definition prefix4 (data : list Z) (pos : Z) : res (option Z) :=
  if pos + 4 <=? zlen data
  then let* l := slice_r data pos (pos + 4) in Ok (Some (le_val l))
  else Ok None.

(** lz77.rs 689-739; [fuel] is chain_remaining *)
Fixpoint chain_loop (fuel : nat) (st : tables) (data : list Z) (pos nice minl : Z)
    (target : option Z) (cp bl bd : Z) : res (Z * Z) :=
  match fuel with
  | O => Ok (bl, bd)
  | S f =>
      if cp <? 0 then Ok (bl, bd)
      else
        let* d := usub pos cp in
        if d =? 0 then
          let* nx := tget MAX_DISTANCE (t_prev st) (cp mod MAX_DISTANCE) in
          chain_loop f st data pos nice minl target nx bl bd
        else if Z.min pos MAX_DISTANCE <? d then Ok (bl, bd)
        else
          let* cand := (match target with None => Ok None | Some _ => prefix4 data cp end) in
          if (match target, cand with Some p, Some c => negb (c =? p) | _, _ => false end) then
            let* nx := tget MAX_DISTANCE (t_prev st) (cp mod MAX_DISTANCE) in
            chain_loop f st data pos nice minl target nx bl bd
          else
            let* len := match_length data cp pos in
            let '(bl', bd', stop) :=
              if better minl len d bl bd
              then (len, d, (MAX_MATCH_LENGTH <=? len) || (nice <=? len))
              else (bl, bd, false) in
            if stop then Ok (bl', bd')
            else
              let* nx := tget MAX_DISTANCE (t_prev st) (cp mod MAX_DISTANCE) in
              chain_loop f st data pos nice minl target nx bl' bd'
  end.

(** lz77.rs 639-669: the length-3 singleton probe.  [inr]: early return. *)
Definition probe3 (st : tables) (data : list Z) (pos nice minl bl bd : Z)
  : res ((Z * Z) + (Z * Z)) :=
  let* h3 := hash3 data pos in
  let* c3 := tget HASH3_SIZE (t_head3 st) h3 in
  if c3 <? 0 then Ok (inl (bl, bd))
  else
    let* d := usub pos c3 in
    if d =? 0 then Ok (inl (bl, bd))
    else if (d <=? MAX_DISTANCE) && (c3 + 3 <=? zlen data) then
      let* a := slice_r data pos (pos + 3) in
      let* b := slice_r data c3 (c3 + 3) in
      if le_val a =? le_val b then
        let* l0 := match_length data c3 pos in
        let len := Z.min l0 MAX_MATCH_LENGTH in
        if better minl len d bl bd
        then if nice <=? len then Ok (inr (len, d)) else Ok (inl (len, d))
        else Ok (inl (bl, bd))
      else Ok (inl (bl, bd))
    else Ok (inl (bl, bd)).

(** lz77.rs 620, 634: inside a run of equal bytes that started before [pos] *)
Definition in_run (data : list Z) (pos run minl : Z) : res bool :=
  if (minl <=? run) && (1 <=? pos)
  then let* a := get data (pos - 1) in let* b := get data pos in Ok (a =? b)
  else Ok false.

(** lz77.rs 605-749 *)
Definition find_best_match (st : tables) (data : list Z) (pos chain_limit nice minl : Z)
  : res (option (Z * Z)) :=
  if zlen data <? pos + MIN_MATCH_LENGTH then Ok None
  else
    let* run := detect_same_byte_run data pos in
    let* r := in_run data pos run minl in
    if r && ((nice <=? run) || (MAX_MATCH_LENGTH <=? run))
    then Ok (Some (Z.min run MAX_MATCH_LENGTH, 1))
    else
      let '(bl, bd) := if r then (run, 1) else (Z.max 0 (minl - 1), 0) in
      let* p := probe3 st data pos nice minl bl bd in
      match p with
      | inr m => Ok (Some m)
      | inl (bl, bd) =>
          let* h := hash4 data pos in
          let* cp := tget HASH_SIZE (t_head st) h in
          let* target := prefix4 data pos in
          let* (bl, bd) := chain_loop (Z.to_nat chain_limit) st data pos nice minl target cp bl bd in
          if minl <=? bl then Ok (Some (bl, bd)) else Ok None
      end.

(** lz77.rs 775-802: the two bucket entries *)
Fixpoint ht_loop (cands : list Z) (data : list Z) (pos nice minl bl bd : Z) : res (Z * Z) :=
  match cands with
  | [] => Ok (bl, bd)
  | c :: r =>
      if c <? 0 then ht_loop r data pos nice minl bl bd
      else
        let* d := usub pos c in
        if (d =? 0) || (MAX_DISTANCE <? d) || (zlen data <? c + 3)
        then ht_loop r data pos nice minl bl bd
        else
          let* a := slice_r data pos (pos + 3) in
          let* b := slice_r data c (c + 3) in
          if negb (le_val a =? le_val b) then ht_loop r data pos nice minl bl bd
          else
            let* l0 := match_length data c pos in
            let len := Z.min l0 MAX_MATCH_LENGTH in
            if (len <? minl) || ((len =? 3) && (8192 <? d))
            then ht_loop r data pos nice minl bl bd
            else if bl <? len
            then if nice <=? len then Ok (len, d) else ht_loop r data pos nice minl len d
            else ht_loop r data pos nice minl bl bd
  end.
(** lz77.rs 752-812 *)
Definition find_best_match_ht (st : tables) (data : list Z) (pos nice minl : Z)
  : res (option (Z * Z) * tables) :=
  if zlen data <? pos + MIN_MATCH_LENGTH then Ok (None, st)
  else
    let* h := hash4_ht data pos in
    let* c0 := tget HT_HASH_SIZE (t_ht0 st) h in
    let* c1 := tget HT_HASH_SIZE (t_ht1 st) h in
    let* b1 := tset HT_HASH_SIZE (t_ht1 st) h c0 in
    let* b0 := tset HT_HASH_SIZE (t_ht0 st) h (as_i32 pos) in
    let st' := mk_tables (t_head st) (t_head3 st) b0 b1 (t_prev st) in
    let* (bl, bd) := ht_loop [c0; c1] data pos nice minl (Z.max 0 (minl - 1)) 0 in
    if minl <=? bl then Ok (Some (bl, bd), st') else Ok (None, st').

(** lz77.rs 342-360 *)
Definition choose_min_match_len (num_used depth : Z) : Z :=
  if depth <=? 4 then MIN_MATCH_LENGTH
  else
    let m := MIN_MATCH_LENGTH in
    let m := if 32 <? num_used then 4 else m in
    let m := if (64 <? num_used) && (10 <=? depth) then 5 else m in
    let m := if (96 <? num_used) && (20 <=? depth) then 6 else m in
    Z.min m MAX_MATCH_LENGTH.
(** lz77.rs 330-338: number of distinct bytes *)
Fixpoint count_used (used : list bool) (n : Z) (l : list Z) : res Z :=
  match l with
  | [] => Ok n
  | b :: r => let* u := get used b in
              if u then count_used used n r
              else count_used (upd used (Z.to_nat b) true) (n + 1) r
  end.
(** lz77.rs 329-340 *)
Definition calculate_min_match_len (data : list Z) (depth : Z) : res Z :=
  let* n := count_used (repeat false 256) 0 (slice data 0 (Z.min (zlen data) 4096)) in
  Ok (choose_min_match_len n depth).

(** lz77.rs 1399-1406 *)
Definition INCOMP_THRESHOLD : Z := 512.
Definition INCOMP_CHAIN : Z := 1.
Definition INCOMP_PROBE : Z := 256.
Definition INCOMP_UPDATE : Z := 64.
(** [usize::saturating_add(1)] *)
Definition sat_inc (x : Z) : Z := Z.min (x + 1) (2 ^ 64 - 1).

(** the local variables of compress_into_sink (lz77.rs 414-420), the tables,
    and the tokens pushed so far, most recent first.  A [TokenSink] only sees
    the sequence of pushes; lengths and distances are the [as u16] values. *)
Record lstate : Type := mk_ls {
  l_pos : Z; l_streak : Z; l_incomp : bool; l_probe : Z; l_upds : Z;
  l_pending : option (Z * Z); l_st : tables; l_out : list token }.

Definition push_match (out : list token) (len dist : Z) : list token :=
  TMatch (wrap 16 len) (wrap 16 dist) :: out.

(** lz77.rs 431-474: one iteration in incompressible mode *)
Definition step_incomp (cfg : config) (data : list Z) (minl : Z) (s : lstate) : res lstate :=
  let* hit :=
    (if INCOMP_PROBE <=? l_probe s
     then find_best_match (l_st s) data (l_pos s) (Z.min INCOMP_CHAIN (c_depth cfg)) (c_nice cfg) minl
     else Ok None) in
  match hit with
  | Some (len, dist) =>
      let* st' := update_match (l_st s) data (l_pos s) len dist in
      Ok (mk_ls (l_pos s + len) 0 false 0 (l_upds s) (l_pending s) st' (push_match (l_out s) len dist))
  | None =>
      let probe := if INCOMP_PROBE <=? l_probe s then 0 else l_probe s in
      let* b := get data (l_pos s) in
      let u := l_upds s + 1 in
      let* (st', u') :=
        (if INCOMP_UPDATE <=? u then let* t := update_hash (l_st s) data (l_pos s) in Ok (t, 0)
         else Ok (l_st s, u)) in
      Ok (mk_ls (l_pos s + 1) (sat_inc (l_streak s)) true (sat_inc probe) u' (l_pending s) st'
            (TLit b :: l_out s))
  end.

(** lz77.rs 488-498 and 530-545: search with the level's match finder *)
Definition search (cfg : config) (st : tables) (data : list Z) (pos chain minl : Z)
  : res (option (Z * Z) * tables) :=
  if c_ht cfg then find_best_match_ht st data pos (c_nice cfg) minl
  else let* m := find_best_match st data pos (Z.min chain (c_depth cfg)) (c_nice cfg) minl in
       Ok (m, st).

(** lz77.rs 476-590: one iteration in normal mode *)
Definition step_normal (cfg : config) (data : list Z) (minl : Z) (s : lstate) : res lstate :=
  let over := INCOMP_THRESHOLD <=? l_streak s in
  let chain := if over then INCOMP_CHAIN else c_chain cfg in
  let probe := if over then 0 else l_probe s in
  let* (best, st) :=
    (match l_pending s with
     | Some p => Ok (Some p, l_st s)
     | None => search cfg (l_st s) data (l_pos s) chain minl
     end) in
  match best with
  | Some (len, dist) =>
      if dist =? 0 then
        let* b := get data (l_pos s) in
        let* st' := update_hash st data (l_pos s) in
        Ok (mk_ls (l_pos s + 1) 0 false 0 (l_upds s) None st' (TLit b :: l_out s))
      else
        let lazy := match c_lazy cfg with LazyNone => false | _ => true end in
        let* (defer, st) :=
          (if lazy && (len <? c_nice cfg) && (len <? GOOD_MATCH_LENGTH) && (l_pos s + 1 <? zlen data)
           then
             let* st1 := update_hash st data (l_pos s) in
             let nchain := match c_lazy cfg with Lazy2 => Z.max (chain / 2) 1 | _ => chain end in
             let* (nm, st2) := search cfg st1 data (l_pos s + 1) nchain minl in
             Ok (match nm with
                 | Some (nl, nd) =>
                     if (len + 3 <=? nl) || (c_nice cfg <=? nl) then Some (nl, nd) else None
                 | None => None
                 end, st2)
           else Ok (None, st)) in
        match defer with
        | Some p =>
            let* b := get data (l_pos s) in
            Ok (mk_ls (l_pos s + 1) 0 false 0 (l_upds s) (Some p) st (TLit b :: l_out s))
        | None =>
            let* st' := update_match st data (l_pos s) len dist in
            Ok (mk_ls (l_pos s + len) 0 false 0 (l_upds s) None st' (push_match (l_out s) len dist))
        end
  | None =>
      let streak := sat_inc (l_streak s) in
      let enter := INCOMP_THRESHOLD <=? streak in
      let* b := get data (l_pos s) in
      let* st' := update_hash st data (l_pos s) in
      Ok (mk_ls (l_pos s + 1) streak (over || enter) (if enter then 0 else probe)
            (if enter then 0 else l_upds s) None st' (TLit b :: l_out s))
  end.

Definition lz_step (cfg : config) (data : list Z) (minl : Z) (s : lstate) : res lstate :=
  if l_incomp s then step_incomp cfg data minl s else step_normal cfg data minl s.

(** lz77.rs 430: [while pos < data.len()] *)
Fixpoint lz_loop (fuel : nat) (cfg : config) (data : list Z) (minl : Z) (s : lstate) : res lstate :=
  if negb (l_pos s <? zlen data) then Ok s else
  match fuel with
  | O => NoFuel
  | S f => let* s' := lz_step cfg data minl s in lz_loop f cfg data minl s'
  end.

(** lz77.rs 403-591.  [st] and [old] are the compressor's tables and the
    contents of the sink before the call. *)
Definition compress_into (cfg : config) (st : tables) (old : list token) (data : list Z)
  : res (list token * tables) :=
  match data with
  | [] => Ok ([], st)
  | _ =>
      let* minl := calculate_min_match_len data (c_depth cfg) in
      let* s := lz_loop (length data) cfg data minl
                  (mk_ls 0 0 false 0 0 None empty_tables []) in
      Ok (rev (l_out s), l_st s)
  end.

(** lz77.rs 229-234: what the packed sink stores for a push *)
Definition pack_token (t : token) : res Z :=
  match t with TLit b => Ok (pack_literal b) | TMatch l d => pack_match l d end.
Fixpoint map_res {A B} (f : A -> res B) (l : list A) : res (list B) :=
  match l with
  | [] => Ok []
  | x :: r => let* y := f x in let* ys := map_res f r in Ok (y :: ys)
  end.
(** lz77.rs 594-603 *)
Definition compress_packed_into (cfg : config) (st : tables) (old : list Z) (data : list Z)
  : res (list Z * tables) :=
  let* (ts, st') := compress_into cfg st [] data in
  let* ps := map_res pack_token ts in Ok (ps, st').
