(** Model of src/compress/deflate.rs: symbol tables, Huffman block writers,
    stored blocks, block splitting, the reusable [Deflater] and the zlib
    container.

    Parameters of the model (universally quantified in the theorems):
    - [H : heap], the priority queue used by Huffman construction;
    - [E : estimator], the floating-point cost estimate that drives block
      splitting (deflate.rs 484-534).  Only the f64 arithmetic is abstract;
      the counting it performs is modelled.
    Buffer capacities ([Vec::with_capacity], estimated_deflate_size) have no
    observable effect and are not modelled. *)
From Coq Require Import Floats.SpecFloat.
From Verif Require Import Base BitsModel ChecksumModel DeflateSpec HuffModel Lz77Model.

(** deflate.rs 14-34 *)
Definition LENGTH_BASE : list Z :=
  [3;4;5;6;7;8;9;10;11;13;15;17;19;23;27;31;35;43;51;59;67;83;99;115;131;163;195;227;258].
Definition LENGTH_EXTRA : list Z :=
  [0;0;0;0;0;0;0;0;1;1;1;1;2;2;2;2;3;3;3;3;4;4;4;4;5;5;5;5;0].
Definition DISTANCE_BASE : list Z :=
  [1;2;3;4;5;7;9;13;17;25;33;49;65;97;129;193;257;385;513;769;1025;1537;2049;3073;4097;6145;
   8193;12289;16385;24577].
Definition DISTANCE_EXTRA : list Z :=
  [0;0;0;0;1;1;2;2;3;3;4;4;5;5;6;6;7;7;8;8;9;9;10;10;11;11;12;12;13;13].

(** deflate.rs 44-52, 188-194: first index whose half-open base interval
    contains [v], or [lim] *)
Fixpoint find_code (fuel : nat) (base : list Z) (v : Z) (i lim : Z) : Z :=
  match fuel with
  | O => i
  | S f => if i <? lim then
             if (znth base i <=? v) && (v <? znth base (i + 1)) then i
             else find_code f base v (i + 1) lim
           else i
  end.
(** deflate.rs 38-58 *)
Definition LENGTH_LOOKUP : list (Z * Z) :=
  map (fun i => let c := find_code 28 LENGTH_BASE (Z.of_nat i + 3) 0 28 in (c, znth LENGTH_EXTRA c))
      (seq 0 256).
(** deflate.rs 184-199 (entry 0 is left at 0) *)
Definition DISTANCE_LOOKUP_SMALL : list Z :=
  0 :: map (fun i => find_code 29 DISTANCE_BASE (Z.of_nat i) 0 29) (seq 1 511).

(** deflate.rs 204-215: (symbol, extra bits, extra value) *)
Definition length_code (len : Z) : res (Z * Z * Z) :=
  if negb ((3 <=? len) && (len <=? 258)) then Panic
  else
    let* (off, eb) := get LENGTH_LOOKUP (len - 3) in
    let* base := get LENGTH_BASE off in
    let* ev := usub len base in
    Ok (257 + off, eb, ev).
(** deflate.rs 220-241; [31 - d.leading_zeros()] is [Z.log2 d] for 0 < d < 2^32 *)
Definition distance_code (dist : Z) : res (Z * Z * Z) :=
  if negb ((1 <=? dist) && (dist <=? 32768)) then Panic
  else
    let* c := (if dist <? 512 then get DISTANCE_LOOKUP_SMALL dist
               else let d := dist - 1 in
                    let msb := Z.log2 d in
                    let second := Z.land (Z.shiftr d (msb - 1)) 1 in
                    Ok (Z.min (2 * msb + second) 29)) in
    let* eb := get DISTANCE_EXTRA c in
    let* base := get DISTANCE_BASE c in
    let* ev := usub dist base in
    Ok (c, eb, ev).

(** ** Reversed codes *)
(** deflate.rs 1552-1568: one entry of REVERSE_BYTE *)
Fixpoint reverse_loop (n : nat) (b r : Z) : Z :=
  match n with
  | O => r
  | S n' => reverse_loop n' (Z.shiftr b 1) (Z.lor (wrap 8 (Z.shiftl r 1)) (Z.land b 1))
  end.
Definition REVERSE_BYTE : list Z := map (fun i => reverse_loop 8 (Z.of_nat i) 0) (seq 0 256).
(** deflate.rs 1573-1582 *)
Definition reverse_bits (code len : Z) : res Z :=
  if len =? 0 then Ok 0
  else
    let* low := get REVERSE_BYTE (wrap 8 code) in
    let* high := get REVERSE_BYTE (wrap 8 (Z.shiftr code 8)) in
    let rv := Z.lor (wrap 16 (Z.shiftl low 8)) high in
    let* sh := usub 16 len in
    Ok (Z.shiftr rv sh).
(** deflate.rs 1585-1590 *)
Definition prepare_reversed_codes (codes : list hcode) : res (list (Z * Z)) :=
  map_res (fun '(c, l) => let* r := reverse_bits c l in Ok (r, l)) codes.
(** deflate.rs 1613-1640 *)
Definition fixed_literal_codes_rev : res (list (Z * Z)) :=
  let* c := fixed_literal_codes in prepare_reversed_codes c.
Definition fixed_distance_codes_rev : res (list (Z * Z)) :=
  let* c := fixed_distance_codes in prepare_reversed_codes c.

(** ** Frequencies *)
(** [l[i] += 1] on a u32 slice *)
Definition inc32 (l : list Z) (i : Z) : res (list Z) :=
  let* v := get l i in
  if v + 1 <? U32 then Ok (upd l (Z.to_nat i) (v + 1)) else Panic.
(** deflate.rs 1248-1259 (= 404-421, 451-470, 660-671) *)
Fixpoint count_tokens (ts : list token) (lf df : list Z) : res (list Z * list Z) :=
  match ts with
  | [] => Ok (lf, df)
  | TLit b :: r => let* lf := inc32 lf b in count_tokens r lf df
  | TMatch l d :: r =>
      let* (ls, _, _) := length_code l in
      let* lf := inc32 lf ls in
      let* (ds, _, _) := distance_code d in
      let* df := inc32 df ds in
      count_tokens r lf df
  end.
(** deflate.rs 1372-1382 *)
Fixpoint count_packed (ps : list Z) (lf df : list Z) : res (list Z * list Z) :=
  match ps with
  | [] => Ok (lf, df)
  | p :: r =>
      match packed_as_literal p with
      | Some b => let* lf := inc32 lf b in count_packed r lf df
      | None =>
          let* m := packed_as_match p in
          match m with
          | Some (l, d) =>
              let* (ls, _, _) := length_code l in
              let* lf := inc32 lf ls in
              let* (ds, _, _) := distance_code d in
              let* df := inc32 df ds in
              count_packed r lf df
          | None => count_packed r lf df
          end
      end
  end.
(** deflate.rs 1261-1266 (= 423-428, 472-477, 672-676, 1384-1388) *)
Definition finish_counts (p : list Z * list Z) : res (list Z * list Z) :=
  let '(lf, df) := p in
  let* lf := inc32 lf 256 in
  Ok (lf, if forallb (fun f => f =? 0) df then upd df 0 1 else df).
Definition zero_lf : list Z := repeat 0 286.
Definition zero_df : list Z := repeat 0 30.
(** deflate.rs 400-431, 447-480 *)
Definition count_symbols (ts : list token) : res (list Z * list Z) :=
  let* p := count_tokens ts zero_lf zero_df in finish_counts p.
Definition count_symbols_packed (ps : list Z) : res (list Z * list Z) :=
  let* p := count_packed ps zero_lf zero_df in finish_counts p.

(** ** Code-length header *)
(** deflate.rs 1470-1476: one past the last non-zero entry, 1 if there is none *)
Fixpoint last_nz (l : list Z) (i best : Z) : Z :=
  match l with [] => best | x :: r => last_nz r (i + 1) (if x =? 0 then best else i + 1) end.
Definition last_nonzero (l : list Z) : Z := last_nz l 0 1.

Notation rle_item := (Z * Z * Z)%type.  (* symbol, extra value, extra width *)
(** deflate.rs 1510-1526 *)
Fixpoint rle_zeros (fuel : nat) (rem : Z) (acc : list rle_item) (cf : list Z) : res (list rle_item * list Z) :=
  if negb (0 <? rem) then Ok (acc, cf) else
  match fuel with
  | O => NoFuel
  | S f =>
      if 11 <=? rem then
        let take := Z.min rem 138 in
        let* cf := inc32 cf 18 in
        rle_zeros f (rem - take) (acc ++ [(18, wrap 8 (take - 11), 7)]) cf
      else if 3 <=? rem then
        let take := Z.min rem 10 in
        let* cf := inc32 cf 17 in
        rle_zeros f (rem - take) (acc ++ [(17, wrap 8 (take - 3), 3)]) cf
      else
        let* cf := inc32 cf 0 in
        rle_zeros f (rem - 1) (acc ++ [(0, 0, 0)]) cf
  end.
(** deflate.rs 1532-1537 *)
Fixpoint rle_reps (fuel : nat) (rem : Z) (acc : list rle_item) (cf : list Z) : res (Z * list rle_item * list Z) :=
  if negb (3 <=? rem) then Ok (rem, acc, cf) else
  match fuel with
  | O => NoFuel
  | S f =>
      let take := Z.min rem 6 in
      let* cf := inc32 cf 16 in
      rle_reps f (rem - take) (acc ++ [(16, wrap 8 (take - 3), 2)]) cf
  end.
(** deflate.rs 1538-1542 *)
Fixpoint rle_singles (fuel : nat) (curr rem : Z) (acc : list rle_item) (cf : list Z) : res (list rle_item * list Z) :=
  if negb (0 <? rem) then Ok (acc, cf) else
  match fuel with
  | O => NoFuel
  | S f =>
      let* cf := inc32 cf curr in
      rle_singles f curr (rem - 1) (acc ++ [(curr, 0, 0)]) cf
  end.
(** deflate.rs 1503-1506: number of leading elements equal to [c] *)
Fixpoint run_of (c : Z) (l : list Z) : Z :=
  match l with [] => 0 | x :: r => if x =? c then 1 + run_of c r else 0 end.
(** deflate.rs 1501-1546, on the suffix of [seq] starting at index i *)
Fixpoint rle_loop (fuel : nat) (s : list Z) (acc : list rle_item) (cf : list Z) : res (list rle_item * list Z) :=
  match s with
  | [] => Ok (acc, cf)
  | curr :: tl =>
      match fuel with
      | O => NoFuel
      | S f =>
          let run := 1 + run_of curr tl in
          let* (acc, cf) :=
            (if curr =? 0 then rle_zeros (Z.to_nat run) run acc cf
             else
               let* cf := inc32 cf curr in
               let* (rem, acc, cf) := rle_reps (Z.to_nat run) (run - 1) (acc ++ [(curr, 0, 0)]) cf in
               rle_singles (Z.to_nat run) curr rem acc cf) in
          rle_loop f (skipn (Z.to_nat run) s) acc cf
      end
  end.
(** deflate.rs 1490-1549 *)
Definition rle_code_lengths (ll dl : list Z) : res (list rle_item * list Z) :=
  rle_loop (length (ll ++ dl)) (ll ++ dl) [] (repeat 0 19).

(** deflate.rs 1293-1295 *)
Definition CL_ORDER : list Z := [16;17;18;0;8;7;9;6;10;5;11;4;12;3;13;2;14;1;15].
(** deflate.rs 1298-1304: [min(last index with a code, 15)], 0 if none *)
Fixpoint find_hclen (order : list Z) (i : Z) (cl : list hcode) (best : Z) : res Z :=
  match order with
  | [] => Ok best
  | o :: r => let* (_, l) := get cl o in
              find_hclen r (i + 1) cl (if 0 <? l then Z.min i 15 else best)
  end.

(** ** Writing *)
Definition emit (w : bw64) (tab : list (Z * Z)) (s : Z) : res bw64 :=
  let* (c, l) := get tab s in Ok (b64_write w c l).
Definition emit_extra (w : bw64) (v n : Z) : bw64 := if 0 <? n then b64_write w v n else w.
(** deflate.rs 1167-1185 (= 1335-1349, 734-748, 1216-1230, 1447-1461) *)
Definition write_match (lr dr : list (Z * Z)) (w : bw64) (l d : Z) : res bw64 :=
  let* (ls, leb, lev) := length_code l in
  let* w := emit w lr ls in
  let w := emit_extra w lev leb in
  let* (ds, deb, dev) := distance_code d in
  let* w := emit w dr ds in
  Ok (emit_extra w dev deb).
(** deflate.rs 1161-1187 (= 1329-1351, 728-750) *)
Fixpoint write_tokens (lr dr : list (Z * Z)) (w : bw64) (ts : list token) : res bw64 :=
  match ts with
  | [] => Ok w
  | TLit b :: r => let* w := emit w lr b in write_tokens lr dr w r
  | TMatch l d :: r => let* w := write_match lr dr w l d in write_tokens lr dr w r
  end.
(** deflate.rs 1212-1231 (= 1443-1462) *)
Fixpoint write_packed (lr dr : list (Z * Z)) (w : bw64) (ps : list Z) : res bw64 :=
  match ps with
  | [] => Ok w
  | p :: r =>
      match packed_as_literal p with
      | Some b => let* w := emit w lr b in write_packed lr dr w r
      | None =>
          let* m := packed_as_match p in
          match m with
          | Some (l, d) => let* w := write_match lr dr w l d in write_packed lr dr w r
          | None => write_packed lr dr w r
          end
      end
  end.
(** deflate.rs 1320-1326 *)
Fixpoint write_rle (cr : list (Z * Z)) (w : bw64) (rle : list rle_item) : res bw64 :=
  match rle with
  | [] => Ok w
  | (s, v, n) :: r => let* w := emit w cr s in write_rle cr (emit_extra w v n) r
  end.
(** deflate.rs 1315-1317 *)
Fixpoint write_cl (cl : list hcode) (w : bw64) (order : list Z) : res bw64 :=
  match order with
  | [] => Ok w
  | o :: r => let* (_, l) := get cl o in write_cl cl (b64_write w l 3) r
  end.

(** deflate.rs 1268-1326 (= 678-726, 1390-1441): from the frequencies, build
    the codes and write the block header; returns the writer and the two
    reversed code tables *)
Definition write_dyn_header (H : heap) (w : bw64) (final : bool) (p : list Z * list Z)
  : res (bw64 * list (Z * Z) * list (Z * Z)) :=
  let '(lf, df) := p in
  let* lc := build_codes H lf 15 in
  let* dc := build_codes H df 15 in
  let* lr := prepare_reversed_codes lc in
  let* dr := prepare_reversed_codes dc in
  let ll := map snd lc in
  let dl := map snd dc in
  let hlit := Z.min (Z.max 0 (last_nonzero ll - 257)) 29 in
  let hdist := Z.min (Z.max 0 (last_nonzero dl - 1)) 29 in
  let ll := firstn (Z.to_nat (257 + hlit)) ll in
  let dl := firstn (Z.to_nat (1 + hdist)) dl in
  let* (rle, cf) := rle_code_lengths ll dl in
  let* cc := build_codes H cf 7 in
  let* cr := prepare_reversed_codes cc in
  let* hclen := find_hclen CL_ORDER 0 cc 0 in
  let w := b64_write w (if final then 1 else 0) 1 in
  let w := b64_write w 2 2 in
  let w := b64_write w hlit 5 in
  let w := b64_write w hdist 5 in
  let w := b64_write w hclen 4 in
  let* w := write_cl cc w (firstn (Z.to_nat (hclen + 4)) CL_ORDER) in
  let* w := write_rle cr w rle in
  Ok (w, lr, dr).

(** deflate.rs 655-754; 1243-1358 is the same with a fresh writer *)
Definition write_dynamic_huffman_block (H : heap) (w : bw64) (ts : list token) (final : bool) : res bw64 :=
  let* p := count_symbols ts in
  let* (w, lr, dr) := write_dyn_header H w final p in
  let* w := write_tokens lr dr w ts in
  emit w lr 256.
(** deflate.rs 1243-1358 *)
Definition encode_dynamic_huffman (H : heap) (ts : list token) : res (list Z) :=
  let* w := write_dynamic_huffman_block H b64_new ts true in Ok (b64_finish w).
(** deflate.rs 1364-1468 *)
Definition encode_dynamic_huffman_packed (H : heap) (ps : list Z) : res (list Z) :=
  let* p := count_symbols_packed ps in
  let* (w, lr, dr) := write_dyn_header H b64_new true p in
  let* w := write_packed lr dr w ps in
  let* w := emit w lr 256 in
  Ok (b64_finish w).
(** deflate.rs 1151-1194 *)
Definition encode_fixed_huffman (ts : list token) : res (list Z) :=
  let* lr := fixed_literal_codes_rev in
  let* dr := fixed_distance_codes_rev in
  let w := b64_write (b64_write b64_new 1 1) 1 2 in
  let* w := write_tokens lr dr w ts in
  let* w := emit w lr 256 in
  Ok (b64_finish w).
(** deflate.rs 1200-1237 *)
Definition encode_fixed_huffman_packed (ps : list Z) : res (list Z) :=
  let* lr := fixed_literal_codes_rev in
  let* dr := fixed_distance_codes_rev in
  let w := b64_write (b64_write b64_new 1 1) 1 2 in
  let* w := write_packed lr dr w ps in
  let* w := emit w lr 256 in
  Ok (b64_finish w).
(** deflate.rs 1593-1601 *)
Definition empty_deflate_fixed_block : res (list Z) :=
  let* lr := fixed_literal_codes_rev in
  let* w := emit (b64_write (b64_write b64_new 1 1) 1 2) lr 256 in
  Ok (b64_finish w).

(** deflate.rs 99-118 *)
Definition encode_best_huffman (H : heap) (ts : list token) : res (list Z) :=
  if zlen ts <=? 128 then encode_fixed_huffman ts
  else if 128 <=? zlen ts then encode_dynamic_huffman H ts
  else
    let* f := encode_fixed_huffman ts in
    let* d := encode_dynamic_huffman H ts in
    Ok (if zlen d <? zlen f then d else f).
(** deflate.rs 121-143 *)
Definition encode_best_huffman_packed (H : heap) (ps : list Z) : res (list Z) :=
  if zlen ps <=? 128 then encode_fixed_huffman_packed ps
  else if 128 <=? zlen ps then encode_dynamic_huffman_packed H ps
  else
    let* f := encode_fixed_huffman_packed ps in
    let* d := encode_dynamic_huffman_packed H ps in
    Ok (if zlen d <? zlen f then d else f).

(** ** Block splitting *)
(** The f64 arithmetic of deflate.rs 484-594.  [e_cost] is the estimate made
    from the two count tables and the tokens of the range; [e_cmp] is
    [partial_cmp] ([None] if a NaN is involved). *)
Record estimator : Type := mk_est {
  e_num : Type;
  e_zero : e_num;                                          (* 0.0 *)
  e_cost : list Z -> list Z -> list token -> e_num;
  e_add : e_num -> e_num -> e_num;
  e_lt : e_num -> e_num -> bool;
  e_less10 : e_num -> e_num;                               (* x - BLOCK_SPLIT_MIN_IMPROVEMENT_BITS *)
  e_cmp : e_num -> e_num -> option comparison }.

(** deflate.rs 484-534 *)
Definition estimate_block_cost (E : estimator) (ts : list token) (s e : Z) : res (e_num E) :=
  if e <=? s then Ok (e_zero E)
  else
    let* r := slice_r ts s e in
    let* (lc, dc) := count_symbols r in
    Ok (e_cost E lc dc r).
Definition split_cost (E : estimator) (ts : list token) (s e i : Z) : res (e_num E) :=
  let* a := estimate_block_cost E ts s i in
  let* b := estimate_block_cost E ts i e in
  Ok (e_add E a b).
(** deflate.rs 552-557: candidates at a regular step; [n] bounds their number *)
Fixpoint split_candidates (E : estimator) (n : nat) (ts : list token) (s e i step lim : Z)
  : res (list (Z * e_num E)) :=
  if negb (i <? lim) then Ok [] else
  match n with
  | O => NoFuel
  | S n' =>
      let* c := split_cost E ts s e i in
      let* r := split_candidates E n' ts s e (i + step) step lim in
      Ok ((i, c) :: r)
  end.
(** [Iterator::min_by] with [partial_cmp(..).unwrap()]: the first minimum *)
Fixpoint min_cand (E : estimator) (best : Z * e_num E) (l : list (Z * e_num E)) : res (Z * e_num E) :=
  match l with
  | [] => Ok best
  | c :: r => match e_cmp E (snd best) (snd c) with
              | None => Panic
              | Some Gt => min_cand E c r
              | Some _ => min_cand E best r
              end
  end.
(** deflate.rs 575-583 *)
Fixpoint fine_tune (E : estimator) (n : nat) (ts : list token) (s e i lim : Z) (best : Z) (bc : e_num E)
  : res (Z * e_num E) :=
  if lim <? i then Ok (best, bc) else
  match n with
  | O => NoFuel
  | S n' =>
      let* c := split_cost E ts s e i in
      if e_lt E c bc then fine_tune E n' ts s e (i + 1) lim i c
      else fine_tune E n' ts s e (i + 1) lim best bc
  end.
Definition MIN_BLOCK_SIZE : Z := 10.
(** deflate.rs 538-594 *)
Definition find_best_split (E : estimator) (ts : list token) (s e : Z) : res (option Z) :=
  let* size := usub e s in
  if size <? MIN_BLOCK_SIZE * 2 then Ok None
  else
    let* orig := estimate_block_cost E ts s e in
    let step := Z.max (size / 9) 1 in
    let* cands := split_candidates E (length ts) ts s e (s + MIN_BLOCK_SIZE) step (e - MIN_BLOCK_SIZE) in
    match cands with
    | [] => Ok None
    | c :: r =>
        let* (bi, cost) := min_cand E c r in
        if e_lt E cost orig then
          let fs := Z.max (Z.max 0 (bi - step)) (s + MIN_BLOCK_SIZE) in
          let fe := Z.min (bi + step) (e - MIN_BLOCK_SIZE) in
          let* (split, bc) := fine_tune E (S (length ts)) ts s e fs fe bi cost in
          if e_lt E bc (e_less10 E orig) then Ok (Some split) else Ok None
        else Ok None
    end.
(** deflate.rs 620-631: the largest block that is not done *)
Fixpoint largest_block (bs : list Z) (done : list bool) (best : option (Z * Z)) : res (option (Z * Z)) :=
  match bs with
  | s :: ((e :: _) as r) =>
      let* size := usub e s in
      let* d := get done s in
      let better := negb d && (MIN_BLOCK_SIZE * 2 <=? size) &&
                    match best with None => true | Some (s', e') => e' - s' <? size end in
      largest_block r done (if better then Some (s, e) else best)
  | _ => Ok best
  end.
(** deflate.rs 640-644 *)
Fixpoint insert_split (x : Z) (l : list Z) : list Z :=
  match l with [] => [x] | y :: r => if x <? y then x :: l else y :: insert_split x r end.
(** deflate.rs 607-650; the fuel is shown sufficient *)
Fixpoint split_loop (E : estimator) (fuel : nat) (ts : list token) (splits : list Z) (done : list bool)
    (nb maxb : Z) : res (list Z) :=
  if maxb <=? nb then Ok splits else
  let* lb := largest_block (0 :: splits ++ [zlen ts]) done None in
  match lb with
  | None => Ok splits
  | Some (s, e) =>
      match fuel with
      | O => NoFuel
      | S f =>
          let* r := find_best_split E ts s e in
          match r with
          | Some x => split_loop E f ts (insert_split x splits) done (nb + 1) maxb
          | None => split_loop E f ts splits (upd done (Z.to_nat s) true) nb maxb
          end
      end
  end.
(** deflate.rs 598-653 *)
Definition find_block_splits (E : estimator) (ts : list token) (maxb : Z) : res (list Z) :=
  if (zlen ts <? MIN_BLOCK_SIZE * 2) || (maxb <=? 1) then Ok []
  else split_loop E (length ts + Z.to_nat maxb) ts [] (repeat false (length ts)) 1 maxb.

(** deflate.rs 171-177 (= 840-847): one dynamic block per pair of boundaries *)
Fixpoint write_blocks (H : heap) (w : bw64) (ts : list token) (bs : list Z) : res bw64 :=
  match bs with
  | s :: ((e :: r') as r) =>
      let* blk := slice_r ts s e in
      let* w := write_dynamic_huffman_block H w blk (match r' with [] => true | _ => false end) in
      write_blocks H w ts r
  | _ => Ok w
  end.
(** deflate.rs 146-180 *)
Definition encode_with_block_splitting (H : heap) (E : estimator) (ts : list token) (maxb : Z) : res (list Z) :=
  if zlen ts <? MIN_BLOCK_SIZE * 2 then encode_dynamic_huffman H ts
  else if negb (forallb (fun t => match t with TMatch _ d => 1 <=? d | _ => true end) ts) then Panic
  else
    let* splits := find_block_splits E ts maxb in
    match splits with
    | [] => encode_dynamic_huffman H ts
    | _ => let* w := write_blocks H b64_new ts (0 :: splits ++ [zlen ts]) in Ok (b64_finish w)
    end.

(** ** Stored blocks and the zlib container *)
(** deflate.rs 1669-1685; [true] marks the last chunk *)
Fixpoint stored_blocks (cs : list (list Z)) : list Z :=
  match cs with
  | [] => []
  | c :: r =>
      let len := wrap 16 (zlen c) in
      let nlen := 65535 - len in
      [match r with [] => 1 | _ => 0 end; wrap 8 len; wrap 8 (Z.shiftr len 8); wrap 8 nlen;
       wrap 8 (Z.shiftr nlen 8)] ++ c ++ stored_blocks r
  end.
(** deflate.rs 1664-1688 *)
Definition deflate_stored (data : list Z) : list Z := stored_blocks (chunks (Z.to_nat 65535) data).

(** deflate.rs 1642-1658 *)
Definition zlib_header (level : Z) : list Z :=
  let cmf := 120 in
  let flevel := if level <=? 2 then 1 else if level <=? 6 then 2 else 3 in
  let flg := wrap 8 (Z.shiftl flevel 6) in
  let fcheck := (31 - Z.lor (wrap 16 (Z.shiftl cmf 8)) flg mod 31) mod 31 in
  [cmf; Z.lor flg (wrap 8 fcheck)].
(** [to_be_bytes] of a u32 *)
Definition be32 (v : Z) : list Z :=
  [wrap 8 (Z.shiftr v 24); wrap 8 (Z.shiftr v 16); wrap 8 (Z.shiftr v 8); wrap 8 v].
(** deflate.rs 1604-1610 *)
Definition empty_zlib (level : Z) : res (list Z) :=
  let* e := empty_deflate_fixed_block in
  Ok (zlib_header level ++ e ++ be32 (adler32 [])).
(** deflate.rs 1091-1097 *)
Definition should_use_stored (data_len deflated_len : Z) : bool :=
  data_len + (data_len / 65535 + 1) * 5 + 2 + 4 <=? deflated_len + 2 + 4.
(** deflate.rs 956-969 (= 860-873, 1032-1045, 380-393) *)
Definition zlib_wrap (level : Z) (data deflated : list Z) : list Z :=
  zlib_header level ++
  (if should_use_stored (zlen data) (zlen deflated) then deflate_stored data else deflated) ++
  be32 (adler32 data).
(** deflate.rs 1082-1089 *)
Definition deflate_zlib_stored (data : list Z) (level : Z) : list Z :=
  zlib_header level ++ deflate_stored data ++ be32 (adler32 data).

(** ** Deflater *)
(** deflate.rs 877-882 *)
Record deflater : Type := mk_defl {
  d_level : Z; d_tabs : tables; d_tokens : list token; d_packed : list Z }.
Definition clamp_level (level : Z) : Z := Z.max 1 (Z.min level 9).
(** deflate.rs 885-893 *)
Definition deflater_new (level : Z) : deflater := mk_defl (clamp_level level) empty_tables [] [].

(** deflate.rs 910-919 (= 946-954) *)
Definition encode_tokens (H : heap) (E : estimator) (level dlen : Z) (ts : list token) : res (list Z) :=
  if (5 <=? level) && (1024 <? dlen) && (dlen <=? 512 * 1024)
  then encode_with_block_splitting H E ts 15
  else encode_best_huffman H ts.

Section Deflater.
  Variables (H : heap) (E : estimator).
  (** deflate.rs 905-907 *)
  Definition run_lz77 (d : deflater) (data : list Z) : res deflater :=
    let* (ts, st) := compress_into (lz_config (d_level d)) (d_tabs d) [] data in
    Ok (mk_defl (d_level d) st ts (d_packed d)).
  (** deflate.rs 977-980 *)
  Definition run_lz77_packed (d : deflater) (data : list Z) : res deflater :=
    let* (ps, st) := compress_packed_into (lz_config (d_level d)) (d_tabs d) [] data in
    Ok (mk_defl (d_level d) st (d_tokens d) ps).
  (** deflate.rs 900-920 *)
  Definition d_compress (d : deflater) (data : list Z) : res (list Z * deflater) :=
    match data with
    | [] => let* e := empty_deflate_fixed_block in Ok (e, d)
    | _ => let* d := run_lz77 d data in
           let* o := encode_tokens H E (d_level d) (zlen data) (d_tokens d) in Ok (o, d)
    end.
  (** deflate.rs 923-934 *)
  Definition d_compress_fixed_only (d : deflater) (data : list Z) : res (list Z * deflater) :=
    match data with
    | [] => let* e := empty_deflate_fixed_block in Ok (e, d)
    | _ => let* d := run_lz77 d data in
           let* o := encode_fixed_huffman (d_tokens d) in Ok (o, d)
    end.
  (** deflate.rs 936-970 *)
  Definition d_compress_zlib (d : deflater) (data : list Z) : res (list Z * deflater) :=
    match data with
    | [] => let* e := empty_zlib (d_level d) in Ok (e, d)
    | _ => let* d := run_lz77 d data in
           let* o := encode_tokens H E (d_level d) (zlen data) (d_tokens d) in
           Ok (zlib_wrap (d_level d) data o, d)
    end.
  (** deflate.rs 1049-1060: number of matches *)
  Definition match_count (ps : list Z) : Z := zlen (filter (fun p => negb (packed_is_literal p)) ps).
  (** deflate.rs 972-991 *)
  Definition d_compress_packed (d : deflater) (data : list Z) : res (list Z * deflater) :=
    match data with
    | [] => let* e := empty_deflate_fixed_block in Ok (e, d)
    | _ => let* d := run_lz77_packed d data in
           if (match_count (d_packed d) =? 0) && (8192 <=? zlen data) then Ok (deflate_stored data, d)
           else let* o := encode_best_huffman_packed H (d_packed d) in Ok (o, d)
    end.
  (** deflate.rs 994-1006 *)
  Definition d_compress_fixed_only_packed (d : deflater) (data : list Z) : res (list Z * deflater) :=
    match data with
    | [] => let* e := empty_deflate_fixed_block in Ok (e, d)
    | _ => let* d := run_lz77_packed d data in
           let* o := encode_fixed_huffman_packed (d_packed d) in Ok (o, d)
    end.
  (** deflate.rs 1008-1046 *)
  Definition d_compress_packed_zlib (d : deflater) (data : list Z) : res (list Z * deflater) :=
    match data with
    | [] => let* e := empty_zlib (d_level d) in Ok (e, d)
    | _ => let* d := run_lz77_packed d data in
           if (match_count (d_packed d) =? 0) && (8192 <=? zlen data)
           then Ok (zlib_header (d_level d) ++ deflate_stored data ++ be32 (adler32 data), d)
           else let* o := encode_best_huffman_packed H (d_packed d) in
                Ok (zlib_wrap (d_level d) data o, d)
    end.

  (** deflate.rs 77-96: the global pool, threaded through explicitly.  The
      mutexes serialise access; a poisoned mutex needs an earlier panic. *)
  Definition pool : Type := list deflater.
  Definition pool_init : pool := map (fun l => deflater_new (Z.max (Z.of_nat l) 1)) (seq 0 10).
  Definition with_reusable_deflater {T} (p : pool) (level : Z) (f : deflater -> res (T * deflater))
    : res (T * pool) :=
    let level := clamp_level level in
    let* g := get p level in
    let g := if d_level g =? level then g else deflater_new level in
    let* (o, g') := f g in
    Ok (o, upd p (Z.to_nat level) g').

  (** deflate.rs 245-255 *)
  Definition deflate (p : pool) (data : list Z) (level : Z) : res (list Z * pool) :=
    match data with
    | [] => let* e := empty_deflate_fixed_block in Ok (e, p)
    | _ => if zlen data <=? 1024
           then with_reusable_deflater p level (fun d => d_compress_fixed_only d data)
           else with_reusable_deflater p level (fun d => d_compress d data)
    end.
  (** deflate.rs 259-269 *)
  Definition deflate_packed (p : pool) (data : list Z) (level : Z) : res (list Z * pool) :=
    match data with
    | [] => let* e := empty_deflate_fixed_block in Ok (e, p)
    | _ => if zlen data <=? 1024
           then with_reusable_deflater p level (fun d => d_compress_fixed_only_packed d data)
           else with_reusable_deflater p level (fun d => d_compress_packed d data)
    end.
End Deflater.

(** deflate.rs 1124-1133: hash collisions among the 4-grams of the sample *)
Fixpoint collisions (fuel : nat) (l : list Z) (seen : list bool) (n : Z) : res Z :=
  match fuel with
  | O => Ok n
  | S f =>
      if zlen l <? 4 then Ok n
      else
        let h := Z.land (Z.shiftr (wrap 32 (le_val (firstn 4 l) * 506832829)) 20) 4095 in
        let* s := get seen h in
        if s then collisions f (tl l) seen (n + 1)
        else collisions f (tl l) (upd seen (Z.to_nat h) true) n
  end.
(** an integer below 2^24 as f32, exactly *)
Definition f32_of_Z (z : Z) : spec_float := binary_normalize 24 128 z 0 false.
(** the f32 nearest to 0.05: 13421773 * 2^-28 *)
Definition F32_0_05 : spec_float := binary_normalize 24 128 13421773 (-28) false.
(** deflate.rs 1108-1145 *)
Definition is_high_entropy_data (data : list Z) : res bool :=
  if zlen data <? 4096 then Ok false
  else
    let n := Z.min (zlen data) 8192 in
    let sample := slice data 0 n in
    let* c := collisions (length sample) sample (repeat false 4096) 0 in
    Ok (SFltb (SFdiv 24 128 (f32_of_Z c) (f32_of_Z (Z.max 0 (n - 3)))) F32_0_05).

(** deflate.rs 1066-1071 *)
Definition deflate_zlib (H : heap) (E : estimator) (p : pool) (data : list Z) (level : Z) : res (list Z * pool) :=
  let* hi := (if 4096 <=? zlen data then is_high_entropy_data data else Ok false) in
  if hi then Ok (deflate_zlib_stored data level, p)
  else with_reusable_deflater p level (fun d => d_compress_zlib H E d data).
(** deflate.rs 1074-1079 *)
Definition deflate_zlib_packed (H : heap) (p : pool) (data : list Z) (level : Z) : res (list Z * pool) :=
  let* hi := (if 4096 <=? zlen data then is_high_entropy_data data else Ok false) in
  if hi then Ok (deflate_zlib_stored data level, p)
  else with_reusable_deflater p level (fun d => d_compress_packed_zlib H d data).
