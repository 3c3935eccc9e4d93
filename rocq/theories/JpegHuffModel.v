(** Model of src/jpeg/huffman.rs: standard and optimised Huffman tables and
    the encoding of one block. *)
From Verif Require Import Base BitsModel InflateModel HuffModel PngFilterModel PngPaletteModel JpegBaseModel.

(** huffman.rs 17-62 *)
Definition DC_LUM_BITS : list Z := [0; 1; 5; 1; 1; 1; 1; 1; 1; 0; 0; 0; 0; 0; 0; 0].
Definition DC_LUM_VALS : list Z := [0; 1; 2; 3; 4; 5; 6; 7; 8; 9; 10; 11].
Definition DC_CHROM_BITS : list Z := [0; 3; 1; 1; 1; 1; 1; 1; 1; 1; 1; 0; 0; 0; 0; 0].
Definition DC_CHROM_VALS : list Z := [0; 1; 2; 3; 4; 5; 6; 7; 8; 9; 10; 11].
Definition AC_LUM_BITS : list Z := [0; 2; 1; 3; 3; 2; 4; 3; 5; 5; 4; 4; 0; 0; 1; 125].
Definition AC_LUM_VALS : list Z := [
   1; 2; 3; 0; 4; 17; 5; 18; 33; 49; 65; 6; 19; 81; 97; 7; 34; 113;
   20; 50; 129; 145; 161; 8; 35; 66; 177; 193; 21; 82; 209; 240; 36; 51; 98; 114;
   130; 9; 10; 22; 23; 24; 25; 26; 37; 38; 39; 40; 41; 42; 52; 53; 54; 55;
   56; 57; 58; 67; 68; 69; 70; 71; 72; 73; 74; 83; 84; 85; 86; 87; 88; 89;
   90; 99; 100; 101; 102; 103; 104; 105; 106; 115; 116; 117; 118; 119; 120; 121; 122; 131;
   132; 133; 134; 135; 136; 137; 138; 146; 147; 148; 149; 150; 151; 152; 153; 154; 162; 163;
   164; 165; 166; 167; 168; 169; 170; 178; 179; 180; 181; 182; 183; 184; 185; 186; 194; 195;
   196; 197; 198; 199; 200; 201; 202; 210; 211; 212; 213; 214; 215; 216; 217; 218; 225; 226;
   227; 228; 229; 230; 231; 232; 233; 234; 241; 242; 243; 244; 245; 246; 247; 248; 249; 250].
Definition AC_CHROM_BITS : list Z := [0; 2; 1; 2; 4; 4; 3; 4; 7; 5; 4; 4; 0; 1; 2; 119].
Definition AC_CHROM_VALS : list Z := [
   0; 1; 2; 3; 17; 4; 5; 33; 49; 6; 18; 65; 81; 7; 97; 113; 19; 34;
   50; 129; 8; 20; 66; 145; 161; 177; 193; 9; 35; 51; 82; 240; 21; 98; 114; 209;
   10; 22; 36; 52; 225; 37; 241; 23; 24; 25; 26; 38; 39; 40; 41; 42; 53; 54;
   55; 56; 57; 58; 67; 68; 69; 70; 71; 72; 73; 74; 83; 84; 85; 86; 87; 88;
   89; 90; 99; 100; 101; 102; 103; 104; 105; 106; 115; 116; 117; 118; 119; 120; 121; 122;
   130; 131; 132; 133; 134; 135; 136; 137; 138; 146; 147; 148; 149; 150; 151; 152; 153; 154;
   162; 163; 164; 165; 166; 167; 168; 169; 170; 178; 179; 180; 181; 182; 183; 184; 185; 186;
   194; 195; 196; 197; 198; 199; 200; 201; 202; 210; 211; 212; 213; 214; 215; 216; 217; 218;
   226; 227; 228; 229; 230; 231; 232; 233; 234; 242; 243; 244; 245; 246; 247; 248; 249; 250].

(** huffman.rs 220-231, 244-255: the codes of one length.  [vals] are the
    values not used yet ([vals[val_idx..]]).  The u16 counter panics on
    overflow.  For the table of 256 entries the test on the symbol, absent in
    the source, is always true for a u8. *)
Fixpoint bc_inner (count : nat) (n len : Z) (vals : list Z) (code : Z) (codes : list (Z * Z))
  : res (list Z * Z * list (Z * Z)) :=
  match count with
  | O => Ok (vals, code, codes)
  | S k =>
      let '(vals', codes') :=
        match vals with
        | [] => ([], codes)
        | s :: t => (t, if s <? n then upd codes (Z.to_nat s) (code, len) else codes)
        end in
      if code + 1 <? 2 ^ 16 then bc_inner k n len vals' (code + 1) codes' else Panic
  end.
Fixpoint bc_outer (bits : list Z) (n len : Z) (vals : list Z) (code : Z) (codes : list (Z * Z)) : res (list (Z * Z)) :=
  match bits with
  | [] => Ok codes
  | count :: r =>
      let* (vals, code, codes) := bc_inner (Z.to_nat count) n len vals code codes in
      bc_outer r n (len + 1) vals (wrap 16 (Z.shiftl code 1)) codes
  end.
(** huffman.rs 215-238 (n = 12) and 240-261 (n = 256) *)
Definition build_codes_n (n : Z) (bits vals : list Z) : res (list (Z * Z)) :=
  bc_outer bits n 1 vals 0 (repeat (0, 0) (Z.to_nat n)).

(** huffman.rs 264-291: as above, but stops with [None] when values run out or
    a symbol is too large *)
Fixpoint bct_inner (count : nat) (n len : Z) (vals : list Z) (code : Z) (codes : list (Z * Z))
  : res (option (list Z * Z * list (Z * Z))) :=
  match count with
  | O => Ok (Some (vals, code, codes))
  | S k =>
      match vals with
      | [] => Ok None
      | s :: t =>
          if n <=? s then Ok None
          else if code + 1 <? 2 ^ 16 then bct_inner k n len t (code + 1) (upd codes (Z.to_nat s) (code, len))
          else Panic
      end
  end.
Fixpoint bct_outer (bits : list Z) (n len : Z) (vals : list Z) (code : Z) (codes : list (Z * Z))
  : res (option (list (Z * Z))) :=
  match bits with
  | [] => Ok (Some codes)
  | count :: r =>
      let* x := bct_inner (Z.to_nat count) n len vals code codes in
      match x with
      | None => Ok None
      | Some (vals, code, codes) => bct_outer r n (len + 1) vals (wrap 16 (Z.shiftl code 1)) codes
      end
  end.
Definition build_code_table (n : Z) (bits vals : list Z) : res (option (list (Z * Z))) :=
  bct_outer bits n 1 vals 0 (repeat (0, 0) (Z.to_nat n)).

(** huffman.rs 327-346: the heap holds pairs (freq, index into nodes); an
    index is represented together with the tree it stands for.  Indices are
    distinct, so the order is total and BinaryHeap is determined: it yields the
    least pair. *)
Notation hentry := (Z * Z * tree)%type.
Definition entry_lt (a b : hentry) : bool :=
  let '(fa, ia, _) := a in let '(fb, ib, _) := b in
  (fa <? fb) || ((fa =? fb) && (ia <? ib)).
Fixpoint pop_min (m : hentry) (l : list hentry) : hentry * list hentry :=
  match l with
  | [] => (m, [])
  | x :: t =>
      if entry_lt x m then let '(y, r) := pop_min x t in (y, m :: r)
      else let '(y, r) := pop_min m t in (y, x :: r)
  end.
Fixpoint jleaves (i idx : Z) (counts : list Z) : list hentry :=
  match counts with
  | [] => []
  | c :: t => if c =? 0 then jleaves (i + 1) idx t else (c, idx, Leaf c i) :: jleaves (i + 1) (idx + 1) t
  end.
(** huffman.rs 361-372: u64 sums panic on overflow; [nxt] is [nodes.len()] *)
Fixpoint jmerge (fuel : nat) (nxt : Z) (h : list hentry) : res tree :=
  match h with
  | [] => Panic
  | x :: t =>
      let '(a, h1) := pop_min x t in
      match h1 with
      | [] => Ok (snd a)
      | y :: t1 =>
          match fuel with
          | O => NoFuel
          | S f =>
              let '(b, h2) := pop_min y t1 in
              let s := fst (fst a) + fst (fst b) in
              if s <? 2 ^ 64 then jmerge f (nxt + 1) ((s, nxt, Node s (snd a) (snd b)) :: h2) else Panic
          end
      end
  end.
(** huffman.rs 374-390: depth first from a stack, right child first; depths
    are u8 and overflow with a panic; a length above 16 gives up *)
Fixpoint jextract (t : tree) (depth : Z) (lengths : list Z) : res (option (list Z)) :=
  match t with
  | Leaf _ s =>
      if depth + 1 <? 256 then
        if depth + 1 >? 16 then Ok None
        else let* _ := get lengths s in Ok (Some (upd lengths (Z.to_nat s) (depth + 1)))
      else Panic
  | Node _ l r =>
      if depth + 1 <? 256 then
        let* x := jextract r (depth + 1) lengths in
        match x with
        | None => Ok None
        | Some lengths => jextract l (depth + 1) lengths
        end
      else Panic
  end.
(** huffman.rs 318-391 *)
Definition build_code_lengths (counts : list Z) : res (option (list Z)) :=
  match jleaves 0 0 counts with
  | [] => Ok None
  | [(_, _, Leaf _ s)] => Ok (Some (upd (repeat 0 (length counts)) (Z.to_nat s) 1))
  | h =>
      let* root := jmerge (length h) (zlen h) h in
      jextract root 0 (repeat 0 (length counts))
  end.

(** huffman.rs 296-305: the u8 counters panic on overflow *)
Fixpoint count_bits (lens : list Z) (bits : list Z) : res (option (list Z)) :=
  match lens with
  | [] => Ok (Some bits)
  | l :: t =>
      if l =? 0 then count_bits t bits
      else if l >? 16 then Ok None
      else
        let* c := get bits (l - 1) in
        if c + 1 <? 256 then count_bits t (upd bits (Z.to_nat (l - 1)) (c + 1)) else Panic
  end.
(** huffman.rs 307-313: symbols with a code, sorted by (length, symbol); the
    keys are distinct *)
Fixpoint insert_sym (lens : list Z) (s : Z) (l : list Z) : list Z :=
  match l with
  | [] => [s]
  | x :: t =>
      if (znth lens x <? znth lens s) || ((znth lens x =? znth lens s) && (x <? s))
      then x :: insert_sym lens s t else s :: l
  end.
Definition sort_syms (lens : list Z) (l : list Z) : list Z := fold_right (insert_sym lens) [] l.
(** huffman.rs 294-315; symbols are cast to u8 (never more than 256 of them) *)
Definition build_bits_vals (counts : list Z) : res (option (list Z * list Z)) :=
  let* x := build_code_lengths counts in
  match x with
  | None => Ok None
  | Some lens =>
      let* y := count_bits lens (repeat 0 16) in
      match y with
      | None => Ok None
      | Some bits => Ok (Some (bits, sort_syms lens (filter (fun i => znth lens i >? 0) (idxs (length lens)))))
      end
  end.

(** huffman.rs 72-95 *)
Record htables := mkht {
  dc_lum_bits : list Z; dc_lum_vals : list Z; dc_chrom_bits : list Z; dc_chrom_vals : list Z;
  ac_lum_bits : list Z; ac_lum_vals : list Z; ac_chrom_bits : list Z; ac_chrom_vals : list Z;
  dc_lum_codes : list (Z * Z); dc_chrom_codes : list (Z * Z);
  ac_lum_codes : list (Z * Z); ac_chrom_codes : list (Z * Z) }.
(** huffman.rs 99-120 *)
Definition std_tables : res htables :=
  let* dl := build_codes_n 12 DC_LUM_BITS DC_LUM_VALS in
  let* dc := build_codes_n 12 DC_CHROM_BITS DC_CHROM_VALS in
  let* al := build_codes_n 256 AC_LUM_BITS AC_LUM_VALS in
  let* ac := build_codes_n 256 AC_CHROM_BITS AC_CHROM_VALS in
  Ok (mkht DC_LUM_BITS DC_LUM_VALS DC_CHROM_BITS DC_CHROM_VALS AC_LUM_BITS AC_LUM_VALS AC_CHROM_BITS AC_CHROM_VALS dl dc al ac).
(** huffman.rs 139-163 *)
Definition from_specs (dl dc al ac : list Z * list Z) : res (option htables) :=
  let* t1 := build_code_table 12 (fst dl) (snd dl) in
  match t1 with None => Ok None | Some c1 =>
  let* t2 := build_code_table 12 (fst dc) (snd dc) in
  match t2 with None => Ok None | Some c2 =>
  let* t3 := build_code_table 256 (fst al) (snd al) in
  match t3 with None => Ok None | Some c3 =>
  let* t4 := build_code_table 256 (fst ac) (snd ac) in
  match t4 with None => Ok None | Some c4 =>
  Ok (Some (mkht (fst dl) (snd dl) (fst dc) (snd dc) (fst al) (snd al) (fst ac) (snd ac) c1 c2 c3 c4))
  end end end end.
(** huffman.rs 177-186 *)
Definition or_default (counts : option (list Z)) (d : list Z * list Z) : res (list Z * list Z) :=
  match counts with
  | None => Ok d
  | Some c => let* x := build_bits_vals c in Ok (match x with Some y => y | None => d end)
  end.
(** huffman.rs 167-206 *)
Definition optimized_from_counts (dcl : list Z) (dcc : option (list Z)) (acl : list Z) (acc : option (list Z)) : res (option htables) :=
  let* x := build_bits_vals dcl in
  match x with None => Ok None | Some dl =>
  let* y := build_bits_vals acl in
  match y with None => Ok None | Some al =>
  let* dc := or_default dcc (DC_CHROM_BITS, DC_CHROM_VALS) in
  let* ac := or_default acc (AC_CHROM_BITS, AC_CHROM_VALS) in
  from_specs dl dc al ac
  end end.

(** huffman.rs 122-136 *)
Definition dc_codes (t : htables) (lum : bool) : list (Z * Z) := if lum then dc_lum_codes t else dc_chrom_codes t.
Definition ac_codes (t : htables) (lum : bool) : list (Z * Z) := if lum then ac_lum_codes t else ac_chrom_codes t.
(** write a symbol: [writer.write_bits(code.code as u32, code.length)] *)
Definition write_sym (codes : list (Z * Z)) (w : bwm) (s : Z) : res bwm :=
  let* (c, l) := get codes s in Ok (m_write w c l).
Definition write_value (w : bwm) (v : Z) : res bwm :=
  let* (b, n) := encode_value v in Ok (m_write w b n).

(** huffman.rs 451-455: [while zero_run >= 16] *)
Fixpoint write_zrl (fuel : nat) (codes : list (Z * Z)) (w : bwm) (zero_run : Z) : res (bwm * Z) :=
  if zero_run >=? 16 then
    match fuel with
    | O => NoFuel
    | S f => let* w := write_sym codes w 240 in write_zrl f codes w (zero_run - 16)
    end
  else Ok (w, zero_run).
(** huffman.rs 443-478; there are 63 coefficients, so four rounds of the inner
    loop suffice *)
Fixpoint encode_ac (codes : list (Z * Z)) (w : bwm) (l : list Z) (zero_run : Z) : res bwm :=
  match l with
  | [] => if zero_run >? 0 then write_sym codes w 0 else Ok w
  | a :: t =>
      if a =? 0 then encode_ac codes w t (zero_run + 1)
      else
        let* (w, zero_run) := write_zrl 4 codes w zero_run in
        let rs := Z.lor (wrap 8 (Z.shiftl zero_run 4)) (category a) in
        let* w := write_sym codes w rs in
        let* w := write_value w a in
        encode_ac codes w t 0
  end.
(** huffman.rs 423-481; the difference is an i16 *)
Definition encode_block (w : bwm) (block : list Z) (prev_dc : Z) (lum : bool) (t : htables) : res (Z * bwm) :=
  let zz := zigzag_reorder block in
  let dc := znth zz 0 in
  let* diff := i16 (dc - prev_dc) in
  let cat := category diff in
  let* w := write_sym (dc_codes t lum) w cat in
  let* w := (if cat >? 0 then write_value w diff else Ok w) in
  let* w := encode_ac (ac_codes t lum) w (skipn 1 zz) 0 in
  Ok (dc, w).

(** src/jpeg/mod.rs 826-860: increment of a u64 counter (which cannot
    overflow: there are fewer than 2^40 coefficients) *)
Definition bump (counts : list Z) (s : Z) : res (list Z) :=
  let* c := get counts s in Ok (upd counts (Z.to_nat s) (c + 1)).
Fixpoint count_zrl (fuel : nat) (ac : list Z) (zero_run : Z) : res (list Z * Z) :=
  if zero_run >=? 16 then
    match fuel with
    | O => NoFuel
    | S f => let* ac := bump ac 240 in count_zrl f ac (zero_run - 16)
    end
  else Ok (ac, zero_run).
Fixpoint count_ac (ac : list Z) (l : list Z) (zero_run : Z) : res (list Z) :=
  match l with
  | [] => if zero_run >? 0 then bump ac 0 else Ok ac
  | a :: t =>
      if a =? 0 then count_ac ac t (zero_run + 1)
      else
        let* (ac, zero_run) := count_zrl 4 ac zero_run in
        let* ac := bump ac (Z.lor (wrap 8 (Z.shiftl zero_run 4)) (category a)) in
        count_ac ac t 0
  end.
Definition count_block (block : list Z) (prev_dc : Z) (dc_counts ac_counts : list Z) : res (Z * list Z * list Z) :=
  let zz := zigzag_reorder block in
  let dc := znth zz 0 in
  let* diff := i16 (dc - prev_dc) in
  let* dc_counts := bump dc_counts (category diff) in
  let* ac_counts := count_ac ac_counts (skipn 1 zz) 0 in
  Ok (dc, dc_counts, ac_counts).

Example build_codes_small : build_codes_n 12 DC_LUM_BITS DC_LUM_VALS =
  Ok [(0,2);(2,3);(3,3);(4,3);(5,3);(6,3);(14,4);(30,5);(62,6);(126,7);(254,8);(510,9)].
Proof. vm_compute. reflexivity. Qed.
Example build_lengths_small : build_code_lengths [5; 0; 1; 1; 9] = Ok (Some [3; 0; 4; 4; 2]).
Proof. vm_compute. reflexivity. Qed.
Example build_bits_vals_small : build_bits_vals [5; 0; 1; 1; 9] =
  Ok (Some ([0;1;1;2;0;0;0;0;0;0;0;0;0;0;0;0], [4; 0; 2; 3])).
Proof. vm_compute. reflexivity. Qed.
