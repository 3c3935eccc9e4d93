(** Model of src/decode/inflate.rs: the DEFLATE / zlib decoder. *)
From Verif Require Import Base BitsModel ChecksumModel.

(** inflate.rs 11-14 *)
Definition LENGTH_BASE : list Z :=
  [3; 4; 5; 6; 7; 8; 9; 10; 11; 13; 15; 17; 19; 23; 27; 31; 35; 43; 51; 59; 67; 83; 99; 115; 131;
   163; 195; 227; 258].
(** inflate.rs 17-19 *)
Definition LENGTH_EXTRA : list Z :=
  [0; 0; 0; 0; 0; 0; 0; 0; 1; 1; 1; 1; 2; 2; 2; 2; 3; 3; 3; 3; 4; 4; 4; 4; 5; 5; 5; 5; 0].
(** inflate.rs 22-25 *)
Definition DISTANCE_BASE : list Z :=
  [1; 2; 3; 4; 5; 7; 9; 13; 17; 25; 33; 49; 65; 97; 129; 193; 257; 385; 513; 769; 1025; 1537;
   2049; 3073; 4097; 6145; 8193; 12289; 16385; 24577].
(** inflate.rs 28-31 *)
Definition DISTANCE_EXTRA : list Z :=
  [0; 0; 0; 0; 1; 1; 2; 2; 3; 3; 4; 4; 5; 5; 6; 6; 7; 7; 8; 8; 9; 9; 10; 10; 11; 11; 12; 12; 13; 13].
(** inflate.rs 34-36 *)
Definition CODE_LENGTH_ORDER : list Z :=
  [16; 17; 18; 0; 8; 7; 9; 6; 10; 5; 11; 4; 12; 3; 13; 2; 14; 1; 15].

(** inflate.rs 46-55 *)
Record htable := mkht { ht_lookup : list Z; ht_lengths : list Z; ht_max : Z }.

(** inflate.rs 60: [*lengths.iter().max().unwrap_or(&0)] *)
Definition list_max (l : list Z) : Z := fold_left Z.max l 0.

(** inflate.rs 74-79 and 196-201: [bl_count[len] += 1] for every non-zero length *)
Definition bl_count (lens : list Z) : list Z :=
  fold_left (fun a l => if l >? 0 then upd a (Z.to_nat l) (znth a l + 1) else a) lens (repeat 0 16).

(** inflate.rs 82-87 and 203-208: [code = (code + bl_count[bits-1]) << 1;
    next_code[bits] = code] for [bits] in 1..=15.  [k] rounds remain; [w] is
    the width of the integer type (32 here; compress/huffman.rs 225-230 runs
    the same loop on 16 bits). *)
Fixpoint next_loop (w : Z) (k : nat) (bits code : Z) (blc nc : list Z) : list Z :=
  match k with
  | O => nc
  | S k' =>
      let code := wrap w (Z.shiftl (code + znth blc (bits - 1)) 1) in
      next_loop w k' (bits + 1) code blc (upd nc (Z.to_nat bits) code)
  end.
Definition next_codes (lens : list Z) : list Z := next_loop 32 15 1 0 (bl_count lens) (repeat 0 16).

(** inflate.rs 90-96: codes in symbol order *)
Fixpoint assign_codes (lens nc : list Z) : list Z :=
  match lens with
  | [] => []
  | l :: t => if l >? 0 then znth nc l :: assign_codes t (upd nc (Z.to_nat l) (znth nc l + 1))
              else 0 :: assign_codes t nc
  end.

(** inflate.rs 223-231 *)
Fixpoint rev_loop (k : nat) (v result : Z) : Z :=
  match k with
  | O => result
  | S k' => rev_loop k' (Z.shiftr v 1) (Z.lor (wrap 16 (Z.shiftl result 1)) (Z.land v 1))
  end.
Definition reverse_bits (value length : Z) : Z := rev_loop (Z.to_nat length) value 0.

(** inflate.rs 112-116: [k] rounds remain, starting from index [i] *)
Fixpoint fill_loop (k : nat) (i reversed len symbol : Z) (lookup : list Z) : list Z :=
  match k with
  | O => lookup
  | S k' =>
      let index := Z.lor reversed (Z.shiftl i len) in
      fill_loop k' (i + 1) reversed len symbol
        (upd lookup (Z.to_nat index) (Z.lor (wrap 16 symbol) (wrap 16 (Z.shiftl len 12))))
  end.
(** inflate.rs 101-117 *)
Fixpoint fill_table (symbol : Z) (lens codes lookup : list Z) : list Z :=
  match lens, codes with
  | len :: lt, code :: ct =>
      let lookup' :=
        if (len =? 0) || (len >? 9) then lookup
        else fill_loop (Z.to_nat (Z.shiftl 1 (9 - len))) 0 (reverse_bits (wrap 16 code) len) len symbol lookup in
      fill_table (symbol + 1) lt ct lookup'
  | _, _ => lookup
  end.

(** inflate.rs 59-127: [HuffmanTable::from_lengths] *)
Definition from_lengths (lens : list Z) : res htable :=
  let max_len := list_max lens in
  if max_len >? 15 then Err EInvalidDecode
  else if max_len =? 0 then Ok (mkht (repeat 0 512) lens 0)
  else
    let codes := assign_codes lens (next_codes lens) in
    Ok (mkht (fill_table 0 lens codes (repeat 0 512)) lens max_len).

(** inflate.rs 210-217: walk to the symbol, counting *)
Fixpoint code_walk (symbol : nat) (lens nc : list Z) : Z :=
  match lens with
  | [] => 2 ^ 32 - 1
  | l :: t =>
      match symbol with
      | O => if l >? 0 then znth nc l else 2 ^ 32 - 1
      | S s => code_walk s t (if l >? 0 then upd nc (Z.to_nat l) (znth nc l + 1) else nc)
      end
  end.
(** inflate.rs 189-219 *)
Definition code_for_symbol (lens : list Z) (symbol : nat) : Z :=
  if nth symbol lens 0 =? 0 then 2 ^ 32 - 1 else code_walk symbol lens (next_codes lens).

(** inflate.rs 175-183: first symbol of this length whose code is [code] *)
Fixpoint slow_scan (rest all : list Z) (symbol : nat) (len code : Z) : option Z :=
  match rest with
  | [] => None
  | l :: t => if (l =? len) && (code =? code_for_symbol all symbol) then Some (Z.of_nat symbol)
              else slow_scan t all (S symbol) len code
  end.
(** inflate.rs 170-186: [k] lengths remain, the next one being [len] *)
Fixpoint slow_loop (k : nat) (len code : Z) (lens : list Z) (r : br) : res (Z * br) :=
  match k with
  | O => Err EInvalidDecode
  | S k' =>
      let* (b, r) := br_read r 1 in
      let code := Z.lor (wrap 32 (Z.shiftl code 1)) b in
      match slow_scan lens lens 0 len code with
      | Some s => Ok (s, r)
      | None => slow_loop k' (len + 1) code lens r
      end
  end.
Definition decode_slow (t : htable) (r : br) : res (Z * br) :=
  slow_loop (Z.to_nat (ht_max t)) 1 0 (ht_lengths t) r.

(** inflate.rs 130-167 *)
Definition ht_decode (t : htable) (r : br) : res (Z * br) :=
  if ht_max t =? 0 then Err EInvalidDecode
  else
    let '(peek, available, r) := br_try_peek r 9 in
    if available >=? 9 then
      let* entry := get (ht_lookup t) peek in
      let len := Z.shiftr entry 12 in
      if (len >? 0) && (len <=? 9) then
        let* r := br_consume r len in
        Ok (Z.land entry 4095, r)
      else decode_slow t r
    else if available >? 0 then
      let* entry := get (ht_lookup t) peek in
      let len := Z.shiftr entry 12 in
      if (len >? 0) && (len <=? available) then
        let* r := br_consume r len in
        Ok (Z.land entry 4095, r)
      else decode_slow t r
    else decode_slow t r.

(** inflate.rs 235-251 *)
Definition fixed_lit_lengths : list Z :=
  repeat 8 144 ++ repeat 9 112 ++ repeat 7 24 ++ repeat 8 8.
(** inflate.rs 257 *)
Definition fixed_dist_lengths : list Z := repeat 5 32.
Definition fixed_literal_table : res htable := from_lengths fixed_lit_lengths.
Definition fixed_distance_table : res htable := from_lengths fixed_dist_lengths.

(** inflate.rs 355-376.  The output vector is threaded as a list. *)
Definition inflate_stored (r : br) (out : list Z) : res (list Z * br) :=
  let r := br_align r in
  let* (len, r) := br_read r 16 in
  let len := wrap 16 len in
  let* (nlen, r) := br_read r 16 in
  let nlen := wrap 16 nlen in
  if negb (len =? 65535 - nlen) then Err EInvalidDecode
  else
    let* (l, r) := br_read_bytes r len in
    Ok (out ++ l, r).

(** inflate.rs 499-502: [k] bytes remain to copy, [i] done *)
Fixpoint copy_loop (k : nat) (i start distance : Z) (out : list Z) : res (list Z) :=
  match k with
  | O => Ok out
  | S k' =>
      let* b := get out (start + i mod distance) in
      copy_loop k' (i + 1) start distance (out ++ [b])
  end.

(** inflate.rs 479-503: a length symbol *)
Definition inflate_match (symbol : Z) (dist_t : htable) (r : br) (out : list Z) : res (list Z * br) :=
  let idx := symbol - 257 in
  let* lb := get LENGTH_BASE idx in
  let* le := get LENGTH_EXTRA idx in
  let* (x, r) := br_read r le in
  let length := lb + x in
  let* (ds, r) := ht_decode dist_t r in
  if ds >=? 30 then Err EInvalidDecode
  else
    let* db := get DISTANCE_BASE ds in
    let* de := get DISTANCE_EXTRA ds in
    let* (y, r) := br_read r de in
    let distance := db + y in
    if distance >? zlen out then Err EInvalidDecode
    else
      let* out := copy_loop (Z.to_nat length) 0 (zlen out - distance) distance out in
      Ok (out, r).

(** inflate.rs 461-513.  Fuel: every round consumes a bit, so the caller
    passes one more than the number of unread bits. *)
Fixpoint inflate_block (fuel : nat) (lit_t dist_t : htable) (r : br) (out : list Z)
  : res (list Z * br) :=
  match fuel with
  | O => NoFuel
  | S f =>
      let* (symbol, r) := ht_decode lit_t r in
      if symbol <=? 255 then inflate_block f lit_t dist_t r (out ++ [wrap 8 symbol])
      else if symbol =? 256 then Ok (out, r)
      else if symbol <=? 285 then
        let* (out, r) := inflate_match symbol dist_t r out in
        inflate_block f lit_t dist_t r out
      else Err EInvalidDecode
  end.
Definition bits_left (r : br) : nat := Z.to_nat (br_n r + 8 * zlen (br_rest r)).

(** inflate.rs 379-383 *)
Definition inflate_fixed (r : br) (out : list Z) : res (list Z * br) :=
  let* lit := fixed_literal_table in
  let* dist := fixed_distance_table in
  inflate_block (S (bits_left r)) lit dist r out.

(** inflate.rs 393-396: [k] code-length lengths remain *)
Fixpoint read_cl (k : nat) (i : Z) (cl : list Z) (r : br) : res (list Z * br) :=
  match k with
  | O => Ok (cl, r)
  | S k' =>
      let* o := get CODE_LENGTH_ORDER i in
      let* (v, r) := br_read r 3 in
      let* _ := get cl o in
      read_cl k' (i + 1) (upd cl (Z.to_nat o) v) r
  end.

(** inflate.rs 402-451.  The vector of [n] zeros filled from the front is
    represented by its filled prefix [acc]; [lengths[i]] past the end of it is
    an [Err] exactly when the repetition would run over [n].  Fuel: each round
    adds at least one entry. *)
Fixpoint read_lens (fuel : nat) (n : Z) (t : htable) (acc : list Z) (r : br) : res (list Z * br) :=
  if zlen acc >=? n then Ok (acc, r)
  else
    match fuel with
    | O => NoFuel
    | S f =>
        let* (symbol, r) := ht_decode t r in
        if symbol <=? 15 then read_lens f n t (acc ++ [symbol]) r
        else if symbol =? 16 then
          match acc with
          | [] => Err EInvalidDecode
          | _ =>
              let* (x, r) := br_read r 2 in
              if zlen acc + (x + 3) >? n then Err EInvalidDecode
              else read_lens f n t (acc ++ repeat (last acc 0) (Z.to_nat (x + 3))) r
          end
        else if symbol =? 17 then
          let* (x, r) := br_read r 3 in
          if zlen acc + (x + 3) >? n then Err EInvalidDecode
          else read_lens f n t (acc ++ repeat 0 (Z.to_nat (x + 3))) r
        else if symbol =? 18 then
          let* (x, r) := br_read r 7 in
          if zlen acc + (x + 11) >? n then Err EInvalidDecode
          else read_lens f n t (acc ++ repeat 0 (Z.to_nat (x + 11))) r
        else Err EInvalidDecode
    end.

(** inflate.rs 386-458 *)
Definition inflate_dynamic (r : br) (out : list Z) : res (list Z * br) :=
  let* (hlit, r) := br_read r 5 in
  let hlit := hlit + 257 in
  let* (hdist, r) := br_read r 5 in
  let hdist := hdist + 1 in
  let* (hclen, r) := br_read r 4 in
  let hclen := hclen + 4 in
  let* (cl, r) := read_cl (Z.to_nat hclen) 0 (repeat 0 19) r in
  let* cl_t := from_lengths cl in
  let* (lens, r) := read_lens (Z.to_nat (hlit + hdist)) (hlit + hdist) cl_t [] r in
  let* lit_t := from_lengths (firstn (Z.to_nat hlit) lens) in
  let* dist_t := from_lengths (skipn (Z.to_nat hlit) lens) in
  inflate_block (S (bits_left r)) lit_t dist_t r out.

(** inflate.rs 269-284: the block loop *)
Fixpoint inflate_loop (fuel : nat) (r : br) (out : list Z) : res (list Z * br) :=
  match fuel with
  | O => NoFuel
  | S f =>
      let* (bfinal, r) := br_read r 1 in
      let* (btype, r) := br_read r 2 in
      let* (out, r) :=
        (if btype =? 0 then inflate_stored r out
         else if btype =? 1 then inflate_fixed r out
         else if btype =? 2 then inflate_dynamic r out
         else Err EInvalidDecode) in
      if bfinal =? 1 then Ok (out, r) else inflate_loop f r out
  end.
(** inflate.rs 265-287 (the capacity hint is not modelled) *)
Definition inflate (data : list Z) : res (list Z) :=
  let* (out, _) := inflate_loop (S (8 * length data)) (br_new data) [] in
  Ok out.

(** big-endian u32 of four bytes: u32::from_be_bytes *)
Definition be32 (a b c d : Z) : Z := a * 2 ^ 24 + b * 2 ^ 16 + c * 2 ^ 8 + d.

(** inflate.rs 294-352 *)
Definition inflate_zlib (data : list Z) (expected : option Z) : res (list Z) :=
  let n := zlen data in
  if n <? 6 then Err EInvalidDecode
  else
    let* cmf := get data 0 in
    let* flg := get data 1 in
    if negb (Z.land cmf 15 =? 8) then Err EInvalidDecode
    else if negb (Z.lor (Z.shiftl cmf 8) flg mod 31 =? 0) then Err EInvalidDecode
    else if negb (Z.land flg 32 =? 0) then Err EUnsupportedDecode
    else
      let e := n - 4 in
      let* out := inflate (slice data 2 e) in
      let* a := get data e in
      let* b := get data (e + 1) in
      let* c := get data (e + 2) in
      let* d := get data (e + 3) in
      if negb (be32 a b c d =? adler32 out) then Err EInvalidDecode
      else
        match expected with
        | Some x => if zlen out =? x then Ok out else Err EInvalidDecode
        | None => Ok out
        end.
