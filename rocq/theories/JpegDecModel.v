(** Model of src/decode/jpeg.rs and src/decode/idct.rs: the baseline JPEG
    decoder. *)
From Verif Require Import Base BitsModel Lz77Model PngFilterModel PngPaletteModel JpegBaseModel.

(** ** Huffman tables: jpeg.rs 49-75.  [min_code] is never read and is left out. *)
Record jtab := mkjtab { j_lookup : list Z; j_values : list Z; j_max : list Z; j_off : list Z }.
Definition jtab_default : jtab := mkjtab (repeat 0 256) [] (repeat (-1) 17) (repeat 0 17).

(** jpeg.rs 88-92 *)
Fixpoint sizes_from (len : Z) (bits : list Z) : list Z :=
  match bits with [] => [] | c :: r => repeat len (Z.to_nat c) ++ sizes_from (len + 1) r end.
Definition huff_sizes (bits : list Z) : list Z := sizes_from 1 bits.
(** jpeg.rs 95-104: the u32 [code] cannot overflow (fewer than 2^13 codes, 16
    doublings) *)
Fixpoint codes_from (code si : Z) (sizes : list Z) : list Z :=
  match sizes with
  | [] => []
  | size :: t =>
      let d := Z.max 0 (size - si) in
      let code := Z.shiftl code d in
      wrap 16 code :: codes_from (code + 1) (si + d) t
  end.
Definition huff_codes (bits : list Z) : list Z :=
  let sizes := huff_sizes bits in codes_from 0 (nth 0 sizes 0) sizes.
(** jpeg.rs 107-123: (max_code, val_offset) for lengths 1..16 *)
Fixpoint ranges_from (val_idx : Z) (codes bits : list Z) : list (Z * Z) :=
  match bits with
  | [] => []
  | c :: r =>
      if c >? 0 then (znth codes (val_idx + c - 1), val_idx - znth codes val_idx) :: ranges_from (val_idx + c) codes r
      else (-1, 0) :: ranges_from val_idx codes r
  end.
(** jpeg.rs 126-144: codes of at most 8 bits, every completion to 8 bits *)
Definition fill_one (lookup : list Z) (e : Z * Z * Z) : list Z :=
  let '(len, code, val) := e in
  if len <=? 8 then
    let fill := 8 - len in
    let base := Z.shiftl code fill in
    fold_left (fun lk i => let idx := Z.lor base i in
                           if idx <? 256 then upd lk (Z.to_nat idx) (Z.lor val (Z.shiftl len 8)) else lk)
              (idxs (Z.to_nat (Z.shiftl 1 fill))) lookup
  else lookup.
Definition code_entries (bits values : list Z) : list (Z * Z * Z) :=
  map (fun k => (znth (huff_sizes bits) k, znth (huff_codes bits) k, znth values k)) (idxs (length (huff_sizes bits))).
(** jpeg.rs 79-147 *)
Definition jtab_build (bits values : list Z) : jtab :=
  let rg := ranges_from 0 (huff_codes bits) bits in
  mkjtab (fold_left fill_one (code_entries bits values) (repeat 0 256)) values
         (-1 :: map fst rg) (0 :: map snd rg).

(** jpeg.rs 165-180; i32 arithmetic on at most 16 bits *)
Fixpoint slow_loop (k : nat) (len code : Z) (t : jtab) (r : mr) : res (Z * mr) :=
  match k with
  | O => Err EInvalidDecode
  | S k' =>
      match mr_read r 1 with
      | (Ok b, r) =>
          let code := Z.lor (Z.shiftl code 1) b in
          if code <=? znth (j_max t) len then
            let idx := code + znth (j_off t) len in
            if (0 <=? idx) && (idx <? zlen (j_values t)) then Ok (znth (j_values t) idx, r) else Err EInvalidDecode
          else slow_loop k' (len + 1) code t r
      | (Err e, _) => Err e
      | (Panic, _) => Panic
      | (NoFuel, _) => NoFuel
      end
  end.
Definition decode_slow (t : jtab) (r : mr) : res (Z * mr) := slow_loop 16 1 0 t r.
(** jpeg.rs 150-163: a failed peek leaves the bits read so far in the buffer
    and falls through to the slow path *)
Definition jdecode (t : jtab) (r : mr) : res (Z * mr) :=
  match mr_peek r 8 with
  | (Ok peek, r) =>
      let* entry := get (j_lookup t) peek in
      let len := Z.shiftr entry 8 in
      if (len >? 0) && (len <=? 8) then Ok (Z.land entry 255, mr_consume r len)
      else decode_slow t r
  | (Err _, r) => decode_slow t r
  | (Panic, _) => Panic
  | (NoFuel, _) => NoFuel
  end.
(** jpeg.rs 674-687 *)
Definition read_amplitude (r : mr) (size : Z) : res (Z * mr) :=
  if size =? 0 then Ok (0, r)
  else match mr_read r size with
       | (Ok bits, r) => Ok (extend_amplitude bits size, r)
       | (Err e, _) => Err e
       | (Panic, _) => Panic
       | (NoFuel, _) => NoFuel
       end.

(** ** Inverse DCT: src/decode/idct.rs *)
Definition as_i32 (x : Z) : Z := let y := wrap 32 x in if y <? 2 ^ 31 then y else y - 2 ^ 32.
(** idct.rs 17-19: i64 product, truncated to i32 *)
Definition fix_mul (a b : Z) : Z := as_i32 (Z.shiftr (a * b) 13).
Definition add32 (a b : Z) : res Z := i32 (a + b).
Definition sub32 (a b : Z) : res Z := i32 (a - b).
(** idct.rs 52-103 (columns) and 129-180 (rows): the same butterfly up to the
    descaling; [<<] on i32 keeps the low 32 bits, + and - panic on overflow.
    Results in output order 0..7. *)
Definition idct_1d (d0 d1 d2 d3 d4 d5 d6 d7 : Z) : res (list Z) :=
  let tmp0 := as_i32 (Z.shiftl d0 13) in
  let tmp1 := as_i32 (Z.shiftl d2 13) in
  let tmp2 := as_i32 (Z.shiftl d4 13) in
  let tmp3 := as_i32 (Z.shiftl d6 13) in
  let* tmp10 := add32 tmp0 tmp2 in
  let* tmp11 := sub32 tmp0 tmp2 in
  let* s := add32 tmp1 tmp3 in
  let z1 := fix_mul s 4433 in
  let* tmp12 := sub32 z1 (fix_mul tmp3 15137) in
  let* tmp13 := add32 z1 (fix_mul tmp1 6270) in
  let* e0 := add32 tmp10 tmp13 in
  let* e3 := sub32 tmp10 tmp13 in
  let* e1 := add32 tmp11 tmp12 in
  let* e2 := sub32 tmp11 tmp12 in
  let* s := add32 d1 d5 in
  let z5 := fix_mul s 9633 in
  let o10 := fix_mul d1 2446 in
  let o11 := fix_mul d3 16819 in
  let o12 := fix_mul d5 25172 in
  let o13 := fix_mul d7 12299 in
  let* s1 := add32 d1 d7 in
  let z1 := fix_mul s1 (-7373) in
  let* s2 := add32 d3 d5 in
  let z2 := fix_mul s2 (-20995) in
  let* s3 := add32 d5 d7 in
  let z3 := fix_mul s3 (-16069) in
  let* s4 := add32 d1 d3 in
  let z4 := fix_mul s4 (-3196) in
  let* z3 := add32 z3 z5 in
  let* z4 := add32 z4 z5 in
  let* o10 := add32 o10 z1 in let* o10 := add32 o10 z3 in
  let* o11 := add32 o11 z2 in let* o11 := add32 o11 z4 in
  let* o12 := add32 o12 z2 in let* o12 := add32 o12 z3 in
  let* o13 := add32 o13 z1 in let* o13 := add32 o13 z4 in
  let* r0 := add32 e0 o13 in let* r7 := sub32 e0 o13 in
  let* r1 := add32 e1 o12 in let* r6 := sub32 e1 o12 in
  let* r2 := add32 e2 o11 in let* r5 := sub32 e2 o11 in
  let* r3 := add32 e3 o10 in let* r4 := sub32 e3 o10 in
  Ok [r0; r1; r2; r3; r4; r5; r6; r7].
(** idct.rs 105-113 *)
Definition descale1 (x : Z) : res Z := let* y := add32 x 1024 in Ok (Z.shiftr y 11).
(** idct.rs 205-211 *)
Definition descale_and_clamp (x : Z) : res Z :=
  let* y := add32 x 131072 in
  let* z := add32 (Z.shiftr y 18) 128 in
  Ok (clamp z 0 255).
Definition idct_line (l : list Z) : res (list Z) :=
  idct_1d (znth l 0) (znth l 1) (znth l 2) (znth l 3) (znth l 4) (znth l 5) (znth l 6) (znth l 7).
Definition column (m : list Z) (c : Z) : list Z := map (fun r => znth m (c + 8 * r)) (idxs 8).
(** idct.rs 47-201; the workspace is built from its columns, the output from
    its rows *)
Definition idct_2d (coeffs : list Z) : res (list Z) :=
  let* cols := map_res (fun c => let* l := idct_line (column coeffs c) in map_res descale1 l) (idxs 8) in
  let* rows := map_res (fun r => let* l := idct_line (map (fun col => znth col r) cols) in map_res descale_and_clamp l) (idxs 8) in
  Ok (concat rows).

(** ** Decoder state: jpeg.rs 38-47, 184-196; the reading position is the
    unread suffix, passed separately.  The component id is not used. *)
Record jcomp := mkcomp { c_h : Z; c_v : Z; c_q : Z; c_dc : Z; c_ac : Z }.
Record jstate := mkjs {
  js_w : Z; js_h : Z; js_comps : list jcomp; js_quant : list (list Z);
  js_dc : list jtab; js_ac : list jtab; js_restart : Z; js_maxh : Z; js_maxv : Z }.
(** jpeg.rs 199-213 *)
Definition js_new : jstate :=
  mkjs 0 0 [] (repeat (repeat 0 64) 4) (repeat jtab_default 4) (repeat jtab_default 4) 0 1 1.

Definition be16 (a b : Z) : Z := 256 * a + b.
(** jpeg.rs 264-271 *)
Fixpoint skip_to_ff (l : list Z) : list Z :=
  match l with [] => [] | b :: r => if b =? 255 then l else skip_to_ff r end.
Fixpoint skip_ff (l : list Z) : list Z :=
  match l with [] => [] | b :: r => if b =? 255 then skip_ff r else l end.
(** jpeg.rs 262-302 *)
Definition read_marker (data : list Z) : res (Z * list Z * list Z) :=
  match skip_ff (skip_to_ff data) with
  | [] => Err EInvalidDecode
  | marker :: r =>
      if (marker =? 216) || (marker =? 217) || ((208 <=? marker) && (marker <=? 215)) then Ok (marker, [], r)
      else match r with
           | a :: b :: r' =>
               let len := be16 a b in
               if (len <? 2) || (len - 2 >? zlen r') then Err EInvalidDecode
               else Ok (marker, firstn (Z.to_nat (len - 2)) r', skipn (Z.to_nat (len - 2)) r')
           | _ => Err EInvalidDecode
           end
  end.

(** jpeg.rs 323-354: one component per round, stops at the first bad one *)
Fixpoint sof_comps (n : nat) (seg : list Z) (maxh maxv : Z) : res (list jcomp * Z * Z) :=
  match n with
  | O => Ok ([], maxh, maxv)
  | S n' =>
      let* s := get seg 1 in
      let* q := get seg 2 in
      let h := Z.land (Z.shiftr s 4) 15 in
      let v := Z.land s 15 in
      if (h =? 0) || (v =? 0) then Err EInvalidDecode
      else if q >? 3 then Err EInvalidDecode
      else
        let* (cs, mh, mv) := sof_comps n' (skipn 3 seg) (Z.max maxh h) (Z.max maxv v) in
        Ok (mkcomp h v q 0 0 :: cs, mh, mv)
  end.
(** jpeg.rs 304-358 *)
Definition parse_sof0 (st : jstate) (seg : list Z) : res jstate :=
  if zlen seg <? 8 then Err EInvalidDecode
  else if negb (znth seg 0 =? 8) then Err EUnsupportedDecode
  else
    let h := be16 (znth seg 1) (znth seg 2) in
    let w := be16 (znth seg 3) (znth seg 4) in
    let n := znth seg 5 in
    if negb (n =? 1) && negb (n =? 3) then Err EUnsupportedDecode
    else if zlen seg <? 6 + n * 3 then Err EInvalidDecode
    else
      let* (cs, mh, mv) := sof_comps (Z.to_nat n) (skipn 6 seg) (js_maxh st) (js_maxv st) in
      Ok (mkjs w h cs (js_quant st) (js_dc st) (js_ac st) (js_restart st) mh mv).

Definition zsum (l : list Z) : Z := fold_right Z.add 0 l.
(** jpeg.rs 360-397; each round consumes at least 17 bytes *)
Fixpoint parse_dht (fuel : nat) (st : jstate) (seg : list Z) : res jstate :=
  match seg with
  | [] => Ok st
  | info :: r =>
      match fuel with
      | O => NoFuel
      | S f =>
          let cls := Z.land (Z.shiftr info 4) 15 in
          let id := Z.land info 15 in
          if id >? 3 then Err EInvalidDecode
          else if 16 >? zlen r then Err EInvalidDecode
          else
            let bits := firstn 16 r in
            let r := skipn 16 r in
            let n := zsum bits in
            if n >? zlen r then Err EInvalidDecode
            else
              let t := jtab_build bits (firstn (Z.to_nat n) r) in
              let st := if cls =? 0
                then mkjs (js_w st) (js_h st) (js_comps st) (js_quant st) (upd (js_dc st) (Z.to_nat id) t) (js_ac st) (js_restart st) (js_maxh st) (js_maxv st)
                else mkjs (js_w st) (js_h st) (js_comps st) (js_quant st) (js_dc st) (upd (js_ac st) (Z.to_nat id) t) (js_restart st) (js_maxh st) (js_maxv st) in
              parse_dht f st (skipn (Z.to_nat n) r)
      end
  end.
(** jpeg.rs 399-437 *)
Fixpoint parse_dqt (fuel : nat) (st : jstate) (seg : list Z) : res jstate :=
  match seg with
  | [] => Ok st
  | info :: r =>
      match fuel with
      | O => NoFuel
      | S f =>
          let prec := Z.land (Z.shiftr info 4) 15 in
          let id := Z.land info 15 in
          let set t := mkjs (js_w st) (js_h st) (js_comps st) (upd (js_quant st) (Z.to_nat id) t) (js_dc st) (js_ac st) (js_restart st) (js_maxh st) (js_maxv st) in
          if id >? 3 then Err EInvalidDecode
          else if prec =? 0 then
            if 64 >? zlen r then Err EInvalidDecode
            else parse_dqt f (set (firstn 64 r)) (skipn 64 r)
          else
            if 128 >? zlen r then Err EInvalidDecode
            else parse_dqt f (set (map (fun i => be16 (znth r (2 * i)) (znth r (2 * i + 1))) (idxs 64))) (skipn 128 r)
      end
  end.
(** jpeg.rs 439-447 *)
Definition parse_dri (st : jstate) (seg : list Z) : res jstate :=
  if negb (zlen seg =? 2) then Err EInvalidDecode
  else Ok (mkjs (js_w st) (js_h st) (js_comps st) (js_quant st) (js_dc st) (js_ac st) (be16 (znth seg 0) (znth seg 1)) (js_maxh st) (js_maxv st)).
(** jpeg.rs 460-483; [seg] is the segment after the count and the selectors read so far *)
Fixpoint sos_comps (cs : list jcomp) (seg : list Z) : res (list jcomp) :=
  match cs with
  | [] => Ok []
  | c :: r =>
      match seg with
      | _ :: tables :: seg' =>
          let dc := Z.land (Z.shiftr tables 4) 15 in
          let ac := Z.land tables 15 in
          if dc >? 3 then Err EInvalidDecode
          else if ac >? 3 then Err EInvalidDecode
          else let* r' := sos_comps r seg' in Ok (mkcomp (c_h c) (c_v c) (c_q c) dc ac :: r')
      | _ => Err EInvalidDecode
      end
  end.
(** jpeg.rs 449-484 *)
Definition parse_sos (st : jstate) (seg : list Z) : res jstate :=
  match seg with
  | [] => Err EInvalidDecode
  | n :: r =>
      if negb (n =? zlen (js_comps st)) then Err EInvalidDecode
      else
        let* cs := sos_comps (js_comps st) r in
        Ok (mkjs (js_w st) (js_h st) cs (js_quant st) (js_dc st) (js_ac st) (js_restart st) (js_maxh st) (js_maxv st))
  end.

(** jpeg.rs 652-671 *)
Fixpoint find_entropy_end (l : list Z) : Z :=
  match l with
  | [] => 0
  | a :: t =>
      match t with
      | [] => 1
      | b :: r =>
          if (a =? 255) && negb (b =? 0) && negb (b =? 255) then
            if (208 <=? b) && (b <=? 215) then 2 + find_entropy_end r else 0
          else 1 + find_entropy_end t
      end
  end.

(** jpeg.rs 547-584: the AC loop; [k] grows every round *)
Fixpoint dec_ac (fuel : nat) (t : jtab) (r : mr) (k : Z) (coeffs : list Z) : res (list Z * mr) :=
  if k <? 64 then
    match fuel with
    | O => NoFuel
    | S f =>
        let* (symbol, r) := jdecode t r in
        if symbol =? 0 then Ok (coeffs, r)
        else
          let run := Z.land (Z.shiftr symbol 4) 15 in
          let size := Z.land symbol 15 in
          if symbol =? 240 then dec_ac f t r (k + 16) coeffs
          else
            let k := k + run in
            if k >=? 64 then Ok (coeffs, r)
            else if size >? 0 then
              let* (amp, r) := read_amplitude r size in
              dec_ac f t r (k + 1) (upd coeffs (Z.to_nat k) (as_i16 amp))
            else dec_ac f t r (k + 1) coeffs
    end
  else Ok (coeffs, r).
(** jpeg.rs 525-584: one block in zigzag order and the new DC predictor *)
Definition dec_block (dct act : jtab) (r : mr) (pred : Z) : res (list Z * Z * mr) :=
  let* (cat, r) := jdecode dct r in
  let* (diff, r) := (if cat >? 0 then read_amplitude r cat else Ok (0, r)) in
  let* pred := i32 (pred + diff) in
  let* (coeffs, r) := dec_ac 64 act r 1 (upd (repeat 0 64) 0 (as_i16 pred)) in
  Ok (coeffs, pred, r).

(** jpeg.rs 591-606: store a block; writes outside are dropped *)
Definition store_block (data : list Z) (width sx sy : Z) (px : list Z) : list Z :=
  fold_left (fun d k =>
    let idx := (sy + k / 8) * width + (sx + k mod 8) in
    if idx <? zlen d then upd d (Z.to_nat idx) (znth px k) else d) (idxs 64) data.

Record scan_state := mkscan { s_comps : list (list Z); s_preds : list Z; s_reader : mr }.
Inductive flow := Go (s : scan_state) | Stop (data : list (list Z)).

(** jpeg.rs 520-608: one block of component [ci] at block coordinates
    (bx, by); a decoding error leaves the loops, a panic is a panic *)
Definition scan_block (st : jstate) (ci : Z) (c : jcomp) (mcu_w bx by_ : Z) (s : scan_state) : res flow :=
  let* dct := get (js_dc st) (c_dc c) in
  let* act := get (js_ac st) (c_ac c) in
  let* pred := get (s_preds s) ci in
  match dec_block dct act (s_reader s) pred with
  | Ok (coeffs, pred, r) =>
      let* q := get (js_quant st) (c_q c) in
      let* px := idct_2d (dequantize coeffs q) in
      let* d := get (s_comps s) ci in
      let d := store_block d (mcu_w * c_h c * 8) (bx * 8) (by_ * 8) px in
      Ok (Go (mkscan (upd (s_comps s) (Z.to_nat ci) d) (upd (s_preds s) (Z.to_nat ci) pred) r))
  | Err _ => Ok (Stop (s_comps s))
  | Panic => Panic
  | NoFuel => NoFuel
  end.
(** run the steps of a loop in order until one stops *)
Fixpoint flow_fold {A} (f : A -> scan_state -> res flow) (l : list A) (s : scan_state) : res flow :=
  match l with
  | [] => Ok (Go s)
  | a :: r => let* x := f a s in match x with Go s => flow_fold f r s | Stop d => Ok (Stop d) end
  end.
(** jpeg.rs 513-519: (component index, component, block row, block column) *)
Definition mcu_blocks (cs : list jcomp) : list (Z * jcomp * Z * Z) :=
  flat_map (fun '(ci, c) =>
    flat_map (fun v => map (fun h => (ci, c, v, h)) (idxs (Z.to_nat (c_h c)))) (idxs (Z.to_nat (c_v c))))
    (combine (idxs (length cs)) cs).
(** jpeg.rs 500-612: the MCU number [k]; its column and row *)
Definition scan_mcu (st : jstate) (mcu_w : Z) (k : Z) (s : scan_state) : res flow :=
  let s := if (js_restart st >? 0) && (k >? 0) && (k mod js_restart st =? 0)
           then mkscan (s_comps s) (map (fun _ => 0) (s_preds s)) (s_reader s) else s in
  flow_fold (fun '(ci, c, v, h) s =>
      scan_block st ci c mcu_w (k mod mcu_w * c_h c + h) (k / mcu_w * c_v c + v) s) (mcu_blocks (js_comps st)) s.
Definition div_ceil (a b : Z) : Z := (a + b - 1) / b.

(** jpeg.rs 690-743 *)
Definition get_or (l : list Z) (i d : Z) : Z := if i <? zlen l then znth l i else d.
Definition ycbcr_pixel (y cb cr : Z) : list Z :=
  let cb := cb - 128 in let cr := cr - 128 in
  [clamp (y + Z.shiftr (cr * 359) 8) 0 255;
   clamp (y - Z.shiftr (cb * 88 + cr * 183) 8) 0 255;
   clamp (y + Z.shiftr (cb * 454) 8) 0 255].
Definition ycbcr_to_rgb (data : list (list Z)) (w h : Z) (cs : list jcomp) (maxh maxv : Z) : res (list Z) :=
  let* c1 := get cs 1 in
  let* c2 := get cs 2 in
  let* d0 := get data 0 in
  let* d1 := get data 1 in
  let* d2 := get data 2 in
  let cols := div_ceil w (maxh * 8) in
  let yw := cols * maxh * 8 in
  let cbw := cols * c_h c1 * 8 in
  let crw := cols * c_h c2 * 8 in
  let hb := maxh / c_h c1 in let vb := maxv / c_v c1 in
  let hr := maxh / c_h c2 in let vr := maxv / c_v c2 in
  Ok (flat_map (fun y => flat_map (fun x =>
        ycbcr_pixel (get_or d0 (y * yw + x) 0)
                    (get_or d1 (y / vb * cbw + x / hb) 128)
                    (get_or d2 (y / vr * crw + x / hr) 128)) (idxs (Z.to_nat w))) (idxs (Z.to_nat h))).

Record jimage := mkjimg { ji_w : Z; ji_h : Z; ji_pixels : list Z; ji_ct : color_type }.
(** jpeg.rs 486-649 *)
Definition decode_scan (st : jstate) (data : list Z) : res jimage :=
  let mw := div_ceil (js_w st) (js_maxh st * 8) in
  let mh := div_ceil (js_h st) (js_maxv st * 8) in
  let comp0 := map (fun c => repeat 0 (Z.to_nat ((mw * c_h c * 8) * (mh * c_v c * 8)))) (js_comps st) in
  let entropy := firstn (Z.to_nat (find_entropy_end data)) data in
  let* fl := flow_fold (scan_mcu st mw) (idxs (Z.to_nat (mw * mh)))
               (mkscan comp0 (map (fun _ => 0) (js_comps st)) (mr_new entropy)) in
  let comps := match fl with Go s => s_comps s | Stop d => d end in
  match js_comps st with
  | [c] =>
      let* d := get comps 0 in
      let cw := mw * c_h c * 8 in
      Ok (mkjimg (js_w st) (js_h st)
            (flat_map (fun y => map (fun x => clamp (get_or d (y * cw + x) 0) 0 255) (idxs (Z.to_nat (js_w st)))) (idxs (Z.to_nat (js_h st)))) Gray)
  | cs =>
      let* px := ycbcr_to_rgb comps (js_w st) (js_h st) cs (js_maxh st) (js_maxv st) in
      Ok (mkjimg (js_w st) (js_h st) px Rgb)
  end.

(** jpeg.rs 223-259; every marker consumes at least one byte *)
Fixpoint marker_loop (fuel : nat) (st : jstate) (data : list Z) : res jimage :=
  match fuel with
  | O => NoFuel
  | S f =>
      let* (marker, seg, rest) := read_marker data in
      if marker =? 192 then let* st := parse_sof0 st seg in marker_loop f st rest
      else if marker =? 194 then Err EUnsupportedDecode
      else if marker =? 196 then let* st := parse_dht (length seg) st seg in marker_loop f st rest
      else if marker =? 219 then let* st := parse_dqt (length seg) st seg in marker_loop f st rest
      else if marker =? 221 then let* st := parse_dri st seg in marker_loop f st rest
      else if marker =? 218 then let* st := parse_sos st seg in decode_scan st rest
      else if marker =? 217 then Err EInvalidDecode
      else marker_loop f st rest
  end.
(** jpeg.rs 215-221, 746-748 *)
Definition decode_jpeg (data : list Z) : res jimage :=
  match data with
  | a :: b :: rest => if (a =? 255) && (b =? 216) then marker_loop (S (length rest)) js_new rest else Err EInvalidDecode
  | _ => Err EInvalidDecode
  end.

Example decode_no_components : decode_jpeg [255; 216; 255; 218; 0; 3; 0] = Panic.
Proof. vm_compute. reflexivity. Qed.
Example idct_dc : idct_2d (80 :: repeat 0 63) = Ok (repeat 138 64).
Proof. vm_compute. reflexivity. Qed.
