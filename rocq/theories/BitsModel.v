(** Model of src/bits.rs (three bit writers) and src/decode/bit_reader.rs
    (two bit readers). *)
From Verif Require Import Base.

(** ** BitWriter: src/bits.rs 5-9 *)
Record bw := mkbw { bw_buf : list Z; bw_cur : Z; bw_pos : Z }.

(** src/bits.rs 18-24 (capacity is not modelled) *)
Definition bw_new : bw := mkbw [] 0 0.

(** src/bits.rs 38-59: the loop; each round writes at least one bit, so the
    fuel [remaining] given by the caller below is never exhausted. *)
Fixpoint bw_loop (fuel : nat) (w : bw) (value remaining : Z) : bw :=
  match fuel with
  | O => w
  | S f =>
      if remaining >? 0 then
        let available := 8 - bw_pos w in
        let to_write := Z.min remaining available in
        let mask := Z.shiftl 1 to_write - 1 in
        let bits := wrap 8 (Z.land value mask) in
        let cur := Z.lor (bw_cur w) (wrap 8 (Z.shiftl bits (bw_pos w))) in
        let pos := bw_pos w + to_write in
        let w' := if pos =? 8 then mkbw (bw_buf w ++ [cur]) 0 0
                  else mkbw (bw_buf w) cur pos in
        bw_loop f w' (Z.shiftr value to_write) (remaining - to_write)
      else w
  end.
(** src/bits.rs 32-60 *)
Definition bw_write_bits (w : bw) (value num_bits : Z) : bw :=
  bw_loop (Z.to_nat num_bits) w value num_bits.
(** src/bits.rs 63-65 *)
Definition bw_write_bit (w : bw) (b : bool) : bw := bw_write_bits w (Z.b2z b) 1.
(** src/bits.rs 68-74 *)
Definition bw_write_byte (w : bw) (b : Z) : bw :=
  if bw_pos w =? 0 then mkbw (bw_buf w ++ [b]) (bw_cur w) (bw_pos w)
  else bw_write_bits w b 8.
(** src/bits.rs 76-84 *)
Definition bw_write_bytes (w : bw) (l : list Z) : bw :=
  if bw_pos w =? 0 then mkbw (bw_buf w ++ l) (bw_cur w) (bw_pos w)
  else fold_left (fun w b => bw_write_bits w b 8) l w.
(** src/bits.rs 87-93 *)
Definition bw_flush (w : bw) : bw :=
  if bw_pos w >? 0 then mkbw (bw_buf w ++ [bw_cur w]) 0 0 else w.
(** src/bits.rs 96-99 *)
Definition bw_finish (w : bw) : list Z := bw_buf (bw_flush w).

(** ** BitWriter64: src/bits.rs 123-127 *)
Record bw64 := mkbw64 { b64_buf : list Z; b64_acc : Z; b64_n : Z }.
(** src/bits.rs 140-146 *)
Definition b64_new : bw64 := mkbw64 [] 0 0.
(** src/bits.rs 156-160; fuel: the count strictly decreases *)
Fixpoint b64_drain (fuel : nat) (buf : list Z) (acc n : Z) : bw64 :=
  match fuel with
  | O => mkbw64 buf acc n
  | S f => if n >=? 8 then b64_drain f (buf ++ [wrap 8 acc]) (Z.shiftr acc 8) (n - 8)
           else mkbw64 buf acc n
  end.
(** src/bits.rs 149-161.  [1u32 << num_bits] is modelled with the release-mode
    shift (amount modulo 32); with overflow checks, num_bits = 32 panics. *)
Definition b64_write (w : bw64) (value num_bits : Z) : bw64 :=
  let mask := wrap 32 (wrap 32 (Z.shiftl 1 (num_bits mod 32)) - 1) in
  let val64 := Z.land value mask in
  let acc := Z.lor (b64_acc w) (wrap 64 (Z.shiftl val64 (b64_n w))) in
  let n := b64_n w + num_bits in
  b64_drain (Z.to_nat n) (b64_buf w) acc n.
(** src/bits.rs 169-175 *)
Definition b64_flush (w : bw64) : bw64 :=
  if b64_n w >? 0 then mkbw64 (b64_buf w ++ [wrap 8 (b64_acc w)]) 0 0 else w.
(** src/bits.rs 178-181 *)
Definition b64_finish (w : bw64) : list Z := b64_buf (b64_flush w).

(** ** BitWriterMsb: src/bits.rs 195-199 *)
Record bwm := mkbwm { m_buf : list Z; m_cur : Z; m_pos : Z }.
(** src/bits.rs 206-212 *)
Definition m_new : bwm := mkbwm [] 0 8.
(** src/bits.rs 245-253 *)
Definition m_push_stuffed (buf : list Z) (b : Z) : list Z :=
  if b =? 255 then buf ++ [b; 0] else buf ++ [b].
(** src/bits.rs 222-240 *)
Fixpoint m_loop (fuel : nat) (w : bwm) (val remaining : Z) : bwm :=
  match fuel with
  | O => w
  | S f =>
      if remaining >? 0 then
        let to_write := Z.min remaining (m_pos w) in
        let shift := remaining - to_write in
        let mask := Z.shiftl 1 to_write - 1 in
        let bits := wrap 8 (Z.land (Z.shiftr val shift) mask) in
        let pos := m_pos w - to_write in
        let cur := Z.lor (m_cur w) (wrap 8 (Z.shiftl bits pos)) in
        let w' := if pos =? 0 then mkbwm (m_push_stuffed (m_buf w) cur) 0 8
                  else mkbwm (m_buf w) cur pos in
        m_loop f w' val (remaining - to_write)
      else w
  end.
(** src/bits.rs 216-241 *)
Definition m_write (w : bwm) (value num_bits : Z) : bwm :=
  m_loop (Z.to_nat num_bits) w value num_bits.
(** src/bits.rs 261-272 *)
Definition m_flush (w : bwm) : bwm :=
  if m_pos w <? 8 then
    let cur := Z.lor (m_cur w) (wrap 8 (Z.shiftl 1 (m_pos w)) - 1) in
    mkbwm (m_push_stuffed (m_buf w) cur) 0 8
  else w.
(** src/bits.rs 275-278 *)
Definition m_finish (w : bwm) : list Z := m_buf (m_flush w).
(** src/bits.rs 281-284: raw bytes, no stuffing; debug-asserts alignment *)
Definition m_write_bytes (w : bwm) (l : list Z) : bwm :=
  mkbwm (m_buf w ++ l) (m_cur w) (m_pos w).

(** ** BitReader: src/decode/bit_reader.rs 10-15.  The pair (data, pos) is
    represented by the unread suffix [data[pos..]]. *)
Record br := mkbr { br_rest : list Z; br_buf : Z; br_n : Z }.
(** src/decode/bit_reader.rs 19-26 *)
Definition br_new (data : list Z) : br := mkbr data 0 0.
(** src/decode/bit_reader.rs 30-40 *)
Fixpoint br_fill (rest : list Z) (buf cnt n : Z) : res br :=
  if cnt <? n then
    match rest with
    | [] => Err EInvalidDecode
    | b :: r => br_fill r (Z.lor buf (wrap 64 (Z.shiftl b cnt))) (cnt + 8) n
    end
  else Ok (mkbr rest buf cnt).
Definition br_ensure (r : br) (n : Z) : res br := br_fill (br_rest r) (br_buf r) (br_n r) n.
(** src/decode/bit_reader.rs 44-48 *)
Definition br_peek (r : br) (n : Z) : res (Z * br) :=
  let* r := br_ensure r n in
  Ok (wrap 32 (Z.land (br_buf r) (Z.shiftl 1 n - 1)), r).
(** src/decode/bit_reader.rs 57-61: loading part of try_peek_bits *)
Fixpoint br_fill_try (rest : list Z) (buf cnt n : Z) : br :=
  if cnt <? n then
    match rest with
    | [] => mkbr rest buf cnt
    | b :: r => br_fill_try r (Z.lor buf (wrap 64 (Z.shiftl b cnt))) (cnt + 8) n
    end
  else mkbr rest buf cnt.
(** src/decode/bit_reader.rs 54-64 *)
Definition br_try_peek (r : br) (n : Z) : Z * Z * br :=
  let r := br_fill_try (br_rest r) (br_buf r) (br_n r) n in
  let actual := Z.min (br_n r) n in
  (wrap 32 (Z.land (br_buf r) (Z.shiftl 1 actual - 1)), actual, r).
(** src/decode/bit_reader.rs 68-72: the subtraction underflows (panic) when
    fewer than [n] bits are buffered. *)
Definition br_consume (r : br) (n : Z) : res br :=
  if n <=? br_n r then Ok (mkbr (br_rest r) (Z.shiftr (br_buf r) n) (br_n r - n))
  else Panic.
(** src/decode/bit_reader.rs 76-80 *)
Definition br_read (r : br) (n : Z) : res (Z * br) :=
  let* (v, r) := br_peek r n in
  let* r := br_consume r n in
  Ok (v, r).
(** src/decode/bit_reader.rs 83-89 *)
Definition br_align (r : br) : br :=
  let discard := br_n r mod 8 in
  if discard >? 0 then mkbr (br_rest r) (Z.shiftr (br_buf r) discard) (br_n r - discard)
  else r.
(** src/decode/bit_reader.rs 102-106 *)
Fixpoint br_drain (k : nat) (buf cnt : Z) : list Z * Z * Z :=
  match k with
  | O => ([], buf, cnt)
  | S k' => let '(l, buf', cnt') := br_drain k' (Z.shiftr buf 8) (cnt - 8) in
            (wrap 8 buf :: l, buf', cnt')
  end.
(** src/decode/bit_reader.rs 98-116; returns the bytes written to the buffer *)
Definition br_read_bytes (r : br) (len : Z) : res (list Z * br) :=
  let buffered := br_n r / 8 in
  let from_buf := Z.min buffered len in
  let '(l, buf, cnt) := br_drain (Z.to_nat from_buf) (br_buf r) (br_n r) in
  let remaining := len - from_buf in
  if remaining >? zlen (br_rest r) then Err EInvalidDecode
  else Ok (l ++ firstn (Z.to_nat remaining) (br_rest r),
           mkbr (skipn (Z.to_nat remaining) (br_rest r)) buf cnt).

(** ** MsbBitReader: src/decode/bit_reader.rs 141-146.  As above the position
    is the unread suffix.  Every operation also returns the state left behind
    by an error, because the JPEG Huffman decoder goes on after a failed peek. *)
Record mr := mkmr { mr_rest : list Z; mr_buf : Z; mr_n : Z }.
(** src/decode/bit_reader.rs 150-157 *)
Definition mr_new (data : list Z) : mr := mkmr data 0 0.
(** src/decode/bit_reader.rs 160-194 *)
Fixpoint mr_next (data : list Z) (buf cnt : Z) : res Z * mr :=
  match data with
  | [] => (Err EInvalidDecode, mkmr [] buf cnt)
  | b :: r =>
      if b =? 255 then
        match r with
        | [] => (Err EInvalidDecode, mkmr [] buf cnt)
        | nx :: r' =>
            if nx =? 0 then (Ok 255, mkmr r' buf cnt)
            else if (208 <=? nx) && (nx <=? 215) then mr_next r' 0 0
            else (Err EInvalidDecode, mkmr data buf cnt)
        end
      else (Ok b, mkmr r buf cnt)
  end.
(** src/decode/bit_reader.rs 198-206; each round consumes a byte, so the fuel
    (number of unread bytes plus one) is never exhausted *)
Fixpoint mr_fill (fuel : nat) (r : mr) (n : Z) : res unit * mr :=
  if mr_n r <? n then
    match fuel with
    | O => (NoFuel, r)
    | S f =>
        match mr_next (mr_rest r) (mr_buf r) (mr_n r) with
        | (Ok b, r') =>
            mr_fill f (mkmr (mr_rest r') (Z.lor (wrap 32 (Z.shiftl (mr_buf r') 8)) b) (mr_n r' + 8)) n
        | (Err e, r') => (Err e, r')
        | (Panic, r') => (Panic, r')
        | (NoFuel, r') => (NoFuel, r')
        end
    end
  else (Ok tt, r).
Definition mr_ensure (r : mr) (n : Z) : res unit * mr := mr_fill (S (length (mr_rest r))) r n.
(** src/decode/bit_reader.rs 210-215; n > 25 fails the debug assertion, and
    shifts by 32 or more are overflow panics *)
Definition mr_peek (r : mr) (n : Z) : res Z * mr :=
  if n >? 25 then (Panic, r) else
  match mr_ensure r n with
  | (Ok _, r') =>
      if mr_n r' - n >=? 32 then (Panic, r')
      else (Ok (Z.land (Z.shiftr (mr_buf r') (mr_n r' - n)) (Z.shiftl 1 n - 1)), r')
  | (Err e, r') => (Err e, r')
  | (Panic, r') => (Panic, r')
  | (NoFuel, r') => (NoFuel, r')
  end.
(** src/decode/bit_reader.rs 219-227 *)
Definition mr_consume (r : mr) (n : Z) : mr :=
  let cnt := mr_n r - n in
  let m := if cnt <? 32 then wrap 32 (Z.shiftl 1 cnt - 1) else 2 ^ 32 - 1 in
  mkmr (mr_rest r) (Z.land (mr_buf r) m) cnt.
(** src/decode/bit_reader.rs 231-235 *)
Definition mr_read (r : mr) (n : Z) : res Z * mr :=
  match mr_peek r n with
  | (Ok v, r') => (Ok v, mr_consume r' n)
  | other => other
  end.
