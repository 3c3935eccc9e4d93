(** Model of src/compress/adler32.rs, src/compress/crc32.rs and the scalar
    versions in src/simd/fallback.rs. *)
From Verif Require Import Base.

(** [a + b] on u32 with overflow checks: panics when the sum needs 33 bits. *)
Definition add_u32 (a b : Z) : res Z :=
  if a + b <? 2 ^ 32 then Ok (a + b) else Panic.

(** src/compress/adler32.rs 37-40 (same loop: src/simd/fallback.rs 16-19) *)
Fixpoint adler_inner (chunk : list Z) (s1 s2 : Z) : res (Z * Z) :=
  match chunk with
  | [] => Ok (s1, s2)
  | b :: r =>
      let* s1' := add_u32 s1 b in
      let* s2' := add_u32 s2 s1' in
      adler_inner r s1' s2'
  end.

(** src/compress/adler32.rs 27: MOD_ADLER; 30: NMAX *)
Definition MOD_ADLER : Z := 65521.
Definition ADLER_NMAX : nat := Z.to_nat 5552.

(** src/compress/adler32.rs 36-44 *)
Fixpoint adler_chunks (cs : list (list Z)) (s1 s2 : Z) : res (Z * Z) :=
  match cs with
  | [] => Ok (s1, s2)
  | c :: r =>
      let* (s1', s2') := adler_inner c s1 s2 in
      adler_chunks r (s1' mod MOD_ADLER) (s2' mod MOD_ADLER)
  end.

(** src/compress/adler32.rs 26-47; src/simd/fallback.rs 8-25 *)
Definition adler32_checked (data : list Z) : res Z :=
  let* (s1, s2) := adler_chunks (chunks ADLER_NMAX data) 1 0 in
  Ok (Z.lor (wrap 32 (Z.shiftl s2 16)) s1).

(** Same loops with wrapping u32 arithmetic (release build); used by the other
    models, and proved equal to the checked version. *)
Fixpoint adler_inner_w (chunk : list Z) (s1 s2 : Z) : Z * Z :=
  match chunk with
  | [] => (s1, s2)
  | b :: r => let s1' := wrap 32 (s1 + b) in adler_inner_w r s1' (wrap 32 (s2 + s1'))
  end.
Fixpoint adler_chunks_w (cs : list (list Z)) (s1 s2 : Z) : Z * Z :=
  match cs with
  | [] => (s1, s2)
  | c :: r => let '(a, b) := adler_inner_w c s1 s2 in
              adler_chunks_w r (a mod MOD_ADLER) (b mod MOD_ADLER)
  end.
Definition adler32 (data : list Z) : Z :=
  let '(s1, s2) := adler_chunks_w (chunks ADLER_NMAX data) 1 0 in
  Z.lor (wrap 32 (Z.shiftl s2 16)) s1.

(** src/compress/crc32.rs 12-16 *)
Definition CRC_POLY : Z := 0xEDB88320.
Definition crc_shift (crc : Z) : Z :=
  if negb (Z.land crc 1 =? 0) then Z.lxor (Z.shiftr crc 1) CRC_POLY else Z.shiftr crc 1.

(** src/compress/crc32.rs 9-19: table 0 (same: src/simd/fallback.rs 28-46) *)
Definition crc_entry0 (i : Z) : Z := Nat.iter 8 crc_shift i.
Definition zrange (n : nat) : list Z := map Z.of_nat (seq 0 n).
Definition crc_table0 : list Z := map crc_entry0 (zrange 256).

(** src/compress/crc32.rs 22-27: table t from table t-1 *)
Definition crc_next_table (prev : list Z) : list Z :=
  map (fun p => Z.lxor (Z.shiftr p 8) (znth crc_table0 (Z.land p 255))) prev.
(** src/compress/crc32.rs 5-30 *)
Definition crc_tables : list (list Z) :=
  let t0 := crc_table0 in
  let t1 := crc_next_table t0 in
  let t2 := crc_next_table t1 in
  let t3 := crc_next_table t2 in
  let t4 := crc_next_table t3 in
  let t5 := crc_next_table t4 in
  let t6 := crc_next_table t5 in
  let t7 := crc_next_table t6 in
  [t0; t1; t2; t3; t4; t5; t6; t7].
Definition crc_tab (t : nat) (i : Z) : Z := znth (nth t crc_tables []) i.

(** u32::from_le_bytes *)
Definition le32 (a b c d : Z) : Z :=
  Z.lor a (Z.lor (Z.shiftl b 8) (Z.lor (Z.shiftl c 16) (Z.shiftl d 24))).

(** src/compress/crc32.rs 44-58: one 8-byte chunk *)
Definition crc_step8 (crc : Z) (b0 b1 b2 b3 b4 b5 b6 b7 : Z) : Z :=
  let low := le32 b0 b1 b2 b3 in
  let high := le32 b4 b5 b6 b7 in
  let c := Z.lxor crc low in
  Z.lxor (Z.lxor (Z.lxor (Z.lxor (Z.lxor (Z.lxor (Z.lxor
    (crc_tab 7 (Z.land c 255))
    (crc_tab 6 (Z.land (Z.shiftr c 8) 255)))
    (crc_tab 5 (Z.land (Z.shiftr c 16) 255)))
    (crc_tab 4 (Z.land (Z.shiftr c 24) 255)))
    (crc_tab 3 (Z.land high 255)))
    (crc_tab 2 (Z.land (Z.shiftr high 8) 255)))
    (crc_tab 1 (Z.land (Z.shiftr high 16) 255)))
    (crc_tab 0 (Z.land (Z.shiftr high 24) 255)).

(** src/compress/crc32.rs 60-63; 81-84; src/simd/fallback.rs 52-55 *)
Definition crc_step1 (crc b : Z) : Z :=
  Z.lxor (Z.shiftr crc 8) (crc_tab 0 (Z.land (Z.lxor crc b) 255)).

(** src/compress/crc32.rs 43-63: chunks_exact(8), then the remainder *)
Fixpoint crc_loop (crc : Z) (data : list Z) {struct data} : Z :=
  match data with
  | b0 :: b1 :: b2 :: b3 :: b4 :: b5 :: b6 :: b7 :: r =>
      crc_loop (crc_step8 crc b0 b1 b2 b3 b4 b5 b6 b7) r
  | rem => fold_left crc_step1 rem crc
  end.

(** src/compress/crc32.rs 38-66 *)
Definition crc32 (data : list Z) : Z :=
  Z.lxor (crc_loop 0xFFFFFFFF data) 0xFFFFFFFF.

(** src/compress/crc32.rs 69-92: the incremental hasher *)
Definition crc_new : Z := 0xFFFFFFFF.
Definition crc_update (crc : Z) (data : list Z) : Z := fold_left crc_step1 data crc.
Definition crc_finalize (crc : Z) : Z := Z.lxor crc 0xFFFFFFFF.

(** src/simd/fallback.rs 50-57 *)
Definition crc32_bytewise (data : list Z) : Z :=
  Z.lxor (fold_left crc_step1 data 0xFFFFFFFF) 0xFFFFFFFF.
