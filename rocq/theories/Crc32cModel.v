(** The checksum with the SSE4.2 instruction, src/simd/x86_64.rs 309-346. *)
From Verif Require Import Base.

(** The instruction CRC32 as in the manual (Intel 64 and IA-32 Architectures Software
    Developer's Manual, vol. 2A): both operands are reflected, the accumulator shifted by the
    width of the data and the data by 32 are added modulo 2, and the remainder of the division
    by 11EDC6F41H is reflected back.  Widths 8, 16, 32 and 64 ([_mm_crc32_u8] ... [_mm_crc32_u64]). *)
Fixpoint reflect (n : nat) (x : Z) : Z :=
  match n with
  | O => 0
  | S k => 2 ^ Z.of_nat k * (x mod 2) + reflect k (x / 2)
  end.
Definition CRC32C_DIVISOR : Z := 0x11EDC6F41.
(** MOD2: long division of a polynomial of [32 + k] coefficients *)
Fixpoint mod2 (k : nat) (x : Z) : Z :=
  match k with
  | O => x
  | S j => mod2 j (if Z.testbit x (32 + Z.of_nat j) then Z.lxor x (Z.shiftl CRC32C_DIVISOR (Z.of_nat j)) else x)
  end.
Definition crc32_insn (n : nat) (crc v : Z) : Z :=
  let temp1 := reflect n v in
  let temp2 := reflect 32 crc in
  let temp5 := Z.lxor (Z.shiftl temp1 32) (Z.shiftl temp2 (Z.of_nat n)) in
  reflect 32 (mod2 n temp5).

(** u64, u32 and u16::from_le_bytes *)
Definition le_value (l : list Z) : Z := fold_right (fun b v => b + 256 * v) 0 l.
(** x86_64.rs 319-324: the loop over 8 bytes; what is left *)
Fixpoint hw_loop8 (fuel : nat) (crc : Z) (remaining : list Z) : Z * list Z :=
  match fuel with
  | O => (crc, remaining)
  | S f => if 8 <=? zlen remaining
           then hw_loop8 f (crc32_insn 64 crc (le_value (firstn 8 remaining))) (skipn 8 remaining)
           else (crc, remaining)
  end.
(** x86_64.rs 326-338: one step of 4 or 2 bytes if there are as many *)
Definition hw_step (n : nat) (s : Z * list Z) : Z * list Z :=
  let '(crc, remaining) := s in
  if Z.of_nat n <=? zlen remaining then (crc32_insn (8 * n) crc (le_value (firstn n remaining)), skipn n remaining) else s.
(** x86_64.rs 315-346; [!crc] is the complement in 32 bits *)
Definition crc32_hw (data : list Z) : Z :=
  let s := hw_loop8 (length data) (2 ^ 32 - 1) data in
  let s := hw_step 4 s in
  let '(crc, remaining) := hw_step 2 s in
  let crc := match remaining with [] => crc | b :: _ => crc32_insn 8 crc b end in
  2 ^ 32 - 1 - crc.
