(** Definitions of the two checksums taken from the standards, independent of
    the code. *)
From Verif Require Import Base.

(** RFC 1950 section 8: A = 1 + sum of the bytes, B = sum of the successive
    values of A, both modulo 65521; checksum = B * 65536 + A. *)
Definition sumZ (l : list Z) : Z := fold_right Z.add 0 l.
Definition adler_A (data : list Z) : Z := 1 + sumZ data.
Definition adler_B (data : list Z) : Z :=
  sumZ (map (fun n => adler_A (firstn n data)) (seq 1 (length data))).
Definition adler_spec (data : list Z) : Z :=
  (adler_B data mod 65521) * 65536 + adler_A data mod 65521.

(** ISO 3309 / PNG annex D: 32-bit register, preset to ones, message bits in
    order (least significant bit of each byte first); each bit is added to the
    low bit of the register which is then shifted, adding the reflected
    polynomial x^32+x^26+x^23+x^22+x^16+x^12+x^11+x^10+x^8+x^7+x^5+x^4+x^2+x+1
    when a one falls out; the final value is complemented. *)
Definition crc_poly_exps : list Z := [26;23;22;16;12;11;10;8;7;5;4;2;1;0].
Definition crc_poly_reflected : Z := sumZ (map (fun e => 2 ^ (31 - e)) crc_poly_exps).
Definition crc_bit (reg : Z) (b : bool) : Z :=
  if xorb (Z.odd reg) b then Z.lxor (reg / 2) crc_poly_reflected else reg / 2.
Definition crc_spec (data : list Z) : Z :=
  2 ^ 32 - 1 - fold_left crc_bit (bytes_bits data) (2 ^ 32 - 1).
