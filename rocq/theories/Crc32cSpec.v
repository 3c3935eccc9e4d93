(** CRC-32C (Castagnoli; RFC 3720 section 12.1), independent of the code: the register of
    ChecksumSpec.v with the polynomial x^32+x^28+x^27+x^26+x^25+x^23+x^22+x^20+x^19+x^18+x^14+
    x^13+x^11+x^10+x^9+x^8+x^6+1. *)
From Verif Require Import Base ChecksumSpec.
Definition crc32c_exps : list Z := [28;27;26;25;23;22;20;19;18;14;13;11;10;9;8;6;0].
Definition crc32c_poly : Z := sumZ (map (fun e => 2 ^ (31 - e)) crc32c_exps).
Definition crc32c_bit (reg : Z) (b : bool) : Z :=
  if xorb (Z.odd reg) b then Z.lxor (reg / 2) crc32c_poly else reg / 2.
Definition crc32c_spec (data : list Z) : Z :=
  2 ^ 32 - 1 - fold_left crc32c_bit (bytes_bits data) (2 ^ 32 - 1).
