(** C18 *)
From Verif Require Import Base BitsModel BitsSpec BitsProofs BitsBytes.

(** C18: whatever was written with BitWriter (widths 0..=32, flushes anywhere)
    is read back by BitReader. *)
Theorem bitwriter_roundtrip : forall ops, Forall (wop_ok 32) ops ->
  bytes (bw_script ops) /\ br_script (br_new (bw_script ops)) ops = Ok (script_values ops).
Proof. exact bw_script_ok. Qed.
Print Assumptions bitwriter_roundtrip.

(** C18: write_byte, write_bytes and write_bit are writes of 8 or 1 bits, so
    the theorem above covers them; in any state the writer can be in. *)
Theorem bitwriter_bytes : forall ops l, Forall (wop_ok 32) ops -> bytes l ->
  let w := fold_left bw_step ops bw_new in
  bw_write_bytes w l = fold_left bw_step (map (fun b => WBits b 8) l) w /\
  (forall b, is_byte b -> bw_write_byte w b = bw_step w (WBits b 8)) /\
  (forall b, bw_write_bit w b = bw_step w (WBits (Z.b2z b) 1)).
Proof. exact bw_bytes_l. Qed.
Print Assumptions bitwriter_bytes.

(** C18: same for BitWriter64, widths 0..=31. *)
Theorem bitwriter64_roundtrip : forall ops, Forall (wop_ok 31) ops ->
  bytes (b64_script ops) /\ br_script (br_new (b64_script ops)) ops = Ok (script_values ops).
Proof. exact b64_script_ok. Qed.
Print Assumptions bitwriter64_roundtrip.

(** C18, finding: the documented width 32 does not work with BitWriter64 (the
    mask 1u32 << 32 overflows: panic with overflow checks, zeros without). *)
Theorem bitwriter64_width32_refuted : exists v, 0 <= v < 2 ^ 32 /\
  br_script (br_new (b64_script [WBits v 32])) [WBits v 32] <> Ok (script_values [WBits v 32]).
Proof. exists 5. split; [lia|]. vm_compute. discriminate. Qed.
Print Assumptions bitwriter64_width32_refuted.

Example bits_nonvacuous :
  let ops := [WBits 5 3; WBits 1000 11; WAlign; WBits 77 7; WBits 123456789 31] in
  Forall (wop_ok 31) ops /\ script_values ops = [5; 1000; 77; 123456789].
Proof. split; [repeat constructor; cbn; lia | reflexivity]. Qed.
