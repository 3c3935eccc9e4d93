(** C113: the checksum with the SSE4.2 instruction. *)
From Verif Require Import Base ChecksumModel ChecksumSpec Crc32cModel Crc32cSpec Crc32cProofs.

(** C113: for data of every length, split into 8, 4, 2 and 1 bytes, the routine computes
    CRC-32C (iSCSI), bit by bit over the whole data. *)
Theorem crc32_hw_is_crc32c : forall data, bytes data -> crc32_hw data = crc32c_spec data.
Proof. exact hw_is_crc32c. Qed.
Print Assumptions crc32_hw_is_crc32c.
(** C113: it is therefore not the checksum of PNG, which its documentation promises
    ("Compute CRC32"); no caller uses it. *)
Theorem crc32_hw_is_png_crc_refuted : exists data, bytes data /\ crc32_hw data <> crc_spec data.
Proof. exact (ex_intro _ [49] (conj (Forall_cons 49 (conj (fun H : 0 ?= 49 = Gt => ltac:(discriminate H)) eq_refl) (Forall_nil _)) hw_not_crc32)). Qed.
Print Assumptions crc32_hw_is_png_crc_refuted.

(** the published check values of both checksums: "123456789" gives E3069283 and CBF43926 *)
Example check_values : let d := [49; 50; 51; 52; 53; 54; 55; 56; 57] in
  bytes d /\ crc32_hw d = 0xE3069283 /\ crc32c_spec d = 0xE3069283 /\ crc_spec d = 0xCBF43926.
Proof. split; [repeat constructor; discriminate|]. split; [|split]; vm_compute; reflexivity. Qed.
