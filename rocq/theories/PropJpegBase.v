(** C19, C40, C41, C42 *)
From Coq Require Import Permutation.
From Verif Require Import Base BitsModel BitsSpec PngFilterModel MsbSpec MsbProofs JpegBaseModel JpegBaseProofs.

(** C19: for every sequence of writes and flushes the writer emits bytes in
    which every 0xFF is followed by a zero byte; without the stuffing they are
    exactly the written bits, padded with ones at each flush and at the end. *)
Theorem msb_writer_stuffing : forall ops, Forall (wop_ok 32) ops ->
  exists l, bytes (m_script ops) /\ stuffed (m_script ops) /\ unstuff (m_script ops) = Some l /\
            bytes_msb l = pad_ones (script_bits [] ops).
Proof. exact m_script_ok. Qed.
Print Assumptions msb_writer_stuffing.

(** C19: the decoder's bit reader returns the fields that were written. *)
Theorem msb_writer_reader : forall ops, Forall (fun p => 0 <= snd p <= 25 /\ 0 <= fst p < 2 ^ snd p) ops ->
  mr_script (mr_new (m_script (map (fun p => WBits (fst p) (snd p)) ops))) ops = Ok (map fst ops).
Proof. exact msb_roundtrip. Qed.
Print Assumptions msb_writer_reader.

Example msb_nonvacuous :
  let ops := [WBits 255 8; WBits 5 3; WAlign; WBits 1023 10; WBits 4294967295 32] in
  Forall (wop_ok 32) ops /\
  m_script ops = [255; 0; 191; 255; 0; 255; 0; 255; 0; 255; 0; 255; 0; 255; 0] /\
  mr_script (mr_new (m_script [WBits 255 8; WBits 5 3; WBits 70000 20])) [(255, 8); (5, 3); (70000, 20)] = Ok [255; 5; 70000].
Proof. split; [|split; vm_compute; reflexivity]. repeat apply Forall_cons; try apply Forall_nil; cbn; lia. Qed.

(** C40: legal entries at every quality, in the written and the used table. *)
Theorem quant_tables_legal : forall std q,
  Forall (fun v => 1 <= v <= 255) (table_zigzag std q) /\ length (table_zigzag std q) = 64%nat /\
  Forall (fun v => 1 <= v <= 255) (table_natural std q) /\ length (table_natural std q) = length std.
Proof.
  exact (fun std q => conj (proj1 (table_zigzag_range std q)) (conj (proj2 (table_zigzag_range std q)) (table_natural_range std q))).
Qed.
Print Assumptions quant_tables_legal.
(** C40: the zigzag order visits every coefficient once, along the diagonals
    of T.81 figure A.6. *)
Theorem zigzag_is_permutation : Permutation ZIGZAG (idxs 64).
Proof. exact zigzag_perm. Qed.
Print Assumptions zigzag_is_permutation.
Theorem zigzag_order : forall i j, 0 <= i < j -> j < 64 -> zz_key (znth ZIGZAG i) < zz_key (znth ZIGZAG j).
Proof. exact zigzag_diagonals. Qed.
Print Assumptions zigzag_order.
(** C40: the table in the file is the table used, position by position. *)
Theorem quant_tables_agree : forall std q i, length std = 64%nat -> 0 <= i < 64 ->
  znth (table_zigzag std q) i = znth (table_natural std q) (znth ZIGZAG i).
Proof. exact tables_agree. Qed.
Print Assumptions quant_tables_agree.
(** C40: the decoder multiplies every quantised coefficient by the divisor the
    encoder used for it. *)
Theorem dequantize_inverts_order : forall std quality block n, length std = 64%nat -> 0 <= n < 64 ->
  znth (dequantize (zigzag_reorder block) (table_zigzag std quality)) n =
  znth block n * znth (table_natural std quality) n.
Proof. exact dequantize_of_quantized. Qed.
Print Assumptions dequantize_inverts_order.
(** C40: quality 50 is the standard table and a higher quality never divides
    by more. *)
Theorem quant_quality_monotone : forall std p q i, Forall (fun v => 0 <= v) std -> p <= q -> 0 <= i < zlen std ->
  znth (table_natural std q) i <= znth (table_natural std p) i.
Proof. exact table_natural_mono. Qed.
Print Assumptions quant_quality_monotone.
Theorem quant_quality_50 : forall std i, Forall (fun v => 1 <= v <= 255) std -> 0 <= i < zlen std ->
  znth (table_natural std 50) i = znth std i.
Proof. exact table_natural_50. Qed.
Print Assumptions quant_quality_50.
Example quant_nonvacuous :
  length STD_LUMINANCE_TABLE = 64%nat /\ length STD_CHROMINANCE_TABLE = 64%nat /\
  Forall (fun v => 1 <= v <= 255) STD_LUMINANCE_TABLE /\ Forall (fun v => 1 <= v <= 255) STD_CHROMINANCE_TABLE /\
  firstn 6 (table_zigzag STD_LUMINANCE_TABLE 80) = [6; 4; 5; 6; 5; 4] /\ znth (table_natural STD_LUMINANCE_TABLE 100) 63 = 1.
Proof.
  assert (forall l, forallb (fun v => (1 <=? v) && (v <=? 255)) l = true -> Forall (fun v => 1 <= v <= 255) l) as F.
  { intros l H. apply Forall_forall. intros x Hx. rewrite forallb_forall in H. specialize (H x Hx). lia. }
  repeat split; try (apply F); vm_compute; reflexivity.
Qed.

(** C41: the clamped fixed-point formula, without overflow, for every colour. *)
Theorem ycbcr_formula : forall r g b, is_byte r -> is_byte g -> is_byte b ->
  rgb_to_ycbcr r g b =
    Ok (clamp ((77 * r + 150 * g + 29 * b + 128) / 256) 0 255,
        clamp ((-43 * r - 85 * g + 128 * b + 128) / 256 + 128) 0 255,
        clamp ((128 * r - 107 * g - 21 * b + 128) / 256 + 128) 0 255).
Proof. exact rgb_to_ycbcr_ok. Qed.
Print Assumptions ycbcr_formula.
Theorem ycbcr_range : forall r g b y cb cr, rgb_to_ycbcr r g b = Ok (y, cb, cr) -> is_byte y /\ is_byte cb /\ is_byte cr.
Proof. exact rgb_to_ycbcr_range. Qed.
Print Assumptions ycbcr_range.
Theorem ycbcr_gray_neutral : forall v, is_byte v -> rgb_to_ycbcr v v v = Ok (v, 128, 128).
Proof. exact rgb_to_ycbcr_gray. Qed.
Print Assumptions ycbcr_gray_neutral.
(** C41: within one unit of the exact BT.601 transform (weights in millionths). *)
Theorem ycbcr_accurate : forall r g b, is_byte r -> is_byte g -> is_byte b ->
  exists y cb cr, rgb_to_ycbcr r g b = Ok (y, cb, cr) /\
    Z.abs (1000000 * y - (299000 * r + 587000 * g + 114000 * b)) <= 1000000 /\
    Z.abs (1000000 * (cb - 128) - (- 168736 * r - 331264 * g + 500000 * b)) <= 1000000 /\
    Z.abs (1000000 * (cr - 128) - (500000 * r - 418688 * g - 81312 * b)) <= 1000000.
Proof. exact rgb_to_ycbcr_accurate. Qed.
Print Assumptions ycbcr_accurate.
Example ycbcr_nonvacuous : rgb_to_ycbcr 255 0 0 = Ok (77, 85, 255) /\ rgb_to_ycbcr 10 200 90 = Ok (130, 105, 42).
Proof. split; vm_compute; reflexivity. Qed.

(** C42: every non-zero coefficient but the minimum is read back. *)
Theorem magnitude_roundtrip : forall v, v <> 0 -> - 2 ^ 15 < v < 2 ^ 15 ->
  exists bits n, encode_value v = Ok (bits, n) /\ 1 <= n <= 15 /\ 2 ^ (n - 1) <= Z.abs v < 2 ^ n /\
    0 <= bits < 2 ^ n /\ extend_amplitude bits n = v.
Proof.
  exact (fun v N R => match encode_value_ok v N R with
    ex_intro _ bits (conj E (conj Hn (conj Hb He))) =>
      ex_intro _ bits (ex_intro _ (category v) (conj E (conj Hn (conj (proj2 (category_spec v N)) (conj Hb He))))) end).
Qed.
Print Assumptions magnitude_roundtrip.
Theorem magnitude_minimum_refuted : exists v, v <> 0 /\ - 2 ^ 15 <= v < 2 ^ 15 /\ encode_value v = Panic.
Proof. exists (- 2 ^ 15). split; [lia|]. split; [lia|]. vm_compute. reflexivity. Qed.
Print Assumptions magnitude_minimum_refuted.
Example magnitude_nonvacuous : encode_value (-5) = Ok (2, 3) /\ extend_amplitude 2 3 = -5 /\ encode_value 32767 = Ok (32767, 15).
Proof. repeat split; vm_compute; reflexivity. Qed.
