(** Specification of the sequential Huffman coding of ITU-T T.81 (Annex C and
    section F.1.2), independent of the encoder and the decoder: which bits
    stand for which block of coefficients. *)
From Verif Require Import Base CanonSpec MsbSpec.

(** Annex C, figure C.1: code lengths in the order of the symbols *)
Definition spec_sizes (bits : list Z) : list Z :=
  concat (map (fun i => repeat (Z.of_nat i + 1) (Z.to_nat (nth i bits 0))) (seq 0 16)).
(** Annex C, figures C.2 and C.3: [w] is the code word of symbol [s] *)
Definition sym_code (bits vals : list Z) (s : Z) (w : list bool) : Prop :=
  exists k, (k < length vals)%nat /\ nth k vals 0 = s /\ w = code_word (spec_sizes bits) k.

(** Tables F.1 and F.2: [v] has magnitude category [n] *)
Definition has_size (v n : Z) : Prop := 1 <= n /\ 2 ^ (n - 1) <= Z.abs v < 2 ^ n.
(** F.1.2.1.1: additional bits; negative values count from the bottom *)
Definition amplitude (v n : Z) : list bool := msb n (if 0 <? v then v else v + 2 ^ n - 1).

(** F.1.2.1: a DC difference *)
Inductive dc_code (bits vals : list Z) : Z -> list bool -> Prop :=
| dc_zero w : sym_code bits vals 0 w -> dc_code bits vals 0 w
| dc_diff v n w : has_size v n -> n <= 15 -> sym_code bits vals n w -> dc_code bits vals v (w ++ amplitude v n).

(** F.1.2.2: the remaining AC coefficients of a block, in zigzag order *)
Inductive ac_code (bits vals : list Z) : list Z -> list bool -> Prop :=
| ac_end : ac_code bits vals [] []
| ac_eob k w : (0 < k)%nat -> sym_code bits vals 0 w -> ac_code bits vals (repeat 0 k) w
| ac_zrl l w b : sym_code bits vals 240 w -> ac_code bits vals l b -> ac_code bits vals (repeat 0 16 ++ l) (w ++ b)
| ac_value r v n l w b : 0 <= r < 16 -> has_size v n -> n <= 15 ->
    sym_code bits vals (16 * r + n) w -> ac_code bits vals l b ->
    ac_code bits vals (repeat 0 (Z.to_nat r) ++ v :: l) (w ++ amplitude v n ++ b).

(** one block, in zigzag order, after a block with DC value [pred] *)
Definition block_code (dcb dcv acb acv : list Z) (pred : Z) (zz : list Z) (bb : list bool) : Prop :=
  exists dc ac b1 b2, zz = dc :: ac /\ length ac = 63%nat /\
    dc_code dcb dcv (dc - pred) b1 /\ ac_code acb acv ac b2 /\ bb = b1 ++ b2.

(** the table specifications of a component *)
Record ctabs := mkct { ct_dcb : list Z; ct_dcv : list Z; ct_acb : list Z; ct_acv : list Z }.

(** F.1.1.3, F.1.2.1: the blocks of a restart interval, each with its component,
    in coding order; [preds] holds the DC value of the previous block of every
    component *)
Inductive interval_code (T : Z -> ctabs) : list Z -> list (Z * list Z) -> list bool -> Prop :=
| iv_nil preds : interval_code T preds [] []
| iv_cons preds c zz r b1 b2 :
    block_code (ct_dcb (T c)) (ct_dcv (T c)) (ct_acb (T c)) (ct_acv (T c)) (znth preds c) zz b1 ->
    interval_code T (upd preds (Z.to_nat c) (znth zz 0)) r b2 ->
    interval_code T preds ((c, zz) :: r) (b1 ++ b2).

(** B.1.1.5, F.1.2.3: an entropy-coded segment, padded with ones to a whole
    number of bytes, with a zero byte after every 0xFF *)
Definition segment (seg : list Z) (bits : list bool) : Prop :=
  bytes seg /\ exists l, unstuff seg = Some l /\ bytes_msb l = pad_ones bits.

(** B.2.1: the segments of a scan, separated by the restart markers RST0..RST7;
    predictions start from zero in every interval (F.1.1.5.1) *)
Inductive scan_code (T : Z -> ctabs) : Z -> list (list (Z * list Z)) -> list Z -> Prop :=
| sc_last idx iv bits seg : interval_code T [0; 0; 0] iv bits -> segment seg bits -> scan_code T idx [iv] seg
| sc_more idx iv bits seg ivs out : interval_code T [0; 0; 0] iv bits -> segment seg bits ->
    scan_code T ((idx + 1) mod 8) ivs out -> scan_code T idx (iv :: ivs) (seg ++ [255; 208 + idx] ++ out).

(** the MCUs of a scan grouped into restart intervals *)
Definition intervals {A} (ri : option Z) (mcus : list A) : list (list A) :=
  match ri with None => [mcus] | Some i => chunks (Z.to_nat i) mcus end.
