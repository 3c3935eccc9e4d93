(** Any baseline JPEG file, after ITU-T T.81 (annexes A, B, F): nothing here depends on this
    encoder.  Tables of any content in any slot and any order, application segments and
    comments, one or three components with any sampling factors, one scan. *)
From Coq Require Import Reals.
From Verif Require Import Base PngFilterModel PngPaletteModel CanonSpec MsbSpec JpegSpec JpegFileSpec.
Open Scope Z_scope.

(** ** Segments before the scan (B.2.4), each after any number of fill bytes (B.1.1.2) *)
Inductive hseg :=
| Quant (ts : list (Z * Z * list Z))          (* precision, slot, entries in zigzag order *)
| Huff (ts : list (Z * Z * list Z * list Z))  (* class, slot, counts by length, symbols *)
| Interval (n : Z)                            (* restart interval *)
| Skip (m : Z) (payload : list Z).            (* application data or comment *)
Definition quant_bytes (t : Z * Z * list Z) : list Z :=
  let '(p, id, l) := t in (16 * p + id) :: if p =? 0 then l else flat_map hi_lo l.
Definition huff_bytes (t : Z * Z * list Z * list Z) : list Z :=
  let '(cls, id, bits, vals) := t in (16 * cls + id) :: bits ++ vals.
Definition seg_bytes (s : nat * hseg) : list Z :=
  repeat 255 (fst s) ++
  match snd s with
  | Quant ts => marker_segment 219 (flat_map quant_bytes ts)
  | Huff ts => marker_segment 196 (flat_map huff_bytes ts)
  | Interval n => dri_segment n
  | Skip m payload => marker_segment m payload
  end.
(** a legal Huffman table: sixteen counts, no code of all ones, distinct symbols *)
Definition huff_legal (bits vals : list Z) : Prop :=
  length bits = 16%nat /\ Forall (fun c => 0 <= c <= 255) bits /\ length vals = length (spec_sizes bits) /\
  bytes vals /\ NoDup vals /\ kraft 16 (spec_sizes bits) < 2 ^ 16.
Definition seg_legal (s : nat * hseg) : Prop :=
  match snd s with
  | Quant ts => zlen (flat_map quant_bytes ts) + 2 < 65536 /\
      Forall (fun '(p, id, l) => (p = 0 \/ p = 1) /\ 0 <= id <= 3 /\ length l = 64%nat /\ Forall (fun v => 1 <= v < 256 ^ (p + 1)) l) ts
  | Huff ts => zlen (flat_map huff_bytes ts) + 2 < 65536 /\
      Forall (fun '(cls, id, bits, vals) => (cls = 0 \/ cls = 1) /\ 0 <= id <= 3 /\ huff_legal bits vals) ts
  | Interval n => 0 <= n < 65536
  | Skip m payload => (224 <= m <= 239 \/ m = 254) /\ bytes payload /\ zlen payload + 2 < 65536
  end.
(** tables in force: the last definition of the slot *)
Definition quants (l : list (nat * hseg)) : list (Z * list Z) :=
  flat_map (fun s => match snd s with Quant ts => map (fun '(_, id, t) => (id, t)) ts | _ => [] end) l.
Definition huffs (cls : Z) (l : list (nat * hseg)) : list (Z * (list Z * list Z)) :=
  flat_map (fun s => match snd s with
                     | Huff ts => flat_map (fun '(k, id, bits, vals) => if k =? cls then [(id, (bits, vals))] else []) ts
                     | _ => [] end) l.
Definition intervals_set (l : list (nat * hseg)) : list Z :=
  flat_map (fun s => match snd s with Interval n => [n] | _ => [] end) l.
Definition restart_interval (l : list (nat * hseg)) : option Z :=
  let n := last (intervals_set l) 0 in if n =? 0 then None else Some n.
Definition in_force {A} (defs : list (Z * A)) (id : Z) (t : A) : Prop :=
  exists a b, defs = a ++ (id, t) :: b /\ ~ In id (map fst b).

(** ** Frame and scan (B.2.2, B.2.3) *)
Record acomp := mkac { a_id : Z; a_h : Z; a_v : Z; a_tq : Z; a_td : Z; a_ta : Z }.
Record jfile := mkfile { f_w : Z; f_h : Z; f_comps : list acomp; f_before : list (nat * hseg); f_after : list (nat * hseg); f_scan : list Z }.
Definition file_bytes (f : jfile) : list Z :=
  [255; 216] ++ flat_map seg_bytes (f_before f) ++
  sof_segment 192 (f_w f) (f_h f) (map (fun c => (a_id c, a_h c, a_v c, a_tq c)) (f_comps f)) ++
  flat_map seg_bytes (f_after f) ++ sos_segment (map (fun c => (a_id c, a_td c, a_ta c)) (f_comps f)) ++ f_scan f ++ [255; 217].

(** ** Order of the blocks (A.2) *)
Definition comp_at (f : jfile) (c : Z) : acomp := nth (Z.to_nat c) (f_comps f) (mkac 0 1 1 0 0 0).
Definition maxh (f : jfile) : Z := fold_right Z.max 1 (map a_h (f_comps f)).
Definition maxv (f : jfile) : Z := fold_right Z.max 1 (map a_v (f_comps f)).
(** with one component an MCU is one block, whatever the factors (A.2.2) *)
Definition single (f : jfile) : bool := zlen (f_comps f) =? 1.
Definition hfac (f : jfile) (c : Z) : Z := if single f then 1 else a_h (comp_at f c).
Definition vfac (f : jfile) (c : Z) : Z := if single f then 1 else a_v (comp_at f c).
Definition up_div (a b : Z) : Z := (a + b - 1) / b.
Definition across (f : jfile) : Z := up_div (f_w f) (8 * if single f then 1 else maxh f).
Definition down (f : jfile) : Z := up_div (f_h f) (8 * if single f then 1 else maxv f).
(** component and block coordinates of the blocks of the k-th MCU (A.2.3) *)
Definition mcu_order (f : jfile) (k : Z) : list (Z * Z * Z) :=
  flat_map (fun c => flat_map (fun v => map (fun h => (c, k mod across f * hfac f c + h, k / across f * vfac f c + v))
    (idxs (Z.to_nat (hfac f c)))) (idxs (Z.to_nat (vfac f c)))) (idxs (length (f_comps f))).
Definition all_blocks (f : jfile) : list (Z * Z * Z) := flat_map (mcu_order f) (idxs (Z.to_nat (across f * down f))).

(** ** Dequantisation (A.3.4) and zigzag order (figure A.6): along the antidiagonals *)
Definition zigzag_order : list Z :=
  flat_map (fun d => map (fun k => let lo := Z.max 0 (d - 7) in let i := if Z.even d then Z.min d 7 - k else lo + k in 8 * i + (d - i))
    (idxs (Z.to_nat (Z.min d 7 - Z.max 0 (d - 7) + 1)))) (idxs 15).
Definition is_dequantised (zz q coefs : list Z) : Prop :=
  length coefs = 64%nat /\ forall i, 0 <= i < 64 -> znth coefs (znth zigzag_order i) = znth zz i * znth q i.

(** [conforming_jpeg M f B T Q]: [f] is a baseline file whose blocks are [B c bx by], coded
    with the tables [T c] and quantised with [Q c], in the restart intervals declared;
    dequantised coefficients at most [M] in absolute value *)
Record conforming_jpeg (M : Z) (f : jfile) (B : Z -> Z -> Z -> list Z) (T : Z -> ctabs) (Q : Z -> list Z) : Prop := {
  cj_size : 1 <= f_w f < 65536 /\ 1 <= f_h f < 65536;
  cj_comps : zlen (f_comps f) = 1 \/ zlen (f_comps f) = 3;
  cj_comp : forall c, In c (f_comps f) -> 0 <= a_id c < 256 /\ 1 <= a_h c <= 4 /\ 1 <= a_v c <= 4 /\ 0 <= a_tq c <= 3 /\ 0 <= a_td c <= 3 /\ 0 <= a_ta c <= 3;
  cj_segs : Forall seg_legal (f_before f ++ f_after f);
  cj_tables : forall c, 0 <= c < zlen (f_comps f) ->
    in_force (quants (f_before f ++ f_after f)) (a_tq (comp_at f c)) (Q c) /\
    in_force (huffs 0 (f_before f ++ f_after f)) (a_td (comp_at f c)) (ct_dcb (T c), ct_dcv (T c)) /\
    in_force (huffs 1 (f_before f ++ f_after f)) (a_ta (comp_at f c)) (ct_acb (T c), ct_acv (T c));
  cj_block : forall c bx by_, In (c, bx, by_) (all_blocks f) -> length (B c bx by_) = 64%nat /\ - 2 ^ 15 <= znth (B c bx by_) 0 < 2 ^ 15 /\
    forall i, 0 <= i < 64 -> Z.abs (znth (B c bx by_) i * znth (Q c) i) <= M;
  cj_scan : scan_code T 0 (map (fun mcus => map (fun '(c, bx, by_) => (c, B c bx by_)) (concat mcus))
    (intervals (restart_interval (f_before f ++ f_after f)) (map (mcu_order f) (idxs (Z.to_nat (across f * down f)))))) (f_scan f) }.

(** the file has no restart markers *)
Definition no_restarts (f : jfile) : Prop :=
  match restart_interval (f_before f ++ f_after f) with Some n => across f * down f <= n | None => True end.
(** samplings the decoder handles: one component with factors 1, or a first component of
    full resolution and others whose factors divide it *)
Definition usual_sampling (f : jfile) : Prop :=
  (zlen (f_comps f) = 1 /\ a_h (comp_at f 0) = 1 /\ a_v (comp_at f 0) = 1) \/
  (zlen (f_comps f) = 3 /\ a_h (comp_at f 0) = maxh f /\ a_v (comp_at f 0) = maxv f /\
   forall c, In c (f_comps f) -> (a_h c | maxh f) /\ (a_v c | maxv f)).

(** the red, green and blue of samples Y, Cb and Cr (JFIF; weights in millionths), each
    limited to the range of a byte and met within 1.2 levels *)
Definition byte_range (x : Z) : Z := Z.max 0 (Z.min 255000000 x).
Definition jfif_colour (y cb cr r g b : Z) : Prop :=
  Z.abs (1000000 * r - byte_range (1000000 * y + 1402000 * (cr - 128))) <= 1200000 /\
  Z.abs (1000000 * g - byte_range (1000000 * y - 344136 * (cb - 128) - 714136 * (cr - 128))) <= 1200000 /\
  Z.abs (1000000 * b - byte_range (1000000 * y + 1772000 * (cb - 128))) <= 1200000.
(** the bytes of the pixel at (x, y) of an image [w] wide with [n] bytes a pixel *)
Definition pixel_at (data : list Z) (w n x y : Z) : list Z := firstn (Z.to_nat n) (skipn (Z.to_nat ((y * w + x) * n)) data).
