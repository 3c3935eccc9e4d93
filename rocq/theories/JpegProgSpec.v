(** Specification of the first scans of progressive mode, ITU-T T.81 G.1.2
    with full precision (Al = 0), independent of the encoder. *)
From Verif Require Import Base CanonSpec MsbSpec JpegBaseModel JpegHuffModel JpegEncModel JpegSpec JpegFileSpec.

(** G.1.2.1: a DC scan of one component codes the differences of its DC values *)
Inductive dc_scan_code (bits vals : list Z) : Z -> list Z -> list bool -> Prop :=
| ds_nil p : dc_scan_code bits vals p [] []
| ds_cons p d r b1 b2 : dc_code bits vals (d - p) b1 -> dc_scan_code bits vals d r b2 -> dc_scan_code bits vals p (d :: r) (b1 ++ b2).

(** G.1.2.2: the coefficients of a band up to its last nonzero one *)
Inductive coefs_code (bits vals : list Z) : list Z -> list bool -> Prop :=
| cc_nil : coefs_code bits vals [] []
| cc_zrl l w b : sym_code bits vals 240 w -> coefs_code bits vals l b -> l <> [] -> coefs_code bits vals (repeat 0 16 ++ l) (w ++ b)
| cc_value r v n l w b : 0 <= r < 16 -> has_size v n -> n <= 15 ->
    sym_code bits vals (16 * r + n) w -> coefs_code bits vals l b ->
    coefs_code bits vals (repeat 0 (Z.to_nat r) ++ v :: l) (w ++ amplitude v n ++ b).

(** G.1.2.2, table G.1: the bands of the blocks of a scan.  An end-of-band run
    of [run] bands (the rest of the present one and [run - 1] bands of zeros)
    is coded as the symbol EOBn, 2^n <= run < 2^(n+1), and n more bits. *)
Definition zero_band (b : list Z) : Prop := Forall (eq 0) b.
Inductive band_code (bits vals : list Z) : list (list Z) -> list bool -> Prop :=
| bc_nil : band_code bits vals [] []
| bc_full b r b1 b2 : coefs_code bits vals b b1 -> band_code bits vals r b2 -> band_code bits vals (b :: r) (b1 ++ b2)
| bc_eob h k n zs r w b1 b2 : coefs_code bits vals h b1 -> (0 < k)%nat -> Forall zero_band zs ->
    0 <= n <= 14 -> 2 ^ n <= 1 + zlen zs < 2 ^ (n + 1) -> sym_code bits vals (16 * n) w -> band_code bits vals r b2 ->
    band_code bits vals ((h ++ repeat 0 k) :: zs ++ r) (b1 ++ w ++ msb n (1 + zlen zs - 2 ^ n) ++ b2).

(** scan header of a progressive scan (B.2.3, G.1.1.1): components with their
    tables, band, and successive approximation *)
Definition prog_sos_segment (comps : list (Z * Z * Z)) (ss se : Z) : list Z :=
  marker_segment 218 ([zlen comps] ++ flat_map (fun '(id, td, ta) => [id; 16 * td + ta]) comps ++ [ss; se; 0]).
(** the band [ss..se] of a block given in natural order *)
Definition band (ss se : Z) (block : list Z) : list Z := map (fun i => znth block (znth ZIGZAG (ss + i))) (map Z.of_nat (seq 0 (Z.to_nat (se - ss + 1)))).

(** the symbols used when runs of zeros are coded as ZRL, and end-of-band runs
    are made as long as possible up to 32767 bands *)
Fixpoint prog_dc_syms (prev : Z) (dcs : list Z) : list Z :=
  match dcs with [] => [] | d :: r => category (d - prev) :: prog_dc_syms d r end.
Fixpoint coef_syms (l : list Z) (z : Z) : list Z :=
  match l with
  | [] => []
  | a :: r => if a =? 0 then coef_syms r (z + 1) else repeat 240 (Z.to_nat (z / 16)) ++ (16 * (z mod 16) + category a) :: coef_syms r 0
  end.
Fixpoint drop_zeros (l : list Z) : list Z :=
  match l with [] => [] | a :: r => match drop_zeros r with [] => if a =? 0 then [] else [a] | t => a :: t end end.
Fixpoint band_syms (bands : list (list Z)) (e : Z) : list Z :=
  match bands with
  | [] => if e >? 0 then [16 * Z.log2 e] else []
  | b :: r =>
      match drop_zeros b with
      | [] => if e + 1 =? 32767 then 16 * Z.log2 32767 :: band_syms r 0 else band_syms r (e + 1)
      | l => (if e >? 0 then [16 * Z.log2 e] else []) ++ coef_syms l 0 ++ band_syms r (if zlen l <? zlen b then 1 else 0)
      end
  end.

(** a scan of one component with blocks [blocks] (natural order) *)
Definition prog_scan_code (T : ctabs) (ss se : Z) (blocks : list (list Z)) (bits : list bool) : Prop :=
  if ss =? 0 then dc_scan_code (ct_dcb T) (ct_dcv T) 0 (map (fun b => znth b 0) blocks) bits
  else band_code (ct_acb T) (ct_acv T) (map (band ss se) blocks) bits.
Definition prog_scan_has_codes (T : ctabs) (ss se : Z) (blocks : list (list Z)) : Prop :=
  if ss =? 0 then incl (prog_dc_syms 0 (map (fun b => znth b 0) blocks)) (ct_dcv T)
  else incl (band_syms (map (band ss se) blocks) 0) (ct_acv T).
(** the scans of the encoder: component, first and last coefficient *)
Definition prog_script : list (Z * Z * Z) := [(0, 0, 0); (1, 0, 0); (2, 0, 0); (0, 1, 10); (0, 11, 63); (1, 1, 63); (2, 1, 63)].
Definition prog_scan_bytes (s : Z * Z * Z) (seg : list Z) : list Z :=
  let '(c, ss, se) := s in let t := if c =? 0 then 0 else 1 in prog_sos_segment [(c + 1, t, t)] ss se ++ seg.
(** a progressive file: the header, one scan per line of the script, the end *)
Definition progressive_file (o : jopts) (lum chrom : ctabs) (segs : list (list Z)) : list Z :=
  jpeg_header 194 o lum chrom ++ concat (map (fun p => prog_scan_bytes (fst p) (snd p)) (combine prog_script segs)) ++ [255; 217].
