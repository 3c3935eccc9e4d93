(** Model of src/jpeg/mod.rs and src/jpeg/progressive.rs: the JPEG encoder. *)
From Verif Require Import Base BitsModel Lz77Model PngFilterModel PngPaletteModel JpegBaseModel JpegHuffModel.

(** mod.rs 93-99 *)
Inductive subsampling := S444 | S420.
(** mod.rs 118-138 *)
Record jopts := mkjo {
  jo_w : Z; jo_h : Z; jo_ct : color_type; jo_quality : Z; jo_sub : subsampling;
  jo_restart : option Z; jo_opt : bool; jo_prog : bool; jo_trellis : bool }.
(** What the encoder takes from its surroundings: the f32 forward DCT followed
    by quantisation ([quantize_block (dct_2d samples) table], quantize.rs
    99-105 and dct.rs 614-649) and its trellis variant (trellis.rs 67-207).
    Both get the table in natural order and 64 samples in units of a quarter:
    level-shifted samples and averages of four of them are multiples of 0.25,
    which f32 represents exactly.  The result is 64 i16 values. *)
Record jenv := mkje { je_dctq : list Z -> list Z -> list Z; je_trellis : list Z -> list Z -> list Z }.

(** ** Options: mod.rs 140-154, 157-211, 230-298.  The builder's setters each
    replace one field; only [preset] does more. *)
Definition jo_fast (w h q : Z) : jopts := mkjo w h Rgb q S444 None false false false.
Definition jo_balanced (w h q : Z) : jopts := mkjo w h Rgb q S444 None true false false.
Definition jo_max (w h q : Z) : jopts := mkjo w h Rgb q S420 None true true true.
Definition jo_from_preset (w h q preset : Z) : jopts :=
  if preset =? 0 then jo_fast w h q else if preset =? 2 then jo_max w h q else jo_balanced w h q.
Definition jo_builder (w h : Z) : jopts := mkjo w h Rgb 75 S444 None false false false.
Definition with_ct (o : jopts) (ct : color_type) : jopts :=
  mkjo (jo_w o) (jo_h o) ct (jo_quality o) (jo_sub o) (jo_restart o) (jo_opt o) (jo_prog o) (jo_trellis o).
Definition jo_preset (o : jopts) (preset : Z) : jopts :=
  with_ct (jo_from_preset (jo_w o) (jo_h o) (jo_quality o) preset) (jo_ct o).

(** ** Pixels to samples *)
(** mod.rs 1579-1601: the samples of the pixel at (x, y), clamped into the
    image, in quarter units *)
Definition sample_at (data : list Z) (w h : Z) (ct : color_type) (x y : Z) : res (Z * Z * Z) :=
  let x := Z.min x (w - 1) in
  let y := Z.min y (h - 1) in
  match ct with
  | Gray => let* g := get data (y * w + x) in Ok (4 * (g - 128), 0, 0)
  | Rgb =>
      let i := (y * w + x) * 3 in
      let* r := get data i in
      let* g := get data (i + 1) in
      let* b := get data (i + 2) in
      let* (yc, cb, cr) := rgb_to_ycbcr r g b in
      Ok (4 * (yc - 128), 4 * (cb - 128), 4 * (cr - 128))
  | _ => Panic
  end.
(** mod.rs 1565-1606 *)
Definition extract_block (data : list Z) (w h bx by_ : Z) (ct : color_type) : res (list Z * list Z * list Z) :=
  let* px := map_res (fun i => sample_at data w h ct (bx + i mod 8) (by_ + i / 8)) (idxs 64) in
  Ok (map (fun p => fst (fst p)) px, map (fun p => snd (fst p)) px, map snd px).
(** mod.rs 1608-1656: the average of 2x2 chroma values, minus 128; in quarter
    units this is their sum minus 512, i.e. the average of the level-shifted
    samples.  All f32 operations involved are exact. *)
Definition chroma_avg (data : list Z) (w h mx my i : Z) : res (Z * Z) :=
  let x := mx + 2 * (i mod 8) in
  let y := my + 2 * (i / 8) in
  let* (_, b1, r1) := sample_at data w h Rgb x y in
  let* (_, b2, r2) := sample_at data w h Rgb (x + 1) y in
  let* (_, b3, r3) := sample_at data w h Rgb x (y + 1) in
  let* (_, b4, r4) := sample_at data w h Rgb (x + 1) (y + 1) in
  Ok ((b1 + b2 + b3 + b4) / 4, (r1 + r2 + r3 + r4) / 4).
Definition extract_mcu_420 (data : list Z) (w h mx my : Z) : res (list (list Z) * list Z * list Z) :=
  let* ys := map_res (fun b =>
      map_res (fun i => let* (y, _, _) := sample_at data w h Rgb (mx + b mod 2 * 8 + i mod 8) (my + b / 2 * 8 + i / 8) in Ok y)
              (idxs 64)) (idxs 4) in
  let* cs := map_res (chroma_avg data w h mx my) (idxs 64) in
  Ok (ys, map fst cs, map snd cs).

(** ** MCUs *)
(** [(w + 7) & !7] *)
Definition pad_to (n k : Z) : Z := Z.land (n + (k - 1)) (Z.lnot (k - 1)).
(** the nested loops of 712-713, 742-743, 789-790, 1436-1437, ...: top-left
    corners of the MCUs, row by row *)
Definition corners (w h step : Z) : list (Z * Z) :=
  flat_map (fun y => map (fun x => (x * step, y * step)) (idxs (Z.to_nat (pad_to w step / step))))
           (idxs (Z.to_nat (pad_to h step / step))).
Definition mcu_step (o : jopts) : Z :=
  match jo_ct o, jo_sub o with Gray, _ => 8 | _, S444 => 8 | _, S420 => 16 end.
Definition lum_table (o : jopts) : list Z := table_natural STD_LUMINANCE_TABLE (jo_quality o).
Definition chrom_table (o : jopts) : list Z := table_natural STD_CHROMINANCE_TABLE (jo_quality o).
(** the quantised blocks of one MCU with their components, in coding order:
    715-718, 745-759, 792-807 (and the corresponding lines of encode_scan and
    compute_all_coefficients); [q] is the quantiser *)
Definition mcu_coefs (q : list Z -> list Z -> list Z) (data : list Z) (o : jopts) (xy : Z * Z) : res (list (Z * list Z)) :=
  let '(x, y) := xy in
  match jo_ct o, jo_sub o with
  | Gray, _ =>
      let* (yb, _, _) := extract_block data (jo_w o) (jo_h o) x y Gray in
      Ok [(0, q (lum_table o) yb)]
  | ct, S444 =>
      let* (yb, cb, cr) := extract_block data (jo_w o) (jo_h o) x y ct in
      Ok [(0, q (lum_table o) yb); (1, q (chrom_table o) cb); (2, q (chrom_table o) cr)]
  | _, S420 =>
      let* (ys, cb, cr) := extract_mcu_420 data (jo_w o) (jo_h o) x y in
      Ok (map (fun yb => (0, q (lum_table o) yb)) ys ++ [(1, q (chrom_table o) cb); (2, q (chrom_table o) cr)])
  end.
Definition all_mcus (q : list Z -> list Z -> list Z) (data : list Z) (o : jopts) : res (list (list (Z * list Z))) :=
  map_res (mcu_coefs q data o) (corners (jo_w o) (jo_h o) (mcu_step o)).

(** mod.rs 1424-1440, 722-731: [mcu_count] MCUs done so far *)
Definition is_restart (ri : option Z) (mcu_count total : Z) : bool :=
  match ri with Some i => (i >? 0) && (mcu_count mod i =? 0) && (mcu_count <? total) | None => false end.

(** ** Statistics for optimised tables: mod.rs 684-824 *)
Record counts := mkcounts { n_dcl : list Z; n_dcc : list Z; n_acl : list Z; n_acc : list Z }.
Definition counts0 : counts := mkcounts (repeat 0 12) (repeat 0 12) (repeat 0 256) (repeat 0 256).
Definition count_comp (st : list Z * counts) (cb : Z * list Z) : res (list Z * counts) :=
  let '(preds, n) := st in
  let '(c, block) := cb in
  let* pred := get preds c in
  if c =? 0 then
    let* (dc, d, a) := count_block block pred (n_dcl n) (n_acl n) in
    Ok (upd preds (Z.to_nat c) dc, mkcounts d (n_dcc n) a (n_acc n))
  else
    let* (dc, d, a) := count_block block pred (n_dcc n) (n_acc n) in
    Ok (upd preds (Z.to_nat c) dc, mkcounts (n_dcl n) d (n_acl n) a).
Fixpoint count_mcus (ri : option Z) (total k : Z) (mcus : list (list (Z * list Z))) (preds : list Z) (n : counts) : res counts :=
  match mcus with
  | [] => Ok n
  | m :: t =>
      let* (preds, n) := fold_res count_comp m (preds, n) in
      let preds := if is_restart ri (k + 1) total then [0; 0; 0] else preds in
      count_mcus ri total (k + 1) t preds n
  end.
Definition build_optimized (e : jenv) (data : list Z) (o : jopts) : res (option htables) :=
  let* mcus := all_mcus (je_dctq e) data o in
  let* n := count_mcus (jo_restart o) (zlen mcus) 0 mcus [0; 0; 0] counts0 in
  match jo_ct o with
  | Gray => optimized_from_counts (n_dcl n) None (n_acl n) None
  | _ => optimized_from_counts (n_dcl n) (Some (n_dcc n)) (n_acl n) (Some (n_acc n))
  end.
(** mod.rs 379-392 *)
Definition choose_tables (e : jenv) (data : list Z) (o : jopts) : res htables :=
  if jo_opt o then
    let* x := build_optimized e data o in
    match x with Some t => Ok t | None => std_tables end
  else std_tables.

(** ** Baseline scan: mod.rs 1408-1563 *)
Record sstate := mkss { ss_w : bwm; ss_preds : list Z; ss_rst : Z }.
Definition encode_comp (t : htables) (st : bwm * list Z) (cb : Z * list Z) : res (bwm * list Z) :=
  let '(w, preds) := st in
  let '(c, block) := cb in
  let* pred := get preds c in
  let* (dc, w) := encode_block w block pred (c =? 0) t in
  Ok (w, upd preds (Z.to_nat c) dc).
(** mod.rs 1424-1445 *)
Definition handle_restart (ri : option Z) (mcu_count total : Z) (s : sstate) : sstate :=
  if is_restart ri mcu_count total then
    mkss (m_write_bytes (m_flush (ss_w s)) [255; 208 + Z.land (ss_rst s) 7]) [0; 0; 0] (Z.land (ss_rst s + 1) 7)
  else s.
Fixpoint scan_mcus (t : htables) (ri : option Z) (total k : Z) (mcus : list (list (Z * list Z))) (s : sstate) : res bwm :=
  match mcus with
  | [] => Ok (ss_w s)
  | m :: r =>
      let* (w, preds) := fold_res (encode_comp t) m (ss_w s, ss_preds s) in
      scan_mcus t ri total (k + 1) r (handle_restart ri (k + 1) total (mkss w preds (ss_rst s)))
  end.
Definition encode_scan (t : htables) (ri : option Z) (mcus : list (list (Z * list Z))) : res (list Z) :=
  let* w := scan_mcus t ri (zlen mcus) 0 mcus (mkss m_new [0; 0; 0] 0) in
  Ok (m_finish w).

(** ** Headers: mod.rs 449-640 *)
Definition be16_bytes (x : Z) : list Z := [wrap 8 (Z.shiftr x 8); wrap 8 x].
Definition write_soi : list Z := [255; 216].
Definition write_eoi : list Z := [255; 217].
Definition write_app0 : list Z :=
  [255; 224] ++ be16_bytes 16 ++ [74; 70; 73; 70; 0; 1; 1; 0] ++ be16_bytes 1 ++ be16_bytes 1 ++ [0; 0].
Definition write_dqt (quality : Z) : list Z :=
  [255; 219] ++ be16_bytes 67 ++ [0] ++ table_zigzag STD_LUMINANCE_TABLE quality ++
  [255; 219] ++ be16_bytes 67 ++ [1] ++ table_zigzag STD_CHROMINANCE_TABLE quality.
(** mod.rs 503-562; the casts of width and height to u16 *)
Definition write_sof (marker w h : Z) (ct : color_type) (sub : subsampling) : list Z :=
  let n := match ct with Gray => 1 | _ => 3 end in
  [255; marker] ++ be16_bytes (8 + 3 * n) ++ [8] ++ be16_bytes (wrap 16 h) ++ be16_bytes (wrap 16 w) ++ [n] ++
  match ct with
  | Gray => [1; 17; 0]
  | _ => [1; match sub with S444 => 17 | S420 => 34 end; 0; 2; 17; 1; 3; 17; 1]
  end.
Definition write_huffman_table (id : Z) (bits vals : list Z) : list Z :=
  [255; 196] ++ be16_bytes (wrap 16 (2 + 1 + 16 + zlen vals)) ++ [id] ++ bits ++ vals.
Definition write_dht (t : htables) : list Z :=
  write_huffman_table 0 (dc_lum_bits t) (dc_lum_vals t) ++
  write_huffman_table 1 (dc_chrom_bits t) (dc_chrom_vals t) ++
  write_huffman_table 16 (ac_lum_bits t) (ac_lum_vals t) ++
  write_huffman_table 17 (ac_chrom_bits t) (ac_chrom_vals t).
Definition write_dri (interval : Z) : list Z := [255; 221] ++ be16_bytes 4 ++ be16_bytes interval.
Definition write_sos (ct : color_type) : list Z :=
  let n := match ct with Gray => 1 | _ => 3 end in
  [255; 218] ++ be16_bytes (6 + 2 * n) ++ [n] ++
  match ct with Gray => [1; 0] | _ => [1; 0; 2; 17; 3; 17] end ++ [0; 63; 0].

(** ** Progressive scans *)
(** progressive.rs 28-40 *)
Record scan_spec := mkscanspec { sc_comps : list Z; sc_ss : Z; sc_se : Z; sc_ah : Z; sc_al : Z }.
(** progressive.rs 96-109 *)
Definition simple_progressive_script : list scan_spec :=
  [mkscanspec [0] 0 0 0 0; mkscanspec [1] 0 0 0 0; mkscanspec [2] 0 0 0 0;
   mkscanspec [0] 1 10 0 0; mkscanspec [0] 11 63 0 0; mkscanspec [1] 1 63 0 0; mkscanspec [2] 1 63 0 0].
(** mod.rs 643-682 *)
Definition write_sos_progressive (s : scan_spec) : list Z :=
  [255; 218] ++ be16_bytes (6 + 2 * zlen (sc_comps s)) ++ [zlen (sc_comps s)] ++
  flat_map (fun c => [c + 1; if c =? 0 then 0 else 17]) (sc_comps s) ++
  [sc_ss s; sc_se s; Z.lor (wrap 8 (Z.shiftl (sc_ah s) 4)) (sc_al s)].
(** progressive.rs 366-384: the code of a symbol read off the specification;
    the u16 counter panics on overflow; (0, 4) when the symbol has no code *)
Fixpoint find_inner (count : nat) (sym len : Z) (vals : list Z) (code : Z) : res (option (Z * Z) * list Z * Z) :=
  match count with
  | O => Ok (None, vals, code)
  | S k =>
      let hit := match vals with v :: _ => v =? sym | [] => false end in
      if hit then Ok (Some (code, len), vals, code)
      else if code + 1 <? 2 ^ 16 then find_inner k sym len (tl vals) (code + 1) else Panic
  end.
Fixpoint find_outer (bits : list Z) (sym len : Z) (vals : list Z) (code : Z) : res (Z * Z) :=
  match bits with
  | [] => Ok (0, 4)
  | c :: r =>
      let* (hit, vals, code) := find_inner (Z.to_nat c) sym len vals code in
      match hit with
      | Some x => Ok x
      | None => find_outer r sym (len + 1) vals (wrap 16 (Z.shiftl code 1))
      end
  end.
Definition get_code_from_table (bits vals : list Z) (sym : Z) : res (Z * Z) := find_outer bits sym 1 vals 0.
(** progressive.rs 350-364 *)
Definition get_dc_code (t : htables) (cat : Z) (lum : bool) : res (Z * Z) :=
  if lum then get_code_from_table (dc_lum_bits t) (dc_lum_vals t) cat
  else get_code_from_table (dc_chrom_bits t) (dc_chrom_vals t) cat.
Definition get_ac_code (t : htables) (rs : Z) (lum : bool) : res (Z * Z) :=
  if lum then get_code_from_table (ac_lum_bits t) (ac_lum_vals t) rs
  else get_code_from_table (ac_chrom_bits t) (ac_chrom_vals t) rs.
Definition write_ac_sym (t : htables) (lum : bool) (w : bwm) (rs : Z) : res bwm :=
  let* (c, l) := get_ac_code t rs lum in Ok (m_write w c l).

(** mod.rs 1248-1309: the script has only first DC scans with al = 0, for
    which [>> al] is the identity; refinement scans are not reached and left
    out *)
Fixpoint dc_first (t : htables) (lum : bool) (blocks : list (list Z)) (prev : Z) (w : bwm) : res bwm :=
  match blocks with
  | [] => Ok w
  | b :: r =>
      let dc := znth b 0 in
      let* diff := i16 (dc - prev) in
      let cat := category diff in
      let* (c, l) := get_dc_code t cat lum in
      let w := m_write w c l in
      let* w := (if cat >? 0 then write_value w diff else Ok w) in
      dc_first t lum r dc w
  end.
(** progressive.rs 313-345: the position of the highest bit of the run *)
Definition flush_eob_run (t : htables) (lum : bool) (w : bwm) (eob_run : Z) : res bwm :=
  if eob_run =? 0 then Ok w
  else
    let nbits := Z.log2 eob_run in
    let* w := write_ac_sym t lum w (wrap 8 (Z.shiftl nbits 4)) in
    if nbits >? 0 then Ok (m_write w (eob_run - Z.shiftl 1 nbits) nbits) else Ok w.
(** progressive.rs 181-185 *)
Fixpoint first_zrl (fuel : nat) (t : htables) (lum : bool) (w : bwm) (zero_run : Z) : res (bwm * Z) :=
  if zero_run >=? 16 then
    match fuel with
    | O => NoFuel
    | S f => let* w := write_ac_sym t lum w 240 in first_zrl f t lum w (zero_run - 16)
    end
  else Ok (w, zero_run).
(** progressive.rs 171-200 with al = 0 *)
Fixpoint first_coefs (t : htables) (lum : bool) (w : bwm) (l : list Z) (zero_run : Z) : res bwm :=
  match l with
  | [] => Ok w
  | a :: r =>
      if a =? 0 then first_coefs t lum w r (zero_run + 1)
      else
        let* (w, zero_run) := first_zrl 4 t lum w zero_run in
        let* w := write_ac_sym t lum w (Z.lor (wrap 8 (Z.shiftl zero_run 4)) (category a)) in
        let* w := write_value w a in
        first_coefs t lum w r 0
  end.
(** progressive.rs 150-157: the band without its trailing zeros *)
Fixpoint trim_zeros (l : list Z) : list Z :=
  match l with
  | [] => []
  | a :: r => match trim_zeros r with [] => if a =? 0 then [] else [a] | t => a :: t end
  end.
(** progressive.rs 141-210 *)
Definition encode_ac_first (t : htables) (lum : bool) (ss se : Z) (w : bwm) (block : list Z) (eob_run : Z) : res (bwm * Z) :=
  let zz := zigzag_reorder block in
  let band := firstn (Z.to_nat (se - ss + 1)) (skipn (Z.to_nat ss) zz) in
  match trim_zeros band with
  | [] =>
      if eob_run + 1 <? 2 ^ 16 then
        if eob_run + 1 =? 32767 then let* w := flush_eob_run t lum w (eob_run + 1) in Ok (w, 0)
        else Ok (w, eob_run + 1)
      else Panic
  | l =>
      let* w := (if eob_run >? 0 then flush_eob_run t lum w eob_run else Ok w) in
      let* w := first_coefs t lum w l 0 in
      Ok (w, if zlen l <? zlen band then 1 else 0)
  end.
Fixpoint ac_first (t : htables) (lum : bool) (ss se : Z) (blocks : list (list Z)) (w : bwm) (eob_run : Z) : res bwm :=
  match blocks with
  | [] => if eob_run >? 0 then flush_eob_run t lum w eob_run else Ok w
  | b :: r =>
      let* (w, eob_run) := encode_ac_first t lum ss se w b eob_run in
      ac_first t lum ss se r w eob_run
  end.
(** the blocks of a component in coding order: mod.rs 1050-1128 *)
Definition comp_blocks (mcus : list (list (Z * list Z))) (c : Z) : list (list Z) :=
  map snd (filter (fun p => fst p =? c) (concat mcus)).
(** mod.rs 889-924; [coeffs.is_empty()] scans write nothing but their header *)
Definition encode_prog_scan (t : htables) (mcus : list (list (Z * list Z))) (s : scan_spec) : res (list Z) :=
  let* w := fold_res (fun w c =>
      let blocks := comp_blocks mcus c in
      if (sc_ss s =? 0) && (sc_se s =? 0) then dc_first t (c =? 0) blocks 0 w
      else ac_first t (c =? 0) (sc_ss s) (sc_se s) blocks w 0) (sc_comps s) m_new in
  Ok (write_sos_progressive s ++ m_finish w).
Definition encode_progressive (t : htables) (mcus : list (list (Z * list Z))) : res (list Z) :=
  let* l := map_res (encode_prog_scan t mcus) simple_progressive_script in
  Ok (concat l).

(** ** The encoder: mod.rs 377-447 *)
Definition jpeg_body (e : jenv) (data : list Z) (o : jopts) : res (list Z) :=
  let* t := choose_tables e data o in
  let dri := match jo_restart o with Some i => write_dri i | None => [] end in
  if jo_prog o then
    let* mcus := all_mcus (if jo_trellis o then je_trellis e else je_dctq e) data o in
    let* scans := encode_progressive t mcus in
    Ok (write_soi ++ write_app0 ++ write_dqt (jo_quality o) ++ write_sof 194 (jo_w o) (jo_h o) (jo_ct o) (jo_sub o) ++
        write_dht t ++ dri ++ scans ++ write_eoi)
  else
    let* mcus := all_mcus (je_dctq e) data o in
    let* scan := encode_scan t (jo_restart o) mcus in
    Ok (write_soi ++ write_app0 ++ write_dqt (jo_quality o) ++ write_sof 192 (jo_w o) (jo_h o) (jo_ct o) (jo_sub o) ++
        write_dht t ++ dri ++ write_sos (jo_ct o) ++ scan ++ write_eoi).
Definition JPEG_MAX_DIMENSION : Z := 65535.
(** mod.rs 328-375: the buffer is only touched after the checks; dimensions
    are at most 65535 when their product is formed, so [checked_mul] never
    fails.  A panic half way leaves a partial buffer, which nobody can rely
    on; the model keeps the old one. *)
Definition jencode_into (e : jenv) (output data : list Z) (o : jopts) : list Z * res unit :=
  if (jo_quality o =? 0) || (jo_quality o >? 100) then (output, Err (EInvalidQuality (jo_quality o)))
  else if match jo_restart o with Some i => i =? 0 | None => false end then (output, Err (EInvalidRestartInterval 0))
  else if (jo_w o =? 0) || (jo_h o =? 0) then (output, Err (EInvalidDimensions (jo_w o) (jo_h o)))
  else if (jo_w o >? JPEG_MAX_DIMENSION) || (jo_h o >? JPEG_MAX_DIMENSION) then
    (output, Err (EImageTooLarge (jo_w o) (jo_h o) JPEG_MAX_DIMENSION))
  else
    let run (bpp : Z) :=
      let expected := jo_w o * jo_h o * bpp in
      if negb (zlen data =? expected) then (output, Err (EInvalidDataLength expected (zlen data)))
      else match jpeg_body e data o with
           | Ok out => (out, Ok tt)
           | Err er => (output, Err er)
           | Panic => (output, Panic)
           | NoFuel => (output, NoFuel)
           end in
    match jo_ct o with
    | Rgb => run 3
    | Gray => run 1
    | _ => (output, Err EUnsupportedColorType)
    end.
(** mod.rs 86-90 *)
Definition jencode (e : jenv) (data : list Z) (o : jopts) : res (list Z) :=
  let '(out, r) := jencode_into e [] data o in
  let* _ := r in Ok out.
