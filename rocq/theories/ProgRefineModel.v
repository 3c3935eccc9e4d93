(** src/jpeg/progressive.rs: the public coding functions for successive approximation and
    the script that uses them.  The encoder itself uses [simple_progressive_script] only. *)
From Verif Require Import Base BitsModel Lz77Model PngFilterModel PngPaletteModel JpegBaseModel JpegHuffModel JpegEncModel.

(** 68-96 *)
Definition default_progressive_script : list scan_spec :=
  [mkscanspec [0] 0 0 0 1; mkscanspec [1] 0 0 0 1; mkscanspec [2] 0 0 0 1;
   mkscanspec [0] 1 5 0 2; mkscanspec [0] 6 14 0 2; mkscanspec [0] 15 63 0 1;
   mkscanspec [1] 1 63 0 1; mkscanspec [2] 1 63 0 1;
   mkscanspec [0] 0 0 1 0; mkscanspec [1] 0 0 1 0; mkscanspec [2] 0 0 1 0;
   mkscanspec [0] 1 5 2 1; mkscanspec [0] 1 5 1 0; mkscanspec [0] 6 14 2 1; mkscanspec [0] 6 14 1 0;
   mkscanspec [0] 15 63 1 0; mkscanspec [1] 1 63 1 0; mkscanspec [2] 1 63 1 0].
(** 53-63 *)
Definition is_dc_scan (s : scan_spec) : bool := (sc_ss s =? 0) && (sc_se s =? 0).
Definition is_first_scan (s : scan_spec) : bool := sc_ah s =? 0.
Definition is_refinement_scan (s : scan_spec) : bool := sc_ah s >? 0.

(** [i16 >> al] and [u16 >> al]: a shift of 16 or more is an overflow *)
Definition shr16 (v al : Z) : res Z := if al <? 16 then Ok (Z.shiftr v al) else Panic.
(** 113-132; [code] is the code the caller looked up *)
Definition encode_dc_first (w : bwm) (dc_diff al : Z) (code : Z * Z) : res bwm :=
  let* shifted := shr16 dc_diff al in
  let w := m_write w (fst code) (snd code) in
  if shifted =? 0 then Ok w else write_value w shifted.
(** 134-138 *)
Definition encode_dc_refine (w : bwm) (dc_coef al : Z) : res bwm :=
  let* a := shr16 (Z.abs dc_coef) al in
  Ok (m_write w (Z.land a 1) 1).

(** A DC scan of one component as in mod.rs 1248-1309, for any [al], with
    [encode_dc_first] for lines 1300-1312, which do the same *)
Fixpoint dc_scan_first (t : htables) (lum : bool) (al : Z) (blocks : list (list Z)) (prev : Z) (w : bwm) : res bwm :=
  match blocks with
  | [] => Ok w
  | b :: r =>
      let dc := znth b 0 in
      let* diff := i16 (dc - prev) in
      let* shifted := shr16 diff al in
      let* code := get_dc_code t (category shifted) lum in
      let* w := encode_dc_first w diff al code in
      dc_scan_first t lum al r dc w
  end.
Fixpoint dc_scan_refine (al : Z) (blocks : list (list Z)) (prev : Z) (w : bwm) : res bwm :=
  match blocks with
  | [] => Ok w
  | b :: r =>
      let dc := znth b 0 in
      let* _ := i16 (dc - prev) in
      let* w := encode_dc_refine w dc al in
      dc_scan_refine al r dc w
  end.

(** the coefficients [ss..=se] in zigzag order (for ss <= se < 64; the index panics otherwise) *)
Definition zz_band (ss se : Z) (block : list Z) : list Z :=
  firstn (Z.to_nat (se - ss + 1)) (skipn (Z.to_nat ss) (zigzag_reorder block)).
(** 141-210 for any [al]: lines 149-210 look at [zigzag[k] >> al] only *)
Definition encode_ac_first_al (t : htables) (lum : bool) (ss se al : Z) (w : bwm) (block : list Z) (eob_run : Z) : res (bwm * Z) :=
  if al <? 16 then
    let band := map (fun c => Z.shiftr c al) (zz_band ss se block) in
    match trim_zeros band with
    | [] =>
        if eob_run + 1 <? 2 ^ 16 then
          if eob_run + 1 =? 32767 then let* w := flush_eob_run t lum w (eob_run + 1) in Ok (w, 0)
          else Ok (w, eob_run + 1)
        else Panic
    | l =>
        let* w := (if eob_run >? 0 then flush_eob_run t lum w eob_run else Ok w) in
        let* w := first_coefs t lum w l 0 in
        Ok (w, if zlen l <? zlen band then 1 else 0)
    end
  else Panic.
(** a scan: every block, then what is left of the run (the caller's part, as in mod.rs
    1330-1385) *)
Fixpoint ac_scan_first (t : htables) (lum : bool) (ss se al : Z) (blocks : list (list Z)) (w : bwm) (eob_run : Z) : res bwm :=
  match blocks with
  | [] => if eob_run >? 0 then flush_eob_run t lum w eob_run else Ok w
  | b :: r => let* (w, eob_run) := encode_ac_first_al t lum ss se al w b eob_run in ac_scan_first t lum ss se al r w eob_run
  end.

(** 248-251, 265-267, 298-300: pending correction bits *)
Definition write_bits1 (w : bwm) (l : list Z) : bwm := fold_left (fun w b => m_write w b 1) l w.
(** 245-254: [zero_run] is below 64, so four rounds do *)
Fixpoint refine_zrl (fuel : nat) (t : htables) (lum : bool) (w : bwm) (zero_run : Z) (corr : list Z) : res (bwm * Z * list Z) :=
  if zero_run >=? 16 then
    match fuel with
    | O => NoFuel
    | S f => let* w := write_ac_sym t lum w 240 in refine_zrl f t lum (write_bits1 w corr) (zero_run - 16) []
    end
  else Ok (w, zero_run, corr).
(** 232-276 *)
Fixpoint refine_coefs (t : htables) (lum : bool) (al : Z) (l : list Z) (w : bwm) (zero_run : Z) (corr : list Z) (eob_run : Z) : res (bwm * Z * list Z * Z) :=
  match l with
  | [] => Ok (w, zero_run, corr, eob_run)
  | c :: r =>
      let a := Z.abs c in
      if a >? Z.shiftl 1 al then refine_coefs t lum al r w zero_run (corr ++ [Z.land (Z.shiftr a al) 1]) eob_run
      else if negb (Z.land (Z.shiftr a al) 1 =? 0) then
        let* w := (if eob_run >? 0 then flush_eob_run t lum w eob_run else Ok w) in
        let* (w, zero_run, corr) := refine_zrl 4 t lum w zero_run corr in
        let* w := write_ac_sym t lum w (Z.lor (wrap 8 (Z.shiftl zero_run 4)) 1) in
        let w := m_write w (if c <? 0 then 0 else 1) 1 in
        refine_coefs t lum al r (write_bits1 w corr) 0 [] 0
      else refine_coefs t lum al r w (zero_run + 1) corr eob_run
  end.
(** 212-302.  The loop 225-235 for the end of the band has no effect but the panic of
    [i16::abs] on -32768; simplified: that value always panics.  [end] is not used. *)
Definition encode_ac_refine (t : htables) (lum : bool) (ss se al : Z) (w : bwm) (block : list Z) (eob_run : Z) : res (bwm * Z) :=
  let band := zz_band ss se block in
  if (al <? 16) && forallb (fun c => negb (c =? -32768)) band then
    let* (w, zero_run, corr, eob_run) := refine_coefs t lum al band w 0 [] eob_run in
    let* (w, eob_run) :=
      (if (zero_run >? 0) || negb (zlen corr =? 0) then
         if eob_run + 1 <? 2 ^ 16 then
           if eob_run + 1 =? 32767 then let* w := flush_eob_run t lum w (eob_run + 1) in Ok (w, 0)
           else Ok (w, eob_run + 1)
         else Panic
       else Ok (w, eob_run)) in
    Ok (write_bits1 w corr, eob_run)
  else Panic.
Fixpoint ac_scan_refine (t : htables) (lum : bool) (ss se al : Z) (blocks : list (list Z)) (w : bwm) (eob_run : Z) : res bwm :=
  match blocks with
  | [] => if eob_run >? 0 then flush_eob_run t lum w eob_run else Ok w
  | b :: r => let* (w, eob_run) := encode_ac_refine t lum ss se al w b eob_run in ac_scan_refine t lum ss se al r w eob_run
  end.

(** mod.rs 889-924 with the three kinds of scan (1248-1309, 1325-1364, 1366-1403): what the
    encoder would write for any scan of a script *)
Definition encode_scan_any (t : htables) (mcus : list (list (Z * list Z))) (s : scan_spec) : res (list Z) :=
  let* w := fold_res (fun w c =>
      let blocks := comp_blocks mcus c in
      if is_dc_scan s then
        if is_refinement_scan s then dc_scan_refine (sc_al s) blocks 0 w else dc_scan_first t (c =? 0) (sc_al s) blocks 0 w
      else if is_first_scan s then ac_scan_first t (c =? 0) (sc_ss s) (sc_se s) (sc_al s) blocks w 0
      else ac_scan_refine t (c =? 0) (sc_ss s) (sc_se s) (sc_al s) blocks w 0) (sc_comps s) m_new in
  Ok (write_sos_progressive s ++ m_finish w).
