(** Words used to state what the JPEG decoder does on arbitrary files. *)
From Coq Require Import Reals.
From Verif Require Import Base BitsModel Lz77Model PngFilterModel JpegBaseModel JpegDecModel.
Open Scope Z_scope.

(** ** The blocks that make it panic: a DC category above 25, a DC predictor that leaves
    i32, or a dequantised coefficient above 2047 in absolute value *)
Definition bad_block (dct act : jtab) (q : list Z) (r : mr) (pred : Z) : Prop :=
  exists cat r1, jdecode dct r = Ok (cat, r1) /\
  (25 < cat \/
   exists diff r2, (if cat >? 0 then read_amplitude r1 cat else Ok (0, r1)) = Ok (diff, r2) /\
   (~ (- 2 ^ 31 <= pred + diff < 2 ^ 31) \/
    exists coeffs r3 n, dec_ac 64 act r2 1 (upd (repeat 0 64) 0 (as_i16 (pred + diff))) = Ok (coeffs, r3) /\
      0 <= n < 64 /\ 2047 < Z.abs (znth (dequantize coeffs q) n))).
(** ** Where in a scan *)
(** the state the scan starts in, jpeg.rs 486-512; the predictors after a restart, 502-511 *)
Definition scan_init (st : jstate) (data : list Z) : scan_state :=
  let mw := div_ceil (js_w st) (js_maxh st * 8) in
  let mh := div_ceil (js_h st) (js_maxv st * 8) in
  mkscan (map (fun c => repeat 0 (Z.to_nat ((mw * c_h c * 8) * (mh * c_v c * 8)))) (js_comps st)) (map (fun _ => 0) (js_comps st)) (mr_new (firstn (Z.to_nat (find_entropy_end data)) data)).
Definition at_restart (st : jstate) (k : Z) (s : scan_state) : scan_state :=
  if (js_restart st >? 0) && (k >? 0) && (k mod js_restart st =? 0) then mkscan (s_comps s) (map (fun _ => 0) (s_preds s)) (s_reader s) else s.
Definition scan_step (st : jstate) (mw k : Z) : Z * jcomp * Z * Z -> scan_state -> res flow :=
  fun '(ci, c, v, h) s => scan_block st ci c mw (k mod mw * c_h c + h) (k / mw * c_v c + v) s.
(** the scan decodes [k] MCUs and the blocks [pre] of the next one without stopping, and is
    then about to decode a block of component number [ci] in state [s] *)
Definition reached (st : jstate) (data : list Z) (ci : Z) (c : jcomp) (s : scan_state) : Prop :=
  let mw := div_ceil (js_w st) (js_maxh st * 8) in
  let mh := div_ceil (js_h st) (js_maxv st * 8) in
  exists k s1 pre v h suf, Z.of_nat k < mw * mh /\ flow_fold (scan_mcu st mw) (idxs k) (scan_init st data) = Ok (Go s1) /\
    mcu_blocks (js_comps st) = pre ++ (ci, c, v, h) :: suf /\ flow_fold (scan_step st mw (Z.of_nat k)) pre (at_restart st (Z.of_nat k) s1) = Ok (Go s).

(** ** The inverse DCT *)
(** nearest value in 0..255 *)
Definition rclamp (x : R) : R := Rmax 0 (Rmin 255 x)%R.
(** the block with every coefficient of odd horizontal or odd vertical frequency removed *)
Definition drop_odd (coefs : list Z) : list Z := map (fun n => if Z.odd (n mod 8) || Z.odd (n / 8) then 0 else znth coefs n) (idxs 64).
