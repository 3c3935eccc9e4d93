(** Successive approximation as in ITU-T T.81 G.1.2, independent of the encoder. *)
From Verif Require Import Base CanonSpec MsbSpec JpegEncModel JpegSpec JpegProgSpec.

(** G.1.2.1, A.4: the DC value is shifted down by Al bits ... *)
Definition dc_point (al dc : Z) : Z := dc / 2 ^ al.
(** ... and AC values are divided by 2^Al, toward zero *)
Definition ac_point (al c : Z) : Z := Z.sgn c * (Z.abs c / 2 ^ al).
(** G.1.2.1: DC refinement sends bit Al of every DC value *)
Definition dc_refine_bits (al : Z) (dcs : list Z) : list bool := map (fun dc => Z.odd (dc_point al dc)) dcs.

(** G.1.2.3: magnitude at level [al].  2 and more: the coefficient was nonzero before this
    scan and gets a correction bit; 1: it becomes nonzero now; 0: still zero *)
Definition level (al c : Z) : Z := Z.abs c / 2 ^ al.
Definition no_new (al : Z) (l : list Z) : Prop := Forall (fun c => level al c <> 1) l.
Definition corrections (al : Z) (l : list Z) : list bool :=
  map (fun c => Z.odd (level al c)) (filter (fun c => 2 <=? level al c) l).
Definition zeros_of (al : Z) (l : list Z) : Z := zlen (filter (fun c => level al c =? 0) l).
(** the part of a band up to the last coefficient that becomes nonzero.  A symbol covers
    its zeros; correction bits of the coefficients passed follow it *)
Inductive refine_code (bits vals : list Z) (al : Z) : list Z -> list bool -> Prop :=
| rc_nil : refine_code bits vals al [] []
| rc_zrl pre z l w b : no_new al pre -> zeros_of al pre = 15 -> level al z = 0 -> sym_code bits vals 240 w ->
    refine_code bits vals al l b -> l <> [] -> refine_code bits vals al (pre ++ z :: l) (w ++ corrections al pre ++ b)
| rc_new pre c l w b : no_new al pre -> zeros_of al pre < 16 -> level al c = 1 -> sym_code bits vals (16 * zeros_of al pre + 1) w ->
    refine_code bits vals al l b -> refine_code bits vals al (pre ++ c :: l) (w ++ (0 <? c) :: corrections al pre ++ b).
(** the bands of a scan.  The correction bits of all bands of an end-of-band run follow
    its symbol *)
Inductive refine_bands (bits vals : list Z) (al : Z) : list (list Z) -> list bool -> Prop :=
| rb_nil : refine_bands bits vals al [] []
| rb_full h r b1 b2 : refine_code bits vals al h b1 -> refine_bands bits vals al r b2 -> refine_bands bits vals al (h :: r) (b1 ++ b2)
| rb_eob h t n zs r w b1 b2 : refine_code bits vals al h b1 -> t <> [] -> no_new al t -> Forall (no_new al) zs ->
    0 <= n <= 14 -> 2 ^ n <= 1 + zlen zs < 2 ^ (n + 1) -> sym_code bits vals (16 * n) w -> refine_bands bits vals al r b2 ->
    refine_bands bits vals al ((h ++ t) :: zs ++ r) (b1 ++ w ++ msb n (1 + zlen zs - 2 ^ n) ++ concat (map (corrections al) (t :: zs)) ++ b2).

(** every symbol of such a scan has a code *)
Definition refine_symbols : list Z := map (fun n => 16 * Z.of_nat n) (seq 0 16) ++ map (fun r => 16 * Z.of_nat r + 1) (seq 0 16).

(** bands the coding functions get right: between two coefficients that become nonzero
    there are fewer than 16 zeros, a coefficient that was nonzero is followed by one that
    becomes nonzero, and no magnitude lies strictly between 2^al and 2^(al+1) *)
Definition short_gaps (al : Z) (band : list Z) : Prop :=
  forall p m c q, band = p ++ m ++ c :: q -> level al c = 1 -> no_new al m -> zeros_of al m < 16.
Definition ends_new (al : Z) (band : list Z) : Prop :=
  forall p o q, band = p ++ o :: q -> 2 <= level al o -> ~ no_new al q.
Definition clear_cut (al : Z) (band : list Z) : Prop :=
  Forall (fun c => Z.abs c <= 2 ^ al \/ 2 ^ (al + 1) <= Z.abs c) band.

(** a coefficient is sent fully: the scans that contain coefficient [k] of
    component [c], in order, first send it without its low bits, then one more bit each, down
    to bit 0 *)
Fixpoint steps_down (prev : Z) (l : list (Z * Z)) : Prop :=
  match l with
  | [] => prev = 0
  | (ah, al) :: l => ah = prev /\ al = prev - 1 /\ steps_down al l
  end.
Definition sends_fully (l : list (Z * Z)) : Prop :=
  match l with
  | [] => False
  | (ah, al) :: l => ah = 0 /\ 0 <= al <= 13 /\ steps_down al l
  end.
(** the precision steps of the scans of a script that contain coefficient [k] of component [c] *)
Definition scans_of (script : list scan_spec) (c k : Z) : list (Z * Z) :=
  map (fun s => (sc_ah s, sc_al s)) (filter (fun s => existsb (Z.eqb c) (sc_comps s) && (sc_ss s <=? k) && (k <=? sc_se s)) script).
Example steps_two : sends_fully [(0, 2); (2, 1); (1, 0)]. Proof. cbn. lia. Qed.
Example level_odd : corrections 1 [7; 1; -4; 3] = [true; false]. Proof. reflexivity. Qed.
