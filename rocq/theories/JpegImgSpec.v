(** What the file of an image has to hold, block by block, independently of the
    encoder's loops: components are planes of samples, the image extended by
    repeating its last column and row, and each plane is cut into 8x8 blocks. *)
From Verif Require Import Base PngFilterModel PngPaletteModel JpegBaseModel JpegDecModel JpegEncModel.

(** luminance and chrominance of the pixel at (x, y) *)
Definition ycc_at (data : list Z) (w : Z) (ct : color_type) (x y : Z) : Z * Z * Z :=
  match ct with
  | Gray => (znth data (y * w + x), 128, 128)
  | _ => match rgb_to_ycbcr (znth data ((y * w + x) * 3)) (znth data ((y * w + x) * 3 + 1)) (znth data ((y * w + x) * 3 + 2)) with
         | Ok t => t | _ => (0, 0, 0)
         end
  end.
Definition comp_of (t : Z * Z * Z) (c : Z) : Z := if c =? 0 then fst (fst t) else if c =? 1 then snd (fst t) else snd t.
Definition edge_at (data : list Z) (w h : Z) (ct : color_type) (c x y : Z) : Z :=
  comp_of (ycc_at data w ct (Z.min x (w - 1)) (Z.min y (h - 1))) c - 128.
(** subsampling factor of the chrominance planes *)
Definition factor (o : jopts) : Z := match jo_ct o, jo_sub o with Gray, _ => 1 | _, S444 => 1 | _, S420 => 2 end.
Definition ncomps (o : jopts) : Z := match jo_ct o with Gray => 1 | _ => 3 end.
(** sample (x, y) of the plane of component [c], shifted by 128, in quarters:
    a subsampled sample is the average of four *)
Definition plane_sample (data : list Z) (o : jopts) (c x y : Z) : Z :=
  let at_ := edge_at data (jo_w o) (jo_h o) (jo_ct o) c in
  if (c =? 0) || (factor o =? 1) then 4 * at_ x y
  else at_ (2 * x) (2 * y) + at_ (2 * x + 1) (2 * y) + at_ (2 * x) (2 * y + 1) + at_ (2 * x + 1) (2 * y + 1).
Definition block_samples (data : list Z) (o : jopts) (c bx by_ : Z) : list Z :=
  map (fun i => plane_sample data o c (8 * bx + i mod 8) (8 * by_ + i / 8)) (idxs 64).
(** quantisation table of a component, and the coefficients of a block *)
Definition comp_table (o : jopts) (c : Z) : list Z :=
  table_natural (if c =? 0 then STD_LUMINANCE_TABLE else STD_CHROMINANCE_TABLE) (jo_quality o).
Definition block_coefs (q : list Z -> list Z -> list Z) (data : list Z) (o : jopts) (c bx by_ : Z) : list Z :=
  q (comp_table o c) (block_samples data o c bx by_).
(** A.2.3: the blocks of the k-th MCU *)
Definition mcus_across (o : jopts) : Z := (jo_w o + 8 * factor o - 1) / (8 * factor o).
Definition mcus_down (o : jopts) : Z := (jo_h o + 8 * factor o - 1) / (8 * factor o).
Definition mcu_places (o : jopts) (k : Z) : list (Z * Z * Z) :=
  let mx := k mod mcus_across o in
  let my := k / mcus_across o in
  match jo_ct o, jo_sub o with
  | Gray, _ => [(0, mx, my)]
  | _, S444 => [(0, mx, my); (1, mx, my); (2, mx, my)]
  | _, S420 => [(0, 2 * mx, 2 * my); (0, 2 * mx + 1, 2 * my); (0, 2 * mx, 2 * my + 1); (0, 2 * mx + 1, 2 * my + 1);
                (1, mx, my); (2, mx, my)]
  end.
Definition image_mcus (q : list Z -> list Z -> list Z) (data : list Z) (o : jopts) : list (list (Z * list Z)) :=
  map (fun k => map (fun '(c, bx, by_) => (c, block_coefs q data o c bx by_)) (mcu_places o k))
      (idxs (Z.to_nat (mcus_across o * mcus_down o))).

(** arguments the encoder accepts *)
Definition valid_args (data : list Z) (o : jopts) : Prop :=
  1 <= jo_w o <= 65535 /\ 1 <= jo_h o <= 65535 /\ 1 <= jo_quality o <= 100 /\ bytes data /\
  zlen data = jo_w o * jo_h o * ncomps o /\ (jo_ct o = Gray \/ jo_ct o = Rgb) /\
  match jo_restart o with Some i => 1 <= i <= 65535 | None => True end.
(** what is assumed of the forward DCT and quantisation (an f32 computation):
    on samples of 8 bits the 64 results are in the range of a baseline file
    and undo to values near those of an 8-bit DCT (at most 1024 in magnitude) *)
Definition dctq_ok (q : list Z -> list Z -> list Z) : Prop := forall table samples,
  length table = 64%nat -> Forall (fun v => 1 <= v <= 255) table ->
  length samples = 64%nat -> Forall (fun s => -512 <= s <= 508) samples ->
  length (q table samples) = 64%nat /\ -1024 <= znth (q table samples) 0 <= 1023 /\
  Forall (fun a => Z.abs a <= 1023) (skipn 1 (q table samples)) /\
  forall n, 0 <= n < 64 -> Z.abs (znth (q table samples) n * znth table n) <= 2047.

(** What decoding the file has to give: every block dequantised and inverse
    transformed, every pixel taken from the blocks that cover it. *)
Definition dec_pixels (q : list Z -> list Z -> list Z) (data : list Z) (o : jopts) (c bx by_ : Z) : list Z :=
  match idct_2d (map (fun n => znth (block_coefs q data o c bx by_) n * znth (comp_table o c) n) (idxs 64)) with
  | Ok px => px | _ => []
  end.
Definition dec_plane (q : list Z -> list Z -> list Z) (data : list Z) (o : jopts) (c x y : Z) : Z :=
  znth (dec_pixels q data o c (x / 8) (y / 8)) (8 * (y mod 8) + x mod 8).
Definition dec_pixel (q : list Z -> list Z -> list Z) (data : list Z) (o : jopts) (x y : Z) : list Z :=
  match jo_ct o with
  | Gray => [dec_plane q data o 0 x y]
  | _ => ycbcr_pixel (dec_plane q data o 0 x y) (dec_plane q data o 1 (x / factor o) (y / factor o)) (dec_plane q data o 2 (x / factor o) (y / factor o))
  end.
Definition dec_image (q : list Z -> list Z -> list Z) (data : list Z) (o : jopts) : jimage :=
  mkjimg (jo_w o) (jo_h o)
    (flat_map (fun y => flat_map (fun x => dec_pixel q data o x y) (idxs (Z.to_nat (jo_w o)))) (idxs (Z.to_nat (jo_h o)))) (jo_ct o).
