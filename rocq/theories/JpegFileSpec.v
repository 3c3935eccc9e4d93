(** The layout of a baseline JPEG file, written down from ITU-T T.81 annex B
    and the JFIF header, independently of the encoder. *)
From Verif Require Import Base PngFilterModel PngPaletteModel JpegBaseModel JpegHuffModel JpegEncModel JpegSpec.

(** a marker segment: the length counts itself and the payload (B.1.1.4) *)
Definition hi_lo (x : Z) : list Z := [x / 256; x mod 256].
Definition marker_segment (m : Z) (payload : list Z) : list Z := [255; m] ++ hi_lo (zlen payload + 2) ++ payload.
(** quantisation table (B.2.4.1), 8-bit entries, slot [id] *)
Definition dqt_segment (id : Z) (table : list Z) : list Z := marker_segment 219 (id :: table).
(** Huffman table (B.2.4.2); class 0 is DC, class 1 is AC *)
Definition dht_segment (cls id : Z) (bits vals : list Z) : list Z := marker_segment 196 ((16 * cls + id) :: bits ++ vals).
(** restart interval (B.2.4.4) *)
Definition dri_segment (i : Z) : list Z := marker_segment 221 (hi_lo i).
(** frame header (B.2.2): for every component its identifier, its sampling
    factors and its quantisation table *)
Definition sof_segment (m w h : Z) (comps : list (Z * Z * Z * Z)) : list Z :=
  marker_segment m ([8] ++ hi_lo h ++ hi_lo w ++ [zlen comps] ++ flat_map (fun '(id, hs, vs, tq) => [id; 16 * hs + vs; tq]) comps).
(** scan header (B.2.3) of a sequential scan: identifier and tables of the components *)
Definition sos_segment (comps : list (Z * Z * Z)) : list Z :=
  marker_segment 218 ([zlen comps] ++ flat_map (fun '(id, td, ta) => [id; 16 * td + ta]) comps ++ [0; 63; 0]).
Definition jfif_segment : list Z := marker_segment 224 ([74; 70; 73; 70; 0] ++ [1; 1] ++ [0] ++ hi_lo 1 ++ hi_lo 1 ++ [0; 0]).

(** the components of a frame *)
Definition frame_comps (ct : color_type) (s : subsampling) : list (Z * Z * Z * Z) :=
  match ct, s with
  | Gray, _ => [(1, 1, 1, 0)]
  | _, S444 => [(1, 1, 1, 0); (2, 1, 1, 1); (3, 1, 1, 1)]
  | _, S420 => [(1, 2, 2, 0); (2, 1, 1, 1); (3, 1, 1, 1)]
  end.
Definition scan_comps (ct : color_type) : list (Z * Z * Z) :=
  match ct with Gray => [(1, 0, 0)] | _ => [(1, 0, 0); (2, 1, 1); (3, 1, 1)] end.

(** everything up to the first scan *)
Definition jpeg_header (m : Z) (o : jopts) (lum chrom : ctabs) : list Z :=
  [255; 216] ++ jfif_segment ++
  dqt_segment 0 (table_zigzag STD_LUMINANCE_TABLE (jo_quality o)) ++ dqt_segment 1 (table_zigzag STD_CHROMINANCE_TABLE (jo_quality o)) ++
  sof_segment m (jo_w o) (jo_h o) (frame_comps (jo_ct o) (jo_sub o)) ++
  dht_segment 0 0 (ct_dcb lum) (ct_dcv lum) ++ dht_segment 0 1 (ct_dcb chrom) (ct_dcv chrom) ++
  dht_segment 1 0 (ct_acb lum) (ct_acv lum) ++ dht_segment 1 1 (ct_acb chrom) (ct_acv chrom) ++
  match jo_restart o with Some i => dri_segment i | None => [] end.
Definition baseline_file (o : jopts) (lum chrom : ctabs) (scan : list Z) : list Z :=
  jpeg_header 192 o lum chrom ++ sos_segment (scan_comps (jo_ct o)) ++ scan ++ [255; 217].
