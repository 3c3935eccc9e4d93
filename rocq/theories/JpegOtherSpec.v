(** JPEG files outside the baseline process, after ITU-T T.81 (annex B): nothing here depends
    on the decoder. *)
From Verif Require Import Base JpegSpec JpegFileSpec JpegAnySpec.
Open Scope Z_scope.

(** a marker segment after any number of fill bytes (B.1.1.2) *)
Definition any_segment (s : nat * Z * list Z) : list Z := let '(n, m, p) := s in repeat 255 n ++ marker_segment m p.
Definition segment_fits (s : nat * Z * list Z) : Prop := let '(_, m, p) := s in bytes p /\ zlen p + 2 < 65536.
(** tables, conditioning, number of lines, expansion, application data, comments (table B.1),
    with any content *)
Definition side_segment (s : nat * Z * list Z) : Prop :=
  let '(_, m, p) := s in (m = 196 \/ m = 204 \/ 219 <= m <= 239 \/ m = 254) /\ segment_fits s.
(** frame headers (table B.1): SOF1 to SOF15, without DHT, JPG and DAC *)
Definition other_process (m : Z) : Prop := In m [193; 194; 195; 197; 198; 199; 201; 202; 203; 205; 206; 207].
Definition frame_header (prec w h : Z) (comps : list (Z * Z * Z * Z)) : list Z :=
  [prec] ++ hi_lo h ++ hi_lo w ++ [zlen comps] ++ flat_map (fun '(id, hs, vs, tq) => [id; 16 * hs + vs; tq]) comps.
(** frames the decoder does not support: another process, another precision than 8 bits, or
    another number of components than one and three *)
Inductive unsupported : nat * Z * list Z -> Prop :=
| other_sof n m p : other_process m -> segment_fits (n, m, p) -> unsupported (n, m, p)
| other_precision n prec w h comps : prec <> 8 -> comps <> [] -> segment_fits (n, 192, frame_header prec w h comps) -> unsupported (n, 192, frame_header prec w h comps)
| other_number n w h comps : comps <> [] -> zlen comps <> 1 -> zlen comps <> 3 -> segment_fits (n, 192, frame_header 8 w h comps) -> unsupported (n, 192, frame_header 8 w h comps).
(** a file up to its first scan header, which names [c] >= 1 components; then anything *)
Definition other_file (before : list (nat * Z * list Z)) (frame : nat * Z * list Z) (after : list (nat * Z * list Z)) (n : nat) (c : Z) (params rest : list Z) : list Z :=
  [255; 216] ++ flat_map any_segment before ++ any_segment frame ++ flat_map any_segment after ++ any_segment (n, 218, c :: params) ++ rest.

(** the file [f] with its number of lines left open in the frame header and given after the
    scan instead (B.2.5) *)
Definition lines_later (f : jfile) : list Z :=
  [255; 216] ++ flat_map seg_bytes (f_before f) ++
  sof_segment 192 (f_w f) 0 (map (fun c => (a_id c, a_h c, a_v c, a_tq c)) (f_comps f)) ++
  flat_map seg_bytes (f_after f) ++ sos_segment (map (fun c => (a_id c, a_td c, a_ta c)) (f_comps f)) ++ f_scan f ++
  marker_segment 220 (hi_lo (f_h f)) ++ [255; 217].
