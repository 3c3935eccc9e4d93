(** How large a JPEG file may get, from the picture alone. *)
From Verif Require Import Base PngPaletteModel JpegBaseModel JpegEncModel.

(** how many pieces of [k] cover [n] *)
Definition pieces (n k : Z) : Z := (n + k - 1) / k.
(** the 8x8 blocks a file holds: one plane of them for gray, three for colour,
    and for subsampled colour six for every 16x16 pixels *)
Definition coded_blocks (o : jopts) : Z :=
  match jo_ct o, jo_sub o with
  | Gray, _ => pieces (jo_w o) 8 * pieces (jo_h o) 8
  | _, S444 => 3 * (pieces (jo_w o) 8 * pieces (jo_h o) 8)
  | _, S420 => 6 * (pieces (jo_w o) 16 * pieces (jo_h o) 16)
  end.
(** room for the headers, and for every block its coefficients with codes of
    the greatest length and a stuffed byte after every byte *)
Definition size_bound (o : jopts) : Z := 1500 + 432 * coded_blocks o.
