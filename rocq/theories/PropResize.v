(** Properties of resizing.  [sin] is the platform's binary32 sine, used only by
    Lanczos; where its quality matters the theorem says so. *)
From Coq Require Import Reals.
From Flocq Require Import Core.
From Verif Require Import Base PngFilterModel PngPaletteModel F32Model F32Proofs ResizeModel ResizeSpec ResizeProofs ResizeTop.
Open Scope Z_scope.

(** C55: exactly the arguments listed in [resize_rejects] are refused, the first
    failing check names the error, and the caller's buffer is then unchanged. *)
Theorem resize_checks : forall sin buf data o, u32o o -> bytes data ->
  (resize_rejects o (zlen data) = None <-> resizable o data) /\
  forall e, resize_rejects o (zlen data) = Some e -> resize_into sin buf data o = (Err e, buf) /\ resize sin data o = Err e.
Proof. exact (fun sin buf data o U B => conj (rejects_iff data o U B) (fun e E => rejects_l sin buf data o U (ex_intro _ e E) e E)). Qed.
Print Assumptions resize_checks.

(** C29: the result does not depend on what the buffer held. *)
Theorem resize_buffer_reuse : forall sin buf data o, u32o o -> resize_rejects o (zlen data) = None ->
  resize_into sin buf data o = resize_into sin [] data o /\
  forall out, resize sin data o = Ok out -> resize_into sin buf data o = (Ok tt, out).
Proof. exact buffer_l. Qed.
Print Assumptions resize_buffer_reuse.

(** C43, C56: nearest neighbour copies, for every column and every row, one source
    column and row; these are in order and nearest to the exact positions up to the
    precision of binary32. *)
Theorem nearest_resize : forall sin data o, resizable o data -> r_algo o = Nearest ->
  let bpp := bytes_per_pixel (r_ct o) in
  exists out fx fy, resize sin data o = Ok out /\ bytes out /\ zlen out = r_dw o * r_dh o * bpp /\
    (forall x y c, 0 <= x < r_dw o -> 0 <= y < r_dh o -> 0 <= c < bpp -> px out (r_dw o) bpp x y c = px data (r_sw o) bpp (fx x) (fy y) c) /\
    (forall x, 0 <= x < r_dw o -> 0 <= fx x < r_sw o /\ (Rabs (IZR (fx x) - centre (r_sw o) (r_dw o) x) <= / 2 + IZR (r_sw o) * bpow radix2 (-21))%R) /\
    (forall y, 0 <= y < r_dh o -> 0 <= fy y < r_sh o /\ (Rabs (IZR (fy y) - centre (r_sh o) (r_dh o) y) <= / 2 + IZR (r_sh o) * bpow radix2 (-21))%R) /\
    (forall x x', 0 <= x <= x' -> x' < r_dw o -> fx x <= fx x') /\ (forall y y', 0 <= y <= y' -> y' < r_dh o -> fy y <= fy y').
Proof. exact nearest_l. Qed.
Print Assumptions nearest_resize.

(** C43: a resize to the same size changes nothing.  The binary32 centres are exact
    only up to 2^23, and Lanczos needs a sine good to six digits. *)
Theorem resize_same_size : forall sin data o, resizable o data -> r_sw o = r_dw o -> r_sh o = r_dh o ->
  (r_algo o <> Bilinear -> r_sw o <= 2 ^ 23 /\ r_sh o <= 2 ^ 23) -> (r_algo o = Lanczos3 -> accurate_sine sin) ->
  resize sin data o = Ok data.
Proof. exact same_l. Qed.
Print Assumptions resize_same_size.

(** C44 (the part that holds), C57: for sources up to 2^23 per side, or unchanged
    sides, bilinear never fails; each channel is within rounding and coordinate error
    of the exact interpolated surface, and never outside the four
    samples around that position. *)
Theorem bilinear_resize_partial : forall sin data o, resizable o data -> r_algo o = Bilinear -> inside (r_sw o) (r_dw o) -> inside (r_sh o) (r_dh o) ->
  let bpp := bytes_per_pixel (r_ct o) in
  exists out, resize sin data o = Ok out /\ bytes out /\ zlen out = r_dw o * r_dh o * bpp /\
    forall x y c, 0 <= x < r_dw o -> 0 <= y < r_dh o -> 0 <= c < bpp ->
      (Rabs (IZR (px out (r_dw o) bpp x y c) - surface data (r_sw o) (r_sh o) bpp c (along (r_sw o) (r_dw o) x) (along (r_sh o) (r_dh o) y))
       <= / 2 + / 2048 + 255 * IZR (r_sw o + r_sh o) * bpow radix2 (-22))%R /\
      exists x0 y0, 0 <= x0 < r_sw o /\ 0 <= y0 < r_sh o /\
        (Rabs (along (r_sw o) (r_dw o) x - (IZR x0 + / 2)) <= / 2 + IZR (r_sw o) * bpow radix2 (-22))%R /\
        (Rabs (along (r_sh o) (r_dh o) y - (IZR y0 + / 2)) <= / 2 + IZR (r_sh o) * bpow radix2 (-22))%R /\
        let p i j := px data (r_sw o) bpp (Z.min (x0 + i) (r_sw o - 1)) (Z.min (y0 + j) (r_sh o - 1)) c in
        min4 (p 0 0) (p 1 0) (p 0 1) (p 1 1) <= px out (r_dw o) bpp x y c <= max4 (p 0 0) (p 1 0) (p 0 1) (p 1 1).
Proof. exact bilinear_l. Qed.
Print Assumptions bilinear_resize_partial.

(** C44 fails of the code: every 12582914 x 1 grey image makes the bilinear resize to
    4 x 1 read past the end and panic, although its arguments are accepted. *)
Theorem bilinear_out_of_bounds_refuted : forall sin data, bytes data -> zlen data = 12582914 ->
  resizable oob data /\ resize sin data oob = Panic.
Proof. exact oob_l. Qed.
Print Assumptions bilinear_out_of_bounds_refuted.

(** C58: a flat image stays flat. *)
Theorem flat_resize : forall sin data o v, resizable o data -> r_algo o <> Lanczos3 ->
  (r_algo o = Bilinear -> inside (r_sw o) (r_dw o) /\ inside (r_sh o) (r_dh o)) ->
  Forall (fun b => b = v) data ->
  exists out, resize sin data o = Ok out /\ zlen out = r_dw o * r_dh o * bytes_per_pixel (r_ct o) /\ Forall (fun b => b = v) out.
Proof. exact flat_l. Qed.
Print Assumptions flat_resize.

(** C59: whatever the sine returns, Lanczos succeeds on all accepted arguments.  It is
    one resampler of lines, applied to the rows and then to the columns of each
    channel by itself; that resampler reads only the line, yields bytes, and with an
    accurate sine changes nothing when the length stays. *)
Theorem lanczos_resize : forall sin, exists line : Z -> Z -> (Z -> Z) -> Z -> Z,
  (forall src dst p d, is_byte (line src dst p d)) /\
  (forall src dst p q d, 1 <= src <= 2 ^ 24 -> 1 <= dst <= 2 ^ 24 -> 0 <= d < dst -> (forall i, 0 <= i < src -> p i = q i) -> line src dst p d = line src dst q d) /\
  (accurate_sine sin -> forall n p d, 1 <= n <= 2 ^ 23 -> 0 <= d < n -> (forall i, is_byte (p i)) -> line n n p d = p d) /\
  forall data o, resizable o data -> r_algo o = Lanczos3 ->
    let bpp := bytes_per_pixel (r_ct o) in
    exists out, resize sin data o = Ok out /\ zlen out = r_dw o * r_dh o * bpp /\
    forall x y c, 0 <= x < r_dw o -> 0 <= y < r_dh o -> 0 <= c < bpp ->
      px out (r_dw o) bpp x y c = line (r_sh o) (r_dh o) (fun j => line (r_sw o) (r_dw o) (fun i => px data (r_sw o) bpp i j c) x) y.
Proof. exact sep_l. Qed.
Print Assumptions lanczos_resize.

(** ** The hypotheses are met *)
Example resize_case : let o := mkR 2 2 3 2 Rgb Nearest in
  resizable o [1; 2; 3; 4; 5; 6; 7; 8; 9; 10; 11; 12] /\
  resize (fun x => x) [1; 2; 3; 4; 5; 6; 7; 8; 9; 10; 11; 12] o = Ok [1; 2; 3; 4; 5; 6; 4; 5; 6; 7; 8; 9; 10; 11; 12; 10; 11; 12].
Proof. split; [unfold resizable, is_byte, bytes, zlen; cbn; repeat (split; [lia|]); split; [repeat (apply Forall_cons; [unfold is_byte; lia|]); apply Forall_nil|lia]|vm_compute; reflexivity]. Qed.
Example bilinear_case : resize (fun x => x) [0; 255] (mkR 2 1 3 1 Gray Bilinear) = Ok [0; 128; 255] /\ inside 2 3 /\ inside 1 1.
Proof. split; [vm_compute; reflexivity|]. unfold inside. lia. Qed.
Example reject_case : resize_rejects (mkR 2 2 3 0 Rgb Nearest) 12 = Some (EInvalidDimensions 3 0) /\ resize_rejects (mkR 2 2 3 1 Rgb Nearest) 11 = Some (EInvalidDataLength 12 11).
Proof. split; reflexivity. Qed.
Example sine_case : accurate_sine some_sine.
Proof. exact sine_exists. Qed.
