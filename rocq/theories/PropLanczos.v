(** Lanczos resizing against the average it is named after. *)
From Coq Require Import Reals Lra.
From Flocq Require Import Core.
From Verif Require Import Base Lz77Model PngFilterModel PngPaletteModel F32Model F32Proofs ResizeModel ResizeSpec LanczosSpec LanczosTop.
Open Scope Z_scope.

(** C108, false: a sample resized with Lanczos is the average of the source samples with
    the weights of the Lanczos kernel.  Reducing one bright sample between two dark ones
    to a single sample gives at most half of the average. *)
Theorem lanczos_mean_refuted : forall sin, good_sine sin ->
  exists v, resize sin dot third = Ok [v] /\ (IZR v + 40 <= lanczos_mean 3 (znth dot) (centre 3 1 0) 3)%R.
Proof. exact third_l. Qed.
Print Assumptions lanczos_mean_refuted.

(** C108, what holds: resizing is one resampler of lines applied to rows and then to
    columns.  Enlarging a line of up to 262144 samples, it gives the Lanczos average around
    a position next to the exact one, within one level.  Missing: longer lines, and
    reductions, where it is false. *)
Theorem lanczos_enlarge_partial : forall sin, good_sine sin -> exists line : Z -> Z -> (Z -> Z) -> Z -> Z,
  (forall data o, resizable o data -> r_algo o = Lanczos3 ->
    let bpp := bytes_per_pixel (r_ct o) in
    exists out, resize sin data o = Ok out /\ zlen out = r_dw o * r_dh o * bpp /\
    forall x y c, 0 <= x < r_dw o -> 0 <= y < r_dh o -> 0 <= c < bpp ->
      px out (r_dw o) bpp x y c = line (r_sh o) (r_dh o) (fun j => line (r_sw o) (r_dw o) (fun i => px data (r_sw o) bpp i j c) x) y) /\
  forall src dst p d, 1 <= src <= 2 ^ 18 -> src <= dst <= 2 ^ 24 -> 0 <= d < dst -> (forall i, is_byte (p i)) ->
    exists c, (Rabs (c - centre src dst d) <= IZR src / 2097152)%R /\
      (Rabs (IZR (line src dst p d) - level (lanczos_mean src p c 1)) <= 0.95)%R.
Proof. exact enlarge_l. Qed.
Print Assumptions lanczos_enlarge_partial.

(** C109: a flat image stays flat when it is enlarged with Lanczos.  Missing: source sides
    above 262144, and reductions. *)
Theorem lanczos_flat_partial : forall sin, good_sine sin -> forall data o v, resizable o data -> r_algo o = Lanczos3 ->
  r_sw o <= 2 ^ 18 -> r_sh o <= 2 ^ 18 -> r_sw o <= r_dw o -> r_sh o <= r_dh o ->
  Forall (fun b => b = v) data ->
  exists out, resize sin data o = Ok out /\ zlen out = r_dw o * r_dh o * bytes_per_pixel (r_ct o) /\ Forall (fun b => b = v) out.
Proof. exact lanczos_flat_l. Qed.
Print Assumptions lanczos_flat_partial.

(** ** The hypotheses are met *)
Example sine_case : good_sine fine_sine.
Proof. exact fine_sine_good. Qed.
Example flat_case : let o := mkR 2 1 5 3 Rgb Lanczos3 in
  resizable o [7; 7; 7; 7; 7; 7] /\ r_sw o <= r_dw o /\ r_sh o <= r_dh o /\ Forall (fun b => b = 7) [7; 7; 7; 7; 7; 7].
Proof.
  cbv zeta. split; [unfold resizable, bytes, zlen; cbn; repeat (split; [lia|]); split; [repeat (apply Forall_cons; [unfold is_byte; lia|]); apply Forall_nil|lia]|].
  cbn. split; [lia|]. split; [lia|]. repeat (apply Forall_cons; [reflexivity|]); apply Forall_nil.
Qed.
