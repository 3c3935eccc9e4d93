(** What is asked of resizing, independently of the model. *)
From Coq Require Import Reals.
From Flocq Require Import Core.
From Verif Require Import Base PngFilterModel PngPaletteModel F32Model F32Proofs ResizeModel.
Open Scope Z_scope.

(** channel [c] of the pixel in column [x] and row [y] of an image [w] pixels wide *)
Definition px (data : list Z) (w bpp x y c : Z) : Z := znth data ((y * w + x) * bpp + c).
(** arguments that must be accepted *)
Definition resizable (o : ropts) (data : list Z) : Prop :=
  1 <= r_sw o <= 2 ^ 24 /\ 1 <= r_sh o <= 2 ^ 24 /\ 1 <= r_dw o <= 2 ^ 24 /\ 1 <= r_dh o <= 2 ^ 24 /\
  bytes data /\ zlen data = r_sw o * r_sh o * bytes_per_pixel (r_ct o).
(** the first check that fails, if any; sizes are u32 *)
Definition resize_rejects (o : ropts) (len : Z) : option error :=
  if (r_sw o =? 0) || (r_sh o =? 0) then Some (EInvalidDimensions (r_sw o) (r_sh o))
  else if (r_dw o =? 0) || (r_dh o =? 0) then Some (EInvalidDimensions (r_dw o) (r_dh o))
  else if (2 ^ 24 <? Z.max (r_sw o) (r_dw o)) || (2 ^ 24 <? Z.max (r_sh o) (r_dh o))
  then Some (EImageTooLarge (Z.max (r_sw o) (r_dw o)) (Z.max (r_sh o) (r_dh o)) (2 ^ 24))
  else let want := r_sw o * r_sh o * bytes_per_pixel (r_ct o) in
       if len =? want then None else Some (EInvalidDataLength want len).
(** smallest and largest of four *)
Definition min4 (a b c d : Z) : Z := Z.min (Z.min a b) (Z.min c d).
Definition max4 (a b c d : Z) : Z := Z.max (Z.max a b) (Z.max c d).

(** The position of destination pixel [d] in the source.  Nearest neighbour matches
    centres of pixels; bilinear matches the first with the first and the last with
    the last (a single destination pixel takes position 0). *)
Definition centre (src dst d : Z) : R := ((IZR d + / 2) * (IZR src / IZR dst) - / 2)%R.
Definition along (src dst d : Z) : R := (IZR d * IZR (src - 1) / IZR (dst - 1))%R.
(** linear interpolation of [v 0 .. v (n - 1)] at a real position *)
Definition interp (n : Z) (v : Z -> R) (t : R) : R :=
  let k := Zfloor t in
  let f := (t - IZR k)%R in
  (v k * (1 - f) + v (Z.min (k + 1) (n - 1)) * f)%R.
(** channel [c] of an image read as a surface *)
Definition surface (data : list Z) (sw sh bpp c : Z) (x y : R) : R :=
  interp sh (fun j => interp sw (fun i => IZR (px data sw bpp i j c)) x) y.
(** sizes for which bilinear positions stay inside the source *)
Definition inside (src dst : Z) : Prop := src <= 2 ^ 23 \/ src = dst.
(** a platform sine good to six digits near the origin *)
Definition accurate_sine (sin : f32 -> f32) : Prop :=
  forall x, F32Proofs.fin x -> (Rabs (F32Proofs.val x) <= 32)%R ->
    F32Proofs.fin (sin x) /\ (Rabs (F32Proofs.val (sin x) - Rtrigo_def.sin (F32Proofs.val x)) <= bpow radix2 (-20))%R.
(** sizes are u32 values *)
Definition u32o (o : ropts) : Prop := 0 <= r_sw o < 2 ^ 32 /\ 0 <= r_sh o < 2 ^ 32 /\ 0 <= r_dw o < 2 ^ 32 /\ 0 <= r_dh o < 2 ^ 32.
(** a resize that runs off the image *)
Definition oob : ropts := mkR 12582914 1 4 1 Gray Bilinear.
