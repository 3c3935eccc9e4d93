(** src/resize.rs.  [sin] is a parameter (the platform's f32 sine); the other f32
    operations are IEEE binary32. *)
From Verif Require Import Base Lz77Model PngFilterModel PngPaletteModel F32Model.

(** ** f32 functions of the standard library *)
(** the integers next to a finite number: below it, above it, and the nearest with
    halves away from zero *)
Definition floor_Z (x : f32) : Z :=
  match x with
  | S754_finite s m e => if 0 <=? e then cond_Zopp s (Zpos m) * 2 ^ e else cond_Zopp s (Zpos m) / 2 ^ (- e)
  | _ => 0
  end.
Definition ceil_Z (x : f32) : Z :=
  match x with
  | S754_finite s m e => if 0 <=? e then cond_Zopp s (Zpos m) * 2 ^ e else - (- cond_Zopp s (Zpos m) / 2 ^ (- e))
  | _ => 0
  end.
Definition round_Z (x : f32) : Z :=
  match x with
  | S754_finite s m e => cond_Zopp s (if 0 <=? e then Zpos m * 2 ^ e else (2 * Zpos m + 2 ^ (- e)) / (2 * 2 ^ (- e)))
  | _ => 0
  end.
(** [f32::floor], [ceil], [round]: infinities and NaN stay; a zero result is +0 here
    whatever its sign in Rust, which no later operation can tell apart *)
Definition f_integral (g : f32 -> Z) (x : f32) : f32 :=
  match x with S754_finite _ _ e => if 0 <=? e then x else f_of_Z (g x) | _ => x end.
Definition f_floor := f_integral floor_Z.
Definition f_ceil := f_integral ceil_Z.
Definition f_round := f_integral round_Z.
Definition is_nan (x : f32) : bool := match x with S754_nan => true | _ => false end.
(** [f32::max], [f32::min]: a NaN operand is ignored *)
Definition f_maximum (x y : f32) : f32 := if is_nan x then y else if is_nan y then x else if f_lt x y then y else x.
Definition f_minimum (x y : f32) : f32 := if is_nan x then y else if is_nan y then x else if f_lt y x then y else x.
(** [f32::clamp]: a NaN stays *)
Definition f_clamp (x lo hi : f32) : f32 :=
  let x := if f_lt x lo then lo else x in if f_lt hi x then hi else x.
Definition f_abs (x : f32) : f32 := SFabs x.
Definition f_half : f32 := f_const 1 (-1).
Definition f_one : f32 := f_const 1 0.
Definition F255 : f32 := f_of_Z 255.
(** [x as usize], [x as isize], [x as u8] *)
Definition to_usize (x : f32) : Z := f_to_Z 0 (2 ^ 64 - 1) x.
Definition to_isize (x : f32) : Z := f_to_Z (- 2 ^ 63) (2 ^ 63 - 1) x.
Definition to_u8 (x : f32) : Z := f_to_Z 0 255 x.

(** ** Options *)
Inductive ralgo := Nearest | Bilinear | Lanczos3.
(** resize.rs 65-78 *)
Record ropts := mkR { r_sw : Z; r_sh : Z; r_dw : Z; r_dh : Z; r_ct : color_type; r_algo : ralgo }.

(** The loops below fill [output] row by row, pixel by pixel: the model lists what
    each iteration writes, in order. *)
Definition rows {A} (n : Z) (f : Z -> res (list A)) : res (list A) :=
  let* l := map_res f (idxs (Z.to_nat n)) in Ok (concat l).

(** ** Nearest neighbour *)
(** resize.rs 311-314 and 317-320 *)
Definition nearest_at (src : Z) (ratio : f32) (d : Z) : Z :=
  to_usize (f_minimum (f_maximum (f_round (f_sub (f_mul (f_add (f_of_Z d) f_half) ratio) f_half)) f_zero) (f_of_Z (src - 1))).
(** resize.rs 299-330 *)
Definition resize_nearest (data : list Z) (sw sh dw dh bpp : Z) : res (list Z) :=
  let xr := f_div (f_of_Z sw) (f_of_Z dw) in
  let yr := f_div (f_of_Z sh) (f_of_Z dh) in
  rows dh (fun dy =>
    let sy := nearest_at sh yr dy in
    rows dw (fun dx =>
      let i := (sy * sw + nearest_at sw xr dx) * bpp in slice_r data i (i + bpp))).

(** ** Bilinear *)
(** resize.rs 342-351 *)
Definition linear_ratio (src dst : Z) : f32 := if 1 <? dst then f_div (f_of_Z (src - 1)) (f_of_Z (dst - 1)) else f_zero.
(** resize.rs 354-357 and 360-363: the two source positions and the fraction *)
Definition linear_at (src : Z) (ratio : f32) (d : Z) : Z * Z * f32 :=
  let s := f_mul (f_of_Z d) ratio in
  let s0 := to_usize (f_floor s) in
  (s0, Z.min (s0 + 1) (src - 1), f_sub s (f_of_Z s0)).
(** resize.rs 381-385 *)
Definition linear_mix (p00 p01 p10 p11 : Z) (xf yf : f32) : Z :=
  let top := f_add (f_mul (f_of_Z p00) (f_sub f_one xf)) (f_mul (f_of_Z p01) xf) in
  let bottom := f_add (f_mul (f_of_Z p10) (f_sub f_one xf)) (f_mul (f_of_Z p11) xf) in
  let value := f_add (f_mul top (f_sub f_one yf)) (f_mul bottom yf) in
  to_u8 (f_clamp (f_round value) f_zero F255).
(** resize.rs 333-389 *)
Definition resize_bilinear (data : list Z) (sw sh dw dh bpp : Z) : res (list Z) :=
  let xr := linear_ratio sw dw in
  let yr := linear_ratio sh dh in
  rows dh (fun dy =>
    let '(y0, y1, yf) := linear_at sh yr dy in
    rows dw (fun dx =>
      let '(x0, x1, xf) := linear_at sw xr dx in
      map_res (fun c =>
        let* p00 := get data ((y0 * sw + x0) * bpp + c) in
        let* p01 := get data ((y0 * sw + x1) * bpp + c) in
        let* p10 := get data ((y1 * sw + x0) * bpp + c) in
        let* p11 := get data ((y1 * sw + x1) * bpp + c) in
        Ok (linear_mix p00 p01 p10 p11 xf yf)) (idxs (Z.to_nat bpp)))).

(** ** Lanczos *)
Section Lanczos.
  Variable sin : f32 -> f32.
  (** [std::f32::consts::PI], [f32::EPSILON] *)
  Definition F_PI : f32 := f_const 13176795 (-22).
  Definition F_EPSILON : f32 := f_const 1 (-23).
  Definition F3 : f32 := f_of_Z 3.
  (** resize.rs 393-403 *)
  Definition lanczos_kernel (x : f32) : f32 :=
    if f_lt (f_abs x) F_EPSILON then f_one
    else if f_ge (f_abs x) F3 then f_zero
    else
      let pi_x := f_mul F_PI x in
      let pi_x_a := f_div (f_mul F_PI x) F3 in
      f_div (f_mul (f_mul F3 (sin pi_x)) (sin pi_x_a)) (f_mul pi_x pi_x_a).
  (** resize.rs 416-456, one iteration: the first source index and the weights *)
  Definition contribution (src : Z) (scale fscale : f32) (d : Z) : res (Z * list f32) :=
    let support := f_mul F3 fscale in
    let center := f_sub (f_mul (f_add (f_of_Z d) f_half) scale) f_half in
    let start := Z.max (to_isize (f_floor (f_sub center support))) 0 in
    let* e1 := if to_usize (f_ceil (f_add center support)) + 1 <? 2 ^ 64 then Ok (to_usize (f_ceil (f_add center support)) + 1) else Panic in
    let fin_ := Z.min e1 src in
    let* n := usub fin_ start in
    let ws := map (fun i => lanczos_kernel (f_div (f_sub (f_of_Z (start + i)) center) fscale)) (idxs (Z.to_nat n)) in
    let total := fold_left f_add ws f_zero in
    Ok (start, if f_lt F_EPSILON (f_abs total) then map (fun w => f_div w total) ws else ws).
  Definition precompute_contributions (src dst : Z) : res (list (Z * list f32)) :=
    let scale := f_div (f_of_Z src) (f_of_Z dst) in
    let fscale := f_maximum scale f_one in
    map_res (contribution src scale fscale) (idxs (Z.to_nat dst)).
  (** resize.rs 459-483 and 485-513: one channel of one destination pixel; [at_ k] is
      the sample at source position [k] *)
  Fixpoint weigh (at_ : Z -> res Z) (k : Z) (ws : list f32) (acc : f32) : res f32 :=
    match ws with
    | [] => Ok acc
    | w :: ws => let* p := at_ k in weigh at_ (k + 1) ws (f_add acc (f_mul (f_of_Z p) w))
    end.
  Definition resample (at_ : Z -> Z -> res Z) (bpp : Z) (con : Z * list f32) : res (list Z) :=
    map_res (fun c => let* s := weigh (at_ c) (fst con) (snd con) f_zero in Ok (to_u8 (f_clamp (f_round s) f_zero F255)))
      (idxs (Z.to_nat bpp)).
  (** resize.rs 517-602: horizontally into [temp], then vertically *)
  Definition resize_lanczos3 (data : list Z) (sw sh dw dh bpp : Z) : res (list Z) :=
    let* hc := precompute_contributions sw dw in
    let* vc := precompute_contributions sh dh in
    let* temp := rows sh (fun y =>
      let* row := slice_r data (y * (sw * bpp)) (y * (sw * bpp) + sw * bpp) in
      let* l := map_res (resample (fun c x => get row (x * bpp + c)) bpp) hc in Ok (concat l)) in
    rows dh (fun dy =>
      let* con := get vc dy in
      rows dw (fun dx => resample (fun c y => get temp (y * (dw * bpp) + dx * bpp + c)) bpp con)).
End Lanczos.

(** ** The entry points *)
Definition R_MAX : Z := 2 ^ 24.
(** [usize::checked_mul] *)
Definition mul_fits (a b : Z) : option Z := if a * b <? 2 ^ 64 then Some (a * b) else None.
Definition image_len (w h bpp : Z) : option Z := match mul_fits w h with Some v => mul_fits v bpp | None => None end.
(** resize.rs 195-296: the new contents of the buffer *)
Definition resize_into (sin : f32 -> f32) (buf data : list Z) (o : ropts) : res unit * list Z :=
  let '(mkR sw sh dw dh ct algo) := o in
  if (sw =? 0) || (sh =? 0) then (Err (EInvalidDimensions sw sh), buf)
  else if (dw =? 0) || (dh =? 0) then (Err (EInvalidDimensions dw dh), buf)
  else if (R_MAX <? sw) || (R_MAX <? sh) || (R_MAX <? dw) || (R_MAX <? dh)
  then (Err (EImageTooLarge (Z.max sw dw) (Z.max sh dh) R_MAX), buf)
  else
    let bpp := bytes_per_pixel ct in
    match image_len sw sh bpp with
    | None => (Err (EInvalidDataLength (2 ^ 64 - 1) (zlen data)), buf)
    | Some want =>
        if negb (zlen data =? want) then (Err (EInvalidDataLength want (zlen data)), buf)
        else match image_len dw dh bpp with
        | None => (Err (EInvalidDataLength (2 ^ 64 - 1) 0), buf)
        | Some _ =>
            let r := match algo with
              | Nearest => resize_nearest data sw sh dw dh bpp
              | Bilinear => resize_bilinear data sw sh dw dh bpp
              | Lanczos3 => resize_lanczos3 sin data sw sh dw dh bpp
              end in
            match r with Ok out => (Ok tt, out) | Err e => (Err e, []) | Panic => (Panic, []) | NoFuel => (NoFuel, []) end
        end
    end.
(** resize.rs 161-165 *)
Definition resize (sin : f32 -> f32) (data : list Z) (o : ropts) : res (list Z) :=
  match resize_into sin [] data o with (Ok _, out) => Ok out | (Err e, _) => Err e | (Panic, _) => Panic | (NoFuel, _) => NoFuel end.
