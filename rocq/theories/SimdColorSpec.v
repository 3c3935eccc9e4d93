(** What a colour conversion of a row of RGB pixels has to give. *)
From Coq Require Import Reals.
From Verif Require Import Base JpegBaseModel F32Model F32Proofs.
Local Open Scope Z_scope.

(** the pixels of a row *)
Fixpoint pixels (rgb : list Z) : list (Z * Z * Z) :=
  match rgb with
  | r :: g :: b :: rest => (r, g, b) :: pixels rest
  | _ => []
  end.
(** three binary32 numbers equal to three integers *)
Definition triple_is (p : f32 * f32 * f32) (q : Z * Z * Z) : Prop :=
  let '(y, cb, cr) := p in let '(a, c, d) := q in
  (fin y /\ val y = IZR a) /\ (fin cb /\ val cb = IZR c) /\ (fin cr /\ val cr = IZR d).
(** integers within one of the encoder's scalar conversion, shifted to be centred at 0 *)
Definition near_scalar (rgb : Z * Z * Z) (p : f32 * f32 * f32) : Prop :=
  let '(r, g, b) := rgb in forall y cb cr, rgb_to_ycbcr r g b = Ok (y, cb, cr) ->
  exists a c d, triple_is p (a, c, d) /\ Z.abs (a - (y - 128)) <= 1 /\ Z.abs (c - (cb - 128)) <= 1 /\ Z.abs (d - (cr - 128)) <= 1.
(** within 0.51 of the weights of BT.601 *)
Definition bt601_within (rgb : Z * Z * Z) (p : f32 * f32 * f32) : Prop :=
  let '(r, g, b) := rgb in let '(y, cb, cr) := p in
  (Rabs (val y + 128 - (0.299 * IZR r + 0.587 * IZR g + 0.114 * IZR b)) <= 0.51 /\
   Rabs (val cb - (- 0.168736 * IZR r - 0.331264 * IZR g + 0.5 * IZR b)) <= 0.51 /\
   Rabs (val cr - (0.5 * IZR r - 0.418688 * IZR g - 0.081312 * IZR b)) <= 0.51)%R.
