(** C116: gray pictures stored as RGB. *)
From Verif Require Import Base PngPaletteModel JpegBaseModel JpegDecModel JpegEncModel JpegImgSpec JpegTrellisTop GrayRgbSpec GrayRgbProofs.
Open Scope Z_scope.

(** C116: a gray picture handed over as RGB (every sample three times) comes back gray, and
    with exactly the levels it has when it is handed over as gray, with both samplings and
    standard or optimised tables (baseline; at most one restart interval, see C36). *)
Theorem gray_picture_as_rgb : forall g o, jo_ct o = Rgb -> valid_args (as_rgb g) o -> jo_prog o = false -> one_interval o -> one_interval (with_ct o Gray) ->
  exists out outg img, jencode pixo_env (as_rgb g) o = Ok out /\ jencode pixo_env g (with_ct o Gray) = Ok outg /\
    (forall tail, decode_jpeg (outg ++ tail) = Ok (mkjimg (jo_w o) (jo_h o) img Gray)) /\
    (forall tail, decode_jpeg (out ++ tail) = Ok (mkjimg (jo_w o) (jo_h o) (as_rgb img) Rgb)) /\ zlen img = jo_w o * jo_h o.
Proof. exact gray_as_rgb. Qed.
Print Assumptions gray_picture_as_rgb.

(** the hypotheses are met by a gray ramp of 3 by 2 pixels with 4:2:0 sampling *)
Example gray_picture_case : let o := mkjo 3 2 Rgb 75 S420 (Some 9) true false false in
  jo_ct o = Rgb /\ valid_args (as_rgb [0; 50; 100; 150; 200; 250]) o /\ jo_prog o = false /\ one_interval o /\ one_interval (with_ct o Gray) /\
  as_rgb [0; 50] = [0; 0; 0; 50; 50; 50].
Proof.
  cbv zeta. split; [reflexivity|]. split; [|split; [reflexivity|split; [vm_compute; discriminate|split; [vm_compute; discriminate|reflexivity]]]].
  unfold valid_args. cbn [jo_w jo_h jo_quality jo_ct jo_restart]. repeat (split; try lia; auto). cbn [as_rgb flat_map app].
  repeat (apply Forall_cons; [unfold is_byte; lia|]). apply Forall_nil.
Qed.
