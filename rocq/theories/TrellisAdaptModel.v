(** src/jpeg/trellis.rs 304-321: trellis quantisation with a quality argument. *)
From Verif Require Import Base JpegBaseModel F32Model ResizeModel JpegDctModel JpegTrellisModel.

(** the binary32 numbers nearest to 0.025, 0.033 and 0.04 *)
Definition F0_025 : f32 := f_const 13421773 (-29).
Definition F0_033 : f32 := f_const 8858370 (-28).
Definition F0_04 : f32 := f_const 10737418 (-28).
(** trellis.rs 312-318; the u8 subtraction underflows (panic) above 100 *)
Definition adaptive_lambda (quality : Z) : res f32 :=
  if quality >=? 80 then
    if quality >? 100 then Panic else Ok (f_add f_half (f_mul (f_of_Z (100 - quality)) F0_025))
  else if quality >=? 50 then Ok (f_add f_one (f_mul (f_of_Z (80 - quality)) F0_033))
  else Ok (f_add (f_of_Z 2) (f_mul (f_of_Z (50 - quality)) F0_04)).
(** trellis.rs 304-321; as in [trellis_quantize], [table] holds the integers of the table *)
Definition trellis_quantize_adaptive (dct : list f32) (table : list Z) (quality : Z) : res (list Z) :=
  let* lambda := adaptive_lambda quality in
  trellis_quantize lambda dct table.
