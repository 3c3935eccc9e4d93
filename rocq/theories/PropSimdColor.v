(** C106: colour conversion of rows with AVX2. *)
From Verif Require Import Base JpegBaseModel F32Model SimdColorModel SimdColorSpec SimdColorProofs.
Local Open Scope Z_scope.

(** C106.  Every row of bytes is converted without overflow, pixel by pixel, ... *)
Theorem avx_row_converts : forall rgb, bytes rgb -> exists l, rgb_to_ycbcr_row_avx2 rgb = Ok l.
Proof. exact row_total. Qed.
Print Assumptions avx_row_converts.
(** ... to integers within one of what the scalar routine gives, ... *)
Theorem avx_row_near_scalar : forall rgb l, bytes rgb -> rgb_to_ycbcr_row_avx2 rgb = Ok l -> Forall2 near_scalar (pixels rgb) l.
Proof. exact row_near. Qed.
Print Assumptions avx_row_near_scalar.
Example near_case : rgb_to_ycbcr 0 0 255 = Ok (29, 255, 107) /\ rgb_to_ycbcr_row_avx2 [0; 0; 255] = Ok [(f_of_Z (-99), f_of_Z 128, f_of_Z (-21))].
Proof. split; vm_compute; reflexivity. Qed.
(** ... and within 0.51 of the exact weights. *)
Theorem avx_row_bt601 : forall rgb l, bytes rgb -> rgb_to_ycbcr_row_avx2 rgb = Ok l -> Forall2 bt601_within (pixels rgb) l.
Proof. exact row_bt601. Qed.
Print Assumptions avx_row_bt601.
Example nine_pixels : bytes (repeat 200 27) /\ zlen (pixels (repeat 200 27)) = 9.
Proof. split; [apply Forall_forall; intros x H; apply repeat_spec in H; subst x; unfold is_byte; lia|reflexivity]. Qed.
