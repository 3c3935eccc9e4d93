(** How large a JPEG file may get (C99). *)
From Verif Require Import Base PngPaletteModel JpegBaseModel JpegEncModel JpegImgSpec JpegTrellisTop JpegSizeSpec JpegSize.
Open Scope Z_scope.

(** C99: whatever the pixels, the quality, the tables, the restart interval and the mode, a file
    takes at most 1500 bytes and 432 for every block of its picture. *)
Theorem jpeg_file_bounded : forall data o, valid_args data o ->
  exists out, jencode pixo_env data o = Ok out /\ zlen out <= 1500 + 432 * coded_blocks o.
Proof. exact (fun data o V => jpeg_size pixo_env data o V pixo_env_ok). Qed.
Print Assumptions jpeg_file_bounded.
(** a picture of 17 by 9 pixels: two by one areas of 16 by 16 pixels, three by two blocks *)
Example jpeg_file_bounded_case : let o s := mkjo 17 9 Rgb 75 s (Some 1) true true true in
  valid_args (repeat 200 459) (o S420) /\ coded_blocks (o S420) = 12 /\ coded_blocks (o S444) = 18 /\ coded_blocks (mkjo 17 9 Gray 75 S420 None false false false) = 6.
Proof.
  cbv zeta. split; [|repeat split]. unfold valid_args. cbn [jo_w jo_h jo_quality jo_ct jo_restart]. split; [lia|]. split; [lia|]. split; [lia|].
  split; [apply Forall_forall; intros x Hx; apply repeat_spec in Hx; subst x; unfold is_byte; lia|]. split; [reflexivity|]. split; [right; reflexivity|]. lia.
Qed.
