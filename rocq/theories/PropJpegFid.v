(** What the baseline files of the encoder stand for (C75). *)
From Coq Require Import Reals Lra.
From Verif Require Import Base PngPaletteModel JpegEncModel JpegImgSpec JpegRefute JpegDctModel JpegTrellisModel JpegTrellisTop JpegDctSpec JpegParseval JpegSpec JpegAnySpec JpegFidSpec JpegFidelity.
Open Scope Z_scope.

(** C75: the baseline file of any accepted image conforms to T.81 (JpegAnySpec, written
    without the encoder), declares its size, components and restart interval, and the
    picture T.81 assigns to it differs from the image, block by block, by no more than
    rounding every coefficient to its step explains: the sum of the squared errors of the
    64 samples is at most that of half a step per coefficient. *)
Theorem jpeg_fidelity : forall data o, valid_args data o -> jo_prog o = false ->
  exists f B T Q, jencode pixo_env data o = Ok (file_bytes f) /\ conforming_jpeg 2047 f B T Q /\ usual_sampling f /\
    f_w f = jo_w o /\ f_h f = jo_h o /\ zlen (f_comps f) = ncomps o /\ restart_interval (f_before f ++ f_after f) = jo_restart o /\
    forall c bx by_ coefs, In (c, bx, by_) (all_blocks f) -> is_dequantised (B c bx by_) (Q c) coefs -> (square_error data o c bx by_ coefs <= allowed_error (Q c))%R.
Proof. exact pixo_fidelity. Qed.
Print Assumptions jpeg_fidelity.
(** at quality 100 no sample is off by more than 4.1 levels, and the root of the mean
    squared error of a block is at most 0.511 *)
Theorem jpeg_fidelity_100 : forall data o, valid_args data o -> jo_prog o = false -> jo_quality o = 100 ->
  exists f B T Q, jencode pixo_env data o = Ok (file_bytes f) /\ conforming_jpeg 2047 f B T Q /\
    forall c bx by_ coefs, In (c, bx, by_) (all_blocks f) -> is_dequantised (B c bx by_) (Q c) coefs ->
      (square_error data o c bx by_ coefs / 64 <= 0.511 * 0.511)%R /\
      forall m, (m < 64)%nat -> (Rabs (block_sample coefs m - source_sample data o c (8 * bx + Z.of_nat (m mod 8)) (8 * by_ + Z.of_nat (m / 8))) <= 4.1)%R.
Proof. exact pixo_fidelity_100. Qed.
Print Assumptions jpeg_fidelity_100.
(** accepted images exist, with restart markers too *)
Example jpeg_fidelity_case : valid_args three_blocks (three_opts (Some 2)) /\ jo_prog (three_opts (Some 2)) = false /\
  source_sample three_blocks (three_opts (Some 2)) 0 9 3 = IZR (znth three_blocks (3 * 24 + 9)).
Proof. split; [apply three_valid; lia|]. split; [reflexivity|]. unfold source_sample.
  replace (plane_sample three_blocks (three_opts (Some 2)) 0 9 3) with (4 * (znth three_blocks (3 * 24 + 9) - 128)) by reflexivity. rewrite mult_IZR, minus_IZR. lra.
Qed.

(** the transform of T.81 keeps sums of squares, which is why *)
Theorem dct_orthonormal : forall coefs s,
  rsum (fun m => (JpegIdctReal.real_idct coefs (m mod 8) (m / 8) - s m) * (JpegIdctReal.real_idct coefs (m mod 8) (m / 8) - s m))%R 64 =
  rsum (fun n => (IZR (znth coefs (Z.of_nat n)) - real_fdct s n) * (IZR (znth coefs (Z.of_nat n)) - real_fdct s n))%R 64.
Proof. exact parseval_error. Qed.
Print Assumptions dct_orthonormal.
