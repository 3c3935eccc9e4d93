(** What the options of the JPEG encoder change and what they leave alone (C101, C102). *)
From Verif Require Import Base PngPaletteModel JpegBaseModel JpegHuffModel JpegDecModel JpegEncModel JpegImgSpec JpegDctModel JpegTrellisTop JpegOptions.
Open Scope Z_scope.

(** C101: the sampling option does not change a gray file, in any mode. *)
Theorem gray_files_unsampled : forall data o s, jo_ct o = Gray -> jencode pixo_env data (with_sub o s) = jencode pixo_env data o.
Proof. exact (gray_sampling pixo_env). Qed.
Print Assumptions gray_files_unsampled.
Example gray_files_case : let o := mkjo 9 9 Gray 75 S444 None true false false in jo_ct o = Gray /\ with_sub o S420 <> o /\ valid_args (repeat 7 81) (with_sub o S420).
Proof.
  cbv zeta. split; [reflexivity|]. split; [discriminate|]. unfold valid_args. cbn [with_sub jo_w jo_h jo_quality jo_ct jo_restart]. split; [lia|]. split; [lia|]. split; [lia|].
  split; [apply Forall_forall; intros x Hx; apply repeat_spec in Hx; subst x; unfold is_byte; lia|]. split; [reflexivity|]. split; [left; reflexivity|exact I].
Qed.
(** C101: files with standard and with optimised tables decode to the same picture. *)
Theorem tables_keep_picture : forall data o, valid_args data o -> jo_prog o = false ->
  match jo_restart o with Some i => mcus_across o * mcus_down o <= i | None => True end ->
  exists out out', jencode pixo_env data (with_opt o false) = Ok out /\ jencode pixo_env data (with_opt o true) = Ok out' /\ decode_jpeg out = decode_jpeg out' /\ exists im, decode_jpeg out = Ok im.
Proof. exact (fun data o V => tables_same_picture pixo_env data o V (proj1 pixo_env_ok)). Qed.
Print Assumptions tables_keep_picture.

(** C102 fails for baseline files: asking for trellis quantisation changes nothing. *)
Theorem trellis_option_refuted : forall data o, jo_prog o = false -> jencode pixo_env data (with_trellis o true) = jencode pixo_env data (with_trellis o false).
Proof. exact (fun data o P => eq_trans (trellis_baseline pixo_env data o true P) (eq_sym (trellis_baseline pixo_env data o false P))). Qed.
Print Assumptions trellis_option_refuted.
(** the two quantisers differ, for example on this block at quality 90 *)
Definition wavy : list Z := map (fun i => 4 * (((i + 1) * (i + 3) * 37) mod 25 - 128)) (map Z.of_nat (seq 0 64)).
Example trellis_differs : let t := table_natural STD_LUMINANCE_TABLE 90 in
  trellisq t wavy <> dctq t wavy /\ length wavy = 64%nat /\ forallb (fun s => (-512 <=? s) && (s <=? 508)) wavy = true.
Proof. cbv zeta. split; [|split; reflexivity]. intros H. apply (f_equal (fun l => fold_left Z.add l 0)) in H. vm_compute in H. discriminate H. Qed.
