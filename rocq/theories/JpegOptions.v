(** What the options of the JPEG encoder leave alone. *)
From Verif Require Import Base Lz77Model PngFilterModel PngPaletteModel PngFilterProofs JpegBaseModel JpegHuffModel JpegDecModel JpegEncModel JpegImgSpec JpegApi.

(** [o] with another sampling, other tables, another trellis setting *)
Definition with_sub (o : jopts) (s : subsampling) : jopts := mkjo (jo_w o) (jo_h o) (jo_ct o) (jo_quality o) s (jo_restart o) (jo_opt o) (jo_prog o) (jo_trellis o).
Definition with_opt (o : jopts) (b : bool) : jopts := mkjo (jo_w o) (jo_h o) (jo_ct o) (jo_quality o) (jo_sub o) (jo_restart o) b (jo_prog o) (jo_trellis o).
Definition with_trellis (o : jopts) (b : bool) : jopts := mkjo (jo_w o) (jo_h o) (jo_ct o) (jo_quality o) (jo_sub o) (jo_restart o) (jo_opt o) (jo_prog o) b.

Lemma map_res_eq {A B} (f g : A -> res B) l : (forall x, In x l -> f x = g x) -> map_res f l = map_res g l.
Proof. induction l as [|a r IH]; intros H; [reflexivity|]. cbn [map_res]. rewrite (H a (or_introl eq_refl)), IH; [reflexivity|]. intros x Hx. apply H. right. exact Hx. Qed.
Lemma gray_mcus q data o s : jo_ct o = Gray -> all_mcus q data (with_sub o s) = all_mcus q data o.
Proof.
  intros HC. unfold all_mcus. assert (mcu_step (with_sub o s) = mcu_step o) as -> by (unfold mcu_step, with_sub; cbn [jo_ct jo_sub]; rewrite HC; reflexivity).
  change (jo_w (with_sub o s)) with (jo_w o). change (jo_h (with_sub o s)) with (jo_h o). apply map_res_eq. intros [x y] _. unfold mcu_coefs.
  change (jo_ct (with_sub o s)) with (jo_ct o). rewrite HC. reflexivity.
Qed.
Theorem gray_sampling e data o s : jo_ct o = Gray -> jencode e data (with_sub o s) = jencode e data o.
Proof.
  intros HC. unfold jencode, jencode_into, jpeg_body, choose_tables, build_optimized. rewrite !(gray_mcus _ data o s HC).
  cbn [with_sub jo_w jo_h jo_ct jo_quality jo_sub jo_restart jo_opt jo_prog jo_trellis]. rewrite HC. reflexivity.
Qed.
Lemma dec_image_opt q data o b : dec_image q data (with_opt o b) = dec_image q data o.
Proof.
  unfold dec_image, dec_pixel, dec_plane, dec_pixels, block_coefs, block_samples, plane_sample, comp_table, factor.
  cbn [with_opt jo_w jo_h jo_ct jo_quality jo_sub]. reflexivity.
Qed.
Theorem tables_same_picture e data o : valid_args data o -> dctq_ok (je_dctq e) -> jo_prog o = false ->
  match jo_restart o with Some i => mcus_across o * mcus_down o <= i | None => True end ->
  exists out out', jencode e data (with_opt o false) = Ok out /\ jencode e data (with_opt o true) = Ok out' /\ decode_jpeg out = decode_jpeg out' /\ exists im, decode_jpeg out = Ok im.
Proof.
  intros V HQ HP HR.
  destruct (jpeg_roundtrip e data (with_opt o false) V HQ HP HR) as (out & E & D). destruct (jpeg_roundtrip e data (with_opt o true) V HQ HP HR) as (out' & E' & D').
  exists out, out'. split; [exact E|]. split; [exact E'|]. specialize (D []). specialize (D' []). rewrite app_nil_r in D, D'. rewrite D, D', !dec_image_opt. split; [reflexivity|eauto].
Qed.
Theorem trellis_baseline e data o b : jo_prog o = false -> jencode e data (with_trellis o b) = jencode e data o.
Proof.
  intros HP. unfold jencode, jencode_into, jpeg_body, choose_tables, build_optimized.
  assert (forall q, all_mcus q data (with_trellis o b) = all_mcus q data o) as HM by reflexivity. rewrite !HM.
  cbn [with_trellis jo_w jo_h jo_ct jo_quality jo_sub jo_restart jo_opt jo_prog jo_trellis]. rewrite HP. reflexivity.
Qed.
