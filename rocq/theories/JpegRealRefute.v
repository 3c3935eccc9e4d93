(** JpegRefute's examples with the encoder's own quantisers. *)
From Verif Require Import Base PngFilterModel PngPaletteModel JpegBaseModel MsbSpec JpegDecModel JpegSpec JpegBlockProofs JpegEncModel JpegEncProofs JpegImgSpec JpegFileSpec JpegProgSpec JpegProgProofs JpegApi JpegClaims JpegRefute
  JpegDctModel JpegDctTop JpegTrellisModel JpegTrellisTop.

Definition real_pixel_at (r : option Z) (n : Z) : option Z :=
  match jencode pixo_env three_blocks (three_opts r) with
  | Ok out => match decode_jpeg out with Ok im => Some (znth (ji_pixels im) n) | _ => None end
  | _ => None
  end.
Lemma three_decoded_real : real_pixel_at None 8 = Some 120 /\ real_pixel_at (Some 2) 8 = Some 0.
Proof. split; vm_compute; reflexivity. Qed.
Theorem restart_lost_real : exists data o, valid_args data o /\ jo_prog o = false /\
  exists out, jencode pixo_env data o = Ok out /\ decode_jpeg out <> Ok (dec_image dctq data o).
Proof.
  exists three_blocks, (three_opts (Some 2)). split; [apply three_valid; lia|]. split; [reflexivity|].
  destruct (jencode_baseline pixo_env three_blocks (three_opts (Some 2)) ltac:(apply three_valid; lia) dctq_dctq_ok eq_refl) as (t & scan & E & _).
  eexists. split; [exact E|]. intros D.
  destruct (jpeg_roundtrip pixo_env three_blocks (three_opts None) (three_valid None I) dctq_dctq_ok eq_refl I) as (out & E2 & D2).
  specialize (D2 []). rewrite app_nil_r in D2. destruct three_decoded_real as [P1 P2]. unfold real_pixel_at in P1, P2. rewrite E2, D2 in P1. rewrite E, D in P2.
  assert (forall a b : Z, Some a = Some b -> a = b) as SI by (intros a b [= H]; exact H). apply SI in P1, P2.
  unfold three_opts in P1, P2. rewrite (dec_image_restart _ _ _ _ _ _ _ (Some 2) None) in P2. change (je_dctq pixo_env) with dctq in P1.
  rewrite P1 in P2. discriminate P2.
Qed.
Lemma flat_file_real : jencode pixo_env (repeat 128 128) flat_opts = Ok (progressive_file flat_opts std_lum std_chrom [[15]; []; []; [7]; [7]; []; []]).
Proof. vm_compute. reflexivity. Qed.
Lemma flat_blocks_real : comp_blocks (image_mcus dctq (repeat 128 128) flat_opts) 0 = [repeat 0 64; repeat 0 64].
Proof. vm_compute. reflexivity. Qed.
Theorem eob_run_uncoded_real : exists data o segs, valid_args data o /\ jo_prog o = true /\ jo_trellis o = false /\
  jencode pixo_env data o = Ok (progressive_file o std_lum std_chrom segs) /\
  ~ exists bits, segment (nth 3 segs []) bits /\ prog_scan_code std_lum 1 10 (comp_blocks (image_mcus dctq data o) 0) bits.
Proof.
  exists (repeat 128 128), flat_opts, [[15]; []; []; [7]; [7]; []; []]. split; [exact flat_valid|]. split; [reflexivity|]. split; [reflexivity|]. split; [exact flat_file_real|].
  intros (bits & HS & HB). rewrite flat_blocks_real in HB. unfold prog_scan_code in HB. change (1 =? 0) with false in HB. cbv iota in HB. cbn [map std_lum ct_acb ct_acv] in HB.
  change (band 1 10 (repeat 0 64)) with (repeat 0 10) in HB.
  apply std_two_empty in HB as (r & ->); [| |discriminate].
  - destruct HS as (_ & l & HU & HL). cbn [nth] in HU. change (unstuff [7]) with (Some [7]) in HU. injection HU as <-.
    unfold pad_ones in HL. cbn [app] in HL. discriminate HL.
  - apply Forall_forall. intros x Hx. apply repeat_spec in Hx. auto.
Qed.
