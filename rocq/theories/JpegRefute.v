(** Where the JPEG code departs from what one would expect: concrete inputs,
    and what does hold. *)
From Verif Require Import Base BitsModel BitsProofs CanonSpec CanonProofs Lz77Model PngFilterModel PngPaletteModel PngFilterProofs MsbSpec MsbProofs JpegBaseModel JpegBaseProofs JpegHuffModel JpegDecModel JpegSpec JpegTabProofs JpegSymProofs JpegBlockProofs JpegEncModel JpegEncProofs JpegCountProofs JpegImgSpec JpegMcuProofs JpegScanProofs JpegFileSpec JpegTop JpegProgSpec JpegProgProofs JpegApi JpegClaims JpegIdctProofs.

(** ** a simple quantiser that meets the assumptions: only the mean of a block *)
Definition dc_quant (table samples : list Z) : list Z := (fold_right Z.add 0 samples + 16 * znth table 0) / (32 * znth table 0) :: repeat 0 63.
Lemma sum_range l lo hi : Forall (fun s => lo <= s <= hi) l -> lo * zlen l <= fold_right Z.add 0 l <= hi * zlen l.
Proof. induction l as [|a l IH]; intros H; [rewrite zlen_nil; cbn; lia|]. apply Forall_cons_iff in H as [Ha H]. specialize (IH H). rewrite zlen_cons. cbn [fold_right]. lia. Qed.
Lemma dc_quant_ok : dctq_ok dc_quant.
Proof.
  intros table samples LT HT LS HS. pose proof (sum_range samples _ _ HS) as SR. unfold zlen in SR. rewrite LS in SR. change (Z.of_nat 64) with 64 in SR.
  assert (1 <= znth table 0 <= 255) as Ht by (unfold znth; rewrite Forall_forall in HT; apply HT, nth_In; rewrite LT; lia).
  unfold dc_quant. set (t := znth table 0) in *. assert (znth table 0 = t) as Et by reflexivity. set (S := fold_right Z.add 0 samples) in *. clearbody t S.
  set (v := (S + 16 * t) / (32 * t)).
  assert (32 * t * v <= S + 16 * t < 32 * t * v + 32 * t) as HD.
  { unfold v. pose proof (Z.mul_div_le (S + 16 * t) (32 * t) ltac:(lia)). pose proof (Z.mul_succ_div_gt (S + 16 * t) (32 * t) ltac:(lia)). lia. }
  clearbody v. split; [reflexivity|]. change (znth (v :: repeat 0 63) 0) with v. split; [nia|]. split.
  { cbn [skipn]. apply Forall_forall. intros a Ha. apply repeat_spec in Ha. subst a. cbn. lia. }
  intros n Hn. destruct (Z.eq_dec n 0) as [->|N].
  - change (znth (v :: repeat 0 63) 0) with v. rewrite Et. lia.
  - replace (znth (v :: repeat 0 63) n) with 0; [cbn; lia|]. unfold znth. replace (Z.to_nat n) with (Datatypes.S (Z.to_nat (n - 1))) by lia. cbn [nth].
    symmetry. apply nth_repeat_lt. lia.
Qed.
Definition dc_env : jenv := mkje dc_quant dc_quant.
Lemma dc_env_ok : quantisers_ok dc_env.
Proof. split; exact dc_quant_ok. Qed.

(** ** C36: three blocks, restart interval 2; the decoder loses two of them *)
Definition three_blocks : list Z := flat_map (fun i => repeat (100 + 20 * (i mod 3)) 8) (idxs 24).
Definition three_opts (r : option Z) : jopts := mkjo 24 8 Gray 75 S444 r false false false.
Lemma three_valid r : match r with Some i => 1 <= i <= 65535 | None => True end -> valid_args three_blocks (three_opts r).
Proof.
  intros H. unfold valid_args, three_opts. cbn [jo_w jo_h jo_quality jo_ct jo_restart ncomps].
  split; [lia|]. split; [lia|]. split; [lia|]. split; [|split; [reflexivity|split; [left; reflexivity|exact H]]].
  unfold three_blocks. apply Forall_forall. intros x Hx. apply in_flat_map in Hx as (i & _ & Hx). apply repeat_spec in Hx. subst x.
  pose proof (Z.mod_pos_bound i 3 ltac:(lia)). unfold is_byte. lia.
Qed.
Definition pixel_at (r : option Z) (n : Z) : option Z :=
  match jencode dc_env three_blocks (three_opts r) with
  | Ok out => match decode_jpeg out with Ok im => Some (znth (ji_pixels im) n) | _ => None end
  | _ => None
  end.
Lemma three_decoded : pixel_at None 8 = Some 120 /\ pixel_at (Some 2) 8 = Some 0.
Proof. vm_compute. auto. Qed.
Lemma dec_image_restart q data w h ct ql s r r' a b c : dec_image q data (mkjo w h ct ql s r a b c) = dec_image q data (mkjo w h ct ql s r' a b c).
Proof.
  unfold dec_image, dec_pixel, dec_plane, dec_pixels, block_coefs, block_samples, plane_sample, comp_table, factor.
  cbn [jo_w jo_h jo_ct jo_quality jo_sub]. reflexivity.
Qed.
Theorem restart_lost : exists data o, valid_args data o /\ jo_prog o = false /\
  exists out, jencode dc_env data o = Ok out /\ decode_jpeg out <> Ok (dec_image (je_dctq dc_env) data o).
Proof.
  exists three_blocks, (three_opts (Some 2)). split; [apply three_valid; lia|]. split; [reflexivity|].
  destruct (jencode_baseline dc_env three_blocks (three_opts (Some 2)) ltac:(apply three_valid; lia) (proj1 dc_env_ok) eq_refl) as (t & scan & E & _).
  eexists. split; [exact E|]. intros D.
  destruct (jpeg_roundtrip dc_env three_blocks (three_opts None) (three_valid None I) (proj1 dc_env_ok) eq_refl I) as (out & E2 & D2).
  specialize (D2 []). rewrite app_nil_r in D2. destruct three_decoded as [P1 P2]. unfold pixel_at in P1, P2. rewrite E2, D2 in P1. rewrite E, D in P2.
  assert (forall a b : Z, Some a = Some b -> a = b) as SI by (intros a b [= H]; exact H). apply SI in P1, P2.
  unfold three_opts in P1, P2. rewrite (dec_image_restart _ _ _ _ _ _ _ (Some 2) None) in P2.
  rewrite P1 in P2. discriminate P2.
Qed.

(** ** C37: two flat blocks, standard tables *)
Definition flat_opts : jopts := mkjo 16 8 Gray 75 S444 None false true false.
Lemma flat_valid : valid_args (repeat 128 128) flat_opts.
Proof.
  unfold valid_args, flat_opts. cbn [jo_w jo_h jo_quality jo_ct jo_restart ncomps].
  split; [lia|]. split; [lia|]. split; [lia|]. split; [|split; [reflexivity|split; [left; reflexivity|exact I]]].
  apply Forall_forall. intros x Hx. apply repeat_spec in Hx. subst x. unfold is_byte. lia.
Qed.
Lemma coefs_zero bits vals l b : coefs_code bits vals l b -> zero_band l -> l = [].
Proof.
  induction 1 as [|l w b H1 H2 IH N|r v n l w b Hr Hs Hn H1 H2 IH]; intros HZ; [reflexivity| |].
  - exfalso. apply Forall_app in HZ as [_ HZ]. apply N, IH, HZ.
  - exfalso. apply Forall_app in HZ as [_ HZ]. apply Forall_cons_iff in HZ as [<- _]. destruct Hs as [P1 [P2 _]].
    pose proof (Z.pow_pos_nonneg 2 (n - 1) ltac:(lia) ltac:(lia)). cbn in P2. lia.
Qed.
Lemma coefs_nil bits vals b : coefs_code bits vals [] b -> b = [].
Proof.
  remember (@nil Z) as l eqn:E. destruct 1 as [|l w b H1 H2 N|r v n l w b]; [reflexivity| |];
    apply (f_equal (@length Z)) in E; rewrite app_length in E; cbn in E; lia.
Qed.
(** with the standard table for AC coefficients of luminance the code of two
    empty bands starts with a one: there are no symbols EOB1, EOB2, ... *)
Lemma std_two_empty z bits : zero_band z -> z <> [] -> band_code AC_LUM_BITS AC_LUM_VALS [z; z] bits -> exists r, bits = true :: r.
Proof.
  intros HZ HN HB. inversion HB as [|? ? ? ? HC _|h k n zs r w b1 b2 HC Hk HF Hn HL HW HR E1 E2]; subst.
  - exfalso. apply HN. eapply coefs_zero; eauto.
  - apply Forall_app in HZ as [HZ _]. assert (h = []) as -> by (eapply coefs_zero; eauto).
    assert (b1 = []) as -> by (eapply coefs_nil; exact HC).
    destruct HW as (k' & Hk' & Ek & ->). change (length AC_LUM_VALS) with 162%nat in Hk'.
    assert (forallb (fun k => negb ((nth k AC_LUM_VALS 0) mod 16 =? 0) || (nth k AC_LUM_VALS 0 =? 240) || (k =? 3)%nat) (seq 0 162) = true) as F by (vm_compute; reflexivity).
    rewrite forallb_forall in F. specialize (F k' ltac:(apply in_seq; lia)). rewrite Ek in F. rewrite Z.mul_comm, Z.mod_mul in F by lia. cbn [Z.eqb negb orb] in F.
    apply orb_prop in F as [F|F]; [apply Z.eqb_eq in F; lia|]. apply Nat.eqb_eq in F. subst k'.
    assert (code_word (spec_sizes AC_LUM_BITS) 3 = [true; false; true; false]) as -> by (vm_compute; reflexivity). eexists. reflexivity.
Qed.
Definition std_lum : ctabs := mkct DC_LUM_BITS DC_LUM_VALS AC_LUM_BITS AC_LUM_VALS.
Definition std_chrom : ctabs := mkct DC_CHROM_BITS DC_CHROM_VALS AC_CHROM_BITS AC_CHROM_VALS.
Lemma flat_file : jencode dc_env (repeat 128 128) flat_opts = Ok (progressive_file flat_opts std_lum std_chrom [[15]; []; []; [7]; [7]; []; []]).
Proof. vm_compute. reflexivity. Qed.
Lemma flat_blocks : comp_blocks (image_mcus dc_quant (repeat 128 128) flat_opts) 0 = [repeat 0 64; repeat 0 64].
Proof. vm_compute. reflexivity. Qed.
Theorem eob_run_uncoded : exists data o segs, valid_args data o /\ jo_prog o = true /\
  jencode dc_env data o = Ok (progressive_file o std_lum std_chrom segs) /\
  ~ exists bits, segment (nth 3 segs []) bits /\ prog_scan_code std_lum 1 10 (comp_blocks (image_mcus dc_quant data o) 0) bits.
Proof.
  exists (repeat 128 128), flat_opts, [[15]; []; []; [7]; [7]; []; []]. split; [exact flat_valid|]. split; [reflexivity|]. split; [exact flat_file|].
  intros (bits & HS & HB). rewrite flat_blocks in HB. unfold prog_scan_code in HB. change (1 =? 0) with false in HB. cbv iota in HB. cbn [map std_lum ct_acb ct_acv] in HB.
  change (band 1 10 (repeat 0 64)) with (repeat 0 10) in HB.
  apply std_two_empty in HB as (r & ->); [| |discriminate].
  - destruct HS as (_ & l & HU & HL). cbn [nth] in HU. change (unstuff [7]) with (Some [7]) in HU. injection HU as <-.
    unfold pad_ones in HL. cbn [app] in HL. discriminate HL.
  - apply Forall_forall. intros x Hx. apply repeat_spec in Hx. auto.
Qed.

(** ** C38: the scans of a gray file *)
Definition declared (o : jopts) : list Z := map (fun '(id, _, _, _) => id) (frame_comps (jo_ct o) (jo_sub o)).
Definition named : list Z := map (fun '(c, _, _) => c + 1) prog_script.
Theorem prog_components e data o : valid_args data o -> quantisers_ok e -> jo_prog o = true ->
  exists t segs, jencode e data o = Ok (progressive_file o (tabs_of t 0) (tabs_of t 1) segs) /\ length segs = length prog_script /\
    (jo_ct o = Rgb -> incl named (declared o)) /\ (jo_ct o = Gray -> In 2 named /\ In 3 named /\ declared o = [1]).
Proof.
  intros V [Q1 Q2] HP. destruct (jencode_progressive e data o _ V Q1 HP eq_refl ltac:(destruct (jo_trellis o); assumption)) as (t & segs & E & _ & F).
  exists t, segs. split; [exact E|]. split; [clear - F; remember prog_script as l eqn:El; clear El; induction F; cbn [length]; congruence|]. unfold declared. split; intros ->.
  - destruct (jo_sub o); intros x Hx; cbn in Hx; cbn; decompose [or] Hx; auto.
  - split; [cbn; auto|]. split; [cbn; auto|reflexivity].
Qed.

(** ** C39: the inverse DCT *)
Lemma idct_line_dc d : -20000 <= d <= 20000 -> idct_line [d; 0; 0; 0; 0; 0; 0; 0] = Ok (repeat (8192 * d) 8).
Proof.
  intros H. change (idct_line [d; 0; 0; 0; 0; 0; 0; 0]) with (idct_1d d 0 0 0 0 0 0 0). unfold idct_1d. rewrite (shl13 d) by lia.
  set (X := 8192 * d). assert (-163840000 <= X <= 163840000) as HX by (unfold X; lia). clearbody X. clear H d.
  assert (forall y, y = X -> i32 y = Ok X) as IX by (intros y ->; apply i32_ok; change (2 ^ 31) with 2147483648; lia).
  assert (forall y, y = 0 -> i32 y = Ok 0) as I0 by (intros y ->; reflexivity).
  change (as_i32 (Z.shiftl 0 13)) with 0. unfold add32, sub32. cbv zeta.
  rewrite (IX (X + 0)) by lia. cbn [rbind]. rewrite (IX (X - 0)) by lia. cbn [rbind]. rewrite (I0 (0 + 0)) by lia. cbn [rbind].
  change (fix_mul 0 4433) with 0. change (fix_mul 0 15137) with 0. change (fix_mul 0 6270) with 0.
  change (0 - 0) with 0. change (0 + 0) with 0. change (i32 0) with (@Ok Z 0). cbn [rbind].
  do 4 (rewrite ?(IX (X + 0)), ?(IX (X - 0)) by lia; cbn [rbind]).
  change (fix_mul 0 9633) with 0. change (fix_mul 0 2446) with 0. change (fix_mul 0 16819) with 0. change (fix_mul 0 25172) with 0. change (fix_mul 0 12299) with 0.
  change (fix_mul 0 (-7373)) with 0. change (fix_mul 0 (-20995)) with 0. change (fix_mul 0 (-16069)) with 0. change (fix_mul 0 (-3196)) with 0.
  change (0 + 0) with 0. change (i32 0) with (@Ok Z 0). cbn [rbind]. change (0 + 0) with 0. change (i32 0) with (@Ok Z 0). cbn [rbind].
  do 8 (rewrite ?(IX (X + 0)), ?(IX (X - 0)) by lia; cbn [rbind]). reflexivity.
Qed.
Lemma dc_columns d : map (column (d :: repeat 0 63)) (idxs 8) = [d; 0; 0; 0; 0; 0; 0; 0] :: repeat (repeat 0 8) 7.
Proof. reflexivity. Qed.
Lemma descale1_dc d : -20000 <= d <= 20000 -> descale1 (8192 * d) = Ok (4 * d).
Proof.
  intros H. unfold descale1, add32. rewrite i32_ok by (change (2 ^ 31) with 2147483648; lia). cbn [rbind]. f_equal.
  rewrite Z.shiftr_div_pow2 by lia. change (2 ^ 11) with 2048. Z.to_euclidean_division_equations; lia.
Qed.
Lemma descale2_dc d : -5000 <= d <= 5000 -> descale_and_clamp (8192 * (4 * d)) = Ok (clamp (128 + (d + 4) / 8) 0 255).
Proof.
  intros H. unfold descale_and_clamp, add32. rewrite i32_ok by (change (2 ^ 31) with 2147483648; lia). cbn [rbind].
  rewrite Z.shiftr_div_pow2 by lia. change (2 ^ 18) with 262144.
  replace ((8192 * (4 * d) + 131072) / 262144) with ((d + 4) / 8) by (Z.to_euclidean_division_equations; lia).
  rewrite i32_ok by (change (2 ^ 31) with 2147483648; Z.to_euclidean_division_equations; lia). cbn [rbind]. rewrite Z.add_comm. reflexivity.
Qed.
Lemma map_res_comp {A B C} (f : B -> res C) (g : A -> B) l : map_res (fun a => f (g a)) l = map_res f (map g l).
Proof. induction l as [|a l IH]; [reflexivity|]. cbn [map_res map]. rewrite IH. reflexivity. Qed.
Lemma map_res_repeat {A B} (f : A -> res B) x y k : f x = Ok y -> map_res f (repeat x k) = Ok (repeat y k).
Proof. intros E. induction k as [|k IH]; [reflexivity|]. cbn [repeat map_res]. rewrite E. cbn [rbind]. rewrite IH. reflexivity. Qed.
Theorem idct_dc_only d : -5000 <= d <= 5000 -> idct_2d (d :: repeat 0 63) = Ok (repeat (clamp (128 + (d + 4) / 8) 0 255) 64).
Proof.
  intros H. unfold idct_2d. rewrite (map_res_comp (fun c => let* l := idct_line c in map_res descale1 l) (column (d :: repeat 0 63)) (idxs 8)).
  rewrite dc_columns. cbn [map_res]. rewrite (idct_line_dc d) by lia. cbn [rbind]. rewrite (map_res_repeat descale1 _ (4 * d)) by (apply descale1_dc; lia). cbn [rbind].
  rewrite (map_res_repeat (fun c => let* l := idct_line c in map_res descale1 l) (repeat 0 8) (repeat 0 8)) by (vm_compute; reflexivity). cbn [rbind].
  rewrite (map_res_comp (fun c => let* l := idct_line c in map_res descale_and_clamp l) (fun r => map (fun col => znth col r) (repeat (4 * d) 8 :: repeat (repeat 0 8) 7)) (idxs 8)).
  assert (map (fun r => map (fun col => znth col r) (repeat (4 * d) 8 :: repeat (repeat 0 8) 7)) (idxs 8) = repeat [4 * d; 0; 0; 0; 0; 0; 0; 0] 8) as ->.
  { generalize (4 * d). intros x. reflexivity. }
  rewrite (map_res_repeat _ _ (repeat (clamp (128 + (d + 4) / 8) 0 255) 8)).
  - cbn [rbind]. generalize (clamp (128 + (d + 4) / 8) 0 255). intros x. reflexivity.
  - rewrite (idct_line_dc (4 * d)) by lia. cbn [rbind]. apply map_res_repeat. apply descale2_dc. exact H.
Qed.

(** ** C34, C35, C45, C50: examples and panics *)
Lemma table_overflow : exists counts, Forall (fun c => 0 <= c) counts /\ fold_right Z.add 0 counts < 2 ^ 64 /\ zlen counts = 256 /\
  build_bits_vals counts = Panic.
Proof.
  exists (repeat 1 256). split; [apply Forall_forall; intros x Hx; apply repeat_spec in Hx; lia|]. split; [reflexivity|]. split; [reflexivity|].
  vm_compute. reflexivity.
Qed.
Lemma decode_panics : exists data, bytes data /\ decode_jpeg data = Panic.
Proof. exists [255; 216; 255; 218; 0; 3; 0]. split; [repeat (constructor; [unfold is_byte; lia|]); constructor|vm_compute; reflexivity]. Qed.
Definition overflow_file : list Z := [255; 216] ++ dqt_segment 0 (255 :: repeat 1 63) ++ sof_segment 192 8 8 [(1, 1, 1, 0)] ++
    dht_segment 0 0 (1 :: repeat 0 15) [9] ++ dht_segment 1 0 (1 :: repeat 0 15) [0] ++ sos_segment [(1, 0, 0)] ++ [64; 95; 255; 217].
Lemma decode_overflows : exists data, bytes data /\ decode_jpeg data = Panic /\
  exists comps, data = [255; 216] ++ dqt_segment 0 (255 :: repeat 1 63) ++ sof_segment 192 8 8 [(1, 1, 1, 0)] ++
    dht_segment 0 0 (1 :: repeat 0 15) [9] ++ dht_segment 1 0 (1 :: repeat 0 15) [0] ++ sos_segment [(1, 0, 0)] ++ comps.
Proof.
  exists overflow_file. split; [|split; [vm_compute; reflexivity|exists [64; 95; 255; 217]; reflexivity]].
  assert (forallb (fun b => (0 <=? b) && (b <? 256)) overflow_file = true) as F by (vm_compute; reflexivity).
  apply Forall_forall. intros x Hx. rewrite forallb_forall in F. specialize (F x Hx). apply andb_prop in F as [F1 F2].
  apply Z.leb_le in F1. apply Z.ltb_lt in F2. unfold is_byte. lia.
Qed.
Lemma frame_header_bytes m o :
  sof_segment m (jo_w o) (jo_h o) (frame_comps (jo_ct o) (jo_sub o)) =
  [255; m; (8 + 3 * zlen (frame_comps (jo_ct o) (jo_sub o))) / 256; (8 + 3 * zlen (frame_comps (jo_ct o) (jo_sub o))) mod 256;
   8; jo_h o / 256; jo_h o mod 256; jo_w o / 256; jo_w o mod 256; zlen (frame_comps (jo_ct o) (jo_sub o))] ++
  flat_map (fun '(id, hs, vs, tq) => [id; 16 * hs + vs; tq]) (frame_comps (jo_ct o) (jo_sub o)).
Proof. destruct (jo_ct o), (jo_sub o); reflexivity. Qed.
Lemma jpeg_declares e data o : valid_args data o -> quantisers_ok e ->
  exists out pre post, jencode e data o = Ok out /\
    out = pre ++ sof_segment (if jo_prog o then 194 else 192) (jo_w o) (jo_h o) (frame_comps (jo_ct o) (jo_sub o)) ++ post /\
    pre = [255; 216] ++ jfif_segment ++ dqt_segment 0 (table_zigzag STD_LUMINANCE_TABLE (jo_quality o)) ++ dqt_segment 1 (table_zigzag STD_CHROMINANCE_TABLE (jo_quality o)).
Proof.
  intros V [Q1 Q2].
  destruct (jo_prog o) eqn:HP.
  - destruct (jencode_progressive e data o _ V Q1 HP eq_refl ltac:(destruct (jo_trellis o); assumption)) as (t & segs & E & _).
    eexists _, _, _. split; [exact E|]. split; [|reflexivity]. unfold progressive_file, jpeg_header. rewrite <- !app_assoc. reflexivity.
  - destruct (jencode_baseline e data o V Q1 HP) as (t & scan & E & _).
    eexists _, _, _. split; [exact E|]. split; [|reflexivity]. unfold baseline_file, jpeg_header. rewrite <- !app_assoc. reflexivity.
Qed.
Lemma rejects_example : quantisers_ok dc_env /\ jpeg_typed [1; 2; 3] (mkjo 1 1 Rgb 101 S420 (Some 7) true true true) /\
  ~ valid_args [1; 2; 3] (mkjo 1 1 Rgb 101 S420 (Some 7) true true true) /\ valid_args [1; 2; 3] (mkjo 1 1 Rgb 100 S420 (Some 7) true true true).
Proof.
  assert (bytes [1; 2; 3]) as HB by (repeat (constructor; [unfold is_byte; lia|]); constructor).
  split; [exact dc_env_ok|]. unfold jpeg_typed, valid_args. cbn [jo_w jo_h jo_quality jo_ct jo_restart ncomps]. split; [repeat (split; [lia || exact HB|]); lia|].
  split; [lia|]. split; [lia|]. split; [lia|]. split; [lia|]. split; [exact HB|]. split; [reflexivity|]. split; [right; reflexivity|lia].
Qed.
