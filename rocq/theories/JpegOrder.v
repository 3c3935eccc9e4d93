(** Proofs for C89: the order of the blocks in progressive scans. *)
From Verif Require Import Base CanonSpec MsbSpec PngFilterModel PngFilterProofs PngPaletteModel JpegBaseModel JpegHuffModel JpegDecModel JpegSpec JpegBlockProofs JpegEncModel JpegEncProofs JpegImgSpec JpegFileSpec JpegProgSpec JpegProgProofs
  JpegApi JpegClaims JpegRefute JpegDctModel JpegDctTop JpegTrellisModel JpegTrellisTop JpegOrderSpec.

(** ** Images without subsampling, and the chrominance of the others *)
Lemma idxs_app a b : idxs (a + b) = idxs a ++ map (fun i => Z.of_nat a + i) (idxs b).
Proof.
  induction b as [|b IH]; [rewrite Nat.add_0_r, app_nil_r; reflexivity|]. rewrite Nat.add_succ_r, !idxs_S, IH, map_app, app_assoc. cbn [map]. do 2 f_equal. lia.
Qed.
Lemma raster_count A D : (0 < A)%nat -> flat_map (fun y => map (fun x => (x, y)) (idxs A)) (idxs D) = map (fun k => (k mod Z.of_nat A, k / Z.of_nat A)) (idxs (A * D)).
Proof.
  intros HA. induction D as [|D IH]; [rewrite Nat.mul_0_r; reflexivity|]. rewrite idxs_S, flat_map_app, IH. cbn [flat_map]. rewrite app_nil_r.
  replace (A * S D)%nat with (A * D + A)%nat by lia. rewrite idxs_app, map_app, map_map. f_equal. apply map_ext_in. intros i Hi. apply in_idxs in Hi.
  replace (Z.of_nat (A * D) + i) with (i + Z.of_nat D * Z.of_nat A) by lia. rewrite Z.mod_add, Z.div_add by lia. rewrite Z.mod_small, Z.div_small by lia. reflexivity.
Qed.
Lemma filter_concat {A} (f : A -> bool) l : filter f (concat l) = concat (map (filter f) l).
Proof. induction l as [|x l IH]; [reflexivity|]. cbn [concat map]. rewrite filter_app, IH. reflexivity. Qed.
Lemma concat_single {A B} (f : A -> B) l : concat (map (fun x => [f x]) l) = map f l.
Proof. induction l as [|x l IH]; [reflexivity|]. cbn. rewrite IH. reflexivity. Qed.
Lemma ceil_twice w m : 0 <= w -> 0 < m -> ceil_div (ceil_div w m) 8 = (w + 8 * m - 1) / (8 * m).
Proof. intros H M. unfold ceil_div. rewrite (Z.mul_comm 8 m), <- Z.div_div by lia. f_equal. replace (w + m * 8 - 1) with (w + m - 1 + 7 * m) by lia. rewrite Z.div_add by lia. lia. Qed.
Lemma blocks_raster q data o c : 1 <= jo_w o -> 1 <= jo_h o -> 0 <= c < ncomps o -> factor o = 1 \/ c <> 0 ->
  comp_blocks (image_mcus q data o) c = raster_blocks q data o c.
Proof.
  intros Hw Hh Hc Hf. unfold raster_blocks, raster_places.
  assert (forall k, filter (fun p => fst p =? c) (map (fun '(c0, bx, by_) => (c0, block_coefs q data o c0 bx by_)) (mcu_places o k)) = [(c, block_coefs q data o c (k mod mcus_across o) (k / mcus_across o))]) as P.
  { intros k. unfold mcu_places, ncomps, factor in *. destruct (jo_ct o), (jo_sub o); try lia;
      assert (c = 0 \/ c = 1 \/ c = 2) as [-> | [-> | ->]] by lia; try reflexivity; try (exfalso; lia). }
  assert (ceil_div (comp_width o c) 8 = mcus_across o /\ ceil_div (comp_height o c) 8 = mcus_down o) as [-> ->].
  { assert (0 < factor o) by (unfold factor; destruct (jo_ct o), (jo_sub o); lia). unfold comp_width, comp_height, comp_sampling, mcus_across, mcus_down.
    replace (if c =? 0 then factor o else 1) with 1 by (destruct (Z.eqb_spec c 0); lia). rewrite !Z.mul_1_r. rewrite !ceil_twice by lia. split; reflexivity. }
  assert (0 < mcus_across o) as PA. { unfold mcus_across. apply Z.div_str_pos. unfold factor. destruct (jo_ct o), (jo_sub o); lia. }
  assert (0 < mcus_down o) as PD. { unfold mcus_down. apply Z.div_str_pos. unfold factor. destruct (jo_ct o), (jo_sub o); lia. }
  rewrite raster_count by lia. unfold comp_blocks, image_mcus. rewrite filter_concat, map_map. rewrite (map_ext _ _ P), concat_single, !map_map.
  rewrite Z2Nat.inj_mul by lia. apply map_ext. intros k. rewrite Z2Nat.id by lia. reflexivity.
Qed.

(** ** Luminance with subsampling *)
Fixpoint index_of (vals : list Z) (s : Z) : option nat :=
  match vals with [] => None | v :: r => if v =? s then Some 0%nat else option_map S (index_of r s) end.
Lemma index_of_nth vals : NoDup vals -> forall k, (k < length vals)%nat -> index_of vals (nth k vals 0) = Some k.
Proof.
  induction 1 as [|v r N D IH]; intros k Hk; [cbn in Hk; lia|]. cbn [index_of]. destruct k as [|k]; cbn [nth]; [rewrite Z.eqb_refl; reflexivity|]. cbn [length] in Hk.
  destruct (Z.eqb_spec v (nth k r 0)) as [E|_]; [exfalso; apply N; rewrite E; apply nth_In; lia|]. rewrite IH by lia. reflexivity.
Qed.
Definition dc_bits_of (bits vals : list Z) (d : Z) : list bool :=
  match index_of vals (category d) with
  | Some k => code_word (spec_sizes bits) k ++ (if d =? 0 then [] else amplitude d (category d))
  | None => []
  end.
Fixpoint dc_scan_bits (bits vals : list Z) (p : Z) (l : list Z) : list bool :=
  match l with [] => [] | d :: r => dc_bits_of bits vals (d - p) ++ dc_scan_bits bits vals d r end.
Lemma dc_code_is bits vals d b : NoDup vals -> dc_code bits vals d b -> b = dc_bits_of bits vals d.
Proof.
  intros N H. unfold dc_bits_of. destruct H as [w (k & L & E & ->)|v n w S B (k & L & E & ->)].
  - change (category 0) with 0. rewrite <- E, index_of_nth by assumption. rewrite E, app_nil_r. reflexivity.
  - rewrite <- (has_size_category v n S). rewrite <- E at 2. rewrite index_of_nth by assumption. destruct (Z.eqb_spec v 0) as [->|]; [|reflexivity].
    exfalso. destruct S as [P1 [P2 _]]. pose proof (Z.pow_pos_nonneg 2 (n - 1) ltac:(lia) ltac:(lia)). change (Z.abs 0) with 0 in P2. lia.
Qed.
Lemma dc_scan_is bits vals p l b : NoDup vals -> dc_scan_code bits vals p l b -> b = dc_scan_bits bits vals p l.
Proof. intros N H. induction H as [|p d r b1 b2 H1 H2 IH]; [reflexivity|]. cbn [dc_scan_bits]. rewrite <- IH. rewrite <- (dc_code_is _ _ _ _ N H1). reflexivity. Qed.

(** 32 x 16 pixels: the upper half light, the lower half dark; the
    options of [JpegOptions::max], jpeg/mod.rs 195-207 *)
Definition two_halves : list Z := repeat 200 768 ++ repeat 50 768.
Definition halves_opts : jopts := mkjo 32 16 Rgb 75 S420 None true true true.
Lemma halves_valid : valid_args two_halves halves_opts.
Proof.
  unfold valid_args, halves_opts. cbn [jo_w jo_h jo_quality jo_ct jo_restart ncomps].
  split; [lia|]. split; [lia|]. split; [lia|]. split; [|split; [reflexivity|split; [right; reflexivity|exact I]]].
  apply Forall_app. split; apply Forall_forall; intros x Hx; apply repeat_spec in Hx; subst x; unfold is_byte; lia.
Qed.
Definition halves_lum : ctabs := mkct [0; 1; 2; 0; 0; 0; 0; 0; 0; 0; 0; 0; 0; 0; 0; 0] [0; 7; 8] (1 :: repeat 0 15) [0].
Definition halves_chrom : ctabs := mkct (1 :: repeat 0 15) [0] (1 :: repeat 0 15) [0].
Definition halves_segs : list (list Z) := [[82; 6; 210; 57; 97; 180; 159]; [63]; [63]; [1]; [1]; [7]; [7]].
Lemma halves_file : jencode pixo_env two_halves halves_opts = Ok (progressive_file halves_opts halves_lum halves_chrom halves_segs).
Proof. vm_compute. reflexivity. Qed.
Lemma halves_dcs : map (fun b => znth b 0) (raster_blocks trellisq two_halves halves_opts 0) = [72; 72; 72; 72; -78; -78; -78; -78].
Proof. vm_compute. reflexivity. Qed.
Lemma order_lost : exists data o lum chrom segs, valid_args data o /\ jo_prog o = true /\ jo_trellis o = true /\
  jencode pixo_env data o = Ok (progressive_file o lum chrom segs) /\
  ~ exists bits, segment (nth 0 segs []) bits /\ prog_scan_code lum 0 0 (raster_blocks trellisq data o 0) bits.
Proof.
  exists two_halves, halves_opts, halves_lum, halves_chrom, halves_segs. split; [exact halves_valid|]. split; [reflexivity|]. split; [reflexivity|]. split; [exact halves_file|].
  intros (bits & HS & HB). unfold prog_scan_code in HB. change (0 =? 0) with true in HB. cbv iota in HB. rewrite halves_dcs in HB.
  apply dc_scan_is in HB; [|repeat constructor; cbn; intuition discriminate]. subst bits.
  destruct HS as (_ & l & HU & HL). assert (unstuff (nth 0 halves_segs []) = Some [82; 6; 210; 57; 97; 180; 159]) as E by reflexivity. rewrite E in HU. injection HU as <-. vm_compute in HL. discriminate HL.
Qed.
(** what the encoder writes instead *)
Lemma order_written : exists bits, segment (nth 0 halves_segs []) bits /\ bits = dc_scan_bits (ct_dcb halves_lum) (ct_dcv halves_lum) 0 [72; 72; -78; -78; 72; 72; -78; -78].
Proof.
  eexists. split; [|reflexivity]. split; [repeat constructor; unfold is_byte; lia|]. exists [82; 6; 210; 57; 97; 180; 159]. split; [reflexivity|]. vm_compute. reflexivity.
Qed.
Lemma scans_raster data o : valid_args data o -> jo_prog o = true ->
  let q := if jo_trellis o then trellisq else dctq in
  exists t segs, jencode pixo_env data o = Ok (progressive_file o (tabs_of t 0) (tabs_of t 1) segs) /\ tabs_ok t /\
    Forall2 (fun s seg => let '(c, ss, se) := s in c < ncomps o -> factor o = 1 \/ c <> 0 -> exists bits, segment seg bits /\
      (prog_scan_has_codes (tabs_of t c) ss se (raster_blocks q data o c) ->
       prog_scan_code (tabs_of t c) ss se (raster_blocks q data o c) bits)) prog_script segs.
Proof.
  intros V P q. destruct (jencode_progressive pixo_env data o q V dctq_dctq_ok P eq_refl ltac:(unfold q; destruct (jo_trellis o); [exact trellisq_ok|exact dctq_dctq_ok])) as (t & segs & E & T & F).
  exists t, segs. split; [exact E|]. split; [exact T|]. destruct V as (Vw & Vh & _). assert (Forall (fun s : Z * Z * Z => 0 <= fst (fst s)) prog_script) as N by (repeat constructor; cbn; lia).
  clear E T P. induction F as [|[[c ss] se] seg l l' H F IH]; [constructor|]. inversion N as [|? ? N1 N2]; subst. cbn [fst] in N1. constructor; [|exact (IH N2)]. intros C Hf.
  rewrite <- (blocks_raster q data o c) by lia. exact H.
Qed.
