(** The baseline files of the encoder are conforming files, and their blocks stand for the
    samples of the image up to the quantisation. *)
From Coq Require Import Reals Lra Permutation.
From Verif Require Import Base BitsModel PngFilterModel PngPaletteModel PngFilterProofs JpegBaseModel JpegHuffModel JpegBaseProofs JpegTabProofs CanonSpec MsbSpec JpegSpec JpegSymProofs JpegBlockProofs JpegEncModel JpegEncProofs
  JpegImgSpec JpegFileSpec JpegMcuProofs JpegApi JpegIdctReal JpegDecSpec JpegDctSpec JpegDctModel JpegDctTop JpegTrellisModel JpegTrellisTop JpegParseval JpegAnySpec JpegFidSpec JpegAnyTop.
Open Scope Z_scope.

Definition enc_comps (o : jopts) : list acomp :=
  match jo_ct o, jo_sub o with
  | Gray, _ => [mkac 1 1 1 0 0 0]
  | _, S444 => [mkac 1 1 1 0 0 0; mkac 2 1 1 1 1 1; mkac 3 1 1 1 1 1]
  | _, S420 => [mkac 1 2 2 0 0 0; mkac 2 1 1 1 1 1; mkac 3 1 1 1 1 1]
  end.
Definition enc_file (o : jopts) (lum chrom : ctabs) (scan : list Z) : jfile :=
  mkfile (jo_w o) (jo_h o) (enc_comps o)
    [(0%nat, Skip 224 ([74; 70; 73; 70; 0] ++ [1; 1] ++ [0] ++ hi_lo 1 ++ hi_lo 1 ++ [0; 0]));
     (0%nat, Quant [(0, 0, table_zigzag STD_LUMINANCE_TABLE (jo_quality o))]); (0%nat, Quant [(0, 1, table_zigzag STD_CHROMINANCE_TABLE (jo_quality o))])]
    ([(0%nat, Huff [(0, 0, ct_dcb lum, ct_dcv lum)]); (0%nat, Huff [(0, 1, ct_dcb chrom, ct_dcv chrom)]);
      (0%nat, Huff [(1, 0, ct_acb lum, ct_acv lum)]); (0%nat, Huff [(1, 1, ct_acb chrom, ct_acv chrom)])] ++
     match jo_restart o with Some i => [(0%nat, Interval i)] | None => [] end) scan.
Lemma enc_file_bytes o lum chrom scan : jo_ct o = Gray \/ jo_ct o = Rgb -> file_bytes (enc_file o lum chrom scan) = baseline_file o lum chrom scan.
Proof.
  intros HC. unfold baseline_file, jpeg_header, file_bytes. cbn [enc_file f_w f_h f_comps f_before f_after f_scan].
  rewrite flat_map_app. cbn [flat_map seg_bytes fst snd repeat app quant_bytes huff_bytes]. cbn [Z.eqb]. rewrite !app_nil_r.
  change (16 * 0 + 0) with 0. change (16 * 0 + 1) with 1.
  assert (map (fun c => (a_id c, a_h c, a_v c, a_tq c)) (enc_comps o) = frame_comps (jo_ct o) (jo_sub o)) as ->.
  { unfold enc_comps. destruct HC as [-> | ->]; [|destruct (jo_sub o)]; reflexivity. }
  assert (map (fun c => (a_id c, a_td c, a_ta c)) (enc_comps o) = scan_comps (jo_ct o)) as ->.
  { unfold enc_comps. destruct HC as [-> | ->]; [|destruct (jo_sub o)]; reflexivity. }
  unfold jfif_segment, dqt_segment, dht_segment. destruct (jo_restart o); cbn [flat_map snd seg_bytes fst repeat app]; rewrite ?app_nil_r; repeat rewrite <- app_assoc; cbn [app]; reflexivity.
Qed.

Lemma chunks_map {A B} (g : A -> B) n (l : list A) : chunks n (map g l) = map (map g) (chunks n l).
Proof.
  unfold chunks. rewrite map_length. generalize (length l) as k. intros k. revert l. induction k as [|k IH]; intros l; [reflexivity|].
  destruct l as [|a l]; [reflexivity|]. cbn [map chunks_fuel]. rewrite <- (map_cons g). rewrite firstn_map, skipn_map, IH. reflexivity.
Qed.
Lemma intervals_map {A B} (g : A -> B) ri (l : list A) : intervals ri (map g l) = map (map g) (intervals ri l).
Proof. destruct ri as [i|]; [apply chunks_map|reflexivity]. Qed.
Lemma tab_legal bits vals codes : enc_ok bits vals codes -> huff_legal bits vals.
Proof. intros [(L & F & E & R) _]. unfold huff_legal. rewrite spec_sizes_eq by exact L. auto. Qed.
Lemma legal_len bits vals : huff_legal bits vals -> zlen (bits ++ vals) <= 272.
Proof.
  intros (L & _ & _ & BY & ND & _). rewrite zlen_app. unfold zlen. rewrite L.
  assert (length vals <= 256)%nat; [|lia].
  assert (incl vals (idxs 256)) as HI. { intros v Hv. apply in_idxs. unfold bytes in BY. rewrite Forall_forall in BY. specialize (BY v Hv). unfold is_byte in BY. lia. }
  pose proof (NoDup_incl_length ND HI) as K. rewrite idxs_length in K. exact K.
Qed.

Section Enc.
  Variables (q : list Z -> list Z -> list Z) (data : list Z) (o : jopts) (t : htables) (scan : list Z).
  Hypothesis V : valid_args data o.
  Hypothesis HQ : dctq_ok q.
  Hypothesis HT : tabs_ok t.
  Hypothesis SC : scan_code (tabs_of t) 0 (map (fun iv => zzs (concat iv)) (intervals (jo_restart o) (image_mcus q data o))) scan.
  Let f := enc_file o (tabs_of t 0) (tabs_of t 1) scan.
  Definition enc_block (c bx by_ : Z) : list Z := zigzag_reorder (block_coefs q data o c bx by_).
  Definition enc_quant (c : Z) : list Z := table_zigzag (if c =? 0 then STD_LUMINANCE_TABLE else STD_CHROMINANCE_TABLE) (jo_quality o).

  Lemma enc_ct : jo_ct o = Gray \/ jo_ct o = Rgb. Proof using V. clear - V. destruct V as (_ & _ & _ & _ & _ & H & _). exact H. Qed.
  Lemma enc_across : across f = mcus_across o /\ down f = mcus_down o.
  Proof using V.
    pose proof enc_ct as HC. clear - HC. unfold across, down, up_div, mcus_across, mcus_down, factor, single, maxh, maxv, f. cbn [enc_file f_comps f_w f_h]. unfold enc_comps.
    destruct HC as [-> | ->]; [|destruct (jo_sub o)]; split; reflexivity.
  Qed.
  Lemma enc_order k : mcu_order f k = mcu_places o k.
  Proof using V.
    destruct enc_across as [E _]. pose proof enc_ct as HC. unfold mcu_order. rewrite E. clear - HC. unfold mcu_places, hfac, vfac, single, comp_at, f. cbn [enc_file f_comps]. unfold enc_comps.
    generalize (k mod mcus_across o) (k / mcus_across o). intros mx my.
    destruct HC as [-> | ->]; [|destruct (jo_sub o)].
    - transitivity [(0, mx * 1 + 0, my * 1 + 0)]; [reflexivity|]. rewrite !Z.mul_1_r, !Z.add_0_r. reflexivity.
    - transitivity [(0, mx * 1 + 0, my * 1 + 0); (1, mx * 1 + 0, my * 1 + 0); (2, mx * 1 + 0, my * 1 + 0)]; [reflexivity|]. rewrite !Z.mul_1_r, !Z.add_0_r. reflexivity.
    - transitivity [(0, mx * 2 + 0, my * 2 + 0); (0, mx * 2 + 1, my * 2 + 0); (0, mx * 2 + 0, my * 2 + 1); (0, mx * 2 + 1, my * 2 + 1); (1, mx * 1 + 0, my * 1 + 0); (2, mx * 1 + 0, my * 1 + 0)]; [reflexivity|].
      rewrite !Z.mul_1_r, !Z.add_0_r, !(Z.mul_comm 2). reflexivity.
  Qed.
  Lemma enc_interval : restart_interval (f_before f ++ f_after f) = jo_restart o.
  Proof using V.
    destruct V as (_ & _ & _ & _ & _ & _ & HR). clear - HR. unfold restart_interval, f. cbn [enc_file f_before f_after app]. unfold intervals_set. cbn [flat_map snd app].
    destruct (jo_restart o) as [i|]; cbn [flat_map snd app last]; [|reflexivity]. destruct (Z.eqb_spec i 0); [lia|reflexivity].
  Qed.
  Lemma enc_scan : scan_code (tabs_of t) 0 (map (fun mcus => map (fun '(c, bx, by_) => (c, enc_block c bx by_)) (concat mcus))
    (intervals (restart_interval (f_before f ++ f_after f)) (map (mcu_order f) (idxs (Z.to_nat (across f * down f)))))) scan.
  Proof using V SC.
    rewrite enc_interval. destruct enc_across as [-> ->]. rewrite (map_ext _ _ enc_order). unfold image_mcus in SC.
    rewrite <- (map_map (mcu_places o) (map (fun '(c, bx, by_) => (c, block_coefs q data o c bx by_)))) in SC. rewrite intervals_map in SC. rewrite map_map in SC.
    erewrite map_ext; [exact SC|]. intros l. cbv beta. rewrite concat_map. unfold zzs. rewrite <- concat_map, !concat_map. rewrite !map_map. f_equal. apply map_ext. intros m. rewrite map_map. apply map_ext. intros [[c bx] by_]. reflexivity.
  Qed.
  Lemma enc_places_pos k c bx by_ : 0 <= k -> In (c, bx, by_) (mcu_places o k) -> 0 <= c <= 2 /\ 0 <= bx /\ 0 <= by_.
  Proof using V.
    pose proof enc_ct as HC. destruct V as (W1 & W2 & _). intros Hk HI. unfold mcu_places in HI.
    assert (0 <= k mod mcus_across o /\ 0 <= k / mcus_across o) as [M1 M2].
    { assert (0 < mcus_across o) by (unfold mcus_across; assert (1 <= factor o <= 2) by (unfold factor; destruct (jo_ct o), (jo_sub o); lia); apply Z.div_str_pos; lia).
      split; [apply Z.mod_pos_bound; lia|apply Z.div_pos; lia]. }
    revert HI M1 M2. generalize (k mod mcus_across o) (k / mcus_across o). clear - HC. intros mx my HI M1 M2.
    destruct HC as [E|E]; rewrite E in HI; [|destruct (jo_sub o)]; cbn [In] in HI;
      repeat match goal with H : _ \/ _ |- _ => destruct H as [H|H]; [injection H as <- <- <-; lia|] end; destruct HI.
  Qed.
  Lemma enc_in c bx by_ : In (c, bx, by_) (all_blocks f) -> 0 <= c <= 2 /\ 0 <= bx /\ 0 <= by_.
  Proof using V.
    intros H. unfold all_blocks in H. apply in_flat_map in H as (k & Hk & H). rewrite enc_order in H. apply in_idxs in Hk. apply (enc_places_pos k); [lia|exact H].
  Qed.
  Lemma quant_zigzag c i : 0 <= i < 64 -> znth (enc_quant c) i = znth (comp_table o c) (znth ZIGZAG i) /\ 0 <= znth ZIGZAG i < 64.
  Proof using.
    clear. intros Hi. assert (0 <= znth ZIGZAG i < 64) as R.
    { assert (Forall (fun z => 0 <= z < 64) ZIGZAG) as F by (repeat constructor; lia). rewrite Forall_forall in F. apply F. apply nth_In. change (length ZIGZAG) with 64%nat. lia. }
    split; [|exact R]. unfold enc_quant, comp_table, table_zigzag, table_natural.
    rewrite (znth_map_in _ _ i) by (change (zlen ZIGZAG) with 64; lia).
    rewrite (znth_map_in _ _ (znth ZIGZAG i)) by (destruct (c =? 0); exact R). reflexivity.
  Qed.
  Lemma block_zigzag c bx by_ i : 0 <= i < 64 -> znth (enc_block c bx by_) i = znth (block_coefs q data o c bx by_) (znth ZIGZAG i).
  Proof using.
    clear. intros Hi. unfold enc_block, zigzag_reorder. rewrite (znth_map_in _ _ i) by (change (zlen ZIGZAG) with 64; lia). reflexivity.
  Qed.
  Lemma enc_conforming : conforming_jpeg 2047 f enc_block (tabs_of t) enc_quant.
  Proof using V HQ HT SC.
    pose proof enc_ct as HC. destruct V as (W & H & QU & BY & L & _ & HR). destruct HT as (T1 & T2 & T3 & T4).
    apply tab_legal in T1, T2, T3, T4.
    constructor.
    - unfold f. cbn [enc_file f_w f_h]. lia.
    - unfold f. cbn [enc_file f_comps]. unfold enc_comps. destruct HC as [-> | ->]; [left; reflexivity|right; destruct (jo_sub o); reflexivity].
    - intros c Hc. unfold f in Hc. cbn [enc_file f_comps] in Hc. unfold enc_comps in Hc. destruct HC as [E|E]; rewrite E in Hc; [|destruct (jo_sub o)]; cbn [In] in Hc;
        repeat match goal with K : _ \/ _ |- _ => destruct K as [K|K]; [subst c; cbn; lia|] end; destruct Hc.
    - pose proof (legal_len _ _ T1) as L1. pose proof (legal_len _ _ T2) as L2. pose proof (legal_len _ _ T3) as L3. pose proof (legal_len _ _ T4) as L4.
      assert (forall k, seg_legal (0%nat, Quant [(0, if k : bool then 0 else 1, table_zigzag (if k then STD_LUMINANCE_TABLE else STD_CHROMINANCE_TABLE) (jo_quality o))])) as QL.
      { intros k. unfold seg_legal. cbn [snd flat_map quant_bytes]. destruct (table_zigzag_range (if k then STD_LUMINANCE_TABLE else STD_CHROMINANCE_TABLE) (jo_quality o)) as [R1 R2].
        split; [rewrite app_nil_r; cbn [Z.eqb]; rewrite zlen_cons; unfold zlen; rewrite R2; lia|]. constructor; [|constructor].
        split; [left; reflexivity|]. split; [destruct k; lia|]. split; [exact R2|]. eapply Forall_impl; [|exact R1]. intros a Ha. cbv beta in *. change (256 ^ (0 + 1)) with 256. lia. }
      assert (forall cls id bits vals, cls = 0 \/ cls = 1 -> 0 <= id <= 3 -> huff_legal bits vals -> zlen (bits ++ vals) <= 272 -> seg_legal (0%nat, Huff [(cls, id, bits, vals)])) as HL.
      { intros cls id bits vals K1 K2 K3 K4. unfold seg_legal. cbn [snd flat_map huff_bytes]. split; [rewrite app_nil_r, zlen_cons; lia|]. constructor; [|constructor]. auto. }
      unfold f. cbn [enc_file f_before f_after app].
      constructor. { unfold seg_legal. cbn [snd]. split; [left; lia|]. split; [unfold bytes; repeat constructor; discriminate|reflexivity]. }
      constructor; [exact (QL true)|]. constructor; [exact (QL false)|].
      constructor; [apply HL; auto; lia|]. constructor; [apply HL; auto; lia|]. constructor; [apply HL; auto; lia|]. constructor; [apply HL; auto; lia|].
      destruct (jo_restart o) as [i|]; [|constructor]. constructor; [|constructor]. unfold seg_legal. cbn [snd]. lia.
    - intros c Hc. unfold f in Hc. cbn [enc_file f_comps] in Hc.
      assert (c = 0 /\ comp_at f c = nth 0 (enc_comps o) (mkac 0 1 1 0 0 0) /\ a_tq (comp_at f c) = 0 /\ a_td (comp_at f c) = 0 /\ a_ta (comp_at f c) = 0 \/
              (c = 1 \/ c = 2) /\ a_tq (comp_at f c) = 1 /\ a_td (comp_at f c) = 1 /\ a_ta (comp_at f c) = 1) as CS.
      { unfold comp_at, f. cbn [enc_file f_comps]. unfold enc_comps in *. clear - HC Hc. destruct HC as [E|E]; rewrite E in *; [|destruct (jo_sub o)];
          cbv [zlen length Z.of_nat Pos.of_succ_nat Pos.succ] in Hc.
        - assert (c = 0) as -> by lia. left. auto.
        - assert (c = 0 \/ c = 1 \/ c = 2) as [-> | [-> | ->]] by lia; [left|right|right]; auto.
        - assert (c = 0 \/ c = 1 \/ c = 2) as [-> | [-> | ->]] by lia; [left|right|right]; auto. }
      assert (forall cl, huffs cl (match jo_restart o with Some i => [(0%nat, Interval i)] | None => [] end) = []) as NH by (intros cl; destruct (jo_restart o); reflexivity).
      assert (quants (match jo_restart o with Some i => [(0%nat, Interval i)] | None => [] end) = []) as NQ by (destruct (jo_restart o); reflexivity).
      unfold f. cbn [enc_file f_before f_after]. unfold quants, huffs in *. rewrite !flat_map_app, NQ, !NH, !app_nil_r. cbn [flat_map snd map app Z.eqb].
      fold f. destruct CS as [(-> & _ & -> & -> & ->)|(HC12 & -> & -> & ->)].
      + split; [exists [], [(1, table_zigzag STD_CHROMINANCE_TABLE (jo_quality o))]; split; [reflexivity|intros [K|[]]; discriminate K]|].
        split; eexists [], [_]; (split; [reflexivity|intros [K|[]]; discriminate K]).
      + assert (enc_quant c = table_zigzag STD_CHROMINANCE_TABLE (jo_quality o) /\ tabs_of t c = tabs_of t 1) as [-> ->] by (destruct HC12 as [-> | ->]; split; reflexivity).
        split; [|split]; eexists [_], []; (split; [reflexivity|intros []]).
    - intros c bx by_ HI. destruct (enc_in _ _ _ HI) as (I1 & I2 & I3). destruct (comp_table_ok o c) as [K1 K2].
      assert (valid_args data o) as VV by (unfold valid_args; auto 10). destruct (block_samples_range data o c bx by_ VV I2 I3) as [K3 K4].
      destruct (HQ _ _ K1 K2 K3 K4) as (Q1 & Q2 & _ & Q3). split; [apply zigzag_reorder_length|]. split.
      + change (- 2 ^ 15 <= znth (block_coefs q data o c bx by_) 0 < 2 ^ 15). unfold block_coefs. lia.
      + intros i Hi. destruct (quant_zigzag c i Hi) as [-> R]. rewrite block_zigzag by exact Hi. apply Q3. exact R.
    - exact enc_scan.
  Qed.
  Lemma enc_usual : usual_sampling f.
  Proof using V.
    pose proof enc_ct as HC. clear - HC. unfold usual_sampling, comp_at, maxh, maxv, f. cbn [enc_file f_comps]. unfold enc_comps. destruct HC as [-> | ->].
    - left. auto.
    - right. destruct (jo_sub o); (split; [reflexivity|]; split; [reflexivity|]; split; [reflexivity|]); intros c [<-|[<-|[<-|[]]]]; cbn; split; first [exists 1; reflexivity|exists 2; reflexivity].
  Qed.
End Enc.

Lemma rsum_le f g n : (forall i, (i < n)%nat -> (f i <= g i)%R) -> (rsum f n <= rsum g n)%R.
Proof.
  intros H. unfold rsum. assert (forall i, In i (seq 0 n) -> (f i <= g i)%R) as K by (intros i Hi; apply H; apply in_seq in Hi; lia).
  induction (seq 0 n) as [|a l IH]; [cbn; lra|]. cbn [map fold_right]. apply Rplus_le_compat; [apply K; left; reflexivity|apply IH; intros i Hi; apply K; right; exact Hi].
Qed.
Lemma rsum_perm (l k : list R) : Permutation l k -> fold_right Rplus 0%R l = fold_right Rplus 0%R k.
Proof. induction 1 as [|x l k _ IH|x y l|l m k _ IH1 _ IH2]; cbn [fold_right]; [reflexivity|rewrite IH; reflexivity|lra|congruence]. Qed.
Lemma zigzag_perm : Permutation (map Z.to_nat ZIGZAG) (seq 0 64).
Proof.
  apply NoDup_Permutation_bis.
  - apply (NoDup_count_occ' Nat.eq_dec). intros x Hx. assert (Forall (fun x => count_occ Nat.eq_dec (map Z.to_nat ZIGZAG) x = 1%nat) (map Z.to_nat ZIGZAG)) as F by (repeat constructor). rewrite Forall_forall in F. apply F. exact Hx.
  - apply Nat.le_refl.
  - intros x Hx. apply in_seq. assert (Forall (fun x => (x < 64)%nat) (map Z.to_nat ZIGZAG)) as F by (apply Forall_map; repeat constructor; cbn; lia). rewrite Forall_forall in F. specialize (F x Hx). lia.
Qed.
Lemma allowed_perm o c : allowed_error (enc_quant o c) = allowed_error (comp_table o c).
Proof.
  unfold allowed_error, rsum. cbv zeta. symmetry. rewrite <- (rsum_perm _ _ (Permutation_map _ zigzag_perm)). rewrite map_map.
  assert (ZIGZAG = map (fun i => znth ZIGZAG (Z.of_nat i)) (seq 0 64)) as EZ by reflexivity. rewrite EZ, map_map. f_equal. apply map_ext_in. intros n Hn. apply in_seq in Hn.
  destruct (quant_zigzag o c (Z.of_nat n) ltac:(lia)) as [E R]. unfold znth in E at 1. rewrite Nat2Z.id in E. rewrite E. reflexivity.
Qed.
Lemma clamp_closer x s : (0 <= s <= 255)%R -> ((rclamp x - s) * (rclamp x - s) <= (x - s) * (x - s))%R.
Proof.
  intros H. unfold rclamp, Rmax, Rmin. destruct (Rle_dec 255 x) as [A|A]; [destruct (Rle_dec 0 255); nra|]. destruct (Rle_dec 0 x); nra.
Qed.
Lemma fid_block data o c bx by_ coefs : valid_args data o -> 0 <= bx -> 0 <= by_ ->
  is_dequantised (enc_block dctq data o c bx by_) (enc_quant o c) coefs -> (square_error data o c bx by_ coefs <= allowed_error (enc_quant o c))%R.
Proof.
  intros V Hx Hy [LC HD]. rewrite allowed_perm. destruct (comp_table_ok o c) as [K1 K2]. destruct (block_samples_range data o c bx by_ V Hx Hy) as [K3 K4].
  set (bs := block_samples data o c bx by_) in *.
  assert (forall n, 0 <= n < 64 -> znth coefs n = znth (dctq (comp_table o c) bs) n * znth (comp_table o c) n) as HN.
  { intros n Hn. destruct (zigzag_onto n Hn) as (i & Hi & E). specialize (HD i Hi). rewrite zigzag_order_eq, E in HD.
    destruct (quant_zigzag o c i Hi) as [E2 _]. rewrite E2, block_zigzag, E in HD by exact Hi. exact HD. }
  apply Rle_trans with (rsum (fun m => (real_idct coefs (m mod 8) (m / 8) - sample_r bs m) * (real_idct coefs (m mod 8) (m / 8) - sample_r bs m)) 64)%R.
  - unfold square_error. apply rsum_le. intros m Hm. cbv zeta.
    assert (source_sample data o c (8 * bx + Z.of_nat (m mod 8)) (8 * by_ + Z.of_nat (m / 8)) = 128 + sample_r bs m)%R as ->.
    { unfold source_sample, sample_r, bs, block_samples. f_equal. f_equal. f_equal. pose proof (znth_map_idxs (fun i => plane_sample data o c (8 * bx + i mod 8) (8 * by_ + i / 8)) 64 (Z.of_nat m) ltac:(lia)) as E.
      unfold znth in E. rewrite Nat2Z.id in E. rewrite E. rewrite Nat2Z.inj_mod, Nat2Z.inj_div. reflexivity. }
    unfold block_sample. replace (real_idct coefs (m mod 8) (m / 8) - sample_r bs m)%R with ((128 + real_idct coefs (m mod 8) (m / 8)) - (128 + sample_r bs m))%R by ring.
    apply clamp_closer. pose proof (samples_range bs (conj K3 K4) m Hm). lra.
  - rewrite parseval_error. unfold allowed_error. apply rsum_le. intros n Hn. cbv zeta.
    pose proof (dctq_accurate (comp_table o c) bs (Z.of_nat n) K1 K2 (conj K3 K4) ltac:(lia)) as A. rewrite Nat2Z.id in A. rewrite HN by lia.
    assert (nth n (comp_table o c) 0 = znth (comp_table o c) (Z.of_nat n)) as -> by (unfold znth; rewrite Nat2Z.id; reflexivity).
    set (e := (IZR (znth (dctq (comp_table o c) bs) (Z.of_nat n) * znth (comp_table o c) (Z.of_nat n)) - real_fdct (sample_r bs) n)%R) in *.
    assert (- (IZR (znth (comp_table o c) (Z.of_nat n)) / 2 + 0.0101) <= e <= IZR (znth (comp_table o c) (Z.of_nat n)) / 2 + 0.0101)%R as B by (clear - A; unfold Rabs in A; destruct (Rcase_abs e); lra).
    clear - B. nra.
Qed.

Theorem pixo_fidelity data o : valid_args data o -> jo_prog o = false ->
  exists f B T Q, jencode pixo_env data o = Ok (file_bytes f) /\ conforming_jpeg 2047 f B T Q /\ usual_sampling f /\
    f_w f = jo_w o /\ f_h f = jo_h o /\ zlen (f_comps f) = ncomps o /\ restart_interval (f_before f ++ f_after f) = jo_restart o /\
    forall c bx by_ coefs, In (c, bx, by_) (all_blocks f) -> is_dequantised (B c bx by_) (Q c) coefs -> (square_error data o c bx by_ coefs <= allowed_error (Q c))%R.
Proof.
  intros V P. destruct (jencode_baseline pixo_env data o V dctq_dctq_ok P) as (t & scan & E & HT & SC).
  change (je_dctq pixo_env) with dctq in SC. pose proof (enc_ct data o V) as HC.
  exists (enc_file o (tabs_of t 0) (tabs_of t 1) scan), (enc_block dctq data o), (tabs_of t), (enc_quant o).
  split; [rewrite enc_file_bytes by exact HC; exact E|]. split; [exact (enc_conforming dctq data o t scan V dctq_dctq_ok HT SC)|].
  split; [exact (enc_usual data o t scan V)|]. split; [reflexivity|]. split; [reflexivity|].
  split. { cbn [enc_file f_comps]. unfold enc_comps, ncomps. destruct HC as [-> | ->]; [reflexivity|destruct (jo_sub o); reflexivity]. }
  split; [exact (enc_interval data o t scan V)|].
  intros c bx by_ coefs HI HD. destruct (enc_in data o t scan V c bx by_ HI) as (_ & I2 & I3). exact (fid_block data o c bx by_ coefs V I2 I3 HD).
Qed.
(** at quality 100 every step is 1 *)
Lemma steps_100 o c : jo_quality o = 100 -> enc_quant o c = repeat 1 64.
Proof. intros E. unfold enc_quant. rewrite E. destruct (c =? 0); reflexivity. Qed.
Lemma allowed_ones : (allowed_error (repeat 1%Z 64) <= 16.7)%R.
Proof.
  unfold allowed_error, rsum. apply Rle_trans with (fold_right Rplus 0 (map (fun _ => 0.2603) (seq 0 64)))%R.
  - apply (rsum_le _ (fun _ => 0.2603%R)). intros n Hn. cbv zeta. rewrite nth_repeat_lt by exact Hn. lra.
  - cbn [seq map fold_right]. lra.
Qed.
Lemma sample_of_square data o c bx by_ coefs m E : (m < 64)%nat -> (0 <= E)%R -> (square_error data o c bx by_ coefs <= E * E)%R ->
  (Rabs (block_sample coefs m - source_sample data o c (8 * bx + Z.of_nat (m mod 8)) (8 * by_ + Z.of_nat (m / 8))) <= E)%R.
Proof.
  intros Hm HE H. set (e := fun m => (block_sample coefs m - source_sample data o c (8 * bx + Z.of_nat (m mod 8)) (8 * by_ + Z.of_nat (m / 8)))%R).
  change (Rabs (e m) <= E)%R. assert (e m * e m <= E * E)%R as K.
  { eapply Rle_trans; [|exact H]. unfold square_error. change (e m * e m <= rsum (fun k => e k * e k) 64)%R. unfold rsum.
    assert (In m (seq 0 64)) as HI by (apply in_seq; lia). clear - HI. induction (seq 0 64) as [|a l IH]; [destruct HI|]. cbn [map fold_right].
    assert (0 <= fold_right Rplus 0 (map (fun k => e k * e k) l))%R as P by (clear; induction l; cbn [map fold_right]; [lra|nra]).
    destruct HI as [->|HI]; [lra|]. specialize (IH HI). nra. }
  apply Rsqr_incr_0_var; [|exact HE]. rewrite <- Rsqr_abs. exact K.
Qed.
Theorem pixo_fidelity_100 data o : valid_args data o -> jo_prog o = false -> jo_quality o = 100 ->
  exists f B T Q, jencode pixo_env data o = Ok (file_bytes f) /\ conforming_jpeg 2047 f B T Q /\
    forall c bx by_ coefs, In (c, bx, by_) (all_blocks f) -> is_dequantised (B c bx by_) (Q c) coefs ->
      (square_error data o c bx by_ coefs / 64 <= 0.511 * 0.511)%R /\
      forall m, (m < 64)%nat -> (Rabs (block_sample coefs m - source_sample data o c (8 * bx + Z.of_nat (m mod 8)) (8 * by_ + Z.of_nat (m / 8))) <= 4.1)%R.
Proof.
  intros V P H100. destruct (jencode_baseline pixo_env data o V dctq_dctq_ok P) as (t & scan & E & HT & SC).
  change (je_dctq pixo_env) with dctq in SC. pose proof (enc_ct data o V) as HC.
  exists (enc_file o (tabs_of t 0) (tabs_of t 1) scan), (enc_block dctq data o), (tabs_of t), (enc_quant o).
  split; [rewrite enc_file_bytes by exact HC; exact E|]. split; [exact (enc_conforming dctq data o t scan V dctq_dctq_ok HT SC)|].
  intros c bx by_ coefs HI HD. destruct (enc_in data o t scan V c bx by_ HI) as (_ & I2 & I3). pose proof (fid_block data o c bx by_ coefs V I2 I3 HD) as F.
  rewrite (steps_100 o c H100) in F. pose proof allowed_ones. split; [lra|]. intros m Hm. apply sample_of_square; [exact Hm|lra|lra].
Qed.
