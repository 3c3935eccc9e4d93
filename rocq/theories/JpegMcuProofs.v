(** The encoder's loops visit exactly the blocks of the image, in order. *)
From Verif Require Import Base BitsProofs Lz77Model PngFilterModel PngPaletteModel PngFilterProofs JpegBaseModel JpegDecModel JpegEncModel JpegBaseProofs JpegImgSpec JpegSpec JpegEncProofs JpegCountProofs.

Lemma seq_grid W H : seq 0 (H * W) = flat_map (fun y => map (fun x => (y * W + x)%nat) (seq 0 W)) (seq 0 H).
Proof.
  induction H as [|H IH]; [reflexivity|]. rewrite seq_S. cbn [Nat.add]. rewrite flat_map_app, <- IH. cbn [flat_map]. rewrite app_nil_r.
  replace (S H * W)%nat with (H * W + W)%nat by lia. rewrite seq_app. f_equal. cbn [Nat.add].
  rewrite <- (map_id (seq (H * W) W)).
  assert (forall n s, map (fun x => x) (seq (s + n) W) = map (fun x => (n + x)%nat) (seq s W)) as K.
  { intros n. generalize W. induction W0 as [|w IHw]; intros s; [reflexivity|]. cbn [seq map]. f_equal; [lia|]. apply (IHw (S s)). }
  apply (K (H * W)%nat 0%nat).
Qed.
Lemma grid_map {A} (f : Z -> Z -> A) (W H : Z) : 0 < W -> 0 <= H ->
  flat_map (fun y => map (fun x => f x y) (idxs (Z.to_nat W))) (idxs (Z.to_nat H)) = map (fun k => f (k mod W) (k / W)) (idxs (Z.to_nat (H * W))).
Proof.
  intros HW HH. unfold idxs. rewrite Z2Nat.inj_mul by lia. rewrite seq_grid.
  rewrite !flat_map_concat_map, !map_map, !concat_map, !map_map. f_equal. apply map_ext_in. intros y Hy. apply in_seq in Hy.
  rewrite !map_map. apply map_ext_in. intros x Hx. apply in_seq in Hx.
  rewrite Nat2Z.inj_add, Nat2Z.inj_mul, Z2Nat.id by lia. f_equal.
  - rewrite Z.add_comm, Z.mod_add by lia. rewrite Z.mod_small; lia.
  - rewrite Z.div_add_l by lia. rewrite Z.div_small; lia.
Qed.
Lemma pad_div n k : 0 <= k -> pad_to n (2 ^ k) / 2 ^ k = (n + 2 ^ k - 1) / 2 ^ k.
Proof.
  intros Hk. unfold pad_to. rewrite <- Z.ldiff_land.
  replace (2 ^ k - 1) with (Z.ones k) by (rewrite Z.ones_equiv; lia). rewrite Z.ldiff_ones_r by lia.
  pose proof (pow2_gt0 k Hk). rewrite Z.shiftl_mul_pow2, Z.shiftr_div_pow2 by lia. rewrite Z.div_mul by lia. f_equal. rewrite Z.ones_equiv. lia.
Qed.
Lemma corners_eq o : 1 <= jo_w o -> 1 <= jo_h o ->
  corners (jo_w o) (jo_h o) (mcu_step o) =
  map (fun k => (k mod mcus_across o * (8 * factor o), k / mcus_across o * (8 * factor o))) (idxs (Z.to_nat (mcus_across o * mcus_down o))).
Proof.
  intros Hw Hh. unfold corners.
  assert (exists k, 0 <= k /\ mcu_step o = 2 ^ k /\ 8 * factor o = 2 ^ k) as (k & Hk & E1 & E2).
  { unfold mcu_step, factor. destruct (jo_ct o), (jo_sub o); (exists 3; split; [lia|split; reflexivity]) || (exists 4; split; [lia|split; reflexivity]). }
  unfold mcus_across, mcus_down. rewrite E1, E2, !pad_div by exact Hk. pose proof (pow2_gt0 k Hk) as P.
  set (W := (jo_w o + 2 ^ k - 1) / 2 ^ k). set (H := (jo_h o + 2 ^ k - 1) / 2 ^ k).
  assert (0 < W) by (apply Z.div_str_pos; lia). assert (0 < H) by (apply Z.div_str_pos; lia).
  rewrite (grid_map (fun x y => (x * 2 ^ k, y * 2 ^ k)) W H) by lia. rewrite (Z.mul_comm H W). reflexivity.
Qed.

Lemma valid_index data o x y : valid_args data o -> 0 <= x < jo_w o -> 0 <= y < jo_h o -> 0 <= y * jo_w o + x < jo_w o * jo_h o.
Proof. intros _ Hx Hy. nia. Qed.
Lemma sample_at_ok data o x y : valid_args data o -> 0 <= x -> 0 <= y ->
  let e c := edge_at data (jo_w o) (jo_h o) (jo_ct o) c x y in
  sample_at data (jo_w o) (jo_h o) (jo_ct o) x y = Ok (4 * e 0, match jo_ct o with Gray => 0 | _ => 4 * e 1 end, match jo_ct o with Gray => 0 | _ => 4 * e 2 end) /\
  (forall c, -128 <= e c <= 127).
Proof.
  intros V Hx Hy e. pose proof V as (Hw & Hh & _ & HB & HL & HC & _).
  assert (0 <= Z.min x (jo_w o - 1) < jo_w o) as Bx by lia. assert (0 <= Z.min y (jo_h o - 1) < jo_h o) as By by lia.
  pose proof (valid_index data o _ _ V Bx By) as BI. subst e. cbv beta. unfold sample_at, edge_at, ycc_at.
  set (i := Z.min y (jo_h o - 1) * jo_w o + Z.min x (jo_w o - 1)) in *. clearbody i.
  assert (forall j, is_byte (znth data j)) as BJ by (intros j; unfold znth; apply (Forall_nth_d is_byte); [exact HB|unfold is_byte; lia]).
  unfold ncomps in HL. destruct HC as [HC|HC]; rewrite HC in *.
  - rewrite (get_ok data i 0) by lia. cbn [rbind]. unfold comp_of. cbn [fst snd]. split; [reflexivity|].
    intros c. specialize (BJ i). unfold is_byte in BJ. destruct (c =? 0); [lia|]. destruct (c =? 1); lia.
  - rewrite (get_ok data (i * 3) 0), (get_ok data (i * 3 + 1) 0), (get_ok data (i * 3 + 2) 0) by lia. cbn [rbind].
    fold (znth data (i * 3)) (znth data (i * 3 + 1)) (znth data (i * 3 + 2)).
    destruct (rgb_to_ycbcr (znth data (i * 3)) (znth data (i * 3 + 1)) (znth data (i * 3 + 2))) as [[[yc cb] cr]| | |] eqn:E;
      [|rewrite rgb_to_ycbcr_ok in E by auto; discriminate|rewrite rgb_to_ycbcr_ok in E by auto; discriminate|rewrite rgb_to_ycbcr_ok in E by auto; discriminate].
    apply rgb_to_ycbcr_range in E as (R1 & R2 & R3). cbn [rbind]. unfold comp_of. cbn [fst snd]. split; [reflexivity|].
    intros c. unfold is_byte in *. destruct (c =? 0); [lia|]. destruct (c =? 1); lia.
Qed.
Lemma plane_sample_range data o c x y : valid_args data o -> 0 <= x -> 0 <= y -> -512 <= plane_sample data o c x y <= 508.
Proof.
  intros V Hx Hy. unfold plane_sample. cbv zeta.
  pose proof (proj2 (sample_at_ok data o x y V Hx Hy) c) as E0. cbv beta in E0.
  pose proof (proj2 (sample_at_ok data o (2 * x) (2 * y) V ltac:(lia) ltac:(lia)) c) as E1.
  pose proof (proj2 (sample_at_ok data o (2 * x + 1) (2 * y) V ltac:(lia) ltac:(lia)) c) as E2.
  pose proof (proj2 (sample_at_ok data o (2 * x) (2 * y + 1) V ltac:(lia) ltac:(lia)) c) as E3.
  pose proof (proj2 (sample_at_ok data o (2 * x + 1) (2 * y + 1) V ltac:(lia) ltac:(lia)) c) as E4. cbv beta in E1, E2, E3, E4.
  destruct ((c =? 0) || (factor o =? 1)); lia.
Qed.
Lemma block_samples_range data o c bx by_ : valid_args data o -> 0 <= bx -> 0 <= by_ ->
  length (block_samples data o c bx by_) = 64%nat /\ Forall (fun s => -512 <= s <= 508) (block_samples data o c bx by_).
Proof.
  intros V Hx Hy. unfold block_samples. split; [rewrite map_length; apply idxs_length|]. apply Forall_map. apply Forall_forall. intros i Hi. apply in_idxs in Hi.
  apply plane_sample_range; [exact V| |]; pose proof (Z.mod_pos_bound i 8 ltac:(lia)); pose proof (Z.div_pos i 8 ltac:(lia) ltac:(lia)); lia.
Qed.
Lemma comp_table_ok o c : length (comp_table o c) = 64%nat /\ Forall (fun v => 1 <= v <= 255) (comp_table o c).
Proof. unfold comp_table. destruct (table_natural_range (if c =? 0 then STD_LUMINANCE_TABLE else STD_CHROMINANCE_TABLE) (jo_quality o)) as [A B]. split; [rewrite B; destruct (c =? 0); reflexivity|exact A]. Qed.

Lemma idx8 i : In i (idxs 64) -> 0 <= i mod 8 < 8 /\ 0 <= i / 8 < 8.
Proof. intros H. apply in_idxs in H. split; [apply Z.mod_pos_bound; lia|]. split; [apply Z.div_pos; lia|apply Z.div_lt_upper_bound; lia]. Qed.
Lemma extract_block_ok data o bx by_ : valid_args data o -> factor o = 1 -> 0 <= bx -> 0 <= by_ ->
  exists cb cr, extract_block data (jo_w o) (jo_h o) (bx * 8) (by_ * 8) (jo_ct o) = Ok (block_samples data o 0 bx by_, cb, cr) /\
    (jo_ct o <> Gray -> cb = block_samples data o 1 bx by_ /\ cr = block_samples data o 2 bx by_).
Proof.
  intros V F Hx Hy. unfold extract_block.
  erewrite map_res_ok.
  2: { intros i Hi. apply idx8 in Hi. apply (sample_at_ok data o _ _ V); lia. }
  cbn [rbind]. rewrite !map_map. cbn [fst snd]. eexists _, _. split; [f_equal; f_equal; f_equal|].
  - unfold block_samples. apply map_ext. intros i. unfold plane_sample. cbn [Z.eqb orb]. rewrite (Z.mul_comm bx), (Z.mul_comm by_). reflexivity.
  - intros HG. unfold block_samples. split; apply map_ext; intros i; unfold plane_sample; rewrite F; cbn [Z.eqb orb]; rewrite (Z.mul_comm bx), (Z.mul_comm by_); destruct (jo_ct o); try reflexivity; congruence.
Qed.
Lemma chroma_avg_ok data o mx my i : valid_args data o -> jo_ct o = Rgb -> factor o = 2 -> 0 <= mx -> 0 <= my -> In i (idxs 64) ->
  chroma_avg data (jo_w o) (jo_h o) (mx * 16) (my * 16) i =
    Ok (plane_sample data o 1 (8 * mx + i mod 8) (8 * my + i / 8), plane_sample data o 2 (8 * mx + i mod 8) (8 * my + i / 8)).
Proof.
  intros V HC F Hx Hy Hi. apply idx8 in Hi as [B1 B2]. unfold chroma_avg.
  assert (forall x y, 0 <= x -> 0 <= y -> sample_at data (jo_w o) (jo_h o) Rgb x y =
    Ok (4 * edge_at data (jo_w o) (jo_h o) Rgb 0 x y, 4 * edge_at data (jo_w o) (jo_h o) Rgb 1 x y, 4 * edge_at data (jo_w o) (jo_h o) Rgb 2 x y)) as S.
  { intros x y X Y. pose proof (proj1 (sample_at_ok data o x y V X Y)) as E. cbv beta zeta in E. rewrite HC in E. exact E. }
  rewrite !S by lia. cbn [rbind]. unfold plane_sample. rewrite F, HC. cbn [Z.eqb orb].
  replace (mx * 16 + 2 * (i mod 8)) with (2 * (8 * mx + i mod 8)) by lia.
  replace (my * 16 + 2 * (i / 8)) with (2 * (8 * my + i / 8)) by lia.
  set (X := 2 * (8 * mx + i mod 8)). set (Y := 2 * (8 * my + i / 8)). f_equal. f_equal.
  - rewrite <- !Z.mul_add_distr_l, Z.mul_comm, Z.div_mul by lia. reflexivity.
  - rewrite <- !Z.mul_add_distr_l, Z.mul_comm, Z.div_mul by lia. reflexivity.
Qed.
Lemma extract_420_ok data o mx my : valid_args data o -> jo_ct o = Rgb -> factor o = 2 -> 0 <= mx -> 0 <= my ->
  extract_mcu_420 data (jo_w o) (jo_h o) (mx * 16) (my * 16) =
    Ok (map (fun b => block_samples data o 0 (2 * mx + b mod 2) (2 * my + b / 2)) (idxs 4), block_samples data o 1 mx my, block_samples data o 2 mx my).
Proof.
  intros V HC F Hx Hy. unfold extract_mcu_420.
  rewrite (map_res_ok _ (fun b => block_samples data o 0 (2 * mx + b mod 2) (2 * my + b / 2))).
  2: { intros b Hb. apply in_idxs in Hb. pose proof (Z.mod_pos_bound b 2 ltac:(lia)). pose proof (Z.div_pos b 2 ltac:(lia) ltac:(lia)).
    unfold block_samples. apply map_res_ok. intros i Hi. apply idx8 in Hi as [B1 B2].
    pose proof (proj1 (sample_at_ok data o (mx * 16 + b mod 2 * 8 + i mod 8) (my * 16 + b / 2 * 8 + i / 8) V ltac:(lia) ltac:(lia))) as E.
    cbv beta zeta in E. rewrite HC in E. rewrite E. cbn [rbind]. unfold plane_sample. cbn [Z.eqb orb]. rewrite HC.
    replace (8 * (2 * mx + b mod 2) + i mod 8) with (mx * 16 + b mod 2 * 8 + i mod 8) by lia.
    replace (8 * (2 * my + b / 2) + i / 8) with (my * 16 + b / 2 * 8 + i / 8) by lia. reflexivity. }
  cbn [rbind]. rewrite (map_res_ok _ (fun i => (plane_sample data o 1 (8 * mx + i mod 8) (8 * my + i / 8), plane_sample data o 2 (8 * mx + i mod 8) (8 * my + i / 8)))).
  2: { intros i Hi. apply chroma_avg_ok; auto. }
  cbn [rbind]. rewrite !map_map. reflexivity.
Qed.

Lemma lum_table_eq o : lum_table o = comp_table o 0.
Proof. reflexivity. Qed.
Lemma chrom_table_eq o c : c <> 0 -> chrom_table o = comp_table o c.
Proof. intros H. unfold chrom_table, comp_table. destruct (Z.eqb_spec c 0); [lia|reflexivity]. Qed.
Lemma map_res_map {A B C} (f : B -> res C) (g : A -> B) (h : A -> C) l : (forall x, In x l -> f (g x) = Ok (h x)) -> map_res f (map g l) = Ok (map h l).
Proof.
  induction l as [|x r IH]; intros H; [reflexivity|]. cbn [map map_res]. rewrite (H x) by (left; reflexivity). cbn [rbind].
  rewrite IH by (intros y Hy; apply H; right; exact Hy). reflexivity.
Qed.
Lemma across_pos o : 1 <= jo_w o -> 0 < mcus_across o.
Proof. intros H. unfold mcus_across. apply Z.div_str_pos. unfold factor. destruct (jo_ct o), (jo_sub o); lia. Qed.
Lemma down_pos o : 1 <= jo_h o -> 0 < mcus_down o.
Proof. intros H. unfold mcus_down. apply Z.div_str_pos. unfold factor. destruct (jo_ct o), (jo_sub o); lia. Qed.
Theorem all_mcus_ok q data o : valid_args data o -> all_mcus q data o = Ok (image_mcus q data o).
Proof.
  intros V. pose proof V as (Hw & Hh & _ & _ & _ & HC & _). unfold all_mcus. rewrite corners_eq by lia. unfold image_mcus.
  apply map_res_map. intros k Hk. apply in_idxs in Hk. unfold mcu_coefs, mcu_places.
  pose proof (across_pos o ltac:(lia)) as PA. pose proof (Z.mod_pos_bound k _ PA) as BM. pose proof (Z.div_pos k _ ltac:(lia) PA) as BD.
  set (mx := k mod mcus_across o) in *. set (my := k / mcus_across o) in *. clearbody mx my.
  destruct HC as [HC|HC].
  - assert (factor o = 1) as F by (unfold factor; rewrite HC; reflexivity).
    destruct (extract_block_ok data o mx my V F ltac:(lia) ltac:(lia)) as (cb & cr & E & _). rewrite F. rewrite HC in *.
    change (8 * 1) with 8. rewrite E. cbn [rbind map]. reflexivity.
  - destruct (jo_sub o) eqn:ES.
    + assert (factor o = 1) as F by (unfold factor; rewrite HC, ES; reflexivity).
      destruct (extract_block_ok data o mx my V F ltac:(lia) ltac:(lia)) as (cb & cr & E & K). rewrite F. rewrite HC in *.
      change (8 * 1) with 8. rewrite E. destruct (K ltac:(discriminate)) as [-> ->]. cbn [rbind map]. reflexivity.
    + assert (factor o = 2) as F by (unfold factor; rewrite HC, ES; reflexivity). rewrite F. change (8 * 2) with 16. rewrite HC.
      rewrite (extract_420_ok data o mx my V HC F ltac:(lia) ltac:(lia)). cbn [rbind].
      change (idxs 4) with [0; 1; 2; 3]. cbn [map app]. change (0 mod 2) with 0. change (1 mod 2) with 1. change (2 mod 2) with 0. change (3 mod 2) with 1.
      change (0 / 2) with 0. change (1 / 2) with 0. change (2 / 2) with 1. change (3 / 2) with 1. rewrite !Z.add_0_r. reflexivity.
Qed.

Lemma places_range o k c bx by_ : 1 <= jo_w o -> 1 <= jo_h o -> 0 <= k < mcus_across o * mcus_down o -> In (c, bx, by_) (mcu_places o k) ->
  0 <= c < ncomps o /\ 0 <= bx < mcus_across o * (if c =? 0 then factor o else 1) /\ 0 <= by_ < mcus_down o * (if c =? 0 then factor o else 1).
Proof.
  intros Hw Hh Hk. pose proof (across_pos o Hw) as PA. pose proof (Z.mod_pos_bound k _ PA) as BM. pose proof (Z.div_pos k _ ltac:(lia) PA) as BD.
  assert (k / mcus_across o < mcus_down o) as BD2 by (apply Z.div_lt_upper_bound; lia).
  unfold mcu_places. cbv zeta. set (mx := k mod mcus_across o) in *. set (my := k / mcus_across o) in *. clearbody mx my.
  assert (forall c', 0 <= c' < ncomps o -> (c', mx, my) = (c, bx, by_) -> 1 <= factor o -> 0 <= c < ncomps o /\ 0 <= bx < mcus_across o * (if c =? 0 then factor o else 1) /\ 0 <= by_ < mcus_down o * (if c =? 0 then factor o else 1)) as K.
  { intros c' Hc [= -> -> ->] HF. split; [exact Hc|]. destruct (c =? 0); nia. }
  unfold factor, ncomps in *. destruct (jo_ct o), (jo_sub o); cbn [In]; intros H;
    repeat (destruct H as [H|H]); try (apply (K _) in H; [exact H|lia|lia]); try contradiction;
    injection H as <- <- <-; cbn [Z.eqb]; lia.
Qed.
Lemma mcus_bound o : 1 <= jo_w o <= 65535 -> 1 <= jo_h o <= 65535 -> mcus_across o * mcus_down o <= 8192 * 8192.
Proof.
  intros Hw Hh. pose proof (across_pos o ltac:(lia)). pose proof (down_pos o ltac:(lia)).
  assert (mcus_across o <= 8192 /\ mcus_down o <= 8192) as [A B].
  { unfold mcus_across, mcus_down, factor. destruct (jo_ct o), (jo_sub o); split; apply Z.lt_succ_r; apply Z.div_lt_upper_bound; lia. }
  nia.
Qed.
Lemma image_mcus_ok q data o : valid_args data o -> dctq_ok q ->
  image_mcus q data o <> [] /\ zlen (image_mcus q data o) = mcus_across o * mcus_down o /\
  Forall (Forall coef_ok) (image_mcus q data o) /\ zlen (concat (image_mcus q data o)) < 2 ^ 40.
Proof.
  intros V HQ. pose proof V as (Hw & Hh & _ & _ & _ & HC & _). pose proof (across_pos o ltac:(lia)) as PA. pose proof (down_pos o ltac:(lia)) as PD.
  assert (zlen (image_mcus q data o) = mcus_across o * mcus_down o) as EL by (unfold zlen, image_mcus; rewrite map_length, idxs_length; lia).
  split; [intros E; rewrite E, zlen_nil in EL; nia|]. split; [exact EL|]. split.
  - unfold image_mcus. apply Forall_map. apply Forall_forall. intros k Hk. apply in_idxs in Hk. apply Forall_map. apply Forall_forall. intros [[c bx] by_] Hp.
    pose proof (places_range o k c bx by_ ltac:(lia) ltac:(lia) ltac:(nia) Hp) as (Bc & Bx & By).
    unfold coef_ok. cbn [fst snd]. destruct (block_samples_range data o c bx by_ V ltac:(lia) ltac:(lia)) as [S1 S2].
    destruct (comp_table_ok o c) as [T1 T2]. destruct (HQ _ _ T1 T2 S1 S2) as (Q1 & Q2 & Q3 & _). fold (block_coefs q data o c bx by_) in *.
    split; [unfold ncomps in Bc; destruct (jo_ct o); lia|]. split; [exact Q1|]. split; [exact Q2|exact Q3].
  - pose proof (mcus_bound o Hw Hh) as BM.
    assert (forall l, Forall (fun m => zlen m <= 6) l -> zlen (concat (A:=Z * list Z) l) <= 6 * zlen l) as K.
    { induction l as [|m l IH]; intros HF; [reflexivity|]. apply Forall_cons_iff in HF as [H1 H2]. cbn [concat]. rewrite zlen_app, zlen_cons. specialize (IH H2). lia. }
    assert (Forall (fun m => zlen m <= 6) (image_mcus q data o)) as HF.
    { unfold image_mcus. apply Forall_map. apply Forall_forall. intros k _. unfold zlen. rewrite map_length. unfold mcu_places. cbv zeta.
      destruct (jo_ct o), (jo_sub o); cbn [length]; lia. }
    apply K in HF. change (2 ^ 40) with 1099511627776. lia.
Qed.

(** The baseline scan of every accepted image is coded as in the standard. *)
Theorem image_scan_ok e data o : valid_args data o -> dctq_ok (je_dctq e) ->
  exists t out, choose_tables e data o = Ok t /\ tabs_ok t /\
    encode_scan t (jo_restart o) (image_mcus (je_dctq e) data o) = Ok out /\
    scan_code (tabs_of t) 0 (map (fun iv => zzs (concat iv)) (intervals (jo_restart o) (image_mcus (je_dctq e) data o))) out.
Proof.
  intros V HQ. destruct (image_mcus_ok _ data o V HQ) as (N & L & F & B). pose proof (all_mcus_ok (je_dctq e) data o V) as EA.
  assert (match jo_restart o with Some i => 0 < i | None => True end) as HR.
  { destruct V as (_ & _ & _ & _ & _ & _ & HR). destruct (jo_restart o); [lia|exact I]. }
  destruct (choose_tables_ok e data o _ EA N F HR B) as (t & Et & T & C).
  destruct (encode_scan_ok t _ _ T HR N F C) as (out & Eo & S). exists t, out. auto.
Qed.
