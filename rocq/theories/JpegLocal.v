(** Changes to a picture stay in their square through the JPEG encoder and decoder. *)
From Coq Require Import Lia.
From Verif Require Import Base PngFilterModel PngFilterProofs PngPaletteModel JpegBaseModel JpegEncModel JpegDecModel JpegDctModel JpegDctTop JpegImgSpec JpegMcuProofs JpegApi JpegTrellisTop JpegUniform JpegLocalSpec.
Open Scope Z_scope.
Local Opaque dctq.

Section Two.
Context (a b : list Z) (o : jopts) (x y : Z).
Hypothesis (HC : jo_ct o = Gray \/ jo_ct o = Rgb) (Hx : 0 <= x < jo_w o) (Hy : 0 <= y < jo_h o) (SQ : same_square a b o x y).
Lemma side_eq : square_side o = 8 * factor o /\ (factor o = 1 \/ factor o = 2).
Proof. unfold square_side, factor. destruct HC as [-> | ->]; destruct (jo_sub o); lia. Qed.
(** repeating the last row and column stays in the square *)
Lemma clamp_square B n p q : 0 < B -> 0 <= q < n -> 0 <= p -> p / B = q / B -> 0 <= Z.min p (n - 1) < n /\ Z.min p (n - 1) / B = q / B.
Proof.
  intros HB Q P E. split; [lia|]. destruct (Z.le_gt_cases p (n - 1)); [rewrite Z.min_l by lia; exact E|]. rewrite Z.min_r by lia.
  apply Z.le_antisymm; [rewrite <- E; apply Z.div_le_mono; lia|apply Z.div_le_mono; lia].
Qed.
Lemma edge_same c x' y' : 0 <= x' -> 0 <= y' -> x' / square_side o = x / square_side o -> y' / square_side o = y / square_side o ->
  edge_at a (jo_w o) (jo_h o) (jo_ct o) c x' y' = edge_at b (jo_w o) (jo_h o) (jo_ct o) c x' y'.
Proof.
  intros X Y EX EY. destruct side_eq as [S F]. assert (0 < square_side o) as B by lia.
  destruct (clamp_square _ (jo_w o) x' x B Hx X EX) as [X1 X2]. destruct (clamp_square _ (jo_h o) y' y B Hy Y EY) as [Y1 Y2].
  unfold edge_at. f_equal. f_equal. set (u := Z.min x' _) in *. set (v := Z.min y' _) in *. pose proof (fun k Hk => SQ u v k X1 Y1 Hk X2 Y2) as K. unfold sample, channels in K. unfold ycc_at.
  destruct HC as [E|E]; rewrite E in *.
  - pose proof (K 0 ltac:(lia)) as K0. rewrite Z.mul_1_r, Z.add_0_r in K0. rewrite K0. reflexivity.
  - pose proof (K 0 ltac:(lia)) as K0. rewrite Z.add_0_r in K0. rewrite K0, (K 1), (K 2) by lia. reflexivity.
Qed.
Lemma div8 p q : factor o = 1 \/ factor o = 2 -> p / 8 = q / 8 -> p / (8 * factor o) = q / (8 * factor o).
Proof. intros F E. rewrite <- !Z.div_div by lia. rewrite E. reflexivity. Qed.
Lemma plane_same c x' y' : 0 <= x' -> 0 <= y' -> x' / 8 = (if c =? 0 then x else x / factor o) / 8 -> y' / 8 = (if c =? 0 then y else y / factor o) / 8 ->
  plane_sample a o c x' y' = plane_sample b o c x' y'.
Proof.
  intros X Y EX EY. destruct side_eq as [S F]. unfold plane_sample. cbv zeta. destruct (c =? 0) eqn:C; cbn [orb].
  - rewrite edge_same; rewrite ?S; auto using div8.
  - destruct F as [F|F]; rewrite F in *; cbn [Z.eqb Pos.eqb].
    + rewrite Z.div_1_r in EX, EY. rewrite edge_same; rewrite ?S; auto.
    + assert (forall p q, p / 8 = q / 2 / 8 -> 2 * p / 16 = q / 16 /\ (2 * p + 1) / 16 = q / 16) as D.
      { intros p q E. replace 16 with (2 * 8) by lia. rewrite <- !Z.div_div by lia. rewrite <- E. replace (2 * p) with (p * 2) by lia. rewrite Z.div_mul by lia. split; [reflexivity|]. rewrite Z.div_add_l by lia. change (1 / 2) with 0. rewrite Z.add_0_r. reflexivity. }
      destruct (D _ _ EX) as [X1 X2]. destruct (D _ _ EY) as [Y1 Y2]. change (8 * 2) with 16 in S.
      rewrite !edge_same by (rewrite ?S; auto; lia). reflexivity.
Qed.
Lemma dec_same c : let f := if c =? 0 then 1 else factor o in dec_plane dctq a o c (x / f) (y / f) = dec_plane dctq b o c (x / f) (y / f).
Proof.
  cbv zeta. destruct side_eq as [_ F]. set (f := if c =? 0 then 1 else factor o). assert (f = 1 \/ f = 2) as Hf by (unfold f; destruct (c =? 0); auto).
  assert (forall p, (if c =? 0 then p else p / factor o) = p / f) as E by (intros p; unfold f; destruct (c =? 0); [rewrite Z.div_1_r|]; reflexivity).
  unfold dec_plane, dec_pixels, block_coefs. replace (block_samples a o c (x / f / 8) (y / f / 8)) with (block_samples b o c (x / f / 8) (y / f / 8)); [reflexivity|].
  unfold block_samples. apply map_ext_in. intros i Hi. apply in_idxs in Hi. change (Z.of_nat 64) with 64 in Hi.
  assert (0 <= x / f / 8) by (apply Z.div_pos; [apply Z.div_pos|]; lia). assert (0 <= y / f / 8) by (apply Z.div_pos; [apply Z.div_pos|]; lia).
  pose proof (Z.mod_pos_bound i 8 ltac:(lia)). assert (0 <= i / 8 < 8) by (split; [apply Z.div_pos|apply Z.div_lt_upper_bound]; lia).
  set (p := 8 * (x / f / 8) + i mod 8) in *. set (q := 8 * (y / f / 8) + i / 8) in *.
  assert (p / 8 = x / f / 8) as EP by (unfold p; rewrite (Z.mul_comm 8), Z.div_add_l by discriminate; rewrite (Z.div_small (i mod 8)) by assumption; apply Z.add_0_r).
  assert (q / 8 = y / f / 8) as EQ by (unfold q; rewrite (Z.mul_comm 8), Z.div_add_l by discriminate; rewrite (Z.div_small (i / 8)) by assumption; apply Z.add_0_r).
  assert (0 <= p) as HP by (unfold p; set (t := x / f / 8) in *; clearbody t; lia). assert (0 <= q) as HQ by (unfold q; set (t := y / f / 8) in *; clearbody t; lia).
  symmetry. apply (plane_same c p q HP HQ); rewrite E; assumption.
Qed.
Lemma pixel_same : dec_pixel dctq a o x y = dec_pixel dctq b o x y.
Proof.
  pose proof (dec_same 0) as P0. pose proof (dec_same 1) as P1. pose proof (dec_same 2) as P2. cbn [Z.eqb Pos.eqb] in P0, P1, P2. rewrite !Z.div_1_r in P0.
  unfold dec_pixel. rewrite P0, P1, P2. reflexivity.
Qed.
End Two.

Theorem local_l a b o : valid_args a o -> valid_args b o -> jo_prog o = false -> match jo_restart o with Some i => mcus_across o * mcus_down o <= i | None => True end ->
  exists fa fb pa pb, jencode pixo_env a o = Ok fa /\ jencode pixo_env b o = Ok fb /\
    (forall tail, decode_jpeg (fa ++ tail) = Ok (mkjimg (jo_w o) (jo_h o) pa (jo_ct o))) /\ (forall tail, decode_jpeg (fb ++ tail) = Ok (mkjimg (jo_w o) (jo_h o) pb (jo_ct o))) /\
    forall x y k, 0 <= x < jo_w o -> 0 <= y < jo_h o -> 0 <= k < channels o -> same_square a b o x y ->
      sample pa (jo_w o) (channels o) x y k = sample pb (jo_w o) (channels o) x y k.
Proof.
  intros VA VB HP HR.
  destruct (jpeg_roundtrip pixo_env a o VA dctq_dctq_ok HP HR) as (fa & Ea & Da).
  destruct (jpeg_roundtrip pixo_env b o VB dctq_dctq_ok HP HR) as (fb & Eb & Db).
  exists fa, fb, (ji_pixels (dec_image dctq a o)), (ji_pixels (dec_image dctq b o)). split; [exact Ea|]. split; [exact Eb|]. split; [exact Da|]. split; [exact Db|].
  intros x y k Hx Hy Hk SQ. assert (jo_ct o = Gray \/ jo_ct o = Rgb) as HC by apply VA. unfold sample. change (channels o) with (ncomps o) in *.
  rewrite <- !px_at_nth by (auto; nia). rewrite !dec_image_at by auto. rewrite (pixel_same a b o x y HC Hx Hy SQ). reflexivity.
Qed.
