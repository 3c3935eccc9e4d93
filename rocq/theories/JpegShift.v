(** A square of a picture decodes to the same pixels wherever it is. *)
From Coq Require Import Lia.
From Verif Require Import Base PngFilterModel PngFilterProofs PngPaletteModel JpegBaseModel JpegEncModel JpegDecModel JpegDctModel JpegDctTop JpegImgSpec JpegMcuProofs JpegApi JpegTrellisTop JpegUniform JpegLocalSpec JpegLocal JpegShiftSpec.
Open Scope Z_scope.
Local Opaque dctq.

Section Two.
Context (a b : list Z) (oa ob : jopts) (x y i j : Z).
Hypothesis (HC : jo_ct ob = Gray \/ jo_ct ob = Rgb) (AL : alike oa ob).
Let m := square_side ob.
Hypothesis (IB : square_inside ob x y) (IA : square_inside oa (x + m * i) (y + m * j)) (SQ : square_found a oa b ob x y i j).
Lemma side_a : square_side oa = m.
Proof. destruct AL as (E1 & _ & E3). unfold m, square_side. rewrite E1, E3. reflexivity. Qed.
Lemma factor_a : factor oa = factor ob.
Proof. destruct AL as (E1 & _ & E3). unfold factor. rewrite E1, E3. reflexivity. Qed.
Lemma table_a c : comp_table oa c = comp_table ob c.
Proof. destruct AL as (_ & E & _). unfold comp_table. rewrite E. reflexivity. Qed.
Lemma m_eq : m = 8 * factor ob /\ (factor ob = 1 \/ factor ob = 2).
Proof. apply side_eq. exact HC. Qed.
Lemma in_square p q n : 0 < m -> (q / m + 1) * m <= n -> p / m = q / m -> p <= n - 1.
Proof. intros M H E. pose proof (Z.div_mod p m ltac:(lia)). pose proof (Z.mod_pos_bound p m M). rewrite E in *. nia. Qed.
Lemma edge_shift c x' y' : x' / m = x / m -> y' / m = y / m ->
  edge_at a (jo_w oa) (jo_h oa) (jo_ct oa) c (x' + m * i) (y' + m * j) = edge_at b (jo_w ob) (jo_h ob) (jo_ct ob) c x' y'.
Proof.
  intros EX EY. destruct m_eq as [S F]. assert (0 < m) as M by lia. destruct IB as (_ & _ & B1 & B2). destruct IA as (_ & _ & A1 & A2). rewrite side_a in A1, A2. fold m in B1, B2.
  assert (forall p q k, p / m = q / m -> (p + m * k) / m = (q + m * k) / m) as D by (intros p q k E; rewrite !(Z.mul_comm m k), !Z.div_add by lia; rewrite E; reflexivity).
  pose proof (in_square _ _ _ M B1 EX). pose proof (in_square _ _ _ M B2 EY). pose proof (in_square _ _ _ M A1 (D _ _ i EX)). pose proof (in_square _ _ _ M A2 (D _ _ j EY)).
  unfold edge_at. rewrite !Z.min_l by assumption. f_equal. f_equal. pose proof (fun k Hk => SQ x' y' k Hk EX EY) as K. fold m in K. unfold sample, channels in K. destruct AL as (E1 & _ & _). rewrite E1 in *. unfold ycc_at.
  destruct HC as [E|E]; rewrite E in *.
  - pose proof (K 0 ltac:(lia)) as K0. rewrite !Z.mul_1_r, !Z.add_0_r in K0. rewrite K0. reflexivity.
  - pose proof (K 0 ltac:(lia)) as K0. rewrite !Z.add_0_r in K0. rewrite K0, (K 1), (K 2) by lia. reflexivity.
Qed.
(** squares of a component, in blocks *)
Definition blocks_of (c : Z) : Z := if c =? 0 then factor ob else 1.
Lemma plane_shift c x' y' : x' / 8 = (if c =? 0 then x else x / factor ob) / 8 -> y' / 8 = (if c =? 0 then y else y / factor ob) / 8 ->
  plane_sample a oa c (x' + 8 * (blocks_of c * i)) (y' + 8 * (blocks_of c * j)) = plane_sample b ob c x' y'.
Proof.
  intros EX EY. destruct m_eq as [S F]. unfold plane_sample, blocks_of. cbv zeta. rewrite factor_a. destruct (c =? 0) eqn:C; cbn [orb].
  - replace (x' + 8 * (factor ob * i)) with (x' + m * i) by (rewrite S; ring). replace (y' + 8 * (factor ob * j)) with (y' + m * j) by (rewrite S; ring).
    rewrite edge_shift; [reflexivity| |]; rewrite S; apply div8; assumption.
  - destruct F as [F|F]; rewrite F in *; cbn [Z.eqb Pos.eqb].
    + rewrite Z.div_1_r in EX, EY. replace (x' + 8 * (1 * i)) with (x' + m * i) by (rewrite S; ring). replace (y' + 8 * (1 * j)) with (y' + m * j) by (rewrite S; ring).
      rewrite edge_shift; [reflexivity| |]; rewrite S; assumption.
    + assert (forall p q, p / 8 = q / 2 / 8 -> 2 * p / m = q / m /\ (2 * p + 1) / m = q / m) as D.
      { intros p q E. rewrite S. rewrite (Z.mul_comm 8 2). rewrite <- !Z.div_div by lia. rewrite <- E. replace (2 * p) with (p * 2) by lia. rewrite Z.div_mul by lia. split; [reflexivity|]. rewrite Z.div_add_l by lia. change (1 / 2) with 0. rewrite Z.add_0_r. reflexivity. }
      destruct (D _ _ EX) as [X1 X2]. destruct (D _ _ EY) as [Y1 Y2].
      replace (2 * (x' + 8 * (1 * i))) with (2 * x' + m * i) by (rewrite S; ring). replace (2 * (y' + 8 * (1 * j))) with (2 * y' + m * j) by (rewrite S; ring).
      replace (2 * x' + m * i + 1) with (2 * x' + 1 + m * i) by ring. replace (2 * y' + m * j + 1) with (2 * y' + 1 + m * j) by ring.
      rewrite !edge_shift by assumption. reflexivity.
Qed.
Lemma dec_shift c : let f := if c =? 0 then 1 else factor ob in
  dec_plane dctq a oa c (x / f + 8 * (blocks_of c * i)) (y / f + 8 * (blocks_of c * j)) = dec_plane dctq b ob c (x / f) (y / f).
Proof.
  cbv zeta. set (f := if c =? 0 then 1 else factor ob).
  assert (forall p, (if c =? 0 then p else p / factor ob) = p / f) as E by (intros p; unfold f; destruct (c =? 0); [rewrite Z.div_1_r|]; reflexivity).
  pose proof (plane_shift c) as PS. rewrite !E in PS. clear E. set (u := x / f) in *. set (v := y / f) in *. clearbody u v.
  set (bi := blocks_of c * i) in *. set (bj := blocks_of c * j) in *. clearbody bi bj.
  assert (forall p k, (p + 8 * k) / 8 = p / 8 + k /\ (p + 8 * k) mod 8 = p mod 8) as D.
  { intros p k. rewrite (Z.mul_comm 8 k). split; [apply Z.div_add; discriminate|apply Z_mod_plus_full]. }
  unfold dec_plane. destruct (D u bi) as [-> ->]. destruct (D v bj) as [-> ->]. unfold dec_pixels, block_coefs. rewrite table_a.
  replace (block_samples a oa c (u / 8 + bi) (v / 8 + bj)) with (block_samples b ob c (u / 8) (v / 8)); [reflexivity|].
  unfold block_samples. apply map_ext_in. intros n Hn. apply in_idxs in Hn. change (Z.of_nat 64) with 64 in Hn.
  pose proof (Z.mod_pos_bound n 8 ltac:(lia)). assert (0 <= n / 8 < 8) by (split; [apply Z.div_pos|apply Z.div_lt_upper_bound]; lia).
  assert (forall p k, 0 <= k < 8 -> (8 * p + k) / 8 = p) as G.
  { intros p k Hk. rewrite (Z.mul_comm 8), Z.div_add_l by discriminate. rewrite (Z.div_small k) by assumption. apply Z.add_0_r. }
  symmetry. rewrite !Z.mul_add_distr_l. replace (8 * (u / 8) + 8 * bi + n mod 8) with (8 * (u / 8) + n mod 8 + 8 * bi) by ring.
  replace (8 * (v / 8) + 8 * bj + n / 8) with (8 * (v / 8) + n / 8 + 8 * bj) by ring.
  apply PS; apply G; assumption.
Qed.
Lemma pixel_shift : dec_pixel dctq a oa (x + m * i) (y + m * j) = dec_pixel dctq b ob x y.
Proof.
  destruct m_eq as [S F]. pose proof (dec_shift 0) as P0. pose proof (dec_shift 1) as P1. pose proof (dec_shift 2) as P2. unfold blocks_of in *. cbn [Z.eqb Pos.eqb] in P0, P1, P2. rewrite !Z.div_1_r in P0. rewrite !Z.mul_1_l in P1, P2.
  assert (forall p k, (p + m * k) / factor ob = p / factor ob + 8 * k) as D.
  { intros p k. rewrite S. replace (8 * factor ob * k) with (8 * k * factor ob) by ring. apply Z.div_add. lia. }
  destruct AL as (E1 & _ & _). unfold dec_pixel. rewrite E1, factor_a, !D, P1, P2. replace (m * i) with (8 * (factor ob * i)) by (rewrite S; ring). replace (m * j) with (8 * (factor ob * j)) by (rewrite S; ring).
  rewrite P0. reflexivity.
Qed.
End Two.

Lemma inside_in o x y : 0 < square_side o -> square_inside o x y -> 0 <= x < jo_w o /\ 0 <= y < jo_h o.
Proof.
  intros M (A & B & C & D). pose proof (Z.div_mod x (square_side o) ltac:(lia)). pose proof (Z.mod_pos_bound x _ M). pose proof (Z.div_mod y (square_side o) ltac:(lia)). pose proof (Z.mod_pos_bound y _ M). nia.
Qed.
Theorem shift_l a oa b ob : valid_args a oa -> valid_args b ob -> alike oa ob -> jo_prog oa = false -> jo_prog ob = false ->
  match jo_restart oa with Some i => mcus_across oa * mcus_down oa <= i | None => True end ->
  match jo_restart ob with Some i => mcus_across ob * mcus_down ob <= i | None => True end ->
  exists fa fb pa pb, jencode pixo_env a oa = Ok fa /\ jencode pixo_env b ob = Ok fb /\
    (forall tail, decode_jpeg (fa ++ tail) = Ok (mkjimg (jo_w oa) (jo_h oa) pa (jo_ct oa))) /\ (forall tail, decode_jpeg (fb ++ tail) = Ok (mkjimg (jo_w ob) (jo_h ob) pb (jo_ct ob))) /\
    forall x y i j k, 0 <= k < channels ob -> let m := square_side ob in
      square_inside ob x y -> square_inside oa (x + m * i) (y + m * j) -> square_found a oa b ob x y i j ->
      sample pa (jo_w oa) (channels oa) (x + m * i) (y + m * j) k = sample pb (jo_w ob) (channels ob) x y k.
Proof.
  intros VA VB AL PA PB RA RB.
  destruct (jpeg_roundtrip pixo_env a oa VA dctq_dctq_ok PA RA) as (fa & Ea & Da).
  destruct (jpeg_roundtrip pixo_env b ob VB dctq_dctq_ok PB RB) as (fb & Eb & Db).
  exists fa, fb, (ji_pixels (dec_image dctq a oa)), (ji_pixels (dec_image dctq b ob)). split; [exact Ea|]. split; [exact Eb|]. split; [exact Da|]. split; [exact Db|].
  intros x y i j k Hk m IB IA SQ. assert (jo_ct oa = Gray \/ jo_ct oa = Rgb) as HA by apply VA. assert (jo_ct ob = Gray \/ jo_ct ob = Rgb) as HB by apply VB.
  assert (0 < square_side oa) as MA by (destruct (side_eq oa HA); lia). assert (0 < square_side ob) as MB by (destruct (side_eq ob HB); lia).
  destruct (inside_in _ _ _ MA IA) as [XA YA]. destruct (inside_in _ _ _ MB IB) as [XB YB].
  assert (channels oa = channels ob) as CE by (destruct AL as (E & _); unfold channels; rewrite E; reflexivity).
  unfold sample. rewrite CE. change (channels ob) with (ncomps ob) in *. assert (ncomps oa = ncomps ob) as NE by exact CE.
  rewrite <- !px_at_nth by (auto; nia). rewrite <- NE at 1. rewrite !dec_image_at by auto. unfold m. rewrite (pixel_shift a b oa ob x y i j HB AL IB IA SQ). reflexivity.
Qed.
