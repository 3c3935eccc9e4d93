(** Blocks of one colour, in any image, through the whole encoder and decoder. *)
From Coq Require Import Reals Lra Lia.
From Verif Require Import Base PngFilterModel PngFilterProofs PngPaletteModel PngPackProofs JpegBaseModel JpegBaseProofs JpegEncModel JpegDecModel ResizeProofs
  JpegDctModel JpegDctTop JpegImgSpec JpegMcuProofs JpegApi JpegColour JpegRefute JpegTrellisModel JpegTrellisTop JpegFlat.
Open Scope Z_scope.
Local Opaque dctq.

(** the pixel at (x, y) of an image [w] wide with [n] bytes a pixel *)
Definition px_at (data : list Z) (w n x y : Z) : list Z := firstn (Z.to_nat n) (skipn (Z.to_nat ((y * w + x) * n)) data).
(** every pixel of the image in the same square of side [B] is [px] *)
Definition uniform (data : list Z) (w h n B x y : Z) (px : list Z) : Prop :=
  forall x' y', 0 <= x' < w -> 0 <= y' < h -> x' / B = x / B -> y' / B = y / B -> px_at data w n x' y' = px.

Lemma firstn_nth {A} (l : list A) n k d : (k < n)%nat -> nth k (firstn n l) d = nth k l d.
Proof. revert l k. induction n as [|n IH]; intros [|a l] k Hk; try lia; [destruct k; reflexivity|]. destruct k; cbn; auto. apply IH. lia. Qed.
Lemma skipn_nth {A} (l : list A) m k d : nth k (skipn m l) d = nth (m + k) l d.
Proof. revert l. induction m as [|m IH]; intros [|a l]; cbn [skipn]; auto. - destruct k; reflexivity. - rewrite IH. reflexivity. Qed.
Lemma px_at_nth data w n x y k : 0 <= y * w + x -> 0 <= k < n -> znth (px_at data w n x y) k = znth data ((y * w + x) * n + k).
Proof. intros H Hk. unfold px_at, znth. rewrite firstn_nth by lia. rewrite skipn_nth. f_equal. nia. Qed.

(** ** Decoded pixels *)
Lemma flat_map_at {A B} (f : A -> list B) (l : list A) n i d : (forall x, In x l -> length (f x) = n) -> (i < length l)%nat ->
  firstn n (skipn (i * n) (flat_map f l)) = f (nth i l d).
Proof.
  revert i. induction l as [|a l IH]; intros i HL Hi; cbn [length] in *; [lia|]. cbn [flat_map]. destruct i as [|i].
  - cbn [Nat.mul skipn nth]. rewrite <- (HL a (or_introl eq_refl)) at 1. rewrite firstn_app, firstn_all, Nat.sub_diag. cbn [firstn]. apply app_nil_r.
  - replace (S i * n)%nat with (length (f a) + i * n)%nat by (rewrite (HL a (or_introl eq_refl)); lia). rewrite skipn_app, skipn_all2 by lia. cbn [app nth].
    replace (length (f a) + i * n - length (f a))%nat with (i * n)%nat by lia. apply IH; [intros; apply HL; right; auto|lia].
Qed.
Lemma nested (f : Z -> Z -> list Z) w h n x y : 0 <= n -> (forall x y, 0 <= x < w -> 0 <= y < h -> zlen (f x y) = n) -> 0 <= x < w -> 0 <= y < h ->
  px_at (flat_map (fun y => flat_map (fun x => f x y) (idxs (Z.to_nat w))) (idxs (Z.to_nat h))) w n x y = f x y.
Proof.
  intros Hn HL Hx Hy. unfold px_at.
  assert (forall y, 0 <= y < h -> length (flat_map (fun x => f x y) (idxs (Z.to_nat w))) = (Z.to_nat w * Z.to_nat n)%nat) as LR.
  { intros y0 Hy0. assert (forall l, (forall x, In x l -> 0 <= x < w) -> length (flat_map (fun x => f x y0) l) = (length l * Z.to_nat n)%nat) as G.
    { induction l as [|a l IH]; intros Hl; cbn [flat_map length]; [reflexivity|]. rewrite app_length, IH by (intros; apply Hl; right; auto). pose proof (HL a y0 (Hl a (or_introl eq_refl)) Hy0) as E. unfold zlen in E. lia. }
    rewrite G; [rewrite idxs_length; reflexivity|]. intros a Ha. apply in_idxs in Ha. lia. }
  replace (Z.to_nat ((y * w + x) * n)) with (Z.to_nat y * (Z.to_nat w * Z.to_nat n) + Z.to_nat x * Z.to_nat n)%nat by nia.
  assert (forall (l : list Z) a b c, (b + c <= a)%nat -> firstn c (skipn b (firstn a l)) = firstn c (skipn b l)) as FS.
  { intros l a b c Hc. rewrite skipn_firstn_comm, firstn_firstn, Nat.min_l by lia. reflexivity. }
  rewrite Nat.add_comm, <- skipn_skipn_add. rewrite <- (FS _ (Z.to_nat w * Z.to_nat n)%nat) by nia.
  rewrite (flat_map_at (fun y => flat_map (fun x => f x y) (idxs (Z.to_nat w))) _ _ _ 0).
  - rewrite (idxs_nth (Z.to_nat h)) by lia. rewrite Z2Nat.id by lia. rewrite (flat_map_at (fun x => f x y) _ _ _ 0).
    + rewrite (idxs_nth (Z.to_nat w)) by lia. rewrite Z2Nat.id by lia. reflexivity.
    + intros a Ha. apply in_idxs in Ha. pose proof (HL a y ltac:(lia) Hy) as E. unfold zlen in E. lia.
    + rewrite idxs_length. lia.
  - intros a Ha. apply in_idxs in Ha. apply LR. lia.
  - rewrite idxs_length. lia.
Qed.
Lemma dec_image_at q data o x y : 0 <= x < jo_w o -> 0 <= y < jo_h o -> (jo_ct o = Gray \/ jo_ct o = Rgb) ->
  px_at (ji_pixels (dec_image q data o)) (jo_w o) (ncomps o) x y = dec_pixel q data o x y.
Proof.
  intros Hx Hy HC. unfold dec_image. cbn [ji_pixels]. apply nested; auto; unfold ncomps; [destruct (jo_ct o); lia|].
  intros a b _ _. unfold dec_pixel. destruct HC as [->| ->]; reflexivity.
Qed.
(** ** A plane that is flat around (x, y) *)
Lemma level_at data o c x y v : 0 <= x -> 0 <= y -> is_byte v ->
  (forall x' y', 0 <= x' -> 0 <= y' -> x' / 8 = x / 8 -> y' / 8 = y / 8 -> plane_sample data o c x' y' = 4 * (v - 128)) ->
  dec_plane dctq data o c x y = flat_level (comp_table o c) v.
Proof.
  intros Hx Hy Hv H. unfold dec_plane, dec_pixels, block_coefs. destruct (comp_table_ok o c) as [L HT].
  assert (block_samples data o c (x / 8) (y / 8) = repeat (4 * (v - 128)) 64) as ->.
  { unfold block_samples. apply idxs_const. intros i Hi. change (Z.of_nat 64) with 64 in Hi. pose proof (Z.mod_pos_bound i 8 ltac:(lia)). pose proof (Z.div_pos i 8 ltac:(lia) ltac:(lia)).
    pose proof (Z.div_pos x 8 ltac:(lia) ltac:(lia)). pose proof (Z.div_pos y 8 ltac:(lia) ltac:(lia)). assert (i / 8 < 8) by (apply Z.div_lt_upper_bound; lia).
    apply H; try lia; rewrite (Z.mul_comm 8), Z.div_add_l by lia; rewrite Z.div_small by lia; lia. }
  rewrite (flat_dequant (comp_table o c) v L HT Hv). pose proof (Z.mod_pos_bound x 8 ltac:(lia)). pose proof (Z.mod_pos_bound y 8 ltac:(lia)). unfold znth. apply nth_rep. lia.
Qed.
Lemma same_block x x' w B : 1 <= B -> 0 <= x < w -> 0 <= x' -> x' / B = x / B -> 0 <= Z.min x' (w - 1) < w /\ Z.min x' (w - 1) / B = x / B.
Proof.
  intros HB Hx Hx' E. split; [lia|]. destruct (Z.min_spec x' (w - 1)) as [[A ->]|[A ->]]; [exact E|].
  apply Z.le_antisymm; [rewrite <- E; apply Z.div_le_mono; lia|apply Z.div_le_mono; lia].
Qed.
Lemma ycc_px data o x y px : (jo_ct o = Gray \/ jo_ct o = Rgb) -> 0 <= x < jo_w o -> 0 <= y < jo_h o -> px_at data (jo_w o) (ncomps o) x y = px ->
  ycc_at data (jo_w o) (jo_ct o) x y = px_ycc (jo_ct o) px.
Proof.
  intros HC Hx Hy <-. unfold px_ycc, ycc_at, ncomps. assert (0 <= y * jo_w o + x) by nia. destruct HC as [->| ->].
  - change (0 * 1 + 0) with 0. rewrite px_at_nth by lia. f_equal. f_equal. f_equal. lia.
  - change ((0 * 1 + 0) * 3) with 0. change (0 + 1) with 1. change (0 + 2) with 2. rewrite !px_at_nth by lia. rewrite Z.add_0_r. reflexivity.
Qed.
Lemma edge_uniform data o B x y px c x' y' : (jo_ct o = Gray \/ jo_ct o = Rgb) -> 1 <= B -> 0 <= x < jo_w o -> 0 <= y < jo_h o ->
  uniform data (jo_w o) (jo_h o) (ncomps o) B x y px -> 0 <= x' -> 0 <= y' -> x' / B = x / B -> y' / B = y / B ->
  edge_at data (jo_w o) (jo_h o) (jo_ct o) c x' y' = comp_of (px_ycc (jo_ct o) px) c - 128.
Proof.
  intros HC HB Hx Hy HU Hx' Hy' EX EY. unfold edge_at. destruct (same_block x x' _ B HB Hx Hx' EX) as [X1 X2]. destruct (same_block y y' _ B HB Hy Hy' EY) as [Y1 Y2].
  rewrite (ycc_px data o _ _ px); auto.
Qed.
Lemma div_scale a f : 1 <= f -> a / (8 * f) = a / f / 8.
Proof. intros Hf. rewrite Z.div_div by lia. f_equal. lia. Qed.
(** the planes at a pixel of a uniform square *)
Lemma plane_uniform data o x y px c : (jo_ct o = Gray \/ jo_ct o = Rgb) -> 0 <= x < jo_w o -> 0 <= y < jo_h o ->
  uniform data (jo_w o) (jo_h o) (ncomps o) (8 * factor o) x y px -> is_byte (comp_of (px_ycc (jo_ct o) px) c) ->
  dec_plane dctq data o c (if c =? 0 then x else x / factor o) (if c =? 0 then y else y / factor o) = flat_level (comp_table o c) (comp_of (px_ycc (jo_ct o) px) c).
Proof.
  intros HC Hx Hy HU HB. assert (factor o = 1 \/ factor o = 2) as F by (unfold factor; destruct (jo_ct o); destruct (jo_sub o); auto).
  assert (1 <= factor o) as F1 by lia. pose proof (Z.div_pos x (factor o) ltac:(lia) ltac:(lia)). pose proof (Z.div_pos y (factor o) ltac:(lia) ltac:(lia)).
  pose proof (fun x' y' => edge_uniform data o (8 * factor o) x y px c x' y' HC ltac:(lia) Hx Hy HU) as ED.
  assert (forall x' x, x' / 8 = x / 8 -> x' / (8 * factor o) = x / (8 * factor o)) as D8 by (intros a b E; rewrite <- !Z.div_div, E by lia; reflexivity).
  apply level_at; [destruct (c =? 0); lia|destruct (c =? 0); lia|exact HB|]. intros x' y' Hx' Hy' EX EY. unfold plane_sample. cbv zeta.
  destruct (Z.eqb_spec c 0) as [E0|E0]; cbn [orb].
  - rewrite (ED x' y' Hx' Hy' (D8 _ _ EX) (D8 _ _ EY)). reflexivity.
  - destruct F as [F|F]; rewrite F in *; cbn [Z.eqb Pos.eqb].
    + rewrite Z.div_1_r in EX, EY. rewrite (ED x' y' Hx' Hy' (D8 _ _ EX) (D8 _ _ EY)). reflexivity.
    + change (8 * 2) with 16 in *.
      assert (forall a b, a / 8 = b / 2 / 8 -> 2 * a / 16 = b / 16 /\ (2 * a + 1) / 16 = b / 16) as D.
      { intros a b E. replace 16 with (2 * 8) by lia. rewrite <- !Z.div_div by lia. rewrite <- E. replace (2 * a) with (a * 2) by lia. rewrite Z.div_mul by lia. split; [reflexivity|]. rewrite Z.div_add_l by lia. change (1 / 2) with 0. rewrite Z.add_0_r. reflexivity. }
      destruct (D _ _ EX) as [X1 X2]. destruct (D _ _ EY) as [Y1 Y2].
      rewrite (ED (2 * x') (2 * y') ltac:(lia) ltac:(lia) X1 Y1), (ED (2 * x' + 1) (2 * y') ltac:(lia) ltac:(lia) X2 Y1), (ED (2 * x') (2 * y' + 1) ltac:(lia) ltac:(lia) X1 Y2), (ED (2 * x' + 1) (2 * y' + 1) ltac:(lia) ltac:(lia) X2 Y2).
      clear. set (k := comp_of _ _). clearbody k. lia.
Qed.
Lemma px_len data o x y : valid_args data o -> 0 <= x < jo_w o -> 0 <= y < jo_h o -> zlen (px_at data (jo_w o) (ncomps o) x y) = ncomps o /\ bytes (px_at data (jo_w o) (ncomps o) x y).
Proof.
  intros V Hx Hy. destruct V as (V1 & V2 & V3 & V4 & V5 & V6 & V7). assert (1 <= ncomps o) by (unfold ncomps; destruct (jo_ct o); lia). split.
  - assert (0 <= y * jo_w o + x /\ y * jo_w o + x + 1 <= jo_w o * jo_h o) as [I1 I2] by nia.
    assert (0 <= (y * jo_w o + x) * ncomps o /\ (y * jo_w o + x) * ncomps o + ncomps o <= jo_w o * jo_h o * ncomps o) as [J1 J2] by nia.
    rewrite <- V5 in J2. unfold px_at, zlen in *. rewrite firstn_length, skipn_length. set (m := (y * jo_w o + x) * ncomps o) in *. clearbody m. clear -J1 J2 H. lia.
  - unfold px_at, bytes in *. rewrite Forall_forall in *. intros b Hb. apply V4. assert (forall n (l : list Z) x, In x (firstn n l) -> In x l) as FI by (intros n l a Ha; rewrite <- (firstn_skipn n l); apply in_or_app; auto).
    assert (forall n (l : list Z) x, In x (skipn n l) -> In x l) as SI by (intros n l a Ha; rewrite <- (firstn_skipn n l); apply in_or_app; auto). eauto.
Qed.
Theorem uniform_block data o : valid_args data o -> jo_prog o = false -> match jo_restart o with Some i => mcus_across o * mcus_down o <= i | None => True end ->
  exists out img, jencode pixo_env data o = Ok out /\ (forall tail, decode_jpeg (out ++ tail) = Ok img) /\ ji_w img = jo_w o /\ ji_h img = jo_h o /\ ji_ct img = jo_ct o /\
    forall x y px, 0 <= x < jo_w o -> 0 <= y < jo_h o -> uniform data (jo_w o) (jo_h o) (ncomps o) (8 * factor o) x y px ->
      px_at (ji_pixels img) (jo_w o) (ncomps o) x y = flat_pixel o px /\ bytes px /\ zlen px = ncomps o.
Proof.
  intros V HP HR. destruct (jpeg_roundtrip pixo_env data o V dctq_dctq_ok HP HR) as (out & E & D). exists out, (dec_image dctq data o). split; [exact E|]. split; [exact D|].
  split; [reflexivity|]. split; [reflexivity|]. split; [reflexivity|]. intros x y px Hx Hy HU.
  assert (jo_ct o = Gray \/ jo_ct o = Rgb) as HC by apply V. pose proof (HU x y Hx Hy eq_refl eq_refl) as EP.
  destruct (px_len data o x y V Hx Hy) as [PL PB]. rewrite EP in PL, PB. split; [|auto]. rewrite dec_image_at by auto.
  pose proof (fun c => plane_uniform data o x y px c HC Hx Hy HU (px_ycc_bytes o px c PB PL HC)) as P. unfold dec_pixel, flat_pixel.
  pose proof (P 0) as P0. pose proof (P 1) as P1. pose proof (P 2) as P2. cbn [Z.eqb] in P0, P1, P2. change (if false then x else x / factor o) with (x / factor o) in *. change (if false then y else y / factor o) with (y / factor o) in *.
  rewrite P0, P1, P2. reflexivity.
Qed.
(** how far the decoded colour can be from the colour *)
Definition colour_within (o : jopts) (px px' : list Z) : Prop :=
  match jo_ct o with
  | Gray => exists v v', px = [v] /\ px' = [v'] /\ 16 * Z.abs (v' - v) <= znth (comp_table o 0) 0 + 8
  | _ => let a := (znth (comp_table o 0) 0 + 8) / 16 in let c := (znth (comp_table o 1) 0 + 8) / 16 in
         exists r g b r' g' b', px = [r; g; b] /\ px' = [r'; g'; b'] /\
           256 * Z.abs (r' - r) <= 256 * (a + 3) + 359 * c + 255 /\ 256 * Z.abs (g' - g) <= 256 * (a + 3) + 271 * c + 255 /\ 256 * Z.abs (b' - b) <= 256 * (a + 3) + 454 * c + 255
  end.
Lemma flat_pixel_near o px : (jo_ct o = Gray \/ jo_ct o = Rgb) -> bytes px -> zlen px = ncomps o -> colour_within o px (flat_pixel o px).
Proof.
  intros [HC|HC] HB HL; unfold colour_within; rewrite HC; unfold ncomps in HL; rewrite HC in HL.
  - destruct px as [|v [|]]; unfold zlen in HL; cbn [length] in HL; try lia. apply Forall_inv in HB. exists v, (flat_level (comp_table o 0) v). split; [reflexivity|]. split.
    + unfold flat_pixel. rewrite HC. reflexivity.
    + destruct (comp_table_ok o 0) as [L HT]. apply flat_level_near; auto.
  - destruct px as [|r [|g [|b [|]]]]; unfold zlen in HL; cbn [length] in HL; try lia.
    inversion HB as [|? ? Hr HB1]; subst. inversion HB1 as [|? ? Hg HB2]; subst. inversion HB2 as [|? ? Hb _]; subst.
    destruct (flat_colour_pixel o r g b HC Hr Hg Hb) as (r' & g' & b' & E & N). cbv zeta. exists r, g, b, r', g', b'. auto.
Qed.
Theorem uniform_decoded data o : valid_args data o -> jo_prog o = false -> match jo_restart o with Some i => mcus_across o * mcus_down o <= i | None => True end ->
  exists out img, jencode pixo_env data o = Ok out /\ (forall tail, decode_jpeg (out ++ tail) = Ok img) /\ ji_w img = jo_w o /\ ji_h img = jo_h o /\ ji_ct img = jo_ct o /\
    forall x y px, 0 <= x < jo_w o -> 0 <= y < jo_h o -> uniform data (jo_w o) (jo_h o) (ncomps o) (8 * factor o) x y px ->
      colour_within o px (px_at (ji_pixels img) (jo_w o) (ncomps o) x y).
Proof.
  intros V HP HR. destruct (uniform_block data o V HP HR) as (out & img & E & D & W & H & C & U). exists out, img. repeat (split; [assumption|]).
  intros x y px Hx Hy HU. destruct (U x y px Hx Hy HU) as (-> & HB & HL). apply flat_pixel_near; auto. apply V.
Qed.
