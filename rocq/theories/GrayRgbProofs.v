(** Gray pictures stored as RGB, through the JPEG encoder and decoder. *)
From Coq Require Import Lia.
From Verif Require Import Base PngFilterModel PngFilterProofs PngPaletteModel JpegBaseModel JpegBaseProofs JpegEncModel JpegDecModel JpegDctModel JpegDctTop JpegImgSpec JpegMcuProofs JpegApi
  JpegColour JpegIdctProofs JpegFlat JpegTrellisTop GrayRgbSpec PropJpegBase.
From Verif Require JpegOther JpegScanProofs.
Open Scope Z_scope.


Lemma as_rgb_nth g : forall i k, (i < length g)%nat -> (k < 3)%nat -> nth (i * 3 + k) (as_rgb g) 0 = nth i g 0.
Proof.
  induction g as [|v g IH]; intros i k Hi Hk; [cbn in Hi; lia|]. unfold as_rgb. cbn [flat_map]. destruct i as [|i].
  - destruct k as [|[|[|k]]]; try reflexivity. lia.
  - replace (S i * 3 + k)%nat with (S (S (S (i * 3 + k)))) by lia. cbn [app nth]. apply IH; cbn in Hi; lia.
Qed.
Lemma as_rgb_at g i k : 0 <= i < zlen g -> 0 <= k < 3 -> znth (as_rgb g) (i * 3 + k) = znth g i.
Proof. intros Hi Hk. unfold znth, zlen in *. replace (Z.to_nat (i * 3 + k)) with (Z.to_nat i * 3 + Z.to_nat k)%nat by lia. apply as_rgb_nth; lia. Qed.
Lemma as_rgb_len g : zlen (as_rgb g) = zlen g * 3.
Proof. unfold as_rgb. induction g as [|v g IH]; [reflexivity|]. cbn [flat_map app]. rewrite !zlen_cons, IH. lia. Qed.
Lemma as_rgb_bytes g : bytes g -> bytes (as_rgb g).
Proof. intros H. unfold as_rgb, bytes in *. induction H as [|v g Hv _ IH]; [constructor|]. cbn [flat_map app]. repeat (constructor; [exact Hv|]). exact IH. Qed.
Lemma as_rgb_app a b : as_rgb (a ++ b) = as_rgb a ++ as_rgb b. Proof. apply flat_map_app. Qed.
Lemma as_rgb_flat {A} (f : A -> list Z) l : as_rgb (flat_map f l) = flat_map (fun x => as_rgb (f x)) l.
Proof. induction l as [|a l IH]; [reflexivity|]. cbn [flat_map]. rewrite as_rgb_app, IH. reflexivity. Qed.

Lemma ycc_rgb g w h x y : bytes g -> zlen g = w * h -> 0 <= x < w -> 0 <= y < h -> ycc_at (as_rgb g) w Rgb x y = ycc_at g w Gray x y.
Proof.
  intros B L Hx Hy. unfold ycc_at. assert (0 <= y * w + x < zlen g) as I by nia.
  pose proof (as_rgb_at g _ 0 I ltac:(lia)) as E0. rewrite Z.add_0_r in E0. rewrite E0, !as_rgb_at by lia. rewrite ycbcr_gray_neutral; [reflexivity|].
  unfold bytes in B. rewrite Forall_forall in B. apply B. unfold znth, zlen in *. apply nth_In. lia.
Qed.
Lemma edge_rgb g w h c x y : bytes g -> zlen g = w * h -> 1 <= w -> 1 <= h -> 0 <= x -> 0 <= y -> edge_at (as_rgb g) w h Rgb c x y = edge_at g w h Gray c x y.
Proof. intros B L Hw Hh Hx Hy. unfold edge_at. rewrite (ycc_rgb g w h) by (auto; lia). reflexivity. Qed.
Section Pic.
Context (g : list Z) (o : jopts).
Hypothesis (HC : jo_ct o = Rgb) (B : bytes g) (L : zlen g = jo_w o * jo_h o) (Hw : 1 <= jo_w o) (Hh : 1 <= jo_h o).
Let og := with_ct o Gray.
Lemma luma_samples bx by_ : 0 <= bx -> 0 <= by_ -> block_samples (as_rgb g) o 0 bx by_ = block_samples g og 0 bx by_.
Proof.
  intros X Y. unfold block_samples. apply map_ext_in. intros i Hi. apply in_idxs in Hi. pose proof (Z.mod_pos_bound i 8 ltac:(lia)). pose proof (Z.div_pos i 8 ltac:(lia) ltac:(lia)).
  unfold plane_sample. cbn [Z.eqb orb]. rewrite HC. unfold og. cbn [with_ct jo_w jo_h jo_ct]. rewrite edge_rgb by (auto; lia). reflexivity.
Qed.
Lemma luma_plane x y : 0 <= x -> 0 <= y -> dec_plane dctq (as_rgb g) o 0 x y = dec_plane dctq g og 0 x y.
Proof. intros X Y. unfold dec_plane, dec_pixels, block_coefs. rewrite luma_samples by (apply Z.div_pos; lia). reflexivity. Qed.
Lemma chroma_samples c bx by_ : c = 1 \/ c = 2 -> 0 <= bx -> 0 <= by_ -> block_samples (as_rgb g) o c bx by_ = repeat (4 * (128 - 128)) 64.
Proof.
  intros Cc X Y. unfold block_samples. apply idxs_const. intros i Hi. change (Z.of_nat 64) with 64 in Hi. pose proof (Z.mod_pos_bound i 8 ltac:(lia)). pose proof (Z.div_pos i 8 ltac:(lia) ltac:(lia)).
  assert (forall x y, 0 <= x -> 0 <= y -> edge_at (as_rgb g) (jo_w o) (jo_h o) Rgb c x y = 0) as E.
  { intros x y Hx Hy. rewrite edge_rgb by (auto; lia). unfold edge_at, ycc_at, comp_of. destruct Cc as [-> | ->]; reflexivity. }
  unfold plane_sample. rewrite HC. cbv zeta. rewrite !E by lia. destruct ((c =? 0) || (factor o =? 1)); reflexivity.
Qed.
Lemma level_128 t : length t = 64%nat -> Forall (fun q => 1 <= q <= 255) t -> flat_level t 128 = 128.
Proof.
  intros Lt HT. destruct (flat_quant t 128 Lt HT ltac:(unfold is_byte; lia)) as (d & E & H). unfold flat_level. rewrite E. change (znth (d :: repeat 0 63) 0) with d.
  pose proof (table_at t 0 Lt HT ltac:(lia)) as Q. assert (d = 0) as -> by nia. reflexivity.
Qed.
Lemma chroma_plane c x y : c = 1 \/ c = 2 -> 0 <= x -> 0 <= y -> dec_plane dctq (as_rgb g) o c x y = 128.
Proof.
  intros Cc X Y. unfold dec_plane, dec_pixels, block_coefs. rewrite chroma_samples by (auto; apply Z.div_pos; lia). destruct (comp_table_ok o c) as [Lt HT].
  rewrite flat_dequant by (auto; unfold is_byte; lia). rewrite level_128 by auto.
  pose proof (Z.mod_pos_bound x 8 ltac:(lia)). pose proof (Z.mod_pos_bound y 8 ltac:(lia)). unfold znth. apply nth_rep. lia.
Qed.
Lemma gray_pixel v : is_byte v -> ycbcr_pixel v 128 128 = [v; v; v].
Proof.
  intros H. unfold is_byte in H. assert (clamp v 0 255 = v) as E by (rewrite clamp_mm; lia).
  unfold ycbcr_pixel. change (Z.shiftr ((128 - 128) * 359) 8) with 0. change (Z.shiftr ((128 - 128) * 88 + (128 - 128) * 183) 8) with 0. change (Z.shiftr ((128 - 128) * 454) 8) with 0.
  rewrite Z.add_0_r, Z.sub_0_r, E. reflexivity.
Qed.
Lemma gray_valid : valid_args (as_rgb g) o -> valid_args g og.
Proof.
  intros (V1 & V2 & V3 & _ & _ & _ & V4). unfold valid_args, og, ncomps. cbn [with_ct jo_w jo_h jo_ct jo_quality jo_restart]. repeat (split; auto; try lia).
Qed.
Lemma rgb_image : valid_args (as_rgb g) o -> dec_image dctq (as_rgb g) o = mkjimg (jo_w o) (jo_h o) (as_rgb (ji_pixels (dec_image dctq g og))) Rgb.
Proof.
  intros V. unfold dec_image. rewrite HC. cbn [ji_pixels]. f_equal. rewrite as_rgb_flat. apply flat_map_ext_in'. intros y Hy. apply in_idxs in Hy. rewrite as_rgb_flat.
  apply flat_map_ext_in'. intros x Hx. apply in_idxs in Hx. unfold dec_pixel. rewrite HC. change (jo_ct og) with Gray. cbn iota. unfold as_rgb. cbn [flat_map app].
  assert (1 <= factor o) as F by (unfold factor; destruct (jo_ct o); destruct (jo_sub o); lia).
  pose proof (Z.div_pos x (factor o) ltac:(lia) ltac:(lia)). pose proof (Z.div_pos y (factor o) ltac:(lia) ltac:(lia)).
  fold (as_rgb g). rewrite (chroma_plane 1), (chroma_plane 2), luma_plane by (auto; lia). apply gray_pixel.
  assert (valid_args g og) as Vg by (apply gray_valid; exact V).
  pose proof (JpegScanProofs.dec_plane_byte og dctq g Vg dctq_dctq_ok 0 x y ltac:(lia) ltac:(lia) ltac:(lia)). unfold is_byte. lia.
Qed.
End Pic.

Lemma as_rgb_unbytes g : bytes (as_rgb g) -> bytes g.
Proof. unfold as_rgb, bytes. induction g as [|v g IH]; intros H; [constructor|]. cbn [flat_map app] in H. inversion H as [|? ? H1 H2]; subst. inversion H2 as [|? ? _ H3]; subst. inversion H3; subst. constructor; auto. Qed.
Theorem gray_as_rgb g o : jo_ct o = Rgb -> valid_args (as_rgb g) o -> jo_prog o = false -> one_interval o -> one_interval (with_ct o Gray) ->
  exists out outg img, jencode pixo_env (as_rgb g) o = Ok out /\ jencode pixo_env g (with_ct o Gray) = Ok outg /\
    (forall tail, decode_jpeg (outg ++ tail) = Ok (mkjimg (jo_w o) (jo_h o) img Gray)) /\
    (forall tail, decode_jpeg (out ++ tail) = Ok (mkjimg (jo_w o) (jo_h o) (as_rgb img) Rgb)) /\ zlen img = jo_w o * jo_h o.
Proof.
  intros HC V HP I1 I2. pose proof V as (Hw & Hh & HQ & B3 & L3 & _ & _). pose proof (as_rgb_unbytes g B3) as B.
  unfold ncomps in L3. rewrite HC, as_rgb_len in L3. assert (zlen g = jo_w o * jo_h o) as L by lia.
  pose proof (gray_valid g o B L V) as Vg.
  destruct (jpeg_roundtrip pixo_env (as_rgb g) o V dctq_dctq_ok HP I1) as (out & E & D).
  destruct (jpeg_roundtrip pixo_env g (with_ct o Gray) Vg dctq_dctq_ok HP I2) as (outg & Eg & Dg).
  exists out, outg, (ji_pixels (dec_image dctq g (with_ct o Gray))). split; [exact E|]. split; [exact Eg|]. split; [|split].
  - intros tail. rewrite Dg. reflexivity.
  - intros tail. rewrite D. cbn [je_dctq pixo_env]. rewrite rgb_image by (auto; lia). reflexivity.
  - unfold dec_image. cbn [ji_pixels]. rewrite (JpegOther.flat_len _ (1 * zlen (idxs (Z.to_nat (jo_w o))))) by (intros y; apply JpegOther.flat_len; intros x; reflexivity).
    change (jo_w (with_ct o Gray)) with (jo_w o). change (jo_h (with_ct o Gray)) with (jo_h o). unfold zlen. rewrite !idxs_length. cbn [length]. lia.
Qed.
