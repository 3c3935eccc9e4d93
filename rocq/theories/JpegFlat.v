(** Images of one colour through the whole encoder and decoder. *)
From Coq Require Import Reals Lra Lia.
From Flocq Require Import Core.
From Verif Require Import Base PngFilterModel PngFilterProofs PngPaletteModel JpegBaseModel JpegBaseProofs JpegEncModel JpegDecModel F32Model F32Proofs ResizeModel ResizeF32 ResizeProofs ResizeSame
  JpegDctModel JpegDctSpec JpegDctReal JpegDctProofs JpegDctTop JpegImgSpec JpegMcuProofs JpegApi JpegClaims JpegColour JpegIdctReal JpegRefute JpegTrellisModel JpegTrellisTop.
Open Scope Z_scope.

(** [n] pixels [px] one after another *)
Definition flat_data (px : list Z) (n : Z) : list Z := concat (repeat px (Z.to_nat n)).
Lemma concat_at (px : list Z) n i k : (i < n)%nat -> (k < length px)%nat -> nth (i * length px + k) (concat (repeat px n)) 0 = nth k px 0.
Proof.
  revert i. induction n as [|n IH]; intros i Hi Hk; [lia|]. cbn [repeat concat]. destruct i as [|i].
  - rewrite app_nth1 by (cbn; lia). reflexivity.
  - rewrite app_nth2 by nia. replace (S i * length px + k - length px)%nat with (i * length px + k)%nat by nia. apply IH; lia.
Qed.
Lemma flat_at px n i k : 0 <= i < n -> 0 <= k < zlen px -> znth (flat_data px n) (i * zlen px + k) = znth px k.
Proof.
  intros Hi Hk. unfold znth, flat_data, zlen in *. replace (Z.to_nat (i * Z.of_nat (length px) + k)) with (Z.to_nat i * length px + Z.to_nat k)%nat by nia.
  apply concat_at; lia.
Qed.
Lemma flat_map_const {A B} (c : list B) (l : list A) : flat_map (fun _ => c) l = concat (repeat c (length l)).
Proof. induction l as [|a l IH]; cbn [flat_map length repeat concat]; [reflexivity|]. rewrite IH. reflexivity. Qed.
Lemma concat_repeat_mul {B} (c : list B) w h : concat (repeat (concat (repeat c w)) h) = concat (repeat c (w * h)).
Proof.
  induction h as [|h IH]; [rewrite Nat.mul_0_r; reflexivity|]. cbn [repeat concat]. rewrite IH, Nat.mul_succ_r, Nat.add_comm, repeat_app, concat_app. reflexivity.
Qed.

Lemma flat_map_ext_in' {A B} (f g : A -> list B) l : (forall x, In x l -> f x = g x) -> flat_map f l = flat_map g l.
Proof. intros H. rewrite !flat_map_concat_map. f_equal. apply map_ext_in. exact H. Qed.
(** one pixel's components *)
Definition px_ycc (ct : color_type) (px : list Z) : Z * Z * Z := ycc_at px 1 ct 0 0.
Lemma ycc_flat px o x y : zlen px = ncomps o -> (jo_ct o = Gray \/ jo_ct o = Rgb) -> 0 <= x < jo_w o -> 0 <= y < jo_h o ->
  ycc_at (flat_data px (jo_w o * jo_h o)) (jo_w o) (jo_ct o) x y = px_ycc (jo_ct o) px.
Proof.
  intros HL HC Hx Hy. unfold px_ycc, ycc_at, ncomps in *. assert (0 <= y * jo_w o + x < jo_w o * jo_h o) as HI by nia.
  destruct HC as [E|E]; rewrite E in *.
  - pose proof (flat_at px _ _ 0 HI ltac:(lia)) as F. rewrite HL in F. replace ((y * jo_w o + x) * 1 + 0) with (y * jo_w o + x) in F by lia. rewrite F. reflexivity.
  - pose proof (flat_at px _ _ 0 HI ltac:(lia)) as F0. pose proof (flat_at px _ _ 1 HI ltac:(lia)) as F1. pose proof (flat_at px _ _ 2 HI ltac:(lia)) as F2.
    rewrite HL in F0, F1, F2. rewrite Z.add_0_r in F0. rewrite F0, F1, F2. reflexivity.
Qed.
Lemma plane_flat px o c x y : zlen px = ncomps o -> (jo_ct o = Gray \/ jo_ct o = Rgb) -> 1 <= jo_w o -> 1 <= jo_h o -> 0 <= x -> 0 <= y ->
  plane_sample (flat_data px (jo_w o * jo_h o)) o c x y = 4 * (comp_of (px_ycc (jo_ct o) px) c - 128).
Proof.
  intros HL HC Hw Hh Hx Hy.
  assert (forall x y, 0 <= x -> 0 <= y -> edge_at (flat_data px (jo_w o * jo_h o)) (jo_w o) (jo_h o) (jo_ct o) c x y = comp_of (px_ycc (jo_ct o) px) c - 128) as E.
  { intros a b Ha Hb. unfold edge_at. rewrite ycc_flat by (auto; lia). reflexivity. }
  unfold plane_sample. cbv zeta. rewrite !E by lia. destruct ((c =? 0) || (factor o =? 1)); lia.
Qed.

(** ** One flat block *)
Lemma const_dc c : real_fdct (fun _ => c) 0 = (8 * c)%R.
Proof. rewrite real_dc_eq. unfold rsum. cbn [map seq fold_right]. field. Qed.
Lemma const_ac c n : (1 <= n < 64)%nat -> real_fdct (fun _ => c) n = 0%R.
Proof.
  intros Hn. rewrite real_fdct_T. destruct (n88 n ltac:(lia)) as (U & V & E). destruct (Nat.eq_dec (n mod 8) 0) as [Z|Z].
  - apply T_const. lia.
  - rewrite (T_ext (n / 8) _ (fun _ => 0%R)) by (intros; apply T_const; lia). unfold T, rsum. cbn [map seq fold_right]. ring.
Qed.
Lemma idxs_const {A} (f : Z -> A) c n : (forall i, 0 <= i < Z.of_nat n -> f i = c) -> map f (idxs n) = repeat c n.
Proof.
  intros H. rewrite (map_ext_in f (fun _ => c)) by (intros i Hi; apply in_idxs in Hi; auto). assert (forall l : list Z, map (fun _ => c) l = repeat c (length l)) as G by (induction l; cbn; congruence).
  rewrite G, idxs_length. reflexivity.
Qed.
Lemma nth_rep {A} (s d : A) n i : (i < n)%nat -> nth i (repeat s n) d = s.
Proof. revert i. induction n as [|n IH]; intros i Hi; [lia|]. destruct i; cbn; auto. apply IH. lia. Qed.
Lemma tail_zero l : length l = 64%nat -> (forall n, 1 <= n < 64 -> znth l n = 0) -> l = znth l 0 :: repeat 0 63.
Proof.
  intros LD ZN. apply (nth_ext _ _ 0 0). { rewrite LD. reflexivity. } intros i Hi. rewrite LD in Hi. destruct i as [|i]; [reflexivity|].
  pose proof (ZN (Z.of_nat (S i)) ltac:(lia)) as Z. unfold znth in Z. rewrite Nat2Z.id in Z. rewrite Z. change (0 = nth i (repeat 0 63) 0). rewrite nth_rep by lia. reflexivity.
Qed.
Local Opaque dctq.
(** quantising a flat block *)
Lemma flat_quant table v : length table = 64%nat -> Forall (fun q => 1 <= q <= 255) table -> is_byte v ->
  exists d, dctq table (repeat (4 * (v - 128)) 64) = d :: repeat 0 63 /\ 2 * Z.abs (d * znth table 0 - 8 * (v - 128)) <= znth table 0.
Proof.
  intros L HT Hv. unfold is_byte in Hv. set (ss := repeat (4 * (v - 128)) 64).
  assert (samples_ok ss) as SO. { split; [apply repeat_length|]. apply Forall_forall. intros x Hx. apply repeat_spec in Hx. lia. }
  assert (forall n, real_fdct (sample_r ss) n = real_fdct (fun _ => IZR (v - 128)) n) as E.
  { intros n. apply real_fdct_ext. intros m Hm. unfold sample_r, ss. rewrite nth_rep by lia. rewrite mult_IZR. field. }
  assert (forall n, 1 <= n < 64 -> znth (dctq table ss) n = 0) as ZN.
  { intros n Hn. destruct (dctq_at table ss n L HT SO ltac:(lia)) as (w & -> & W). rewrite E, const_ac in W by lia.
    pose proof (table_at table n L HT ltac:(lia)). assert (0 <= rhaz w <= 0); [|lia]. apply (quot_range w 0 (znth table n)); auto; try lia. lra. }
  exists (znth (dctq table ss) 0). split.
  - exact (tail_zero _ (dctq_len table ss) ZN).
  - pose proof (dctq_accurate table ss 0 L HT SO ltac:(lia)) as A. rewrite E in A. change (Z.to_nat 0) with 0%nat in A. rewrite const_dc in A.
    rewrite <- mult_IZR, <- minus_IZR, <- abs_IZR in A. set (x := Z.abs (znth (dctq table ss) 0 * znth table 0 - 8 * (v - 128))) in *. clearbody x.
    assert (IZR (2 * x) < IZR (znth table 0 + 1))%R as B by (rewrite mult_IZR, plus_IZR; lra). apply lt_IZR in B. lia.
Qed.
(** the level a flat block of level [v] decodes to *)
Definition flat_level (table : list Z) (v : Z) : Z :=
  clamp (128 + (znth (dctq table (repeat (4 * (v - 128)) 64)) 0 * znth table 0 + 4) / 8) 0 255.
Lemma flat_level_near table v : length table = 64%nat -> Forall (fun q => 1 <= q <= 255) table -> is_byte v ->
  16 * Z.abs (flat_level table v - v) <= znth table 0 + 8 /\ is_byte (flat_level table v).
Proof.
  intros L HT Hv. destruct (flat_quant table v L HT Hv) as (d & E & H). unfold flat_level. rewrite E. change (znth (d :: repeat 0 63) 0) with d.
  split; [|apply clamp_byte]. unfold is_byte in Hv. rewrite clamp_mm. pose proof (Z.div_mod (d * znth table 0 + 4) 8 ltac:(lia)). pose proof (Z.mod_pos_bound (d * znth table 0 + 4) 8 ltac:(lia)). lia.
Qed.
Lemma flat_dequant table v : length table = 64%nat -> Forall (fun q => 1 <= q <= 255) table -> is_byte v ->
  match idct_2d (map (fun n => znth (dctq table (repeat (4 * (v - 128)) 64)) n * znth table n) (idxs 64)) with Ok px => px | _ => [] end = repeat (flat_level table v) 64.
Proof.
  intros L HT HB.
  destruct (flat_quant table v L HT HB) as (d & E & H). rewrite E. unfold flat_level. rewrite E. change (znth (d :: repeat 0 63) 0) with d.
  pose proof (table_at _ 0 L HT ltac:(lia)) as Q. unfold is_byte in HB.
  assert (map (fun n => znth (d :: repeat 0 63) n * znth table n) (idxs 64) = d * znth table 0 :: repeat 0 63) as ->.
  { assert (idxs 64 = 0 :: map (fun i => i + 1) (idxs 63)) as -> by (vm_compute; reflexivity). cbn [map]. rewrite map_map. apply (f_equal2 cons eq_refl). apply idxs_const. intros i Hi. change (Z.of_nat 63) with 63 in Hi.
    assert (znth (d :: repeat 0 63) (i + 1) = 0) as ->; [|lia]. unfold znth. replace (Z.to_nat (i + 1)) with (S (Z.to_nat i)) by lia. cbn [nth]. apply nth_rep. lia. }
  rewrite idct_dc_only by lia. reflexivity.
Qed.
Lemma flat_pixels px o c bx by_ : zlen px = ncomps o -> (jo_ct o = Gray \/ jo_ct o = Rgb) -> 1 <= jo_w o -> 1 <= jo_h o -> 0 <= bx -> 0 <= by_ ->
  is_byte (comp_of (px_ycc (jo_ct o) px) c) ->
  dec_pixels dctq (flat_data px (jo_w o * jo_h o)) o c bx by_ = repeat (flat_level (comp_table o c) (comp_of (px_ycc (jo_ct o) px) c)) 64.
Proof.
  intros HL HC Hw Hh Hx Hy HB. set (v := comp_of (px_ycc (jo_ct o) px) c) in *. destruct (comp_table_ok o c) as [L HT]. unfold dec_pixels, block_coefs.
  assert (block_samples (flat_data px (jo_w o * jo_h o)) o c bx by_ = repeat (4 * (v - 128)) 64) as ->.
  { unfold block_samples. apply idxs_const. intros i Hi. change (Z.of_nat 64) with 64 in Hi. apply plane_flat; auto; pose proof (Z.mod_pos_bound i 8 ltac:(lia)); pose proof (Z.div_pos i 8 ltac:(lia) ltac:(lia)); lia. }
  rewrite flat_dequant; auto.
Qed.
Lemma px_ycc_bytes o px c : bytes px -> zlen px = ncomps o -> (jo_ct o = Gray \/ jo_ct o = Rgb) -> is_byte (comp_of (px_ycc (jo_ct o) px) c).
Proof.
  intros HB HL HC. unfold px_ycc, ycc_at, ncomps in *. assert (forall i, 0 <= i < zlen px -> is_byte (znth px i)) as B.
  { intros i Hi. unfold bytes in HB. rewrite Forall_forall in HB. apply HB. unfold znth, zlen in *. apply nth_In. lia. }
  destruct HC as [E|E]; rewrite E in *.
  - unfold comp_of. cbn [fst snd]. destruct (c =? 0); [apply B; lia|destruct (c =? 1); unfold is_byte; lia].
  - rewrite rgb_to_ycbcr_ok by (apply B; lia). unfold comp_of. cbn [fst snd]. destruct (c =? 0); [apply clamp_byte|destruct (c =? 1); apply clamp_byte].
Qed.
(** the pixel a flat image decodes to *)
Definition flat_pixel (o : jopts) (px : list Z) : list Z :=
  let lv c := flat_level (comp_table o c) (comp_of (px_ycc (jo_ct o) px) c) in
  match jo_ct o with Gray => [lv 0] | _ => ycbcr_pixel (lv 0) (lv 1) (lv 2) end.
Lemma flat_image px o : bytes px -> zlen px = ncomps o -> (jo_ct o = Gray \/ jo_ct o = Rgb) -> 1 <= jo_w o -> 1 <= jo_h o ->
  dec_image dctq (flat_data px (jo_w o * jo_h o)) o = mkjimg (jo_w o) (jo_h o) (flat_data (flat_pixel o px) (jo_w o * jo_h o)) (jo_ct o).
Proof.
  intros HB HL HC Hw Hh. unfold dec_image. f_equal.
  assert (forall c x y, 0 <= x -> 0 <= y -> dec_plane dctq (flat_data px (jo_w o * jo_h o)) o c x y = flat_level (comp_table o c) (comp_of (px_ycc (jo_ct o) px) c)) as P.
  { intros c x y Hx Hy. unfold dec_plane. rewrite flat_pixels by (auto using px_ycc_bytes; apply Z.div_pos; lia).
    pose proof (Z.mod_pos_bound x 8 ltac:(lia)). pose proof (Z.mod_pos_bound y 8 ltac:(lia)). unfold znth. apply nth_rep. lia. }
  assert (forall x y, 0 <= x -> 0 <= y -> dec_pixel dctq (flat_data px (jo_w o * jo_h o)) o x y = flat_pixel o px) as PX.
  { intros x y Hx Hy. assert (1 <= factor o) as F by (unfold factor; destruct (jo_ct o); destruct (jo_sub o); lia).
    pose proof (Z.div_pos x (factor o) ltac:(lia) ltac:(lia)). pose proof (Z.div_pos y (factor o) ltac:(lia) ltac:(lia)).
    unfold dec_pixel, flat_pixel. rewrite !P by lia. reflexivity. }
  rewrite (flat_map_ext_in' _ (fun _ => concat (repeat (flat_pixel o px) (Z.to_nat (jo_w o))))).
  - rewrite flat_map_const, idxs_length, concat_repeat_mul. unfold flat_data. f_equal. f_equal. lia.
  - intros y Hy. apply in_idxs in Hy. rewrite (flat_map_ext_in' _ (fun _ => flat_pixel o px)) by (intros x Hx; apply in_idxs in Hx; apply PX; lia).
    rewrite flat_map_const, idxs_length. reflexivity.
Qed.
(** ** The whole file *)
Lemma flat_valid_args px o : bytes px -> zlen px = ncomps o -> (jo_ct o = Gray \/ jo_ct o = Rgb) -> 1 <= jo_w o <= 65535 -> 1 <= jo_h o <= 65535 -> 1 <= jo_quality o <= 100 ->
  jo_restart o = None -> valid_args (flat_data px (jo_w o * jo_h o)) o.
Proof.
  intros HB HL HC Hw Hh HQ HR. unfold valid_args. rewrite HR. split; [exact Hw|]. split; [exact Hh|]. split; [exact HQ|]. split; [|split; [|auto]].
  - unfold flat_data, bytes. apply Forall_concat. apply Forall_forall. intros l Hl. apply repeat_spec in Hl. subst l. exact HB.
  - rewrite <- HL. unfold flat_data, zlen. assert (forall n, length (concat (repeat px n)) = (n * length px)%nat) as G by (induction n as [|n IH]; cbn [repeat concat]; [reflexivity|rewrite app_length, IH; lia]).
    rewrite G. nia.
Qed.
Theorem flat_gray o v : is_byte v -> jo_ct o = Gray -> 1 <= jo_w o <= 65535 -> 1 <= jo_h o <= 65535 -> 1 <= jo_quality o <= 100 -> jo_prog o = false -> jo_restart o = None ->
  exists out v', jencode pixo_env (flat_data [v] (jo_w o * jo_h o)) o = Ok out /\
    (forall tail, decode_jpeg (out ++ tail) = Ok (mkjimg (jo_w o) (jo_h o) (flat_data [v'] (jo_w o * jo_h o)) Gray)) /\
    16 * Z.abs (v' - v) <= znth (comp_table o 0) 0 + 8.
Proof.
  intros Hv HC Hw Hh HQ HP HR. assert (bytes [v]) as HB by (apply Forall_cons; [exact Hv|apply Forall_nil]). assert (zlen [v] = ncomps o) as HL by (unfold ncomps; rewrite HC; reflexivity).
  destruct (jpeg_roundtrip pixo_env (flat_data [v] (jo_w o * jo_h o)) o) as (out & E & D); auto.
  { apply flat_valid_args; auto. } { apply dctq_dctq_ok. } { rewrite HR. exact I. }
  exists out, (flat_level (comp_table o 0) v). split; [exact E|]. split.
  - intros tail. rewrite D. cbn [je_dctq pixo_env]. rewrite flat_image by (auto; lia). unfold flat_pixel. rewrite HC. reflexivity.
  - destruct (comp_table_ok o 0) as [L HT]. apply flat_level_near; auto.
Qed.
Lemma colour_shift y cb cr y' cb' cr' a b c : 0 <= a -> 0 <= b -> 0 <= c -> Z.abs (y' - y) <= a -> Z.abs (cb' - cb) <= b -> Z.abs (cr' - cr) <= c ->
  exists r g bl r' g' bl', ycbcr_pixel y cb cr = [r; g; bl] /\ ycbcr_pixel y' cb' cr' = [r'; g'; bl'] /\
    256 * Z.abs (r' - r) <= 256 * a + 359 * c + 255 /\ 256 * Z.abs (g' - g) <= 256 * a + 88 * b + 183 * c + 255 /\ 256 * Z.abs (bl' - bl) <= 256 * a + 454 * b + 255.
Proof.
  intros Ha Hb Hc Hy H1 H2. unfold ycbcr_pixel. cbv zeta. do 6 eexists. split; [reflexivity|]. split; [reflexivity|].
  assert (forall p q, Z.abs (clamp p 0 255 - clamp q 0 255) <= Z.abs (p - q)) as G by (intros; rewrite !clamp_mm; lia).
  rewrite !Z.shiftr_div_pow2 by lia. change (2 ^ 8) with 256.
  assert (forall p q d, Z.abs (p - q) <= d -> 256 * Z.abs (p / 256 - q / 256) <= d + 255) as S by (intros; lia).
  pose proof (S ((cr' - 128) * 359) ((cr - 128) * 359) (359 * c) ltac:(lia)). pose proof (S ((cb' - 128) * 88 + (cr' - 128) * 183) ((cb - 128) * 88 + (cr - 128) * 183) (88 * b + 183 * c) ltac:(lia)).
  pose proof (S ((cb' - 128) * 454) ((cb - 128) * 454) (454 * b) ltac:(lia)).
  set (u1 := (cr' - 128) * 359 / 256) in *. set (u2 := (cr - 128) * 359 / 256) in *. set (u3 := ((cb' - 128) * 88 + (cr' - 128) * 183) / 256) in *. set (u4 := ((cb - 128) * 88 + (cr - 128) * 183) / 256) in *.
  set (u5 := (cb' - 128) * 454 / 256) in *. set (u6 := (cb - 128) * 454 / 256) in *. clearbody u1 u2 u3 u4 u5 u6. clear S.
  pose proof (G (y' + u1) (y + u2)). pose proof (G (y' - u3) (y - u4)). pose proof (G (y' + u5) (y + u6)). lia.
Qed.
Lemma flat_colour_pixel o r g b : jo_ct o = Rgb -> is_byte r -> is_byte g -> is_byte b ->
  let a := (znth (comp_table o 0) 0 + 8) / 16 in let c := (znth (comp_table o 1) 0 + 8) / 16 in
  exists r' g' b', flat_pixel o [r; g; b] = [r'; g'; b'] /\ 256 * Z.abs (r' - r) <= 256 * (a + 3) + 359 * c + 255 /\ 256 * Z.abs (g' - g) <= 256 * (a + 3) + 271 * c + 255 /\ 256 * Z.abs (b' - b) <= 256 * (a + 3) + 454 * c + 255.
Proof.
  intros HC Hr Hg Hb. cbv zeta. assert (bytes [r; g; b]) as HB by (repeat (apply Forall_cons; [assumption|]); apply Forall_nil).
  assert (zlen [r; g; b] = ncomps o) as HL by (unfold ncomps; rewrite HC; reflexivity).
  destruct (colour_roundtrip_l r g b Hr Hg Hb) as (y & cb & cr & r1 & g1 & b1 & EY & EP & R1 & R2 & R3).
  assert (px_ycc (jo_ct o) [r; g; b] = (y, cb, cr)) as EC. { unfold px_ycc, ycc_at. rewrite HC. change (rgb_to_ycbcr _ _ _) with (rgb_to_ycbcr r g b). rewrite EY. reflexivity. }
  pose proof (px_ycc_bytes o [r; g; b] 0 HB HL ltac:(auto)) as B0. pose proof (px_ycc_bytes o [r; g; b] 1 HB HL ltac:(auto)) as B1. pose proof (px_ycc_bytes o [r; g; b] 2 HB HL ltac:(auto)) as B2.
  rewrite EC in B0, B1, B2. change (comp_of (y, cb, cr) 0) with y in B0. change (comp_of (y, cb, cr) 1) with cb in B1. change (comp_of (y, cb, cr) 2) with cr in B2.
  destruct (comp_table_ok o 0) as [L0 T0]. destruct (comp_table_ok o 1) as [L1 T1]. change (comp_table o 2) with (comp_table o 1) in *.
  destruct (flat_level_near _ y L0 T0 B0) as [N0 _]. destruct (flat_level_near _ cb L1 T1 B1) as [N1 _]. destruct (flat_level_near _ cr L1 T1 B2) as [N2 _].
  pose proof (table_at _ 0 L0 T0 ltac:(lia)) as Q0. pose proof (table_at _ 0 L1 T1 ltac:(lia)) as Q1.
  set (a := (znth (comp_table o 0) 0 + 8) / 16) in *. set (c := (znth (comp_table o 1) 0 + 8) / 16) in *.
  assert (0 <= a /\ 0 <= c) as [A0 C0] by (split; apply Z.div_pos; lia).
  assert (forall x q, 16 * x <= q + 8 -> x <= (q + 8) / 16) as DV by (intros; apply Z.div_le_lower_bound; lia).
  destruct (colour_shift y cb cr (flat_level (comp_table o 0) y) (flat_level (comp_table o 1) cb) (flat_level (comp_table o 1) cr) a c c) as (r2 & g2 & b2 & r' & g' & b' & P1 & P2 & D1 & D2 & D3); [exact A0|exact C0|exact C0|apply DV; exact N0|apply DV; exact N1|apply DV; exact N2|].
  rewrite EP in P1. injection P1 as <- <- <-. exists r', g', b'. split.
  - unfold flat_pixel. rewrite EC.
    change (comp_of (y, cb, cr) 0) with y. change (comp_of (y, cb, cr) 1) with cb. change (comp_of (y, cb, cr) 2) with cr. change (comp_table o 2) with (comp_table o 1). rewrite P2, HC. reflexivity.
  - clearbody a c. clear -R1 R2 R3 D1 D2 D3. lia.
Qed.
Theorem flat_colour o r g b : is_byte r -> is_byte g -> is_byte b -> jo_ct o = Rgb -> 1 <= jo_w o <= 65535 -> 1 <= jo_h o <= 65535 -> 1 <= jo_quality o <= 100 -> jo_prog o = false -> jo_restart o = None ->
  let a := (znth (comp_table o 0) 0 + 8) / 16 in let c := (znth (comp_table o 1) 0 + 8) / 16 in
  exists out r' g' b', jencode pixo_env (flat_data [r; g; b] (jo_w o * jo_h o)) o = Ok out /\
    (forall tail, decode_jpeg (out ++ tail) = Ok (mkjimg (jo_w o) (jo_h o) (flat_data [r'; g'; b'] (jo_w o * jo_h o)) Rgb)) /\
    256 * Z.abs (r' - r) <= 256 * (a + 3) + 359 * c + 255 /\ 256 * Z.abs (g' - g) <= 256 * (a + 3) + 271 * c + 255 /\ 256 * Z.abs (b' - b) <= 256 * (a + 3) + 454 * c + 255.
Proof.
  intros Hr Hg Hb HC Hw Hh HQ HP HR. cbv zeta. assert (bytes [r; g; b]) as HB by (repeat (apply Forall_cons; [assumption|]); apply Forall_nil).
  assert (zlen [r; g; b] = ncomps o) as HL by (unfold ncomps; rewrite HC; reflexivity).
  destruct (jpeg_roundtrip pixo_env (flat_data [r; g; b] (jo_w o * jo_h o)) o) as (out & E & D); auto.
  { apply flat_valid_args; auto. } { apply dctq_dctq_ok. } { rewrite HR. exact I. }
  destruct (flat_colour_pixel o r g b HC Hr Hg Hb) as (r' & g' & b' & EP & N). exists out, r', g', b'. split; [exact E|]. split; [|exact N].
  intros tail. rewrite D. cbn [je_dctq pixo_env]. rewrite flat_image by (auto; lia). rewrite EP, HC. reflexivity.
Qed.
