(** Proofs that the reduced representation of an image, read as the decoder
    reads it, shows the original pixels. *)
From Coq Require Import Permutation.
From Verif Require Import Base InflateModel Lz77Model PngFilterModel PngPaletteModel PngDecModel PngSpec
  PngFilterProofs PngPackProofs PngDecProofs PngPaletteProofs.

(** ** Lists of pixels *)
Lemma znth_cons0 x l : znth (x :: l) 0 = x.
Proof. reflexivity. Qed.
Lemma znth_consS x l i : 0 < i -> znth (x :: l) i = znth l (i - 1).
Proof. intros. unfold znth. replace (Z.to_nat i) with (S (Z.to_nat (i - 1))) by lia. reflexivity. Qed.

Lemma px2_nth l : forall i, (2 * i + 1 < length l)%nat ->
  nth i (px2 l) (0, 0) = (nth (2 * i) l 0, nth (2 * i + 1) l 0).
Proof.
  intros i. revert l. induction i as [|i IH]; intros l H; destruct l as [|a [|b l]]; cbn [length] in H; try lia; [reflexivity|].
  cbn [px2 nth]. rewrite IH by lia. replace (2 * S i)%nat with (S (S (2 * i))) by lia. reflexivity.
Qed.
Lemma px3_nth l : forall i, (3 * i + 2 < length l)%nat ->
  nth i (px3 l) (0, 0, 0) = (nth (3 * i) l 0, nth (3 * i + 1) l 0, nth (3 * i + 2) l 0).
Proof.
  intros i. revert l. induction i as [|i IH]; intros l H; destruct l as [|a [|b [|c l]]]; cbn [length] in H; try lia; [reflexivity|].
  cbn [px3 nth]. rewrite IH by lia. replace (3 * S i)%nat with (S (S (S (3 * i)))) by lia. reflexivity.
Qed.
Lemma px4_nth l : forall i, (4 * i + 3 < length l)%nat ->
  nth i (px4 l) (0, 0, 0, 0) = (nth (4 * i) l 0, nth (4 * i + 1) l 0, nth (4 * i + 2) l 0, nth (4 * i + 3) l 0).
Proof.
  intros i. revert l. induction i as [|i IH]; intros l H; destruct l as [|a [|b [|c [|d l]]]]; cbn [length] in H; try lia; [reflexivity|].
  cbn [px4 nth]. rewrite IH by lia. replace (4 * S i)%nat with (S (S (S (S (4 * i))))) by lia. reflexivity.
Qed.
Lemma px2_len n : forall l, length l = (2 * n)%nat -> length (px2 l) = n.
Proof. induction n; intros [|a [|b l]] H; cbn [length] in H; try lia; [reflexivity|]. cbn [px2 length]. rewrite IHn; lia. Qed.
Lemma px3_len n : forall l, length l = (3 * n)%nat -> length (px3 l) = n.
Proof. induction n; intros [|a [|b [|c l]]] H; cbn [length] in H; try lia; [reflexivity|]. cbn [px3 length]. rewrite IHn; lia. Qed.
Lemma px4_len n : forall l, length l = (4 * n)%nat -> length (px4 l) = n.
Proof. induction n; intros [|a [|b [|c [|d l]]]] H; cbn [length] in H; try lia; [reflexivity|]. cbn [px4 length]. rewrite IHn; lia. Qed.
Lemma px2_bytes n : forall l, length l = (2 * n)%nat -> bytes l -> Forall (fun '(a, b) => is_byte a /\ is_byte b) (px2 l).
Proof.
  induction n; intros [|a [|b l]] H Hb; cbn [length] in H; try lia; [constructor|]. cbn [px2].
  repeat (apply Forall_cons_iff in Hb as (? & Hb)). constructor; auto. apply IHn; auto; lia.
Qed.
Lemma px3_bytes n : forall l, length l = (3 * n)%nat -> bytes l -> Forall byte3 (px3 l).
Proof.
  induction n; intros [|a [|b [|c l]]] H Hb; cbn [length] in H; try lia; [constructor|]. cbn [px3].
  repeat (apply Forall_cons_iff in Hb as (? & Hb)). constructor; [repeat split; apply H0 || apply H1 || apply H2|]. apply IHn; auto; lia.
Qed.
Lemma px4_bytes n : forall l, length l = (4 * n)%nat -> bytes l -> Forall byte4 (px4 l).
Proof.
  induction n; intros [|a [|b [|c [|d l]]]] H Hb; cbn [length] in H; try lia; [constructor|]. cbn [px4].
  repeat (apply Forall_cons_iff in Hb as (? & Hb)). constructor; [repeat split; apply H0 || apply H1 || apply H2 || apply H3|]. apply IHn; auto; lia.
Qed.

(** ** Images *)
Lemma px4_pixel data n i : image_ok Rgba data n -> 0 <= i < n -> nth (Z.to_nat i) (px4 data) (0, 0, 0, 0) = pixel Rgba data i.
Proof.
  intros (_ & _ & L) Hi. cbn [bytes_per_pixel] in L. unfold zlen in L. rewrite px4_nth by lia. unfold pixel, znth.
  repeat f_equal; lia.
Qed.
Lemma px3_pixel data n i : image_ok Rgb data n -> 0 <= i < n ->
  (let '(r, g, b) := nth (Z.to_nat i) (px3 data) (0, 0, 0) in (r, g, b, 255)) = pixel Rgb data i.
Proof.
  intros (_ & _ & L) Hi. cbn [bytes_per_pixel] in L. unfold zlen in L. rewrite px3_nth by lia. unfold pixel, znth.
  repeat f_equal; lia.
Qed.
Lemma image_len ct data n : image_ok ct data n -> length data = (Z.to_nat (bytes_per_pixel ct) * Z.to_nat n)%nat.
Proof. intros (H & _ & L). unfold zlen in L. destruct ct; cbn [bytes_per_pixel] in *; lia. Qed.

(** the list of all pixels *)
Definition view (ct : color_type) (data : list Z) (n : Z) : list rgba := map (pixel ct data) (idxs (Z.to_nat n)).
Lemma view_rgba data n : image_ok Rgba data n -> px4 data = view Rgba data n.
Proof.
  intros H. pose proof (image_len _ _ _ H) as L. cbn [bytes_per_pixel] in L. change (Z.to_nat 4) with 4%nat in L.
  apply (nth_ext _ _ (0, 0, 0, 0) (0, 0, 0, 0)).
  - unfold view. rewrite map_idxs_length. apply px4_len; auto.
  - intros k Hk. rewrite (px4_len (Z.to_nat n)) in Hk by auto. unfold view. rewrite nth_map_idxs by auto.
    rewrite <- (px4_pixel data n) by (auto; lia). rewrite Nat2Z.id. reflexivity.
Qed.
Lemma view_rgb data n : image_ok Rgb data n -> map (fun '(r, g, b) => (r, g, b, 255)) (px3 data) = view Rgb data n.
Proof.
  intros H. pose proof (image_len _ _ _ H) as L. cbn [bytes_per_pixel] in L. change (Z.to_nat 3) with 3%nat in L.
  set (f := fun c : Z * Z * Z => let '(r, g, b) := c in (r, g, b, 255)).
  change (map _ (px3 data)) with (map f (px3 data)).
  apply (nth_ext _ _ (f (0, 0, 0)) (f (0, 0, 0))).
  - unfold view. rewrite map_idxs_length, map_length. apply px3_len; auto.
  - intros k Hk. rewrite map_length, (px3_len (Z.to_nat n)) in Hk by auto. unfold view. rewrite nth_map_idxs by auto.
    rewrite <- (px3_pixel data n) by (auto; lia). rewrite Nat2Z.id. apply map_nth.
Qed.
Lemma view_length ct data n : length (view ct data n) = Z.to_nat n.
Proof. apply map_idxs_length. Qed.
Lemma view_nth ct data n i : 0 <= i < n -> nth (Z.to_nat i) (view ct data n) (0, 0, 0, 0) = pixel ct data i.
Proof. intros. unfold view. rewrite nth_map_idxs by lia. f_equal. lia. Qed.
Lemma view_in ct data n c : In c (view ct data n) <-> exists i, 0 <= i < n /\ c = pixel ct data i.
Proof.
  unfold view. rewrite in_map_iff. split.
  - intros (i & <- & Hi%in_idxs). exists i. split; [lia|auto].
  - intros (i & Hi & ->). exists i. split; auto. apply in_idxs. lia.
Qed.
Lemma pixel_bytes ct data i : bytes data -> byte4 (pixel ct data i).
Proof.
  intros H. destruct ct; cbn [pixel byte4]; repeat split; try (apply znth_byte; auto); unfold is_byte; lia.
Qed.
Lemma view_bytes ct data n : bytes data -> Forall byte4 (view ct data n).
Proof. intros H. apply Forall_forall. intros c (i & _ & ->)%view_in. apply pixel_bytes; auto. Qed.

(** writing pixels out again *)
Lemma tuple4 (a b c d a' b' c' d' : Z) : a = a' -> b = b' -> c = c' -> d = d' -> (a, b, c, d) = (a', b', c', d').
Proof. congruence. Qed.
Lemma pixel_flat_rgb l : forall i, 0 <= i < zlen l ->
  pixel Rgb (flat_map (fun '(r, g, b, _) => [r; g; b]) l) i =
  let '(r, g, b, _) := nth (Z.to_nat i) l (0, 0, 0, 0) in (r, g, b, 255).
Proof.
  induction l as [|(((r, g), b), a) l IH]; intros i Hi; [rewrite zlen_nil in Hi; lia|].
  rewrite zlen_cons in Hi. cbn [flat_map app]. destruct (Z.eq_dec i 0) as [->|].
  - reflexivity.
  - replace (Z.to_nat i) with (S (Z.to_nat (i - 1))) by lia. cbn [nth]. rewrite <- IH by lia.
    unfold pixel. rewrite !znth_consS by lia. apply tuple4; try reflexivity; apply (f_equal (znth _)); lia.
Qed.
Lemma pixel_flat_rgba (f : rgba -> rgba) l : forall i, 0 <= i < zlen l ->
  pixel Rgba (flat_map (fun c => let '(r, g, b, a) := f c in [r; g; b; a]) l) i =
  f (nth (Z.to_nat i) l (0, 0, 0, 0)).
Proof.
  induction l as [|c l IH]; intros i Hi; [rewrite zlen_nil in Hi; lia|].
  rewrite zlen_cons in Hi. cbn [flat_map]. destruct (Z.eq_dec i 0) as [->|].
  - cbn [nth]. change (Z.to_nat 0) with 0%nat. cbn [nth]. destruct (f c) as [[[r g] b] a]. reflexivity.
  - replace (Z.to_nat i) with (S (Z.to_nat (i - 1))) by lia. cbn [nth]. rewrite <- IH by lia.
    destruct (f c) as [[[r g] b] a]. cbn [app].
    unfold pixel. rewrite !znth_consS by lia. apply tuple4; try reflexivity; apply (f_equal (znth _)); lia.
Qed.
Lemma pixel_flat_ga {A} (f : A -> Z * Z) (d : A) l : forall i, 0 <= i < zlen l ->
  pixel GrayAlpha (flat_map (fun c => let '(g, a) := f c in [g; a]) l) i =
  let '(g, a) := f (nth (Z.to_nat i) l d) in (g, g, g, a).
Proof.
  induction l as [|c l IH]; intros i Hi; [rewrite zlen_nil in Hi; lia|].
  rewrite zlen_cons in Hi. cbn [flat_map]. destruct (Z.eq_dec i 0) as [->|].
  - change (Z.to_nat 0) with 0%nat. cbn [nth]. destruct (f c) as [g a]. reflexivity.
  - replace (Z.to_nat i) with (S (Z.to_nat (i - 1))) by lia. cbn [nth]. rewrite <- IH by lia.
    destruct (f c) as [g a]. cbn [app].
    unfold pixel. rewrite !znth_consS by lia. apply tuple4; try reflexivity; apply (f_equal (znth _)); lia.
Qed.
Lemma flat_len3 l : zlen (flat_map (fun '(r, g, b, _) => [r; g; b]) (l : list rgba)) = zlen l * 3.
Proof. unfold zlen. rewrite (flat_const_length _ 3); [lia|]. intros (((r, g), b), a). reflexivity. Qed.
Lemma flat_bytes3 l : Forall byte4 l -> bytes (flat_map (fun '(r, g, b, _) => [r; g; b]) (l : list rgba)).
Proof.
  induction 1 as [|(((r, g), b), a) l (H1 & H2 & H3 & H4) _ IH]; [constructor|]. cbn [flat_map app].
  constructor; [auto|constructor; [auto|constructor; auto]].
Qed.

(** ** Alpha *)
Definition clear_px (c : rgba) : rgba := let '(r, g, b, a) := c in if a =? 0 then (0, 0, 0, 0) else c.
Lemma clear_is_visible c : clear_px c = visible c.
Proof. destruct c as [[[r g] b] a]. reflexivity. Qed.
Lemma optimize_alpha_ok data ct n : image_ok ct data n ->
  image_ok ct (maybe_optimize_alpha data ct true) n /\
  forall i, 0 <= i < n -> pixel ct (maybe_optimize_alpha data ct true) i =
    match ct with Rgba | GrayAlpha => visible (pixel ct data i) | _ => pixel ct data i end.
Proof.
  intros H. destruct (H) as (Hn & Hb & L). pose proof (image_len _ _ _ H) as Ln.
  destruct ct; cbn [maybe_optimize_alpha negb bytes_per_pixel] in *.
  - split; auto.
  - change (Z.to_nat 2) with 2%nat in Ln.
    replace (skipn (2 * (length data / 2))%nat data) with (@nil Z).
    2:{ symmetry. apply skipn_all2. rewrite Ln. rewrite (Nat.mul_comm 2), Nat.div_mul by lia. lia. }
    rewrite app_nil_r.
    set (f := fun c : Z * Z => let '(g, a) := c in if a =? 0 then (0, a) else (g, a)).
    assert (flat_map (fun '(g, a) => if a =? 0 then [0; a] else [g; a]) (px2 data) =
            flat_map (fun c => let '(g, a) := f c in [g; a]) (px2 data)) as ->.
    { apply flat_map_ext. intros (g, a). unfold f. destruct (a =? 0); reflexivity. }
    pose proof (px2_len (Z.to_nat n) data Ln) as Lp. pose proof (px2_bytes (Z.to_nat n) data Ln Hb) as Bp.
    split.
    + split; auto. split.
      * clear - Bp. induction Bp as [|(g, a) l (H1 & H2) _ IH]; cbn [flat_map]; [constructor|]. unfold f at 1.
        destruct (a =? 0); cbn [app]; (constructor; [try (unfold is_byte; lia); auto|constructor; auto]).
      * unfold zlen. rewrite (flat_const_length _ 2).
        { rewrite Lp. cbn [bytes_per_pixel]. lia. }
        intros (g, a). unfold f. destruct (a =? 0); reflexivity.
    + intros i Hi. rewrite (pixel_flat_ga f (0, 0)) by (unfold zlen; lia). rewrite px2_nth by lia.
      cbn [pixel]. unfold visible, f, znth.
      replace (Z.to_nat (2 * i)) with (2 * Z.to_nat i)%nat by lia.
      replace (Z.to_nat (2 * i + 1)) with (2 * Z.to_nat i + 1)%nat by lia.
      destruct (Z.eqb_spec (nth (2 * Z.to_nat i + 1) data 0) 0) as [E|]; [rewrite E|]; reflexivity.
  - split; auto.
  - change (Z.to_nat 4) with 4%nat in Ln.
    replace (skipn (4 * (length data / 4))%nat data) with (@nil Z).
    2:{ symmetry. apply skipn_all2. rewrite Ln. rewrite (Nat.mul_comm 4), Nat.div_mul by lia. lia. }
    rewrite app_nil_r.
    assert (flat_map (fun '(r, g, b, a) => if a =? 0 then [0; 0; 0; a] else [r; g; b; a]) (px4 data) =
            flat_map (fun c => let '(r, g, b, a) := clear_px c in [r; g; b; a]) (px4 data)) as ->.
    { apply flat_map_ext. intros (((r, g), b), a). unfold clear_px. destruct (Z.eqb_spec a 0) as [->|]; reflexivity. }
    pose proof (px4_len (Z.to_nat n) data Ln) as Lp. pose proof (px4_bytes (Z.to_nat n) data Ln Hb) as Bp.
    split.
    + split; auto. split.
      * clear - Bp. induction Bp as [|(((r, g), b), a) l (H1 & H2 & H3 & H4) _ IH]; cbn [flat_map]; [constructor|]. unfold clear_px at 1.
        assert (is_byte 0) as B0 by (unfold is_byte; lia).
        destruct (a =? 0); cbn [app]; (constructor; [auto|constructor; [auto|constructor; [auto|constructor; auto]]]).
      * unfold zlen. rewrite (flat_const_length _ 4).
        { rewrite Lp. cbn [bytes_per_pixel]. lia. }
        intros (((r, g), b), a). unfold clear_px. destruct (a =? 0); reflexivity.
    + intros i Hi. rewrite (pixel_flat_rgba clear_px) by (unfold zlen; lia).
      rewrite (px4_pixel data n) by auto. apply clear_is_visible.
Qed.
Lemma visible_idem c : visible (visible c) = visible c.
Proof. destruct c as [[[r g] b] a]. unfold visible. destruct (a =? 0) eqn:E; [reflexivity|]. rewrite E. reflexivity. Qed.

(** [shown opt p q]: what the decoder shows for a pixel that was [q] *)
Lemma shown_refl opt p : shown opt p p.
Proof. split; auto. Qed.
Lemma optimize_alpha_shown data ct n opt : image_ok ct data n ->
  image_ok ct (maybe_optimize_alpha data ct opt) n /\
  forall i, 0 <= i < n -> shown opt (pixel ct (maybe_optimize_alpha data ct opt) i) (pixel ct data i).
Proof.
  intros H. destruct opt.
  - destruct (optimize_alpha_ok data ct n H) as (H1 & H2). split; auto. intros i Hi. rewrite H2 by auto.
    split; [|discriminate]. destruct ct; auto using visible_idem.
  - unfold maybe_optimize_alpha. cbn [negb]. split; auto. intros; apply shown_refl.
Qed.

(** ** What the decoder makes of a reduced image *)
Definition pct (b : Z) : png_ct := match png_ct_of b with Ok c => c | _ => PGray end.
Definition hdr_of (w h : Z) (rd : reduced) : ihdr := mkIhdr w h (rd_depth rd) (pct (rd_byte rd)) 0 0 0.
Definition plte_of (rd : reduced) : option (list (Z * Z * Z)) :=
  match rd_pal rd with Some p => Some (map (fun '(r, g, b, _) => (r, g, b)) p) | None => None end.
Definition trns_of (rd : reduced) : option (list Z) :=
  match rd_pal rd with
  | Some p => if existsb (fun '(_, _, _, a) => negb (a =? 255)) p then Some (map (fun '(_, _, _, a) => a) p) else None
  | None => None
  end.
Definition row_bytes_of (w : Z) (rd : reduced) : Z :=
  if rd_depth rd <? 8 then ceil8 (w * rd_depth rd) else w * rd_bpp rd.

Record rd_fits (w h : Z) (ct : color_type) (rd : reduced) : Prop := {
  rf_byte : png_ct_of (rd_byte rd) = Ok (pct (rd_byte rd));
  rf_byte_byte : is_byte (rd_byte rd) /\ is_byte (rd_depth rd);
  rf_depth : valid_depth (pct (rd_byte rd)) (rd_depth rd) = true;
  rf_layout : layout (hdr_of w h rd) = (rd_bpp rd, row_bytes_of w rd);
  rf_bpp : 0 < rd_bpp rd;
  rf_len : zlen (rd_data rd) = row_bytes_of w rd * h;
  rf_bytes : bytes (rd_data rd);
  rf_small : row_bytes_of w rd <= w * bytes_per_pixel ct;
  rf_pal : forall p, rd_pal rd = Some p -> 1 <= zlen p <= 256 /\ Forall byte4 p;
  rf_pal_byte : rd_byte rd = 3 <-> rd_pal rd <> None }.

Definition reads_as (w h : Z) (rd : reduced) (opt : bool) (want : Z -> rgba) : Prop :=
  exists px, convert_to_pixels (hdr_of w h rd) (maybe_optimize_alpha (rd_data rd) (rd_ct rd) opt) (plte_of rd) (trns_of rd) = Ok px /\
    zlen (maybe_optimize_alpha (rd_data rd) (rd_ct rd) opt) = zlen (rd_data rd) /\
    bytes (maybe_optimize_alpha (rd_data rd) (rd_ct rd) opt) /\
    forall i, 0 <= i < w * h -> shown opt (pixel (output_ct (hdr_of w h rd) (trns_of rd)) px i) (want i).

(** *** images stored with 8 bits per sample, without palette *)
Definition plain (data : list Z) (ct : color_type) : reduced :=
  mkReduced data ct (png_color_type ct) 8 (bytes_per_pixel ct) None.
Lemma plain_fits w h ct0 ct data : 0 < w -> 0 < h -> image_ok ct data (w * h) ->
  bytes_per_pixel ct <= bytes_per_pixel ct0 -> rd_fits w h ct0 (plain data ct).
Proof.
  intros Hw Hh (Hn & Hb & L) Hle. constructor.
  - destruct ct; reflexivity.
  - unfold is_byte. destruct ct; cbn; lia.
  - destruct ct; reflexivity.
  - destruct ct; unfold layout, row_bytes_of, hdr_of, plain; cbn [rd_depth rd_byte rd_bpp ih_ct ih_width ih_depth png_color_type bytes_per_pixel];
      cbn [pct png_ct_of Z.eqb Pos.eqb Z.ltb Z.compare Pos.compare Pos.compare_cont].
    + change (Z.max (ceil8 8) 1) with 1. f_equal. unfold ceil8. lia.
    + reflexivity.
    + reflexivity.
    + reflexivity.
  - destruct ct; cbn; lia.
  - unfold row_bytes_of, plain. cbn [rd_data rd_depth rd_bpp]. change (8 <? 8) with false. cbn iota. rewrite L. ring.
  - exact Hb.
  - unfold row_bytes_of, plain. cbn [rd_data rd_depth rd_bpp]. change (8 <? 8) with false. cbn iota. nia.
  - cbn. discriminate.
  - cbn. split; [destruct ct; discriminate|intros G; destruct (G eq_refl)].
Qed.
Lemma plain_reads w h ct data opt : 0 < w -> 0 < h -> image_ok ct data (w * h) ->
  reads_as w h (plain data ct) opt (pixel ct data).
Proof.
  intros Hw Hh Hi. destruct (optimize_alpha_shown data ct (w * h) opt Hi) as ((_ & B & L) & P).
  exists (maybe_optimize_alpha data ct opt). cbn [plain rd_data rd_ct].
  split; [destruct ct; reflexivity|]. split; [destruct Hi as (_ & _ & L'); rewrite L, L'; reflexivity|]. split; auto.
  intros i Hr. replace (output_ct (hdr_of w h (plain data ct)) (trns_of (plain data ct))) with ct by (destruct ct; reflexivity).
  apply P; auto.
Qed.

(** *** gray images with fewer bits *)
Lemma unpack8 data w h : 0 <= w -> 0 <= h -> bytes data -> zlen data = w * h -> unpack_rows data w h 8 = Ok data.
Proof.
  intros Hw Hh Hb L. assert (ceil8 (w * 8) = w) as Hc by (unfold ceil8; lia).
  destruct (unpack_rows_spec data w h 8) as (o & E & Lo & S); auto; try (unfold depths; lia).
  rewrite E. f_equal. apply (nth_ext _ _ 0 0); [unfold zlen in *; lia|]. intros k Hk.
  assert (0 < w) as Hw0 by (destruct (Z.eq_dec w 0) as [->|]; [unfold zlen in Lo; lia|lia]).
  pose proof (Z.div_mod (Z.of_nat k) w ltac:(lia)) as Hdm.
  pose proof (Z.mod_pos_bound (Z.of_nat k) w ltac:(lia)) as Hm.
  assert (0 <= Z.of_nat k / w) by (apply Z.div_pos; lia).
  assert (Z.of_nat k / w < h) as Hlt by (apply Z.div_lt_upper_bound; [lia|]; rewrite <- Lo; unfold zlen; lia).
  set (q := Z.of_nat k / w) in *. set (r := Z.of_nat k mod w) in *.
  specialize (S q r ltac:(lia) ltac:(lia)). rewrite Hc in S.
  replace (q * w + r) with (Z.of_nat k) in S by lia. unfold znth in S at 1. rewrite Nat2Z.id in S. rewrite S.
  unfold sample_at. replace (r * 8 / 8) with r by lia. replace ((r * 8) mod 8) with 0 by lia.
  change (2 ^ (8 - 8 - 0)) with 1. rewrite Z.div_1_r.
  rewrite znth_slice by nia. rewrite Z.mod_small.
  - unfold znth. f_equal. lia.
  - apply znth_byte; auto.
Qed.

Definition scale_factor (d : Z) : Z := if d =? 1 then 255 else if d =? 2 then 85 else if d =? 4 then 17 else 1.
Lemma scale_is_mul d v : depths d -> 0 <= v < 2 ^ d -> scale_to_8bit v d = v * scale_factor d.
Proof.
  intros Hd Hv.
  assert (E : forallb (fun n => let v := Z.of_nat n in
      ((2 <=? v) || (scale_to_8bit v 1 =? v * 255)) && ((4 <=? v) || (scale_to_8bit v 2 =? v * 85)) &&
      (scale_to_8bit v 4 =? v * 17)) (seq 0 16) = true) by (vm_compute; reflexivity).
  rewrite forallb_forall in E. specialize (E (Z.to_nat v)). rewrite in_seq in E. cbv zeta in E.
  rewrite Z2Nat.id in E by lia.
  destruct Hd as [-> | [-> | [-> | ->]]]; unfold scale_factor; cbn [Z.eqb Pos.eqb].
  - change (2 ^ 1) with 2 in Hv. specialize (E ltac:(lia)). apply andb_prop in E as (E & _). apply andb_prop in E as (E & _). lia.
  - change (2 ^ 2) with 4 in Hv. specialize (E ltac:(lia)). apply andb_prop in E as (E & _). apply andb_prop in E as (_ & E). lia.
  - change (2 ^ 4) with 16 in Hv. specialize (E ltac:(lia)). apply andb_prop in E as (_ & E). lia.
  - unfold scale_to_8bit. cbn [Z.eqb Pos.eqb]. ring.
Qed.

Lemma fold_max_ge l : forall x, x <= fold_left Z.max l x /\ Forall (fun v => v <= fold_left Z.max l x) l.
Proof.
  induction l as [|y l IH]; intros x; cbn [fold_left]; [split; [lia|constructor]|].
  destruct (IH (Z.max x y)) as (H1 & H2). split; [lia|]. constructor; [lia|auto].
Qed.
Lemma fold_max_in l : forall x, fold_left Z.max l x = x \/ In (fold_left Z.max l x) l.
Proof.
  induction l as [|y l IH]; intros x; cbn [fold_left]; auto.
  destruct (IH (Z.max x y)) as [E|E]; [|right; right; auto]. rewrite E.
  destruct (Z.max_spec x y) as [(_ & ->)|(_ & ->)]; auto. right; left; auto.
Qed.
(** the depth chosen for a list of gray values *)
Definition gray_depth (m : Z) : Z := if m <=? 1 then 1 else if m <=? 3 then 2 else if m <=? 15 then 4 else 8.
Lemma gray_depth_ok l : l <> [] -> bytes l ->
  exists m, In m l /\ Forall (fun v => v <= m) l /\ reduce_gray_bit_depth l = Some (gray_depth m) /\
    depths (gray_depth m) /\ Forall (fun v => 0 <= v < 2 ^ gray_depth m) l.
Proof.
  intros Hl Hb. destruct l as [|x r]; [congruence|]. exists (fold_left Z.max r x).
  destruct (fold_max_ge r x) as (H1 & H2).
  assert (In (fold_left Z.max r x) (x :: r)) as Hin by (destruct (fold_max_in r x) as [->|]; [left; auto|right; auto]).
  assert (Forall (fun v => v <= fold_left Z.max r x) (x :: r)) as HF by (constructor; auto).
  split; auto. split; auto. split; [reflexivity|].
  set (m := fold_left Z.max r x) in *. clearbody m.
  assert (0 <= m < 256) as Hm by (unfold bytes in Hb; rewrite Forall_forall in Hb; apply Hb; auto).
  assert (depths (gray_depth m) /\ m < 2 ^ gray_depth m) as (D & P).
  { unfold gray_depth, depths. destruct (Z.leb_spec m 1); [change (2 ^ 1) with 2; lia|].
    destruct (Z.leb_spec m 3); [change (2 ^ 2) with 4; lia|].
    destruct (Z.leb_spec m 15); [change (2 ^ 4) with 16; lia|]. change (2 ^ 8) with 256; lia. }
  split; auto. unfold bytes in Hb. rewrite Forall_forall in *. intros v Hv. specialize (Hb v Hv). specialize (HF v Hv).
  unfold is_byte in Hb. lia.
Qed.

Lemma reduce_gray_ok g w h ct0 opt : 0 < w -> 0 < h -> bytes g -> zlen g = w * h -> 1 <= bytes_per_pixel ct0 ->
  exists rd m, reduce_gray g w = Ok rd /\ In m g /\ Forall (fun v => v <= m) g /\ rd_depth rd = gray_depth m /\
    rd_fits w h ct0 rd /\
    reads_as w h rd opt (fun i => let v := znth g i * scale_factor (gray_depth m) in (v, v, v, 255)).
Proof.
  intros Hw Hh Hb L Hbp. assert (g <> []) as Hne by (intros ->; rewrite zlen_nil in L; nia).
  destruct (gray_depth_ok g Hne Hb) as (m & Hm1 & Hm2 & E & D & R).
  unfold reduce_gray. rewrite E.
  assert (exists packed, (if gray_depth m <? 8 then pack_bits_rows g w (gray_depth m) else Ok g) = Ok packed /\
    bytes packed /\ zlen packed = ceil8 (w * gray_depth m) * h /\ unpack_rows packed w h (gray_depth m) = Ok g) as (packed & -> & Pb & Pl & Pu).
  { destruct (Z.ltb_spec (gray_depth m) 8).
    - apply pack_unpack; auto; try lia. unfold depths, sub8d in *; lia.
    - assert (gray_depth m = 8) as -> by (unfold depths in D; lia). exists g. split; auto. split; auto.
      split; [unfold ceil8; replace ((w * 8 + 7) / 8) with w by lia; auto|]. apply unpack8; auto; lia. }
  cbn [rbind]. eexists _, m. split; [reflexivity|]. split; auto. split; auto. split; [reflexivity|].
  set (d := gray_depth m) in *.
  assert (row_bytes_of w (mkReduced packed Gray (png_color_type Gray) d (depth_bpp d) None) = ceil8 (w * d)) as Erb.
  { unfold row_bytes_of. cbn [rd_depth rd_bpp]. destruct (Z.ltb_spec d 8); auto.
    assert (d = 8) as -> by (unfold depths in D; lia). change (depth_bpp 8) with 1. unfold ceil8. lia. }
  split.
  - constructor.
    + reflexivity.
    + cbn [rd_byte rd_depth png_color_type]. unfold is_byte, depths in *. lia.
    + cbn [rd_byte rd_depth png_color_type pct png_ct_of Z.eqb]. cbn [valid_depth]. unfold depths in D. lia.
    + rewrite Erb. unfold layout, hdr_of. cbn [rd_depth rd_byte rd_bpp ih_ct ih_width ih_depth png_color_type pct png_ct_of Z.eqb].
      reflexivity.
    + cbn [rd_bpp]. unfold depth_bpp. lia.
    + rewrite Erb. exact Pl.
    + exact Pb.
    + rewrite Erb. unfold ceil8. assert (w * d <= w * 8) by (unfold depths in D; nia). nia.
    + cbn. discriminate.
    + cbn. split; [discriminate|intros G; destruct (G eq_refl)].
  - assert (maybe_optimize_alpha packed Gray opt = packed) as Ea by (unfold maybe_optimize_alpha; destruct opt; reflexivity).
    exists (map (fun s => scale_to_8bit s d) g).
    cbn [rd_data rd_ct]. rewrite Ea. split; [|split; [reflexivity|split; [exact Pb|]]].
    + unfold convert_to_pixels, hdr_of. cbn [rd_depth rd_byte ih_ct ih_width ih_height ih_depth png_color_type pct png_ct_of Z.eqb].
      destruct (Z.eqb_spec d 8) as [E8|].
      { rewrite E8 in Pu. rewrite unpack8 in Pu; auto; try lia.
        2:{ rewrite Pl, E8. unfold ceil8. replace ((w * 8 + 7) / 8) with w by lia. auto. }
        injection Pu as ->. rewrite E8. f_equal. symmetry. unfold scale_to_8bit. cbn [Z.eqb Pos.eqb]. apply map_id. }
      replace (d =? 16) with false by (unfold depths in D; lia).
      unfold unpack_gray. rewrite Pu. reflexivity.
    + intros i Hi. change (output_ct _ _) with Gray. cbn [pixel].
      assert (znth (map (fun s => scale_to_8bit s d) g) i = znth g i * scale_factor d) as ->; [|apply shown_refl].
      unfold znth. rewrite nth_indep with (d' := scale_to_8bit 0 d) by (rewrite map_length; unfold zlen in L; lia).
      rewrite (map_nth (fun s => scale_to_8bit s d)). apply scale_is_mul; auto.
      rewrite Forall_forall in R. apply R, nth_In. unfold zlen in L; lia.
Qed.

(** *** palette images *)
Lemma palette_depth_ok n : 1 <= n <= 256 -> depths (palette_bit_depth n) /\ n <= 2 ^ palette_bit_depth n.
Proof.
  intros H. unfold palette_bit_depth, depths. replace (n =? 0) with false by lia.
  destruct (Z.leb_spec n 2); [change (2 ^ 1) with 2; lia|].
  destruct (Z.leb_spec n 4); [change (2 ^ 2) with 4; lia|].
  destruct (Z.leb_spec n 16); [change (2 ^ 4) with 16; lia|]. change (2 ^ 8) with 256; lia.
Qed.

Lemma expand_pixels p idx : Forall byte4 p -> Forall (fun v => 0 <= v < zlen p) idx ->
  let pal := map (fun '(r, g, b, _) => (r, g, b)) p in
  let al := map (fun '(_, _, _, a) => a) p in
  let tr := if existsb (fun '(_, _, _, a) => negb (a =? 255)) p then Some al else None in
  exists px, expand_palette pal tr idx = Ok px /\
    forall i, 0 <= i < zlen idx ->
      pixel (if has_alpha_in_trns tr then Rgba else Rgb) px i = colour_at p (znth idx i).
Proof.
  intros Hb HF pal al tr.
  assert (has_alpha_in_trns tr = existsb (fun '(_, _, _, a) => negb (a =? 255)) p) as Ht.
  { unfold tr. destruct (existsb _ p) eqn:E; [|reflexivity]. cbn [has_alpha_in_trns]. unfold al.
    rewrite <- E. clear. induction p as [|(((r, g), b), a) p IH]; [reflexivity|]. cbn [map existsb]. rewrite IH. reflexivity. }
  rewrite expand_palette_ok by (eapply Forall_impl; [|exact HF]; cbn; intros; lia).
  eexists; split; [reflexivity|].
  assert (forall v, 0 <= v < zlen p -> pal_rgb pal v = (let '(r, g, b, _) := colour_at p v in (r, g, b)) /\
     pal_alpha pal al v = (let '(_, _, _, a) := colour_at p v in a)) as Hc.
  { intros v Hv. unfold pal_rgb, pal_alpha, colour_at, pal, al.
    rewrite zlen_map. replace (v <? zlen p) with true by lia.
    set (f3 := fun c : rgba => let '(r, g, b, _) := c in (r, g, b)). set (f1 := fun c : rgba => let '(_, _, _, a) := c in a).
    change (map (fun '(r, g, b, _) => (r, g, b)) p) with (map f3 p). change (map (fun '(_, _, _, a) => a) p) with (map f1 p).
    split.
    - change (0, 0, 0) with (f3 (0, 0, 0, 0)). rewrite map_nth. reflexivity.
    - rewrite nth_indep with (d' := f1 (0, 0, 0, 0)) by (rewrite map_length; unfold zlen in Hv; lia). rewrite map_nth. reflexivity. }
  rewrite Forall_forall in HF.
  set (g := fun i => _). rewrite <- flat_map_concat_map'. rewrite Ht.
  assert (forall i, 0 <= i < zlen idx -> 0 <= znth idx i < zlen p) as Hi by (intros i Hi; apply HF, nth_In; unfold zlen in Hi; lia).
  destruct (existsb (fun '(_, _, _, a) => negb (a =? 255)) p) eqn:Ex.
  - intros i Hr.
    set (mp := map (colour_at p) idx).
    assert (flat_map g idx = flat_map (fun c => let '(r, gg, b, a) := c in [r; gg; b; a]) mp) as ->.
    { unfold mp. rewrite flat_map_concat_map, flat_map_concat_map, map_map. f_equal. apply map_ext_in.
      intros v Hv%HF. destruct (Hc v Hv) as (E1 & E2). unfold g. unfold tr. rewrite E1.
      assert (has_alpha_in_trns (Some al) = true) as -> by exact Ht.
      rewrite E2. destruct (colour_at p v) as [[[r gg] b] a]. reflexivity. }
    rewrite (pixel_flat_rgba (fun c => c)) by (unfold mp; rewrite zlen_map; auto).
    unfold mp, znth. rewrite nth_indep with (d' := colour_at p 0) by (rewrite map_length; unfold zlen in Hr; lia).
    apply map_nth.
  - intros i Hr.
    set (mp := map (colour_at p) idx).
    assert (flat_map g idx = flat_map (fun '(r, gg, b, _) => [r; gg; b]) mp) as ->.
    { unfold mp. rewrite flat_map_concat_map, flat_map_concat_map, map_map. f_equal. apply map_ext_in.
      intros v Hv%HF. destruct (Hc v Hv) as (E1 & E2). unfold g. unfold tr. rewrite E1.
      destruct (colour_at p v) as [[[r gg] b] a]. reflexivity. }
    rewrite pixel_flat_rgb by (unfold mp; rewrite zlen_map; auto).
    unfold mp. rewrite nth_indep with (d' := colour_at p 0) by (rewrite map_length; unfold zlen in Hr; lia).
    rewrite map_nth. fold (znth idx i).
    assert (forall c, In c p -> (let '(r, gg, b, _) := c in (r, gg, b, 255)) = c) as Hopq.
    { intros (((r, gg), b), a) Hin. destruct (Z.eqb_spec a 255) as [->|Ha]; auto. exfalso.
      assert (existsb (fun '(_, _, _, a) => negb (a =? 255)) p = true) as G; [|congruence].
      apply existsb_exists. exists (r, gg, b, a). split; auto. apply negb_true_iff. apply Z.eqb_neq. auto. }
    apply Hopq. unfold colour_at. apply nth_In. specialize (Hi i Hr). unfold zlen in Hi. lia.
Qed.

Definition indexed_rd (packed : list Z) (p : list rgba) : reduced :=
  mkReduced packed Rgb 3 (palette_bit_depth (zlen p)) (depth_bpp (palette_bit_depth (zlen p))) (Some p).
Lemma palette_reads w h ct0 ni p opt : 0 < w -> 0 < h -> 1 <= zlen p <= 256 -> Forall byte4 p -> zlen ni = w * h ->
  Forall (fun v => 0 <= v < zlen p) ni -> 1 <= bytes_per_pixel ct0 ->
  exists packed, (if palette_bit_depth (zlen p) <? 8 then pack_bits_rows ni w (palette_bit_depth (zlen p)) else Ok ni) = Ok packed /\
    rd_fits w h ct0 (indexed_rd packed p) /\
    reads_as w h (indexed_rd packed p) opt (fun i => colour_at p (znth ni i)).
Proof.
  intros Hw Hh Hp Hpb L HF Hbp. destruct (palette_depth_ok (zlen p) Hp) as (D & P). unfold indexed_rd. set (d := palette_bit_depth (zlen p)) in *.
  assert (exists packed, (if d <? 8 then pack_bits_rows ni w d else Ok ni) = Ok packed /\
    bytes packed /\ zlen packed = ceil8 (w * d) * h /\ unpack_rows packed w h d = Ok ni) as (packed & -> & Pb & Pl & Pu).
  { destruct (Z.ltb_spec d 8).
    - apply pack_unpack; auto; try lia. { unfold depths, sub8d in *; lia. }
      eapply Forall_impl; [|exact HF]. cbn; intros; lia.
    - assert (d = 8) as Ed by (unfold depths in D; lia). rewrite Ed. exists ni.
      assert (bytes ni) as Bn.
      { eapply Forall_impl; [|exact HF]. unfold is_byte. intros; lia. }
      split; auto. split; auto. split; [unfold ceil8; replace ((w * 8 + 7) / 8) with w by lia; auto|]. apply unpack8; auto; lia. }
  exists packed. split; auto.
  assert (row_bytes_of w (mkReduced packed Rgb 3 d (depth_bpp d) (Some p)) = ceil8 (w * d)) as Erb.
  { unfold row_bytes_of. cbn [rd_depth rd_bpp]. destruct (Z.ltb_spec d 8); auto.
    assert (d = 8) as -> by (unfold depths in D; lia). change (depth_bpp 8) with 1. unfold ceil8. lia. }
  split.
  - constructor.
    + reflexivity.
    + cbn [rd_byte rd_depth]. unfold is_byte, depths in *. lia.
    + cbn [rd_byte rd_depth pct png_ct_of Z.eqb Pos.eqb]. cbn [valid_depth]. unfold depths in D. lia.
    + rewrite Erb. unfold layout, hdr_of. cbn [rd_depth rd_byte rd_bpp ih_ct ih_width ih_depth pct png_ct_of Z.eqb Pos.eqb].
      f_equal. unfold depth_bpp. unfold depths in D. lia.
    + cbn [rd_bpp]. unfold depth_bpp. lia.
    + rewrite Erb. exact Pl.
    + exact Pb.
    + rewrite Erb. unfold ceil8. assert (w * d <= w * 8) by (unfold depths in D; nia). nia.
    + cbn. intros ? [= <-]. auto.
    + cbn. split; [discriminate|auto].
  - assert (maybe_optimize_alpha packed Rgb opt = packed) as Ea by (unfold maybe_optimize_alpha; destruct opt; reflexivity).
    destruct (expand_pixels p ni Hpb HF) as (px & Epx & Hpx). exists px.
    cbn [rd_data rd_ct]. rewrite Ea. split; [|split; [reflexivity|split; [exact Pb|]]].
    + unfold convert_to_pixels, hdr_of, plte_of, trns_of. cbn [rd_pal rd_depth rd_byte ih_ct ih_width ih_height ih_depth pct png_ct_of Z.eqb Pos.eqb].
      unfold unpack_indices. rewrite Pu. exact Epx.
    + intros i Hi. rewrite <- L in Hi. unfold output_ct, hdr_of, trns_of. cbn [rd_pal rd_byte ih_ct pct png_ct_of Z.eqb Pos.eqb].
      rewrite Hpx by auto. apply shown_refl.
Qed.

(** ** Reduction of the colour type *)
Definition gray_px (c : rgba) : bool := let '(r, g, b, _) := c in (r =? g) && (g =? b).
Definition opaque_px (c : rgba) : bool := let '(_, _, _, a) := c in a =? 255.
Lemma analyze_spec l : forall o g, o || g = true ->
  analyze_px l o g = (o && forallb opaque_px l, g && forallb gray_px l).
Proof.
  induction l as [|(((r, g), b), a) l IH]; intros o gr H; cbn [analyze_px forallb gray_px opaque_px].
  - rewrite !andb_true_r. reflexivity.
  - destruct (a =? 255), ((r =? g) && (g =? b)) eqn:Eg; cbn [andb]; rewrite ?andb_false_r.
    + destruct o, gr; try discriminate H; cbn [negb andb]; rewrite IH by auto; reflexivity.
    + destruct o; cbn [negb andb]; [rewrite IH by auto; reflexivity|reflexivity].
    + destruct gr; cbn [negb andb]; [rewrite IH by auto; reflexivity|reflexivity].
    + reflexivity.
Qed.

(** opaque gray images, in terms of pixels *)
Definition gray_opaque (ct : color_type) (data : list Z) (n : Z) : Prop :=
  forall i, 0 <= i < n -> exists g, pixel ct data i = (g, g, g, 255).
Lemma gray_opaque_view ct data n : gray_opaque ct data n <->
  forallb opaque_px (view ct data n) = true /\ forallb gray_px (view ct data n) = true.
Proof.
  rewrite !forallb_forall. split.
  - intros H. split; intros c (i & Hi & ->)%view_in; destruct (H i Hi) as (g & ->); cbn; lia.
  - intros (H1 & H2) i Hi. assert (In (pixel ct data i) (view ct data n)) as Hin by (apply view_in; eauto).
    specialize (H1 _ Hin). specialize (H2 _ Hin). destruct (pixel ct data i) as [[[r g] b] a]. cbn in H1, H2.
    exists r. f_equal; [f_equal; [f_equal|]|]; lia.
Qed.
Lemma all_gray_rgb_view data n : image_ok Rgb data n ->
  all_gray_rgb data = true <-> gray_opaque Rgb data n.
Proof.
  intros H. rewrite gray_opaque_view. rewrite <- (view_rgb data n H). unfold all_gray_rgb.
  split.
  - intros E. split.
    + apply forallb_forall. intros c Hc. apply in_map_iff in Hc as (((r, g), b) & <- & _). reflexivity.
    + apply forallb_forall. intros c Hc. apply in_map_iff in Hc as (((r, g), b) & <- & Hin).
      rewrite forallb_forall in E. apply E in Hin. exact Hin.
  - intros (_ & E). rewrite forallb_forall in *. intros ((r, g), b) Hin.
    specialize (E (r, g, b, 255)). cbn in E. apply E. apply in_map_iff. exists (r, g, b). auto.
Qed.

(** the red values *)
Lemma red_nth_rgba l i : znth (map (fun '(r, _, _, _) => r) (l : list rgba)) i =
  let '(r, _, _, _) := nth (Z.to_nat i) l (0, 0, 0, 0) in r.
Proof.
  unfold znth. set (f := fun c : rgba => let '(r, _, _, _) := c in r). change (map _ l) with (map f l).
  change 0 with (f (0, 0, 0, 0)). rewrite map_nth. reflexivity.
Qed.
Lemma red_nth_rgb l i : znth (map (fun '(r, _, _) => r) (l : list (Z * Z * Z))) i =
  let '(r, _, _) := nth (Z.to_nat i) l (0, 0, 0) in r.
Proof.
  unfold znth. set (f := fun c : Z * Z * Z => let '(r, _, _) := c in r). change (map _ l) with (map f l).
  change 0 with (f (0, 0, 0)). rewrite map_nth. reflexivity.
Qed.

(** the gray level of a pixel *)
Lemma scale_when_8 m : 15 < m -> scale_factor (gray_depth m) = 1.
Proof. intros. unfold gray_depth. replace (m <=? 1) with false by lia. replace (m <=? 3) with false by lia. replace (m <=? 15) with false by lia. reflexivity. Qed.

(** what the decoder will show, as a function of the original image *)
Definition want_gray (ct : color_type) (data : list Z) (k : Z) (i : Z) : rgba :=
  let v := level (pixel ct data i) * k in (v, v, v, 255).

Lemma reduce_gray_image g w h ct data opt : 0 < w -> 0 < h -> bytes g -> zlen g = w * h ->
  (ct = Rgb \/ ct = Rgba) -> gray_opaque ct data (w * h) ->
  (forall i, 0 <= i < w * h -> znth g i = level (pixel ct data i)) ->
  exists rd k, reduce_gray g w = Ok rd /\ rd_fits w h ct rd /\ reads_as w h rd opt (want_gray ct data k) /\
    (faint ct data (w * h) -> 17 <= k) /\ (~ faint ct data (w * h) -> forall i, 0 <= i < w * h -> want_gray ct data k i = pixel ct data i).
Proof.
  intros Hw Hh Hb L Hct Hg He.
  destruct (reduce_gray_ok g w h ct opt) as (rd & m & E & Hm1 & Hm2 & Hd & Hf & (px & R1 & R2 & R3 & R4)); auto.
  { destruct Hct as [-> | ->]; cbn; lia. }
  exists rd, (scale_factor (gray_depth m)). split; auto. split; auto.
  assert (exists j, 0 <= j < w * h /\ znth g j = m) as (j & Hj & Ej).
  { apply In_nth with (d := 0) in Hm1 as (k & Hk & Ek). exists (Z.of_nat k). unfold zlen in L. split; [lia|].
    unfold znth. rewrite Nat2Z.id. auto. }
  assert (0 <= m < 256) as Hm by (unfold bytes in Hb; rewrite Forall_forall in Hb; apply Hb; auto).
  assert (forall i, 0 <= i < w * h -> znth g i <= m) as Hle.
  { intros i Hi. rewrite Forall_forall in Hm2. apply Hm2. unfold znth. apply nth_In. unfold zlen in L. lia. }
  split; [|split].
  - exists px. split; auto. split; auto. split; auto. intros i Hi. unfold want_gray. rewrite <- He by auto. apply R4; auto.
  - intros (_ & Hf1 & _). destruct (Hf1 j Hj) as (gg & Eg & Hg15). rewrite He, Eg in Ej by auto. cbn in Ej.
    assert (m <= 15) as Hm15 by lia. unfold scale_factor, gray_depth. destruct (m <=? 1); [cbn; lia|]. destruct (m <=? 3); [cbn; lia|].
    replace (m <=? 15) with true by lia. cbn; lia.
  - intros Hnf i Hi. destruct (Hg i Hi) as (gg & Eg). unfold want_gray. rewrite Eg. cbn [level].
    destruct (Z.eq_dec m 0) as [->|Hm0].
    { specialize (Hle i Hi). rewrite He, Eg in Hle by auto. cbn in Hle.
      assert (0 <= gg) as H0.
      { pose proof (znth_byte g i Hb) as B. rewrite He, Eg in B by auto. cbn in B. unfold is_byte in B. lia. }
      assert (gg = 0) as -> by lia. reflexivity. }
    destruct (Z.le_gt_cases m 15) as [H15|H15].
    + exfalso. apply Hnf. split; auto. split.
      * intros k Hk. destruct (Hg k Hk) as (g2 & E2). exists g2. split; auto. specialize (Hle k Hk). rewrite He, E2 in Hle by auto. cbn in Hle. lia.
      * exists j. split; auto. rewrite <- He by auto. lia.
    + rewrite scale_when_8 by lia. rewrite Z.mul_1_r. reflexivity.
Qed.

Definition exactly (ct : color_type) (data : list Z) : Z -> rgba := pixel ct data.

(** a gray opaque image always has at most 256 colours *)
Lemma gray_palette px w h : (forall c, In c px -> exists g, c = (g, g, g, 255) /\ is_byte g) -> palette_go px w h <> Ok None.
Proof.
  intros H E. unfold palette_go in E. set (sorted := dedup (sort_keys (map color_key px))) in *.
  destruct (Z.ltb_spec 256 (zlen sorted)) as [Hlt|].
  - assert (NoDup sorted) as Hnd by (apply dedup_nodup, sort_asc).
    assert (incl sorted (map (fun g => color_key (g, g, g, 255)) (idxs (Z.to_nat 256)))) as Hincl.
    { intros k Hk. unfold sorted in Hk. rewrite dedup_in, sort_keys_in in Hk. apply in_map_iff in Hk as (c & <- & Hc).
      destruct (H c Hc) as (g & -> & Hg). apply in_map_iff. exists g. split; auto. apply in_idxs. unfold is_byte in Hg. lia. }
    apply NoDup_incl_length in Hincl; auto. rewrite map_idxs_length in Hincl. unfold zlen in Hlt. lia.
  - destruct (map_res _ _) as [idx|e| |]; cbn [rbind] in E; try discriminate.
    destruct (optimize_palette_order _ _ _ _); discriminate.
Qed.

Lemma reduce_by_type_ok data w h ct opt : 0 < w -> 0 < h -> image_ok ct data (w * h) ->
  exists rd want, reduce_by_type data w ct = Ok rd /\ rd_fits w h ct rd /\ reads_as w h rd opt want /\
    (faint ct data (w * h) -> exists k, 17 <= k /\ want = want_gray ct data k) /\
    (~ faint ct data (w * h) -> forall i, 0 <= i < w * h -> want i = pixel ct data i).
Proof.
  intros Hw Hh Hi.
  assert (forall ct', (~ faint ct data (w * h)) -> forall d', image_ok ct' d' (w * h) -> bytes_per_pixel ct' <= bytes_per_pixel ct ->
    (forall i, 0 <= i < w * h -> pixel ct' d' i = pixel ct data i) ->
    exists rd want, Ok (plain d' ct') = Ok rd /\ rd_fits w h ct rd /\ reads_as w h rd opt want /\
    (faint ct data (w * h) -> exists k, 17 <= k /\ want = want_gray ct data k) /\
    (~ faint ct data (w * h) -> forall i, 0 <= i < w * h -> want i = pixel ct data i)) as Hplain.
  { intros ct' Hnf d' Hi' Hle Hpx. exists (plain d' ct'), (pixel ct' d'). split; auto.
    split; [apply plain_fits; auto|]. split; [apply plain_reads; auto|]. split; [intros G; contradiction|auto]. }
  destruct (Hi) as (Hn & Hb & L). pose proof (image_len _ _ _ Hi) as Ln.
  destruct ct; cbn [reduce_by_type].
  - apply (Hplain Gray); auto; try lia. intros ([G|G] & _); discriminate.
  - apply (Hplain GrayAlpha); auto; try lia. intros ([G|G] & _); discriminate.
  - change (Z.to_nat (bytes_per_pixel Rgb)) with 3%nat in Ln.
    destruct (all_gray_rgb data) eqn:Eg.
    + apply (all_gray_rgb_view data (w * h) Hi) in Eg.
      destruct (reduce_gray_image (map (fun '(r, _, _) => r) (px3 data)) w h Rgb data opt) as (rd & k & E & F & R & K1 & K2); auto.
      * pose proof (px3_bytes _ _ Ln Hb) as B. apply Forall_forall. intros v Hv. apply in_map_iff in Hv as (((r, g), b) & <- & Hin).
        rewrite Forall_forall in B. apply B in Hin. apply Hin.
      * rewrite zlen_map. unfold zlen. rewrite (px3_len _ _ Ln). lia.
      * intros i Hr. rewrite red_nth_rgb. rewrite <- (px3_pixel data (w * h)) by auto.
        destruct (nth (Z.to_nat i) (px3 data) (0, 0, 0)) as [[r g] b]. reflexivity.
      * exists rd, (want_gray Rgb data k). split; auto. split; auto. split; auto. split; auto. eauto.
    + apply (Hplain Rgb); auto; try lia. intros (_ & F & _).
      assert (all_gray_rgb data = true); [|congruence]. apply (all_gray_rgb_view data (w * h) Hi).
      intros i Hr. destruct (F i Hr) as (g & E & _). eauto.
  - change (Z.to_nat (bytes_per_pixel Rgba)) with 4%nat in Ln.
    unfold analyze_rgba. rewrite analyze_spec by reflexivity. cbn [andb]. rewrite (view_rgba data (w * h) Hi).
    destruct (forallb opaque_px (view Rgba data (w * h))) eqn:Eo, (forallb gray_px (view Rgba data (w * h))) eqn:Eg; cbn [andb].
    + assert (gray_opaque Rgba data (w * h)) as G by (apply gray_opaque_view; auto).
      destruct (reduce_gray_image (map (fun '(r, _, _, _) => r) (view Rgba data (w * h))) w h Rgba data opt) as (rd & k & E & F & R & K1 & K2); auto.
      * apply Forall_forall. intros v Hv. apply in_map_iff in Hv as ((((r, g), b), a) & <- & Hin).
        pose proof (view_bytes Rgba data (w * h) Hb) as B. rewrite Forall_forall in B. apply B in Hin. apply Hin.
      * rewrite zlen_map. unfold zlen. rewrite view_length. lia.
      * intros i Hr. rewrite red_nth_rgba, view_nth by auto. reflexivity.
      * exists rd, (want_gray Rgba data k). split; auto. split; auto. split; auto. split; auto. eauto.
    + apply (Hplain Rgb).
      * intros F. assert (gray_opaque Rgba data (w * h)) as G.
        { intros i Hr. destruct F as (_ & F & _). destruct (F i Hr) as (g & E & _). eauto. }
        apply gray_opaque_view in G. destruct G; congruence.
      * split; auto. split; [apply flat_bytes3, view_bytes; auto|]. rewrite flat_len3. cbn [bytes_per_pixel].
        unfold zlen. rewrite view_length. lia.
      * cbn; lia.
      * intros i Hr. rewrite pixel_flat_rgb by (unfold zlen; rewrite view_length; lia). rewrite view_nth by auto.
        assert (In (pixel Rgba data i) (view Rgba data (w * h))) as Hin by (apply view_in; eauto).
        rewrite forallb_forall in Eo. apply Eo in Hin. destruct (pixel Rgba data i) as [[[r g] b] a]. cbn in Hin. f_equal. lia.
    + set (f := fun c : rgba => let '(r, _, _, a) := c in (r, a)).
      assert (flat_map (fun '(r, _, _, a) => [r; a]) (view Rgba data (w * h)) =
              flat_map (fun c => let '(g, a) := f c in [g; a]) (view Rgba data (w * h))) as Ef.
      { apply flat_map_ext. intros (((r, g), b), a). reflexivity. }
      rewrite Ef. apply (Hplain GrayAlpha).
      * intros F. assert (gray_opaque Rgba data (w * h)) as G.
        { intros i Hr. destruct F as (_ & F & _). destruct (F i Hr) as (g & E & _). eauto. }
        apply gray_opaque_view in G. destruct G; congruence.
      * split; auto. split.
        -- pose proof (view_bytes Rgba data (w * h) Hb) as B. clear - B.
           induction B as [|(((r, g), b), a) l (H1 & H2 & H3 & H4) _ IH]; cbn [flat_map]; [constructor|].
           cbn [f app]. constructor; [auto|constructor; auto].
        -- unfold zlen. rewrite (flat_const_length _ 2) by (intros (((r, g), b), a); reflexivity).
           rewrite view_length. cbn [bytes_per_pixel]. lia.
      * cbn; lia.
      * intros i Hr. rewrite (pixel_flat_ga f (0, 0, 0, 0)) by (unfold zlen; rewrite view_length; lia). rewrite view_nth by auto.
        assert (In (pixel Rgba data i) (view Rgba data (w * h))) as Hin by (apply view_in; eauto).
        rewrite forallb_forall in Eg. apply Eg in Hin. destruct (pixel Rgba data i) as [[[r g] b] a]. cbn in Hin |- *.
        f_equal. f_equal; [f_equal|]; lia.
    + apply (Hplain Rgba); auto; try lia.
      intros F. assert (gray_opaque Rgba data (w * h)) as G.
      { intros i Hr. destruct F as (_ & F & _). destruct (F i Hr) as (g & E & _). eauto. }
      apply gray_opaque_view in G. destruct G; congruence.
Qed.

Lemma maybe_reduce_ok data w h ct rct rpal opt : 0 < w -> 0 < h -> image_ok ct data (w * h) ->
  (rpal = true -> 4 * (w * h) < 2 ^ 32) ->
  exists rd want, maybe_reduce_color_type data w h ct rct rpal = Ok rd /\ rd_fits w h ct rd /\ reads_as w h rd opt want /\
    (loses rct rpal ct data (w * h) -> exists k, 17 <= k /\ want = want_gray ct data k) /\
    (~ loses rct rpal ct data (w * h) -> forall i, 0 <= i < w * h -> want i = pixel ct data i).
Proof.
  intros Hw Hh Hi Hsz. destruct (Hi) as (Hn & Hb & L). unfold maybe_reduce_color_type.
  assert (~ loses rct rpal ct data (w * h) ->
    exists rd want, Ok (plain data ct) = Ok rd /\ rd_fits w h ct rd /\ reads_as w h rd opt want /\
    (loses rct rpal ct data (w * h) -> exists k, 17 <= k /\ want = want_gray ct data k) /\
    (~ loses rct rpal ct data (w * h) -> forall i, 0 <= i < w * h -> want i = pixel ct data i)) as Hplain.
  { intros Hnl. exists (plain data ct), (pixel ct data). split; auto. split; [apply plain_fits; auto; lia|].
    split; [apply plain_reads; auto|]. split; [contradiction|auto]. }
  destruct ((match ct with Gray => true | _ => false end) && rct) eqn:E0.
  { destruct ct; try discriminate E0. apply Hplain. intros (_ & _ & ([G|G] & _)); discriminate. }
  assert (exists bp, (if rpal then build_palette data ct w h else Ok None) = Ok bp /\
    (forall ni np, bp = Some (ni, np) -> rpal = true /\ 1 <= zlen np <= 256 /\ Forall byte4 np /\ zlen ni = w * h /\
       Forall (fun v => 0 <= v < zlen np) ni /\ forall i, 0 <= i < w * h -> colour_at np (znth ni i) = pixel ct data i) /\
    (bp = None -> rpal = true -> ~ faint ct data (w * h))) as (bp & -> & Hsome & Hnone).
  { destruct rpal; [|exists None; split; auto; split; [discriminate|discriminate]].
    rewrite build_palette_go.
    assert (forall px, px = view ct data (w * h) ->
      exists bp, palette_go px w h = Ok bp /\
      (forall ni np, bp = Some (ni, np) -> true = true /\ 1 <= zlen np <= 256 /\ Forall byte4 np /\ zlen ni = w * h /\
         Forall (fun v => 0 <= v < zlen np) ni /\ forall i, 0 <= i < w * h -> colour_at np (znth ni i) = pixel ct data i) /\
      (bp = None -> true = true -> ~ faint ct data (w * h))) as G.
    { intros px ->. destruct (palette_go_ok (view ct data (w * h)) w h) as [E|(ni & np & E & P1 & P2 & _ & P3 & P4 & P5)]; auto.
      - unfold zlen. rewrite view_length. lia.
      - apply view_bytes; auto.
      - exists None. split; auto. split; [discriminate|]. intros _ _ (_ & F & _).
        apply (gray_palette (view ct data (w * h)) w h); auto.
        intros c (i & Hr & ->)%view_in. destruct (F i Hr) as (g & Eg & _). exists g. split; auto.
        pose proof (pixel_bytes ct data i Hb) as B. rewrite Eg in B. apply B.
      - exists (Some (ni, np)). split; auto. split; [|discriminate].
        intros ? ? [= <- <-]. split; auto. split; auto. split; auto. split; auto. split; auto.
        intros i Hr. rewrite P5 by auto. apply view_nth; auto. }
    destruct ct; try (exists None; split; auto; split; [discriminate|]; intros _ _ ([Q|Q] & _); discriminate).
    - apply G. apply view_rgb; auto.
    - apply G. apply view_rgba; auto. }
  cbn [rbind]. destruct bp as [(ni, np)|].
  - destruct (Hsome ni np eq_refl) as (Hr & P1 & P2 & P3 & P4 & P5).
    destruct (palette_reads w h ct ni np opt) as (packed & -> & F & R); auto.
    { destruct ct; cbn; lia. }
    cbn [rbind]. exists (indexed_rd packed np), (fun i => colour_at np (znth ni i)).
    split; [reflexivity|]. split; auto. split; auto. split; [intros (_ & G & _); congruence|auto].
  - destruct rct; cbn [negb].
    + destruct (reduce_by_type_ok data w h ct opt) as (rd & want & E & F & R & K1 & K2); auto.
      exists rd, want. split; auto. split; auto. split; auto. split.
      * intros (_ & _ & G). auto.
      * intros G. apply K2. intros Hf. apply G. split; auto. split; auto.
        destruct rpal; auto. exfalso. apply Hnone; auto.
    + apply Hplain. intros (G & _). discriminate.
Qed.
