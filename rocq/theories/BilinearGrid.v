(** Bilinear resizing keeps the source pixels it lands on. *)
From Coq Require Import Reals Lra Lia.
From Flocq Require Import Core.
From Verif Require Import Base PngFilterModel PngPaletteModel F32Model F32Proofs ResizeModel ResizeSpec PropResize NearestProofs BilinearGridSpec.
Open Scope Z_scope.

Lemma along_lands src dst d i : 1 <= src -> 1 <= dst -> 0 <= d < dst -> lands src dst d i -> along src dst d = IZR i.
Proof.
  intros S D X (I & E & O). unfold along. destruct (Z.eq_dec dst 1) as [->|N].
  - rewrite (O eq_refl). replace d with 0 by lia. unfold Rdiv. ring.
  - assert (IZR (dst - 1) <> 0)%R by (apply not_0_IZR; lia). rewrite <- mult_IZR, E, mult_IZR. field. assumption.
Qed.
Lemma interp_int n v i : interp n v (IZR i) = v i.
Proof. unfold interp. cbn zeta. rewrite Zfloor_IZR. ring. Qed.
Lemma near_eq (a b : Z) (e : R) : (e < 1)%R -> (Rabs (IZR a - IZR b) <= e)%R -> a = b.
Proof.
  intros He H. apply Rabs_le_inv in H. assert (IZR (-1) < IZR (a - b) < IZR 1)%R as [A B] by (rewrite minus_IZR; lra).
  apply lt_IZR in A, B. lia.
Qed.
Lemma bpow_22 : bpow radix2 (-22) = (/ 4194304)%R. Proof. reflexivity. Qed.

Lemma grid_l sin data o : resizable o data -> r_algo o = Bilinear -> r_sw o + r_sh o <= 8192 ->
  let bpp := bytes_per_pixel (r_ct o) in
  exists out, resize sin data o = Ok out /\ bytes out /\ zlen out = r_dw o * r_dh o * bpp /\
    forall x y c i j, 0 <= x < r_dw o -> 0 <= y < r_dh o -> 0 <= c < bpp -> lands (r_sw o) (r_dw o) x i -> lands (r_sh o) (r_dh o) y j ->
      px out (r_dw o) bpp x y c = px data (r_sw o) bpp i j c.
Proof.
  intros R A S bpp. pose proof R as (R1 & R2 & R3 & R4 & _).
  destruct (bilinear_resize_partial sin data o R A) as (out & E & B & L & P); [left; lia|left; lia|].
  exists out. split; [exact E|]. split; [exact B|]. split; [exact L|]. intros x y c i j X Y C LX LY.
  destruct (P x y c X Y C) as [Q _]. unfold surface in Q.
  rewrite (along_lands _ _ x i), (along_lands _ _ y j) in Q by (assumption || lia). rewrite !interp_int in Q. fold bpp in Q.
  refine (near_eq _ _ _ _ Q). rewrite bpow_22. assert (IZR (r_sw o + r_sh o) <= 8192)%R by (apply IZR_le; lia). lra.
Qed.
Lemma corner_first src dst : 1 <= src -> 1 <= dst -> lands src dst 0 0.
Proof. unfold lands. lia. Qed.
Lemma corner_last src dst : 1 <= src -> 2 <= dst -> lands src dst (dst - 1) (src - 1).
Proof. unfold lands. nia. Qed.
Lemma lands_up n k x : 1 <= n -> 1 <= k -> 0 <= x < n -> lands n ((n - 1) * k + 1) (k * x) x.
Proof. unfold lands. intros. repeat split; try lia; nia. Qed.
Lemma lands_down n k x : 1 <= n -> 1 <= k -> 0 <= x < n -> lands ((n - 1) * k + 1) n x (k * x).
Proof. unfold lands. intros. repeat split; try nia. Qed.

Lemma corners_l sin data o : resizable o data -> r_algo o = Bilinear -> r_sw o + r_sh o <= 8192 -> 2 <= r_dw o -> 2 <= r_dh o ->
  let bpp := bytes_per_pixel (r_ct o) in
  exists out, resize sin data o = Ok out /\ forall c, 0 <= c < bpp ->
    px out (r_dw o) bpp 0 0 c = px data (r_sw o) bpp 0 0 c /\
    px out (r_dw o) bpp (r_dw o - 1) 0 c = px data (r_sw o) bpp (r_sw o - 1) 0 c /\
    px out (r_dw o) bpp 0 (r_dh o - 1) c = px data (r_sw o) bpp 0 (r_sh o - 1) c /\
    px out (r_dw o) bpp (r_dw o - 1) (r_dh o - 1) c = px data (r_sw o) bpp (r_sw o - 1) (r_sh o - 1) c.
Proof.
  intros R A S W H bpp. pose proof R as (R1 & R2 & R3 & R4 & _). destruct (grid_l sin data o R A S) as (out & E & _ & _ & P).
  exists out. split; [exact E|]. intros c C. fold bpp in P.
  repeat split; apply P; try lia; (apply corner_first || apply corner_last); lia.
Qed.
Lemma back_l sin data w h kx ky ct : let bw := (w - 1) * kx + 1 in let bh := (h - 1) * ky + 1 in
  resizable (mkR w h bw bh ct Bilinear) data -> 1 <= kx -> 1 <= ky -> bw + bh <= 8192 ->
  exists big, resize sin data (mkR w h bw bh ct Bilinear) = Ok big /\ resize sin big (mkR bw bh w h ct Bilinear) = Ok data.
Proof.
  intros bw bh R KX KY S. pose proof R as (R1 & R2 & R3 & R4 & R5 & R6). cbn [r_sw r_sh r_dw r_dh r_ct] in *.
  assert (w <= bw) by (unfold bw; nia). assert (h <= bh) by (unfold bh; nia).
  destruct (grid_l sin data _ R eq_refl) as (big & E & B & L & P); [cbn [r_sw r_sh]; lia|]. cbn [r_sw r_sh r_dw r_dh r_ct] in *.
  exists big. split; [exact E|].
  assert (resizable (mkR bw bh w h ct Bilinear) big) as R' by (unfold resizable; cbn [r_sw r_sh r_dw r_dh r_ct]; auto 10).
  destruct (grid_l sin big _ R' eq_refl) as (out & E' & B' & L' & P'); [exact S|]. cbn [r_sw r_sh r_dw r_dh r_ct] in *.
  rewrite E'. f_equal. assert (1 <= bytes_per_pixel ct) as Bp by (destruct ct; cbn; lia).
  apply (px_ext out data w h (bytes_per_pixel ct)); try lia. intros x y c X Y C.
  rewrite (P' x y c (kx * x) (ky * y)) by (assumption || (apply lands_down; lia)).
  apply P; try assumption; try (apply lands_up; lia); unfold bw, bh; nia.
Qed.
