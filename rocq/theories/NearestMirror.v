(** Proofs for C123. *)
From Verif Require Import Base PngFilterModel PngPaletteModel F32Model ResizeModel ResizeSpec NearestProofs NearestMirrorSpec.
Open Scope Z_scope.

Lemma mirror_div n k x : 1 <= k -> 0 <= x < n * k -> (n * k - 1 - x) / k = n - 1 - x / k.
Proof.
  intros K X. pose proof (Z.div_mod x k ltac:(lia)) as E. pose proof (Z.mod_pos_bound x k ltac:(lia)) as B.
  set (q := x / k) in *. set (r := x mod k) in *. clearbody q r. symmetry. apply (Z.div_unique _ k _ (k - 1 - r)); [lia|]. rewrite E. ring.
Qed.
Lemma div_range n k x : 1 <= k -> 0 <= x < n * k -> 0 <= x / k < n.
Proof. intros K X. split; [apply Z.div_pos; lia|]. apply Z.div_lt_upper_bound; [lia|]. rewrite Z.mul_comm. lia. Qed.
Lemma odd_half k : 1 <= k -> k mod 2 = 1 -> k = 2 * (k / 2) + 1.
Proof. intros. pose proof (Z.div_mod k 2 ltac:(lia)). lia. Qed.

Lemma mirror_up_l sin a b sw sh kx ky ct : let o := mkR sw sh (sw * kx) (sh * ky) ct Nearest in let bpp := bytes_per_pixel ct in
  resizable o a -> resizable o b -> mirrored a b sw sh bpp -> 1 <= kx -> 1 <= ky -> sw * kx < 2 ^ 20 -> sh * ky < 2 ^ 20 ->
  exists out_a out_b, resize sin a o = Ok out_a /\ resize sin b o = Ok out_b /\ mirrored out_a out_b (sw * kx) (sh * ky) bpp.
Proof.
  intros o bpp Ha Hb M Kx Ky Lx Ly.
  destruct (upscale_l sin a sw sh kx ky ct Ha Kx Ky Lx Ly) as (oa & Ea & _ & _ & Pa).
  destruct (upscale_l sin b sw sh kx ky ct Hb Kx Ky Lx Ly) as (ob & Eb & _ & _ & Pb).
  exists oa, ob. split; [exact Ea|]. split; [exact Eb|]. intros x y c X Y C.
  rewrite Pb by assumption. rewrite Pa by (assumption || lia).
  rewrite mirror_div by assumption. apply M; [apply div_range; assumption|apply div_range; assumption|assumption].
Qed.

Lemma mirror_refuted_l : ~ (forall sin a b o, resizable o a -> resizable o b -> r_algo o = Nearest ->
  let bpp := bytes_per_pixel (r_ct o) in mirrored a b (r_sw o) (r_sh o) bpp ->
  exists out_a out_b, resize sin a o = Ok out_a /\ resize sin b o = Ok out_b /\ mirrored out_a out_b (r_dw o) (r_dh o) bpp).
Proof.
  intros H. specialize (H (fun x => x) [10; 200] [200; 10] (mkR 2 1 1 1 Gray Nearest)).
  assert (resizable (mkR 2 1 1 1 Gray Nearest) [10; 200]) as A by (unfold resizable; cbn [r_sw r_sh r_dw r_dh r_ct]; repeat split; try discriminate; repeat constructor; discriminate).
  assert (resizable (mkR 2 1 1 1 Gray Nearest) [200; 10]) as B by (unfold resizable; cbn [r_sw r_sh r_dw r_dh r_ct]; repeat split; try discriminate; repeat constructor; discriminate).
  specialize (H A B eq_refl). cbv zeta in H. cbn [r_sw r_sh r_dw r_dh r_ct bytes_per_pixel] in H. destruct H as (oa & ob & Ea & Eb & M).
  - intros x y c X Y C. assert (y = 0) as -> by lia. assert (c = 0) as -> by lia. assert (x = 0 \/ x = 1) as [-> | ->] by lia; reflexivity.
  - vm_compute in Ea, Eb. injection Ea as <-. injection Eb as <-. specialize (M 0 0 0 ltac:(lia) ltac:(lia) ltac:(lia)). discriminate M.
Qed.
