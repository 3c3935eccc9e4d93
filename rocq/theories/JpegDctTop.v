(** Two dimensions, quantisation, and what the encoder needs of it. *)
From Coq Require Import Reals Lra Lia.
From Flocq Require Import Core.
From Verif Require Import Base PngFilterModel PngFilterProofs PngPackProofs JpegBaseModel F32Model F32Proofs ResizeModel ResizeF32 ResizeProofs ResizeSame
  JpegIdctReal JpegDctModel JpegDctSpec JpegDctReal JpegDctProofs JpegImgSpec.
Open Scope Z_scope.

Lemma nth_flat8 {A} (f : nat -> list A) d s n r c : (forall i, length (f i) = 8%nat) -> (r < n)%nat -> (c < 8)%nat ->
  nth (8 * r + c) (flat_map f (seq s n)) d = nth c (f (s + r)%nat) d.
Proof.
  intros L. revert s r. induction n as [|n IH]; intros s r Hr Hc; [lia|]. cbn [seq flat_map].
  destruct r as [|r].
  - rewrite app_nth1 by (rewrite L; lia). replace (8 * 0 + c)%nat with c by lia. replace (s + 0)%nat with s by lia. reflexivity.
  - rewrite app_nth2 by (rewrite L; lia). rewrite L. replace (8 * S r + c - 8)%nat with (8 * r + c)%nat by lia. rewrite IH by lia. replace (S s + r)%nat with (s + S r)%nat by lia. reflexivity.
Qed.
Lemma aan_len l : length (aan_dct_1d l) = 8%nat. Proof. reflexivity. Qed.
Lemma fat_map8 (g : nat -> f32) i : (i < 8)%nat -> fat (map g (seq 0 8)) i = g i.
Proof. intros H. unfold fat. change (seq 0 8) with [0;1;2;3;4;5;6;7]%nat. do 8 (destruct i as [|i]; [reflexivity|]). lia. Qed.
Lemma rows_at block r c : (r < 8)%nat -> (c < 8)%nat ->
  fat (dct_rows block) (8 * r + c) = fat (aan_dct_1d (map (fun col => fat block (8 * r + col)) (seq 0 8))) c.
Proof. intros Hr Hc. unfold dct_rows, fat at 1. rewrite nth_flat8; auto using aan_len. Qed.
Lemma dct_at block r c : (r < 8)%nat -> (c < 8)%nat ->
  fat (dct_2d block) (8 * r + c) = fat (aan_dct_1d (map (fun row => fat (dct_rows block) (8 * row + c)) (seq 0 8))) r.
Proof.
  intros Hr Hc. unfold dct_2d. cbv zeta. unfold fat at 1. rewrite nth_flat8; auto. cbn [Nat.add].
  rewrite (nth_indep _ _ (fat (nth 0 (map (fun col => aan_dct_1d (map (fun row => fat (dct_rows block) (8 * row + col)) (seq 0 8))) (seq 0 8)) []) r)) by (rewrite map_length; exact Hc).
  rewrite (map_nth (fun col => fat (nth col (map (fun col => aan_dct_1d (map (fun row => fat (dct_rows block) (8 * row + col)) (seq 0 8))) (seq 0 8)) []) r)).
  rewrite seq_nth by lia. cbn [Nat.add].
  f_equal. rewrite (nth_indep _ _ (aan_dct_1d (map (fun row => fat (dct_rows block) (8 * row + 0)) (seq 0 8)))) by (rewrite map_length; exact Hc).
  rewrite (map_nth (fun col => aan_dct_1d (map (fun row => fat (dct_rows block) (8 * row + col)) (seq 0 8)))). rewrite seq_nth by lia. reflexivity.
Qed.
Lemma dct_len block : length (dct_2d block) = 64%nat. Proof. reflexivity. Qed.

(** ** The real transform of samples in -128..127 *)
Lemma n88 n : (n < 64)%nat -> (n / 8 < 8)%nat /\ (n mod 8 < 8)%nat /\ n = (8 * (n / 8) + n mod 8)%nat.
Proof. intros H. split; [apply Nat.div_lt_upper_bound; lia|]. split; [apply Nat.mod_upper_bound; lia|apply Nat.div_mod; lia]. Qed.
Definition sample_range (s : nat -> R) : Prop := forall m, (m < 64)%nat -> (-128 <= s m <= 127)%R.
Lemma real_dc_eq s : real_fdct s 0 = (rsum s 64 / 8)%R.
Proof.
  unfold real_fdct. change (0 mod 8)%nat with 0%nat. change (0 / 8)%nat with 0%nat.
  assert (forall x, basis 0 x = 1%R) as B by (intros x; rewrite basis_C, Nat.mul_0_r; change (CC 0) with (C 0); apply C0).
  replace (rsum (fun m => s m * basis 0 (m mod 8) * basis 0 (m / 8))%R 64) with (rsum s 64).
  2:{ unfold rsum. f_equal. apply map_ext. intros m. rewrite !B. ring. }
  rewrite cfac0. assert (C 4 * C 4 = / 2)%R as E. { pose proof (sq 4) as A. change (4 + 4)%nat with 8%nat in A. rewrite C8 in A. lra. }
  replace (/ 4 * C 4 * C 4 * rsum s 64)%R with (/ 4 * (C 4 * C 4) * rsum s 64)%R by ring. rewrite E. lra.
Qed.
Lemma rsum_range f a b n : (forall m, (m < n)%nat -> (a <= f m <= b)%R) -> (INR n * a <= rsum f n <= INR n * b)%R.
Proof.
  unfold rsum. intros H. assert (forall k s, (s + k <= n)%nat -> (INR k * a <= fold_right Rplus 0 (map f (seq s k)) <= INR k * b)%R) as G.
  { induction k as [|k IH]; intros s L; [cbn; lra|]. cbn [seq map fold_right]. rewrite S_INR. specialize (IH (S s) ltac:(lia)). specialize (H s ltac:(lia)). lra. }
  apply (G n 0%nat). lia.
Qed.
Lemma real_dc_range s : sample_range s -> (-1024 <= real_fdct s 0 <= 1016)%R.
Proof. intros H. rewrite real_dc_eq. pose proof (rsum_range s (-128) 127 64 H) as G. replace (INR 64) with 64%R in G by (cbn; lra). lra. Qed.
Lemma real_ac_range s n : sample_range s -> (1 <= n < 64)%nat -> (Rabs (real_fdct s n) <= 1020.001)%R.
Proof.
  intros H Hn. rewrite real_fdct_T. destruct (n88 n ltac:(lia)) as (U & V & E).
  set (d := fun m => (s m + / 2)%R).
  assert (forall y x, (y < 8)%nat -> (x < 8)%nat -> (Rabs (d (8 * y + x)%nat) <= 127.5)%R) as D.
  { intros y x Hy Hx. unfold d. specialize (H (8 * y + x)%nat ltac:(lia)). apply Rabs_le. lra. }
  assert (T (n / 8) (fun y => T (n mod 8) (fun x => s (8 * y + x)%nat)) = T (n / 8) (fun y => T (n mod 8) (fun x => d (8 * y + x)%nat))) as ->.
  { assert (forall y, T (n mod 8) (fun x => d (8 * y + x)%nat) = (T (n mod 8) (fun x => s (8 * y + x)%nat) + T (n mod 8) (fun _ => / 2))%R) as S by (intros y; apply T_plus).
    rewrite (T_ext (n / 8) _ (fun y => (T (n mod 8) (fun x => s (8 * y + x)%nat) + T (n mod 8) (fun _ => / 2))%R) (fun y _ => S y)), T_plus.
    destruct (Nat.eq_dec (n / 8) 0) as [Z|Z].
    - rewrite (T_ext (n / 8) (fun _ => T (n mod 8) (fun _ => (/ 2)%R)) (fun _ => 0%R)) by (intros; apply T_const; lia).
      rewrite Z. unfold T, rsum. cbn [map seq fold_right]. ring.
    - rewrite (T_const (n / 8)) by lia. ring. }
  eapply Rle_trans; [apply (T_bound _ _ (norm1 * 127.5)); auto|unfold norm1; lra].
  intros y Hy. apply T_bound; auto.
Qed.

(** ** Accuracy of the f32 transform *)
Definition dct_err : R := (1 / 100)%R.
Lemma dct_accurate block : (forall m, (m < 64)%nat -> fin (fat block m)) -> sample_range (fun m => val (fat block m)) ->
  forall n, (n < 64)%nat -> fin (fat (dct_2d block) n) /\ (Rabs (val (fat (dct_2d block) n) - real_fdct (fun m => val (fat block m)) n) <= dct_err)%R.
Proof.
  intros F H n Hn. destruct (n88 n Hn) as (U & V & E). set (r := (n / 8)%nat) in *. set (c := (n mod 8)%nat) in *.
  change (bpow radix2 7) with 128%R in *. 
  assert (forall y x, (y < 8)%nat -> (x < 8)%nat -> fin (fat (dct_rows block) (8 * y + x)) /\
    (Rabs (val (fat (dct_rows block) (8 * y + x)) - T x (fun i => val (fat block (8 * y + i)))) <= rr * 128)%R /\ (Rabs (T x (fun i => val (fat block (8 * y + i)))) <= norm1 * 128)%R) as R1.
  { intros y x Hy Hx. rewrite rows_at by auto.
    destruct (aan_ok 7 (map (fun col => fat block (8 * y + col)) (seq 0 8)) ltac:(lia)) with (u := x) as [G1 G2]; auto.
    { intros i Hi. rewrite fat_map8 by auto. split; [apply F; lia|]. change (bpow radix2 7) with 128%R. specialize (H (8 * y + i)%nat ltac:(lia)). cbn beta in H. apply Rabs_le. lra. }
    change (bpow radix2 7) with 128%R in G2. split; [exact G1|]. split.
    - rewrite (T_ext x _ (fun i => val (fat block (8 * y + i)))) in G2; [exact G2|]. intros i Hi. rewrite fat_map8 by auto. reflexivity.
    - apply T_bound; auto. intros i Hi. specialize (H (8 * y + i)%nat ltac:(lia)). cbn beta in H. apply Rabs_le. lra. }
  rewrite E, dct_at by auto.
  destruct (aan_ok 9 (map (fun row => fat (dct_rows block) (8 * row + c)) (seq 0 8)) ltac:(lia)) with (u := r) as [G1 G2]; auto.
  { intros i Hi. rewrite fat_map8 by auto. destruct (R1 i c Hi V) as (A1 & A2 & A3). split; [exact A1|]. change (bpow radix2 9) with 512%R.
    replace (val (fat (dct_rows block) (8 * i + c))) with ((val (fat (dct_rows block) (8 * i + c)) - T c (fun j => val (fat block (8 * i + j)))) + T c (fun j => val (fat block (8 * i + j))))%R by ring.
    eapply Rle_trans; [apply Rabs_triang|]. unfold rr, norm1 in *. lra. }
  change (bpow radix2 9) with 512%R in G2. split; [exact G1|]. rewrite <- E. rewrite real_fdct_T. fold r c.
  rewrite (T_ext r _ (fun i => val (fat (dct_rows block) (8 * i + c)))) in G2 by (intros i Hi; rewrite fat_map8 by auto; reflexivity).
  assert (Rabs (T r (fun i => val (fat (dct_rows block) (8 * i + c))) - T r (fun y => T c (fun x => val (fat block (8 * y + x))))) <= norm1 * (rr * 128))%R as G3.
  { rewrite <- T_minus. apply T_bound; auto. intros i Hi. apply (R1 i c Hi V). }
  match goal with |- (Rabs (?a - ?b) <= _)%R => replace (a - b)%R with ((a - T r (fun i => val (fat (dct_rows block) (8 * i + c)))) + (T r (fun i => val (fat (dct_rows block) (8 * i + c))) - b))%R by ring end.
  eapply Rle_trans; [apply Rabs_triang|]. unfold dct_err, rr, norm1 in *. lra.
Qed.

(** ** Quantisation *)
Lemma div_le x q : 1 <= q -> (0 <= x)%R -> (0 <= x / IZR q <= x)%R.
Proof.
  intros Hq Hx. apply IZR_le in Hq. unfold Rdiv. assert (0 < / IZR q <= 1)%R as [A B].
  { split; [apply Rinv_0_lt_compat; lra|]. rewrite <- Rinv_1. apply Rinv_le_contravar; lra. }
  split; [apply Rmult_le_pos; lra|]. rewrite <- (Rmult_1_r x) at 2. apply Rmult_le_compat_l; lra.
Qed.
Lemma div_abs x q : 1 <= q -> Rabs (x / IZR q) = (Rabs x / IZR q)%R.
Proof. intros Hq. apply IZR_le in Hq. unfold Rdiv. rewrite Rabs_mult, (Rabs_pos_eq (/ IZR q)); [reflexivity|]. left. apply Rinv_0_lt_compat. lra. Qed.
(** c / q in binary32: close to t / q *)
Lemma ratio_ok c t q : fin c -> (Rabs (val c - t) <= dct_err)%R -> (Rabs t <= 1024)%R -> 1 <= q <= 255 ->
  fin (f_div c (f_of_Z q)) /\ (Rabs (val (f_div c (f_of_Z q)) - t / IZR q) <= 0.0101 / IZR q)%R.
Proof.
  intros F H Ht Hq. assert (1 <= IZR q <= 255)%R as Hr by (split; apply IZR_le; lia).
  destruct (of_Z_exact q) as [Fq Vq]. { change (2 ^ 24) with 16777216. lia. }
  assert (Rabs (val c) <= 1025)%R as Hc.
  { replace (val c) with ((val c - t) + t)%R by ring. eapply Rle_trans; [apply Rabs_triang|]. unfold dct_err in H. lra. }
  assert (Rabs (val c / IZR q) <= 1025 / IZR q)%R as HQ.
  { rewrite div_abs by lia. unfold Rdiv. apply Rmult_le_compat_r; [left; apply Rinv_0_lt_compat; lra|exact Hc]. }
  assert (1 <= 1025 / IZR q)%R as H1.
  { apply Rmult_le_reg_r with (IZR q); [lra|]. unfold Rdiv. rewrite Rmult_assoc, Rinv_l by lra. lra. }
  pose proof (div_le 1025 q ltac:(lia) ltac:(lra)) as [_ H2].
  destruct (div_bound c (f_of_Z q) 2048) as (Fd & Vd & _); auto.
  { rewrite Vq. lra. } { apply (fmt_Z 2048). cbn. lia. } { rewrite Vq. lra. } { apply Rlt_le_trans with (bpow radix2 12); [change (bpow radix2 12) with 4096%R; lra|apply bpow_le; lia]. }
  split; [exact Fd|]. rewrite Vd, Vq. pose proof (abs_err _ _ HQ H1) as E. change (bpow radix2 (-24)) with (/ 16777216)%R in E.
  replace (rnd (val c / IZR q) - t / IZR q)%R with ((rnd (val c / IZR q) - val c / IZR q) + (val c - t) / IZR q)%R by (unfold Rdiv; ring).
  eapply Rle_trans; [apply Rabs_triang|]. rewrite (div_abs (val c - t)) by lia.
  assert (Rabs (val c - t) / IZR q <= 0.01 / IZR q)%R as E2.
  { unfold Rdiv. apply Rmult_le_compat_r; [left; apply Rinv_0_lt_compat; lra|]. unfold dct_err in H. lra. }
  assert (0 < / IZR q)%R by (apply Rinv_0_lt_compat; lra). unfold Rdiv in *. lra.
Qed.
Lemma to_i16_int x n : fin x -> val x = IZR n -> -32768 <= n <= 32767 -> to_i16 x = n.
Proof. intros F V H. unfold to_i16. rewrite to_Z_ok by (auto; lia). rewrite V, Ztrunc_IZR. lia. Qed.
Lemma Rle_small n v B : (Rabs (IZR n - v) <= 1)%R -> (Rabs v <= IZR B)%R -> Z.abs n <= B + 1.
Proof.
  intros H1 H2. apply le_IZR. rewrite abs_IZR, plus_IZR. replace (IZR n) with ((IZR n - v) + v)%R by ring. eapply Rle_trans; [apply Rabs_triang|]. lra.
Qed.
Lemma quantize_one_ok c t q : fin c -> (Rabs (val c - t) <= dct_err)%R -> (Rabs t <= 1024)%R -> 1 <= q <= 255 ->
  exists v, quantize_one c q = rhaz v /\ (Rabs (v - t / IZR q) <= 0.0101 / IZR q)%R.
Proof.
  intros F H Ht Hq. destruct (ratio_ok c t q F H Ht Hq) as [Fd Vd]. exists (val (f_div c (f_of_Z q))). split; [|exact Vd].
  destruct (round_ok _ Fd) as [Fr Vr]. unfold quantize_one. apply to_i16_int; auto.
  assert (Rabs (val (f_div c (f_of_Z q))) <= IZR 1025)%R as B.
  { replace (val (f_div c (f_of_Z q))) with ((val (f_div c (f_of_Z q)) - t / IZR q) + t / IZR q)%R by ring. eapply Rle_trans; [apply Rabs_triang|].
    rewrite (div_abs t) by lia. pose proof (div_le (Rabs t) q ltac:(lia) (Rabs_pos t)). pose proof (div_le 0.0101 q ltac:(lia) ltac:(lra)). lra. }
  assert (Z.abs (rhaz (val (f_div c (f_of_Z q)))) <= 1025 + 1); [|lia].
  eapply Rle_small; [|exact B]. pose proof (rhaz_near (val (f_div c (f_of_Z q)))). lra.
Qed.
(** the integer nearest to the exact quotient, up to the error of the transform *)
Lemma rhaz_of v t q : 1 <= q -> (Rabs (v - t / IZR q) <= 0.0101 / IZR q)%R -> (Rabs (IZR (rhaz v) * IZR q - t) <= IZR q / 2 + 0.0101)%R.
Proof.
  intros Hq H. assert (1 <= IZR q)%R as Hr by (apply IZR_le; lia). pose proof (rhaz_near v) as N.
  replace (IZR (rhaz v) * IZR q - t)%R with (((IZR (rhaz v) - v) + (v - t / IZR q)) * IZR q)%R by (field; lra).
  rewrite Rabs_mult, (Rabs_pos_eq (IZR q)) by lra.
  apply Rle_trans with ((/ 2 + 0.0101 / IZR q) * IZR q)%R; [|right; field; lra]. apply Rmult_le_compat_r; [lra|].
  eapply Rle_trans; [apply Rabs_triang|]. lra.
Qed.

(** ** The samples of the encoder *)
Lemma sample_f_ok s : Z.abs s <= 2 ^ 22 -> fin (sample_f s) /\ val (sample_f s) = (IZR s / 4)%R.
Proof.
  intros H. destruct (of_Z_exact s) as [F V]. { change (2 ^ 24) with 16777216. change (2 ^ 22) with 4194304 in H. lia. }
  destruct (const_val 1 (-2)) as [Fc Vc]; [reflexivity|lia|]. change (2 ^ (- (-2))) with 4 in Vc.
  assert (val (f_of_Z s) * val (f_const 1 (-2)) = F2R (Float radix2 s (-2)))%R as E by (rewrite V, Vc, F2R_neg by lia; change (2 ^ (- (-2))) with 4; unfold Rdiv; ring).
  assert (fmt (F2R (Float radix2 s (-2)))) as Ff. { apply fmt_F2R; [change (2 ^ 24) with 16777216; change (2 ^ 22) with 4194304 in H; lia|lia]. }
  assert (Rabs (F2R (Float radix2 s (-2))) < bpow radix2 128)%R as L.
  { apply Rlt_le_trans with (bpow radix2 22); [|apply bpow_le; lia]. apply F2R_lt_bpow. cbn [Fnum Fexp]. change (radix2 ^ (22 - -2)) with 16777216. change (2 ^ 22) with 4194304 in H. lia. }
  unfold sample_f. destruct (mul_ok (f_of_Z s) (f_const 1 (-2)) F Fc) as (F1 & V1). { rewrite E, (rnd_fmt _ Ff). exact L. }
  split; [exact F1|]. rewrite V1, E, (rnd_fmt _ Ff). rewrite F2R_neg by lia. reflexivity.
Qed.
Lemma fat_samples samples m : fat (map sample_f samples) m = sample_f (nth m samples 0) \/ (length samples <= m)%nat.
Proof.
  destruct (Nat.lt_ge_cases m (length samples)); [left|right; auto]. unfold fat.
  rewrite (nth_indep _ _ (sample_f 0)) by (rewrite map_length; auto). apply map_nth.
Qed.
Definition samples_ok (samples : list Z) : Prop := length samples = 64%nat /\ Forall (fun s => -512 <= s <= 508) samples.
Lemma samples_val samples : samples_ok samples -> forall m, (m < 64)%nat ->
  fin (fat (map sample_f samples) m) /\ val (fat (map sample_f samples) m) = sample_r samples m /\ (-128 <= sample_r samples m <= 127)%R.
Proof.
  intros [L H] m Hm. destruct (fat_samples samples m) as [->|]; [|lia].
  assert (-512 <= nth m samples 0 <= 508) as B. { rewrite Forall_forall in H. apply H. apply nth_In. lia. }
  destruct (sample_f_ok (nth m samples 0)) as [F V]. { change (2 ^ 22) with 4194304. lia. }
  split; [exact F|]. split; [exact V|]. unfold sample_r. destruct B as [B1 B2]. apply IZR_le in B1, B2. lra.
Qed.
Lemma real_fdct_ext s t n : (forall m, (m < 64)%nat -> s m = t m) -> real_fdct s n = real_fdct t n.
Proof.
  intros H. unfold real_fdct. f_equal. unfold rsum. f_equal. apply map_ext_in. intros m Hm. apply in_seq in Hm. rewrite H by lia. reflexivity.
Qed.
Lemma samples_range samples : samples_ok samples -> sample_range (sample_r samples).
Proof. intros H m Hm. apply (samples_val samples H m Hm). Qed.
Lemma dct_samples samples n : samples_ok samples -> (n < 64)%nat ->
  fin (fat (dct_2d (map sample_f samples)) n) /\ (Rabs (val (fat (dct_2d (map sample_f samples)) n) - real_fdct (sample_r samples) n) <= dct_err)%R.
Proof.
  intros H Hn. destruct (dct_accurate (map sample_f samples)) with (n := n) as [F V]; auto.
  - intros m Hm. apply (samples_val samples H m Hm).
  - intros m Hm. destruct (samples_val samples H m Hm) as (_ & -> & B). exact B.
  - split; [exact F|]. rewrite (real_fdct_ext _ (sample_r samples)) in V; [exact V|]. intros m Hm. apply (samples_val samples H m Hm).
Qed.
Lemma real_all samples n : samples_ok samples -> (n < 64)%nat -> (Rabs (real_fdct (sample_r samples) n) <= 1024)%R.
Proof.
  intros H Hn. pose proof (samples_range samples H) as SR. destruct n as [|n].
  - pose proof (real_dc_range _ SR). apply Rabs_le. lra.
  - pose proof (real_ac_range _ (S n) SR ltac:(lia)). lra.
Qed.
Lemma table_at table n : length table = 64%nat -> Forall (fun v => 1 <= v <= 255) table -> 0 <= n < 64 -> 1 <= znth table n <= 255.
Proof. intros L H Hn. rewrite Forall_forall in H. apply H. unfold znth. apply nth_In. lia. Qed.
Lemma dctq_len table samples : length (dctq table samples) = 64%nat.
Proof. unfold dctq, quantize_block. rewrite map_length. reflexivity. Qed.
Lemma dctq_at table samples n : length table = 64%nat -> Forall (fun v => 1 <= v <= 255) table -> samples_ok samples -> 0 <= n < 64 ->
  exists v, znth (dctq table samples) n = rhaz v /\ (Rabs (v - real_fdct (sample_r samples) (Z.to_nat n) / IZR (znth table n)) <= 0.0101 / IZR (znth table n))%R.
Proof.
  intros L Ht Hs Hn. unfold dctq, quantize_block. rewrite (znth_map_idxs (fun i => quantize_one (fat (dct_2d (map sample_f samples)) (Z.to_nat i)) (znth table i))) by (change (Z.of_nat 64) with 64; lia).
  destruct (dct_samples samples (Z.to_nat n) Hs ltac:(lia)) as [F V].
  apply quantize_one_ok; auto; [apply real_all; auto; lia|apply table_at; auto].
Qed.
Lemma dctq_accurate table samples n : length table = 64%nat -> Forall (fun v => 1 <= v <= 255) table -> samples_ok samples -> 0 <= n < 64 ->
  (Rabs (IZR (znth (dctq table samples) n * znth table n) - real_fdct (sample_r samples) (Z.to_nat n)) <= IZR (znth table n) / 2 + 0.0101)%R.
Proof.
  intros L Ht Hs Hn. destruct (dctq_at table samples n L Ht Hs Hn) as (v & -> & V). pose proof (table_at table n L Ht Hn). rewrite mult_IZR. apply rhaz_of; [lia|exact V].
Qed.
(** a bound on the quotient bounds the rounded value *)
Lemma quot_range v t q lo hi : 1 <= q -> lo <= 0 <= hi -> (IZR lo <= t <= IZR hi)%R -> (Rabs (v - t / IZR q) <= 0.0101 / IZR q)%R -> lo <= rhaz v <= hi.
Proof.
  intros Hq [H1 H2] [T1 T2] V. assert (1 <= IZR q)%R as Hr by (apply IZR_le; lia). apply IZR_le in H1, H2.
  pose proof (div_le 0.0101 q Hq ltac:(lra)). apply Rabs_le_inv in V.
  assert (IZR lo <= t / IZR q <= IZR hi)%R as B.
  { assert (0 < / IZR q <= 1)%R as [I0 I1] by (split; [apply Rinv_0_lt_compat; lra|rewrite <- Rinv_1; apply Rinv_le_contravar; lra]). unfold Rdiv. split; nra. }
  split; [apply rhaz_gt; lra|apply rhaz_lt; lra].
Qed.
Theorem dctq_dctq_ok : dctq_ok dctq.
Proof.
  intros table samples L Ht L' Hs. assert (samples_ok samples) as SO by (split; auto). pose proof (samples_range samples SO) as SR.
  split; [apply dctq_len|]. split; [|split].
  - destruct (dctq_at table samples 0 L Ht SO ltac:(lia)) as (v & -> & V). pose proof (table_at table 0 L Ht ltac:(lia)).
    assert (-1024 <= rhaz v <= 1016); [|lia]. apply (quot_range _ (real_fdct (sample_r samples) (Z.to_nat 0)) (znth table 0)); auto; try lia. apply real_dc_range. exact SR.
  - apply Forall_forall. intros a Ha. apply In_nth with (d := 0) in Ha. destruct Ha as (i & Hi & <-). rewrite skipn_length, dctq_len in Hi.
    assert (nth i (skipn 1 (dctq table samples)) 0 = znth (dctq table samples) (Z.of_nat (S i))) as -> by (unfold znth; rewrite Nat2Z.id; destruct (dctq table samples); [destruct i|]; reflexivity).
    destruct (dctq_at table samples (Z.of_nat (S i)) L Ht SO ltac:(lia)) as (v & -> & V). pose proof (table_at table (Z.of_nat (S i)) L Ht ltac:(lia)).
    assert (-1021 <= rhaz v <= 1021); [|lia]. apply (quot_range _ (real_fdct (sample_r samples) (Z.to_nat (Z.of_nat (S i)))) (znth table (Z.of_nat (S i)))); auto; try lia.
    pose proof (real_ac_range _ (Z.to_nat (Z.of_nat (S i))) SR ltac:(lia)) as R. apply Rabs_le_inv in R. lra.
  - intros n Hn. pose proof (dctq_accurate table samples n L Ht SO Hn) as A. pose proof (table_at table n L Ht Hn) as [Q1 Q2]. apply IZR_le in Q1, Q2.
    apply le_IZR. rewrite abs_IZR. replace (IZR (znth (dctq table samples) n * znth table n)) with ((IZR (znth (dctq table samples) n * znth table n) - real_fdct (sample_r samples) (Z.to_nat n)) + real_fdct (sample_r samples) (Z.to_nat n))%R by ring.
    eapply Rle_trans; [apply Rabs_triang|]. pose proof (real_all samples (Z.to_nat n) SO ltac:(lia)). lra.
Qed.
