(** The trellis quantiser on the samples of a block, and the encoder with its real quantisers. *)
From Coq Require Import Reals Lra Lia.
From Flocq Require Import Core.
From Verif Require Import Base PngFilterModel PngFilterProofs JpegBaseModel JpegEncModel F32Model F32Proofs ResizeModel ResizeF32 ResizeProofs ResizeSame
  JpegDctModel JpegDctSpec JpegDctReal JpegDctProofs JpegDctTop JpegImgSpec JpegApi JpegTrellisModel JpegTrellisProofs.
Open Scope Z_scope.

(** what a trellis value [z] keeps of the coefficient [t] with divisor [q] *)
Definition kept (t : R) (q z : Z) : Prop :=
  (z = 0 \/ (Rabs (IZR (z * q) - t) <= 2 * IZR q + 0.0101)%R) /\ ((0.0101 < t)%R -> 0 <= z) /\ ((t < -0.0101)%R -> z <= 0).
Lemma near_kept v t q z : 1 <= q -> (Rabs (v - t / IZR q) <= 0.0101 / IZR q)%R -> near v z -> kept t q z.
Proof.
  intros Hq V [->|(N & P & M)]; [split; [left; reflexivity|lia]|].
  assert (1 <= IZR q)%R as Hr by (apply IZR_le; lia).
  assert (Rabs (v * IZR q - t) <= 0.0101)%R as W.
  { replace (v * IZR q - t)%R with ((v - t / IZR q) * IZR q)%R by (field; lra). rewrite Rabs_mult, (Rabs_pos_eq (IZR q)) by lra.
    apply Rle_trans with (0.0101 / IZR q * IZR q)%R; [apply Rmult_le_compat_r; lra|]. right. field. lra. }
  split; [|split].
  - right. rewrite mult_IZR. replace (IZR z * IZR q - t)%R with ((IZR z - v) * IZR q + (v * IZR q - t))%R by ring.
    eapply Rle_trans; [apply Rabs_triang|]. rewrite Rabs_mult, (Rabs_pos_eq (IZR q)) by lra. apply Rplus_le_compat; [apply Rmult_le_compat_r; lra|lra].
  - intros Ht. apply P. apply Rabs_le_inv in W. destruct (Rle_or_lt 0 v) as [|Hv]; [auto|]. assert (v * IZR q < 0)%R by nra. lra.
  - intros Ht. apply M. apply Rabs_le_inv in W. destruct (Rle_or_lt v 0) as [|Hv]; [auto|]. assert (0 < v * IZR q)%R by nra. lra.
Qed.
Theorem trellis_at lambda table samples : lambda_fits lambda -> length table = 64%nat -> Forall (fun v => 1 <= v <= 255) table -> samples_ok samples ->
  exists l, trellis_quantize lambda (dct_2d (map sample_f samples)) table = Ok l /\ length l = 64%nat /\ znth l 0 = znth (dctq table samples) 0 /\
    forall n, 1 <= n < 64 -> exists v, (Rabs (v - real_fdct (sample_r samples) (Z.to_nat n) / IZR (znth table n)) <= 0.0101 / IZR (znth table n))%R /\ near v (znth l n).
Proof.
  intros LF L HT SO. destruct (trellis_ok lambda (real_fdct (sample_r samples)) (dct_2d (map sample_f samples)) table LF L HT) as (l & E & LL & D & N).
  { intros n Hn. destruct (dct_samples samples n SO Hn) as [F V]. split; [exact F|]. split; [exact V|]. apply real_all; auto. }
  exists l. split; [exact E|]. split; [exact LL|]. split.
  - unfold znth at 1. change (Z.to_nat 0) with 0%nat. rewrite D. unfold dctq, quantize_block.
    rewrite (znth_map_idxs (fun i => quantize_one (fat (dct_2d (map sample_f samples)) (Z.to_nat i)) (znth table i))) by (change (Z.of_nat 64) with 64; lia). reflexivity.
  - intros n Hn. exists (val (f_div (fat (dct_2d (map sample_f samples)) (Z.to_nat n)) (f_of_Z (znth table n)))).
    destruct (dct_samples samples (Z.to_nat n) SO ltac:(lia)) as [F V]. split.
    + apply ratio_ok; auto; [apply real_all; auto; lia|apply table_at; auto; lia].
    + apply (N (Z.to_nat n)). lia.
Qed.
Theorem trellis_kept lambda table samples : lambda_fits lambda -> length table = 64%nat -> Forall (fun v => 1 <= v <= 255) table -> samples_ok samples ->
  exists l, trellis_quantize lambda (dct_2d (map sample_f samples)) table = Ok l /\ length l = 64%nat /\ znth l 0 = znth (dctq table samples) 0 /\
    forall n, 1 <= n < 64 -> kept (real_fdct (sample_r samples) (Z.to_nat n)) (znth table n) (znth l n).
Proof.
  intros LF L HT SO. destruct (trellis_at lambda table samples LF L HT SO) as (l & E & LL & D & N). exists l. split; [exact E|]. split; [exact LL|]. split; [exact D|].
  intros n Hn. destruct (N n Hn) as (v & V & Nv). pose proof (table_at table n L HT ltac:(lia)). apply (near_kept v); auto. lia.
Qed.
Theorem dct_trellis_at table samples : length table = 64%nat -> Forall (fun v => 1 <= v <= 255) table -> samples_ok samples ->
  exists l, dct_trellis table samples = Ok l /\ length l = 64%nat /\ znth l 0 = znth (dctq table samples) 0 /\
    forall n, 1 <= n < 64 -> exists v, (Rabs (v - real_fdct (sample_r samples) (Z.to_nat n) / IZR (znth table n)) <= 0.0101 / IZR (znth table n))%R /\ near v (znth l n).
Proof. exact (trellis_at DEFAULT_LAMBDA table samples lambda_ok). Qed.
Theorem dct_trellis_kept table samples : length table = 64%nat -> Forall (fun v => 1 <= v <= 255) table -> samples_ok samples ->
  exists l, dct_trellis table samples = Ok l /\ length l = 64%nat /\ znth l 0 = znth (dctq table samples) 0 /\
    forall n, 1 <= n < 64 -> kept (real_fdct (sample_r samples) (Z.to_nat n)) (znth table n) (znth l n).
Proof. exact (trellis_kept DEFAULT_LAMBDA table samples lambda_ok). Qed.
(** JpegEncModel's parameter, with the model of the code in its place *)
Definition trellisq (table samples : list Z) : list Z := match dct_trellis table samples with Ok l => l | _ => [] end.
Definition pixo_env : jenv := mkje dctq trellisq.
Theorem trellisq_ok : dctq_ok trellisq.
Proof.
  intros table samples L Ht L' Hs. assert (samples_ok samples) as SO by (split; auto). pose proof (samples_range samples SO) as SR.
  unfold trellisq. destruct (dct_trellis_at table samples L Ht SO) as (l & -> & LL & D & N). destruct (dctq_dctq_ok table samples L Ht L' Hs) as (_ & D2 & _ & D4).
  split; [exact LL|]. split; [rewrite D; exact D2|]. split.
  - apply Forall_forall. intros a Ha. apply In_nth with (d := 0) in Ha. destruct Ha as (i & Hi & <-). rewrite skipn_length, LL in Hi.
    assert (nth i (skipn 1 l) 0 = znth l (Z.of_nat (S i))) as -> by (unfold znth; rewrite Nat2Z.id; destruct l; [destruct i|]; reflexivity).
    destruct (N (Z.of_nat (S i)) ltac:(lia)) as (v & V & Nv). pose proof (table_at table (Z.of_nat (S i)) L Ht ltac:(lia)) as HQ.
    pose proof (real_ac_range _ (Z.to_nat (Z.of_nat (S i))) SR ltac:(lia)) as R.
    assert (Rabs v <= 1020.02)%R as Bv.
    { replace v with ((v - real_fdct (sample_r samples) (Z.to_nat (Z.of_nat (S i))) / IZR (znth table (Z.of_nat (S i)))) + real_fdct (sample_r samples) (Z.to_nat (Z.of_nat (S i))) / IZR (znth table (Z.of_nat (S i))))%R by ring.
      eapply Rle_trans; [apply Rabs_triang|]. pose proof (div_le 0.0101 (znth table (Z.of_nat (S i))) ltac:(lia) ltac:(lra)).
      assert (Rabs (real_fdct (sample_r samples) (Z.to_nat (Z.of_nat (S i))) / IZR (znth table (Z.of_nat (S i)))) <= Rabs (real_fdct (sample_r samples) (Z.to_nat (Z.of_nat (S i)))))%R.
      { assert (1 <= IZR (znth table (Z.of_nat (S i))))%R by (apply IZR_le; lia). unfold Rdiv. rewrite Rabs_mult, (Rabs_pos_eq (/ _)) by (apply Rlt_le, Rinv_0_lt_compat; lra).
        rewrite <- (Rmult_1_r (Rabs (real_fdct _ _))) at 2. apply Rmult_le_compat_l; [apply Rabs_pos|]. rewrite <- Rinv_1. apply Rinv_le_contravar; lra. }
      lra. }
    pose proof (near_bound v (znth l (Z.of_nat (S i))) 1020.02 Nv Bv ltac:(lra)) as B. rewrite <- abs_IZR in B.
    assert (Z.abs (znth l (Z.of_nat (S i))) < 1023); [|lia]. apply lt_IZR. lra.
  - intros n Hn. destruct (Z.eq_dec n 0) as [->|]. { rewrite D. apply D4. lia. }
    destruct (N n ltac:(lia)) as (v & V & Nv). pose proof (table_at table n L Ht Hn) as [Q1 Q2].
    destruct (near_kept v _ (znth table n) _ Q1 V Nv) as ([->|K] & _); [cbn; lia|]. apply IZR_le in Q1, Q2.
    apply le_IZR. rewrite abs_IZR. replace (IZR (znth l n * znth table n)) with ((IZR (znth l n * znth table n) - real_fdct (sample_r samples) (Z.to_nat n)) + real_fdct (sample_r samples) (Z.to_nat n))%R by ring.
    eapply Rle_trans; [apply Rabs_triang|]. pose proof (real_all samples (Z.to_nat n) SO ltac:(lia)). lra.
Qed.
Theorem pixo_env_ok : quantisers_ok pixo_env. Proof. split; [apply dctq_dctq_ok|apply trellisq_ok]. Qed.
