(** Trellis quantisation with a quality argument: what it keeps, and that quality acts the
    wrong way. *)
From Coq Require Import Reals Lra Lia.
From Flocq Require Import Core BinarySingleNaN.
From Verif Require Import Base PngFilterModel PngFilterProofs JpegBaseModel F32Model F32Proofs ResizeModel ResizeF32 ResizeProofs ResizeSame JpegDctModel JpegDctSpec JpegDctReal JpegDctProofs JpegDctTop
  JpegTrellisModel JpegTrellisProofs JpegTrellisTop TrellisCostSpec TrellisOpt TrellisAdaptModel.
Open Scope Z_scope.

Definition okb5 (x : f32) : bool := valid_binary 24 128 x && is_finite_SF x && f_ge (f_of_Z 5) (f_abs x).
Lemma okb5_ok x : okb5 x = true -> lambda_fits x.
Proof.
  unfold okb5. intros H. apply andb_prop in H. destruct H as [H H3]. apply andb_prop in H. destruct H as [H1 H2].
  assert (fin x) as F by (split; auto). split; auto. destruct (abs_ok x F) as [Fa Va]. destruct (of_Z_exact 5) as [F6 V6]; [cbn; lia|].
  rewrite (ge_ok _ _ F6 Fa), Va, V6 in H3. destruct (Rle_bool_spec (Rabs (val x)) 5); [auto|discriminate].
Qed.
Lemma lambdas_ok : forallb (fun q => match adaptive_lambda q with Ok x => okb5 x | _ => false end) (idxs 101) = true.
Proof. vm_compute. reflexivity. Qed.
Lemma lambda_range q : 0 <= q <= 100 -> exists x, adaptive_lambda q = Ok x /\ lambda_fits x.
Proof.
  intros H. pose proof lambdas_ok as K. rewrite forallb_forall in K. specialize (K q ltac:(apply in_idxs; change (Z.of_nat 101) with 101; lia)).
  destruct (adaptive_lambda q) as [x| | |]; try discriminate. exists x. split; [reflexivity|]. apply okb5_ok, K.
Qed.
Theorem adaptive_l table samples quality : length table = 64%nat -> Forall (fun v => 1 <= v <= 255) table -> samples_ok samples -> 0 <= quality <= 100 ->
  exists l, trellis_quantize_adaptive (dct_2d (map sample_f samples)) table quality = Ok l /\ length l = 64%nat /\ znth l 0 = znth (dctq table samples) 0 /\
    forall n, 1 <= n < 64 -> kept (real_fdct (sample_r samples) (Z.to_nat n)) (znth table n) (znth l n).
Proof.
  intros L HT SO HQ. destruct (lambda_range quality HQ) as (x & E & LF). unfold trellis_quantize_adaptive. rewrite E. cbn [rbind]. apply trellis_kept; auto.
Qed.
Theorem adaptive_above dct table quality : 100 < quality -> trellis_quantize_adaptive dct table quality = Panic.
Proof.
  intros H. unfold trellis_quantize_adaptive, adaptive_lambda. destruct (Z.geb_spec quality 80); [|lia]. destruct (Z.gtb_spec quality 100); [reflexivity|lia].
Qed.
(** one coefficient, 1.5 with a step of 2 *)
Definition faint : list Z := 0 :: 24 :: repeat 0 62.
Lemma faint_low : trellis_quantize_adaptive (sixteenths faint) (repeat 2 64) 1 = Ok (0 :: 1 :: repeat 0 62).
Proof. vm_compute. reflexivity. Qed.
Lemma faint_high : trellis_quantize_adaptive (sixteenths faint) (repeat 2 64) 100 = Ok (repeat 0 64).
Proof. vm_compute. reflexivity. Qed.
Theorem quality_l : ~ (forall ns table q q' l l', length ns = 64%nat -> Forall (fun n => Z.abs n <= 16 * 1024) ns ->
  length table = 64%nat -> Forall (fun q => 1 <= q <= 255) table -> 1 <= q <= q' -> q' <= 100 ->
  trellis_quantize_adaptive (sixteenths ns) table q = Ok l -> trellis_quantize_adaptive (sixteenths ns) table q' = Ok l' ->
  error_256ths ns table l' <= error_256ths ns table l).
Proof.
  intro H. specialize (H faint (repeat 2 64) 1 100 (0 :: 1 :: repeat 0 62) (repeat 0 64) eq_refl).
  assert (B : Forall (fun n => Z.abs n <= 16 * 1024) faint).
  { unfold faint. apply Forall_cons; [cbn; lia|]. apply Forall_cons; [cbn; lia|]. apply Forall_forall. intros n Hn. apply repeat_spec in Hn. subst. cbn. lia. }
  assert (T : Forall (fun q => 1 <= q <= 255) (repeat 2 64)) by (apply Forall_forall; intros q Hq; apply repeat_spec in Hq; lia).
  specialize (H B eq_refl T ltac:(lia) ltac:(lia) faint_low faint_high).
  assert (error_256ths faint (repeat 2 64) (repeat 0 64) = 576) as E1 by reflexivity.
  assert (error_256ths faint (repeat 2 64) (0 :: 1 :: repeat 0 62) = 64) as E2 by reflexivity. lia.
Qed.
