(** The shortcut for incompressible data never fires beyond 4372 bytes (C111). *)
From Coq Require Import Reals Lra.
From Flocq Require Import Core BinarySingleNaN.
From Verif Require Import Base F32Model F32Proofs DeflateModel.
Open Scope Z_scope.

(** buckets not yet seen *)
Definition free (l : list bool) : Z := zlen (filter negb l).
Lemma free_upd l : forall i d, (i < length l)%nat -> nth i l d = false -> free (upd l i true) = free l - 1.
Proof.
  unfold free. induction l as [|x l IH]; intros i d H E; cbn [length] in H; [lia|].
  destruct i as [|i]; cbn [upd nth filter] in *.
  - subst x. cbn [negb]. rewrite zlen_cons. lia.
  - specialize (IH i d ltac:(lia) E). destruct x; cbn [negb]; rewrite ?zlen_cons; lia.
Qed.
Lemma free_nonneg l : 0 <= free l.
Proof. apply zlen_nonneg. Qed.
Lemma collisions_many fuel : forall l seen n c, Z.of_nat fuel >= zlen l -> collisions fuel l seen n = Ok c -> n + (zlen l - 3) - free seen <= c.
Proof.
  induction fuel as [|f IH]; intros l seen n c HF; cbn [collisions]; pose proof (free_nonneg seen).
  - intros Y; inversion Y; subst. lia.
  - destruct (Z.ltb_spec (zlen l) 4). { intros Y; inversion Y; subst. lia. }
    assert (zlen (tl l) = zlen l - 1) as TL by (destruct l; [change (zlen (@nil Z)) with 0 in *; lia|rewrite zlen_cons; cbn [tl]; lia]).
    set (h := Z.land _ 4095). destruct (get seen h) as [s| | |] eqn:G; cbn [rbind]; try discriminate. destruct s.
    + intros Y. apply IH in Y; [|lia]. lia.
    + intros Y. apply IH in Y; [|lia]. unfold get in G.
      destruct (h <? 0); [discriminate|]. destruct (nth_error seen (Z.to_nat h)) as [s|] eqn:N; [|discriminate]. inversion G; subst s.
      rewrite (free_upd seen (Z.to_nat h) false) in Y; [lia| |].
      * apply nth_error_Some. rewrite N. discriminate.
      * apply nth_error_nth; exact N.
Qed.
Lemma collisions_few fuel : forall l seen n c, collisions fuel l seen n = Ok c -> c <= n + zlen l.
Proof.
  induction fuel as [|f IH]; intros l seen n c; cbn [collisions]; pose proof (zlen_nonneg l).
  - intros Y; inversion Y; subst. lia.
  - destruct (Z.ltb_spec (zlen l) 4). { intros Y; inversion Y; subst. lia. }
    assert (zlen (tl l) = zlen l - 1) as TL by (destruct l; [change (zlen (@nil Z)) with 0 in *; lia|rewrite zlen_cons; cbn [tl]; lia]).
    set (h := Z.land _ 4095). destruct (get seen h) as [s| | |]; cbn [rbind]; try discriminate.
    destruct s; intros Y; apply IH in Y; lia.
Qed.
Lemma free_start : free (repeat false 4096) = 4096.
Proof. vm_compute. reflexivity. Qed.
Lemma rate_high c m : 0 < m <= 8192 -> 0 <= c <= 8192 -> m <= 16 * c ->
  SFltb (SFdiv 24 128 (f32_of_Z c) (f32_of_Z m)) F32_0_05 = false.
Proof.
  intros Hm Hc HR. change (f_lt (f_div (f_of_Z c) (f_of_Z m)) F32_0_05 = false).
  destruct (of_Z_exact c ltac:(lia)) as [FC VC]. destruct (of_Z_exact m ltac:(lia)) as [FM VM].
  assert (0 < IZR m)%R as PM by (apply (IZR_lt 0); lia).
  assert (0 <= IZR c)%R as PC by (apply (IZR_le 0); lia).
  assert (fmt (/ 16)%R) as F16. { change (/ 16)%R with (bpow radix2 (-4)). apply fmt_bpow. lia. }
  assert (/ 16 <= IZR c / IZR m)%R as LO.
  { apply (Rmult_le_reg_r (IZR m)); [exact PM|]. unfold Rdiv. rewrite Rmult_assoc, Rinv_l, Rmult_1_r by lra.
    apply IZR_le in HR. rewrite mult_IZR in HR. lra. }
  assert (IZR c / IZR m <= bpow radix2 13)%R as HI.
  { apply (Rmult_le_reg_r (IZR m)); [exact PM|]. unfold Rdiv. rewrite Rmult_assoc, Rinv_l, Rmult_1_r by lra.
    change (bpow radix2 13) with (IZR 8192). rewrite <- mult_IZR. apply IZR_le. lia. }
  destruct (div_bound (f_of_Z c) (f_of_Z m) (bpow radix2 13)) as (FD & VD & _); auto.
  - rewrite VM. lra.
  - apply fmt_bpow. lia.
  - rewrite VC, VM. rewrite Rabs_pos_eq by lra. exact HI.
  - apply bpow_lt. lia.
  - rewrite VC, VM in VD.
    assert (fin F32_0_05) as F5 by (split; vm_compute; reflexivity).
    rewrite lt_ok by auto. apply Rlt_bool_false. rewrite VD.
    apply Rle_trans with (/ 16)%R.
    + assert (F32_0_05 = S754_finite false 13421773 (-28)) as -> by (vm_compute; reflexivity).
      unfold val, SF2R, F2R. cbn [Fnum Fexp cond_Zopp]. change (bpow radix2 (-28)) with (/ IZR 268435456)%R. lra.
    + replace (/ 16)%R with (rnd (/ 16)%R) by (apply rnd_fmt; exact F16). apply round_le; auto; [apply FLT_exp_valid; reflexivity|apply valid_rnd_N].
Qed.
Lemma entropy_small data : is_high_entropy_data data = Ok true -> zlen data <= 4372.
Proof.
  unfold is_high_entropy_data. destruct (Z.ltb_spec (zlen data) 4096); [discriminate|]. cbv zeta.
  set (n := Z.min (zlen data) 8192). assert (zlen (slice data 0 n) = n) as LS.
  { unfold slice, zlen. rewrite firstn_length, skipn_length. unfold n, zlen in *. lia. }
  destruct (collisions (length (slice data 0 n)) (slice data 0 n) (repeat false 4096) 0) as [c| | |] eqn:E; cbn [rbind]; try discriminate.
  intros Y. apply collisions_many in E as G; [|unfold zlen; lia]. rewrite free_start, LS in G.
  destruct (Z_le_gt_dec (zlen data) 4372); [assumption|exfalso]. 
  apply collisions_few in E as CU. rewrite LS in CU.
  rewrite Z.max_r in Y by lia. rewrite rate_high in Y; [discriminate|lia|lia|lia].
Qed.
