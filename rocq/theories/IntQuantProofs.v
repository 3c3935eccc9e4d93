(** Integer quantisation of whole blocks. *)
From Coq Require Import Reals Lra Lia.
From Flocq Require Import Core.
From Verif Require Import Base PngFilterModel JpegBaseModel JpegDctSpec JpegDctReal JpegDctIntModel JpegDctIntProofs PropJpegDct.
Open Scope Z_scope.

Lemma quantize_block_near dct table : (forall i, 0 <= i < 64 -> 1 <= znth table i <= 65535 /\ - 2 ^ 31 + 65536 <= znth dct i < 2 ^ 31 - 65536 /\ Z.abs (znth dct i) < znth table i * (2 ^ 15 - 1)) ->
  exists l, quantize_block_integer dct table = Ok l /\ length l = 64%nat /\
    forall i, 0 <= i < 64 -> let c := znth dct i in let q := znth table i in let z := znth l i in
      2 * Z.abs (c - q * z) <= q /\ (2 * Z.abs (c - q * z) = q -> Z.abs c < Z.abs (q * z)).
Proof.
  intros H. unfold quantize_block_integer.
  destruct (map_res_idxs (fun i => quantize_integer_one (znth dct i) (znth table i))
    (fun i z => 2 * Z.abs (znth dct i - znth table i * z) <= znth table i /\ (2 * Z.abs (znth dct i - znth table i * z) = znth table i -> Z.abs (znth dct i) < Z.abs (znth table i * z))) 64 0) as (l & E & L & Q).
  - intros i Hi. destruct (H i Hi) as (A & B & C). destruct (integer_quantiser_nearest _ _ A B C) as (z & Z1 & Z2 & Z3). exists z. auto.
  - exists l. split; [exact E|]. split; [exact L|]. intros i Hi. cbv zeta. specialize (Q (Z.to_nat i)). rewrite Z2Nat.id in Q by lia. apply Q. lia.
Qed.
Lemma real_fdct_bound s n D : (n < 64)%nat -> (forall m, (m < 64)%nat -> Rabs (s m) <= D)%R -> (Rabs (real_fdct s n) <= 8.01 * D)%R.
Proof.
  intros N H. rewrite real_fdct_T.
  assert (n / 8 < 8)%nat by (apply Nat.div_lt_upper_bound; lia). assert (n mod 8 < 8)%nat by (apply Nat.mod_upper_bound; lia).
  assert (0 <= D)%R as D0 by (eapply Rle_trans; [apply Rabs_pos|apply (H 0%nat); lia]).
  eapply Rle_trans; [apply T_bound with (B := (norm1 * D)%R); [assumption|]|].
  - intros y Hy. apply T_bound; [assumption|]. intros x Hx. apply H. lia.
  - unfold norm1. nra.
Qed.
Lemma integer_pipeline block table : (forall i, 0 <= i < 64 -> -128 <= znth block i <= 127) -> (forall i, 0 <= i < 64 -> 1 <= znth table i <= 65535) ->
  exists d l, dct_2d_integer block = Ok d /\ quantize_block_integer d table = Ok l /\ length l = 64%nat /\
    forall i, 0 <= i < 64 -> 2 * Z.abs (znth d i - znth table i * znth l i) <= znth table i /\ Z.abs (znth l i) <= 1100.
Proof.
  intros B T. destruct (integer_dct_partial 128 block) as (d & E & L & N); [lia|intros i Hi; specialize (B i Hi); lia|].
  assert (forall i, 0 <= i < 64 -> Z.abs (znth d i) <= 1030) as Bd.
  { intros i Hi. specialize (N (Z.to_nat i) ltac:(lia)). cbv zeta in N.
    assert (Rabs (real_fdct (fun m => IZR (nth m block 0%Z)) (Z.to_nat i)) <= 8.01 * 128)%R as R.
    { apply real_fdct_bound; [lia|]. intros m Hm. specialize (B (Z.of_nat m) ltac:(lia)). unfold znth in B. rewrite Nat2Z.id in B. destruct B as [B1 B2]. apply IZR_le in B1, B2. apply Rabs_le. lra. }
    unfold znth. apply le_IZR. rewrite abs_IZR. set (x := nth (Z.to_nat i) d 0) in *. set (y := real_fdct _ _) in *. clearbody x y.
    apply Rabs_le_inv in R. apply Rabs_le_inv in N. apply Rabs_le. destruct (_ || _) in N; lra. }
  destruct (quantize_block_near d table) as (l & El & Ll & Q).
  - intros i Hi. specialize (T i Hi). specialize (Bd i Hi). split; [lia|]. split; [lia|]. nia.
  - exists d, l. split; [exact E|]. split; [exact El|]. split; [exact Ll|]. intros i Hi. destruct (Q i Hi) as [Q1 _]. cbv zeta in Q1. split; [exact Q1|].
    specialize (T i Hi). specialize (Bd i Hi). nia.
Qed.
