(** C111: data made of few runs of equal bytes becomes small.  [runs data] is
    the number of runs; the size is a forty-third of the data plus 1680 bytes
    per run plus a constant, at every level, from any state of the pool. *)
From Verif Require Import Base Lz77Model DeflateModel DeflateTop RunsSpec RunsEntropy RunsTop.

Theorem packed_runs_compress : forall H p data level, length p = 10%nat -> bytes data -> zlen data <= 2 ^ 31 ->
  exists o p', deflate_packed H p data level = Ok (o, p') /\ zlen o <= runs_bound (zlen data) (runs data).
Proof. exact deflate_packed_few_l. Qed.
Print Assumptions packed_runs_compress.
(** with up to fifteen blocks, each with a header of its own *)
Theorem enum_runs_compress : forall H E p data level, est_total E -> length p = 10%nat -> bytes data -> zlen data <= 2 ^ 31 ->
  exists o p', deflate H E p data level = Ok (o, p') /\ zlen o <= runs_bound (zlen data) (runs data) + 8400.
Proof. exact deflate_few_l. Qed.
Print Assumptions enum_runs_compress.
Theorem zlib_runs_compress : forall H E p data level, est_total E -> length p = 10%nat -> bytes data -> zlen data <= 2 ^ 31 ->
  exists o p', deflate_zlib H E p data level = Ok (o, p') /\ zlen o <= runs_bound (zlen data) (runs data) + 8400.
Proof. exact deflate_zlib_few_l. Qed.
Print Assumptions zlib_runs_compress.
Theorem zlib_packed_runs_compress : forall H p data level, length p = 10%nat -> bytes data -> zlen data <= 2 ^ 31 ->
  exists o p', deflate_zlib_packed H p data level = Ok (o, p') /\ zlen o <= runs_bound (zlen data) (runs data) + 3800.
Proof. exact deflate_zlib_packed_few_l. Qed.
Print Assumptions zlib_packed_runs_compress.
(** the test for incompressible data, which would store everything because of
    its first 8192 bytes, says yes to nothing longer than 4372 bytes *)
Theorem incompressible_shortcut : forall data, is_high_entropy_data data = Ok true -> zlen data <= 4372.
Proof. exact entropy_small. Qed.
Print Assumptions incompressible_shortcut.

Example runs_counted : runs [5;5;5;6;6;5;5;0] = 4 /\ runs [] = 0 /\ runs [9] = 1.
Proof. vm_compute. auto. Qed.
(** a million zeros become at most 25,535 bytes, at any level *)
Example million_zeros H level : exists o p', deflate_packed H pool_init (repeat 0 (Z.to_nat 1000000)) level = Ok (o, p') /\ zlen o <= 25535.
Proof.
  assert (exists n, Z.to_nat 1000000 = S n) as [n EN] by (exists (Z.to_nat 999999); lia).
  assert (zlen (repeat 0 (Z.to_nat 1000000)) = 1000000) as L by (unfold zlen; rewrite repeat_length; lia).
  destruct (packed_runs_compress H pool_init (repeat 0 (Z.to_nat 1000000)) level) as (o & p' & E & B).
  - reflexivity.
  - apply Forall_forall. intros x I. apply repeat_spec in I. subst. split; reflexivity || discriminate.
  - rewrite L. discriminate.
  - exists o, p'. split; [exact E|]. rewrite L, EN, runs_repeat in B. change (runs_bound 1000000 1) with 25535 in B. exact B.
Qed.
