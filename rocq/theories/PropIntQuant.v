(** C66 for whole blocks: the integer transform followed by integer quantisation. *)
From Verif Require Import Base JpegDctIntModel IntQuantProofs.
Open Scope Z_scope.

(** C66: every coefficient of a block becomes the nearest multiple of its own step, halves
    away from zero, in the same order. *)
Theorem integer_quantiser_block : forall dct table,
  (forall i, 0 <= i < 64 -> 1 <= znth table i <= 65535 /\ - 2 ^ 31 + 65536 <= znth dct i < 2 ^ 31 - 65536 /\ Z.abs (znth dct i) < znth table i * (2 ^ 15 - 1)) ->
  exists l, quantize_block_integer dct table = Ok l /\ length l = 64%nat /\
    forall i, 0 <= i < 64 -> let c := znth dct i in let q := znth table i in let z := znth l i in
      2 * Z.abs (c - q * z) <= q /\ (2 * Z.abs (c - q * z) = q -> Z.abs c < Z.abs (q * z)).
Proof. exact quantize_block_near. Qed.
Print Assumptions integer_quantiser_block.
(** C66: for every block of samples and every table the two stages neither overflow nor
    wrap to 16 bits; values stay below 1100 in magnitude. *)
Theorem integer_stages_fit : forall block table, (forall i, 0 <= i < 64 -> -128 <= znth block i <= 127) -> (forall i, 0 <= i < 64 -> 1 <= znth table i <= 65535) ->
  exists d l, dct_2d_integer block = Ok d /\ quantize_block_integer d table = Ok l /\ length l = 64%nat /\
    forall i, 0 <= i < 64 -> 2 * Z.abs (znth d i - znth table i * znth l i) <= znth table i /\ Z.abs (znth l i) <= 1100.
Proof. exact integer_pipeline. Qed.
Print Assumptions integer_stages_fit.

(** the hypotheses are met by the step from dark to light with steps of 10 *)
Example stages_case : (forall i, 0 <= i < 64 -> -128 <= znth step_block i <= 127) /\ (forall i, 0 <= i < 64 -> 1 <= znth (repeat 10 64) i <= 65535) /\
  exists d, dct_2d_integer step_block = Ok d /\ quantize_block_integer d (repeat 10 64) = Ok ([0; -23; 0; 8; 0; -6; 0; 5] ++ repeat 0 56).
Proof.
  assert (forall (f : Z -> bool) l, forallb f l = true -> forall i, 0 <= i < zlen l -> f (znth l i) = true) as A.
  { intros f l H i Hi. apply (proj1 (forallb_forall f l) H). apply nth_In. unfold zlen in Hi. lia. }
  split; [|split].
  - intros i Hi. pose proof (A (fun x => (-128 <=? x) && (x <=? 127)) step_block eq_refl i Hi) as H. apply andb_prop in H. destruct H as [H1 H2]. apply Z.leb_le in H1, H2. auto.
  - intros i Hi. pose proof (A (fun x => x =? 10) (repeat 10 64) eq_refl i Hi) as H. apply Z.eqb_eq in H. rewrite H. split; discriminate.
  - exists ([-4; -231; 0; 81; 0; -55; 0; 46] ++ repeat 0 56). split; vm_compute; reflexivity.
Qed.
