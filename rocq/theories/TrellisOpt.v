(** The search of trellis quantisation keeps eight states: it misses the optimum, and even
    plain rounding can be cheaper. *)
From Verif Require Import Base JpegBaseModel F32Model ResizeModel JpegDctModel JpegTrellisModel TrellisCostSpec.

(** coefficients in sixteenths as binary32 numbers *)
Definition sixteenths (ns : list Z) : list f32 := map (fun n => f_const n (-4)) ns.
(** AC coefficients in zigzag order *)
Definition bad_ac : list Z :=
  [4; 48; 0; 4; 0; 64; 36; 0; 36; 64; 40; 36; 6; 36; 40; 4; 4; 40; 7; 0; 7; 7; 6; 4; 7; 48; 4; 48; 16; 36; 36; 36; 20; 28; 0; 0; 0; 36; 6; 36; 40; 40; 36; 16; 36; 64; 32; 7; 0; 64; 7; 36; 0; 64; 0; 0; 48; 0; 4; 0; 4; 64; 12].
(** the same in natural order, with DC 0 *)
Definition bad_block : list Z :=
  fold_left (fun r '(i, v) => upd r (Z.to_nat (znth ZIGZAG (i + 1))) v) (number bad_ac) (repeat 0 64).
Lemma bad_block_ac : ac_of ZIGZAG bad_block = bad_ac.
Proof. reflexivity. Qed.
Definition bad_result : list Z :=
  [0; 0; 0; 4; 2; 2; 0; 3; 3; 0; 2; 0; 0; 3; 0; 0; 0; 0; 2; 0; 0; 2; 0; 0; 2; 2; 2; 0; 2; 0; 0; 0; 4; 0; 0; 2; 0; 2; 0; 4; 0; 0; 0; 0; 4; 0; 0; 0; 0; 0; 0; 0; 4; 0; 0; 0; 0; 0; 0; 0; 3; 0; 4; 1].
Lemma bad_block_result : trellis_quantize DEFAULT_LAMBDA (sixteenths bad_block) (repeat 1 64) = Ok bad_result.
Proof. vm_compute. reflexivity. Qed.
Lemma bad_block_cost :
  block_cost bad_ac (repeat 1 63) (map (fun n => plain_round n 1) bad_ac) < block_cost bad_ac (repeat 1 63) (ac_of ZIGZAG bad_result).
Proof. reflexivity. Qed.
Lemma search_not_optimal : ~ (forall ns table l, length ns = 64%nat -> Forall (fun n => Z.abs n <= 16 * 1024) ns ->
  length table = 64%nat -> Forall (fun q => 1 <= q <= 255) table -> trellis_quantize DEFAULT_LAMBDA (sixteenths ns) table = Ok l ->
  block_cost (ac_of ZIGZAG ns) (ac_of ZIGZAG table) (ac_of ZIGZAG l) <=
  block_cost (ac_of ZIGZAG ns) (ac_of ZIGZAG table) (map (fun '(n, q) => plain_round n q) (combine (ac_of ZIGZAG ns) (ac_of ZIGZAG table)))).
Proof.
  intro H. specialize (H bad_block (repeat 1 64) bad_result eq_refl).
  assert (B : Forall (fun n => Z.abs n <= 16 * 1024) bad_block) by (apply Forall_forall; intros n Hn; unfold bad_block in Hn; vm_compute in Hn; repeat (destruct Hn as [<-|Hn]; [vm_compute; discriminate|]); destruct Hn).
  assert (T : Forall (fun q => 1 <= q <= 255) (repeat 1 64)) by (apply Forall_forall; intros q Hq; apply repeat_spec in Hq; lia).
  specialize (H B eq_refl T bad_block_result). rewrite bad_block_ac in H.
  assert (E : ac_of ZIGZAG (repeat 1 64) = repeat 1 63) by reflexivity. rewrite E in H.
  assert (M : map (fun '(n, q) => plain_round n q) (combine bad_ac (repeat 1 63)) = map (fun n => plain_round n 1) bad_ac) by reflexivity.
  rewrite M in H. pose proof bad_block_cost. lia.
Qed.
