(** What the optimised Huffman tables of the JPEG encoder are worth (C98). *)
From Verif Require Import Base HuffOptSpec PngPaletteModel JpegBaseModel JpegHuffModel JpegEncModel JpegImgSpec JpegTrellisTop JpegHuffOptSpec JpegHuffOptTop.
Open Scope Z_scope.

(** C98: a table made for given counts takes at most one bit for every symbol written more than
    any code whatever, the standard one included; with a single symbol it takes no more than
    the others.  Missing: that it takes no more with two symbols or more. *)
Theorem optimised_tables_partial : forall counts bits vals word, Forall (fun c => 0 <= c) counts -> fold_right Z.add 0 counts < 2 ^ 64 -> zlen counts <= 256 -> (occurring counts <= 255)%nat ->
  build_bits_vals counts = Ok (Some (bits, vals)) -> prefix_code counts word ->
  table_cost counts bits vals <= coded_bits counts (word_lengths counts word) + (if (2 <=? occurring counts)%nat then fold_right Z.add 0 counts else 0).
Proof. exact one_bit_more. Qed.
Print Assumptions optimised_tables_partial.
(** five symbols 63 times: 199 bits, where the words 00, 01, 100, 1011, 11010 of the standard table take 162 *)
Definition five : list Z := [0; 21; 21; 11; 5; 5].
Definition five_word (i : nat) : list bool :=
  match i with 1%nat => [false; false] | 2%nat => [false; true] | 3%nat => [true; false; false] | 4%nat => [true; false; true; true] | 5%nat => [true; true; false; true; false] | _ => [] end.
Example optimised_tables_case : build_bits_vals five = Ok (Some ([0; 0; 3; 2] ++ repeat 0 12, [1; 2; 3; 4; 5])) /\
  table_cost five ([0; 0; 3; 2] ++ repeat 0 12) [1; 2; 3; 4; 5] = 199 /\ occurring five = 5%nat /\
  prefix_code five five_word /\ coded_bits five (word_lengths five five_word) = 162 /\ fold_right Z.add 0 five = 63.
Proof.
  split; [vm_compute; reflexivity|]. split; [vm_compute; reflexivity|]. split; [reflexivity|]. split; [|split; vm_compute; reflexivity].
  intros i Hi. do 6 (destruct i as [|i]; [split; [first [discriminate|cbn in Hi; lia]|]; intros j t Hj D E; apply D;
    do 6 (destruct j as [|j]; [first [reflexivity|discriminate E|cbn in Hi; lia|cbn in Hj; lia]|]); cbn [nth five] in Hj; destruct j; lia|]).
  cbn [nth five] in Hi. destruct i; lia.
Qed.

(** C98 fails for every table with two symbols or more: some code with words of at most 15 bits
    takes one bit less for every symbol written. *)
Theorem optimised_tables_wasteful : forall counts bits vals, Forall (fun c => 0 <= c) counts -> fold_right Z.add 0 counts < 2 ^ 64 -> zlen counts <= 256 -> (2 <= occurring counts <= 255)%nat ->
  build_bits_vals counts = Ok (Some (bits, vals)) ->
  exists word, prefix_code counts word /\ (forall s, zlen (word s) <= 15) /\ coded_bits counts (word_lengths counts word) = table_cost counts bits vals - fold_right Z.add 0 counts.
Proof. exact one_bit_wasted. Qed.
Print Assumptions optimised_tables_wasteful.
Example optimised_tables_wasteful_case : Forall (fun c => 0 <= c) five /\ fold_right Z.add 0 five < 2 ^ 64 /\ zlen five <= 256 /\ (2 <= occurring five <= 255)%nat.
Proof. split; [repeat constructor; lia|]. split; [reflexivity|]. split; [vm_compute; discriminate|]. vm_compute. lia. Qed.

(** C98 fails for whole files: a gray picture of 8 by 400 pixels takes 2522 bytes with the
    standard tables and 2579 with the tables made for it. *)
Theorem optimised_tables_refuted : exists data o o', valid_args data o /\ jo_opt o = false /\ o' = mkjo (jo_w o) (jo_h o) (jo_ct o) (jo_quality o) (jo_sub o) (jo_restart o) true (jo_prog o) (jo_trellis o) /\
  exists file file', jencode pixo_env data o = Ok file /\ jencode pixo_env data o' = Ok file' /\ zlen file = 2522 /\ zlen file' = 2579.
Proof. exact optimised_larger. Qed.
Print Assumptions optimised_tables_refuted.
