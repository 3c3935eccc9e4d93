(** Concrete baseline files: one the decoder reads, and conforming files it misreads. *)
From Coq Require Import Reals Lra.
From Verif Require Import Base PngFilterModel PngPaletteModel JpegBaseModel JpegDecModel JpegTabProofs CanonSpec MsbSpec JpegSpec JpegFileSpec JpegIdctReal JpegDecSpec JpegAnySpec.
Open Scope Z_scope.

Ltac each := repeat match goal with |- Forall _ (_ :: _) => apply Forall_cons end.

(** tables with the DC categories 0 and 3 and no AC symbol but the end of block *)
Definition ex_tabs : ctabs := mkct (1 :: 1 :: repeat 0 14) [0; 3] (1 :: repeat 0 15) [0].
Definition flat_block (v : Z) : list Z := v :: repeat 0 63.

Lemma ex_legal_dc : huff_legal (ct_dcb ex_tabs) (ct_dcv ex_tabs).
Proof.
  split; [reflexivity|]. split; [cbv [ex_tabs ct_dcb ct_acb repeat]; each; try apply Forall_nil; lia|]. split; [reflexivity|].
  split; [cbv [ex_tabs ct_dcv ct_acv]; unfold bytes; each; try apply Forall_nil; unfold is_byte; lia|]. split; [|reflexivity].
  repeat constructor; cbn; intuition lia.
Qed.
Lemma ex_legal_ac : huff_legal (ct_acb ex_tabs) (ct_acv ex_tabs).
Proof.
  split; [reflexivity|]. split; [cbv [ex_tabs ct_dcb ct_acb repeat]; each; try apply Forall_nil; lia|]. split; [reflexivity|].
  split; [cbv [ex_tabs ct_dcv ct_acv]; unfold bytes; each; try apply Forall_nil; unfold is_byte; lia|]. split; [|reflexivity].
  repeat constructor; cbn; intuition lia.
Qed.
Lemma ex_eob : ac_code (ct_acb ex_tabs) (ct_acv ex_tabs) (repeat 0 63) [false].
Proof. apply ac_eob; [lia|]. exists 0%nat. repeat split; cbn; lia. Qed.
Lemma ex_same v T c p r b : T c = ex_tabs -> znth p c = v -> interval_code T (upd p (Z.to_nat c) v) r b -> interval_code T p ((c, flat_block v) :: r) (false :: false :: b).
Proof.
  intros E Hp H. change (false :: false :: b) with (([false] ++ [false]) ++ b). apply iv_cons; [|exact H]. rewrite E, Hp.
  exists v, (repeat 0 63), [false], [false]. split; [reflexivity|]. split; [reflexivity|]. split; [|split; [exact ex_eob|reflexivity]].
  rewrite Z.sub_diag. apply dc_zero. exists 0%nat. repeat split; cbn; lia.
Qed.
Lemma ex_change v T c p r b x y z : T c = ex_tabs -> 4 <= Z.abs (v - znth p c) < 8 -> amplitude (v - znth p c) 3 = [x; y; z] ->
  interval_code T (upd p (Z.to_nat c) v) r b -> interval_code T p ((c, flat_block v) :: r) (true :: false :: x :: y :: z :: false :: b).
Proof.
  intros E Hv A H. change (true :: false :: x :: y :: z :: false :: b) with ((([true; false] ++ [x; y; z]) ++ [false]) ++ b). apply iv_cons; [|exact H]. rewrite E, <- A.
  exists v, (repeat 0 63), ([true; false] ++ amplitude (v - znth p c) 3), [false]. split; [reflexivity|]. split; [reflexivity|]. split; [|split; [exact ex_eob|reflexivity]].
  apply dc_diff; [split; [lia|exact Hv]|lia|]. exists 1%nat. repeat split; cbn; lia.
Qed.
Lemma flat_bound v q M : - 2 ^ 15 <= v < 2 ^ 15 -> 0 <= M -> (forall i, 0 <= i < 64 -> znth q i = znth q 0) -> Z.abs (v * znth q 0) <= M ->
  length (flat_block v) = 64%nat /\ - 2 ^ 15 <= znth (flat_block v) 0 < 2 ^ 15 /\ forall i, 0 <= i < 64 -> Z.abs (znth (flat_block v) i * znth q i) <= M.
Proof.
  intros Hv H0 Hq HM. split; [reflexivity|]. split; [exact Hv|]. intros i Hi. rewrite Hq by exact Hi.
  destruct (Z.eq_dec i 0) as [->|N]; [exact HM|]. replace (znth (flat_block v) i) with 0; [exact H0|].
  unfold znth, flat_block. replace (Z.to_nat i) with (S (Z.to_nat (i - 1))) by lia. cbn [nth]. symmetry. apply nth_repeat.
Qed.
Lemma same_repeat k : forall i, 0 <= i < 64 -> znth (repeat k 64) i = znth (repeat k 64) 0.
Proof. intros i Hi. unfold znth. rewrite nth_repeat_lt by lia. reflexivity. Qed.
Lemma flat_dequantised v k : is_dequantised (flat_block v) (repeat k 64) (flat_block (v * k)).
Proof.
  split; [reflexivity|]. intros i Hi.
  assert (forall w j, 0 < j < 64 -> znth (flat_block w) j = 0) as F.
  { intros w j Hj. unfold znth, flat_block. replace (Z.to_nat j) with (S (Z.to_nat (j - 1))) by lia. cbn [nth]. apply nth_repeat. }
  destruct (Z.eq_dec i 0) as [->|N]; [reflexivity|]. rewrite (F v i) by lia.
  assert (0 < znth zigzag_order i < 64) as Z; [|rewrite F by exact Z; reflexivity].
  assert (Forall (fun z => 0 < z < 64) (tl zigzag_order)) as A by (repeat constructor).
  assert (znth zigzag_order i = nth (Z.to_nat (i - 1)) (tl zigzag_order) 0) as ->.
  { unfold znth. replace (Z.to_nat i) with (S (Z.to_nat (i - 1))) by lia. reflexivity. }
  rewrite Forall_forall in A. apply A. apply nth_In. change (length (tl zigzag_order)) with 63%nat. lia.
Qed.

(** a 16 by 8 image with the chroma at half the width, fill bytes, a comment, tables in
    slots of their own and a table of 16-bit entries *)
Definition ex_file : jfile := mkfile 16 8 [mkac 7 2 1 2 1 3; mkac 9 1 1 3 1 3; mkac 200 1 1 3 1 3]
  [(0%nat, Skip 224 [74; 70]); (2%nat, Quant [(0, 2, repeat 16 64); (1, 3, repeat 300 64)])]
  [(0%nat, Skip 254 [255; 217; 3]); (1%nat, Huff [(0, 1, ct_dcb ex_tabs, ct_dcv ex_tabs); (1, 3, ct_acb ex_tabs, ct_acv ex_tabs)]); (0%nat, Interval 0)]
  [170; 41; 143].
Definition ex_blocks (c bx by_ : Z) : list Z := flat_block (if c =? 0 then if bx =? 0 then 5 else -1 else if c =? 1 then -4 else 0).
Definition ex_quant (c : Z) : list Z := if c =? 0 then repeat 16 64 else repeat 300 64.
Lemma ex_conforming : conforming_jpeg 1200 ex_file ex_blocks (fun _ => ex_tabs) ex_quant.
Proof.
  constructor.
  - cbn. lia.
  - right. reflexivity.
  - intros c [<-|[<-|[<-|[]]]]; cbn; lia.
  - cbn [f_before f_after ex_file app]. each; [| | | | |apply Forall_nil]; cbv beta iota delta [seg_legal snd].
    + split; [lia|]. split; [unfold bytes; each; try apply Forall_nil; unfold is_byte; lia|reflexivity].
    + split; [reflexivity|]. each; [| |apply Forall_nil]; (split; [lia|]; split; [lia|]; split; [reflexivity|]; cbv [repeat]; each; try apply Forall_nil; lia).
    + split; [lia|]. split; [unfold bytes; each; try apply Forall_nil; unfold is_byte; lia|reflexivity].
    + split; [reflexivity|]. each; [| |apply Forall_nil]; (split; [lia|]; split; [lia|]); [exact ex_legal_dc|exact ex_legal_ac].
    + lia.
  - intros c Hc. change (zlen (f_comps ex_file)) with 3 in Hc.
    assert (c = 0 \/ c = 1 \/ c = 2) as [-> | [-> | ->]] by lia; (split; [|split]).
    all: try (exists [], []; split; [reflexivity|intros []]).
    all: try (exists [], [(3, repeat 300 64)]; split; [reflexivity|intros [E|[]]; discriminate E]).
    all: exists [(2, repeat 16 64)], []; split; [reflexivity|intros []].
  - intros c bx by_ H. change (all_blocks ex_file) with [(0, 0, 0); (0, 1, 0); (1, 0, 0); (2, 0, 0)] in H.
    destruct H as [E|[E|[E|[E|[]]]]]; injection E as <- <- <-; apply flat_bound; first [lia | apply same_repeat | vm_compute; discriminate | vm_compute; split; [discriminate|reflexivity]].
  - apply (sc_last _ _ _ [true; false; true; false; true; false; true; false; false; false; true; false; true; false; false; true; true; false; false; false]).
    2:{ split; [unfold bytes; match goal with |- Forall _ ?l => let m := eval hnf in l in change l with m end; each; try apply Forall_nil; unfold is_byte; lia|]. exists [170; 41; 143]. split; reflexivity. }
    change (interval_code (fun _ => ex_tabs) [0; 0; 0] (map (fun '(c, bx, by_) => (c, ex_blocks c bx by_)) [(0, 0, 0); (0, 1, 0); (1, 0, 0); (2, 0, 0)])
      [true; false; true; false; true; false; true; false; false; false; true; false; true; false; false; true; true; false; false; false]).
    cbn [map].
    apply ex_change; [reflexivity|vm_compute; split; [discriminate|reflexivity]|reflexivity|]. apply ex_change; [reflexivity|vm_compute; split; [discriminate|reflexivity]|reflexivity|].
    apply ex_change; [reflexivity|vm_compute; split; [discriminate|reflexivity]|reflexivity|]. apply ex_same; [reflexivity|reflexivity|]. apply iv_nil.
Qed.
Lemma ex_usual : usual_sampling ex_file.
Proof.
  right. split; [reflexivity|]. split; [reflexivity|]. split; [reflexivity|].
  intros c [<-|[<-|[<-|[]]]]; cbn; split; first [exists 1; reflexivity|exists 2; reflexivity].
Qed.

(** a 32 by 16 image of one component with the factors 2, 2: eight blocks in raster order,
    of which the third, at (2, 0), differs *)
Definition one_file : jfile := mkfile 32 16 [mkac 1 2 2 0 0 0] [(0%nat, Quant [(0, 0, repeat 16 64)])]
  [(0%nat, Huff [(0, 0, ct_dcb ex_tabs, ct_dcv ex_tabs); (1, 0, ct_acb ex_tabs, ct_acv ex_tabs)])] [10; 164; 0].
Definition one_blocks (c bx by_ : Z) : list Z := flat_block (if (bx =? 2) && (by_ =? 0) then 5 else 0).
Lemma one_conforming : conforming_jpeg 80 one_file one_blocks (fun _ => ex_tabs) (fun _ => repeat 16 64).
Proof.
  constructor.
  - cbn. lia.
  - left. reflexivity.
  - intros c [<-|[]]; cbn; lia.
  - cbn [f_before f_after one_file app]. each; [| |apply Forall_nil]; cbv beta iota delta [seg_legal snd].
    + split; [reflexivity|]. each; [|apply Forall_nil]; (split; [lia|]; split; [lia|]; split; [reflexivity|]; cbv [repeat]; each; try apply Forall_nil; lia).
    + split; [reflexivity|]. each; [| |apply Forall_nil]; (split; [lia|]; split; [lia|]); [exact ex_legal_dc|exact ex_legal_ac].
  - intros c Hc. change (zlen (f_comps one_file)) with 1 in Hc. assert (c = 0) as -> by lia.
    split; [|split]; exists [], []; (split; [reflexivity|intros []]).
  - intros c bx by_ H. unfold one_blocks. destruct ((bx =? 2) && (by_ =? 0)); apply flat_bound; first [lia | apply same_repeat | vm_compute; discriminate | vm_compute; split; [discriminate|reflexivity]].
  - apply (sc_last _ _ _ [false; false; false; false; true; false; true; false; true; false; true; false; false; true; false; false; false; false; false; false; false; false; false; false]).
    2:{ split; [unfold bytes; match goal with |- Forall _ ?l => let m := eval hnf in l in change l with m end; each; try apply Forall_nil; unfold is_byte; lia|]. exists [10; 164; 0]. split; reflexivity. }
    change (interval_code (fun _ => ex_tabs) [0; 0; 0] (map (fun '(c, bx, by_) => (c, one_blocks c bx by_)) [(0, 0, 0); (0, 1, 0); (0, 2, 0); (0, 3, 0); (0, 0, 1); (0, 1, 1); (0, 2, 1); (0, 3, 1)])
      [false; false; false; false; true; false; true; false; true; false; true; false; false; true; false; false; false; false; false; false; false; false; false; false]).
    cbn [map].
    apply ex_same; [reflexivity|reflexivity|]. apply ex_same; [reflexivity|reflexivity|]. apply ex_change; [reflexivity|vm_compute; split; [discriminate|reflexivity]|reflexivity|]. apply ex_change; [reflexivity|vm_compute; split; [discriminate|reflexivity]|reflexivity|].
    do 4 (apply ex_same; [reflexivity|reflexivity|]). apply iv_nil.
Qed.

(** a 16 by 8 image whose first component has half the width of the others *)
Definition half_file : jfile := mkfile 16 8 [mkac 1 1 1 0 0 0; mkac 2 2 1 0 0 0; mkac 3 2 1 0 0 0] [(0%nat, Quant [(0, 0, repeat 16 64)])]
  [(0%nat, Huff [(0, 0, ct_dcb ex_tabs, ct_dcv ex_tabs); (1, 0, ct_acb ex_tabs, ct_acv ex_tabs)])] [168; 3].
Definition half_blocks (c bx by_ : Z) : list Z := flat_block (if c =? 0 then 5 else 0).
Lemma half_conforming : conforming_jpeg 80 half_file half_blocks (fun _ => ex_tabs) (fun _ => repeat 16 64).
Proof.
  constructor.
  - cbn. lia.
  - right. reflexivity.
  - intros c [<-|[<-|[<-|[]]]]; cbn; lia.
  - cbn [f_before f_after half_file app]. each; [| |apply Forall_nil]; cbv beta iota delta [seg_legal snd].
    + split; [reflexivity|]. each; [|apply Forall_nil]; (split; [lia|]; split; [lia|]; split; [reflexivity|]; cbv [repeat]; each; try apply Forall_nil; lia).
    + split; [reflexivity|]. each; [| |apply Forall_nil]; (split; [lia|]; split; [lia|]); [exact ex_legal_dc|exact ex_legal_ac].
  - intros c Hc. change (zlen (f_comps half_file)) with 3 in Hc.
    assert (c = 0 \/ c = 1 \/ c = 2) as [-> | [-> | ->]] by lia; (split; [|split]; exists [], []; (split; [reflexivity|intros []])).
  - intros c bx by_ H. unfold half_blocks. destruct (c =? 0); apply flat_bound; first [lia | apply same_repeat | vm_compute; discriminate | vm_compute; split; [discriminate|reflexivity]].
  - apply (sc_last _ _ _ [true; false; true; false; true; false; false; false; false; false; false; false; false; false]).
    2:{ split; [unfold bytes; match goal with |- Forall _ ?l => let m := eval hnf in l in change l with m end; each; try apply Forall_nil; unfold is_byte; lia|]. exists [168; 3]. split; reflexivity. }
    change (interval_code (fun _ => ex_tabs) [0; 0; 0] (map (fun '(c, bx, by_) => (c, half_blocks c bx by_)) [(0, 0, 0); (1, 0, 0); (1, 1, 0); (2, 0, 0); (2, 1, 0)])
      [true; false; true; false; true; false; false; false; false; false; false; false; false; false]).
    cbn [map].
    apply ex_change; [reflexivity|vm_compute; split; [discriminate|reflexivity]|reflexivity|]. do 4 (apply ex_same; [reflexivity|reflexivity|]). apply iv_nil.
Qed.

Lemma one_misread : exists px, decode_jpeg (file_bytes one_file) = Ok (mkjimg 32 16 px Gray) /\ pixel_at px 32 1 16 0 = [128] /\
  is_dequantised (one_blocks 0 2 0) (repeat 16 64) (80 :: repeat 0 63) /\ (128 + real_idct (80%Z :: repeat 0%Z 63) 0 0 = 138)%R.
Proof.
  eexists. split; [vm_compute; reflexivity|]. split; [reflexivity|]. split; [exact (flat_dequantised 5 16)|]. rewrite real_dc. lra.
Qed.
Lemma half_misread : exists px, decode_jpeg (file_bytes half_file) = Ok (mkjimg 16 8 px Rgb) /\ pixel_at px 16 3 0 4 = [0; 0; 0] /\
  is_dequantised (half_blocks 0 0 0) (repeat 16 64) (80 :: repeat 0 63) /\ (128 + real_idct (80%Z :: repeat 0%Z 63) 0 4 = 138)%R.
Proof.
  eexists. split; [vm_compute; reflexivity|]. split; [reflexivity|]. split; [exact (flat_dequantised 5 16)|]. rewrite real_dc. lra.
Qed.
