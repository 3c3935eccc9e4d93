(** C119: changes to a picture stay in their square of its JPEG file. *)
From Verif Require Import Base PngPaletteModel JpegBaseModel JpegDecModel JpegEncModel JpegImgSpec JpegTrellisTop JpegLocalSpec JpegLocal.
Open Scope Z_scope.

(** C119: two pictures, encoded with the same options and decoded, are equal in every
    square of 8 (16 with 4:2:0) in which they are equal to begin with (baseline; at most one
    restart interval, see C36). *)
Theorem jpeg_changes_stay_local : forall a b o, valid_args a o -> valid_args b o -> jo_prog o = false -> match jo_restart o with Some i => mcus_across o * mcus_down o <= i | None => True end ->
  exists fa fb pa pb, jencode pixo_env a o = Ok fa /\ jencode pixo_env b o = Ok fb /\
    (forall tail, decode_jpeg (fa ++ tail) = Ok (mkjimg (jo_w o) (jo_h o) pa (jo_ct o))) /\ (forall tail, decode_jpeg (fb ++ tail) = Ok (mkjimg (jo_w o) (jo_h o) pb (jo_ct o))) /\
    forall x y k, 0 <= x < jo_w o -> 0 <= y < jo_h o -> 0 <= k < channels o -> same_square a b o x y ->
      sample pa (jo_w o) (channels o) x y k = sample pb (jo_w o) (channels o) x y k.
Proof. exact local_l. Qed.
Print Assumptions jpeg_changes_stay_local.

(** the hypotheses are met: two lines of 9 gray pixels that differ in the last one agree in
    the square of the first eight *)
Example jpeg_local_case : let o := mkjo 9 1 Gray 75 S420 None true false false in let a := [1;2;3;4;5;6;7;8;9] in let b := [1;2;3;4;5;6;7;8;200] in
  valid_args a o /\ valid_args b o /\ jo_prog o = false /\ same_square a b o 3 0 /\ ~ same_square a b o 8 0.
Proof.
  cbv zeta. split; [|split; [|split; [reflexivity|split]]].
  1,2: unfold valid_args; cbn [jo_w jo_h jo_quality jo_ct jo_restart]; repeat (split; try lia; auto); repeat (apply Forall_cons; [unfold is_byte; lia|]); apply Forall_nil.
  - intros x y k X Y K EX EY. change (0 <= x < 9) in X. change (0 <= y < 1) in Y. change (0 <= k < 1) in K. change (x / 8 = 0) in EX.
    assert (y = 0) as -> by lia. assert (k = 0) as -> by lia. assert (x < 8) by lia.
    assert (x = 0 \/ x = 1 \/ x = 2 \/ x = 3 \/ x = 4 \/ x = 5 \/ x = 6 \/ x = 7) as D by lia.
    repeat (destruct D as [-> | D]; [reflexivity|]). rewrite D. reflexivity.
  - intros S. specialize (S 8 0 0). assert (9 = 200) as F by (apply S; repeat split; discriminate). discriminate F.
Qed.
