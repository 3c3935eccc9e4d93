(** C120: a JPEG file treats every square of a picture alike. *)
From Verif Require Import Base PngFilterModel PngPaletteModel JpegBaseModel JpegDecModel JpegEncModel JpegImgSpec JpegTrellisTop JpegLocalSpec JpegShiftSpec JpegShift.
Open Scope Z_scope.

(** C120: a whole square of 8 (16 with 4:2:0) decodes to the same pixels wherever in a
    picture, and in whatever picture, it is found at a whole number of squares' distance
    (same colour type, quality and sampling; baseline; at most one restart interval, see C36).
    So cutting a picture along squares before or after saving gives the same pixels. *)
Theorem jpeg_squares_alike : forall a oa b ob, valid_args a oa -> valid_args b ob -> alike oa ob -> jo_prog oa = false -> jo_prog ob = false ->
  match jo_restart oa with Some i => mcus_across oa * mcus_down oa <= i | None => True end ->
  match jo_restart ob with Some i => mcus_across ob * mcus_down ob <= i | None => True end ->
  exists fa fb pa pb, jencode pixo_env a oa = Ok fa /\ jencode pixo_env b ob = Ok fb /\
    (forall tail, decode_jpeg (fa ++ tail) = Ok (mkjimg (jo_w oa) (jo_h oa) pa (jo_ct oa))) /\ (forall tail, decode_jpeg (fb ++ tail) = Ok (mkjimg (jo_w ob) (jo_h ob) pb (jo_ct ob))) /\
    forall x y i j k, 0 <= k < channels ob -> let m := square_side ob in
      square_inside ob x y -> square_inside oa (x + m * i) (y + m * j) -> square_found a oa b ob x y i j ->
      sample pa (jo_w oa) (channels oa) (x + m * i) (y + m * j) k = sample pb (jo_w ob) (channels ob) x y k.
Proof. exact shift_l. Qed.
Print Assumptions jpeg_squares_alike.

(** the hypotheses are met: the right half of 16 by 8 gray pixels, by itself *)
Example jpeg_squares_case : let oa := mkjo 16 8 Gray 75 S444 None true false false in let ob := mkjo 8 8 Gray 75 S444 None false false false in
  valid_args wide oa /\ valid_args half ob /\ alike oa ob /\ square_inside ob 3 5 /\ square_inside oa (3 + 8 * 1) (5 + 8 * 0) /\ square_found wide oa half ob 3 5 1 0.
Proof.
  cbv zeta. split; [|split; [|split; [repeat split|split; [repeat split; discriminate|split; [repeat split; discriminate|]]]]].
  1,2: unfold valid_args; cbn [jo_w jo_h jo_quality jo_ct jo_restart]; split; [lia|]; split; [lia|]; split; [lia|]; split; [|split; [reflexivity|split; auto]];
    vm_compute; repeat (apply Forall_cons; [split; [discriminate|reflexivity]|]); apply Forall_nil.
  intros x y k K X Y. change (0 <= k < 1) in K. change (x / 8 = 0) in X. change (y / 8 = 0) in Y. change (square_side _) with 8. assert (k = 0) as -> by lia.
  assert (0 <= x < 8) as HX by lia. assert (0 <= y < 8) as HY by lia. clear X Y K.
  assert (forallb (fun y => forallb (fun x => znth wide ((y * 16 + (x + 8)) * 1 + 0) =? znth half ((y * 8 + x) * 1 + 0)) (idxs 8)) (idxs 8) = true) as T by (vm_compute; reflexivity).
  rewrite forallb_forall in T. assert (forall n z, 0 <= z < Z.of_nat n -> In z (idxs n)) as I.
  { intros n z Hz. unfold idxs. apply in_map_iff. exists (Z.to_nat z). split; [lia|]. apply in_seq. lia. }
  specialize (T y (I 8%nat y HY)). cbv beta in T. rewrite forallb_forall in T. specialize (T x (I 8%nat x HX)). apply Z.eqb_eq in T.
  unfold sample. cbn [jo_w]. change (channels _) with 1. rewrite <- T. f_equal. lia.
Qed.
