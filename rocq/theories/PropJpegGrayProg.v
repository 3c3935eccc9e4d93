(** C38 of gray pictures. *)
From Coq Require Import Lia.
From Verif Require Import Base PngPaletteModel JpegEncModel JpegEncProofs JpegImgSpec JpegProgSpec JpegApi JpegRefute JpegTrellisTop PropJpegDct.
Open Scope Z_scope.

(** C38 fails of every gray picture: its progressive file has scans of components 2 and 3,
    but its frame declares component 1 only. *)
Theorem gray_progressive_components_refuted : forall data o, valid_args data o -> jo_prog o = true -> jo_ct o = Gray ->
  exists t segs, jencode pixo_env data o = Ok (progressive_file o (tabs_of t 0) (tabs_of t 1) segs) /\ length segs = length prog_script /\
    ~ incl named (declared o).
Proof.
  intros data o V P G. destruct (pixo_progressive_components_partial data o V P) as (t & segs & E & L & _ & H). exists t, segs.
  split; [exact E|]. split; [exact L|]. destruct (H G) as (I2 & _ & D). rewrite D. intros I. destruct (I 2 I2) as [A|[]]. discriminate A.
Qed.
Print Assumptions gray_progressive_components_refuted.
Example gray_progressive_case : let o := mkjo 2 1 Gray 75 S444 None false true false in valid_args [7; 9] o /\ jo_prog o = true /\ jo_ct o = Gray.
Proof.
  cbv zeta. split; [|split; reflexivity]. unfold valid_args. cbn [jo_w jo_h jo_quality jo_ct jo_restart]. repeat (split; try lia; auto).
  repeat (apply Forall_cons; [unfold is_byte; lia|]). apply Forall_nil.
Qed.
