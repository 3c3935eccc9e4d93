(** Restart markers (C100). *)
From Verif Require Import Base PngPaletteModel JpegBaseModel JpegHuffModel JpegEncModel JpegSpec JpegEncProofs JpegImgSpec JpegFileSpec JpegProgSpec JpegTrellisTop JpegSizeSpec JpegRestartSpec JpegRestartProofs.
Open Scope Z_scope.

(** C100 for baseline files: the scan has a restart marker after every interval but the last,
    numbered from 0 to 7 in turn, and no other marker; without an interval it has none.
    Missing: progressive files, where the property is false. *)
Theorem restart_markers_partial : forall data o, valid_args data o -> jo_prog o = false ->
  exists t scan, jencode pixo_env data o = Ok (baseline_file o (tabs_of t 0) (tabs_of t 1) scan) /\
    markers scan = match jo_restart o with Some i => restart_markers (mcus_across o * mcus_down o) i | None => [] end.
Proof. exact (fun data o V => baseline_restarts pixo_env data o V (proj1 pixo_env_ok)). Qed.
Print Assumptions restart_markers_partial.
Example restart_markers_case : valid_args (repeat 100 128) (two_blocks 1 false) /\ mcus_across (two_blocks 1 false) * mcus_down (two_blocks 1 false) = 2 /\ restart_markers 2 1 = [208] /\
  restart_markers 25 2 = [208; 209; 210; 211; 212; 213; 214; 215; 208; 209; 210; 211].
Proof. split; [exact (two_blocks_valid 1 false ltac:(lia))|]. repeat split. Qed.

(** C100 fails for progressive files: whatever the interval, no scan has a marker. *)
Theorem restart_markers_never : forall data o, valid_args data o -> jo_prog o = true ->
  exists t segs, jencode pixo_env data o = Ok (progressive_file o (tabs_of t 0) (tabs_of t 1) segs) /\ length segs = 7%nat /\ Forall (fun seg => markers seg = []) segs.
Proof. exact (fun data o V => progressive_restarts pixo_env data o V pixo_env_ok). Qed.
Print Assumptions restart_markers_never.
(** So a progressive file of two gray blocks with an interval of one declares it and has no
    marker in its first scan, which needs one. *)
Theorem restart_markers_refuted : exists data o i t segs, valid_args data o /\ jo_prog o = true /\ jo_restart o = Some i /\
  jencode pixo_env data o = Ok (progressive_file o (tabs_of t 0) (tabs_of t 1) segs) /\
  restart_markers (pieces (jo_w o) 8 * pieces (jo_h o) 8) i <> [] /\ markers (nth 0 segs []) = [].
Proof. exact (progressive_restarts_missing pixo_env pixo_env_ok). Qed.
Print Assumptions restart_markers_refuted.
