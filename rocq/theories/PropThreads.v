(** C107: threads and results. *)
From Verif Require Import Base Lz77Model PngFilterModel PngPaletteModel F32Model ResizeModel ResizeSpec JpegBaseModel JpegEncModel JpegImgSpec ThreadsModel ThreadsTop.

(** C107.  However the writes of the threads interleave, resizing with Lanczos gives what it
    gives without threads (and some interleaving exists) ... *)
Theorem resize_threads : forall sin data o, resizable o data -> r_algo o = Lanczos3 -> exists out, resize sin data o = Ok out /\
  (forall r, lanczos_threads sin data (r_sw o) (r_sh o) (r_dw o) (r_dh o) (bytes_per_pixel (r_ct o)) r -> r = Ok out) /\
  lanczos_threads sin data (r_sw o) (r_sh o) (r_dw o) (r_dh o) (bytes_per_pixel (r_ct o)) (Ok out).
Proof. exact lanczos_any_order. Qed.
Print Assumptions resize_threads.
Example resize_threads_case : resizable (mkR 2 2 3 3 Gray Lanczos3) [1; 2; 3; 4].
Proof. unfold resizable, zlen, bytes. cbn. repeat (split; [lia|]). split; [repeat (apply Forall_cons; [unfold is_byte; lia|]); apply Forall_nil|lia]. Qed.
(** ... so do the PNG filters that search row by row ... *)
Theorem filter_threads : forall data height sb bpp s, 0 < bpp -> 0 <= sb -> 0 <= height -> bytes data -> zlen data = sb * height ->
  exists out, apply_filters_parallel data height sb bpp s = Ok out /\
  (forall r, filters_threads data height sb bpp s r -> r = Ok out) /\ filters_threads data height sb bpp s (Ok out).
Proof. exact filters_valid. Qed.
Print Assumptions filter_threads.
(** ... and the JPEG coefficients: both the nested loops and every run of the threads give
    the blocks of the three components, in coding order. *)
Theorem jpeg_threads : forall q data o, valid_args data o -> exists mcus, all_mcus q data o = Ok mcus /\
  let c := (comp_blocks mcus 0, comp_blocks mcus 1, comp_blocks mcus 2) in
  coefficients_sequential q data o = Ok c /\ (forall r, coefficients_threads q data o r -> r = Ok c) /\ coefficients_threads q data o (Ok c).
Proof. exact coefficients_valid. Qed.
Print Assumptions jpeg_threads.
(** an interleaving that is none of the tasks one after the other *)
Example schedule_case : schedule (row_tasks 2 [[7; 8]; [9; 10]]) [(2%nat, 9); (0%nat, 7); (3%nat, 10); (1%nat, 8)] /\
  run_writes [(2%nat, 9); (0%nat, 7); (3%nat, 10); (1%nat, 8)] [0; 0; 0; 0] = [7; 8; 9; 10].
Proof.
  split; [|reflexivity]. apply (sch_step [[(0%nat, 7); (1%nat, 8)]] (2%nat, 9) [(3%nat, 10)] []). apply (sch_step [] (0%nat, 7) [(1%nat, 8)] [[(3%nat, 10)]]).
  apply (sch_step [[(1%nat, 8)]] (3%nat, 10) [] []). apply (sch_step [] (1%nat, 8) [] [[]]). apply sch_done. repeat constructor.
Qed.
