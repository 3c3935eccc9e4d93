(** Restart markers of JPEG files. *)
From Verif Require Import Base BitsModel PngFilterModel PngPaletteModel PngPackProofs JpegBaseModel JpegHuffModel JpegEncModel MsbSpec MsbProofs JpegSpec JpegEncProofs JpegFileSpec JpegProgSpec JpegImgSpec JpegMcuProofs JpegApi JpegSizeSpec JpegSize JpegRestartSpec.

Lemma markers_stuffed seg : forall l rest, unstuff seg = Some l -> markers (seg ++ rest) = markers rest.
Proof.
  remember (length seg) as n eqn:En. revert seg En. induction n as [n IH] using lt_wf_ind. intros seg -> l rest H.
  destruct (unstuff_inv seg l H) as [[-> _]|[(r & y & -> & -> & E)|(b & r & y & N & -> & -> & E)]].
  - reflexivity.
  - cbn [app markers]. change (255 =? 255) with true. change (0 =? 0) with true. cbv iota. apply (IH (length r) ltac:(cbn [length]; lia) r eq_refl y rest E).
  - cbn [app markers]. destruct (Z.eqb_spec b 255); [contradiction|]. apply (IH (length r) ltac:(cbn [length]; lia) r eq_refl y rest E).
Qed.
Lemma markers_segment seg bits rest : segment seg bits -> markers (seg ++ rest) = markers rest.
Proof. intros (_ & l & U & _). apply (markers_stuffed seg l rest U). Qed.
Lemma scan_markers T ivs : forall idx out, 0 <= idx < 8 -> scan_code T idx ivs out ->
  markers out = map (fun k => 208 + (idx + Z.of_nat k) mod 8) (seq 0 (length ivs - 1)).
Proof.
  induction ivs as [|iv r IH]; intros idx out Hi H; [inversion H|].
  inversion H as [? ? bits seg H1 H2|? ? bits seg ? o2 H1 H2 H3]; subst.
  - rewrite <- (app_nil_r out). rewrite (markers_segment _ _ _ H2). reflexivity.
  - rewrite (markers_segment _ _ _ H2). cbn [app markers]. change (255 =? 255) with true. cbv iota. destruct (Z.eqb_spec (208 + idx) 0); [lia|].
    pose proof (Z.mod_pos_bound (idx + 1) 8 ltac:(lia)) as B. rewrite (IH _ _ B H3).
    assert (r <> []) as N by (intros ->; inversion H3). cbn [length]. replace (S (length r) - 1)%nat with (S (length r - 1)) by (destruct r; [contradiction|cbn [length]; lia]).
    cbn [seq map]. rewrite <- seq_shift, map_map. f_equal; [rewrite Z.add_0_r, Z.mod_small by lia; reflexivity|].
    apply map_ext. intros k. rewrite Zplus_mod_idemp_l. f_equal. f_equal. lia.
Qed.

Theorem baseline_restarts e data o : valid_args data o -> dctq_ok (je_dctq e) -> jo_prog o = false ->
  exists t scan, jencode e data o = Ok (baseline_file o (tabs_of t 0) (tabs_of t 1) scan) /\
    markers scan = match jo_restart o with Some i => restart_markers (mcus_across o * mcus_down o) i | None => [] end.
Proof.
  intros V HQ HP. destruct (jencode_baseline e data o V HQ HP) as (t & scan & E & HT & SC). exists t, scan. split; [exact E|].
  rewrite (scan_markers _ _ 0 _ ltac:(lia) SC), map_length. destruct (image_mcus_ok _ data o V HQ) as (_ & L & _).
  destruct V as (_ & _ & _ & _ & _ & _ & HR). destruct (jo_restart o) as [i|]; [|reflexivity]. cbn [intervals]. unfold restart_markers, pieces.
  pose proof (chunks_length (Z.to_nat i) (image_mcus (je_dctq e) data o) ltac:(lia)) as C. rewrite L, Z2Nat.id in C by lia. rewrite <- C. unfold zlen.
  replace (Z.to_nat (Z.of_nat (length (chunks (Z.to_nat i) (image_mcus (je_dctq e) data o))) - 1)) with (length (chunks (Z.to_nat i) (image_mcus (je_dctq e) data o)) - 1)%nat by lia.
  reflexivity.
Qed.
Lemma Forall2_len {A B} (R : A -> B -> Prop) l m : Forall2 R l m -> length l = length m.
Proof. induction 1; cbn [length]; congruence. Qed.
Theorem progressive_restarts e data o : valid_args data o -> quantisers_ok e -> jo_prog o = true ->
  exists t segs, jencode e data o = Ok (progressive_file o (tabs_of t 0) (tabs_of t 1) segs) /\ length segs = 7%nat /\ Forall (fun seg => markers seg = []) segs.
Proof.
  intros V [Q1 Q2] HP. destruct (jencode_progressive e data o _ V Q1 HP eq_refl ltac:(destruct (jo_trellis o); assumption)) as (t & segs & E & _ & F).
  exists t, segs. split; [exact E|]. split; [symmetry; exact (Forall2_len _ _ _ F)|].
  assert (forall (sc : list (Z * Z * Z)) sg R, Forall2 (fun s seg => let '(c, ss, se) := s in exists bits, segment seg bits /\ R c ss se bits) sc sg -> Forall (fun seg => markers seg = []) sg) as K.
  { induction 1 as [|[[c ss] se] seg sc sg (bits & S & _) _ IH]; [constructor|]. constructor; [|exact IH]. rewrite <- (app_nil_r seg). exact (markers_segment _ _ _ S). }
  exact (K prog_script segs _ F).
Qed.
(** two gray blocks and an interval of one *)
Definition two_blocks (restart : Z) (prog : bool) : jopts := mkjo 16 8 Gray 75 S444 (Some restart) false prog false.
Lemma two_blocks_valid r prog : 1 <= r <= 65535 -> valid_args (repeat 100 128) (two_blocks r prog).
Proof.
  intros Hr. unfold valid_args, two_blocks. cbn [jo_w jo_h jo_quality jo_ct jo_restart]. split; [lia|]. split; [lia|]. split; [lia|].
  split; [apply Forall_forall; intros x Hx; apply repeat_spec in Hx; subst x; unfold is_byte; lia|]. split; [reflexivity|]. split; [left; reflexivity|exact Hr].
Qed.
Theorem progressive_restarts_missing e : quantisers_ok e -> exists data o i t segs, valid_args data o /\ jo_prog o = true /\ jo_restart o = Some i /\
  jencode e data o = Ok (progressive_file o (tabs_of t 0) (tabs_of t 1) segs) /\
  restart_markers (pieces (jo_w o) 8 * pieces (jo_h o) 8) i <> [] /\ markers (nth 0 segs []) = [].
Proof.
  intros Q. destruct (progressive_restarts e _ _ (two_blocks_valid 1 true ltac:(lia)) Q eq_refl) as (t & segs & E & L & F).
  exists (repeat 100 128), (two_blocks 1 true), 1, t, segs. split; [apply two_blocks_valid; lia|]. split; [reflexivity|]. split; [reflexivity|]. split; [exact E|].
  split; [vm_compute; discriminate|]. destruct segs as [|s r]; [discriminate L|]. apply Forall_cons_iff in F as [F _]. exact F.
Qed.
