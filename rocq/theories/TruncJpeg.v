(** Proofs for C85: cut-off JPEG files. *)
From Verif Require Import Base Lz77Model PngFilterModel PngPaletteModel JpegBaseModel JpegDecModel JpegDecSpec JpegAnySpec JpegAnyEx TruncProofs.
Open Scope Z_scope.

(** ** Markers *)
(** [c] is a marker segment, with what may precede it *)
Definition is_marker (c : list Z) (m : Z) (seg : list Z) : Prop :=
  (forall z, read_marker (c ++ z) = Ok (m, seg, z)) /\ (forall q y, q ++ y = c -> y <> [] -> read_marker q = Err EInvalidDecode).
(** junk, then FF bytes: the part before a marker *)
Fixpoint all_ff (l : list Z) : Prop := match l with [] => True | b :: r => b = 255 /\ all_ff r end.
Fixpoint no_ff (l : list Z) : Prop := match l with [] => True | b :: r => b <> 255 /\ no_ff r end.
Lemma to_ff_split l : exists j, no_ff j /\ l = j ++ skip_to_ff l /\ (skip_to_ff l = [] \/ exists r, skip_to_ff l = 255 :: r).
Proof.
  induction l as [|b l (j & N & E & S)]; [exists []; cbn; auto|]. cbn [skip_to_ff]. destruct (Z.eqb_spec b 255) as [->|Nb].
  - exists []. split; [exact I|]. split; [reflexivity|right; exists l; reflexivity].
  - exists (b :: j). split; [cbn; auto|]. split; [cbn [app]; f_equal; exact E|exact S].
Qed.
Lemma ff_split l : exists j, all_ff j /\ l = j ++ skip_ff l /\ (skip_ff l = [] \/ exists b r, b <> 255 /\ skip_ff l = b :: r).
Proof.
  induction l as [|b l (j & N & E & S)]; [exists []; cbn; auto|]. cbn [skip_ff]. destruct (Z.eqb_spec b 255) as [->|Nb].
  - exists (255 :: j). split; [cbn; auto|]. split; [cbn [app]; f_equal; exact E|exact S].
  - exists []. split; [exact I|]. split; [reflexivity|right; exists b, l; auto].
Qed.
Lemma skip_no_ff j l : no_ff j -> skip_to_ff (j ++ l) = skip_to_ff l.
Proof. induction j as [|b j IH]; cbn [app skip_to_ff no_ff]; [auto|]. intros (N & H). destruct (Z.eqb_spec b 255); [contradiction|auto]. Qed.
Lemma skip_all_ff j l : all_ff j -> skip_ff (j ++ l) = skip_ff l.
Proof. induction j as [|b j IH]; cbn [app skip_ff all_ff]; [auto|]. intros (-> & H). cbn. auto. Qed.
Lemma no_ff_app a b : no_ff (a ++ b) -> no_ff a.
Proof. induction a as [|x a IH]; cbn; [auto|]. intros (H & K). auto. Qed.
Lemma all_ff_app a b : all_ff (a ++ b) -> all_ff a.
Proof. induction a as [|x a IH]; cbn; [auto|]. intros (H & K). auto. Qed.
(** the position of a marker *)
Lemma place j k m z : no_ff j -> all_ff (255 :: k) -> m <> 255 -> skip_ff (skip_to_ff (j ++ (255 :: k) ++ m :: z)) = m :: z.
Proof. intros J K M. rewrite skip_no_ff by exact J. cbn [app skip_to_ff]. cbn. rewrite skip_all_ff by apply K. cbn [skip_ff]. destruct (Z.eqb_spec m 255); [contradiction|reflexivity]. Qed.
Lemma place_cut j k q y : no_ff j -> all_ff k -> q ++ y = j ++ k -> skip_ff (skip_to_ff q) = [].
Proof.
  intros J K E. destruct (prefix_cases _ _ _ _ E) as [(t & -> & T)|(t & Nt & T)].
  - rewrite skip_no_ff by exact J. subst k. apply all_ff_app in K. destruct t as [|b t]; [reflexivity|]. cbn [skip_to_ff]. destruct K as (-> & K). cbn. rewrite <- (app_nil_r t), skip_all_ff by exact K. reflexivity.
  - subst j. apply no_ff_app in J. rewrite <- (app_nil_r q), skip_no_ff by exact J. reflexivity.
Qed.
Lemma marker_split data m seg rest : read_marker data = Ok (m, seg, rest) -> exists c, data = c ++ rest /\ is_marker c m seg.
Proof.
  intros E. destruct (to_ff_split data) as (j & J & Ej & Sj). destruct (ff_split (skip_to_ff data)) as (k & K & Ek & Sk). unfold read_marker in E.
  destruct Sk as [Sk|(b & r & Nb & Sk)]; [rewrite Sk in E; discriminate|]. rewrite Sk in E.
  destruct Sj as [Sj|(r0 & Sj)]; [rewrite Sj in Sk; discriminate|].
  assert (exists k', k = 255 :: k') as (k' & ->). { rewrite Sk, Sj in Ek. destruct k as [|a k']; cbn in Ek; [congruence|]. exists k'. destruct K as (-> & _). reflexivity. }
  rewrite Sk in Ek. rewrite Ek in Ej. clear Ek Sk Sj.
  destruct ((b =? 216) || (b =? 217) || ((208 <=? b) && (b <=? 215))) eqn:Q.
  - assert (b = m /\ [] = seg /\ r = rest) as (-> & <- & ->) by (split; [|split]; congruence). exists (j ++ (255 :: k') ++ [m]). split; [rewrite Ej, <- !app_assoc; reflexivity|]. split.
    + intros z. unfold read_marker. rewrite <- !app_assoc. change ([m] ++ z) with (m :: z). rewrite place by assumption. rewrite Q. reflexivity.
    + intros q y Eq Ny. unfold read_marker. rewrite app_assoc in Eq. destruct (prefix_cases _ _ _ _ Eq) as [(t & -> & T)|(t & Nt & T)].
      * destruct t as [|a t]; [|destruct t; [destruct y; [congruence|discriminate T]|discriminate T]]. rewrite app_nil_r. rewrite (place_cut j (255 :: k') _ [] J K); [reflexivity|]. apply app_nil_r.
      * rewrite (place_cut j (255 :: k') _ t J K T). reflexivity.
  - destruct r as [|a [|b' r']]; try discriminate. destruct ((be16 a b' <? 2) || (be16 a b' - 2 >? zlen r')) eqn:L; [discriminate|].
    assert (b = m /\ firstn (Z.to_nat (be16 a b' - 2)) r' = seg /\ skipn (Z.to_nat (be16 a b' - 2)) r' = rest) as (-> & Es & Er) by (split; [|split]; congruence).
    assert (zlen seg = be16 a b' - 2) as Ls by (rewrite <- Es; unfold zlen in *; rewrite firstn_length; lia).
    exists (j ++ (255 :: k') ++ m :: a :: b' :: seg). split; [rewrite Ej, <- !app_assoc; cbn [app]; rewrite <- Es, <- Er, firstn_skipn; reflexivity|]. split.
    + intros z. unfold read_marker. rewrite <- !app_assoc. change ((m :: a :: b' :: seg) ++ z) with (m :: (a :: b' :: seg ++ z)). rewrite place by assumption. rewrite Q.
      replace ((be16 a b' <? 2) || (be16 a b' - 2 >? zlen (seg ++ z))) with false by (rewrite zlen_app; pose proof (zlen_nonneg z); lia).
      rewrite <- Ls. replace (Z.to_nat (zlen seg)) with (length seg) by (unfold zlen; lia). rewrite firstn_app, skipn_app, Nat.sub_diag, firstn_all, skipn_all. cbn [firstn skipn app]. rewrite app_nil_r. reflexivity.
    + intros q y Eq Ny. unfold read_marker. rewrite app_assoc in Eq. destruct (prefix_cases _ _ _ _ Eq) as [(t & -> & T)|(t & Nt & T)].
      * destruct t as [|m' t]; [rewrite app_nil_r; rewrite (place_cut j (255 :: k') _ [] J K); [reflexivity|apply app_nil_r]|]. cbn [app] in T. injection T as -> T. rewrite <- app_assoc, place by assumption. rewrite Q.
        destruct t as [|a1 [|b1 t]]; try reflexivity. cbn [app] in T. injection T as -> -> T.
        replace ((be16 a b' <? 2) || (be16 a b' - 2 >? zlen t)) with true; [reflexivity|]. rewrite <- T, zlen_app in Ls. destruct y as [|y0 y]; [congruence|]. rewrite zlen_cons in Ls. pose proof (zlen_nonneg y). lia.
      * rewrite (place_cut j (255 :: k') _ t J K T). reflexivity.
Qed.
(** ** The headers of a file that decodes *)
Lemma scan_size st data im : decode_scan st data = Ok im -> ji_w im = js_w st /\ ji_h im = js_h st /\ ji_ct im = match js_comps st with [_] => Gray | _ => Rgb end.
Proof.
  unfold decode_scan. destruct (flow_fold _ _ _) as [fl| | |]; cbn [rbind]; try discriminate.
  destruct (js_comps st) as [|c [|c' cs]].
  - destruct (ycbcr_to_rgb _ _ _ _ _ _); cbn [rbind]; try discriminate. intros [= <-]. auto.
  - destruct (get _ 0); cbn [rbind]; try discriminate. intros [= <-]. auto.
  - destruct (ycbcr_to_rgb _ _ _ _ _ _); cbn [rbind]; try discriminate. intros [= <-]. auto.
Qed.
Lemma loop_cut f : forall st data im, marker_loop f st data = Ok im ->
  exists p x st', data = p ++ x /\ (forall y f', (length p <= f')%nat -> marker_loop (S f') st (p ++ y) = decode_scan st' y) /\
    forall q y f', q ++ y = p -> y <> [] -> (length q <= f')%nat -> exists er, marker_loop (S f') st q = Err er.
Proof.
  induction f as [|f IH]; intros st data im E; [discriminate|]. cbn [marker_loop] in E. destruct (read_marker data) as [((m, seg), rest)| | |] eqn:M; cbn [rbind] in E; try discriminate.
  destruct (marker_split _ _ _ _ M) as (c & -> & C1 & C2).
  assert (1 <= length c)%nat as Lc. { destruct c; [|cbn; lia]. specialize (C1 []). discriminate C1. }
  (* every other segment changes the state and goes on *)
  assert (forall st1 : jstate, (forall f' z, marker_loop (S f') st (c ++ z) = marker_loop f' st1 z) -> marker_loop f st1 rest = Ok im ->
    exists p x st', c ++ rest = p ++ x /\ (forall y f', (length p <= f')%nat -> marker_loop (S f') st (p ++ y) = decode_scan st' y) /\
    forall q y f', q ++ y = p -> y <> [] -> (length q <= f')%nat -> exists er, marker_loop (S f') st q = Err er) as Go.
  { intros st1 Step E1. destruct (IH _ _ _ E1) as (p & x & st' & -> & H1 & H2). exists (c ++ p), x, st'. split; [apply app_assoc|]. split.
    - intros y f' L. rewrite app_length in L. rewrite <- app_assoc, Step. destruct f' as [|f']; [lia|]. apply H1. lia.
    - intros q y f' Eq Ny L. destruct (prefix_cases _ _ _ _ Eq) as [(t & -> & T)|(t & Nt & T)].
      + rewrite app_length in L. rewrite Step. destruct f' as [|f']; [lia|]. apply (H2 t y f' T Ny). lia.
      + exists EInvalidDecode. cbn [marker_loop]. rewrite (C2 q t T Nt). reflexivity. }
  destruct (m =? 192) eqn:E1.
  { destruct (parse_sof0 st seg) as [st1| | |] eqn:P; cbn [rbind] in E; try discriminate. apply (Go st1); [|exact E]. intros f' z. cbn [marker_loop]. rewrite C1. cbn [rbind]. rewrite E1, P. reflexivity. }
  destruct (m =? 194) eqn:E2; [discriminate|].
  destruct (m =? 196) eqn:E3.
  { destruct (parse_dht _ st seg) as [st1| | |] eqn:P; cbn [rbind] in E; try discriminate. apply (Go st1); [|exact E]. intros f' z. cbn [marker_loop]. rewrite C1. cbn [rbind]. rewrite E1, E2, E3, P. reflexivity. }
  destruct (m =? 219) eqn:E4.
  { destruct (parse_dqt _ st seg) as [st1| | |] eqn:P; cbn [rbind] in E; try discriminate. apply (Go st1); [|exact E]. intros f' z. cbn [marker_loop]. rewrite C1. cbn [rbind]. rewrite E1, E2, E3, E4, P. reflexivity. }
  destruct (m =? 221) eqn:E5.
  { destruct (parse_dri st seg) as [st1| | |] eqn:P; cbn [rbind] in E; try discriminate. apply (Go st1); [|exact E]. intros f' z. cbn [marker_loop]. rewrite C1. cbn [rbind]. rewrite E1, E2, E3, E4, E5, P. reflexivity. }
  destruct (m =? 218) eqn:E6.
  { destruct (parse_sos st seg) as [st1| | |] eqn:P; cbn [rbind] in E; try discriminate. exists c, rest, st1. split; [reflexivity|]. split.
    - intros y f' L. cbn [marker_loop]. rewrite C1. cbn [rbind]. rewrite E1, E2, E3, E4, E5, E6, P. reflexivity.
    - intros q y f' Eq Ny L. exists EInvalidDecode. cbn [marker_loop]. rewrite (C2 q y Eq Ny). reflexivity. }
  destruct (m =? 217) eqn:E7; [discriminate|].
  apply (Go st); [|exact E]. intros f' z. cbn [marker_loop]. rewrite C1. cbn [rbind]. rewrite E1, E2, E3, E4, E5, E6, E7. reflexivity.
Qed.
Lemma jpeg_cut file im : decode_jpeg file = Ok im ->
  exists p x, file = p ++ x /\ (forall y im', decode_jpeg (p ++ y) = Ok im' -> ji_w im' = ji_w im /\ ji_h im' = ji_h im /\ ji_ct im' = ji_ct im) /\
    forall q y, q ++ y = p -> y <> [] -> exists er, decode_jpeg q = Err er.
Proof.
  intros E. unfold decode_jpeg in E. destruct file as [|a [|b rest]]; try discriminate. destruct ((a =? 255) && (b =? 216)) eqn:Q; [|discriminate].
  destruct (loop_cut _ _ _ _ E) as (p & x & st' & -> & H1 & H2). exists (a :: b :: p), x. split; [reflexivity|]. split.
  - intros y im' E'. cbn [app] in E'. unfold decode_jpeg in E'. rewrite Q, H1 in E' by (rewrite app_length; lia). rewrite H1 in E by (rewrite app_length; lia).
    apply scan_size in E. apply scan_size in E'. destruct E as (-> & -> & ->). destruct E' as (-> & -> & ->). auto.
  - intros q y Eq Ny. destruct q as [|a' [|b' q]]; try (eexists; reflexivity). cbn [app] in Eq. injection Eq as -> -> Eq. unfold decode_jpeg. rewrite Q. exact (H2 q y (length q) Eq Ny (le_n _)).
Qed.
(** ** Cut at the start of the scan *)
Lemma jpeg_cut_accepted : exists M f B T Q q y im im', conforming_jpeg M f B T Q /\ file_bytes f = q ++ y /\ y <> [] /\
  decode_jpeg (file_bytes f) = Ok im /\ decode_jpeg q = Ok im' /\ im' <> im.
Proof.
  exists 1200, ex_file, ex_blocks, (fun _ => ex_tabs), ex_quant, (firstn 296 (file_bytes ex_file)), (skipn 296 (file_bytes ex_file)).
  assert (exists im im', decode_jpeg (file_bytes ex_file) = Ok im /\ decode_jpeg (firstn 296 (file_bytes ex_file)) = Ok im' /\ znth (ji_pixels im) 0 = 138 /\ znth (ji_pixels im') 0 = 0) as (im & im' & E & E' & P & P').
  { do 2 eexists. split; [vm_compute; reflexivity|]. split; [vm_compute; reflexivity|]. split; reflexivity. }
  exists im, im'. split; [exact ex_conforming|]. split; [symmetry; apply firstn_skipn|]. split; [vm_compute; discriminate|]. split; [exact E|]. split; [exact E'|].
  intros ->. congruence.
Qed.
