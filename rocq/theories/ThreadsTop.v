(** Resizing, PNG filtering and JPEG coefficients with threads. *)
From Verif Require Import Base Lz77Model PngFilterModel PngPaletteModel PngFilterProofs F32Model ResizeModel ResizeSpec ResizeTop
  JpegBaseModel JpegEncModel JpegSpec JpegImgSpec JpegMcuProofs ThreadsModel ThreadsProofs.

Lemma rows_split {A} n (f : Z -> res (list A)) out : rows n f = Ok out -> exists l, map_res f (idxs (Z.to_nat n)) = Ok l /\ out = concat l.
Proof. unfold rows. destruct (map_res f (idxs (Z.to_nat n))) as [l| | |]; try discriminate. cbn [rbind]. intros E. injection E as <-. exists l. auto. Qed.
Lemma map_res_each {A B} (f : A -> res B) (P : B -> Prop) l m : map_res f l = Ok m -> (forall a b, f a = Ok b -> P b) -> Forall P m.
Proof.
  revert m. induction l as [|a l IH]; intros m E H; cbn [map_res] in E; [injection E as <-; constructor|].
  apply rbind_ok in E as (y & Ey & E). apply rbind_ok in E as (ys & Es & E). injection E as <-. constructor; [eapply H; exact Ey|]. apply IH; auto.
Qed.
Lemma resample_len at_ bpp con r : resample at_ bpp con = Ok r -> length r = Z.to_nat bpp.
Proof. intros E. unfold resample in E. apply map_res_length in E. rewrite E. apply idxs_length. Qed.
(** ** Lanczos *)
Section Passes.
  Variables (sin : f32 -> f32) (data : list Z) (sw sh dw dh bpp : Z).
  Hypothesis (Hsh : 1 <= sh) (Hdw : 1 <= dw) (Hdh : 1 <= dh) (Hb : 1 <= bpp).
  Variable out : list Z.
  Hypothesis HO : resize_lanczos3 sin data sw sh dw dh bpp = Ok out.
  Lemma passes : exists hc vc tl ol, precompute_contributions sin sw dw = Ok hc /\ precompute_contributions sin sh dh = Ok vc /\
    map_res (h_row data sw bpp hc) (idxs (Z.to_nat sh)) = Ok tl /\ map_res (v_row (concat tl) dw bpp vc) (idxs (Z.to_nat dh)) = Ok ol /\ out = concat ol /\
    Forall (fun r => length r = Z.to_nat (dw * bpp)) tl /\ Forall (fun r => length r = Z.to_nat (dw * bpp)) ol.
  Proof.
    pose proof HO as E. unfold resize_lanczos3 in E. apply rbind_ok in E as (hc & Eh & E). apply rbind_ok in E as (vc & Ev & E). apply rbind_ok in E as (temp & Et & E).
    apply rows_split in Et as (tl & Et & ->). apply rows_split in E as (ol & E & ->). exists hc, vc, tl, ol. split; [exact Eh|]. split; [exact Ev|]. split; [exact Et|]. split; [exact E|].
    split; [reflexivity|]. assert (LH : length hc = Z.to_nat dw) by (unfold precompute_contributions in Eh; apply map_res_length in Eh; rewrite Eh; apply idxs_length).
    split.
    - apply (map_res_each _ _ _ _ Et). intros y r Er. apply rbind_ok in Er as (row & _ & Er). apply rbind_ok in Er as (l & El & Er). injection Er as <-.
      rewrite (concat_len (Z.to_nat bpp)); [|apply (map_res_each _ _ _ _ El); intros c x; apply resample_len].
      apply map_res_length in El. rewrite El, LH. rewrite Z2Nat.inj_mul by lia. reflexivity.
    - apply (map_res_each _ _ _ _ E). intros y r Er. apply rbind_ok in Er as (con & _ & Er). apply rows_split in Er as (l & El & ->).
      rewrite (concat_len (Z.to_nat bpp)); [|apply (map_res_each _ _ _ _ El); intros c x; apply resample_len].
      apply map_res_length in El. rewrite El, idxs_length. rewrite Z2Nat.inj_mul by lia. reflexivity.
  Qed.
  Lemma passes_threads : (forall r, lanczos_threads sin data sw sh dw dh bpp r -> r = Ok out) /\ lanczos_threads sin data sw sh dw dh bpp (Ok out).
  Proof.
    destruct passes as (hc & vc & tl & ol & Eh & Ev & Et & Eo & -> & Ft & Fo).
    assert (Lt : length tl = Z.to_nat sh) by (apply map_res_length in Et; rewrite Et; apply idxs_length).
    assert (Lo : length ol = Z.to_nat dh) by (apply map_res_length in Eo; rewrite Eo; apply idxs_length).
    assert (S0 : (0 < Z.to_nat (dw * bpp))%nat) by nia.
    assert (B1 : length (repeat 0 (Z.to_nat (sh * dw * bpp))) = (length tl * Z.to_nat (dw * bpp))%nat) by (rewrite repeat_length, Lt; nia).
    assert (B2 : length (repeat 0 (Z.to_nat (dh * dw * bpp))) = (length ol * Z.to_nat (dw * bpp))%nat) by (rewrite repeat_length, Lo; nia).
    rewrite <- Lt in Et. rewrite <- Lo in Eo. split.
    - intros r P. destruct P as [hc' vc' temp r Eh' Ev' P1 P2|hc' vc' Eh' Ev' P1|[C|C]]; try congruence.
      + rewrite Eh in Eh'. injection Eh' as <-. rewrite Ev in Ev'. injection Ev' as <-.
        pose proof (par_rows_one _ _ _ _ _ S0 B1 Et Ft P1) as X. injection X as ->. exact (par_rows_one _ _ _ _ _ S0 B2 Eo Fo P2).
      + rewrite Eh in Eh'. injection Eh' as <-. pose proof (par_rows_one _ _ _ _ _ S0 B1 Et Ft P1) as X. discriminate X.
    - apply (two_passes _ _ _ _ _ _ _ hc vc (concat tl)); [exact Eh|exact Ev|apply par_rows_some; assumption|apply par_rows_some; assumption].
  Qed.
End Passes.
Lemma lanczos_run sin data o out : resizable o data -> r_algo o = Lanczos3 -> resize sin data o = Ok out ->
  resize_lanczos3 sin data (r_sw o) (r_sh o) (r_dw o) (r_dh o) (bytes_per_pixel (r_ct o)) = Ok out.
Proof.
  intros R A E. destruct (accept o data R) as [U N]. unfold resize in E. rewrite (into_eq sin [] data o U), N in E. unfold run in E. rewrite A in E.
  destruct (resize_lanczos3 _ _ _ _ _ _ _); congruence.
Qed.
Lemma lanczos_any_order sin data o : resizable o data -> r_algo o = Lanczos3 -> exists out, resize sin data o = Ok out /\
  (forall r, lanczos_threads sin data (r_sw o) (r_sh o) (r_dw o) (r_dh o) (bytes_per_pixel (r_ct o)) r -> r = Ok out) /\
  lanczos_threads sin data (r_sw o) (r_sh o) (r_dw o) (r_dh o) (bytes_per_pixel (r_ct o)) (Ok out).
Proof.
  intros R A. destruct (sep_l sin) as (line & _ & _ & _ & H). destruct (H data o R A) as (out & E & _). exists out. split; [exact E|].
  pose proof R as (A1 & A2 & A3 & A4 & _). apply passes_threads; try lia; [destruct (r_ct o); cbn; lia|]. apply lanczos_run; assumption.
Qed.

(** ** PNG filters *)
Lemma filters_any_order data height row_bytes bpp s out : 0 <= row_bytes -> 0 <= height -> apply_filters_parallel data height row_bytes bpp s = Ok out ->
  (forall r, filters_threads data height row_bytes bpp s r -> r = Ok out) /\ filters_threads data height row_bytes bpp s (Ok out).
Proof.
  intros HR HH E. unfold apply_filters_parallel in E. apply rbind_ok in E as (rows & E & X). injection X as <-.
  assert (F : Forall (fun r => length r = Z.to_nat (row_bytes + 1)) rows).
  { apply (map_res_each _ _ _ _ E). intros y r Er. unfold parallel_row in Er. apply rbind_ok in Er as (row & _ & Er). apply rbind_ok in Er as (prev & _ & Er).
    apply rbind_ok in Er as (l & _ & Er). destruct (Z.eqb_spec (zlen l) (row_bytes + 1)) as [L|]; [|discriminate Er]. injection Er as <-. unfold zlen in L. lia. }
  assert (L : length rows = Z.to_nat height) by (apply map_res_length in E; rewrite E; apply idxs_length). rewrite <- L in E.
  assert (B : length (repeat 0 (Z.to_nat ((row_bytes + 1) * height))) = (length rows * Z.to_nat (row_bytes + 1))%nat) by (rewrite repeat_length, L; nia).
  assert (S0 : (0 < Z.to_nat (row_bytes + 1))%nat) by lia.
  split; [intros r P; exact (par_rows_one _ _ _ _ _ S0 B E F P)|]. apply par_rows_some; auto.
Qed.

Lemma filters_valid data height sb bpp s : 0 < bpp -> 0 <= sb -> 0 <= height -> bytes data -> zlen data = sb * height -> exists out, apply_filters_parallel data height sb bpp s = Ok out /\
  (forall r, filters_threads data height sb bpp s r -> r = Ok out) /\ filters_threads data height sb bpp s (Ok out).
Proof.
  intros Hb Hs Hh Hd Hl. destruct (parallel_rows_good bpp sb data s (Z.to_nat height) 0 (repeat 0 (Z.to_nat sb))) as (rows & E & _); auto; try lia.
  { apply repeat0_bytes. } { rewrite zlen_repeat; lia. } { reflexivity. }
  exists (concat rows). assert (A : apply_filters_parallel data height sb bpp s = Ok (concat rows)).
  { unfold apply_filters_parallel, idxs. change (map (fun k : nat => 0 + Z.of_nat k) (seq 0 (Z.to_nat height))) with (map Z.of_nat (seq 0 (Z.to_nat height))) in E. rewrite E. reflexivity. }
  split; [exact A|]. apply filters_any_order; auto.
Qed.

(** ** JPEG coefficients *)
Lemma map_get {A V} (f : A -> res V) items ms : map_res f items = Ok ms ->
  map_res (fun k => let* a := get items k in let* v := f a in Ok [v]) (idxs (length items)) = Ok (map (fun m => [m]) ms).
Proof.
  intros E. assert (L := map_res_length _ _ _ E). destruct items as [|a0 it]; [destruct ms; [reflexivity|discriminate L]|]. destruct ms as [|m0 ms']; [discriminate L|].
  set (items := a0 :: it) in *. set (ms := m0 :: ms') in *.
  rewrite (map_res_ok _ (fun k => [nth (Z.to_nat k) ms m0])).
  - f_equal. apply (nth_ext _ _ [m0] [m0]); [rewrite !map_length, idxs_length; auto|]. intros i Hi. rewrite map_length, idxs_length in Hi.
    rewrite (nth_indep _ [m0] ((fun k => [nth (Z.to_nat k) ms m0]) 0)) by (rewrite map_length, idxs_length; exact Hi).
    rewrite (map_nth (fun k => [nth (Z.to_nat k) ms m0])), idxs_nth by exact Hi. rewrite Nat2Z.id. rewrite (map_nth (fun m => [m]) ms m0 i). reflexivity.
  - intros k Hk. unfold idxs in Hk. apply in_map_iff in Hk as (i & <- & Hi). apply in_seq in Hi. rewrite Nat2Z.id.
    unfold get. destruct (Z.ltb_spec (Z.of_nat i) 0); [lia|]. rewrite Nat2Z.id.
    rewrite (nth_error_nth' items a0) by lia. cbn [rbind]. rewrite (map_res_nth f items ms i a0 m0 E) by lia. reflexivity.
Qed.
Lemma concat_single {A} (l : list A) : concat (map (fun m => [m]) l) = l.
Proof. induction l as [|a l IH]; [reflexivity|]. cbn [map concat app]. f_equal. exact IH. Qed.
Lemma par_map_one {A V} (f : A -> res V) items ms fresh r : map_res f items = Ok ms -> par_map f items fresh r -> r = Ok ms.
Proof.
  intros E [LF P]. pose proof (map_get f items ms E) as G. assert (L := map_res_length _ _ _ E).
  rewrite <- (concat_single ms). refine (par_rows_one 1 _ fresh (map (fun m => [m]) ms) r ltac:(lia) _ _ _ P); [rewrite map_length; lia|rewrite map_length, L; exact G|].
  apply Forall_forall. intros x Hx. apply in_map_iff in Hx as (m & <- & _). reflexivity.
Qed.
Lemma par_map_some {A V} (f : A -> res V) items ms : map_res f items = Ok ms -> exists fresh, par_map f items fresh (Ok ms).
Proof.
  intros E. pose proof (map_get f items ms E) as G. assert (L := map_res_length _ _ _ E). exists ms. split; [exact L|].
  rewrite <- (concat_single ms) at 2. apply par_rows_some; [lia|rewrite map_length; lia|rewrite map_length, L; exact G|].
  apply Forall_forall. intros x Hx. apply in_map_iff in Hx as (m & <- & _). reflexivity.
Qed.
Lemma map_res_app {A B} (f : A -> res B) a b ms : map_res f (a ++ b) = Ok ms -> exists m1 m2, map_res f a = Ok m1 /\ map_res f b = Ok m2 /\ ms = m1 ++ m2.
Proof.
  revert ms. induction a as [|x a IH]; intros ms E; [exists [], ms; auto|]. cbn [app map_res] in E. apply rbind_ok in E as (y & Ey & E). apply rbind_ok in E as (ys & Es & E). injection E as <-.
  destruct (IH ys Es) as (m1 & m2 & E1 & E2 & ->). exists (y :: m1), m2. cbn [map_res]. rewrite Ey. cbn [rbind]. rewrite E1. auto.
Qed.
Lemma inner_loop {A B C} (f : A -> res B) (h : C -> A) (push : coeffs -> B -> coeffs) xs : forall ms acc, map_res f (map h xs) = Ok ms ->
  fold_res (fun acc x => let* m := f (h x) in Ok (push acc m)) xs acc = Ok (fold_left push ms acc).
Proof.
  induction xs as [|x xs IH]; intros ms acc E; cbn [map map_res] in E; [injection E as <-; reflexivity|].
  apply rbind_ok in E as (y & Ey & E). apply rbind_ok in E as (ys & Es & E). injection E as <-. cbn [fold_res]. rewrite Ey. cbn [rbind fold_left]. apply IH. exact Es.
Qed.
Lemma outer_loop {A B} (f : A -> res B) (h : Z -> Z -> A) (push : coeffs -> B -> coeffs) xs ys : forall ms acc, map_res f (flat_map (fun y => map (h y) xs) ys) = Ok ms ->
  fold_res (fun acc y => fold_res (fun acc x => let* m := f (h y x) in Ok (push acc m)) xs acc) ys acc = Ok (fold_left push ms acc).
Proof.
  induction ys as [|y ys IH]; intros ms acc E; cbn [flat_map] in E; [injection E as <-; reflexivity|].
  apply map_res_app in E as (m1 & m2 & E1 & E2 & ->). cbn [fold_res]. rewrite (inner_loop f (h y) push xs m1 acc E1). cbn [rbind]. rewrite fold_left_app. apply IH. exact E2.
Qed.
Lemma push_all mcus : forall ys cbs crs, fold_left push_mcu mcus (ys, cbs, crs) = (ys ++ comp_blocks mcus 0, cbs ++ comp_blocks mcus 1, crs ++ comp_blocks mcus 2).
Proof.
  unfold comp_blocks. induction mcus as [|m mcus IH]; intros ys cbs crs; [cbn; rewrite !app_nil_r; reflexivity|]. cbn [fold_left concat push_mcu]. rewrite IH.
  rewrite !filter_app, !map_app, !app_assoc. reflexivity.
Qed.
Lemma coefficients_any_order q data o mcus : all_mcus q data o = Ok mcus -> let c := (comp_blocks mcus 0, comp_blocks mcus 1, comp_blocks mcus 2) in
  coefficients_sequential q data o = Ok c /\ (forall r, coefficients_threads q data o r -> r = Ok c) /\ coefficients_threads q data o (Ok c).
Proof.
  intros E c. unfold all_mcus in E. assert (P : fold_left push_mcu mcus ([], [], []) = c) by (rewrite push_all; reflexivity). split; [|split].
  - unfold coefficients_sequential. cbv zeta. rewrite <- P.
    apply (outer_loop (mcu_coefs q data o) (fun y x => (x * mcu_step o, y * mcu_step o)) push_mcu). exact E.
  - intros r T. destruct T as [fresh ms T|fresh T]; pose proof (par_map_one _ _ _ _ _ E T) as X; [|discriminate X]. injection X as ->. rewrite P. reflexivity.
  - destruct (par_map_some _ _ _ E) as (fresh & F). rewrite <- P. apply (ct_done q data o fresh). exact F.
Qed.
Lemma coefficients_valid q data o : valid_args data o -> exists mcus, all_mcus q data o = Ok mcus /\ let c := (comp_blocks mcus 0, comp_blocks mcus 1, comp_blocks mcus 2) in
  coefficients_sequential q data o = Ok c /\ (forall r, coefficients_threads q data o r -> r = Ok c) /\ coefficients_threads q data o (Ok c).
Proof. intros V. exists (image_mcus q data o). pose proof (all_mcus_ok q data o V) as E. split; [exact E|]. apply coefficients_any_order. exact E. Qed.
