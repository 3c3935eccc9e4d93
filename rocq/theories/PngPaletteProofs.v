(** Proofs about palette construction and reordering. *)
From Coq Require Import Permutation.
From Verif Require Import Base Lz77Model PngFilterModel PngPaletteModel PngSpec PngFilterProofs PngPackProofs.

Lemma nth_znth l i : nth (Z.to_nat i) l 0 = znth l i.
Proof. reflexivity. Qed.

Lemma fold_res_ind {A B} (f : B -> A -> res B) (I : list A -> B -> Prop) l : forall b0 done0,
  I done0 b0 ->
  (forall done x b, In x l -> I done b -> exists b', f b x = Ok b' /\ I (done ++ [x]) b') ->
  exists b', fold_res f l b0 = Ok b' /\ I (done0 ++ l) b'.
Proof.
  induction l as [|x l IH]; intros b0 done0 H0 Hs; cbn [fold_res].
  - exists b0. rewrite app_nil_r. auto.
  - destruct (Hs done0 x b0) as (b1 & E & H1); [left; auto|auto|]. rewrite E. cbn [rbind].
    destruct (IH b1 (done0 ++ [x])) as (b2 & E2 & H2); auto.
    { intros; apply Hs; auto. right; auto. }
    exists b2. rewrite <- app_assoc in H2. auto.
Qed.

(** ** Co-occurrence matrix *)
Definition M (m : list (list Z)) (i j : Z) : Z := znth (nth (Z.to_nat i) m []) j.
Definition zsum (l : list Z) : Z := fold_right Z.add 0 l.
Lemma zsum_app a b : zsum (a ++ b) = zsum a + zsum b.
Proof. unfold zsum. induction a as [|x a IH]; cbn [app fold_right]; [lia|]. rewrite IH; lia. Qed.
Lemma zsum_perm a b : Permutation a b -> zsum a = zsum b.
Proof. unfold zsum. induction 1; cbn [fold_right]; lia. Qed.
Lemma zsum_nonneg l : Forall (fun v => 0 <= v) l -> 0 <= zsum l.
Proof. unfold zsum. induction 1; cbn [fold_right]; lia. Qed.
Lemma zsum_upd l : forall i v, (i < length l)%nat -> zsum (upd l i v) = zsum l - nth i l 0 + v.
Proof.
  induction l as [|x l IH]; intros i v Hi; [cbn in Hi; lia|].
  destruct i; cbn [upd zsum fold_right nth]; [lia|]. cbn [length] in Hi.
  fold (zsum (upd l i v)) (zsum l). rewrite IH by lia. lia.
Qed.
Lemma nth_le_zsum l i : Forall (fun v => 0 <= v) l -> nth i l 0 <= zsum l.
Proof.
  intros H. revert i. induction H as [|x l Hx Hl IH]; intros i; [destruct i; cbn; lia|].
  destruct i; cbn [nth zsum fold_right]; fold (zsum l).
  - pose proof (zsum_nonneg l Hl). lia.
  - specialize (IH i). lia.
Qed.

Section Matrix.
Variable n : Z.
Hypothesis Hn : 0 <= n.

Record mshape (m : list (list Z)) : Prop := {
  ms_len : zlen m = n;
  ms_row : Forall (fun r => zlen r = n /\ Forall (fun v => 0 <= v) r) m }.
Record minv (B : Z) (m : list (list Z)) : Prop := {
  mi_shape : mshape m;
  mi_sum : Forall (fun r => zsum r <= B) m;
  mi_sym : forall i j, 0 <= i < n -> 0 <= j < n -> M m i j = M m j i }.

Lemma ms_nth m i : mshape m -> 0 <= i < n ->
  zlen (nth (Z.to_nat i) m []) = n /\ Forall (fun v => 0 <= v) (nth (Z.to_nat i) m []).
Proof.
  intros [L R] Hi. rewrite Forall_forall in R. apply R. apply nth_In. unfold zlen in L. lia.
Qed.
Lemma M_nonneg m i j : mshape m -> 0 <= i < n -> 0 <= M m i j.
Proof.
  intros H Hi. destruct (ms_nth m i H Hi) as (_ & F). unfold M, znth.
  apply (Forall_nth_d (fun v => 0 <= v)); auto. lia.
Qed.

Lemma mat_inc_ok B m i j : mshape m -> Forall (fun r => zsum r <= B) m -> B + 1 < 2 ^ 32 ->
  0 <= i < n -> 0 <= j < n ->
  exists m', mat_inc m i j = Ok m' /\ mshape m' /\
    (forall k, 0 <= k < n -> zsum (nth (Z.to_nat k) m' []) = zsum (nth (Z.to_nat k) m []) + (if k =? i then 1 else 0)) /\
    (forall i' j', 0 <= i' < n -> 0 <= j' < n ->
       M m' i' j' = M m i' j' + if (i' =? i) && (j' =? j) then 1 else 0).
Proof.
  intros Hs HB HB2 Hi Hj. destruct (ms_nth m i Hs Hi) as (L & F). destruct (Hs) as [Lm Rm].
  set (r := nth (Z.to_nat i) m []) in *.
  unfold mat_inc. rewrite (get_ok m i []) by lia. cbn [rbind]. fold r.
  rewrite get_znth by lia. cbn [rbind].
  assert (znth r j <= B) as Hle.
  { pose proof (nth_le_zsum r (Z.to_nat j) F). rewrite Forall_forall in HB.
    specialize (HB r). unfold znth. enough (zsum r <= B) by lia. apply HB. apply nth_In. unfold zlen in Lm. lia. }
  unfold add32. replace (znth r j + 1 <? 2 ^ 32) with true by lia. cbn [rbind].
  eexists; split; [reflexivity|].
  assert (0 <= znth r j) as H0 by (unfold znth; apply (Forall_nth_d (fun v => 0 <= v)); auto; lia).
  assert (Z.to_nat i < length m)%nat as Him by (unfold zlen in Lm; lia).
  assert (Z.to_nat j < length r)%nat as Hjr by (unfold zlen in L; lia).
  split; [|split].
  - constructor.
    + unfold zlen. rewrite upd_length. exact Lm.
    + apply Forall_upd; auto. split; [unfold zlen; rewrite upd_length; exact L|].
      apply Forall_upd; auto. lia.
  - intros k Hk. rewrite nth_upd by auto.
    destruct (Z.eqb_spec k i) as [->|].
    + rewrite Nat.eqb_refl. rewrite zsum_upd by auto. fold (znth r j). fold r. lia.
    + replace (Z.to_nat k =? Z.to_nat i)%nat with false by lia. lia.
  - intros i' j' Hi' Hj'. unfold M. rewrite nth_upd by auto.
    destruct (Z.eqb_spec i' i) as [->|].
    + rewrite Nat.eqb_refl. cbn [andb].
      unfold znth at 1. rewrite nth_upd by auto. fold r.
      destruct (Z.eqb_spec j' j) as [->|].
      * rewrite Nat.eqb_refl. reflexivity.
      * replace (Z.to_nat j' =? Z.to_nat j)%nat with false by lia. unfold znth. lia.
    + replace (Z.to_nat i' =? Z.to_nat i)%nat with false by lia. cbn [andb]. lia.
Qed.

Lemma sums_nth B m : mshape m ->
  Forall (fun r => zsum r <= B) m <-> forall k, 0 <= k < n -> zsum (nth (Z.to_nat k) m []) <= B.
Proof.
  intros [L _]. split.
  - intros F k Hk. rewrite Forall_forall in F. apply F, nth_In. unfold zlen in L; lia.
  - intros H. apply Forall_forall. intros r Hr. apply In_nth with (d := []) in Hr as (k & Hk & <-).
    specialize (H (Z.of_nat k)). rewrite Nat2Z.id in H. apply H. unfold zlen in L; lia.
Qed.

Definition mle (m m' : list (list Z)) : Prop := forall i j, 0 <= i < n -> 0 <= j < n -> M m i j <= M m' i j.
Lemma mle_refl m : mle m m.
Proof. unfold mle; intros; lia. Qed.
Lemma mle_trans a b c : mle a b -> mle b c -> mle a c.
Proof. unfold mle; intros H1 H2 i j Hi Hj. specialize (H1 i j Hi Hj). specialize (H2 i j Hi Hj). lia. Qed.

Lemma bump_ok B m a b : minv B m -> B + 2 < 2 ^ 32 -> 0 <= a < n -> 0 <= b < n ->
  exists m', bump_pair n m a b = Ok m' /\ minv (B + 2) m' /\ mle m m' /\ 0 < M m' a b.
Proof.
  intros [Hs HS Hsym] HB Ha Hb. unfold bump_pair. replace (b <? n) with true by lia.
  destruct (mat_inc_ok B m a b) as (m1 & -> & S1 & R1 & E1); auto; try lia. cbn [rbind].
  assert (Forall (fun r => zsum r <= B + 1) m1) as HS1.
  { apply (sums_nth (B + 1) m1 S1). intros k Hk. rewrite R1 by auto.
    apply (proj1 (sums_nth B m Hs)) with (k := k) in HS; auto. destruct (k =? a); lia. }
  destruct (mat_inc_ok (B + 1) m1 b a) as (m2 & -> & S2 & R2 & E2); auto; try lia.
  eexists; split; [reflexivity|]. split; [constructor; auto|split].
  - apply (sums_nth (B + 2) m2 S2). intros k Hk. rewrite R2 by auto.
    apply (proj1 (sums_nth (B + 1) m1 S1)) with (k := k) in HS1; auto. destruct (k =? b); lia.
  - intros i j Hi Hj. rewrite !E2, !E1, (Hsym i j) by auto.
    destruct (Z.eqb_spec i a), (Z.eqb_spec j b), (Z.eqb_spec i b), (Z.eqb_spec j a); cbn [andb]; lia.
  - intros i j Hi Hj. rewrite E2, E1 by auto. repeat destruct (_ && _); lia.
  - rewrite E2, E1 by auto. rewrite !Z.eqb_refl. cbn [andb]. pose proof (M_nonneg m a b Hs Ha).
    destruct ((a =? b) && (b =? a)); lia.
Qed.

Lemma repeat_inv : minv 0 (repeat (repeat 0 (Z.to_nat n)) (Z.to_nat n)).
Proof.
  assert (mshape (repeat (repeat 0 (Z.to_nat n)) (Z.to_nat n))) as Hs.
  { constructor; [rewrite zlen_repeat; lia|]. apply Forall_forall. intros r Hr%repeat_spec. subst r.
    split; [rewrite zlen_repeat; lia|]. apply Forall_forall. intros v Hv%repeat_spec. lia. }
  constructor; auto.
  - apply Forall_forall. intros r Hr%repeat_spec. subst r.
    clear Hs. induction (Z.to_nat n) as [|k IH]; cbn; [lia|]. unfold zsum in IH. lia.
  - assert (forall i j, M (repeat (repeat 0 (Z.to_nat n)) (Z.to_nat n)) i j = 0) as Hz; [|intros; rewrite !Hz; auto].
    intros i j. unfold M, znth.
    set (r := nth (Z.to_nat i) (repeat (repeat 0 (Z.to_nat n)) (Z.to_nat n)) []).
    assert (forall v, In v r -> v = 0) as Hr.
    { intros v Hv. unfold r in Hv.
      destruct (nth_in_or_default (Z.to_nat i) (repeat (repeat 0 (Z.to_nat n)) (Z.to_nat n)) []) as [Hin|Hin].
      2:{ rewrite Hin in Hv. destruct Hv. }
      apply repeat_spec in Hin. rewrite Hin in Hv. apply repeat_spec in Hv. auto. }
    destruct (nth_in_or_default (Z.to_nat j) r 0) as [Hin|Hin]; auto.
Qed.

Section Image.
Variables (indexed : list Z) (w h : Z).
Hypothesis Hw : 0 < w.
Hypothesis Hh : 0 < h.
Hypothesis Hlen : zlen indexed = w * h.
Hypothesis Hidx : Forall (fun v => 0 <= v < n) indexed.
Hypothesis Hsize : 4 * (w * h) < 2 ^ 32.

Definition pix (x y : Z) : Z := znth indexed (y * w + x).
Lemma pix_range x y : 0 <= x < w -> 0 <= y < h -> 0 <= pix x y < n.
Proof.
  intros Hx Hy. unfold pix, znth. rewrite Forall_forall in Hidx. apply Hidx, nth_In. unfold zlen in Hlen. nia.
Qed.
Lemma get_pix x y i : i = y * w + x -> 0 <= x < w -> 0 <= y < h -> get indexed i = Ok (pix x y).
Proof. intros -> Hx Hy. rewrite get_znth by nia. reflexivity. Qed.

(** the entries for the pairs starting at pixel (x, y) *)
Definition seen (m : list (list Z)) (x y : Z) : Prop :=
  (x + 1 < w -> 0 < M m (pix x y) (pix (x + 1) y)) /\
  (y + 1 < h -> 0 < M m (pix x y) (pix x (y + 1))).
Lemma seen_mono m m' x y : mle m m' -> 0 <= x < w -> 0 <= y < h -> seen m x y -> seen m' x y.
Proof.
  intros Hm Hx Hy (S1 & S2). split; intros G.
  - specialize (S1 G). specialize (Hm (pix x y) (pix (x + 1) y)).
    pose proof (pix_range x y ltac:(lia) ltac:(lia)). pose proof (pix_range (x + 1) y ltac:(lia) ltac:(lia)). lia.
  - specialize (S2 G). specialize (Hm (pix x y) (pix x (y + 1))).
    pose proof (pix_range x y ltac:(lia) ltac:(lia)). pose proof (pix_range x (y + 1) ltac:(lia) ltac:(lia)). lia.
Qed.

Lemma co_pixel_ok B m x y : minv B m -> B + 4 < 2 ^ 32 -> 0 <= x < w -> 0 <= y < h ->
  exists m', co_pixel indexed n w h y m x = Ok m' /\ minv (B + 4) m' /\ mle m m' /\ seen m' x y.
Proof.
  intros Hm HB Hx Hy. unfold co_pixel.
  pose proof (pix_range x y Hx Hy) as Hp.
  rewrite (get_pix x y) by auto. cbn [rbind]. replace (n <=? pix x y) with false by lia.
  assert (forall m B B', minv B m -> B <= B' -> minv B' m) as Hweak.
  { intros m0 B0 B' [? HS ?] Hle. constructor; auto. eapply Forall_impl; [|exact HS]. cbn. intros; lia. }
  assert (exists m1, (if x + 1 <? w then let* next := get indexed (y * w + x + 1) in bump_pair n m (pix x y) next else Ok m) = Ok m1
    /\ minv (B + 2) m1 /\ mle m m1 /\ (x + 1 < w -> 0 < M m1 (pix x y) (pix (x + 1) y))) as (m1 & -> & I1 & L1 & P1).
  { destruct (Z.ltb_spec (x + 1) w).
    - pose proof (pix_range (x + 1) y ltac:(lia) ltac:(lia)).
      rewrite (get_pix (x + 1) y) by lia. cbn [rbind].
      destruct (bump_ok B m (pix x y) (pix (x + 1) y)) as (m1 & E & I & L & P); auto; try lia.
      exists m1. auto.
    - exists m. split; auto. split; [apply (Hweak m B); auto; lia|]. split; [apply mle_refl|lia]. }
  cbn [rbind]. destruct (Z.ltb_spec (y + 1) h).
  - pose proof (pix_range x (y + 1) ltac:(lia) ltac:(lia)).
    rewrite (get_pix x (y + 1)) by lia. cbn [rbind].
    destruct (bump_ok (B + 2) m1 (pix x y) (pix x (y + 1))) as (m2 & E & I & L & P); auto; try lia.
    exists m2. split; auto. split; [replace (B + 4) with (B + 2 + 2) by ring; auto|]. split; [eapply mle_trans; eauto|].
    split; [|auto]. intros G. specialize (P1 G).
    pose proof (pix_range (x + 1) y ltac:(lia) ltac:(lia)).
    specialize (L (pix x y) (pix (x + 1) y) ltac:(lia) ltac:(lia)). lia.
  - exists m1. split; auto. split; [apply (Hweak m1 (B + 2)); auto; lia|]. split; auto. split; auto. lia.
Qed.

Lemma matrix_ok : exists m, build_co_occurrence_matrix indexed n w h = Ok m /\
  minv (2 ^ 32 - 1) m /\ forall x y, 0 <= x < w -> 0 <= y < h -> seen m x y.
Proof.
  unfold build_co_occurrence_matrix.
  set (I := fun (done : list Z) (m : list (list Z)) =>
    done = idxs (length done) /\ (length done <= Z.to_nat h)%nat /\ minv (4 * (w * zlen done)) m /\
    forall x y, 0 <= x < w -> 0 <= y < zlen done -> seen m x y).
  assert (forall k m, (k <= Z.to_nat h)%nat -> minv (4 * (w * Z.of_nat k)) m ->
    (forall x y, 0 <= x < w -> 0 <= y < Z.of_nat k -> seen m x y) ->
    exists m', fold_res (fun m y => fold_res (co_pixel indexed n w h y) (idxs (Z.to_nat w)) m)
      (map Z.of_nat (seq k (Z.to_nat h - k))) m = Ok m' /\ minv (4 * (w * h)) m' /\
      (forall x y, 0 <= x < w -> 0 <= y < h -> seen m' x y)) as G.
  { intros k. remember (Z.to_nat h - k)%nat as r eqn:Er. revert k Er. clear I.
    induction r as [|r IH]; intros k Er m Hk Hm Hse; cbn [seq map fold_res].
    - assert (Z.of_nat k = h) as E by lia. rewrite E in *. exists m. auto.
    - assert (forall j m1, (j <= Z.to_nat w)%nat -> minv (4 * (w * Z.of_nat k) + 4 * Z.of_nat j) m1 ->
        (forall x y, 0 <= x < w -> 0 <= y < Z.of_nat k -> seen m1 x y) ->
        (forall x, 0 <= x < Z.of_nat j -> seen m1 x (Z.of_nat k)) ->
        exists m', fold_res (co_pixel indexed n w h (Z.of_nat k)) (map Z.of_nat (seq j (Z.to_nat w - j))) m1 = Ok m' /\
          minv (4 * (w * Z.of_nat (S k))) m' /\
          forall x y, 0 <= x < w -> 0 <= y < Z.of_nat (S k) -> seen m' x y) as G2.
      { intros j. remember (Z.to_nat w - j)%nat as q eqn:Eq. revert j Eq.
        induction q as [|q IHq]; intros j Eq m1 Hj Hm1 Hs1 Hs2; cbn [seq map fold_res].
        - assert (Z.of_nat j = w) as E by lia. rewrite E in *. exists m1. split; auto. split.
          + replace (4 * (w * Z.of_nat (S k))) with (4 * (w * Z.of_nat k) + 4 * w) by lia. auto.
          + intros x y Hx Hy. destruct (Z.eq_dec y (Z.of_nat k)) as [->|]; [apply Hs2; auto|apply Hs1; lia].
        - destruct (co_pixel_ok (4 * (w * Z.of_nat k) + 4 * Z.of_nat j) m1 (Z.of_nat j) (Z.of_nat k)) as (m2 & E & I2 & L2 & P2); auto; try lia.
          rewrite E. cbn [rbind]. apply IHq; try lia.
          + replace (4 * (w * Z.of_nat k) + 4 * Z.of_nat (S j)) with (4 * (w * Z.of_nat k) + 4 * Z.of_nat j + 4) by lia. auto.
          + intros x y Hx Hy. apply (seen_mono m1); auto; lia.
          + intros x Hx. destruct (Z.eq_dec x (Z.of_nat j)) as [->|]; auto.
            apply (seen_mono m1); auto; try lia. apply Hs2; lia. }
      destruct (G2 0%nat m) as (m' & E & I' & S'); try lia; auto.
      { change (4 * Z.of_nat 0) with 0. rewrite Z.add_0_r. auto. }
      rewrite Nat.sub_0_r in E. fold (idxs (Z.to_nat w)) in E. rewrite E. cbn [rbind]. apply IH; auto; lia. }
  destruct (G 0%nat (repeat (repeat 0 (Z.to_nat n)) (Z.to_nat n))) as (m & E & Im & Sm); try lia.
  - change (Z.of_nat 0) with 0. rewrite !Z.mul_0_r. apply repeat_inv.
  - rewrite Nat.sub_0_r in E. fold (idxs (Z.to_nat h)) in E. exists m. split; auto. split; auto.
    destruct Im as [? HS ?]. constructor; auto. eapply Forall_impl; [|exact HS]. cbn. intros; lia.
Qed.

(** if every colour occurs and no pair crosses a set of colours, the set is
    empty or everything *)
Lemma connected m (P : Z -> bool) c d :
  (forall x y, 0 <= x < w -> 0 <= y < h -> seen m x y) ->
  In c indexed -> In d indexed -> P c = true -> P d = false ->
  exists a b, 0 <= a < n /\ 0 <= b < n /\ P a <> P b /\ 0 < M m a b.
Proof.
  intros Hseen Hc Hd Pc Pd.
  destruct (existsb (fun x => existsb (fun y =>
      ((x + 1 <? w) && negb (Bool.eqb (P (pix x y)) (P (pix (x + 1) y)))) ||
      ((y + 1 <? h) && negb (Bool.eqb (P (pix x y)) (P (pix x (y + 1)))))) (idxs (Z.to_nat h))) (idxs (Z.to_nat w))) eqn:Ex.
  - apply existsb_exists in Ex as (x & Hx%in_idxs & Ex). apply existsb_exists in Ex as (y & Hy%in_idxs & Ex).
    destruct (Hseen x y ltac:(lia) ltac:(lia)) as (S1 & S2).
    pose proof (pix_range x y ltac:(lia) ltac:(lia)).
    apply orb_prop in Ex as [Ex|Ex]; apply andb_prop in Ex as (El & Ep); apply Z.ltb_lt in El;
      apply negb_true_iff in Ep; apply Bool.eqb_false_iff in Ep.
    + exists (pix x y), (pix (x + 1) y). pose proof (pix_range (x + 1) y ltac:(lia) ltac:(lia)). auto 10.
    + exists (pix x y), (pix x (y + 1)). pose proof (pix_range x (y + 1) ltac:(lia) ltac:(lia)). auto 10.
  - exfalso.
    assert (forall x y, 0 <= x < w -> 0 <= y < h ->
      (x + 1 < w -> P (pix x y) = P (pix (x + 1) y)) /\ (y + 1 < h -> P (pix x y) = P (pix x (y + 1)))) as Hstep.
    { intros x y Hx Hy.
      assert (forall (A : Z -> bool) B C, existsb A B = false -> In C B -> A C = false) as Hex.
      { intros A B C E Hin. destruct (A C) eqn:Ea; auto. rewrite <- E. symmetry. apply existsb_exists. eauto. }
      pose proof (Hex _ _ x Ex) as E1. cbn beta in E1. rewrite in_idxs in E1. specialize (E1 ltac:(lia)).
      pose proof (Hex _ _ y E1) as E2. cbn beta in E2. rewrite in_idxs in E2. specialize (E2 ltac:(lia)).
      apply orb_false_iff in E2 as (E2 & E3). split; intros G.
      - replace (x + 1 <? w) with true in E2 by lia. cbn [andb] in E2. apply negb_false_iff in E2.
        apply Bool.eqb_prop in E2. auto.
      - replace (y + 1 <? h) with true in E3 by lia. cbn [andb] in E3. apply negb_false_iff in E3.
        apply Bool.eqb_prop in E3. auto. }
    assert (forall k : nat, Z.of_nat k < w -> P (pix (Z.of_nat k) 0) = P (pix 0 0)) as Hrow.
    { induction k as [|k IH]; intros Hk; [reflexivity|].
      rewrite <- IH by lia. replace (Z.of_nat (S k)) with (Z.of_nat k + 1) by lia. symmetry.
      apply (Hstep (Z.of_nat k) 0); lia. }
    assert (forall (k : nat) x, 0 <= x < w -> Z.of_nat k < h -> P (pix x (Z.of_nat k)) = P (pix 0 0)) as Hall.
    { induction k as [|k IH]; intros x Hx Hk.
      - specialize (Hrow (Z.to_nat x)). rewrite Z2Nat.id in Hrow by lia. apply Hrow. lia.
      - rewrite <- (IH x) by lia. replace (Z.of_nat (S k)) with (Z.of_nat k + 1) by lia. symmetry.
        apply (Hstep x (Z.of_nat k)); lia. }
    assert (forall c, In c indexed -> P c = P (pix 0 0)) as Hin.
    { intros v Hv. apply In_nth with (d := 0) in Hv as (i & Hi & Ev).
      pose proof (Z.div_mod (Z.of_nat i) w ltac:(lia)) as Hdm.
      pose proof (Z.mod_pos_bound (Z.of_nat i) w ltac:(lia)) as Hmb.
      assert (0 <= Z.of_nat i / w) by (apply Z.div_pos; lia).
      assert (Z.of_nat i / w < h) by (apply Z.div_lt_upper_bound; [lia|]; rewrite <- Hlen; unfold zlen; lia).
      specialize (Hall (Z.to_nat (Z.of_nat i / w)) (Z.of_nat i mod w) ltac:(lia)).
      rewrite Z2Nat.id in Hall by lia. specialize (Hall ltac:(lia)).
      unfold pix at 1 in Hall. replace (Z.of_nat i / w * w + Z.of_nat i mod w) with (Z.of_nat i) in Hall by lia.
      unfold znth in Hall at 1. rewrite Nat2Z.id, Ev in Hall. exact Hall. }
    rewrite (Hin c Hc) in Pc. rewrite (Hin d Hd) in Pd. congruence.
Qed.
End Image.
End Matrix.

(** ** Edges *)
Lemma enum_nth {A} (l : list A) : forall i k x, In (k, x) (enum i l) -> i <= k < i + zlen l /\ nth_error l (Z.to_nat (k - i)) = Some x.
Proof.
  induction l as [|y l IH]; intros i k x H; cbn [enum] in H; [destruct H|].
  rewrite zlen_cons. pose proof (zlen_nonneg l). destruct H as [E|H].
  - injection E as <- <-. rewrite Z.sub_diag. split; [lia|reflexivity].
  - apply IH in H as (H1 & H2). split; [lia|]. replace (Z.to_nat (k - i)) with (S (Z.to_nat (k - (i + 1)))) by lia. exact H2.
Qed.
Lemma insert_edge_in e l x : In x (insert_edge e l) <-> x = e \/ In x l.
Proof.
  induction l as [|y l IH]; cbn [insert_edge].
  - cbn; intuition.
  - destruct (snd y <=? snd e); cbn [In]; [intuition|]. rewrite IH. cbn; intuition.
Qed.
Lemma weighted_edges_in m a b : In (a, b) (weighted_edges m) -> 0 <= a < b /\ b < zlen m.
Proof.
  unfold weighted_edges. intros H. apply in_map_iff in H as (e & He & Hin).
  assert (In e (raw_edges m)) as Hr.
  { clear He. induction (raw_edges m) as [|y l IH]; cbn [fold_right] in Hin; [destruct Hin|].
    apply insert_edge_in in Hin as [->|]; [left; auto|right; auto]. }
  clear Hin. unfold raw_edges in Hr. apply in_flat_map in Hr as ((i, row) & Hi & Hr).
  apply enum_nth in Hi as (Hi & _). apply in_flat_map in Hr as ((j, wt) & Hj & Hr).
  destruct (0 <? wt); [|destruct Hr]. destruct Hr as [<-|[]]. cbn [fst] in He. injection He as <- <-.
  enough (0 <= j < i) by lia.
  assert (forall (l : list Z) s k v c, In (k, v) (firstn c (enum s l)) -> s <= k < s + Z.of_nat c) as G.
  { induction l as [|y l IH]; intros s k v c H; cbn [enum] in H.
    - rewrite firstn_nil in H. destruct H.
    - destruct c; [destruct H|]. cbn [firstn] in H. destruct H as [E|H]; [injection E as <- <-; lia|].
      apply IH in H. lia. }
  apply G in Hj. lia.
Qed.

(** ** The reindexing loop *)
Lemma idxs_NoDup n : NoDup (idxs n).
Proof. unfold idxs. apply FinFun.Injective_map_NoDup; [intros a b; lia|apply seq_NoDup]. Qed.

Section Zeng.
Variables (n : Z) (m : list (list Z)).
Hypothesis Hn : 0 <= n.
Hypothesis Hm : minv n (2 ^ 32 - 1) m.
(** every proper nonempty set of colours has a crossing pair *)
Hypothesis Hconn : forall P c d, 0 <= c < n -> 0 <= d < n -> P c = true -> P d = false ->
  exists a b, 0 <= a < n /\ 0 <= b < n /\ P a <> P b /\ 0 < M m a b.

Definition wsum (c : Z) (l : list Z) : Z := zsum (map (M m c) l).
Lemma wsum_nonneg c l : 0 <= c < n -> 0 <= wsum c l.
Proof.
  intros Hc. apply zsum_nonneg, Forall_forall. intros v (k & <- & _)%in_map_iff.
  apply (M_nonneg n); auto. apply Hm.
Qed.
Lemma wsum_row c : 0 <= c < n -> wsum c (idxs (Z.to_nat n)) = zsum (nth (Z.to_nat c) m []).
Proof.
  intros Hc. unfold wsum. f_equal. destruct (ms_nth n m c (mi_shape _ _ _ Hm) Hc) as (L & _).
  apply (nth_ext _ _ 0 0).
  - rewrite map_idxs_length. unfold zlen in L. lia.
  - intros i Hi. rewrite map_idxs_length in Hi. rewrite nth_map_idxs by auto. unfold M, znth. rewrite Nat2Z.id. reflexivity.
Qed.
Lemma wsum_app c a b : wsum c (a ++ b) = wsum c a + wsum c b.
Proof. unfold wsum. rewrite map_app. apply zsum_app. Qed.
Lemma wsum_perm c a b : Permutation a b -> wsum c a = wsum c b.
Proof. intros. unfold wsum. apply zsum_perm, Permutation_map; auto. Qed.
Lemma wsum_bound c rem rest : 0 <= c < n -> Permutation (rem ++ rest) (idxs (Z.to_nat n)) -> 0 <= wsum c rem < 2 ^ 32.
Proof.
  intros Hc Hp. apply (wsum_perm c) in Hp. rewrite wsum_app, wsum_row in Hp by auto.
  pose proof (wsum_nonneg c rem Hc). pose proof (wsum_nonneg c rest Hc).
  pose proof (mi_sum _ _ _ Hm) as F. rewrite (sums_nth n _ m (mi_shape _ _ _ Hm)) in F. specialize (F c Hc). lia.
Qed.
Lemma mat_at_ok i j : 0 <= i < n -> 0 <= j < n -> mat_at m i j = Ok (M m i j).
Proof.
  intros Hi Hj. destruct (ms_nth n m i (mi_shape _ _ _ Hm) Hi) as (L & _).
  unfold mat_at. rewrite (get_ok m i []) by (rewrite (ms_len _ _ (mi_shape _ _ _ Hm)); lia).
  cbn [rbind]. apply get_znth. lia.
Qed.
Lemma M_sym i j : 0 <= i < n -> 0 <= j < n -> M m i j = M m j i.
Proof. intros. apply (mi_sym _ _ _ Hm); auto. Qed.

Lemma delta_ok bi nn : forall rem i acc, 0 <= bi < n -> Forall (fun v => 0 <= v < n) rem ->
  exists d, zeng_delta m bi nn i rem acc = Ok d.
Proof.
  induction rem as [|x rem IH]; intros i acc Hb Hr; cbn [zeng_delta]; [eauto|].
  apply Forall_cons_iff in Hr as (Hx & Hr). rewrite mat_at_ok by auto. cbn [rbind]. auto.
Qed.

(** what (position, best) means for a list of sums *)
Definition best_ok (sums : list (Z * Z)) (pos : Z) (best : Z * Z) : Prop :=
  (snd best = 0 /\ Forall (fun e => snd e <= 0) sums) \/
  (0 <= pos < zlen sums /\ nth (Z.to_nat pos) sums (0, 0) = best /\ 0 < snd best /\
   Forall (fun e => snd e <= snd best) sums).

Lemma best_snoc sums pos best c s : best_ok sums pos best ->
  best_ok (sums ++ [(c, s)]) (if snd best <? s then zlen sums else pos) (if snd best <? s then (c, s) else best).
Proof.
  intros H. destruct (Z.ltb_spec (snd best) s) as [L|L].
  - right. assert (Forall (fun e => snd e <= s) sums /\ 0 < s) as (F & P).
    { destruct H as [(H1 & H2)|(H1 & H2 & H3 & H4)]; (split; [eapply Forall_impl; [|eassumption]; cbn; intros; lia|lia]). }
    pose proof (zlen_nonneg sums).
    split; [rewrite zlen_app; change (zlen [(c, s)]) with 1; lia|].
    split; [unfold zlen; rewrite Nat2Z.id, nth_middle; reflexivity|]. split; [auto|].
    apply Forall_app; split; auto. constructor; [cbn; lia|constructor].
  - destruct H as [(H1 & H2)|(H1 & H2 & H3 & H4)].
    + left. split; auto. apply Forall_app; split; auto. constructor; [cbn; lia|constructor].
    + right. split; [rewrite zlen_app; change (zlen [(c, s)]) with 1; lia|].
      split; [rewrite app_nth1; auto; unfold zlen in H1; lia|]. split; auto.
      apply Forall_app; split; auto.
Qed.

Lemma init_sums_ok r0 r1 rows : forall i sums pos best,
  0 <= r0 < n -> 0 <= r1 < n -> r0 <> r1 -> 0 <= i -> rows = skipn (Z.to_nat i) m -> i + zlen rows = n ->
  best_ok sums pos best ->
  exists pos' best',
    fold_res (init_sum_step r0 r1) (enum i rows) (sums, pos, best) =
    Ok (sums ++ map (fun c => (c, M m c r0 + M m c r1))
          (filter (fun c => negb ((c =? r0) || (c =? r1))) (map (fun k => i + k) (idxs (length rows)))), pos', best') /\
    best_ok (sums ++ map (fun c => (c, M m c r0 + M m c r1))
          (filter (fun c => negb ((c =? r0) || (c =? r1))) (map (fun k => i + k) (idxs (length rows))))) pos' best'.
Proof.
  induction rows as [|row rows IH]; intros i sums pos best H0 H1 Hne Hi Hrows Hlen Hb; cbn [enum fold_res].
  - exists pos, best. cbn [length]. change (idxs 0) with (@nil Z). cbn [map filter]. rewrite app_nil_r. auto.
  - assert (nth (Z.to_nat i) m [] = row) as Hrow.
    { pose proof (nth_skipn' m (Z.to_nat i) 0 []) as E. rewrite <- Hrows in E. cbn [nth] in E. rewrite Nat.add_0_r in E. auto. }
    assert (rows = skipn (Z.to_nat (i + 1)) m) as Hrows'.
    { replace (Z.to_nat (i + 1)) with (1 + Z.to_nat i)%nat by lia. rewrite <- skipn_skipn_add, <- Hrows. reflexivity. }
    rewrite zlen_cons in Hlen. pose proof (zlen_nonneg rows).
    assert (map (fun k => i + k) (idxs (length (row :: rows))) = i :: map (fun k => (i + 1) + k) (idxs (length rows))) as ->.
    { cbn [length]. unfold idxs. cbn [seq map]. f_equal; [lia|]. rewrite <- seq_shift, !map_map. apply map_ext. intros; lia. }
    cbn [filter]. unfold init_sum_step at 1.
    destruct ((i =? r0) || (i =? r1)) eqn:Ei; cbn [negb rbind].
    + apply IH; auto; lia.
    + assert (row = nth (Z.to_nat i) m []) as Er by auto.
      destruct (ms_nth n m i (mi_shape _ _ _ Hm) ltac:(lia)) as (L & _). rewrite <- Er in L.
      rewrite !get_znth by lia. cbn [rbind].
      assert (znth row r0 + znth row r1 = M m i r0 + M m i r1) as Es by (unfold M; rewrite <- Er; reflexivity).
      assert (M m i r0 + M m i r1 < 2 ^ 32) as Hb32.
      { assert (In r0 (idxs (Z.to_nat n))) as I0 by (apply in_idxs; lia).
        apply in_split in I0 as (l1 & l2 & E1).
        assert (In r1 (l1 ++ l2)) as I1.
        { assert (In r1 (idxs (Z.to_nat n))) as I1 by (apply in_idxs; lia). rewrite E1 in I1.
          apply in_app_iff in I1 as [|[|]]; [apply in_app_iff; auto|congruence|apply in_app_iff; auto]. }
        apply in_split in I1 as (k1 & k2 & E2).
        pose proof (wsum_bound i [r0; r1] (k1 ++ k2) ltac:(lia)) as B.
        assert (Permutation ([r0; r1] ++ k1 ++ k2) (idxs (Z.to_nat n))) as Hp.
        { rewrite E1. cbn [app]. transitivity (r0 :: l1 ++ l2).
          - constructor. rewrite E2. apply Permutation_middle.
          - apply Permutation_middle. }
        specialize (B Hp). unfold wsum in B. cbn [map zsum fold_right] in B. lia. }
      unfold add32. rewrite Es. replace (M m i r0 + M m i r1 <? 2 ^ 32) with true by lia. cbn [rbind].
      set (s := M m i r0 + M m i r1) in *.
      destruct (IH (i + 1) (sums ++ [(i, s)]) (if snd best <? s then zlen sums else pos) (if snd best <? s then (i, s) else best))
        as (pos' & best' & E & B'); auto; try lia.
      { apply best_snoc; auto. }
      exists pos', best'. cbn [map]. fold s.
      rewrite <- app_assoc in E, B'. cbn [app] in E, B'.
      split; [|exact B']. rewrite <- E. destruct (snd best <? s); reflexivity.
Qed.

(** removing one element *)
Lemma swap_remove_ok {A} (l : list A) i d : 0 <= i < zlen l ->
  exists l', swap_remove l i = Ok l' /\ Permutation (nth (Z.to_nat i) l d :: l') l.
Proof.
  intros Hi. unfold swap_remove. replace ((0 <=? i) && (i <? zlen l)) with true by lia.
  destruct (rev l) as [|la t] eqn:Er.
  { assert (l = []) by (rewrite <- (rev_involutive l), Er; reflexivity). subst l. rewrite zlen_nil in Hi. lia. }
  assert (l = rev t ++ [la]) as El by (rewrite <- (rev_involutive l), Er; reflexivity).
  eexists; split; [reflexivity|]. set (k := rev t) in *. clearbody k. subst l. clear Er.
  rewrite zlen_app in Hi. change (zlen [la]) with 1 in Hi.
  destruct (Z.eq_dec i (zlen k)) as [->|Hne].
  - unfold zlen. rewrite Nat2Z.id, nth_middle.
    assert (upd (k ++ [la]) (length k) la = k ++ [la]) as ->.
    { clear. induction k; cbn; [reflexivity|]. f_equal; auto. }
    rewrite removelast_last. apply Permutation_cons_append.
  - assert (Z.to_nat i < length k)%nat as Hik by (unfold zlen in *; lia).
    rewrite app_nth1 by auto.
    assert (upd (k ++ [la]) (Z.to_nat i) la = upd k (Z.to_nat i) la ++ [la]) as ->.
    { clear - Hik. revert Hik. generalize (Z.to_nat i). induction k as [|x k IH]; intros q Hq; [cbn in Hq; lia|].
      destruct q; cbn [app upd]; [reflexivity|]. f_equal. apply IH. cbn in Hq; lia. }
    rewrite removelast_last.
    clear - Hik. revert Hik. generalize (Z.to_nat i). induction k as [|x k IH]; intros q Hq; [cbn in Hq; lia|].
    destruct q; cbn [upd nth app].
    + constructor. apply Permutation_cons_append.
    + etransitivity; [apply perm_swap|]. constructor. apply IH. cbn in Hq; lia.
Qed.

Lemma update_sums_ok bi rem sums : forall i done pos bs,
  0 <= bi < n ->
  Forall (fun e => 0 <= fst e < n /\ snd e = wsum (fst e) rem /\ 0 <= wsum (fst e) rem + M m (fst e) bi < 2 ^ 32) sums ->
  i = zlen done -> best_ok done pos bs ->
  exists pos' bs',
    update_sums m bi i sums pos bs =
      Ok (map (fun e => (fst e, wsum (fst e) rem + M m (fst e) bi)) sums, pos', bs') /\
    best_ok (done ++ map (fun e => (fst e, wsum (fst e) rem + M m (fst e) bi)) sums) pos' bs'.
Proof.
  induction sums as [|(c, s) sums IH]; intros i done pos bs Hb HF Hi Hbest; cbn [update_sums map].
  - exists pos, bs. rewrite app_nil_r. auto.
  - apply Forall_cons_iff in HF as ((Hc & Hs & Hr) & HF). cbn [fst snd] in *. subst s.
    rewrite mat_at_ok by auto. cbn [rbind]. rewrite (M_sym bi c) by auto.
    unfold add32. replace (wsum c rem + M m c bi <? 2 ^ 32) with true by lia. cbn [rbind].
    set (s' := wsum c rem + M m c bi) in *.
    destruct (IH (i + 1) (done ++ [(c, s')]) (if snd bs <? s' then zlen done else pos) (if snd bs <? s' then (c, s') else bs))
      as (pos' & bs' & E & B'); auto.
    { rewrite zlen_app. change (zlen [(c, s')]) with 1. lia. }
    { apply best_snoc; auto. }
    exists pos', bs'. rewrite <- app_assoc in B'. cbn [app] in B'. split; [|exact B'].
    rewrite <- Hi in E. destruct (snd bs <? s'); cbn [rbind]; rewrite E; reflexivity.
Qed.

Lemma zeng_loop_ok : forall f rem sums pos best,
  rem <> [] -> (length sums <= f)%nat ->
  Permutation (rem ++ map fst sums) (idxs (Z.to_nat n)) ->
  Forall (fun e => snd e = wsum (fst e) rem) sums ->
  best_ok sums pos best ->
  exists r, zeng_loop f m n rem sums pos best = Ok r /\ Permutation r (idxs (Z.to_nat n)).
Proof.
  induction f as [|f IH]; intros rem sums pos best Hne Hf Hp HF Hb.
  { destruct sums; [|cbn in Hf; lia]. cbn [zeng_loop]. exists rem. rewrite app_nil_r in Hp. auto. }
  destruct sums as [|e0 sums0] eqn:Es; cbn [zeng_loop].
  { exists rem. rewrite app_nil_r in Hp. auto. }
  rewrite <- Es in *.
  assert (forall c, In c rem -> 0 <= c < n) as Hrem.
  { intros c Hc. assert (In c (idxs (Z.to_nat n))) as G by (apply (Permutation_in c Hp), in_app_iff; auto).
    apply in_idxs in G. lia. }
  assert (forall e, In e sums -> 0 <= fst e < n) as Hsum.
  { intros e He. assert (In (fst e) (idxs (Z.to_nat n))) as G.
    { apply (Permutation_in _ Hp), in_app_iff. right. apply in_map; auto. }
    apply in_idxs in G. lia. }
  assert (NoDup (rem ++ map fst sums)) as Hnd.
  { eapply Permutation_NoDup; [symmetry; exact Hp|apply idxs_NoDup]. }
  (* a positive sum exists *)
  assert (exists e, In e sums /\ 0 < snd e) as (e1 & He1 & Hpos).
  { destruct rem as [|c0 rem0] eqn:Er; [congruence|]. rewrite <- Er in *.
    assert (In c0 rem) as Hc0 by (rewrite Er; left; auto).
    assert (In e0 sums) as He0 by (rewrite Es; left; auto).
    set (P := fun c => existsb (Z.eqb c) rem).
    assert (forall c, P c = true <-> In c rem) as HP.
    { intros c. unfold P. rewrite existsb_exists. split.
      - intros (x & Hx & Ex). apply Z.eqb_eq in Ex. subst; auto.
      - intros H. exists c. split; auto. apply Z.eqb_refl. }
    assert (forall e, In e sums -> P (fst e) = false) as HPs.
    { intros e He. destruct (P (fst e)) eqn:E; auto. apply HP in E. exfalso.
      apply (in_split) in E as (l1 & l2 & El). rewrite El, <- app_assoc in Hnd. cbn [app] in Hnd.
      apply NoDup_remove_2 in Hnd. apply Hnd. apply in_app_iff. right. apply in_app_iff. right. apply in_map; auto. }
    assert (forall c, 0 <= c < n -> P c = false -> exists e, In e sums /\ fst e = c) as Hex.
    { intros c Hc Hcf. assert (In c (rem ++ map fst sums)) as G.
      { apply (Permutation_in c (Permutation_sym Hp)), in_idxs. lia. }
      apply in_app_iff in G as [G|G]; [apply HP in G; congruence|].
      apply in_map_iff in G as (e & E & He). eauto. }
    assert (forall a b, 0 <= a < n -> P a = true -> 0 <= b < n -> P b = false -> 0 < M m a b ->
      exists e, In e sums /\ 0 < snd e) as Hfin.
    { intros a b Ha Pa Hb' Pb Hab. destruct (Hex b Hb' Pb) as (e & He & Ee). exists e. split; auto.
      rewrite Forall_forall in HF. rewrite (HF e He), Ee.
      apply HP in Pa. apply in_split in Pa as (l1 & l2 & ->).
      rewrite wsum_app. unfold wsum at 2. cbn [map zsum fold_right]. fold (wsum b l2).
      change (fold_right Z.add 0 (map (M m b) l2)) with (wsum b l2).
      pose proof (wsum_nonneg b l1 Hb'). pose proof (wsum_nonneg b l2 Hb'). rewrite (M_sym b a) by auto. lia. }
    destruct (Hconn P c0 (fst e0)) as (a & b & Ha & Hb' & Hab & HM); auto.
    { apply HP; auto. }
    destruct (P a) eqn:Pa, (P b) eqn:Pb; try congruence.
    - apply (Hfin a b); auto.
    - apply (Hfin b a); auto. rewrite (M_sym b a) by auto. auto. }
  destruct Hb as [(Hb0 & Hball)|(Hpr & Hpn & Hbp & Hball)].
  { exfalso. rewrite Forall_forall in Hball. specialize (Hball e1 He1). lia. }
  assert (In best sums) as Hbin by (rewrite <- Hpn; apply nth_In; unfold zlen in Hpr; lia).
  pose proof (Hsum best Hbin) as Hbi.
  destruct (delta_ok (fst best) (n - zlen sums) rem 0 0) as (d & Ed); auto.
  { apply Forall_forall; auto. }
  rewrite Ed. cbn [rbind]. set (rem' := if 0 <? d then fst best :: rem else rem ++ [fst best]).
  assert (Permutation rem' (rem ++ [fst best])) as Hrp.
  { unfold rem'. destruct (0 <? d); [apply Permutation_cons_append|reflexivity]. }
  destruct (swap_remove_ok sums pos (0, 0)) as (sums1 & Esw & Hsw); auto.
  rewrite Esw. cbn [rbind]. rewrite Hpn in Hsw.
  assert (Permutation (rem' ++ map fst sums1) (idxs (Z.to_nat n))) as Hp'.
  { rewrite Hrp, <- Hp. rewrite <- app_assoc. apply Permutation_app_head. cbn [app].
    apply (Permutation_map fst) in Hsw. exact Hsw. }
  assert (Forall (fun e => snd e = wsum (fst e) rem) sums1) as HF1.
  { rewrite Forall_forall in *. intros e He. apply HF. apply (Permutation_in e Hsw). right; auto. }
  assert (length sums1 <= f)%nat as Hf1.
  { apply Permutation_length in Hsw. cbn [length] in Hsw. lia. }
  assert (rem' <> []) as Hne' by (unfold rem'; destruct (0 <? d); [discriminate|destruct rem; discriminate]).
  assert (forall e, In e sums1 -> 0 <= fst e < n) as Hs1r.
  { intros e He. apply Hsum. apply (Permutation_in e Hsw). right; auto. }
  assert (forall c, wsum c rem + M m c (fst best) = wsum c rem') as Hws.
  { intros c. rewrite (wsum_perm c _ _ Hrp), wsum_app. unfold wsum at 3. cbn [map zsum fold_right]. lia. }
  destruct sums1 as [|e2 sums2] eqn:Es1.
  - cbn [rbind]. exists rem'. split; [destruct f; reflexivity|]. rewrite app_nil_r in Hp'. exact Hp'.
  - rewrite <- Es1 in *.
    destruct (update_sums_ok (fst best) rem sums1 0 [] 0 (0, 0)) as (pos' & bs' & Eu & Bu); auto.
    { rewrite Forall_forall in *. intros e He. split; [auto|]. split; [auto|]. rewrite Hws.
      apply (wsum_bound (fst e) rem' (map fst sums1)); auto. }
    { left. split; [reflexivity|constructor]. }
    rewrite Eu. cbn [rbind]. cbn [app] in Bu. apply IH; auto.
    + rewrite map_length. auto.
    + rewrite map_map. cbn [fst]. exact Hp'.
    + apply Forall_forall. intros e (e' & <- & He')%in_map_iff. cbn [fst snd]. apply Hws.
Qed.

Lemma mzeng_ok edges r0 r1 : 0 <= r0 < n -> 0 <= r1 < n -> r0 <> r1 -> edges = (r0, r1) :: tl edges ->
  exists r, mzeng_reindex n edges m = Ok r /\ Permutation r (idxs (Z.to_nat n)).
Proof.
  intros H0 H1 Hne He. unfold mzeng_reindex. rewrite He. replace (n =? 0) with false by lia.
  pose proof (ms_len _ _ (mi_shape _ _ _ Hm)) as Lm.
  destruct (init_sums_ok r0 r1 m 0 [] 0 (0, 0)) as (pos & best & E & B); auto; try lia.
  { left. split; [reflexivity|constructor]. }
  rewrite E. cbn [rbind app] in *.
  assert (map (fun k => 0 + k) (idxs (length m)) = idxs (Z.to_nat n)) as Ei.
  { rewrite map_ext with (g := fun k => k) by (intros; lia). rewrite map_id. f_equal. unfold zlen in Lm. lia. }
  rewrite Ei in *. set (cs := filter _ (idxs (Z.to_nat n))) in *.
  apply zeng_loop_ok; auto; try discriminate.
  - rewrite map_map. cbn [fst]. rewrite map_id. unfold cs.
    apply NoDup_Permutation.
    + cbn [app]. constructor.
      { cbn [In]. intros [G|G]; [congruence|]. apply filter_In in G as (_ & G). lia. }
      constructor. { intros G. apply filter_In in G as (_ & G). lia. }
      apply NoDup_filter, idxs_NoDup.
    + apply idxs_NoDup.
    + intros x. cbn [app In]. rewrite filter_In, in_idxs. split.
      * intros [<-|[<-|(G & _)]]; lia.
      * intros G. destruct (Z.eq_dec r0 x); auto. destruct (Z.eq_dec r1 x); auto. right; right. split; auto. lia.
  - apply Forall_forall. intros e (c & <- & _)%in_map_iff. cbn [fst snd]. unfold wsum. cbn [map zsum fold_right]. lia.
Qed.
End Zeng.

(** ** Most popular first *)
Lemma count_colors_ok indexed : Forall (fun v => 0 <= v < 256) indexed -> zlen indexed < 2 ^ 32 ->
  exists c, count_colors indexed = Ok c /\ zlen c = 256.
Proof.
  intros HF HL. unfold count_colors.
  assert (forall l (c : list Z) B, Forall (fun v => 0 <= v < 256) l -> zlen c = 256 -> Forall (fun v => 0 <= v <= B) c ->
    B + zlen l < 2 ^ 32 -> 0 <= B ->
    exists c', fold_res (fun c v => let* x := get c v in let* x' := add32 x 1 in Ok (upd c (Z.to_nat v) x')) l c = Ok c' /\ zlen c' = 256) as G.
  { induction l as [|v l IH]; intros c B Hl Hc HB HBl HB0; cbn [fold_res]; [eauto|].
    apply Forall_cons_iff in Hl as (Hv & Hl). rewrite zlen_cons in HBl. pose proof (zlen_nonneg l).
    rewrite get_znth by lia. cbn [rbind].
    assert (0 <= znth c v <= B) as Hx by (unfold znth; apply (Forall_nth_d (fun v => 0 <= v <= B)); auto; lia).
    unfold add32. replace (znth c v + 1 <? 2 ^ 32) with true by lia. cbn [rbind].
    apply (IH _ (B + 1)); auto; try lia.
    - unfold zlen. rewrite upd_length. exact Hc.
    - apply Forall_upd; [|lia]. eapply Forall_impl; [|exact HB]. cbn. intros; lia. }
  apply (G indexed _ 0); auto; try lia.
  apply Forall_forall. intros v Hv%repeat_spec. lia.
Qed.
Lemma max_by_count_ok counts rem : zlen counts = 256 -> Forall (fun v => 0 <= v < 256) rem ->
  forall best, exists b, max_by_count counts rem best = Ok b.
Proof.
  intros Hc. induction 1 as [|i r Hi Hr IH]; intros best; cbn [max_by_count]; [eauto|].
  rewrite (get_ok counts i 0) by lia. cbn [rbind]. apply IH.
Qed.
Lemma key_pos_some k l i : key_pos k l = Some i -> 0 <= i < zlen l /\ nth (Z.to_nat i) l 0 = k.
Proof.
  revert i. induction l as [|x l IH]; intros i H; cbn [key_pos] in H; [discriminate|].
  rewrite zlen_cons. pose proof (zlen_nonneg l). destruct (Z.eqb_spec x k) as [->|].
  - injection H as <-. split; [lia|reflexivity].
  - destruct (key_pos k l) as [j|]; [|discriminate]. injection H as <-. destruct (IH j eq_refl) as (H1 & H2).
    split; [lia|]. replace (Z.to_nat (j + 1)) with (S (Z.to_nat j)) by lia. exact H2.
Qed.
Lemma key_pos_in k l : In k l -> exists i, key_pos k l = Some i.
Proof.
  induction l as [|x l IH]; intros H; [destruct H|]. cbn [key_pos]. destruct (Z.eqb_spec x k); [eauto|].
  destruct H as [->|H]; [congruence|]. destruct (IH H) as (i & ->). eauto.
Qed.
Lemma rotate_perm {A} (l : list A) k : Permutation (skipn k l ++ firstn k l) l.
Proof. rewrite Permutation_app_comm. rewrite firstn_skipn. reflexivity. Qed.

Lemma popular_ok indexed rem : Forall (fun v => 0 <= v < 256) indexed -> 3 * zlen indexed < 2 ^ 32 ->
  Forall (fun v => 0 <= v < 256) rem ->
  exists r, apply_most_popular_first indexed rem = Ok r /\ Permutation r rem.
Proof.
  intros HF HL HR. unfold apply_most_popular_first. pose proof (zlen_nonneg indexed).
  destruct rem as [|r0 rem0] eqn:Er; [eauto|]. rewrite <- Er in *.
  destruct indexed as [|i0 idx0] eqn:Ei; [eauto|]. rewrite <- Ei in *.
  destruct (count_colors_ok indexed) as (c & -> & Lc); auto; try lia. cbn [rbind].
  destruct (max_by_count_ok c rem Lc HR None) as (b & ->). cbn [rbind].
  rewrite (wrap_id 32 (zlen indexed)) by lia.
  destruct b as [(mi, mc)|]; replace (zlen indexed * 3 <? 2 ^ 32) with true by lia; cbn [rbind].
  - destruct (mc <? _); [eauto|]. destruct (key_pos mi rem) as [pos|] eqn:Ek; [|eauto].
    apply key_pos_some in Ek as (Hp & _). destruct (zlen rem / 2 <=? pos).
    + unfold rotate_right. replace (pos + 1 <=? zlen (rev rem)) with true by (unfold zlen in *; rewrite rev_length; lia).
      eexists; split; [reflexivity|]. rewrite rotate_perm. symmetry. apply Permutation_rev.
    + unfold rotate_left. replace (pos <=? zlen rem) with true by lia.
      eexists; split; [reflexivity|]. apply rotate_perm.
  - destruct (0 <? _); [eauto|]. destruct (key_pos 0 rem) as [pos|] eqn:Ek; [|eauto].
    apply key_pos_some in Ek as (Hp & _). destruct (zlen rem / 2 <=? pos).
    + unfold rotate_right. replace (pos + 1 <=? zlen (rev rem)) with true by (unfold zlen in *; rewrite rev_length; lia).
      eexists; split; [reflexivity|]. rewrite rotate_perm. symmetry. apply Permutation_rev.
    + unfold rotate_left. replace (pos <=? zlen rem) with true by lia.
      eexists; split; [reflexivity|]. apply rotate_perm.
Qed.

(** ** Remapping *)

Lemma remap_table rem : forall i bm,
  zlen bm = 256 -> NoDup rem -> Forall (fun v => 0 <= v < 256) rem -> 0 <= i -> i + zlen rem <= 256 ->
  exists bm', fold_res (fun bm '(ni, oi) => let* _ := get bm oi in Ok (upd bm (Z.to_nat oi) (wrap 8 ni)))
      (enum i rem) bm = Ok bm' /\ zlen bm' = 256 /\
    (forall k, (k < length rem)%nat -> znth bm' (nth k rem 0) = i + Z.of_nat k) /\
    (forall v, 0 <= v < 256 -> ~ In v rem -> znth bm' v = znth bm v).
Proof.
  induction rem as [|x rem IH]; intros i bm Hb Hn HF Hi Hl; cbn [enum fold_res].
  - exists bm. split; auto. split; auto. split; [cbn; intros; lia|auto].
  - apply Forall_cons_iff in HF as (Hx & HF). inversion Hn as [|? ? Hnx Hnr]; subst.
    rewrite zlen_cons in Hl. pose proof (zlen_nonneg rem).
    rewrite (get_ok bm x 0) by lia. cbn [rbind]. rewrite (wrap_id 8 i) by (change (2 ^ 8) with 256; lia).
    destruct (IH (i + 1) (upd bm (Z.to_nat x) i)) as (bm' & E & L & P1 & P2); auto; try lia.
    { unfold zlen. rewrite upd_length. exact Hb. }
    exists bm'. split; auto. split; auto. split.
    + intros [|k] Hk; cbn [nth].
      * rewrite P2 by auto. unfold znth. rewrite nth_upd_eq by (unfold zlen in Hb; lia). lia.
      * rewrite P1 by (cbn in Hk; lia). lia.
    + intros v Hv Hnv. rewrite P2; auto. 2:{ intros G; apply Hnv; right; auto. }
      unfold znth. apply nth_upd_neq. intros G. apply Hnv. left. lia.
Qed.

Lemma remapping_ok indexed palette rem :
  zlen palette <= 256 -> Permutation rem (idxs (Z.to_nat (zlen palette))) ->
  Forall (fun v => 0 <= v < zlen palette) indexed ->
  exists ni np, apply_remapping indexed palette rem = Ok (ni, np) /\ Permutation np palette /\
    length ni = length indexed /\ Forall (fun v => 0 <= v < zlen np) ni /\
    forall i, 0 <= i < zlen indexed -> colour_at np (znth ni i) = colour_at palette (znth indexed i).
Proof.
  intros Hp Hr HF. pose proof (zlen_nonneg palette).
  assert (forall v, In v rem <-> 0 <= v < zlen palette) as Hin.
  { intros v. rewrite (Permutation_in' (eq_refl v) Hr), in_idxs. lia. }
  assert (NoDup rem) as Hnd by (eapply Permutation_NoDup; [symmetry; exact Hr|apply idxs_NoDup]).
  assert (zlen rem = zlen palette) as Hlr.
  { apply Permutation_length in Hr. rewrite idxs_length in Hr. unfold zlen in *. lia. }
  unfold apply_remapping.
  rewrite (map_res_ok _ (colour_at palette)).
  2:{ intros v Hv%Hin. unfold colour_at. apply get_ok. lia. }
  cbn [rbind].
  destruct (remap_table rem 0 (repeat 0 (Z.to_nat 256))) as (bm & -> & Lb & P1 & _); auto; try lia.
  { apply Forall_forall. intros v Hv%Hin. lia. }
  cbn [rbind].
  assert (forall v, 0 <= v < zlen palette -> 0 <= znth bm v < zlen palette /\ nth (Z.to_nat (znth bm v)) rem 0 = v) as Hbm.
  { intros v Hv. assert (In v rem) as G by (apply Hin; auto). apply In_nth with (d := 0) in G as (k & Hk & Ek).
    specialize (P1 k Hk). rewrite Ek in P1. rewrite P1. unfold zlen in Hlr. split; [unfold zlen; lia|].
    replace (Z.to_nat (0 + Z.of_nat k)) with k by lia. auto. }
  rewrite (map_res_ok _ (znth bm)).
  2:{ intros v Hv. rewrite Forall_forall in HF. apply HF in Hv. apply get_znth. lia. }
  cbn [rbind]. eexists _, _. split; [reflexivity|].
  assert (zlen (map (colour_at palette) rem) = zlen palette) as Ln by (unfold zlen in *; rewrite map_length; lia).
  split; [|split; [|split]].
  - transitivity (map (colour_at palette) (idxs (Z.to_nat (zlen palette)))); [apply Permutation_map; auto|].
    replace (map (colour_at palette) (idxs (Z.to_nat (zlen palette)))) with palette; [reflexivity|].
    apply (nth_ext _ _ (0, 0, 0, 0) (0, 0, 0, 0)).
    + rewrite map_idxs_length. unfold zlen. lia.
    + intros k Hk. rewrite nth_map_idxs by (unfold zlen; lia). unfold colour_at. rewrite Nat2Z.id. reflexivity.
  - apply map_length.
  - rewrite Ln. apply Forall_forall. intros x (v & <- & Hv)%in_map_iff. apply Hbm.
    rewrite Forall_forall in HF; auto.
  - intros i Hi.
    assert (0 <= znth indexed i < zlen palette) as Hv.
    { rewrite Forall_forall in HF. apply HF. unfold znth. apply nth_In. unfold zlen in Hi. lia. }
    assert (znth (map (znth bm) indexed) i = znth bm (znth indexed i)) as ->.
    { unfold znth at 1. rewrite nth_indep with (d' := znth bm 0) by (rewrite map_length; unfold zlen in Hi; lia).
      rewrite map_nth. reflexivity. }
    destruct (Hbm _ Hv) as (Hr1 & Hr2). unfold colour_at at 1.
    rewrite nth_indep with (d' := colour_at palette 0) by (unfold zlen in Ln, Hr1; lia).
    rewrite map_nth, Hr2. reflexivity.
Qed.

(** ** The whole reordering *)
Lemma reorder_ok indexed palette w h :
  0 < w -> 0 < h -> zlen indexed = w * h -> 4 * (w * h) < 2 ^ 32 -> 1 <= zlen palette <= 256 ->
  (forall v, In v indexed <-> 0 <= v < zlen palette) ->
  exists ni np, optimize_palette_order indexed palette w h = Ok (ni, np) /\ Permutation np palette /\
    length ni = length indexed /\ Forall (fun v => 0 <= v < zlen np) ni /\
    forall i, 0 <= i < zlen indexed -> colour_at np (znth ni i) = colour_at palette (znth indexed i).
Proof.
  intros Hw Hh Hl Hs Hp Hin. set (n := zlen palette) in *.
  assert (Forall (fun v => 0 <= v < n) indexed) as HF by (apply Forall_forall; intros v Hv; apply Hin; auto).
  assert (exists ni np, Ok (indexed, palette) = Ok (ni, np) /\ Permutation np palette /\
    length ni = length indexed /\ Forall (fun v => 0 <= v < zlen np) ni /\
    forall i, 0 <= i < zlen indexed -> colour_at np (znth ni i) = colour_at palette (znth indexed i)) as Hid.
  { exists indexed, palette. split; auto. }
  unfold optimize_palette_order. fold n. destruct (n <=? 2); [exact Hid|].
  destruct (matrix_ok n ltac:(lia) indexed w h) as (m & -> & Im & Sm); auto. cbn [rbind].
  pose proof (weighted_edges_in m) as He. rewrite (ms_len _ _ (mi_shape _ _ _ Im)) in He.
  destruct (weighted_edges m) as [|(r0, r1) edges] eqn:Ee; [exact Hid|].
  destruct (He r0 r1) as (H1 & H2); [left; auto|].
  destruct (mzeng_ok n m Im) with (edges := (r0, r1) :: edges) (r0 := r0) (r1 := r1) as (rem & -> & Hrp);
    auto; try lia.
  { intros P c d Hc Hd Pc Pd. apply (connected n) with (indexed := indexed) (w := w) (h := h) (c := c) (d := d); auto; try lia.
    - apply Hin; auto.
    - apply Hin; auto. }
  cbn [rbind].
  assert (forall r, Permutation r (idxs (Z.to_nat n)) -> Forall (fun v => 0 <= v < 256) r) as H256.
  { intros r Hr. apply Forall_forall. intros v Hv. apply (Permutation_in v Hr) in Hv. apply in_idxs in Hv. lia. }
  destruct (popular_ok indexed rem) as (rem2 & -> & Hrp2); auto; try lia.
  { eapply Forall_impl; [|exact HF]. cbn; intros; lia. }
  cbn [rbind]. apply remapping_ok; auto; try lia.
  rewrite Hrp2. exact Hrp.
Qed.

(** ** Sorting and deduplication *)
Lemma insert_key_in k l x : In x (insert_key k l) <-> x = k \/ In x l.
Proof.
  induction l as [|y l IH]; cbn [insert_key]; [cbn; intuition|].
  destruct (k <=? y); cbn [In]; [intuition|]. rewrite IH. intuition.
Qed.
Lemma sort_keys_in l x : In x (sort_keys l) <-> In x l.
Proof. induction l as [|y l IH]; cbn [sort_keys fold_right]; [reflexivity|]. rewrite insert_key_in, IH. cbn; intuition. Qed.
Inductive ascending : list Z -> Prop :=
| asc_nil : ascending []
| asc_cons x l : Forall (fun y => x <= y) l -> ascending l -> ascending (x :: l).
Lemma insert_asc k l : ascending l -> ascending (insert_key k l).
Proof.
  induction 1 as [|x l Hx Hl IH]; cbn [insert_key]; [constructor; constructor|].
  destruct (Z.leb_spec k x).
  - constructor; [|constructor; auto]. constructor; auto. eapply Forall_impl; [|exact Hx]. cbn; intros; lia.
  - constructor; auto. apply Forall_forall. intros y [->|Hy]%insert_key_in; [lia|].
    rewrite Forall_forall in Hx; auto.
Qed.
Lemma sort_asc l : ascending (sort_keys l).
Proof. induction l; cbn [sort_keys fold_right]; [constructor|apply insert_asc; auto]. Qed.
Lemma dedup_cons2 a b l : dedup (a :: b :: l) = if a =? b then dedup (b :: l) else a :: dedup (b :: l).
Proof. reflexivity. Qed.
Lemma dedup_in l x : In x (dedup l) <-> In x l.
Proof.
  induction l as [|a l IH]; [reflexivity|]. destruct l as [|b l]; [reflexivity|].
  rewrite dedup_cons2. destruct (Z.eqb_spec a b) as [->|].
  - rewrite IH. cbn; intuition.
  - cbn [In] in *. rewrite IH. intuition.
Qed.
Lemma dedup_nodup l : ascending l -> NoDup (dedup l).
Proof.
  induction 1 as [|a l Ha Hl IH]; [constructor|]. destruct l as [|b l]; [constructor; [intros []|constructor]|].
  rewrite dedup_cons2. destruct (Z.eqb_spec a b) as [->|]; auto.
  constructor; auto. rewrite dedup_in. intros G.
  rewrite Forall_forall in Ha. pose proof (Ha b ltac:(left; auto)).
  inversion Hl; subst. destruct G as [G|G]; [lia|]. rewrite Forall_forall in H2. specialize (H2 a G). lia.
Qed.

Lemma color_key_val r g b a : byte4 (r, g, b, a) -> color_key (r, g, b, a) = r * 2 ^ 24 + g * 2 ^ 16 + b * 2 ^ 8 + a.
Proof.
  intros (Hr & Hg & Hb & Ha). unfold is_byte in *. unfold color_key.
  rewrite !Z.shiftl_mul_pow2 by lia.
  replace (Z.lor (r * 2 ^ 24) (g * 2 ^ 16)) with (g * 2 ^ 16 + r * 2 ^ 24).
  2:{ rewrite Z.lor_comm. symmetry. apply lor_disjoint; [lia|]. change (2 ^ 24) with 16777216. change (2 ^ 16) with 65536. lia. }
  replace (g * 2 ^ 16 + r * 2 ^ 24) with ((g + r * 256) * 2 ^ 16) by (change (2 ^ 24) with (256 * 2 ^ 16); ring).
  replace (Z.lor ((g + r * 256) * 2 ^ 16) (b * 2 ^ 8)) with (b * 2 ^ 8 + (g + r * 256) * 2 ^ 16).
  2:{ rewrite Z.lor_comm. symmetry. apply lor_disjoint; [lia|]. change (2 ^ 16) with 65536. change (2 ^ 8) with 256. lia. }
  replace (b * 2 ^ 8 + (g + r * 256) * 2 ^ 16) with ((b + (g + r * 256) * 256) * 2 ^ 8) by (change (2 ^ 16) with (256 * 2 ^ 8); ring).
  rewrite Z.lor_comm, lor_disjoint by (change (2 ^ 8) with 256; lia).
  change (2 ^ 24) with 16777216. change (2 ^ 16) with 65536. change (2 ^ 8) with 256. ring.
Qed.
Lemma key_color_inv c : byte4 c -> key_color (color_key c) = c.
Proof.
  destruct c as [[[r g] b] a]. intros H. rewrite color_key_val by auto. destruct H as (Hr & Hg & Hb & Ha).
  unfold is_byte, key_color, wrap in *. rewrite !Z.shiftr_div_pow2 by lia.
  change (2 ^ 24) with 16777216. change (2 ^ 16) with 65536. change (2 ^ 8) with 256.
  repeat f_equal; lia.
Qed.
Lemma key_color_byte k : byte4 (key_color k).
Proof. unfold key_color, byte4. repeat split; apply wrap8_byte. Qed.

(** ** Building the palette *)
Definition palette_go (px : list rgba) (width height : Z) : res (option (list Z * list rgba)) :=
  let keys := map color_key px in
  let sorted := dedup (sort_keys keys) in
  if 256 <? zlen sorted then Ok None
  else
    let palette := map key_color sorted in
    let* indexed := map_res (fun k => match key_pos k sorted with
                                      | Some i => Ok (wrap 8 i)
                                      | None => Panic
                                      end) keys in
    let* r := optimize_palette_order indexed palette width height in
    Ok (Some r).

Lemma palette_go_ok px w h : 0 < w -> 0 < h -> zlen px = w * h -> 4 * (w * h) < 2 ^ 32 -> Forall byte4 px ->
  palette_go px w h = Ok None \/
  exists ni np, palette_go px w h = Ok (Some (ni, np)) /\ 1 <= zlen np <= 256 /\ Forall byte4 np /\ NoDup np /\
    zlen ni = w * h /\ Forall (fun v => 0 <= v < zlen np) ni /\
    forall i, 0 <= i < w * h -> colour_at np (znth ni i) = nth (Z.to_nat i) px (0, 0, 0, 0).
Proof.
  intros Hw Hh Hl Hs HF. unfold palette_go. set (keys := map color_key px). set (sorted := dedup (sort_keys keys)).
  destruct (Z.ltb_spec 256 (zlen sorted)) as [|Hle]; [left; auto|]. right.
  assert (forall k, In k sorted <-> In k keys) as Hin by (intros k; unfold sorted; rewrite dedup_in; apply sort_keys_in).
  assert (NoDup sorted) as Hnd by (apply dedup_nodup, sort_asc).
  assert (0 < zlen sorted) as Hpos.
  { destruct px as [|p px']; [rewrite zlen_nil in Hl; nia|].
    assert (In (color_key p) sorted) as G by (apply Hin; left; auto).
    destruct sorted; [destruct G|]. rewrite zlen_cons. pose proof (zlen_nonneg sorted). lia. }
  set (idx := fun k => match key_pos k sorted with Some i => i | None => 0 end).
  assert (forall k, In k keys -> 0 <= idx k < zlen sorted /\ nth (Z.to_nat (idx k)) sorted 0 = k /\ key_pos k sorted = Some (idx k)) as Hidx.
  { intros k Hk%Hin. unfold idx. destruct (key_pos_in k sorted Hk) as (i & Ei). rewrite Ei.
    apply key_pos_some in Ei as (H1 & H2). auto. }
  rewrite (map_res_ok _ idx).
  2:{ intros k Hk. destruct (Hidx k Hk) as (H1 & _ & ->). f_equal. apply wrap_id. change (2 ^ 8) with 256. lia. }
  cbn [rbind].
  assert (zlen (map key_color sorted) = zlen sorted) as Lp by (unfold zlen; rewrite map_length; reflexivity).
  assert (zlen (map idx keys) = w * h) as Li by (unfold keys, zlen in *; rewrite !map_length; auto).
  destruct (reorder_ok (map idx keys) (map key_color sorted) w h) as (ni & np & E & Hperm & Hlen & Hrange & Hcol); auto; try lia.
  { intros v. rewrite Lp. rewrite in_map_iff. split.
    - intros (k & <- & Hk). apply Hidx; auto.
    - intros Hv. exists (nth (Z.to_nat v) sorted 0).
      assert (In (nth (Z.to_nat v) sorted 0) sorted) as G by (apply nth_In; unfold zlen in Hv; lia).
      assert (In (nth (Z.to_nat v) sorted 0) keys) as G2 by (apply Hin; auto). split; auto.
      destruct (Hidx _ G2) as (H1 & H2 & _).
      rewrite (NoDup_nth sorted 0) in Hnd. specialize (Hnd (Z.to_nat (idx (nth (Z.to_nat v) sorted 0))) (Z.to_nat v)).
      unfold zlen in *. specialize (Hnd ltac:(lia) ltac:(lia) H2). lia. }
  rewrite E. cbn [rbind]. exists ni, np. split; auto.
  assert (zlen np = zlen sorted) as Ln.
  { apply Permutation_length in Hperm. unfold zlen in *. lia. }
  assert (forall k, In k keys -> exists c, In c px /\ k = color_key c) as Hk.
  { intros k Hk. apply in_map_iff in Hk as (c & <- & Hc). eauto. }
  rewrite Forall_forall in HF.
  split; [lia|]. split; [|split].
  - apply Forall_forall. intros c Hc. apply (Permutation_in c Hperm) in Hc. apply in_map_iff in Hc as (k & <- & _).
    apply key_color_byte.
  - eapply Permutation_NoDup; [symmetry; exact Hperm|].
    assert (forall l, NoDup l -> (forall k, In k l -> In k keys) -> NoDup (map key_color l)) as G.
    { induction 1 as [|k l Hkl Hl' IH]; intros Hsub; cbn [map]; constructor.
      - intros G. apply in_map_iff in G as (k' & Ek & Hk'). apply Hkl.
        destruct (Hk k) as (c & Hc & ->); [apply Hsub; left; auto|].
        destruct (Hk k') as (c' & Hc' & ->); [apply Hsub; right; auto|].
        rewrite !key_color_inv in Ek by auto. subst; auto.
      - apply IH. intros k' Hk'. apply Hsub; right; auto. }
    apply G; auto. intros k; apply Hin.
  - split; [unfold zlen in *; lia|]. split; auto.
    intros i Hi. rewrite Hcol by (rewrite Li; auto).
    set (c := nth (Z.to_nat i) px (0, 0, 0, 0)).
    assert (In c px) as Hc by (apply nth_In; unfold zlen in Hl; lia).
    assert (znth (map idx keys) i = idx (color_key c)) as ->.
    { unfold znth, keys. rewrite map_map.
      rewrite nth_indep with (d' := idx (color_key (0, 0, 0, 0))) by (rewrite map_length; unfold zlen in Hl; lia).
      rewrite (map_nth (fun x => idx (color_key x))). reflexivity. }
    destruct (Hidx (color_key c)) as (H1 & H2 & _); [apply in_map; auto|].
    unfold colour_at. rewrite nth_indep with (d' := key_color 0) by (rewrite map_length; unfold zlen in H1; lia).
    rewrite map_nth, H2. apply key_color_inv. auto.
Qed.

Lemma build_palette_go data ct w h :
  build_palette data ct w h =
  match ct with
  | Rgb => palette_go (map (fun '(r, g, b) => (r, g, b, 255)) (px3 data)) w h
  | Rgba => palette_go (px4 data) w h
  | _ => Ok None
  end.
Proof. destruct ct; reflexivity. Qed.
