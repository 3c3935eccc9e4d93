(** Sums of the kernel over a line: at most six samples count, and their sum stays away
    from zero. *)
From Coq Require Import Reals Lra.
From Flocq Require Import Core.
From Verif Require Import Base Lz77Model F32Model F32Proofs LanczosSpec ResizeSame LanczosReal.
Open Scope Z_scope.

Lemma rsum_app f : forall n m k, rsum f k (n + m) = (rsum f k n + rsum f (k + Z.of_nat n) m)%R.
Proof.
  induction n as [|n IH]; intros m k; cbn [rsum Nat.add]; [rewrite Z.add_0_r; ring|]. rewrite IH. replace (k + 1 + Z.of_nat n) with (k + Z.of_nat (S n)) by lia. ring.
Qed.
Lemma rsum_zero f : forall n k, (forall i, k <= i < k + Z.of_nat n -> f i = 0%R) -> rsum f k n = 0%R.
Proof.
  induction n as [|n IH]; intros k H; cbn [rsum]; [reflexivity|]. rewrite H by lia. rewrite IH; [ring|]. intros i Hi. apply H. lia.
Qed.
Lemma rsum_ext f g : forall n k, (forall i, k <= i < k + Z.of_nat n -> f i = g i) -> rsum f k n = rsum g k n.
Proof.
  induction n as [|n IH]; intros k H; cbn [rsum]; [reflexivity|]. rewrite H by lia. rewrite (IH (k + 1)); [reflexivity|]. intros i Hi. apply H. lia.
Qed.
Lemma rsum_scale f a : forall n k, rsum (fun i => a * f i)%R k n = (a * rsum f k n)%R.
Proof. induction n as [|n IH]; intros k; cbn [rsum]; [ring|]. rewrite IH. ring. Qed.
Lemma rsum_scale_r f a : forall n k, rsum (fun i => f i * a)%R k n = (rsum f k n * a)%R.
Proof. induction n as [|n IH]; intros k; cbn [rsum]; [ring|]. rewrite IH. ring. Qed.
Lemma rsum_abs_ge f : forall n k, (Rabs (rsum f k n) <= rsum (fun i => Rabs (f i)) k n)%R.
Proof.
  induction n as [|n IH]; intros k; cbn [rsum]; [rewrite Rabs_R0; lra|]. eapply Rle_trans; [apply Rabs_triang|]. pose proof (IH (k + 1)). lra.
Qed.
Lemma rsum_le f g : forall n k, (forall i, k <= i < k + Z.of_nat n -> (f i <= g i)%R) -> (rsum f k n <= rsum g k n)%R.
Proof.
  induction n as [|n IH]; intros k H; cbn [rsum]; [lra|]. apply Rplus_le_compat; [apply H; lia|]. apply IH. intros i Hi. apply H. lia.
Qed.
(** the part of a line where a function does not vanish *)
Lemma rsum_part f src st m : 0 <= st -> 0 <= m -> st + m <= src -> (forall i, 0 <= i < src -> i < st \/ st + m <= i -> f i = 0%R) ->
  rsum f 0 (Z.to_nat src) = rsum f st (Z.to_nat m).
Proof.
  intros H1 H2 H3 H. replace (Z.to_nat src) with (Z.to_nat st + (Z.to_nat m + Z.to_nat (src - st - m)))%nat by lia. rewrite !rsum_app.
  rewrite (rsum_zero f (Z.to_nat st) 0) by (intros; apply H; lia).
  rewrite (rsum_zero f (Z.to_nat (src - st - m))) by (intros; apply H; lia).
  replace (0 + Z.of_nat (Z.to_nat st)) with st by lia. ring.
Qed.
Definition mk (f : Z -> R) (a n : Z) : R := if (0 <=? a) && (a <? n) then f a else 0%R.
Definition six (f : Z -> R) (k n : Z) : R := (mk f (k - 2) n + mk f (k - 1) n + mk f k n + mk f (k + 1) n + mk f (k + 2) n + mk f (k + 3) n)%R.
Lemma mk_step f a n : 0 <= n -> mk f a (n + 1) = (mk f a n + (if Z.eq_dec a n then f n else 0))%R.
Proof.
  intro H. unfold mk. destruct (Z.eq_dec a n) as [->|N].
  - destruct (Z.leb_spec 0 n); [|lia]. destruct (Z.ltb_spec n (n + 1)); [|lia]. destruct (Z.ltb_spec n n); [lia|]. cbn [andb]. ring.
  - destruct (Z.leb_spec 0 a); cbn [andb]; [|ring]. destruct (Z.ltb_spec a (n + 1)); destruct (Z.ltb_spec a n); try lia; ring.
Qed.
Lemma six_ok f k : (forall i, i < k - 2 \/ k + 3 < i -> f i = 0%R) -> forall n : nat, rsum f 0 n = six f k (Z.of_nat n).
Proof.
  intros H. induction n as [|n IH].
  - cbn [rsum]. unfold six, mk. assert (forall a, (0 <=? a) && (a <? Z.of_nat 0) = false) as E.
    { intro a. apply andb_false_iff. destruct (Z.leb_spec 0 a); [right; apply Z.ltb_ge; lia|auto]. } rewrite !E. ring.
  - replace (S n) with (n + 1)%nat by lia. rewrite rsum_app. cbn [rsum]. rewrite IH, Z.add_0_l. replace (Z.of_nat (n + 1)) with (Z.of_nat n + 1) by lia.
    unfold six. rewrite !mk_step by lia. set (N := Z.of_nat n). clearbody N.
    assert (f N = (if Z.eq_dec (k - 2) N then f N else 0) + (if Z.eq_dec (k - 1) N then f N else 0) + (if Z.eq_dec k N then f N else 0) + (if Z.eq_dec (k + 1) N then f N else 0) + (if Z.eq_dec (k + 2) N then f N else 0) + (if Z.eq_dec (k + 3) N then f N else 0))%R as E; [|lra].
    destruct (Z.eq_dec (k - 2) N); destruct (Z.eq_dec (k - 1) N); destruct (Z.eq_dec k N); destruct (Z.eq_dec (k + 1) N); destruct (Z.eq_dec (k + 2) N); destruct (Z.eq_dec (k + 3) N); try lia; try ring.
    rewrite H by lia. ring.
Qed.
Lemma mk_lower f a n b : (b <= 0)%R -> (b <= f a)%R -> (b <= mk f a n)%R.
Proof. intros A B. unfold mk. destruct ((0 <=? a) && (a <? n)); auto. Qed.
Lemma mk_in f a n : 0 <= a < n -> mk f a n = f a.
Proof. intro H. unfold mk. destruct (Z.leb_spec 0 a); [|lia]. destruct (Z.ltb_spec a n); [reflexivity|lia]. Qed.
Lemma mk_out f a n : n <= a -> mk f a n = 0%R.
Proof. intro H. unfold mk. destruct (Z.ltb_spec a n); [lia|]. rewrite andb_false_r. reflexivity. Qed.
Lemma mk_abs f a n b : (0 <= b)%R -> (f a <= b)%R -> (mk f a n <= b)%R.
Proof. intros A B. unfold mk. destruct ((0 <=? a) && (a <? n)); auto. Qed.

Definition lzs (c : R) (i : Z) : R := lanczos3 (IZR i - c).
Section C.
  Variables (src : Z) (c : R).
  Hypothesis Hs : 1 <= src.
  Hypothesis Hc : (- / 2 <= c <= IZR src - 0.3)%R.
  Let k := Zfloor c.
  Let kb : (IZR k <= c < IZR k + 1)%R. Proof. split; [apply Zfloor_lb|apply Zfloor_ub]. Qed.
  Lemma lzs_out i : i < k - 2 \/ k + 3 < i -> lzs c i = 0%R.
  Proof.
    intro H. pose proof kb. apply lz_out. destruct H as [H|H].
    - assert (IZR i <= IZR (k - 3))%R by (apply IZR_le; lia). rewrite minus_IZR in *. rewrite Rabs_left; lra.
    - assert (IZR (k + 4) <= IZR i)%R by (apply IZR_le; lia). rewrite plus_IZR in *. rewrite Rabs_pos_eq; lra.
  Qed.
  Lemma lzs_facts : (-0.304 <= lzs c (k - 1) /\ -0.304 <= lzs c (k + 2) /\ 0 <= lzs c (k - 2) /\ 0 <= lzs c (k + 3) /\ 0 <= lzs c k /\ 0 <= lzs c (k + 1))%R.
  Proof.
    pose proof kb. unfold lzs. rewrite !plus_IZR, !minus_IZR.
    assert (forall x, 1 <= Rabs x -> -0.304 <= lanczos3 x)%R as S. { intros x Hx. pose proof (lz_small x 1 ltac:(lra)) as Q. apply Rabs_le_inv in Q. lra. }
    repeat split; [apply S; rewrite Rabs_left|apply S; rewrite Rabs_pos_eq|apply lz_from2; rewrite Rabs_left1|apply lz_from2; rewrite Rabs_pos_eq|apply lz_in1; rewrite Rabs_left1|apply lz_in1; rewrite Rabs_pos_eq]; lra.
  Qed.
  Lemma far x : (1.5 <= Rabs x -> -0.136 <= lanczos3 x)%R.
  Proof. intros Hx. pose proof (lz_small x 1.5 ltac:(lra)) as Q. apply Rabs_le_inv in Q. lra. Qed.
  Lemma total_low : (0.166 <= rsum (lzs c) 0 (Z.to_nat src))%R.
  Proof.
    rewrite (six_ok _ k lzs_out). rewrite Z2Nat.id by lia. pose proof kb as KB. destruct lzs_facts as (A1 & A2 & A3 & A4 & A5 & A6).
    assert (-1 <= k) as K0 by (apply Zfloor_lub; lra).
    assert (k <= src - 1) as K1. { apply Z.lt_le_pred, lt_IZR. lra. }
    unfold six. pose proof (mk_lower _ _ src 0 ltac:(lra) A3) as B3. pose proof (mk_lower _ _ src 0 ltac:(lra) A4) as B4.
    destruct (Rlt_or_le (c - IZR k) (/ 2)) as [T|T].
    - assert (0 <= k) as K2. { destruct (Z.lt_ge_cases k 0); [|auto]. exfalso. assert (k = -1) as E by lia. rewrite E in T. lra. }
      rewrite (mk_in _ k) by lia.
      assert (0.606 <= lzs c k)%R as C0 by (apply lz_half; rewrite Rabs_left1; lra).
      assert (-0.136 <= lzs c (k + 2))%R as C2 by (apply far; rewrite plus_IZR, Rabs_pos_eq; lra).
      pose proof (mk_lower _ _ src (-0.304) ltac:(lra) A1) as B1. pose proof (mk_lower _ _ src (-0.136) ltac:(lra) C2) as B2. pose proof (mk_lower _ _ src 0 ltac:(lra) A6) as B6. lra.
    - pose proof (mk_lower _ _ src 0 ltac:(lra) A5) as B5.
      assert (-0.136 <= lzs c (k - 1))%R as C2 by (apply far; rewrite minus_IZR, Rabs_left1; lra).
      pose proof (mk_lower _ _ src (-0.136) ltac:(lra) C2) as B1.
      destruct (Z.eq_dec k (src - 1)) as [E|E].
      + rewrite (mk_out _ (k + 2)), (mk_out _ (k + 1)) by lia. rewrite (mk_in _ k) by lia.
        assert (IZR k = IZR src - 1)%R as EK by (rewrite E, minus_IZR; reflexivity).
        assert (0.33 <= lzs c k)%R as C0 by (apply lz_07; rewrite Rabs_left1; lra). lra.
      + rewrite (mk_in _ (k + 1)) by lia.
        assert (0.606 <= lzs c (k + 1))%R as C0 by (apply lz_half; rewrite plus_IZR, Rabs_pos_eq; lra).
        pose proof (mk_lower _ _ src (-0.304) ltac:(lra) A2) as B2. lra.
  Qed.
  Lemma total_abs : (rsum (fun i => Rabs (lzs c i)) 0 (Z.to_nat src) <= 2.57)%R.
  Proof.
    rewrite (six_ok _ k) by (intros i Hi; rewrite lzs_out, Rabs_R0; auto). rewrite Z2Nat.id by lia. pose proof kb as KB. unfold six.
    assert (forall a b, (0 < b <= Rabs (IZR a - c))%R -> (mk (fun i => Rabs (lzs c i)) a src <= 0.304 / b ^ 2)%R) as S.
    { intros a b Hb. assert (0 < b ^ 2)%R by (apply pow_lt; lra). apply mk_abs; [apply Rlt_le, Rdiv_lt_0_compat; lra|]. apply lz_small; auto. }
    assert (forall a, (mk (fun i => Rabs (lzs c i)) a src <= 1)%R) as S1 by (intros a; apply mk_abs; [lra|apply lz_le1]).
    pose proof (S1 k). pose proof (S1 (k + 1)).
    destruct (Rle_or_lt (c - IZR k) (/ 2)) as [T|T].
    - pose proof (S (k - 2) 2%R ltac:(rewrite minus_IZR, Rabs_left1; lra)). pose proof (S (k - 1) 1%R ltac:(rewrite minus_IZR, Rabs_left1; lra)).
      pose proof (S (k + 2) 1.5%R ltac:(rewrite plus_IZR, Rabs_pos_eq; lra)). pose proof (S (k + 3) 2.5%R ltac:(rewrite plus_IZR, Rabs_pos_eq; lra)). lra.
    - pose proof (S (k - 2) 2.5%R ltac:(rewrite minus_IZR, Rabs_left1; lra)). pose proof (S (k - 1) 1.5%R ltac:(rewrite minus_IZR, Rabs_left1; lra)).
      pose proof (S (k + 2) 1%R ltac:(rewrite plus_IZR, Rabs_pos_eq; lra)). pose proof (S (k + 3) 2%R ltac:(rewrite plus_IZR, Rabs_pos_eq; lra)). lra.
  Qed.
  (** at a sample the other samples do not count *)
  Lemma total_int j : 0 <= j < src -> (Rabs (IZR j - c) <= / 4194304)%R -> (0.99 <= rsum (lzs c) 0 (Z.to_nat src))%R.
  Proof.
    intros Hj B. rewrite (six_ok _ k lzs_out). rewrite Z2Nat.id by lia. pose proof kb as KB. apply Rabs_le_inv in B.
    assert (j = k \/ j = k + 1) as J. { assert (k - 1 < j < k + 2); [|lia]. split; apply lt_IZR; rewrite ?minus_IZR, ?plus_IZR; lra. }
    assert (forall a, 1 <= Z.abs (a - j) <= 3 -> (- / 3000000 <= mk (lzs c) a src)%R) as O.
    { intros a Ha. apply mk_lower; [lra|]. pose proof (lz_int (IZR a - c) (a - j)) as L. rewrite minus_IZR in L. specialize (L ltac:(apply Rabs_le; lra) Ha). apply Rabs_le_inv in L. unfold lzs. lra. }
    assert (0.999 <= mk (lzs c) j src)%R as M. { rewrite mk_in by auto. pose proof (lz_0 (IZR j - c)) as L. specialize (L ltac:(apply Rabs_le; lra)). unfold lzs. lra. }
    unfold six. destruct J as [->| ->].
    - pose proof (O (k - 2) ltac:(lia)). pose proof (O (k - 1) ltac:(lia)). pose proof (O (k + 1) ltac:(lia)). pose proof (O (k + 2) ltac:(lia)). pose proof (O (k + 3) ltac:(lia)). lra.
    - pose proof (O (k - 2) ltac:(lia)). pose proof (O (k - 1) ltac:(lia)). pose proof (O k ltac:(lia)). pose proof (O (k + 2) ltac:(lia)). pose proof (O (k + 3) ltac:(lia)). lra.
  Qed.
End C.
