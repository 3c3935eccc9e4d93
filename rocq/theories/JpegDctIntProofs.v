(** The fixed-point forward DCT: no overflow, the shortcut, and what it computes. *)
From Coq Require Import Reals Lra Lia.
From Flocq Require Import Core.
From Verif Require Import Base Lz77Model PngFilterModel PngFilterProofs JpegBaseModel JpegBaseProofs JpegDecModel JpegIdctProofs JpegIdctReal JpegDctSpec JpegDctReal JpegDctTop JpegDctIntModel.
Open Scope Z_scope.

Lemma fm a c D : - D <= a <= D -> 0 <= D <= 2 ^ 24 -> - 2 ^ 15 <= c <= 2 ^ 15 -> 8192 * fix_mul a c <= a * c < 8192 * fix_mul a c + 8192.
Proof. intros Ha HD Hc. apply fix_mul_bound. change (2 ^ 24) with 16777216 in HD. change (2 ^ 15) with 32768 in Hc. change (2 ^ 43) with 8796093022208. nia. Qed.
Definition near4 (o x : Z) : Prop := Z.abs (8192 * o - x) <= 4 * 8192.
Lemma fdct_1d_ok D d0 d1 d2 d3 d4 d5 d6 d7 : 0 <= D <= 2 ^ 20 ->
  - D <= d0 <= D -> - D <= d1 <= D -> - D <= d2 <= D -> - D <= d3 <= D -> - D <= d4 <= D -> - D <= d5 <= D -> - D <= d6 <= D -> - D <= d7 <= D ->
  exists o1 o2 o3 o5 o6 o7,
    fdct_1d d0 d1 d2 d3 d4 d5 d6 d7 = Ok [d0 + d7 + (d3 + d4) + (d1 + d6 + (d2 + d5)); o1; o2; o3; d0 + d7 + (d3 + d4) - (d1 + d6 + (d2 + d5)); o5; o6; o7] /\
    near4 o1 (11363 * (d0 - d7) + 9633 * (d1 - d6) + 6437 * (d2 - d5) + 2260 * (d3 - d4)) /\
    near4 o2 (10703 * (d0 + d7 - (d3 + d4)) + 4433 * (d1 + d6 - (d2 + d5))) /\
    near4 o3 (9633 * (d0 - d7) - 2259 * (d1 - d6) - 11362 * (d2 - d5) - 6436 * (d3 - d4)) /\
    near4 o5 (6437 * (d0 - d7) - 11362 * (d1 - d6) + 2261 * (d2 - d5) + 9633 * (d3 - d4)) /\
    near4 o6 (4433 * (d0 + d7 - (d3 + d4)) - 10704 * (d1 + d6 - (d2 + d5))) /\
    near4 o7 (2260 * (d0 - d7) - 6436 * (d1 - d6) + 9633 * (d2 - d5) - 11363 * (d3 - d4)).
Proof.
  intros HD H0 H1 H2 H3 H4 H5 H6 H7. change (2 ^ 20) with 1048576 in HD. unfold fdct_1d.
  do 4 add1. add1. sub1. add1. sub1. do 4 sub1. add1. sub1. add1.
  set (p := d0 + d7 - (d3 + d4)). set (q := d1 + d6 - (d2 + d5)). assert (- (4 * D) <= p <= 4 * D) as Hp by (unfold p; lia). assert (- (4 * D) <= q <= 4 * D) as Hq by (unfold q; lia).
  set (e0 := d0 - d7). set (e1 := d1 - d6). set (e2 := d2 - d5). set (e3 := d3 - d4).
  assert (- (2 * D) <= e0 <= 2 * D) as E0 by (unfold e0; lia). assert (- (2 * D) <= e1 <= 2 * D) as E1 by (unfold e1; lia).
  assert (- (2 * D) <= e2 <= 2 * D) as E2 by (unfold e2; lia). assert (- (2 * D) <= e3 <= 2 * D) as E3 by (unfold e3; lia).
  set (s0 := d0 + d7 + (d3 + d4) + (d1 + d6 + (d2 + d5))). set (s4 := d0 + d7 + (d3 + d4) - (d1 + d6 + (d2 + d5))).
  clearbody p q e0 e1 e2 e3 s0 s4. clear H0 H1 H2 H3 H4 H5 H6 H7 d0 d1 d2 d3 d4 d5 d6 d7.
  pose proof (fm (p + q) 4433 (8 * D) ltac:(lia) ltac:(change (2 ^ 24) with 16777216; lia) ltac:(lia)) as A1.
  pose proof (fm p 6270 (8 * D) ltac:(lia) ltac:(change (2 ^ 24) with 16777216; lia) ltac:(lia)) as A2.
  pose proof (fm q 15137 (8 * D) ltac:(lia) ltac:(change (2 ^ 24) with 16777216; lia) ltac:(lia)) as A3.
  set (a1 := fix_mul (p + q) 4433) in *. set (a2 := fix_mul p 6270) in *. set (a3 := fix_mul q 15137) in *. clearbody a1 a2 a3.
  add1. sub1.
  set (o2 := a1 + a2). set (o6 := a1 - a3).
  assert (near4 o2 (10703 * p + 4433 * q)) as O2 by (unfold near4, o2; lia). assert (near4 o6 (4433 * p - 10704 * q)) as O6 by (unfold near4, o6; lia).
  clearbody o2 o6. clear A1 A2 A3 a1 a2 a3. do 5 add1.
  pose proof (fm (e0 + e2 + (e1 + e3)) 9633 (8 * D) ltac:(lia) ltac:(change (2 ^ 24) with 16777216; lia) ltac:(lia)) as Z5.
  pose proof (fm e0 12299 (8 * D) ltac:(lia) ltac:(change (2 ^ 24) with 16777216; lia) ltac:(lia)) as B0.
  pose proof (fm e1 25172 (8 * D) ltac:(lia) ltac:(change (2 ^ 24) with 16777216; lia) ltac:(lia)) as B1.
  pose proof (fm e2 16819 (8 * D) ltac:(lia) ltac:(change (2 ^ 24) with 16777216; lia) ltac:(lia)) as B2.
  pose proof (fm e3 2446 (8 * D) ltac:(lia) ltac:(change (2 ^ 24) with 16777216; lia) ltac:(lia)) as B3.
  pose proof (fm (e0 + e3) (-7373) (8 * D) ltac:(lia) ltac:(change (2 ^ 24) with 16777216; lia) ltac:(lia)) as Z1.
  pose proof (fm (e1 + e2) (-20995) (8 * D) ltac:(lia) ltac:(change (2 ^ 24) with 16777216; lia) ltac:(lia)) as Z2.
  pose proof (fm (e0 + e2) (-3196) (8 * D) ltac:(lia) ltac:(change (2 ^ 24) with 16777216; lia) ltac:(lia)) as Z3.
  pose proof (fm (e1 + e3) (-16069) (8 * D) ltac:(lia) ltac:(change (2 ^ 24) with 16777216; lia) ltac:(lia)) as Z4.
  set (z5 := fix_mul (e0 + e2 + (e1 + e3)) 9633) in *. set (b0 := fix_mul e0 12299) in *. set (b1 := fix_mul e1 25172) in *. set (b2 := fix_mul e2 16819) in *. set (b3 := fix_mul e3 2446) in *.
  set (z1 := fix_mul (e0 + e3) (-7373)) in *. set (z2 := fix_mul (e1 + e2) (-20995)) in *. set (z3 := fix_mul (e0 + e2) (-3196)) in *. set (z4 := fix_mul (e1 + e3) (-16069)) in *.
  clearbody z5 b0 b1 b2 b3 z1 z2 z3 z4. do 10 add1.
  do 6 eexists. split; [reflexivity|]. split; [unfold near4; lia|]. split; [exact O2|]. split; [unfold near4; lia|]. split; [unfold near4; lia|]. split; [exact O6|]. unfold near4; lia.
Qed.
(** ** Against the real transform *)
Definition scaled (k : nat) (X : nat -> R) : R := (4 * C 4 * T k X)%R.
Lemma C44 : (2 * C 4 * C 4 = 1)%R. Proof. rewrite sq. change (4 + 4)%nat with 8%nat. rewrite C8. ring. Qed.
Lemma C41 : (2 * C 4 * C 1 = C 5 + C 3)%R. Proof. exact (C_mul 4 1 ltac:(lia)). Qed.
Lemma C43 : (2 * C 4 * C 3 = C 7 + C 1)%R. Proof. exact (C_mul 4 3 ltac:(lia)). Qed.
Lemma C42 : (2 * C 4 * C 2 = C 6 + C 2)%R. Proof. exact (C_mul 4 2 ltac:(lia)). Qed.
Lemma C45 : (2 * C 4 * C 5 = C 1 - C 7)%R.
Proof. pose proof (C_mul 5 4 ltac:(lia)) as H. change (5 + 4)%nat with 9%nat in H. change (5 - 4)%nat with 1%nat in H. pose proof (C_half 7 ltac:(lia)) as K. change (16 - 7)%nat with 9%nat in K. lra. Qed.
Lemma C46 : (2 * C 4 * C 6 = C 2 - C 6)%R.
Proof. pose proof (C_mul 6 4 ltac:(lia)) as H. change (6 + 4)%nat with 10%nat in H. change (6 - 4)%nat with 2%nat in H. pose proof (C_half 6 ltac:(lia)) as K. change (16 - 6)%nat with 10%nat in K. lra. Qed.
Lemma C47 : (2 * C 4 * C 7 = C 3 - C 5)%R.
Proof. pose proof (C_mul 7 4 ltac:(lia)) as H. change (7 + 4)%nat with 11%nat in H. change (7 - 4)%nat with 3%nat in H. pose proof (C_half 5 ltac:(lia)) as K. change (16 - 5)%nat with 11%nat in K. lra. Qed.
Section Scaled.
  Variable X : nat -> R.
  Notation x i := (X i).
  Lemma scaled0 : scaled 0 X = (x 0 + x 7 + (x 3 + x 4) + (x 1 + x 6 + (x 2 + x 5)))%R.
  Proof. unfold scaled. rewrite T0. set (s := (_ + _)%R). replace (4 * C 4 * (/ 2 * C 4 * s))%R with (2 * C 4 * C 4 * s)%R by field. rewrite C44. unfold s. ring. Qed.
  Lemma scaled4 : scaled 4 X = (x 0 + x 7 + (x 3 + x 4) - (x 1 + x 6 + (x 2 + x 5)))%R.
  Proof. unfold scaled. rewrite T4. set (s := (_ - _)%R). replace (4 * C 4 * (/ 2 * C 4 * s))%R with (2 * C 4 * C 4 * s)%R by field. rewrite C44. unfold s. ring. Qed.
  Ltac go := intros; unfold scaled; rewrite ?T1, ?T2, ?T3, ?T5, ?T6, ?T7; rewrite ?(Rmult_plus_distr_l), ?(Rmult_minus_distr_l).
  Lemma scaled1 : scaled 1 X = ((C 5 + C 3) * (x 0 - x 7) + (C 7 + C 1) * (x 1 - x 6) + (C 1 - C 7) * (x 2 - x 5) + (C 3 - C 5) * (x 3 - x 4))%R.
  Proof. unfold scaled. rewrite T1, <- C41, <- C43, <- C45, <- C47. field. Qed.
  Lemma scaled3 : scaled 3 X = ((C 7 + C 1) * (x 0 - x 7) - (C 3 - C 5) * (x 1 - x 6) - (C 5 + C 3) * (x 2 - x 5) - (C 1 - C 7) * (x 3 - x 4))%R.
  Proof. unfold scaled. rewrite T3, <- C41, <- C43, <- C45, <- C47. field. Qed.
  Lemma scaled5 : scaled 5 X = ((C 1 - C 7) * (x 0 - x 7) - (C 5 + C 3) * (x 1 - x 6) + (C 3 - C 5) * (x 2 - x 5) + (C 7 + C 1) * (x 3 - x 4))%R.
  Proof. unfold scaled. rewrite T5, <- C41, <- C43, <- C45, <- C47. field. Qed.
  Lemma scaled7 : scaled 7 X = ((C 3 - C 5) * (x 0 - x 7) - (C 1 - C 7) * (x 1 - x 6) + (C 7 + C 1) * (x 2 - x 5) - (C 5 + C 3) * (x 3 - x 4))%R.
  Proof. unfold scaled. rewrite T7, <- C41, <- C43, <- C45, <- C47. field. Qed.
  Lemma scaled2 : scaled 2 X = ((C 6 + C 2) * (x 0 + x 7 - (x 3 + x 4)) + (C 2 - C 6) * (x 1 + x 6 - (x 2 + x 5)))%R.
  Proof. unfold scaled. rewrite T2, <- C42, <- C46. field. Qed.
  Lemma scaled6 : scaled 6 X = ((C 2 - C 6) * (x 0 + x 7 - (x 3 + x 4)) - (C 6 + C 2) * (x 1 + x 6 - (x 2 + x 5)))%R.
  Proof. unfold scaled. rewrite T6, <- C42, <- C46. field. Qed.
End Scaled.
Lemma near4_R o x : near4 o x -> (Rabs (IZR o - IZR x / 8192) <= 4)%R.
Proof.
  intros H. unfold near4 in H. apply IZR_le in H. rewrite abs_IZR, minus_IZR, mult_IZR in H. change (IZR (4 * 8192)) with 32768%R in H.
  apply Rabs_le. apply Rabs_le_inv in H. lra.
Qed.
Lemma pm a b e E : (Rabs (a - b) <= 0.00015)%R -> (Rabs e <= E)%R -> (- (0.00015 * E) <= a * e - b * e <= 0.00015 * E)%R.
Proof.
  intros H He. apply Rabs_le_inv. replace (a * e - b * e)%R with ((a - b) * e)%R by ring. rewrite Rabs_mult. apply Rmult_le_compat; auto using Rabs_pos.
Qed.
Ltac pushz H := repeat first [rewrite plus_IZR in H|rewrite minus_IZR in H|rewrite mult_IZR in H].
Lemma fdct_line_real D (X : nat -> Z) : 0 <= D <= 2 ^ 20 -> (forall i, (i < 8)%nat -> - D <= X i <= D) ->
  exists o, fdct_1d (X 0%nat) (X 1%nat) (X 2%nat) (X 3%nat) (X 4%nat) (X 5%nat) (X 6%nat) (X 7%nat) = Ok o /\ length o = 8%nat /\
    (forall k, (k < 8)%nat -> (Rabs (IZR (nth k o 0%Z) - scaled k (fun i => IZR (X i))) <= 4 + 0.0012 * IZR D)%R) /\
    IZR (nth 0 o 0) = scaled 0 (fun i => IZR (X i)) /\ IZR (nth 4 o 0) = scaled 4 (fun i => IZR (X i)) /\
    (forall k, (k < 8)%nat -> Z.abs (nth k o 0) <= 8 * D + 4).
Proof.
  intros HD HX. pose proof (HX 0%nat ltac:(lia)) as H0. pose proof (HX 1%nat ltac:(lia)) as H1. pose proof (HX 2%nat ltac:(lia)) as H2. pose proof (HX 3%nat ltac:(lia)) as H3.
  pose proof (HX 4%nat ltac:(lia)) as H4. pose proof (HX 5%nat ltac:(lia)) as H5. pose proof (HX 6%nat ltac:(lia)) as H6. pose proof (HX 7%nat ltac:(lia)) as H7.
  destruct (fdct_1d_ok D _ _ _ _ _ _ _ _ HD H0 H1 H2 H3 H4 H5 H6 H7) as (o1 & o2 & o3 & o5 & o6 & o7 & E & N1 & N2 & N3 & N5 & N6 & N7).
  eexists. split; [exact E|]. split; [reflexivity|].
  assert (forall k, (k < 8)%nat -> Z.abs (nth k [X 0%nat + X 7%nat + (X 3%nat + X 4%nat) + (X 1%nat + X 6%nat + (X 2%nat + X 5%nat)); o1; o2; o3; X 0%nat + X 7%nat + (X 3%nat + X 4%nat) - (X 1%nat + X 6%nat + (X 2%nat + X 5%nat)); o5; o6; o7] 0) <= 8 * D + 4) as B.
  { intros k Hk. clear E HX HD. unfold near4 in *. do 8 (destruct k as [|k]; [cbn [nth]; clear Hk; lia|]). lia. }
  assert (IZR (X 0%nat + X 7%nat + (X 3%nat + X 4%nat) + (X 1%nat + X 6%nat + (X 2%nat + X 5%nat))) = scaled 0 (fun i => IZR (X i))) as S0 by (rewrite scaled0; rewrite !plus_IZR; ring).
  assert (IZR (X 0%nat + X 7%nat + (X 3%nat + X 4%nat) - (X 1%nat + X 6%nat + (X 2%nat + X 5%nat))) = scaled 4 (fun i => IZR (X i))) as S4 by (rewrite scaled4; rewrite minus_IZR, !plus_IZR; ring).
  split; [|split; [exact S0|split; [exact S4|exact B]]]. clear B E.
  apply near4_R in N1, N2, N3, N5, N6, N7. pushz N1. pushz N2. pushz N3. pushz N5. pushz N6. pushz N7.
  pose proof C1b. pose proof C2b. pose proof C3b. pose proof C5b. pose proof C6b. pose proof C7b.
  assert (forall a b, - D <= X a <= D -> - D <= X b <= D -> (Rabs (IZR (X a) - IZR (X b)) <= 2 * IZR D)%R) as ED.
  { intros a b [A1 A2] [B1 B2]. apply IZR_le in A1, A2, B1, B2. rewrite opp_IZR in *. apply Rabs_le. lra. }
  pose proof (ED 0%nat 7%nat H0 H7) as E0. pose proof (ED 1%nat 6%nat H1 H6) as E1. pose proof (ED 2%nat 5%nat H2 H5) as E2. pose proof (ED 3%nat 4%nat H3 H4) as E3.
  assert (forall a b c d, - D <= X a <= D -> - D <= X b <= D -> - D <= X c <= D -> - D <= X d <= D -> (Rabs (IZR (X a) + IZR (X b) - (IZR (X c) + IZR (X d))) <= 4 * IZR D)%R) as EE.
  { intros a b c d [A1 A2] [B1 B2] [G1 G2] [F1 F2]. apply IZR_le in A1, A2, B1, B2, G1, G2, F1, F2. rewrite opp_IZR in *. apply Rabs_le. lra. }
  pose proof (EE 0%nat 7%nat 3%nat 4%nat H0 H7 H3 H4) as P. pose proof (EE 1%nat 6%nat 2%nat 5%nat H1 H6 H2 H5) as Q.
  assert (0 <= IZR D)%R as D0 by (apply IZR_le; lia).
  clear HX H0 H1 H2 H3 H4 H5 H6 H7 ED EE. intros k Hk.
  destruct k as [|k]; [cbn [nth]; rewrite S0, Rminus_diag_eq, Rabs_R0 by reflexivity; lra|].
  destruct k as [|k]. { cbn [nth]. rewrite scaled1.
    pose proof (pm (11363 / 8192) (C 5 + C 3) _ _ ltac:(apply Rabs_le; lra) E0). pose proof (pm (9633 / 8192) (C 7 + C 1) _ _ ltac:(apply Rabs_le; lra) E1).
    pose proof (pm (6437 / 8192) (C 1 - C 7) _ _ ltac:(apply Rabs_le; lra) E2). pose proof (pm (2260 / 8192) (C 3 - C 5) _ _ ltac:(apply Rabs_le; lra) E3).
    apply Rabs_le_inv in N1. apply Rabs_le. lra. }
  destruct k as [|k]. { cbn [nth]. rewrite scaled2.
    pose proof (pm (10703 / 8192) (C 6 + C 2) _ _ ltac:(apply Rabs_le; lra) P). pose proof (pm (4433 / 8192) (C 2 - C 6) _ _ ltac:(apply Rabs_le; lra) Q).
    apply Rabs_le_inv in N2. apply Rabs_le. lra. }
  destruct k as [|k]. { cbn [nth]. rewrite scaled3.
    pose proof (pm (9633 / 8192) (C 7 + C 1) _ _ ltac:(apply Rabs_le; lra) E0). pose proof (pm (2259 / 8192) (C 3 - C 5) _ _ ltac:(apply Rabs_le; lra) E1).
    pose proof (pm (11362 / 8192) (C 5 + C 3) _ _ ltac:(apply Rabs_le; lra) E2). pose proof (pm (6436 / 8192) (C 1 - C 7) _ _ ltac:(apply Rabs_le; lra) E3).
    apply Rabs_le_inv in N3. apply Rabs_le. lra. }
  destruct k as [|k]; [cbn [nth]; rewrite S4, Rminus_diag_eq, Rabs_R0 by reflexivity; lra|].
  destruct k as [|k]. { cbn [nth]. rewrite scaled5.
    pose proof (pm (6437 / 8192) (C 1 - C 7) _ _ ltac:(apply Rabs_le; lra) E0). pose proof (pm (11362 / 8192) (C 5 + C 3) _ _ ltac:(apply Rabs_le; lra) E1).
    pose proof (pm (2261 / 8192) (C 3 - C 5) _ _ ltac:(apply Rabs_le; lra) E2). pose proof (pm (9633 / 8192) (C 7 + C 1) _ _ ltac:(apply Rabs_le; lra) E3).
    apply Rabs_le_inv in N5. apply Rabs_le. lra. }
  destruct k as [|k]. { cbn [nth]. rewrite scaled6.
    pose proof (pm (4433 / 8192) (C 2 - C 6) _ _ ltac:(apply Rabs_le; lra) P). pose proof (pm (10704 / 8192) (C 6 + C 2) _ _ ltac:(apply Rabs_le; lra) Q).
    apply Rabs_le_inv in N6. apply Rabs_le. lra. }
  destruct k as [|k]. { cbn [nth]. rewrite scaled7.
    pose proof (pm (2260 / 8192) (C 3 - C 5) _ _ ltac:(apply Rabs_le; lra) E0). pose proof (pm (6436 / 8192) (C 1 - C 7) _ _ ltac:(apply Rabs_le; lra) E1).
    pose proof (pm (9633 / 8192) (C 7 + C 1) _ _ ltac:(apply Rabs_le; lra) E2). pose proof (pm (11363 / 8192) (C 5 + C 3) _ _ ltac:(apply Rabs_le; lra) E3).
    apply Rabs_le_inv in N7. apply Rabs_le. lra. }
  lia.
Qed.

(** ** Two passes *)
Lemma map_res_idxs {B} (f : Z -> res B) (Q : Z -> B -> Prop) n d : (forall i, 0 <= i < Z.of_nat n -> exists b, f i = Ok b /\ Q i b) ->
  exists l, map_res f (idxs n) = Ok l /\ length l = n /\ forall i, (i < n)%nat -> Q (Z.of_nat i) (nth i l d).
Proof.
  intros H. assert (forall m, (forall i, In i m -> 0 <= i < Z.of_nat n) -> exists l, map_res f m = Ok l /\ Forall2 Q m l) as G.
  { induction m as [|i m IH]; intros Hm; cbn [map_res]; [exists []; auto|]. destruct (H i (Hm i (or_introl eq_refl))) as (b & -> & Qb).
    destruct IH as (l & -> & F); [intros; apply Hm; right; auto|]. cbn [rbind]. exists (b :: l). auto. }
  destruct (G (idxs n)) as (l & E & F); [intros i Hi; apply in_idxs in Hi; exact Hi|]. exists l. split; [exact E|].
  assert (length l = n) as L by (clear -F; rewrite <- (idxs_length n); symmetry; remember (idxs n) as m eqn:Em; clear Em; induction F; cbn [length]; auto). split; [exact L|].
  intros i Hi. rewrite <- (idxs_nth n i Hi). clear -F Hi. rewrite <- (idxs_length n) in Hi. revert i Hi. induction F as [|a b m l Hab F IH]; intros i Hi; cbn [length] in *; [lia|].
  destruct i; cbn [nth]; auto. apply IH. lia.
Qed.
Definition up (k : Z) : bool := (k =? 0) || (k =? 4).
Lemma pass1_nth o k : 0 <= k < 8 -> (forall i, (i < 8)%nat -> Z.abs (nth i o 0) <= 2 ^ 19) -> nth (Z.to_nat k) (pass1_scale o) 0 = (if up k then 4 else 1) * znth o k.
Proof.
  intros Hk B. unfold pass1_scale. change (nth (Z.to_nat k) ?l 0) with (znth l k). rewrite (znth_map_idxs (fun k => if (k =? 0) || (k =? 4) then as_i32 (Z.shiftl (znth o k) 2) else znth o k)) by (change (Z.of_nat 8) with 8; lia).
  fold (up k). destruct (up k); [|lia]. specialize (B (Z.to_nat k) ltac:(lia)). change (2 ^ 19) with 524288 in B. fold (znth o k) in B.
  rewrite Z.shiftl_mul_pow2 by lia. change (2 ^ 2) with 4. rewrite as_i32_id by (change (2 ^ 31) with 2147483648; lia). lia.
Qed.
Lemma line_map (g : Z -> Z) : fdct_line (map g (idxs 8)) = fdct_1d (g 0) (g 1) (g 2) (g 3) (g 4) (g 5) (g 6) (g 7). Proof. reflexivity. Qed.
Lemma pass2_ok o : length o = 8%nat -> (forall k, (k < 8)%nat -> Z.abs (nth k o 0) <= 2 ^ 30) ->
  exists l, pass2_scale o = Ok l /\ length l = 8%nat /\ forall k, (k < 8)%nat -> nth k l 0 = (nth k o 0 + 16) / 32.
Proof.
  intros L B. unfold pass2_scale. exists (map (fun x => (x + 16) / 32) o). split; [|split; [rewrite map_length; exact L|]].
  - assert (Forall (fun x => Z.abs x <= 2 ^ 30) o) as F. { apply Forall_forall. intros x Hx. apply In_nth with (d := 0) in Hx. destruct Hx as (i & Hi & <-). apply B. lia. }
    clear L B. induction F as [|x o Hx F IH]; cbn [map_res map]; [reflexivity|]. change (2 ^ 30) with 1073741824 in Hx. unfold add32 at 1. rewrite i32_ok by (change (2 ^ 31) with 2147483648; lia). cbn [rbind].
    rewrite Z.shiftr_div_pow2 by lia. change (2 ^ 5) with 32. rewrite IH. reflexivity.
  - intros k Hk. rewrite (nth_indep _ _ ((0 + 16) / 32)) by (rewrite map_length; lia). rewrite (map_nth (fun x => (x + 16) / 32)). reflexivity.
Qed.
(** the workspace after the first pass *)
Lemma rows_ok D block : 0 <= D <= 2 ^ 15 -> (forall i, 0 <= i < 64 -> - D <= znth block i <= D) ->
  exists rows, map_res (fun r => let* o := fdct_line (map (fun i => znth block (8 * r + i)) (idxs 8)) in Ok (pass1_scale o)) (idxs 8) = Ok rows /\ length rows = 8%nat /\
    forall r u, (r < 8)%nat -> (u < 8)%nat -> let w := nth u (nth r rows []) 0 in let s := scaled u (fun i => IZR (znth block (8 * Z.of_nat r + Z.of_nat i))) in
      Z.abs w <= 2 ^ 20 /\ if up (Z.of_nat u) then IZR w = (4 * s)%R /\ Z.abs w <= 4 * (8 * D) else (Rabs (IZR w - s) <= 4 + 0.0012 * IZR D)%R /\ Z.abs w <= 8 * D + 4.
Proof.
  intros HD HB. change (2 ^ 15) with 32768 in HD. change (2 ^ 20) with 1048576.
  destruct (map_res_idxs (fun r => let* o := fdct_line (map (fun i => znth block (8 * r + i)) (idxs 8)) in Ok (pass1_scale o))
    (fun r row => forall u, (u < 8)%nat -> let w := nth u row 0 in let s := scaled u (fun i => IZR (znth block (8 * r + Z.of_nat i))) in
      Z.abs w <= 1048576 /\ if up (Z.of_nat u) then IZR w = (4 * s)%R /\ Z.abs w <= 4 * (8 * D) else (Rabs (IZR w - s) <= 4 + 0.0012 * IZR D)%R /\ Z.abs w <= 8 * D + 4) 8 []) as (rows & E & L & H).
  - intros r Hr. change (Z.of_nat 8) with 8 in Hr. rewrite line_map.
    destruct (fdct_line_real D (fun i => znth block (8 * r + Z.of_nat i))) as (o & E & L & H & H0 & H4 & B). { change (2 ^ 20) with 1048576. lia. } { intros i Hi. apply HB. lia. }
    change (Z.of_nat 0) with 0 in E; change (Z.of_nat 1) with 1 in E; change (Z.of_nat 2) with 2 in E; change (Z.of_nat 3) with 3 in E; change (Z.of_nat 4) with 4 in E; change (Z.of_nat 5) with 5 in E; change (Z.of_nat 6) with 6 in E; change (Z.of_nat 7) with 7 in E. rewrite E. cbn [rbind]. eexists. split; [reflexivity|]. intros u Hu. cbv zeta.
    assert (nth u (pass1_scale o) 0 = (if up (Z.of_nat u) then 4 else 1) * nth u o 0) as ->.
    { rewrite <- (Nat2Z.id u) at 1. rewrite pass1_nth; [unfold znth; rewrite Nat2Z.id; reflexivity|lia|intros i Hi; specialize (B i Hi); change (2 ^ 19) with 524288; lia]. }
    specialize (H u Hu). specialize (B u Hu).
    destruct (up (Z.of_nat u)) eqn:U.
    + assert (IZR (nth u o 0%Z) = scaled u (fun i => IZR (znth block (8 * r + Z.of_nat i)))) as EX. { unfold up in U. apply orb_prop in U. destruct U as [U|U]; apply Z.eqb_eq in U; [replace u with 0%nat by lia; exact H0|replace u with 4%nat by lia; exact H4]. }
      assert (Z.abs (nth u o 0) <= 8 * D) as BX.
      { unfold fdct_1d in E. clear -E U Hu HB Hr HD. pose proof (HB (8 * r + 0) ltac:(lia)). pose proof (HB (8 * r + 1) ltac:(lia)). pose proof (HB (8 * r + 2) ltac:(lia)). pose proof (HB (8 * r + 3) ltac:(lia)).
        pose proof (HB (8 * r + 4) ltac:(lia)). pose proof (HB (8 * r + 5) ltac:(lia)). pose proof (HB (8 * r + 6) ltac:(lia)). pose proof (HB (8 * r + 7) ltac:(lia)).
        fold (fdct_1d (znth block (8 * r + 0)) (znth block (8 * r + 1)) (znth block (8 * r + 2)) (znth block (8 * r + 3)) (znth block (8 * r + 4)) (znth block (8 * r + 5)) (znth block (8 * r + 6)) (znth block (8 * r + 7))) in E.
        destruct (fdct_1d_ok D (znth block (8 * r + 0)) (znth block (8 * r + 1)) (znth block (8 * r + 2)) (znth block (8 * r + 3)) (znth block (8 * r + 4)) (znth block (8 * r + 5)) (znth block (8 * r + 6)) (znth block (8 * r + 7))) as (o1 & o2 & o3 & o5 & o6 & o7 & E' & _); auto.
        { change (2 ^ 20) with 1048576. lia. } rewrite E' in E. injection E as <-. clear E'. unfold up in U. apply orb_prop in U. destruct U as [U|U]; apply Z.eqb_eq in U; [replace u with 0%nat by lia|replace u with 4%nat by lia]; cbn [nth]; lia. }
      split; [lia|]. split; [rewrite mult_IZR, EX; reflexivity|lia].
    + rewrite Z.mul_1_l. split; [lia|]. split; [exact H|exact B].
  - exists rows. split; [exact E|]. split; [exact L|]. intros r u Hr Hu. apply (H r Hr u Hu).
Qed.
Lemma T_scal u c X : T u (fun x => c * X x)%R = (c * T u X)%R.
Proof. unfold T, rsum. cbn [map seq fold_right]. ring. Qed.
Lemma C4_sq : (C 4 * C 4 = / 2)%R.
Proof. pose proof (sq 4) as E. change (4 + 4)%nat with 8%nat in E. rewrite C8 in E. lra. Qed.
(** how much of coefficient [n] the code keeps *)
Definition share (n : nat) : R := if up (Z.of_nat (n mod 8)) then 1%R else (/ 4)%R.
Lemma cols_ok rows (M : nat -> Z) (g : nat -> nat -> Z) : length rows = 8%nat -> (forall r u, (r < 8)%nat -> (u < 8)%nat -> nth u (nth r rows []) 0 = g r u) ->
  (forall u, (u < 8)%nat -> 0 <= M u <= 2 ^ 20) -> (forall r u, (r < 8)%nat -> (u < 8)%nat -> Z.abs (g r u) <= M u) ->
  exists cols, map_res (fun c => let* o := fdct_line (map (fun row => znth row c) rows) in pass2_scale o) (idxs 8) = Ok cols /\ length cols = 8%nat /\
    forall u v, (u < 8)%nat -> (v < 8)%nat -> (Rabs (IZR (nth v (nth u cols []) 0%Z) - scaled v (fun y => IZR (g y u)) / 32) <= (4 + 0.0012 * IZR (M u)) / 32 + / 2)%R.
Proof.
  intros L G HM HG.
  destruct (map_res_idxs (fun c => let* o := fdct_line (map (fun row => znth row c) rows) in pass2_scale o)
    (fun c col => forall v, (v < 8)%nat -> (Rabs (IZR (nth v col 0%Z) - scaled v (fun y => IZR (g y (Z.to_nat c))) / 32) <= (4 + 0.0012 * IZR (M (Z.to_nat c))) / 32 + / 2)%R) 8 []) as (cols & E & Lc & H).
  - intros c Hc. change (Z.of_nat 8) with 8 in Hc. set (u := Z.to_nat c). assert (u < 8)%nat as Hu by (unfold u; lia).
    destruct (fdct_line_real (M u) (fun y => g y u)) as (o & E & Lo & H & _ & _ & B). { apply HM; auto. } { intros y Hy. specialize (HG y u Hy Hu). lia. }
    assert (fdct_line (map (fun row => znth row c) rows) = Ok o) as ->.
    { rewrite <- E. destruct rows as [|r0 [|r1 [|r2 [|r3 [|r4 [|r5 [|r6 [|r7 [|]]]]]]]]]; try discriminate L. unfold fdct_line. cbn [map znth nth].
      change (znth [znth r0 c; znth r1 c; znth r2 c; znth r3 c; znth r4 c; znth r5 c; znth r6 c; znth r7 c]) with (fun i => nth (Z.to_nat i) [znth r0 c; znth r1 c; znth r2 c; znth r3 c; znth r4 c; znth r5 c; znth r6 c; znth r7 c] 0). cbv beta.
      change (Z.to_nat 0) with 0%nat; change (Z.to_nat 1) with 1%nat; change (Z.to_nat 2) with 2%nat; change (Z.to_nat 3) with 3%nat; change (Z.to_nat 4) with 4%nat; change (Z.to_nat 5) with 5%nat; change (Z.to_nat 6) with 6%nat; change (Z.to_nat 7) with 7%nat.
      cbn [nth]. unfold znth. fold u. rewrite <- (G 0%nat u), <- (G 1%nat u), <- (G 2%nat u), <- (G 3%nat u), <- (G 4%nat u), <- (G 5%nat u), <- (G 6%nat u), <- (G 7%nat u) by lia. reflexivity. }
    cbn [rbind]. destruct (pass2_ok o Lo) as (l & El & Ll & Hl). { intros k Hk. specialize (B k Hk). specialize (HM u Hu). change (2 ^ 20) with 1048576 in HM. change (2 ^ 30) with 1073741824. lia. }
    rewrite El. eexists. split; [reflexivity|]. intros v Hv. rewrite Hl by auto. specialize (H v Hv). fold u.
    pose proof (Z.div_mod (nth v o 0 + 16) 32 ltac:(lia)) as DM. pose proof (Z.mod_pos_bound (nth v o 0 + 16) 32 ltac:(lia)) as MB.
    set (q := (nth v o 0 + 16) / 32) in *. set (m := (nth v o 0 + 16) mod 32) in *. assert (IZR (nth v o 0%Z) = 32 * IZR q + IZR m - 16)%R as Eo. { rewrite <- !mult_IZR, <- plus_IZR, <- minus_IZR. f_equal. lia. }
    assert (0 <= IZR m <= 31)%R as Rm by (split; apply IZR_le; lia). rewrite Eo in H. apply Rabs_le_inv in H. apply Rabs_le. lra.
  - exists cols. split; [exact E|]. split; [exact Lc|]. intros u v Hu Hv. specialize (H u Hu v Hv). rewrite Nat2Z.id in H. exact H.
Qed.
Lemma flat8 (cols : list (list Z)) n : length cols = 8%nat -> (n < 64)%nat -> nth n (flat_map (fun r => map (fun col => znth col r) cols) (idxs 8)) 0 = nth (n / 8) (nth (n mod 8) cols []) 0.
Proof.
  intros L Hn. do 8 (destruct cols as [|? cols]; [discriminate L|]). destruct cols; [|discriminate L].
  do 64 (destruct n as [|n]; [reflexivity|]). lia.
Qed.
Theorem dct_int_near D block : 0 <= D <= 2 ^ 15 -> (forall i, 0 <= i < 64 -> - D <= znth block i <= D) ->
  exists l, dct_2d_integer block = Ok l /\ length l = 64%nat /\
    forall n, (n < 64)%nat -> (Rabs (IZR (nth n l 0%Z) - share n * real_fdct (fun m => IZR (nth m block 0%Z)) n) <= 1.63 + 0.0012 * IZR D)%R.
Proof.
  intros HD HB. destruct (rows_ok D block HD HB) as (rows & Er & Lr & Hr). change (2 ^ 15) with 32768 in HD.
  destruct (cols_ok rows (fun u => if up (Z.of_nat u) then 32 * D else 8 * D + 4) (fun r u => nth u (nth r rows []) 0)) as (cols & Ec & Lc & Hc); auto.
  { intros u Hu. change (2 ^ 20) with 1048576. destruct (up _); lia. }
  { intros r u H1 H2. destruct (Hr r u H1 H2) as [_ Q]. destruct (up (Z.of_nat u)); destruct Q as [_ Q]; lia. }
  unfold dct_2d_integer. rewrite Er. cbn [rbind]. rewrite Ec. cbn [rbind]. eexists. split; [reflexivity|]. split.
  { clear -Lc. do 8 (destruct cols as [|? cols]; [discriminate Lc|]). destruct cols; [reflexivity|discriminate Lc]. }
  intros n Hn. rewrite flat8 by auto. set (v := (n / 8)%nat). set (u := (n mod 8)%nat). assert (v < 8)%nat as Hv by (apply Nat.div_lt_upper_bound; lia). assert (u < 8)%nat as Hu by (apply Nat.mod_upper_bound; lia).
  specialize (Hc u v Hu Hv). rewrite real_fdct_T. fold u v. unfold share. fold u. set (X := fun y x => IZR (nth (8 * y + x) block 0)). change (T v (fun y => T u (fun x => IZR (nth (8 * y + x) block 0)))) with (T v (fun y => T u (X y))).
  assert (forall r, scaled u (fun i => IZR (znth block (8 * Z.of_nat r + Z.of_nat i))) = scaled u (X r)) as EX.
  { intros r. unfold scaled. f_equal. apply T_ext. intros x Hx. unfold X, znth. do 2 f_equal. lia. }
  set (W := fun y => IZR (nth u (nth y rows []) 0)) in *. change (fun y => IZR (nth u (nth y rows []) 0)) with W in Hc.
  assert (0 <= IZR D)%R as HD0 by (apply IZR_le; lia). pose proof C4b as HC. pose proof C4_sq as HQ.
  destruct (up (Z.of_nat u)) eqn:U.
  - assert (scaled v W = 32 * T v (fun y => T u (X y)))%R as ES.
    { unfold scaled. rewrite (T_ext v W (fun y => (16 * C 4) * T u (X y))%R). 2: { intros y Hy. destruct (Hr y u Hy Hu) as [_ Q]. rewrite U in Q. destruct Q as [Q _]. unfold W. rewrite Q, EX. unfold scaled. ring. }
      rewrite T_scal. replace (4 * C 4 * (16 * C 4 * T v (fun y => T u (X y))))%R with (64 * (C 4 * C 4) * T v (fun y => T u (X y)))%R by ring. rewrite HQ. lra. }
    rewrite ES in Hc. rewrite mult_IZR in Hc. apply Rabs_le_inv in Hc. apply Rabs_le. lra.
  - assert (Rabs (T v W - 4 * C 4 * T v (fun y => T u (X y))) <= norm1 * (4 + 0.0012 * IZR D))%R as EW.
    { rewrite <- T_scal, <- T_minus. apply T_bound; auto. intros y Hy. destruct (Hr y u Hy Hu) as [_ Q]. rewrite U in Q. destruct Q as [Q _]. rewrite EX in Q. exact Q. }
    assert (Rabs (scaled v W - 8 * T v (fun y => T u (X y))) <= 8.001 * (4 + 0.0012 * IZR D))%R as ES.
    { unfold scaled. replace (4 * C 4 * T v W - 8 * T v (fun y => T u (X y)))%R with (4 * C 4 * (T v W - 4 * C 4 * T v (fun y => T u (X y))) + (16 * (C 4 * C 4) - 8) * T v (fun y => T u (X y)))%R by ring.
      rewrite HQ. replace ((16 * / 2 - 8) * T v (fun y => T u (X y)))%R with 0%R by lra. rewrite Rplus_0_r, Rabs_mult. rewrite (Rabs_pos_eq (4 * C 4)) by lra.
      apply Rle_trans with (2.8285 * (norm1 * (4 + 0.0012 * IZR D)))%R.
      - apply Rmult_le_compat; try lra. apply Rabs_pos.
      - unfold norm1. lra. }
    rewrite plus_IZR, mult_IZR in Hc. apply Rabs_le_inv in Hc. apply Rabs_le_inv in ES. apply Rabs_le. lra.
Qed.

(** ** Uniform blocks: the shortcut changes nothing *)
Lemma fdct_flat c : - 2 ^ 20 <= c <= 2 ^ 20 -> fdct_1d c c c c c c c c = Ok [8 * c; 0; 0; 0; 0; 0; 0; 0].
Proof.
  intros Hc. change (2 ^ 20) with 1048576 in Hc. unfold fdct_1d.
  assert (fix_mul 0 4433 = 0 /\ fix_mul 0 6270 = 0 /\ fix_mul 0 15137 = 0 /\ fix_mul 0 9633 = 0 /\ fix_mul 0 12299 = 0 /\ fix_mul 0 25172 = 0 /\ fix_mul 0 16819 = 0 /\ fix_mul 0 2446 = 0 /\
    fix_mul 0 (-7373) = 0 /\ fix_mul 0 (-20995) = 0 /\ fix_mul 0 (-3196) = 0 /\ fix_mul 0 (-16069) = 0) as (F1 & F2 & F3 & F4 & F5 & F6 & F7 & F8 & F9 & F10 & F11 & F12) by (repeat split; vm_compute; reflexivity).
  assert (forall x, sub32 x x = Ok 0) as S0 by (intros x; unfold sub32; rewrite Z.sub_diag; reflexivity).
  assert (add32 0 0 = Ok 0) as A0 by reflexivity.
  assert (add32 c c = Ok (2 * c)) as Ac by (unfold add32; rewrite i32_ok by (change (2 ^ 31) with 2147483648; lia); f_equal; lia).
  assert (add32 (2 * c) (2 * c) = Ok (4 * c)) as Ac2 by (unfold add32; rewrite i32_ok by (change (2 ^ 31) with 2147483648; lia); f_equal; lia).
  assert (add32 (4 * c) (4 * c) = Ok (8 * c)) as Ac3 by (unfold add32; rewrite i32_ok by (change (2 ^ 31) with 2147483648; lia); f_equal; lia).
  repeat (rewrite ?Ac, ?Ac2, ?Ac3, ?S0, ?A0, ?F1, ?F2, ?F3, ?F4, ?F5, ?F6, ?F7, ?F8, ?F9, ?F10, ?F11, ?F12; cbn [rbind]).
  reflexivity.
Qed.
Lemma nth_rep64 (c : Z) n i : (i < n)%nat -> nth i (repeat c n) 0 = c.
Proof. revert i. induction n as [|n IH]; intros i Hi; [lia|]. destruct i; cbn [repeat nth]; [reflexivity|apply IH; lia]. Qed.
Lemma int_flat_block c : - 2 ^ 15 <= c <= 2 ^ 15 -> dct_2d_integer (repeat c 64) = Ok (8 * c :: repeat 0 63).
Proof.
  intros Hc. change (2 ^ 15) with 32768 in Hc. unfold dct_2d_integer.
  assert (map_res (fun r => let* o := fdct_line (map (fun i => znth (repeat c 64) (8 * r + i)) (idxs 8)) in Ok (pass1_scale o)) (idxs 8) = Ok (repeat [32 * c; 0; 0; 0; 0; 0; 0; 0] 8)) as ->.
  { rewrite (map_res_ok _ (fun _ => [32 * c; 0; 0; 0; 0; 0; 0; 0])); [reflexivity|]. intros r Hr. apply in_idxs in Hr. change (Z.of_nat 8) with 8 in Hr. rewrite line_map.
    assert (forall i, 0 <= i < 8 -> znth (repeat c 64) (8 * r + i) = c) as N by (intros i Hi; unfold znth; apply nth_rep64; lia).
    rewrite !N by lia. rewrite fdct_flat by (change (2 ^ 20) with 1048576; lia). cbn [rbind].
    change (pass1_scale [8 * c; 0; 0; 0; 0; 0; 0; 0]) with [as_i32 (Z.shiftl (8 * c) 2); 0; 0; 0; 0; 0; 0; 0]. rewrite Z.shiftl_mul_pow2 by lia. change (2 ^ 2) with 4. rewrite as_i32_id by (change (2 ^ 31) with 2147483648; lia). do 2 f_equal. lia. }
  cbn [rbind].
  assert (map_res (fun c0 => let* o := fdct_line (map (fun row => znth row c0) (repeat [32 * c; 0; 0; 0; 0; 0; 0; 0] 8)) in pass2_scale o) (idxs 8) = Ok ([8 * c; 0; 0; 0; 0; 0; 0; 0] :: repeat (repeat 0 8) 7)) as ->.
  { rewrite (map_res_ok _ (fun k => if k =? 0 then [8 * c; 0; 0; 0; 0; 0; 0; 0] else repeat 0 8)); [reflexivity|]. intros k Hk. apply in_idxs in Hk. change (Z.of_nat 8) with 8 in Hk.
    assert (forall x, map (fun row => znth row k) (repeat x 8) = repeat (znth x k) 8) as E by (intros; reflexivity). rewrite E.
    assert (forall x, fdct_line (repeat x 8) = fdct_1d x x x x x x x x) as E2 by (intros; reflexivity). rewrite E2.
    destruct (Z.eqb_spec k 0) as [->|N].
    - change (znth [32 * c; 0; 0; 0; 0; 0; 0; 0] 0) with (32 * c). rewrite fdct_flat by (change (2 ^ 20) with 1048576; lia). cbn [rbind]. unfold pass2_scale. cbn [map_res].
      unfold add32 at 1. rewrite i32_ok by (change (2 ^ 31) with 2147483648; lia). cbn [rbind]. rewrite Z.shiftr_div_pow2 by lia. change (2 ^ 5) with 32.
      replace (8 * (32 * c) + 16) with (16 + (8 * c) * 32) by lia. rewrite Z.div_add by lia. change (16 / 32) with 0. reflexivity.
    - replace (znth [32 * c; 0; 0; 0; 0; 0; 0; 0] k) with 0; [reflexivity|]. unfold znth. assert (Z.to_nat k <> 0)%nat by lia. destruct (Z.to_nat k) as [|j]; [lia|]. cbn [nth]. do 7 (destruct j as [|j]; [reflexivity|]). destruct j; reflexivity. }
  cbn [rbind]. reflexivity.
Qed.
Theorem fast_is_integer block : length block = 64%nat -> Forall (fun x => - 2 ^ 15 <= x < 2 ^ 15) block -> dct_2d_fast block = dct_2d_integer block.
Proof.
  intros L F. unfold dct_2d_fast. destruct (forallb _ (skipn 1 block)) eqn:E; [|reflexivity].
  assert (block = repeat (znth block 0) 64) as B.
  { destruct block as [|b0 rest]; [discriminate L|]. cbn [skipn] in E. rewrite forallb_forall in E. change (znth (b0 :: rest) 0) with b0 in *. change (repeat b0 64) with (b0 :: repeat b0 63). f_equal.
    assert (length rest = 63%nat) as Lr by (cbn [length] in L; lia). rewrite <- Lr. clear -E. induction rest as [|x rest IH]; [reflexivity|]. cbn [length repeat].
    f_equal; [apply Z.eqb_eq, E; left; reflexivity|apply IH; intros y Hy; apply E; right; exact Hy]. }
  assert (- 2 ^ 15 <= znth block 0 <= 2 ^ 15) as R. { rewrite Forall_forall in F. unfold znth. specialize (F (nth 0 block 0) ltac:(apply nth_In; lia)). change (Z.to_nat 0) with 0%nat. lia. }
  rewrite B at 2. rewrite int_flat_block by exact R. change (2 ^ 15) with 32768 in R. rewrite i32_ok by (change (2 ^ 31) with 2147483648; lia). cbn [rbind]. do 2 f_equal. lia.
Qed.

(** ** Quantisation: the nearest integer, halves away from zero *)
Definition nearest_away (x q z : Z) : Prop := 2 * Z.abs (x - q * z) <= q /\ (2 * Z.abs (x - q * z) = q -> Z.abs x < Z.abs (q * z)).
Theorem quantize_int_nearest coef q : 1 <= q <= 65535 -> - 2 ^ 31 + 65536 <= coef < 2 ^ 31 - 65536 ->
  Z.abs coef < q * (2 ^ 15 - 1) -> exists z, quantize_integer_one coef q = Ok z /\ nearest_away coef q z.
Proof.
  intros Hq Hc HF. change (2 ^ 31) with 2147483648 in Hc. change (2 ^ 15 - 1) with 32767 in HF. unfold quantize_integer_one. rewrite Z.shiftr_div_pow2 by lia. change (2 ^ 1) with 2.
  pose proof (Z.div_mod q 2 ltac:(lia)) as DM. pose proof (Z.mod_pos_bound q 2 ltac:(lia)) as MB. set (h := q / 2) in *. set (m := q mod 2) in *. clearbody h m.
  assert (forall a, 0 <= a -> a < q * 32767 -> exists z, Z.quot (a + h) q = z /\ 0 <= z <= 32767 /\ 2 * Z.abs (a - q * z) <= q /\ (2 * Z.abs (a - q * z) = q -> a < q * z)) as G.
  { intros a Ha Hb. rewrite Z.quot_div_nonneg by lia. pose proof (Z.div_mod (a + h) q ltac:(lia)) as D2. pose proof (Z.mod_pos_bound (a + h) q ltac:(lia)) as M2.
    assert (0 <= (a + h) / q) by (apply Z.div_pos; lia). assert ((a + h) / q <= 32767). { assert ((a + h) / q < 32768); [apply Z.div_lt_upper_bound; nia|lia]. }
    set (z := (a + h) / q) in *. exists z. split; [reflexivity|]. clearbody z. set (r := (a + h) mod q) in *. clearbody r. set (p := q * z) in *. clearbody p. split; [lia|]. split; lia. }
  assert (forall z, -32767 <= z <= 32767 -> as_i16 z = z) as W.
  { intros z Hz. unfold as_i16, wrap. change (2 ^ 16) with 65536. change (2 ^ 15) with 32768. destruct (Z_lt_dec z 0) as [N|N].
    - replace (z mod 65536) with (z + 65536) by (apply Z.mod_unique with (-1); lia). destruct (Z.ltb_spec (z + 65536) 32768); lia.
    - rewrite Z.mod_small by lia. destruct (Z.ltb_spec z 32768); lia. }
  destruct (Z.geb_spec coef 0) as [P|P].
  - unfold add32. rewrite i32_ok by (change (2 ^ 31) with 2147483648; lia). cbn [rbind]. destruct (Z.eqb_spec q 0) as [->|_]; [lia|].
    destruct (G coef P ltac:(lia)) as (z & Ez & Rz & A & B). rewrite Ez, W by lia. exists z. split; [reflexivity|]. split; [exact A|]. intros X. specialize (B X). rewrite Z.abs_eq by lia. rewrite Z.abs_eq by nia. exact B.
  - unfold sub32. rewrite i32_ok by (change (2 ^ 31) with 2147483648; lia). cbn [rbind]. destruct (Z.eqb_spec q 0) as [->|_]; [lia|].
    destruct (G (- coef) ltac:(lia) ltac:(lia)) as (z & Ez & Rz & A & B). replace (coef - h) with (- (- coef + h)) by lia. rewrite Z.quot_opp_l by lia. rewrite Ez, W by lia. exists (- z). split; [reflexivity|].
    replace (coef - q * - z) with (- (- coef - q * z)) by lia. unfold nearest_away. replace (coef - q * - z) with (- (- coef - q * z)) by lia. rewrite Z.abs_opp. split; [exact A|]. intros X. specialize (B X).
    rewrite (Z.abs_neq coef) by lia. replace (q * - z) with (- (q * z)) by lia. rewrite Z.abs_opp, Z.abs_eq by nia. exact B.
Qed.
(** the missing scaling shows on a block of two halves *)
Theorem int_dct_wrong : exists block l, length block = 64%nat /\ Forall (fun x => -128 <= x <= 127) block /\ dct_2d_integer block = Ok l /\
  (Rabs (IZR (nth 1 l 0%Z) - real_fdct (fun m => IZR (nth m block 0%Z)) 1) > 600)%R.
Proof.
  exists step_block. eexists. split; [reflexivity|]. split; [repeat constructor; discriminate|]. split; [exact int_step|]. cbn [nth app].
  destruct (dct_int_near 128 step_block) as (l & E & _ & H). { change (2 ^ 15) with 32768. lia. }
  { intros i Hi. assert (Forall (fun x => -128 <= x <= 128) step_block) as F by (repeat constructor; discriminate). rewrite Forall_forall in F. unfold znth. apply F, nth_In. change (length step_block) with 64%nat. lia. }
  rewrite int_step in E. injection E as <-. specialize (H 1%nat ltac:(lia)). cbn [nth app] in H. unfold share in H. change (up (Z.of_nat (1 mod 8))) with false in H. cbv iota in H. set (t := real_fdct _ 1) in *. apply Rabs_le_inv in H.
  apply Rlt_gt, Rlt_le_trans with (IZR (-231) - t)%R; [lra|apply Rle_abs].
Qed.
Lemma up_nat k : up (Z.of_nat k) = ((k =? 0)%nat || (k =? 4)%nat)%bool.
Proof. unfold up. change 0 with (Z.of_nat 0). change 4 with (Z.of_nat 4). f_equal; [destruct (Nat.eqb_spec k 0)|destruct (Nat.eqb_spec k 4)]; [apply Z.eqb_eq|apply Z.eqb_neq|apply Z.eqb_eq|apply Z.eqb_neq]; lia. Qed.
Theorem dct_int_near' D block : 0 <= D <= 2 ^ 15 -> (forall i, 0 <= i < 64 -> - D <= znth block i <= D) ->
  exists l, dct_2d_integer block = Ok l /\ length l = 64%nat /\
    forall n, (n < 64)%nat -> let share := if (n mod 8 =? 0)%nat || (n mod 8 =? 4)%nat then 1%R else (/ 4)%R in
      (Rabs (IZR (nth n l 0%Z) - share * real_fdct (fun m => IZR (nth m block 0%Z)) n) <= 1.63 + 0.0012 * IZR D)%R.
Proof.
  intros HD HB. destruct (dct_int_near D block HD HB) as (l & E & L & H). exists l. split; [exact E|]. split; [exact L|]. intros n Hn. specialize (H n Hn). unfold share in H. rewrite up_nat in H. exact H.
Qed.
