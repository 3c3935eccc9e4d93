(** The iterated encoders: statistics stay in range, and whatever iteration wins,
    the stream inflates to the input. *)
From Coq Require Import Reals Lra.
From Flocq Require Import Core Relative BinarySingleNaN.
From Verif Require Import Base BitsModel BitsProofs CanonSpec ChecksumModel ChecksumSpec ChecksumProofs
  DeflateSpec InflateModel InflateProofs HuffModel HuffProofs Lz77Model Lz77Spec Lz77Proofs DeflateModel DeflateSyms DeflateProofs
  DeflateRle DeflateBlock DeflateTop F32Model F32Proofs LzOptModel LzOptProofs.
Open Scope Z_scope.

(** ** Blending counts *)
Lemma rnd_rel x : (x = 0 \/ bpow radix2 (-126) <= x)%R -> (0 <= rnd x <= x * (1 + bpow radix2 (-24)))%R.
Proof.
  intros H. assert (0 <= x)%R as Hx.
  { destruct H; [lra|]. eapply Rle_trans; [apply bpow_ge_0|eauto]. }
  split.
  - rewrite <- (rnd_fmt 0) by apply generic_format_0. apply rnd_le; auto.
  - destruct H as [->|H]; [rewrite rnd_fmt by apply generic_format_0; lra|].
    assert (Rabs (rnd x - x) <= / 2 * bpow radix2 (- 24 + 1) * Rabs x)%R as K.
    { apply (relative_error_N_FLT radix2 (-149) 24 ltac:(lia)). rewrite Rabs_pos_eq by auto. exact H. }
    rewrite (Rabs_pos_eq x) in K by auto. apply Rabs_le_inv in K.
    assert (bpow radix2 (-24 + 1) = 2 * bpow radix2 (-24))%R as E by apply bpow_S. rewrite E in K. lra.
Qed.
Lemma int_norm n : 0 <= n -> (IZR n = 0 \/ 1 <= IZR n)%R.
Proof. intros H. destruct (Z.eq_dec n 0) as [->|]; [auto|]. right. apply IZR_le. lia. Qed.
Lemma tiny1 : (bpow radix2 (-126) <= 1 / 4)%R.
Proof.
  replace (1 / 4)%R with (bpow radix2 (-2)); [apply bpow_le; lia|]. change (bpow radix2 (-2)) with (/ 4)%R. lra.
Qed.
Lemma u24 : (bpow radix2 (-24) = / 16777216)%R.
Proof. reflexivity. Qed.
Lemma rnd_int_cases n : 0 <= n -> (rnd (IZR n) = 0 \/ 1 <= rnd (IZR n))%R.
Proof.
  intros H. destruct (int_norm n H) as [E|E].
  - left. rewrite E. apply rnd_fmt, generic_format_0.
  - right. rewrite <- (rnd_fmt 1) by (apply (fmt_Z 1); lia). apply rnd_le; auto.
Qed.
Lemma blend1_ok a b : 0 <= a < U32 -> 0 <= b < U32 -> 0 <= blend1 a b /\ 2 ^ 23 * blend1 a b <= (a + 2 * b) * (2 ^ 22 + 1).
Proof.
  intros Ha Hb. unfold blend1, U32 in *. pose proof tiny1 as T1.
  assert (forall n, 0 <= n < 2 ^ 32 -> fin (f_of_Z n) /\ val (f_of_Z n) = rnd (IZR n) /\ (Rabs (val (f_of_Z n)) <= bpow radix2 32)%R) as K.
  { intros n Hn. apply of_Z_bound; [apply fmt_bpow; lia| |apply bpow_lt; lia].
    rewrite <- abs_IZR, <- (IZR_Zpower radix2) by lia. apply IZR_le. change (radix_val radix2) with 2. lia. }
  destruct (K a Ha) as (Fa & Va & Ba). destruct (K b Hb) as (Fb & Vb & Bb).
  assert (fin (f_const 1 (-1)) /\ val (f_const 1 (-1)) = (/ 2)%R) as [Fh Vh] 
    by (split; [split; reflexivity|change (f_const 1 (-1)) with (S754_finite false 8388608 (-24)); unfold val, BinarySingleNaN.SF2R, F2R;
        cbn [cond_Zopp Fnum Fexp]; rewrite u24; lra]).
  pose proof (rnd_rel (IZR a) ltac:(destruct (int_norm a ltac:(lia)); [auto|right; lra])) as Ra.
  pose proof (rnd_rel (IZR b) ltac:(destruct (int_norm b ltac:(lia)); [auto|right; lra])) as Rb.
  pose proof (rnd_int_cases a ltac:(lia)) as Ca. pose proof (rnd_int_cases b ltac:(lia)) as Cb.
  rewrite <- Va in *. rewrite <- Vb in *. set (A := f_of_Z a) in *. set (B := f_of_Z b) in *.
  apply Rabs_le_inv in Ba. apply Rabs_le_inv in Bb.
  assert (0 < bpow radix2 32)%R as P32 by apply bpow_gt_0.
  destruct (mul_bound A (f_const 1 (-1)) (bpow radix2 32) Fa Fh) as (Fm & Vm & _).
  { apply fmt_bpow; lia. } { rewrite Vh. apply Rabs_le. lra. } { apply bpow_lt; lia. }
  rewrite Vh in Vm.
  assert (0 <= val A)%R as PA by lra. assert (0 <= val B)%R as PB by lra.
  assert (val A * / 2 = 0 \/ bpow radix2 (-126) <= val A * / 2)%R as Cm by (destruct Ca as [->|]; [left; lra|right; lra]).
  pose proof (rnd_rel _ Cm) as Rm. 
  assert (rnd (val A * / 2) = 0 \/ / 2 <= rnd (val A * / 2))%R as Cm2.
  { destruct Ca as [->|]; [left|right].
    - replace (0 * / 2)%R with 0%R by lra. apply rnd_fmt, generic_format_0.
    - assert (fmt (/ 2)%R) as F2 by (change (/ 2)%R with (bpow radix2 (-1)); apply fmt_bpow; lia).
      assert (rnd (/ 2) <= rnd (val A * / 2))%R as K2 by (apply rnd_le; lra).
      rewrite (rnd_fmt (/ 2)%R F2) in K2. exact K2. }
  rewrite <- Vm in *. set (M := f_mul A (f_const 1 (-1))) in *.
  rewrite u24 in *.
  assert (bpow radix2 34 = 4 * bpow radix2 32)%R as E34 by (change 34 with (32 + 1 + 1); rewrite !bpow_S; lra).
  destruct (add_bound M B (bpow radix2 34) Fm Fb) as (Fs & Vs & _).
  { apply fmt_bpow; lia. } { apply Rabs_le. lra. } { apply bpow_lt; lia. }
  assert (val M + val B = 0 \/ bpow radix2 (-126) <= val M + val B)%R as Cs.
  { destruct Cm2, Cb; try (right; lra). left; lra. }
  pose proof (rnd_rel _ Cs) as Rs. rewrite <- Vs in Rs. rewrite u24 in Rs.
  rewrite to_Z_ok by (auto; lia).
  set (S := f_add M B) in *.
  assert (0 <= Ztrunc (val S)) as T0. { rewrite <- (Ztrunc_IZR 0). apply Ztrunc_le. apply Rs. }
  assert (IZR (Ztrunc (val S)) <= val S)%R as T.
  { rewrite Ztrunc_floor by apply Rs. apply Zfloor_lb. }
  split; [lia|].
  apply Z.le_trans with (2 ^ 23 * Ztrunc (val S)); [apply Z.mul_le_mono_nonneg_l; lia|].
  apply le_IZR. rewrite !mult_IZR, !plus_IZR, mult_IZR.
  change (IZR (2 ^ 23)) with 8388608%R. change (IZR (2 ^ 22)) with 4194304%R.
  assert (0 <= IZR a)%R by (apply IZR_le; lia). assert (0 <= IZR b)%R by (apply IZR_le; lia). nra.
Qed.

(** ** Statistics *)
Definition cnts_ok (M : Z) (lc dc : list Z) : Prop :=
  length lc = 286%nat /\ length dc = 30%nat /\ nn lc /\ nn dc /\ lsum lc <= M /\ lsum dc <= M.
Lemma count_symbols_sum ts M : Forall legal_token ts -> zlen ts + 1 <= M -> M < U32 ->
  exists lf df, count_symbols ts = Ok (lf, df) /\ cnts_ok M lf df.
Proof.
  intros HL HM HS. unfold count_symbols. pose proof (zlen_nonneg ts).
  destruct (count_tokens_ok ts zero_lf zero_df (nn_repeat _) (nn_repeat _)) as (lf & df & E & B1 & B2 & B3 & B4 & B5 & B6 & B7 & B8 & B9); auto.
  { unfold zero_lf. rewrite lsum_repeat. lia. } { unfold zero_df. rewrite lsum_repeat. lia. }
  unfold zero_lf, zero_df in *. rewrite lsum_repeat in *. rewrite E; cbn [rbind]. unfold finish_counts.
  destruct (inc32_ok lf 256 B1) as (lf1 & E1 & A1 & A2 & A3 & _); [unfold zlen; lia|lia|].
  rewrite E1; cbn [rbind]. do 2 eexists; split; [reflexivity|].
  destruct (forallb (fun f => f =? 0) df) eqn:Z0.
  - split; [lia|]. split; [rewrite upd_length; auto|]. split; auto. split; [apply Forall_upd; auto; lia|]. split; [lia|].
    rewrite lsum_upd by lia. assert (nth 0 df 0 = 0) as ->; [|lia].
    rewrite forallb_forall in Z0. specialize (Z0 (nth 0 df 0) ltac:(apply nth_In; lia)). lia.
  - split; [lia|]. split; auto. split; auto. split; auto. lia.
Qed.
Lemma blend_ok M old new : 0 <= M -> 3 * M < U32 -> nn old -> nn new -> length old = length new -> lsum old <= 3 * M -> lsum new <= M ->
  length (blend old new) = length old /\ nn (blend old new) /\ lsum (blend old new) <= 3 * M.
Proof.
  intros HM HU N1 N2 HL S1 S2.
  assert (length (blend old new) = length old /\ nn (blend old new) /\
    2 ^ 23 * lsum (blend old new) <= (lsum old + 2 * lsum new) * (2 ^ 22 + 1)) as (A & B & C).
  { clear HM. revert new N2 HL S2. induction old as [|a old IH]; intros [|b new] N2 HL S2; cbn [blend length] in *; try discriminate.
    - split; auto. split; [apply Forall_nil|]. cbn; lia.
    - apply Forall_cons_iff in N1 as [A1 A2]. apply Forall_cons_iff in N2 as [B1 B2].
      rewrite !lsum_cons in *. pose proof (lsum_nonneg _ A2). pose proof (lsum_nonneg _ B2).
      destruct (IH A2 ltac:(lia) new B2 ltac:(lia) ltac:(lia)) as (I1 & I2 & I3).
      destruct (blend1_ok a b ltac:(lia) ltac:(lia)) as [J1 J2].
      split; [lia|]. split; [apply Forall_cons; auto|]. lia. }
  split; auto. split; auto. lia.
Qed.
Lemma sum32_ok l : nn l -> forall acc, 0 <= acc -> acc + lsum l < U32 -> sum32 l acc = Ok (acc + lsum l).
Proof.
  induction l as [|x l IH]; intros N a Ha Hs; cbn [sum32].
  - cbn [lsum fold_right]. f_equal; unfold lsum; cbn; lia.
  - apply Forall_cons_iff in N as [A1 A2]. rewrite lsum_cons in *. pose proof (lsum_nonneg _ A2).
    destruct (Z.ltb_spec (a + x) U32); [|lia]. rewrite IH by (auto; lia). f_equal; lia.
Qed.

(** what is assumed of [f32::log2]: on positive integers a finite value between 0 and 32 *)
Definition log2_ok (log2 : f32 -> f32) : Prop :=
  forall n, 1 <= n < 2 ^ 32 -> fin (log2 (f_of_Z n)) /\ (0 <= val (log2 (f_of_Z n)) <= 32)%R.
Lemma entropy_ok log2 total counts : log2_ok log2 -> nn counts -> 1 <= total < 2 ^ 32 -> lsum counts < 2 ^ 32 ->
  length (entropy_costs log2 total counts) = length counts /\ Forall (fun c => small c 9) (entropy_costs log2 total counts).
Proof.
  intros HL N HT HS. unfold entropy_costs. split; [apply map_length|]. rewrite Forall_map. apply Forall_forall. intros c Hc.
  assert (0 <= c < 2 ^ 32) as Rc.
  { destruct (In_nth counts c 0 Hc) as (i & Hi & Hv). pose proof (lsum_ge counts i N). unfold nn in N. rewrite Forall_forall in N.
    specialize (N c Hc). lia. }
  destruct (Z.ltb_spec 0 c).
  - destruct (HL total HT) as [F1 V1]. destruct (HL c ltac:(lia)) as [F2 V2].
    destruct (sub_bound (log2 (f_of_Z total)) (log2 (f_of_Z c)) (bpow radix2 9) F1 F2) as (F3 & _ & B3).
    + apply fmt_bpow; lia.
    + assert (bpow radix2 9 = 512)%R as -> by reflexivity. apply Rabs_le. lra.
    + apply bpow_lt; lia.
    + split; auto.
  - apply (small_mono _ 4); [lia|]. apply small_of_Z; lia.
Qed.
Lemma Forall_repeat {A} (P : A -> Prop) x n : P x -> Forall P (repeat x n).
Proof. intros H. apply Forall_forall. intros y Hy. apply repeat_spec in Hy. subst; auto. Qed.
Lemma cost_fixed_ok : cost_ok cost_fixed.
Proof.
  split; [reflexivity|]. split; [reflexivity|]. unfold cost_fixed. cbn [lit_len_costs dist_costs]. split.
  - repeat (apply Forall_app; split); apply Forall_repeat; (apply (small_mono _ 4); [lia|apply small_of_Z; lia]).
  - apply Forall_repeat. apply (small_mono _ 4); [lia|apply small_of_Z; lia].
Qed.
Lemma stats_ok log2 M lc dc : log2_ok log2 -> cnts_ok M lc dc -> M < U32 ->
  exists cm, cost_from_statistics log2 lc dc = Ok cm /\ cost_ok cm.
Proof.
  intros HL (L1 & L2 & N1 & N2 & S1 & S2) HM. unfold cost_from_statistics, U32 in *.
  pose proof (lsum_nonneg _ N1). pose proof (lsum_nonneg _ N2).
  rewrite sum32_ok by (auto; unfold U32; lia). cbn [rbind].
  destruct (Z.ltb_spec 0 (0 + lsum lc)).
  2:{ eexists; split; [reflexivity|apply cost_fixed_ok]. }
  rewrite sum32_ok by (auto; unfold U32; lia). cbn [rbind].
  eexists; split; [reflexivity|].
  destruct (entropy_ok log2 (0 + lsum lc) lc HL N1 ltac:(lia) ltac:(lia)) as [A B].
  destruct (Z.ltb_spec 0 (0 + lsum dc)).
  - destruct (entropy_ok log2 (0 + lsum dc) dc HL N2 ltac:(lia) ltac:(lia)) as [C D].
    unfold cost_ok. cbn [lit_len_costs dist_costs]. split; [lia|]. split; [lia|]. auto.
  - unfold cost_ok. cbn [lit_len_costs dist_costs]. split; [lia|]. split; [reflexivity|]. split; auto.
    apply Forall_repeat. apply (small_mono _ 4); [lia|apply small_of_Z; lia].
Qed.
Lemma total_cost_ok cm ts : cost_ok cm -> Forall legal_token ts -> forall a, exists c, total_cost cm ts a = Ok c.
Proof.
  intros HC. induction 1 as [|t ts HT _ IH]; intros a; cbn [total_cost]; [eauto|]. destruct t as [b|l d]; cbn [legal_token] in HT.
  - destruct (literal_cost_ok cm b HC HT) as (c & -> & _). cbn [rbind]. apply IH.
  - destruct (match_cost_ok cm l d HC) as (c & -> & _); try lia. cbn [rbind]. apply IH.
Qed.

(** ** Iteration *)
Lemma nonempty_match {A B} (l : list A) (a b : B) : l <> [] -> match l with [] => a | _ :: _ => b end = b.
Proof. destruct l; congruence. Qed.
Lemma empty_or (l : list Z) : l = [] \/ l <> [].
Proof. destruct l; [auto|right; discriminate]. Qed.
Section Iter.
  Variables (H : heap) (E : estimator) (log2 : f32 -> f32) (data : list Z).
  Hypothesis HE : est_total E.
  Hypothesis HLg : log2_ok log2.
  Hypothesis HB : bytes data.
  Hypothesis HN : 3 * (zlen data + 1) < U32.
  Let M := zlen data + 1.
  Ltac small_n := pose proof (zlen_nonneg data); lia.
  Lemma iter_step st c lc dc : good_cache (lz_config 9) data c -> cnts_ok (3 * M) lc dc ->
    exists cm ts st' c' lc' dc' cost, cost_from_statistics log2 lc dc = Ok cm /\
      compress_optimal_cached (lz_config 9) data cm st c = Ok (ts, st', c') /\ good_cache (lz_config 9) data c' /\
      expand [] ts = Some data /\ zlen ts <= zlen data /\ Forall legal_token ts /\
      count_symbols ts = Ok (lc', dc') /\ total_cost cm ts f_zero = Ok cost /\ cnts_ok (3 * M) (blend lc lc') (blend dc dc').
  Proof.
    intros HC HS. destruct (stats_ok log2 (3 * M) lc dc HLg HS HN) as (cm & EC & CC).
    destruct (optimal_ok (lz_config 9) data HB cm st st c CC HC) as (ts & st1 & st' & c' & _ & E2 & G & X & L).
    pose proof (expand_legal _ _ _ X) as LT. pose proof (zlen_nonneg data).
    destruct (count_symbols_sum ts M LT ltac:(subst M; lia) ltac:(subst M; lia)) as (lc' & dc' & EN & NN).
    destruct (total_cost_ok cm ts CC LT f_zero) as (cost & ET).
    exists cm, ts, st', c', lc', dc', cost. repeat (split; [assumption|]).
    destruct HS as (A1 & A2 & A3 & A4 & A5 & A6). destruct NN as (B1 & B2 & B3 & B4 & B5 & B6).
    destruct (blend_ok M lc lc' ltac:(subst M; lia) HN A3 B3 ltac:(lia) A5 B5) as (P1 & P2 & P3).
    destruct (blend_ok M dc dc' ltac:(subst M; lia) HN A4 B4 ltac:(lia) A6 B6) as (Q1 & Q2 & Q3).
    split; [lia|]. split; [lia|]. auto.
  Qed.
  Lemma refine_ok : forall k iter st c lc dc prev best, good_cache (lz_config 9) data c -> cnts_ok (3 * M) lc dc ->
    bytes best -> deflate_stream best data ->
    exists o, refine H log2 data k iter st c lc dc prev best = Ok o /\ bytes o /\ deflate_stream o data /\ zlen o <= zlen best.
  Proof.
    induction k as [|k IH]; intros iter st c lc dc prev best HC HS B1 B2; cbn [refine].
    { exists best. split; auto. split; auto. split; auto. lia. }
    destruct (iter_step st c lc dc HC HS) as (cm & ts & st' & c' & lc' & dc' & cost & -> & E2 & G & X & L & LT & E3 & E4 & S').
    cbn [rbind]. rewrite E2. cbn [rbind].
    destruct (encode_dynamic_ok H ts data LT ltac:(small_n) X) as (o & -> & O1 & O2). cbn [rbind].
    rewrite E3. cbn [rbind]. rewrite E4. cbn [rbind].
    set (b := if zlen o <? zlen best then o else best).
    assert (bytes b /\ deflate_stream b data /\ zlen b <= zlen best) as (P1 & P2 & P3).
    { subst b. destruct (Z.ltb_spec (zlen o) (zlen best)); repeat split; auto; lia. }
    destruct (converged iter prev cost).
    - exists b. auto.
    - destruct (IH (iter + 1) st' c' (blend lc lc') (blend dc dc') cost b G S' P1 P2) as (r & -> & R1 & R2 & R3).
      exists r. split; auto. split; auto. split; auto. lia.
  Qed.
  Lemma refine_tokens_ok : forall k iter st c lc dc prev best, good_cache (lz_config 9) data c -> cnts_ok (3 * M) lc dc ->
    expand [] best = Some data -> zlen best <= zlen data ->
    exists ts st', refine_tokens log2 data k iter st c lc dc prev best = Ok (ts, st') /\ expand [] ts = Some data /\ zlen ts <= zlen data.
  Proof.
    induction k as [|k IH]; intros iter st c lc dc prev best HC HS B1 B2; cbn [refine_tokens].
    { exists best, st. auto. }
    destruct (iter_step st c lc dc HC HS) as (cm & ts & st' & c' & lc' & dc' & cost & -> & E2 & G & X & L & LT & E3 & E4 & S').
    cbn [rbind]. rewrite E2. cbn [rbind]. rewrite E3. cbn [rbind]. rewrite E4. cbn [rbind].
    destruct (converged iter prev cost); [eauto|]. apply IH; auto.
  Qed.
  Lemma start_ok : exists ts st lc dc, compress_into (lz_config 9) empty_tables [] data = Ok (ts, st) /\
    expand [] ts = Some data /\ Forall legal_token ts /\ zlen ts <= zlen data /\ count_symbols ts = Ok (lc, dc) /\ cnts_ok (3 * M) lc dc.
  Proof.
    destruct (compress_into_ok (lz_config 9) empty_tables [] data HB) as (ts & st & E1 & X & L).
    pose proof (expand_legal _ _ _ X) as LT. pose proof (zlen_nonneg data).
    destruct (count_symbols_sum ts M LT ltac:(subst M; lia) ltac:(subst M; lia)) as (lc & dc & EN & N1 & N2 & N3 & N4 & N5 & N6).
    exists ts, st, lc, dc. assert (0 <= M) by (subst M; lia).
    split; [auto|]. split; [auto|]. split; [auto|]. split; [auto|]. split; [auto|]. split; [auto|]. split; [auto|]. split; [auto|]. split; [auto|]. split; lia.
  Qed.
  Theorem deflate_optimal_ok iterations : exists o, deflate_optimal H log2 data iterations = Ok o /\ bytes o /\ deflate_stream o data.
  Proof.
    unfold deflate_optimal. destruct (empty_or data) as [ED|ED]; [rewrite ED; apply empty_block_ok|]. rewrite nonempty_match by auto.
    destruct start_ok as (ts & st & lc & dc & E1 & X & LT & L & E2 & S).
    rewrite E1. cbn [rbind]. rewrite E2. cbn [rbind].
    destruct (encode_dynamic_ok H ts data LT ltac:(small_n) X) as (o & -> & O1 & O2). cbn [rbind].
    destruct (refine_ok (Z.to_nat iterations) 0 st (cache_new (length data)) lc dc f_max o) as (r & -> & R1 & R2 & _); auto.
    { apply new_cache_good. }
    exists r. auto.
  Qed.
  (** the result is never larger than the plain dynamic block of the greedy tokens *)
  Theorem deflate_optimal_le iterations : data <> [] ->
    exists ts st o r, compress_into (lz_config 9) empty_tables [] data = Ok (ts, st) /\ encode_dynamic_huffman H ts = Ok o /\
      deflate_optimal H log2 data iterations = Ok r /\ zlen r <= zlen o.
  Proof.
    intros NN. destruct start_ok as (ts & st & lc & dc & E1 & X & LT & L & E2 & S).
    destruct (encode_dynamic_ok H ts data LT ltac:(small_n) X) as (o & E3 & O1 & O2).
    destruct (refine_ok (Z.to_nat iterations) 0 st (cache_new (length data)) lc dc f_max o) as (r & E4 & R1 & R2 & R3); auto.
    { apply new_cache_good. }
    exists ts, st, o, r. split; auto. split; auto. split; auto. unfold deflate_optimal.
    rewrite nonempty_match by auto. rewrite E1. cbn [rbind]. rewrite E2. cbn [rbind]. rewrite E3. cbn [rbind]. exact E4.
  Qed.
  Theorem deflate_optimal_split_ok iterations maxb : exists o, deflate_optimal_split H E log2 data iterations maxb = Ok o /\ bytes o /\ deflate_stream o data.
  Proof.
    unfold deflate_optimal_split. destruct (empty_or data) as [ED|ED]; [rewrite ED; apply empty_block_ok|]. rewrite nonempty_match by auto.
    destruct start_ok as (ts & st & lc & dc & E1 & X & LT & L & E2 & S).
    rewrite E1. cbn [rbind]. rewrite E2. cbn [rbind].
    destruct (refine_tokens_ok (Z.to_nat iterations) 0 st (cache_new (length data)) lc dc f_max ts) as (bt & st' & -> & BX & BL); auto.
    { apply new_cache_good. }
    cbn [rbind]. pose proof (expand_legal _ _ _ BX) as BLT.
    assert (existsb (fun t => match t with TMatch _ d => d =? 0 | _ => false end) bt = false) as ->.
    { apply not_true_iff_false. intros C. apply existsb_exists in C as (t & Ht & C). rewrite Forall_forall in BLT. specialize (BLT t Ht).
      destruct t; cbn [legal_token] in BLT; [discriminate|lia]. }
    destruct (find_block_splits_ok E bt HE BLT ltac:(small_n) maxb) as (r & -> & G). cbn [rbind].
    destruct r as [|x r].
    - destruct (encode_dynamic_ok H bt data BLT ltac:(small_n) BX) as (o & EO & O1 & O2). unfold encode_dynamic_huffman in EO. rewrite EO. eauto.
    - destruct G as [|G]; [discriminate|].
      destruct (split_blocks_ok H bt (x :: r) data BLT ltac:(small_n) (proj1 (gaps_bounds _ _ _ G)) BX) as (w & -> & K). cbn [rbind]. eauto.
  Qed.
  Theorem deflate_optimal_split_zlib_ok iterations maxb : exists o, deflate_optimal_split_zlib H E log2 data iterations maxb = Ok o /\ bytes o /\ zlib_stream o data.
  Proof.
    unfold deflate_optimal_split_zlib. destruct (empty_or data) as [ED|ED]; [rewrite ED; apply empty_zlib_ok|]. rewrite nonempty_match by auto.
    destruct (deflate_optimal_split_ok iterations maxb) as (o & -> & O1 & O2). cbn [rbind]. eexists; split; [reflexivity|]. apply zlib_wrap_ok; auto.
  Qed.
  Theorem deflate_optimal_zlib_ok iterations : exists o, deflate_optimal_zlib H E log2 data iterations = Ok o /\ bytes o /\ zlib_stream o data.
  Proof.
    unfold deflate_optimal_zlib. destruct (empty_or data) as [ED|ED]; [rewrite ED; apply empty_zlib_ok|]. rewrite nonempty_match by auto.
    destruct (512 * 1024 <? zlen data).
    - destruct (deflate_optimal_ok iterations) as (o & -> & O1 & O2). cbn [rbind]. eexists; split; [reflexivity|]. apply zlib_wrap_ok; auto.
    - apply deflate_optimal_split_zlib_ok.
  Qed.
End Iter.
