(** The trellis quantiser: which values it can return, and that its costs are finite. *)
From Coq Require Import Reals Lra Lia.
From Flocq Require Import Core BinarySingleNaN.
From Verif Require Import Base PngFilterModel PngFilterProofs JpegBaseModel F32Model F32Proofs ResizeModel ResizeF32 ResizeProofs ResizeSame
  JpegDctModel JpegDctSpec JpegDctReal JpegDctProofs JpegDctTop JpegImgSpec JpegTrellisModel.
Open Scope Z_scope.

(** ** Lists of states *)
Lemma merge_forall (P : tstate -> Prop) l s : Forall P l -> P s -> Forall P (merge_state l s).
Proof.
  intros H Hs. induction H as [|x l Hx Hl IH]; cbn [merge_state]; [apply Forall_cons; auto|]. destruct (same_key x s).
  - apply Forall_cons; [destruct (f_lt _ _)|]; auto.
  - apply Forall_cons; auto.
Qed.
Lemma insert_forall (P : tstate -> Prop) l s : Forall P l -> P s -> Forall P (insert_state s l).
Proof.
  intros H Hs. induction H as [|x l Hx Hl IH]; cbn [insert_state]; [apply Forall_cons; auto|]. destruct (f_lt _ _); repeat apply Forall_cons; auto.
Qed.
Lemma sort_forall (P : tstate -> Prop) l : Forall P l -> Forall P (sort_states l).
Proof.
  unfold sort_states. intros H. assert (forall acc, Forall P acc -> Forall P (fold_left (fun acc s => insert_state s acc) l acc)) as G.
  { induction H as [|x l Hx Hl IH]; intros acc HA; cbn [fold_left]; auto. apply IH, insert_forall; auto. }
  apply G, Forall_nil.
Qed.
Lemma firstn_forall {A} (P : A -> Prop) n l : Forall P l -> Forall P (firstn n l).
Proof. intros H. rewrite Forall_forall in *. intros x Hx. apply H. rewrite <- (firstn_skipn n l). apply in_or_app. auto. Qed.
Lemma merge_ne l s : merge_state l s <> []. Proof. destruct l as [|x l]; cbn [merge_state]; [|destruct (same_key x s)]; discriminate. Qed.
Lemma insert_ne l s : insert_state s l <> []. Proof. destruct l as [|x l]; cbn [insert_state]; [|destruct (f_lt _ _)]; discriminate. Qed.
Lemma sort_ne l : l <> [] -> sort_states l <> [].
Proof.
  unfold sort_states. intros H. assert (forall l acc, acc <> [] -> fold_left (fun acc s => insert_state s acc) l acc <> []) as G.
  { clear. induction l as [|x l IH]; intros acc HA; cbn [fold_left]; auto. apply IH, insert_ne. }
  destruct l as [|x l]; [congruence|]. cbn [fold_left]. apply G, insert_ne.
Qed.
Lemma firstn_ne {A} n (l : list A) : l <> [] -> firstn (S n) l <> []. Proof. destruct l; [congruence|discriminate]. Qed.

Section Step.
  Variables (lambda coef q : f32) (cands : list Z) (P : tstate -> Prop).
  Let inner parent idx acc := fold_left (fun acc c => merge_state acc (next_state lambda coef q parent idx c)) cands acc.
  Lemma inner_forall states acc : Forall P acc ->
    (forall s i c, In s states -> In c cands -> P (next_state lambda coef q s i c)) ->
    forall ns, (forall i s, In (i, s) ns -> In s states) -> Forall P (fold_left (fun acc '(idx, parent) => inner parent idx acc) ns acc).
  Proof.
    intros HA H ns. revert acc HA. induction ns as [|[i s] ns IH]; intros acc HA HN; cbn [fold_left]; auto.
    apply IH; [|intros; eapply HN; right; eauto]. unfold inner.
    assert (In s states) as HS by (eapply HN; left; reflexivity).
    assert (forall cs, (forall c, In c cs -> In c cands) -> forall acc, Forall P acc -> Forall P (fold_left (fun acc c => merge_state acc (next_state lambda coef q s i c)) cs acc)) as G.
    { induction cs as [|c cs IHc]; intros HC acc' HA'; cbn [fold_left]; auto. apply IHc; [intros; apply HC; right; auto|]. apply merge_forall; auto. apply H; auto. apply HC. left. reflexivity. }
    apply G; auto.
  Qed.
  Lemma inner_ne ns acc : cands <> [] -> ns <> [] \/ acc <> [] -> fold_left (fun acc '(idx, parent) => inner parent idx acc) ns acc <> [].
  Proof.
    intros HC. assert (forall s i cs acc, cs <> [] \/ acc <> [] -> fold_left (fun acc c => merge_state acc (next_state lambda coef q s i c)) cs acc <> []) as G.
    { intros s i. induction cs as [|c cs IHc]; intros acc' [H|H]; cbn [fold_left]; auto; apply IHc; right; apply merge_ne. }
    revert acc. induction ns as [|[i s] ns IH]; intros acc [H|H]; cbn [fold_left]; auto; apply IH; right; apply G; auto.
  Qed.
End Step.
Lemma number_in {A} (l : list A) i s : In (i, s) (number l) -> In s l. Proof. unfold number. intros H. apply in_combine_r in H. exact H. Qed.
Lemma number_ne {A} (l : list A) : l <> [] -> number l <> []. Proof. destruct l; [congruence|discriminate]. Qed.

(** one step keeps a property of all states and is never empty *)
Lemma step_ok lambda coef q states cands (P : tstate -> Prop) : generate_candidates (f_div coef q) = Ok cands -> cands <> [] -> states <> [] ->
  (forall s i c, In s states -> In c cands -> P (next_state lambda coef q s i c)) ->
  exists next, trellis_step lambda states coef q = Ok next /\ next <> [] /\ Forall P next.
Proof.
  intros E HC HS H. unfold trellis_step. rewrite E. cbn [rbind]. eexists. split; [reflexivity|]. split.
  - apply (firstn_ne 7). apply sort_ne. apply (inner_ne lambda coef q cands); auto. left. apply number_ne; auto.
  - apply firstn_forall, sort_forall. apply (inner_forall lambda coef q cands P states); auto using Forall_nil. apply number_in.
Qed.

(** ** Candidates *)
Definition near (v : R) (z : Z) : Prop := z = 0 \/ ((Rabs (IZR z - v) < 2)%R /\ ((0 <= v)%R -> 0 <= z) /\ ((v <= 0)%R -> z <= 0)).
Lemma contains_ok l x : contains l x = true <-> In x l.
Proof. unfold contains. rewrite existsb_exists. split; [intros (y & Hy & E); apply Z.eqb_eq in E; subst; auto|intros H; exists x; split; auto; apply Z.eqb_refl]. Qed.
Lemma push_forall (P : Z -> Prop) l x b : Forall P l -> P x -> Forall P (if b : bool then l ++ [x] else l).
Proof. intros H Hx. destruct b; auto. apply Forall_app. auto. Qed.
Lemma push_ne (l : list Z) x (b : bool) : l <> [] -> (if b then l ++ [x] else l) <> []. Proof. destruct b; auto. destruct l; discriminate. Qed.
Lemma candidates_ok fq : fin fq -> (Rabs (val fq) <= 1025)%R ->
  exists cs, generate_candidates fq = Ok cs /\ cs <> [] /\ Forall (near (val fq)) cs.
Proof.
  intros F B. apply Rabs_le_inv in B. set (v := val fq) in *.
  destruct (round_ok fq F) as [Fr Vr]. destruct (floor_ok fq F) as [Ff Vf]. destruct (ceil_ok fq F) as [Fc Vc]. fold v in Vr, Vf, Vc.
  assert (-1025 <= Zfloor v) as L1 by (apply Zfloor_lub; lra).
  assert (Zceil v <= 1025) as L2 by (apply Zceil_glb; lra).
  pose proof (Zfloor_lb v) as P1. pose proof (Zfloor_ub v) as P2. pose proof (Zceil_ub v) as P3. pose proof (Zceil_lb v) as P4.
  assert (Zfloor v <= 1025) as L3 by (apply le_IZR; lra).
  assert (-1025 <= Zceil v) as L4 by (apply le_IZR; lra).
  pose proof (rhaz_near v) as N.
  assert (-1025 <= rhaz v <= 1025) as L5 by (split; [apply rhaz_gt; lra|apply rhaz_lt; lra]).
  unfold generate_candidates. rewrite (to_i16_int _ _ Fr Vr), (to_i16_int _ _ Ff Vf), (to_i16_int _ _ Fc Vc) by lia.
  assert (near v 0) as N0 by (left; reflexivity).
  assert (near v (Zfloor v)) as N1.
  { right. split; [apply Rabs_lt; lra|]. split; intros H; [apply Zfloor_lub; lra|apply le_IZR; lra]. }
  assert (near v (Zceil v)) as N2.
  { right. split; [apply Rabs_lt; lra|]. split; intros H; [apply le_IZR; lra|apply Zceil_glb; lra]. }
  assert (near v (rhaz v)) as N3.
  { right. split; [lra|]. split; intros H; [apply rhaz_gt; lra|apply rhaz_lt; lra]. }
  cbv zeta. set (cs := if _ : bool then _ ++ [Zceil v] else _).
  assert (Forall (near v) cs /\ cs <> []) as [HF HN].
  { unfold cs. split; [repeat apply push_forall; auto|repeat apply push_ne; discriminate]. }
  clearbody cs. destruct (f_lt F1_5 (f_abs fq)) eqn:E15; [|eauto].
  assert (fin F1_5 /\ val F1_5 = 1.5%R) as [F15 V15]. { destruct (const_val 3 (-1)) as [A1 A2]; [reflexivity|lia|]. split; [exact A1|]. change (val F1_5) with (val (f_const 3 (-1))). rewrite A2. change (2 ^ (- (-1))) with 2. lra. }
  destruct (abs_ok fq F) as [Fa Va]. rewrite (lt_ok _ _ F15 Fa), V15, Va in E15. destruct (Rlt_bool_spec 1.5 (Rabs (val fq))) as [E|E]; [clear E15; rename E into E15|discriminate]. fold v in E15.
  rewrite (ge_ok fq f_zero F fin_zero), val_zero. fold v. destruct (Rle_bool_spec 0 v) as [Hv|Hv].
  - rewrite Rabs_pos_eq in E15 by auto. unfold i16_add. replace ((-32768 <=? Zceil v + 1) && (Zceil v + 1 <=? 32767)) with true by lia. cbn [rbind].
    eexists. split; [reflexivity|]. assert (near v (Zceil v + 1)) as N4.
    { right. rewrite plus_IZR. split; [apply Rabs_lt; lra|]. split; intros H; [|lra]. apply le_IZR. rewrite plus_IZR. lra. }
    destruct (contains cs (Zceil v + 1)); split; auto; [destruct cs; discriminate|]. apply Forall_app; auto.
  - rewrite Rabs_left in E15 by auto. unfold i16_add. replace ((-32768 <=? Zfloor v + -1) && (Zfloor v + -1 <=? 32767)) with true by lia. cbn [rbind].
    eexists. split; [reflexivity|]. assert (near v (Zfloor v + -1)) as N4.
    { right. rewrite plus_IZR. split; [apply Rabs_lt; lra|]. split; intros H; [lra|]. apply le_IZR. rewrite plus_IZR. lra. }
    destruct (contains cs (Zfloor v + -1)); split; auto; [destruct cs; discriminate|]. apply Forall_app; auto.
Qed.

(** ** Costs *)
Definition okb (x : f32) : bool := valid_binary 24 128 x && is_finite_SF x && f_ge (f_of_Z 64) (f_abs x).
Lemma okb_ok x : okb x = true -> fin x /\ (Rabs (val x) <= 64)%R.
Proof.
  unfold okb. intros H. apply andb_prop in H. destruct H as [H H3]. apply andb_prop in H. destruct H as [H1 H2].
  assert (fin x) as F by (split; auto). split; auto. destruct (abs_ok x F) as [Fa Va]. destruct (of_Z_exact 64) as [F6 V6]; [cbn; lia|].
  rewrite (ge_ok _ _ F6 Fa), Va, V6 in H3. destruct (Rle_bool_spec (Rabs (val x)) 64); [auto|discriminate].
Qed.
Lemma rates_ok : forallb (fun run => forallb (fun cat => okb (f_add (estimate_ac_huffman_length (Z.lor (Z.shiftl run 4) cat)) (f_of_Z cat))) (idxs 13)) (idxs 16) = true.
Proof. vm_compute. reflexivity. Qed.
Lemma cat_range v : Z.abs v <= 2048 -> 0 <= tcategory v <= 12.
Proof.
  intros H. unfold tcategory. destruct (Z.eqb_spec v 0); [lia|]. pose proof (Z.log2_nonneg (Z.abs v)).
  assert (Z.log2 (Z.abs v) <= Z.log2 2048) by (apply Z.log2_le_mono; auto). change (Z.log2 2048) with 11 in *. lia.
Qed.
Lemma rate_ok value run : Z.abs value <= 2048 -> 0 <= run <= 15 -> fin (estimate_ac_rate value run) /\ (Rabs (val (estimate_ac_rate value run)) <= 64)%R.
Proof.
  intros Hv Hr. pose proof (cat_range value Hv). apply okb_ok. unfold estimate_ac_rate. pose proof rates_ok as R. rewrite forallb_forall in R.
  specialize (R run ltac:(apply in_idxs; change (Z.of_nat 16) with 16; lia)). cbv beta in R. rewrite forallb_forall in R. apply R. apply in_idxs. change (Z.of_nat 13) with 13. lia.
Qed.
Lemma rate_run_ok c run : Z.abs c <= 2048 -> 0 <= run <= 15 -> let '(rate, r) := rate_run c run in fin rate /\ (Rabs (val rate) <= 64)%R /\ 0 <= r <= 15.
Proof.
  intros Hc Hr. unfold rate_run. destruct (Z.eqb_spec c 0).
  - destruct (Z.min 255 (run + 1) >=? 16) eqn:E.
    + split; [|split; [|lia]]; apply (okb_ok ZRL_RATE); reflexivity.
    + split; [|split; [|lia]]; apply (okb_ok f_zero); reflexivity.
  - destruct (rate_ok c run Hc Hr) as [R1 R2]. split; [exact R1|]. split; [exact R2|lia].
Qed.
Definition capR (n : Z) : R := F2R (Float radix2 n 24).
Lemma cap_val n : capR n = (IZR n * 16777216)%R. Proof. unfold capR. rewrite F2R_pos by lia. change (2 ^ 24) with 16777216. apply mult_IZR. Qed.
Lemma cap_fmt n : 0 <= n < 1000 -> fmt (capR n). Proof. intros H. apply fmt_F2R; [change (2 ^ 24) with 16777216; lia|lia]. Qed.
Lemma big x : (x <= 2 ^ 40)%R -> (x < bpow radix2 128)%R.
Proof. intros H. apply Rle_lt_trans with (bpow radix2 40); [|apply bpow_lt; lia]. change (bpow radix2 40) with (IZR 1099511627776). lra. Qed.
(** a coefficient of a block and its divisor *)
Definition acok (t : R) (qz : Z) (cq : f32 * f32) : Prop :=
  fin (fst cq) /\ (Rabs (val (fst cq) - t) <= dct_err)%R /\ (Rabs t <= 1024)%R /\ 1 <= qz <= 255 /\ snd cq = f_of_Z qz.
Definition stok (n : Z) (v : R) (s : tstate) : Prop :=
  near v (ts_value s) /\ fin (ts_cost s) /\ (Rabs (val (ts_cost s)) <= capR (6 * n))%R /\ 0 <= ts_run s <= 15.
Lemma near_bound v z B : near v z -> (Rabs v <= B)%R -> (0 <= B)%R -> (Rabs (IZR z) <= B + 2)%R.
Proof. intros [->|(H & _)] HB B0; [rewrite Rabs_R0; lra|]. replace (IZR z) with ((IZR z - v) + v)%R by ring. eapply Rle_trans; [apply Rabs_triang|]. lra. Qed.
Lemma quot_le c t qz : fin c -> (Rabs (val c - t) <= dct_err)%R -> (Rabs t <= 1024)%R -> 1 <= qz <= 255 ->
  (Rabs (val (f_div c (f_of_Z qz))) <= 1025)%R /\ (Rabs (val (f_div c (f_of_Z qz))) * IZR qz <= 1025)%R.
Proof.
  intros F H Ht Hq. destruct (ratio_ok c t qz F H Ht Hq) as [Fd Vd]. set (v := val (f_div c (f_of_Z qz))) in *.
  assert (1 <= IZR qz)%R as Hr by (apply IZR_le; lia).
  assert (Rabs v * IZR qz <= 1025)%R as G.
  { rewrite <- (Rabs_pos_eq (IZR qz)) by lra. rewrite <- Rabs_mult. replace (v * IZR qz)%R with ((v - t / IZR qz) * IZR qz + t)%R by (field; lra).
    eapply Rle_trans; [apply Rabs_triang|]. rewrite Rabs_mult, (Rabs_pos_eq (IZR qz)) by lra.
    assert (Rabs (v - t / IZR qz) * IZR qz <= 0.0101)%R; [|lra]. apply Rle_trans with (0.0101 / IZR qz * IZR qz)%R; [apply Rmult_le_compat_r; lra|]. right. field. lra. }
  split; [|exact G]. apply Rle_trans with (Rabs v * IZR qz)%R; [|exact G]. rewrite <- (Rmult_1_r (Rabs v)) at 1. apply Rmult_le_compat_l; [apply Rabs_pos|lra].
Qed.
Definition lambda_fits (lambda : f32) : Prop := fin lambda /\ (Rabs (val lambda) <= 5)%R.
Lemma lambda_ok : lambda_fits DEFAULT_LAMBDA.
Proof. destruct (of_Z_exact 1) as [F V]; [cbn; lia|]. split; [exact F|]. unfold DEFAULT_LAMBDA. rewrite V, Rabs_pos_eq; lra. Qed.
Lemma next_ok lambda t qz cq n s i c v : lambda_fits lambda -> acok t qz cq -> 0 <= n < 100 -> fin (ts_cost s) -> (Rabs (val (ts_cost s)) <= capR (6 * n))%R -> 0 <= ts_run s <= 15 ->
  v = val (f_div (fst cq) (snd cq)) -> near v c -> stok (n + 1) v (next_state lambda (fst cq) (snd cq) s i c).
Proof.
  intros [Fl Vl] (F & V & Ht & Hq & Eq) Hn Fs Vs Hr Ev Nc. rewrite Eq in *. destruct (quot_le _ _ _ F V Ht Hq) as [Q1 Q2]. rewrite <- Ev in Q1, Q2.
  assert (1 <= IZR qz <= 255)%R as Hqr by (split; apply IZR_le; lia).
  pose proof (near_bound v c 1025 Nc Q1 ltac:(lra)) as Bc.
  assert (Z.abs c <= 1027) as Zc. { apply le_IZR. rewrite abs_IZR. lra. }
  assert (Rabs (IZR c) * IZR qz <= 1535)%R as Bq.
  { destruct Nc as [->|(Nc & _)]; [rewrite Rabs_R0; lra|]. apply Rle_trans with ((Rabs v + 2) * IZR qz)%R; [|lra]. apply Rmult_le_compat_r; [lra|].
    replace (IZR c) with ((IZR c - v) + v)%R by ring. eapply Rle_trans; [apply Rabs_triang|]. lra. }
  destruct (of_Z_exact c) as [Fc Vc]. { change (2 ^ 24) with 16777216. lia. }
  destruct (of_Z_exact qz) as [Fz Vz]. { change (2 ^ 24) with 16777216. lia. }
  destruct (mul_bound (f_of_Z c) (f_of_Z qz) 2048) as (Fm & _ & Bm); auto.
  { apply (fmt_Z 2048). cbn. lia. } { rewrite Vc, Vz, Rabs_mult, (Rabs_pos_eq (IZR qz)) by lra. lra. } { apply big. lra. }
  assert (Rabs (val (fst cq)) <= 1025)%R as B1. { replace (val (fst cq)) with ((val (fst cq) - t) + t)%R by ring. eapply Rle_trans; [apply Rabs_triang|]. unfold dct_err in V. lra. }
  destruct (sub_bound (fst cq) (f_mul (f_of_Z c) (f_of_Z qz)) 4096) as (Fd & _ & Bd); auto.
  { apply (fmt_Z 4096). cbn. lia. }
  { unfold Rminus. eapply Rle_trans; [apply Rabs_triang|]. rewrite Rabs_Ropp. lra. } { apply big. lra. }
  set (d := f_sub (fst cq) (f_mul (f_of_Z c) (f_of_Z qz))) in *.
  destruct (mul_bound d d (capR 1)) as (F2 & _ & B2); auto.
  { apply cap_fmt. lia. } { rewrite cap_val, Rabs_mult. apply Rle_trans with (4096 * 4096)%R; [apply Rmult_le_compat; auto using Rabs_pos|lra]. } { apply big. rewrite cap_val. lra. }
  destruct (mul_bound lambda (f_mul d d) (capR 5)) as (F3 & _ & B3); auto.
  { apply cap_fmt. lia. } { rewrite Rabs_mult. apply Rle_trans with (5 * capR 1)%R; [apply Rmult_le_compat; auto using Rabs_pos|rewrite !cap_val; lra]. } { apply big. rewrite cap_val. lra. }
  unfold next_state. fold d. cbv zeta. pose proof (rate_run_ok c (ts_run s) ltac:(lia) Hr) as RR. destruct (rate_run c (ts_run s)) as [rate r]. destruct RR as (Fr & Br & Rr).
  assert (0 <= IZR n < 100)%R as Hnr by (split; [apply IZR_le; lia|apply IZR_lt; lia]).
  destruct (add_bound (ts_cost s) rate (capR (6 * n + 1))) as (F4 & _ & B4); auto.
  { apply cap_fmt. lia. } { eapply Rle_trans; [apply Rabs_triang|]. rewrite cap_val in *. rewrite plus_IZR. lra. } { apply big. rewrite cap_val, plus_IZR, mult_IZR. lra. }
  destruct (add_bound (f_add (ts_cost s) rate) (f_mul lambda (f_mul d d)) (capR (6 * (n + 1)))) as (F5 & _ & B5); auto.
  { apply cap_fmt. lia. } { eapply Rle_trans; [apply Rabs_triang|]. rewrite cap_val in *. rewrite !plus_IZR, !mult_IZR, ?plus_IZR in *. lra. } { apply big. rewrite cap_val, mult_IZR, plus_IZR. lra. }
  split; [exact Nc|]. cbn [ts_cost ts_run]. auto.
Qed.

(** ** Columns *)
Lemma columns_ok lambda ac : lambda_fits lambda -> forall ts n states, 0 <= n -> n + zlen ac <= 100 -> Forall2 (fun t cq => acok (fst t) (snd t) cq) ts ac -> states <> [] ->
  Forall (fun s => fin (ts_cost s) /\ (Rabs (val (ts_cost s)) <= capR (6 * n))%R /\ 0 <= ts_run s <= 15) states ->
  exists cols, trellis_columns lambda states ac = Ok cols /\
    Forall2 (fun cq col => col <> [] /\ Forall (fun s => near (val (f_div (fst cq) (snd cq))) (ts_value s) /\ fin (ts_cost s) /\ 0 <= ts_run s <= 15) col) ac cols.
Proof.
  intros LF. induction ac as [|[c q] ac IH]; intros ts n states Hn HL HA HS HF; cbn [trellis_columns].
  - exists []. split; auto.
  - assert (zlen ((c, q) :: ac) = zlen ac + 1) as EL by (unfold zlen; cbn [length]; lia).
    inversion HA as [|[t qz] cq ts' ac' HA1 HA2]; subst. cbn [fst snd] in HA1.
    assert (fin (f_div c q) /\ (Rabs (val (f_div c q)) <= 1025)%R) as [Fd Bd].
    { pose proof HA1 as (F & V & Ht & Hq & Eq). cbn [fst snd] in *. subst q. split; [apply (ratio_ok c t qz F V Ht Hq)|apply (quot_le c t qz F V Ht Hq)]. }
    destruct (candidates_ok (f_div c q) Fd Bd) as (cs & EC & NC & FC).
    assert (0 <= zlen ac) by (unfold zlen; lia).
    destruct (step_ok lambda c q states cs (stok (n + 1) (val (f_div c q))) EC NC HS) as (next & EN & NN & FN).
    { intros s i z Hs Hz. rewrite Forall_forall in HF, FC. destruct (HF s Hs) as (F1 & F2 & F3). apply (next_ok lambda t qz (c, q) n s i z); auto. lia. }
    rewrite EN. cbn [rbind]. destruct (IH ts' (n + 1) next) as (cols & EcC & HC); auto; [lia|lia|..].
    { eapply Forall_impl; [|exact FN]. intros s (_ & A). exact A. }
    destruct next as [|s0 next]; [congruence|]. rewrite EcC. cbn [rbind]. eexists. split; [reflexivity|]. apply Forall2_cons; auto. split; auto.
    eapply Forall_impl; [|exact FN]. intros s (A1 & A2 & _ & A4). cbn [fst snd]. auto.
Qed.

(** ** Walking back and writing the result *)
Lemma walk_ok rcols : forall idx acc, exists p, walk_back rcols idx acc = rev p ++ acc /\
  Forall2 (fun (col : list tstate) v => v = 0 \/ exists s, In s col /\ v = ts_value s) rcols p.
Proof.
  induction rcols as [|col rcols IH]; intros idx acc; cbn [walk_back]; [exists []; split; auto|].
  destruct (nth_error col (Z.to_nat idx)) as [s|] eqn:E.
  - destruct (IH (ts_parent s) (ts_value s :: acc)) as (p & -> & H). exists (ts_value s :: p). split; [cbn [rev]; rewrite <- app_assoc; reflexivity|].
    apply Forall2_cons; auto. right. exists s. split; auto. eapply nth_error_In; eauto.
  - destruct (IH idx (0 :: acc)) as (p & -> & H). exists (0 :: p). split; [cbn [rev]; rewrite <- app_assoc; reflexivity|]. apply Forall2_cons; auto.
Qed.
Lemma Forall2_rev' {A B} (R : A -> B -> Prop) l m : Forall2 R l m -> Forall2 R (rev l) (rev m).
Proof. intros H. induction H as [|a b l m Hab HF IH]; cbn [rev]; auto. apply Forall2_app; auto. Qed.
Lemma write_ok (ps : list nat) (vs : list Z) : length ps = length vs -> NoDup ps -> forall r, Forall (fun p => (p < length r)%nat) ps ->
  let w := fold_left (fun r '(p, v) => upd r p v) (combine ps vs) r in
  length w = length r /\ (forall i, (i < length ps)%nat -> nth (nth i ps 0%nat) w 0 = nth i vs 0) /\ (forall p, ~ In p ps -> nth p w 0 = nth p r 0).
Proof.
  revert vs. induction ps as [|p ps IH]; intros [|v vs] HL HN r HF; cbn [combine fold_left length] in *; try discriminate.
  - repeat split; auto. intros i Hi. lia.
  - apply NoDup_cons_iff in HN. destruct HN as [N1 N2]. apply Forall_cons_iff in HF. destruct HF as [F1 F2].
    destruct (IH vs ltac:(lia) N2 (upd r p v)) as (W1 & W2 & W3). { eapply Forall_impl; [|exact F2]. intros. rewrite upd_length. auto. }
    cbv zeta. rewrite upd_length in W1. split; [exact W1|]. split.
    + intros [|i] Hi; cbn [nth]; [rewrite W3 by auto; apply nth_upd_eq; auto|apply W2; lia].
    + intros p' Hp. rewrite W3 by (intros K; apply Hp; right; auto). apply nth_upd_neq. intros ->. apply Hp. left. reflexivity.
Qed.
Lemma fold_combine_map {A} (f : Z -> nat) (g : A -> nat -> Z -> A) (is : list Z) vs r :
  fold_left (fun r '(i, v) => g r (f i) v) (combine is vs) r = fold_left (fun r '(p, v) => g r p v) (combine (map f is) vs) r.
Proof. revert vs r. induction is as [|i is IH]; intros [|v vs] r; cbn [map combine fold_left]; auto. Qed.
Definition zpos : list nat := map (fun i => Z.to_nat (znth ZIGZAG (i + 1))) (idxs 63).
Lemma zpos_eq : zpos = map Z.to_nat (skipn 1 ZIGZAG). Proof. vm_compute. reflexivity. Qed.
Lemma zpos_perm : forall n, (1 <= n < 64)%nat -> exists i, (i < 63)%nat /\ nth i zpos 0%nat = n /\ nth i (skipn 1 ZIGZAG) 0 = Z.of_nat n.
Proof.
  assert (forallb (fun n => existsb (fun i => Nat.eqb (nth i zpos 0%nat) n && (nth i (skipn 1 ZIGZAG) 0 =? Z.of_nat n)) (seq 0 63)) (seq 1 63) = true) as K by (vm_compute; reflexivity).
  intros n Hn. rewrite forallb_forall in K. specialize (K n ltac:(apply in_seq; lia)). apply existsb_exists in K. destruct K as (i & Hi & E). apply in_seq in Hi.
  apply andb_prop in E. destruct E as [E1 E2]. apply Nat.eqb_eq in E1. apply Z.eqb_eq in E2. exists i. auto with zarith.
Qed.
Lemma zpos_nodup : NoDup zpos. Proof. rewrite zpos_eq. vm_compute. repeat (apply NoDup_cons; [intros H; repeat (destruct H as [H|H]; [discriminate|]); exact H|]). apply NoDup_nil. Qed.
Lemma zpos_range : Forall (fun p => (p < 64)%nat) zpos /\ ~ In 0%nat zpos /\ length zpos = 63%nat.
Proof.
  split; [|split]; [|vm_compute; intros H; repeat (destruct H as [H|H]; [discriminate|]); exact H|reflexivity].
  apply Forall_forall. intros p Hp. assert (forallb (fun p => Nat.ltb p 64) zpos = true) as K by (vm_compute; reflexivity). rewrite forallb_forall in K. apply Nat.ltb_lt. auto.
Qed.
Lemma Forall2_len {A B} (R : A -> B -> Prop) l m : Forall2 R l m -> length l = length m.
Proof. intros H. induction H; cbn [length]; auto. Qed.
Lemma Forall2_nth {A B} (R : A -> B -> Prop) l m i a b : Forall2 R l m -> (i < length l)%nat -> R (nth i l a) (nth i m b).
Proof. intros H. revert i. induction H as [|x y l m Hxy HF IH]; intros i Hi; cbn [length] in *; [lia|]. destruct i; cbn [nth]; auto. apply IH. lia. Qed.

Theorem trellis_ok lambda (t : nat -> R) dct table : lambda_fits lambda -> length table = 64%nat -> Forall (fun v => 1 <= v <= 255) table ->
  (forall n, (n < 64)%nat -> fin (fat dct n) /\ (Rabs (val (fat dct n) - t n) <= dct_err)%R /\ (Rabs (t n) <= 1024)%R) ->
  exists l, trellis_quantize lambda dct table = Ok l /\ length l = 64%nat /\ nth 0 l 0 = quantize_one (fat dct 0) (znth table 0) /\
    forall n, (1 <= n < 64)%nat -> near (val (f_div (fat dct n) (f_of_Z (nth n table 0)))) (nth n l 0).
Proof.
  intros LF L HT H. unfold trellis_quantize. set (ac := map (fun n => (fat dct (Z.to_nat n), f_of_Z (znth table n))) (skipn 1 ZIGZAG)).
  assert (forall z, In z (skipn 1 ZIGZAG) -> 1 <= z < 64) as ZR.
  { assert (forallb (fun z => (1 <=? z) && (z <? 64)) (skipn 1 ZIGZAG) = true) as K by (vm_compute; reflexivity). intros z Hz. rewrite forallb_forall in K. specialize (K z Hz). lia. }
  destruct (columns_ok lambda ac LF (map (fun z => (t (Z.to_nat z), znth table z)) (skipn 1 ZIGZAG)) 0 [mkts f_zero 0 0 0]) as (cols & EC & FC); auto; try lia.
  - unfold ac, zlen. rewrite map_length. cbn. lia.
  - unfold ac. clear EC || idtac. assert (forall zs, (forall z, In z zs -> 1 <= z < 64) -> Forall2 (fun t cq => acok (fst t) (snd t) cq) (map (fun z => (t (Z.to_nat z), znth table z)) zs) (map (fun n => (fat dct (Z.to_nat n), f_of_Z (znth table n))) zs)) as G.
    { induction zs as [|z zs IH]; intros HZ; cbn [map]; [apply Forall2_nil|]. apply Forall2_cons; [|apply IH; intros; apply HZ; right; auto].
      specialize (HZ z ltac:(left; auto)). destruct (H (Z.to_nat z) ltac:(lia)) as (F & V & B). unfold acok. cbn [fst snd]. pose proof (table_at table z L HT ltac:(lia)). auto. }
    apply G, ZR.
  - discriminate.
  - apply Forall_cons; [|apply Forall_nil]. cbn [ts_cost ts_run]. split; [apply fin_zero|]. rewrite val_zero, Rabs_R0, cap_val. change (6 * 0) with 0. split; [lra|lia].
  - assert (length cols = 63%nat) as LC. { apply Forall2_len in FC. rewrite <- FC. unfold ac. rewrite map_length. reflexivity. }
    rewrite EC. cbn [rbind]. assert (last cols [] <> []) as LN.
    { assert (Forall (fun col => col <> []) cols) as FN. { clear -FC. induction FC as [|a b l m [Hab _] HF IH]; [apply Forall_nil|apply Forall_cons; auto]. }
      destruct cols as [|c0 cols]; [discriminate|]. rewrite Forall_forall in FN. apply FN. destruct (exists_last (l := c0 :: cols) ltac:(discriminate)) as (l' & x & ->). rewrite last_last. apply in_or_app. right. left. reflexivity. }
    destruct (map with_eob (last cols [])) as [|s0 sl] eqn:EM. { apply map_eq_nil in EM. congruence. }
    rewrite LC. change (63 <? 63)%nat with false. cbv iota. destruct (walk_ok (rev cols) (min_index (ts_cost s0) 0 1 sl) []) as (p & -> & HP). rewrite app_nil_r.
    apply Forall2_rev' in HP. rewrite rev_involutive in HP. set (path := rev p) in *. pose proof (Forall2_len _ _ _ HP) as LP. rewrite LC in LP.
    eexists. split; [reflexivity|]. unfold number. rewrite <- LP. rewrite (fold_combine_map (fun i => Z.to_nat (znth ZIGZAG (i + 1))) (fun r p v => upd r p v)). fold zpos.
    destruct zpos_range as (Z1 & Z2 & Z3). set (r0 := quantize_one (fat dct 0) (znth table 0) :: repeat 0 63).
    destruct (write_ok zpos path ltac:(lia) zpos_nodup r0 Z1) as (W1 & W2 & W3). split; [exact W1|]. split; [rewrite W3 by auto; reflexivity|].
    intros n Hn. destruct (zpos_perm n Hn) as (i & Hi & E1 & E2). rewrite <- E1 at 3. rewrite W2 by lia.
    pose proof (Forall2_nth _ _ _ i [] 0 HP ltac:(lia)) as [E|(s & Hs & E)]; [rewrite E; left; reflexivity|]. rewrite E.
    pose proof (Forall2_nth _ _ _ i (f_zero, f_zero) [] FC) as HF. unfold ac in HF. rewrite map_length in HF. specialize (HF Hi). destruct HF as [_ HF]. rewrite Forall_forall in HF. specialize (HF s Hs). destruct HF as [HF _].
    rewrite (nth_indep _ _ ((fun n => (fat dct (Z.to_nat n), f_of_Z (znth table n))) 0)) in HF by (rewrite map_length; exact Hi).
    rewrite (map_nth (fun n => (fat dct (Z.to_nat n), f_of_Z (znth table n)))) in HF. rewrite E2 in HF. cbn [fst snd] in HF. rewrite Nat2Z.id in HF. unfold znth in HF. rewrite Nat2Z.id in HF. exact HF.
Qed.
