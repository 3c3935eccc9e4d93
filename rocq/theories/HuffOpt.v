(** Proofs for C86: Huffman's algorithm finds a cheapest code. *)
From Coq Require Import Permutation.
From Verif Require Import Base InflateModel CanonSpec CanonProofs HuffModel HuffProofs HuffOptSpec.

(** ** Weights with code lengths *)
Definition wcost (ps : list (Z * Z)) : Z := fold_right (fun p a => fst p * snd p + a) 0 ps.
Definition wkraft (L : Z) (ps : list (Z * Z)) : Z := fold_right (fun p a => 2 ^ (L - snd p) + a) 0 ps.
Lemma wcost_perm a b : Permutation a b -> wcost a = wcost b.
Proof. unfold wcost. induction 1; cbn [fold_right] in *; lia. Qed.
Lemma wkraft_perm L a b : Permutation a b -> wkraft L a = wkraft L b.
Proof. unfold wkraft. induction 1; cbn [fold_right] in *; lia. Qed.
(** the lightest gets the longest code *)
Lemma swap_max L a r : forall la, Forall (fun p => a <= fst p) r -> exists l1 r', map fst r' = map fst r /\ Forall (fun p => snd p <= l1) r' /\
  wcost ((a, l1) :: r') <= wcost ((a, la) :: r) /\ wkraft L ((a, l1) :: r') = wkraft L ((a, la) :: r) /\
  forall P : Z -> Prop, P la -> Forall (fun p => P (snd p)) r -> P l1 /\ Forall (fun p => P (snd p)) r'.
Proof.
  induction r as [|(w, l) r IH]; intros la A; [exists la, []; repeat split; auto; lia|]. apply Forall_cons_iff in A as (A & As). cbn [fst] in A.
  destruct (IH la As) as (l1 & r' & E & M & C & K & P). unfold wcost, wkraft in *. cbn [fold_right fst snd map] in *.
  destruct (Z.le_gt_cases l l1) as [H|H].
  - exists l1, ((w, l) :: r'). cbn [fold_right fst snd map]. split; [congruence|]. split; [constructor; auto|]. split; [lia|]. split; [lia|].
    intros Q Q1 Q2. apply Forall_cons_iff in Q2 as (Q2 & Q3). destruct (P Q Q1 Q3). auto.
  - exists l, ((w, l1) :: r'). cbn [fold_right fst snd map]. split; [congruence|]. split; [constructor; [cbn; lia|eapply Forall_impl; [|exact M]; cbn; lia]|].
    split; [nia|]. split; [lia|]. intros Q Q1 Q2. apply Forall_cons_iff in Q2 as (Q2 & Q3). destruct (P Q Q1 Q3). auto.
Qed.
Lemma wkraft_div L m ps : 0 <= m <= L -> Forall (fun p => 0 <= snd p <= m) ps -> (2 ^ (L - m) | wkraft L ps).
Proof.
  intros H F. induction F as [|p ps (A & B) F IH]; unfold wkraft in *; cbn [fold_right]; [apply Z.divide_0_r|]. apply Z.divide_add_r; [|exact IH].
  replace (L - snd p) with ((L - m) + (m - snd p)) by lia. rewrite Z.pow_add_r by lia. apply Z.divide_factor_l.
Qed.
Lemma merge_step L a b ws ps : Permutation (map fst ps) (a :: b :: ws) -> 0 <= a <= b -> Forall (fun w => b <= w) ws -> Forall (fun p => 0 <= snd p <= L) ps -> wkraft L ps <= 2 ^ L ->
  exists ps', Permutation (map fst ps') (a + b :: ws) /\ Forall (fun p => 0 <= snd p <= L) ps' /\ wkraft L ps' <= 2 ^ L /\ wcost ps' + (a + b) <= wcost ps.
Proof.
  intros Pm Hab Hw R K. apply Permutation_sym in Pm. apply Permutation_map_inv in Pm as (ps0 & E & Pm).
  rewrite (wkraft_perm L _ _ Pm) in K. rewrite (wcost_perm _ _ Pm). apply (Permutation_Forall Pm) in R. clear Pm ps.
  destruct ps0 as [|(a', la) [|(b', lb) r]]; try discriminate. cbn [map fst] in E. injection E as <- <- ->.
  destruct (swap_max L a ((b, lb) :: r) la) as (l1 & [|(b1, lb1) r1] & E1 & M1 & C1 & K1 & P1).
  { constructor; [cbn; lia|]. rewrite Forall_map in Hw. eapply Forall_impl; [|exact Hw]. cbn. lia. }
  { discriminate. }
  cbn [map fst] in E1. injection E1 as -> E1.
  apply Forall_cons_iff in R as (R1 & R2). destruct (P1 (fun l => 0 <= l <= L) R1 R2) as (Q1 & Q2). apply Forall_cons_iff in Q2 as (Q2 & Q3). cbn [snd] in *.
  destruct (swap_max L b r1 lb1) as (l2 & r2 & E2 & M2 & C2 & K2 & P2).
  { rewrite <- E1 in Hw. rewrite Forall_map in Hw. exact Hw. }
  destruct (P2 (fun l => 0 <= l <= L) Q2 Q3) as (T1 & T2). apply Forall_cons_iff in M1 as (M1 & M1'). cbn [snd] in M1.
  destruct (P2 (fun l => l <= l1) M1 M1') as (T3 & T4).
  unfold wcost, wkraft in *. cbn [fold_right fst snd] in *.
  set (kr := fold_right (fun p a => 2 ^ (L - snd p) + a) 0 r2) in *. set (cr := fold_right (fun p a => fst p * snd p + a) 0 r2) in *.
  assert (2 ^ (L - l2) + 2 ^ (L - l2) + kr <= 2 ^ L) as KK.
  { destruct (Z.eq_dec l1 l2) as [->|N]; [lia|]. assert (2 ^ (L - l2) | 2 ^ (L - l2) + kr) as D1.
    { apply Z.divide_add_r; [apply Z.divide_refl|]. apply (wkraft_div L l2 r2); [lia|]. rewrite Forall_forall in *. intros p Hp. split; [apply T2, Hp|apply M2, Hp]. }
    assert (2 ^ (L - l2) | 2 ^ L) as D2. { replace L with ((L - l2) + l2) at 2 by lia. rewrite Z.pow_add_r by lia. apply Z.divide_factor_l. }
    assert (0 < 2 ^ (L - l1)) by (apply Z.pow_pos_nonneg; lia). assert (0 < 2 ^ (L - l2)) by (apply Z.pow_pos_nonneg; lia).
    destruct D1 as (x & D1). destruct D2 as (y & D2). assert (x < y) by nia. nia. }
  assert (1 <= l2) as L2.
  { destruct (Z.le_gt_cases 1 l2); [assumption|]. assert (l2 = 0) as -> by lia. rewrite Z.sub_0_r in KK. assert (0 < 2 ^ L) by (apply Z.pow_pos_nonneg; lia).
    assert (0 <= kr) by (unfold kr; clear; induction r2 as [|p r IH]; cbn; [lia|]; pose proof (Z.pow_nonneg 2 (L - snd p)); lia). lia. }
  exists ((a + b, l2 - 1) :: r2). cbn [map fst snd fold_right]. split; [rewrite E2, E1; reflexivity|]. split; [constructor; [cbn; lia|exact T2]|].
  split; [|fold cr; nia]. fold kr. replace (L - (l2 - 1)) with (1 + (L - l2)) by lia. rewrite Z.pow_add_r by lia. lia.
Qed.

(** ** The merge loop *)
Fixpoint inner (t : tree) : Z := match t with Leaf _ _ => 0 | Node f l r => f + inner l + inner r end.
Definition inners (ts : list tree) : Z := fold_right (fun t a => inner t + a) 0 ts.
Lemma inners_perm a b : Permutation a b -> inners a = inners b.
Proof. unfold inners. induction 1; cbn [fold_right] in *; lia. Qed.
Lemma merge_opt H fuel : forall h t L ps, merge_loop H fuel h = Ok t -> Forall (fun t => 0 <= freq t) (h_elems H h) -> Permutation (map fst ps) (map freq (h_elems H h)) ->
  Forall (fun p => 0 <= snd p <= L) ps -> wkraft L ps <= 2 ^ L -> inner t <= inners (h_elems H h) + wcost ps.
Proof.
  induction fuel as [|f IH]; intros h t L ps E N Pm R K; cbn [merge_loop] in E;
    (destruct (h_pop H h) as [(lf, h1)|] eqn:P1; [|discriminate]); destruct (h_pop_some H _ _ _ P1) as (Q1 & M1);
    (destruct (h_pop H h1) as [(rt, h2)|] eqn:P2; [destruct (h_pop_some H _ _ _ P2) as (Q2 & M2)|]).
  1: discriminate.
  1,3: apply h_pop_none in P2; rewrite P2 in Q1; injection E as <-; rewrite (inners_perm _ _ Q1); unfold inners; cbn [fold_right];
    (assert (0 <= wcost ps); [|lia]); rewrite (Permutation_map freq Q1) in Pm; apply (Permutation_Forall Q1) in N; apply Forall_cons_iff in N as (N & _); cbn [map] in Pm;
    apply Permutation_sym, Permutation_length_1_inv in Pm; destruct ps as [|p [|]]; try discriminate; cbn [map] in Pm; apply Forall_cons_iff in R as (R & _); unfold wcost; cbn [fold_right]; injection Pm as Pm; nia.
  destruct (freq lf + freq rt <? U32); [|discriminate].
  assert (Permutation (h_elems H h) (lf :: rt :: h_elems H h2)) as Q by (rewrite Q1, Q2; reflexivity).
  apply (Permutation_Forall Q) in M1. pose proof (Permutation_Forall Q N) as N'. apply Forall_cons_iff in N' as (Nl & N'). apply Forall_cons_iff in N' as (Nr & N').
  apply (Permutation_Forall Q2) in M2. apply Forall_cons_iff in M1 as (_ & M1). apply Forall_cons_iff in M1 as (M1 & _). apply Forall_cons_iff in M2 as (_ & M2). apply tree_le_freq in M1.
  rewrite (Permutation_map freq Q) in Pm. cbn [map] in Pm.
  destruct (merge_step L (freq lf) (freq rt) (map freq (h_elems H h2)) ps Pm) as (ps' & Pm' & R' & K' & C'); [lia| |exact R|exact K|].
  { rewrite Forall_map. eapply Forall_impl; [|exact M2]. intros x. apply tree_le_freq. }
  pose proof (h_push_ok H (Node (freq lf + freq rt) lf rt) h2) as Q3.
  specialize (IH _ t L ps' E). rewrite (inners_perm _ _ Q3) in IH. rewrite (inners_perm _ _ Q). unfold inners in *. cbn [fold_right inner] in *.
  assert (inner t <= freq lf + freq rt + inner lf + inner rt + fold_right (fun t a => inner t + a) 0 (h_elems H h2) + wcost ps'); [|lia]. apply IH.
  - eapply Permutation_Forall; [symmetry; exact Q3|]. constructor; [cbn; lia|exact N'].
  - rewrite (Permutation_map freq Q3). exact Pm'.
  - exact R'.
  - exact K'.
Qed.

(** ** From the tree to the lengths *)
Lemma nodup_app {A} (a b : list A) : NoDup (a ++ b) -> NoDup a /\ NoDup b /\ forall x, In x a -> In x b -> False.
Proof.
  induction a as [|x a IH]; cbn [app]; intros N; [split; [constructor|]; split; [exact N|intros x []]|]. inversion N as [|? ? N1 N2]; subst. destruct (IH N2) as (A1 & A2 & A3).
  split; [constructor; [intros I; apply N1, in_or_app; auto|exact A1]|]. split; [exact A2|]. intros y [->|I] J; [apply N1, in_or_app; auto|eauto].
Qed.
Fixpoint lw (t : tree) (d : Z) : Z := match t with Leaf f _ => f * d | Node _ l r => lw l (d + 1) + lw r (d + 1) end.
Lemma lw_inner t : good t -> forall d, lw t d = inner t + d * freq t.
Proof. induction t as [f s|f l IHl r IHr]; cbn [good lw inner freq]; intros G d; [lia|]. destruct G as (Gl & Gr & -> & _). rewrite IHl, IHr by assumption. lia. Qed.
Lemma depth_leaves t : (depth t < length (leaves t))%nat.
Proof. induction t as [f s|f l IHl r IHr]; cbn [depth leaves length]; [lia|]. rewrite app_length. lia. Qed.
Lemma coded_nil fs : coded_bits fs (repeat 0 (length fs)) = 0.
Proof. unfold coded_bits. induction fs as [|f fs IH]; cbn [length repeat combine map fold_right fst snd]; [reflexivity|]. rewrite IH. lia. Qed.
Lemma coded_upd fs : forall lens i v, length lens = length fs -> (i < length fs)%nat -> ln lens i = 0 -> coded_bits fs (upd lens i v) = coded_bits fs lens + nth i fs 0 * v.
Proof.
  unfold coded_bits, ln. induction fs as [|f fs IH]; intros [|l lens] i v L I Z; cbn [length] in *; try lia. destruct i as [|i]; cbn [upd combine map fold_right fst snd nth] in *; [rewrite Z; lia|].
  rewrite IH by lia. lia.
Qed.
Lemma coded_tree fs t : forall d lens, length lens = length fs -> 1 <= d -> NoDup (map fst (leaves t)) -> (forall s f, In (s, f) (leaves t) -> 0 <= s < zlen fs /\ f = nth (Z.to_nat s) fs 0 /\ ln lens (Z.to_nat s) = 0) ->
  coded_bits fs (fold_left set_len (ld t d) lens) = coded_bits fs lens + lw t d /\ length (fold_left set_len (ld t d) lens) = length fs /\
  forall s, ~ In (Z.of_nat s) (map fst (leaves t)) -> ln (fold_left set_len (ld t d) lens) s = ln lens s.
Proof.
  induction t as [f s|f l IHl r IHr]; intros d lens L D ND HI; cbn [ld lw leaves] in *.
  - destruct (HI s f ltac:(left; reflexivity)) as (A & B & C). cbn [fold_left]. unfold set_len. cbn [fst snd]. rewrite Z.max_l by lia. unfold zlen in A.
    rewrite coded_upd by (try assumption; lia). rewrite upd_length, B. split; [lia|]. split; [exact L|]. intros s' Hs. unfold ln. apply nth_upd_neq. intros E. apply Hs. left. cbn. lia.
  - rewrite fold_left_app. rewrite map_app in ND. apply nodup_app in ND as (NDl & NDr & DJ).
    destruct (IHl (d + 1) lens L ltac:(lia) NDl) as (A1 & A2 & A3); [intros s' f' H; apply HI, in_or_app; auto|].
    destruct (IHr (d + 1) _ A2 ltac:(lia) NDr) as (B1 & B2 & B3).
    { intros s' f' H. destruct (HI s' f') as (X & Y & W); [apply in_or_app; auto|]. split; [exact X|]. split; [exact Y|]. rewrite A3, <- W; [reflexivity|]. rewrite Z2Nat.id by lia.
      intros I. apply (DJ s' I). apply in_map_iff. exists (s', f'). auto. }
    split; [lia|]. split; [exact B2|]. intros s' Hs. rewrite map_app in Hs. rewrite B3, A3; [reflexivity| |]; intros I; apply Hs, in_or_app; auto.
Qed.
Lemma fib_F n : fibonacci (S (S n)) = F n.
Proof.
  enough (fibonacci (S (S n)) = F n /\ fibonacci (S (S (S n))) = F (S n)) by tauto. induction n as [|n (A & B)]; [split; reflexivity|]. split; [exact B|].
  rewrite F_SS, <- A, <- B. reflexivity.
Qed.
Lemma occ_nz fs : forall i, length (non_zero i fs) = occurring fs.
Proof. unfold occurring. induction fs as [|f fs IH]; intros i; cbn [non_zero filter]; [reflexivity|]. replace (f >? 0) with (0 <? f) by lia. destruct (0 <? f); cbn [length]; rewrite IH; reflexivity. Qed.
(** the pairs of weights and lengths of a code for the symbols that occur *)
Definition pairs_of (fs lens : list Z) : list (Z * Z) := filter (fun p => 0 <? fst p) (combine fs lens).
Lemma pairs_cost fs : forall lens, Forall (fun f => 0 <= f) fs -> wcost (pairs_of fs lens) = coded_bits fs lens.
Proof.
  unfold pairs_of, wcost, coded_bits. induction fs as [|f fs IH]; intros [|l lens] N; cbn [combine filter map fold_right]; try reflexivity. apply Forall_cons_iff in N as (N & Ns). cbn [fst snd].
  destruct (Z.ltb_spec 0 f); cbn [fold_right fst snd]; rewrite IH by assumption; [reflexivity|]. replace f with 0 by lia. lia.
Qed.
Lemma pairs_fst fs : forall lens i, length lens = length fs -> map fst (pairs_of fs lens) = map snd (non_zero i fs).
Proof.
  unfold pairs_of. induction fs as [|f fs IH]; intros [|l lens] i L; cbn [combine filter map non_zero] in *; try reflexivity; try discriminate. cbn [fst]. replace (f >? 0) with (0 <? f) by lia.
  destruct (0 <? f); cbn [map fst snd]; rewrite (IH lens (i + 1)) by (injection L; auto); reflexivity.
Qed.
Lemma lsum_perm a b : Permutation a b -> lsum a = lsum b.
Proof. unfold lsum. induction 1; cbn [fold_right] in *; lia. Qed.
Lemma lengths_opt H fs M lens : 1 <= M <= 15 -> Forall (fun f => 0 <= f) fs -> lsum fs < U32 -> zlen fs < 2 ^ 15 -> (2 <= occurring fs)%nat ->
  Z.of_nat (occurring fs) <= M + 1 \/ lsum fs < fibonacci (Z.to_nat (M + 3)) ->
  huffman_lengths H (length fs) (non_zero 0 fs) M = Ok lens ->
  forall L lens', length lens' = length fs -> (forall s, 0 < nth s fs 0 -> 0 <= ln lens' s <= L) -> wkraft L (pairs_of fs lens') <= 2 ^ L -> coded_bits fs lens <= coded_bits fs lens'.
Proof.
  intros HM HP HS HN H2 HC E L lens' L' R' K'. change (2 ^ 15) with 32768 in HN. rewrite <- (occ_nz fs 0) in *. set (nz := non_zero 0 fs) in *. unfold huffman_lengths in E.
  assert (0 + zlen fs <= 2 ^ 16) as HN16 by (change (2 ^ 16) with 65536; lia).
  pose proof (h_of_ok H (map (fun '(s, f) => Leaf f s) nz)) as PO.
  pose proof (Permutation_length PO) as LO. rewrite map_length in LO.
  assert (forall s f, In (s, f) nz -> 0 <= s < zlen fs /\ f = nth (Z.to_nat s) fs 0 /\ 0 < f) as NZ. { intros s f Hi. apply non_zero_in in Hi; [|lia|auto]. rewrite Z.sub_0_r in Hi. lia. }
  destruct (merge_loop_ok H (length nz) (h_of H (map (fun '(s, f) => Leaf f s) nz)) 0) as (root & Er & G & W & P & Nd).
  { eapply Permutation_Forall; [symmetry; exact PO|]. apply Forall_forall. intros t Ht. apply in_map_iff in Ht.
    destruct Ht as ([s f] & <- & Ht). apply NZ in Ht. split; [cbn; lia|split; [cbn; lia|cbn; auto]]. }
  { rewrite LO. lia. }
  { rewrite (wsum_perm _ _ PO), wsum_of. unfold nz. rewrite non_zero_sum; auto. }
  rewrite Er in E. cbn [rbind] in E. rewrite LO in Nd. destruct (Nd H2) as (fr & tl & tr & Eroot).
  assert (Permutation (leaves root) nz) as P2 by (rewrite P, (flat_perm leaves _ _ PO), leaves_of; reflexivity).
  pose proof (good_depth root G W) as HD.
  assert (freq root = lsum fs) as FR.
  { clear - P2 G HP. assert (forall t, good t -> freq t = lsum (map snd (leaves t))) as A.
    { induction t as [f s|f l IHl r IHr]; cbn [good freq leaves map]; intros G0; [unfold lsum; cbn; lia|]. destruct G0 as (Gl & Gr & -> & _). rewrite IHl, IHr, map_app by assumption. unfold lsum. clear.
      induction (map snd (leaves l)); cbn [app fold_right]; lia. }
    rewrite A by exact G. rewrite <- (non_zero_sum fs 0 HP). apply lsum_perm, Permutation_map, P2. }
  assert (Z.of_nat (depth root) <= M) as DM.
  { destruct HC as [HC|HC].
    - pose proof (depth_leaves root) as D. rewrite (Permutation_length P2) in D. lia.
    - destruct (good_fib root G) as (D & _). rewrite FR in D. replace (Z.to_nat (M + 3)) with (S (S (Z.to_nat (M + 1)))) in HC by lia. rewrite fib_F in HC.
      destruct (Z.le_gt_cases (Z.of_nat (depth root)) M); [assumption|]. pose proof (F_mono (Z.to_nat (M + 1)) (depth root) ltac:(lia)). lia. }
  assert (zlen (repeat 0 (length fs)) = zlen fs) as ZR by (unfold zlen; rewrite repeat_length; auto).
  rewrite (extract_ok root 0 (repeat 0 (length fs))) in E; [|lia|lia|].
  2: { apply Forall_forall. intros s Hs. apply in_map_iff in Hs. destruct Hs as ((s', f) & <- & Hp). rewrite ZR. apply (Permutation_in _ P2) in Hp. apply NZ in Hp. cbn. lia. }
  cbn [rbind] in E. unfold limit_code_lengths in E.
  set (ls := fold_left set_len (ld root 0) (repeat 0 (length fs))) in *.
  assert (NoDup (map fst (leaves root))) as ND. { eapply Permutation_NoDup; [symmetry; apply Permutation_map; exact P2|]. apply non_zero_nodup; [lia|auto]. }
  assert (forall s f, In (s, f) (leaves root) -> 0 <= s < zlen fs /\ f = nth (Z.to_nat s) fs 0 /\ ln (repeat 0 (length fs)) (Z.to_nat s) = 0) as HI.
  { intros s f Hi. apply (Permutation_in _ P2) in Hi. apply NZ in Hi. split; [lia|]. split; [lia|]. apply nth_repeat0. }
  (* no code is too long *)
  assert (Forall (fun l => l <= M) ls) as LM.
  { unfold ls. assert (forall ps lens, Forall (fun l => l <= M) lens -> Forall (fun p : Z * Z => Z.max (snd p) 1 <= M) ps -> Forall (fun l => l <= M) (fold_left set_len ps lens)) as A.
    { clear. induction ps as [|p ps IH]; intros lens Hl Hp; cbn [fold_left]; [exact Hl|]. apply Forall_cons_iff in Hp as (Hp & Hps). apply IH; [|exact Hps]. unfold set_len. apply Forall_upd; assumption. }
    apply A; [apply Forall_forall; intros x Hx; apply repeat_spec in Hx; lia|]. apply Forall_forall. intros p Hp. apply ld_range in Hp. lia. }
  assert (existsb (fun l => l >? M) ls = false) as EX. { apply Bool.not_true_is_false. intros T. apply existsb_exists in T as (x & Hx & T). rewrite Forall_forall in LM. specialize (LM x Hx). lia. }
  rewrite EX in E. assert (ls = lens) as <- by congruence. clear E EX LM.
  (* its cost *)
  assert (coded_bits fs ls = inner root) as ->.
  { pose proof G as G'. rewrite Eroot in ND, HI, G'. unfold ls. rewrite Eroot. cbn [leaves] in ND, HI. cbn [ld]. rewrite fold_left_app. rewrite map_app in ND.
    apply nodup_app in ND as (NDl & NDr & DJ).
    destruct (coded_tree fs tl 1 (repeat 0 (length fs)) (repeat_length _ _) ltac:(lia) NDl) as (A1 & A2 & A3); [intros s' f' Hi; apply HI, in_or_app; auto|].
    destruct (coded_tree fs tr 1 _ A2 ltac:(lia) NDr) as (B1 & B2 & B3).
    { intros s' f' Hi. destruct (HI s' f') as (X & Y & Z0); [apply in_or_app; auto|]. split; [exact X|]. split; [exact Y|]. rewrite A3; [exact Z0|]. rewrite Z2Nat.id by lia.
      intros I. apply (DJ s' I). apply in_map_iff. exists (s', f'). auto. }
    change (0 + 1) with 1. rewrite B1, A1, coded_nil. cbn [good] in G'. destruct G' as (Gl & Gr & -> & _). rewrite !lw_inner by assumption. cbn [inner]. lia. }
  (* and that of the other code *)
  rewrite <- (pairs_cost fs lens' HP).
  assert (inner root <= inners (h_elems H (h_of H (map (fun '(s, f) => Leaf f s) nz))) + wcost (pairs_of fs lens')) as O.
  { apply (merge_opt H (length nz) _ root L _ Er).
    - eapply Permutation_Forall; [symmetry; exact PO|]. rewrite Forall_map. apply Forall_forall. intros (s, f) Hi. apply NZ in Hi. cbn. lia.
    - rewrite (Permutation_map freq PO), map_map, (pairs_fst fs lens' 0 L'). apply Permutation_refl'. fold nz. apply map_ext. intros (s, f). reflexivity.
    - apply Forall_forall. intros (w, l) Hp. unfold pairs_of in Hp. apply filter_In in Hp as (Hp & Hw). cbn [fst] in Hw. apply (In_nth _ _ (0, 0)) in Hp as (s & Hs & Hp).
      rewrite combine_nth in Hp by congruence. injection Hp as Hp1 Hp2. cbn [snd]. rewrite <- Hp2. apply R'. lia.
    - exact K'. }
  rewrite (inners_perm _ _ PO) in O. assert (inners (map (fun '(s, f) => Leaf f s) nz) = 0) as Z0; [|lia].
  unfold inners. clear. induction nz as [|(s, f) nz IH]; cbn [map fold_right inner]; lia.
Qed.

(** ** Kraft's inequality for arbitrary prefix codes *)
Definition no_prefix (ws : list (list bool)) : Prop := forall i j t, (i < length ws)%nat -> (j < length ws)%nat -> i <> j -> nth j ws [] <> nth i ws [] ++ t.
Definition bkraft (L : nat) (ws : list (list bool)) : Z := fold_right (fun w a => 2 ^ (Z.of_nat L - zlen w) + a) 0 ws.
Definition after (b : bool) (ws : list (list bool)) : list (list bool) :=
  flat_map (fun w => match w with [] => [] | c :: t => if Bool.eqb b c then [t] else [] end) ws.
Lemma no_prefix_cons w ws : no_prefix (w :: ws) -> no_prefix ws /\ forall v, In v ws -> (forall t, v <> w ++ t) /\ forall t, w <> v ++ t.
Proof.
  intros N. split.
  - intros i j t Hi Hj D. apply (N (S i) (S j) t); cbn [length]; lia.
  - intros v Hv. apply (In_nth _ _ []) in Hv as (k & Hk & <-). split; intros t.
    + apply (N 0%nat (S k) t); cbn [length]; lia.
    + apply (N (S k) 0%nat t); cbn [length]; lia.
Qed.
Lemma no_prefix_make w ws : no_prefix ws -> (forall v, In v ws -> (forall t, v <> w ++ t) /\ forall t, w <> v ++ t) -> no_prefix (w :: ws).
Proof.
  intros N A i j t Hi Hj D. destruct i as [|i], j as [|j]; cbn [nth length] in *; [lia| | |].
  - apply A, nth_In. lia.
  - apply A, nth_In. lia.
  - apply N; lia.
Qed.
Lemma after_in b ws t : In t (after b ws) -> In (b :: t) ws.
Proof.
  unfold after. intros H. apply in_flat_map in H as (w & Hw & H). destruct w as [|c w]; [contradiction|]. destruct (Bool.eqb_spec b c) as [<-|]; [|contradiction]. destruct H as [<-|[]]. exact Hw.
Qed.
Lemma after_no_prefix b ws : no_prefix ws -> no_prefix (after b ws).
Proof.
  induction ws as [|w ws IH]; intros N; [intros i j t Hi; cbn in Hi; lia|]. destruct (no_prefix_cons _ _ N) as (Ns & A). unfold after in *. cbn [flat_map].
  destruct w as [|c w]; [exact (IH Ns)|]. destruct (Bool.eqb_spec b c) as [<-|]; [|exact (IH Ns)]. cbn [app]. apply no_prefix_make; [exact (IH Ns)|].
  intros v Hv. apply after_in in Hv. destruct (A _ Hv) as (A1 & A2). split; intros t E; [apply (A1 t)|apply (A2 t)]; cbn [app]; congruence.
Qed.
Lemma kraft_words L : forall ws, no_prefix ws -> Forall (fun w => (length w <= L)%nat) ws -> bkraft L ws <= 2 ^ Z.of_nat L.
Proof.
  induction L as [|L IH]; intros ws N R.
  - destruct ws as [|w [|v ws]]; unfold bkraft; cbn [fold_right]; [lia| |].
    + apply Forall_cons_iff in R as (R & _). destruct w; [|cbn in R; lia]. vm_compute. discriminate.
    + exfalso. apply Forall_cons_iff in R as (R & R2). apply Forall_cons_iff in R2 as (R2 & _). destruct w; [|cbn in R; lia]. destruct v; [|cbn in R2; lia]. apply (N 0%nat 1%nat []); cbn; try lia. reflexivity.
  - destruct (in_dec (list_eq_dec Bool.bool_dec) [] ws) as [I|I].
    + (* the empty word leaves no room for another *)
      assert (ws = [[]]) as ->.
      { destruct ws as [|w [|v ws]]; [contradiction| |].
        - destruct I as [->|[]]. reflexivity.
        - exfalso. destruct (no_prefix_cons _ _ N) as (N1 & A). destruct I as [->|[->|I]].
          + destruct (A v (or_introl eq_refl)) as (A1 & _). exact (A1 v eq_refl).
          + destruct (A [] (or_introl eq_refl)) as (_ & A1). exact (A1 w eq_refl).
          + destruct (no_prefix_cons _ _ N1) as (_ & B). destruct (B [] I) as (_ & B1). exact (B1 v eq_refl). }
      unfold bkraft. cbn [fold_right]. change (zlen []) with 0. rewrite Z.sub_0_r. lia.
    + assert (bkraft (S L) ws = bkraft L (after false ws) + bkraft L (after true ws)) as ->.
      { clear - I. induction ws as [|w ws IH]; [reflexivity|]. unfold bkraft, after in *. cbn [fold_right flat_map]. rewrite IH by (intros J; apply I; right; exact J). clear IH.
        destruct w as [|c w]; [exfalso; apply I; left; reflexivity|].
        destruct c; cbn [Bool.eqb app fold_right]; rewrite zlen_cons; replace (Z.of_nat (S L) - (1 + zlen w)) with (Z.of_nat L - zlen w) by lia; lia. }
      assert (forall b, Forall (fun w => (length w <= L)%nat) (after b ws)) as RR.
      { intros b. apply Forall_forall. intros t Ht. apply after_in in Ht. rewrite Forall_forall in R. specialize (R _ Ht). cbn [length] in R. lia. }
      pose proof (IH _ (after_no_prefix false ws N) (RR false)). pose proof (IH _ (after_no_prefix true ws N) (RR true)). rewrite Nat2Z.inj_succ, Z.pow_succ_r by lia. lia.
Qed.
(** the words of a prefix code for the symbols that occur *)
Definition occ_words (fs : list Z) (word : nat -> list bool) (k : nat) : list (list bool) :=
  flat_map (fun p => if 0 <? fst p then [word (snd p)] else []) (combine fs (seq k (length fs))).
Lemma occ_in fs word : forall k w, In w (occ_words fs word k) -> exists i, 0 < nth i fs 0 /\ w = word (k + i)%nat.
Proof.
  unfold occ_words. induction fs as [|f fs IH]; intros k w H; cbn [length seq combine flat_map fst snd] in H; [contradiction|]. apply in_app_or in H as [H|H].
  - destruct (Z.ltb_spec 0 f); [|contradiction]. destruct H as [<-|[]]. exists 0%nat. rewrite Nat.add_0_r. auto.
  - apply IH in H as (i & H & ->). exists (S i). split; [exact H|]. f_equal. lia.
Qed.
Lemma occ_no_prefix fs word : forall k, (forall i, 0 < nth i fs 0 -> forall j t, 0 < nth j fs 0 -> i <> j -> word (k + j)%nat <> word (k + i)%nat ++ t) -> no_prefix (occ_words fs word k).
Proof.
  induction fs as [|f fs IH]; intros k P; [intros i j t Hi; cbn in Hi; lia|]. assert (no_prefix (occ_words fs word (S k))) as N.
  { apply IH. intros i Hi j t Hj D. rewrite !Nat.add_succ_comm. apply P; cbn [nth]; auto. }
  unfold occ_words in *. cbn [length seq combine flat_map fst snd]. destruct (Z.ltb_spec 0 f) as [Hf|]; [|exact N]. cbn [app]. apply no_prefix_make; [exact N|].
  intros v Hv. apply (occ_in fs word (S k)) in Hv as (i & Hi & ->). rewrite Nat.add_succ_comm. split; intros t E.
  - apply (P 0%nat Hf (S i) t); [exact Hi|discriminate|]. rewrite Nat.add_0_r. exact E.
  - apply (P (S i) Hi 0%nat t); [exact Hf|discriminate|]. rewrite Nat.add_0_r. exact E.
Qed.
Lemma occ_kraft fs word L : forall k, bkraft L (occ_words fs word k) = wkraft (Z.of_nat L) (pairs_of fs (map (fun i => zlen (word i)) (seq k (length fs)))).
Proof.
  unfold occ_words, bkraft, wkraft, pairs_of. induction fs as [|f fs IH]; intros k; cbn [length seq combine flat_map map filter fst snd fold_right]; [reflexivity|].
  destruct (0 <? f); cbn [app fold_right snd]; rewrite IH; reflexivity.
Qed.
Lemma word_len fs word s : (s < length fs)%nat -> ln (word_lengths fs word) s = zlen (word s).
Proof. intros H. unfold ln, word_lengths. rewrite (nth_indep _ 0 (zlen (word 0%nat))) by (rewrite map_length, seq_length; exact H). rewrite (map_nth (fun i => zlen (word i))), seq_nth by exact H. reflexivity. Qed.
Lemma build_opt H fs M codes : 1 <= M <= 15 -> Forall (fun f => 0 <= f) fs -> fold_right Z.add 0 fs < 2 ^ 32 -> zlen fs <= 2 ^ M -> zlen fs < 2 ^ 15 ->
  Z.of_nat (occurring fs) <= M + 1 \/ fold_right Z.add 0 fs < fibonacci (Z.to_nat (M + 3)) ->
  build_codes H fs M = Ok codes -> forall word, prefix_code fs word -> coded_bits fs (map snd codes) <= coded_bits fs (word_lengths fs word).
Proof.
  intros HM HP HS HK HN HC E word W. unfold build_codes in E. destruct fs as [|f0 fs0] eqn:EF; [assert (codes = []) as -> by congruence; reflexivity|]. rewrite <- EF in *. clear EF f0 fs0.
  assert (0 + zlen fs <= 2 ^ 16) as HN16 by (change (2 ^ 16) with 65536; change (2 ^ 15) with 32768 in HN; lia).
  assert (forall s, 0 < nth s fs 0 -> (s < length fs)%nat) as IL. { intros s Hs. destruct (Nat.le_gt_cases (length fs) s); [rewrite nth_overflow in Hs by assumption; lia|assumption]. }
  assert (forall a b, length a = length fs -> length b = length fs -> (forall s, 0 < nth s fs 0 -> nth s a 0 <= nth s b 0) -> coded_bits fs a <= coded_bits fs b) as Mono.
  { clear - HP. unfold coded_bits. induction HP as [|f fs Hf HP IH]; intros [|x a] [|y b] La Lb A; cbn [length] in *; try discriminate. cbn [combine map fold_right fst snd].
    assert (f * x <= f * y). { destruct (Z.eq_dec f 0) as [->|]; [lia|]. specialize (A 0%nat). cbn [nth] in A. nia. }
    specialize (IH a b ltac:(lia) ltac:(lia)). assert (forall s, 0 < nth s fs 0 -> nth s a 0 <= nth s b 0) as A' by (intros s; apply (A (S s))). specialize (IH A'). lia. }
  assert (length (word_lengths fs word) = length fs) as LW by (unfold word_lengths; rewrite map_length, seq_length; reflexivity).
  destruct (non_zero 0 fs) as [|(s, f) nz] eqn:EN.
  { assert (codes = repeat (0, 0) (length fs)) as -> by congruence. rewrite map_repeat'. apply Mono; [apply repeat_length|exact LW|]. intros s Hs. rewrite nth_repeat0. fold (ln (word_lengths fs word) s). rewrite word_len by auto. apply zlen_nonneg. }
  destruct nz as [|p nz].
  { destruct (get (repeat (0, 0) (length fs)) s); cbn [rbind] in E; try discriminate. assert (codes = upd (repeat (0, 0) (length fs)) (Z.to_nat s) (0, 1)) as -> by congruence. rewrite map_upd, map_repeat'.
    apply Mono; [rewrite upd_length; apply repeat_length|exact LW|]. intros k Hk. fold (ln (word_lengths fs word) k). rewrite word_len by auto. destruct (W k Hk) as (Nw & _).
    assert (1 <= zlen (word k)) by (destruct (word k); [congruence|rewrite zlen_cons; pose proof (zlen_nonneg l); lia]).
    destruct (Nat.eq_dec (Z.to_nat s) k) as [->|D]; [|rewrite nth_upd_neq by exact D; rewrite nth_repeat0; cbn; lia].
    rewrite nth_upd_eq by (rewrite repeat_length; auto). cbn. lia. }
  destruct (huffman_lengths H (length fs) ((s, f) :: p :: nz) M) as [lens| | |] eqn:EL; cbn [rbind] in E; try discriminate. rewrite <- EN in EL.
  assert (2 <= occurring fs)%nat as H2 by (rewrite <- (occ_nz fs 0), EN; cbn [length]; lia).
  set (L := fold_right Nat.max 0%nat (map (fun i => length (word i)) (seq 0 (length fs)))).
  assert (forall k, (k < length fs)%nat -> (length (word k) <= L)%nat) as HL.
  { intros k Hk. unfold L. assert (In (length (word k)) (map (fun i => length (word i)) (seq 0 (length fs)))) as I by (apply in_map_iff; exists k; split; [reflexivity|apply in_seq; lia]).
    clear - I. induction (map _ _) as [|x l IH]; cbn [fold_right]; [contradiction|]. destruct I as [->|I]; [lia|]. specialize (IH I). lia. }
  assert (coded_bits fs lens <= coded_bits fs (word_lengths fs word)) as O.
  { apply (lengths_opt H fs M lens HM HP HS HN H2 HC EL (Z.of_nat L) (word_lengths fs word) LW).
    - intros k Hk. rewrite word_len by auto. specialize (HL k (IL k Hk)). unfold zlen. lia.
    - unfold word_lengths. rewrite <- (occ_kraft fs word L 0). apply kraft_words.
      + apply occ_no_prefix. intros i Hi j t Hj D. cbn [Nat.add]. apply (proj2 (W i Hi)); assumption.
      + apply Forall_forall. intros w Hw. apply occ_in in Hw as (i & Hi & ->). cbn [Nat.add]. apply HL, IL, Hi. }
  assert (map snd codes = lens) as ->; [|exact O].
  destruct (huffman_lengths_ok H fs M HM HP HS HK) as (lens' & EL' & O' & K' & L' & _); [rewrite EN; cbn [length]; lia|]. assert (lens' = lens) as -> by congruence.
  destruct (generate_ok M lens HM) as (codes' & E2 & C & _); [split; [exact O'|lia]|unfold zlen in *; rewrite L'; exact HN|]. congruence.
Qed.

(** ** When the limit is reached *)
Definition fib17 : list Z := map fibonacci (seq 1 17).
Definition better17 : list Z := [15; 15; 14; 13; 12; 11; 10; 9; 8; 7; 6; 5; 4; 3; 2; 2; 2].
Lemma limited_costs_more : exists fs codes word, Forall (fun f => 0 <= f) fs /\ fold_right Z.add 0 fs < 2 ^ 32 /\ build_codes list_heap fs 15 = Ok codes /\ prefix_code fs word /\
  (forall i, zlen (word i) <= 15) /\ 100 * coded_bits fs (map snd codes) > 108 * coded_bits fs (word_lengths fs word).
Proof.
  exists fib17. assert (code_ok 15 better17) as C by (split; [repeat constructor; lia|vm_compute; congruence]).
  assert (forall i, zlen (code_word better17 i) = ln better17 i) as LW.
  { intros i. unfold code_word, zlen. rewrite rev_length, bits_of_length, Z2Nat.id; [reflexivity|]. do 18 (destruct i as [|i]; [vm_compute; discriminate|]). unfold ln, better17. cbn [nth]. destruct i; lia. }
  eexists. exists (code_word better17). split; [repeat constructor; vm_compute; discriminate|]. split; [reflexivity|]. split; [vm_compute; reflexivity|]. split; [|split].
  - assert (forall i, 0 < nth i fib17 0 -> has_code better17 i) as HC.
    { intros i Hi. destruct (Nat.lt_ge_cases i 17) as [L|L]; [|rewrite nth_overflow in Hi by (change (length fib17) with 17%nat; exact L); lia]. split; [exact L|]. do 17 (destruct i as [|i]; [reflexivity|]). lia. }
    intros i Hi. split.
    + intros E. apply (f_equal zlen) in E. rewrite LW in E. destruct (HC i Hi) as (_ & P). change (zlen []) with 0 in E. lia.
    + intros j t Hj D E. apply D. symmetry. refine (proj1 (canon_unique 15 better17 j i [] t ltac:(lia) C (HC j Hj) (HC i Hi) _)). rewrite app_nil_r. exact E.
  - intros i. rewrite LW. do 17 (destruct i as [|i]; [vm_compute; discriminate|]). unfold ln, better17. cbn [nth]. destruct i; lia.
  - assert (word_lengths fib17 (code_word better17) = better17) as ->.
    { unfold word_lengths. change (length fib17) with 17%nat. rewrite (map_ext _ (ln better17)) by exact LW. reflexivity. }
    vm_compute. reflexivity.
Qed.
