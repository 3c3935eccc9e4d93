(** Huffman code construction: depth bound, Kraft equality, limiting,
    canonical codes. *)
From Verif Require Import Base BitsProofs CanonSpec InflateModel CanonProofs HuffModel.
From Coq Require Import Permutation.

(** ** The tree *)
Fixpoint depth (t : tree) : nat :=
  match t with Leaf _ _ => 0 | Node _ l r => S (Nat.max (depth l) (depth r)) end.
Definition kids_le (m : Z) (t : tree) : Prop :=
  match t with Leaf _ _ => True | Node _ a b => freq a <= m /\ freq b <= m end.
Definition grand (f : Z) (c : tree) : Prop :=
  match c with Leaf _ _ => True | Node fc a b => fc + freq a <= f /\ fc + freq b <= f end.
Fixpoint good (t : tree) : Prop :=
  match t with
  | Leaf f _ => 1 <= f
  | Node f l r => good l /\ good r /\ f = freq l + freq r /\ grand f l /\ grand f r
  end.
Fixpoint leaves (t : tree) : list (Z * Z) :=
  match t with Leaf f s => [(s, f)] | Node _ l r => leaves l ++ leaves r end.
Fixpoint fib2 (n : nat) : Z * Z :=
  match n with O => (1, 2) | S k => let '(a, b) := fib2 k in (b, a + b) end.
Definition F (n : nat) : Z := fst (fib2 n).
Lemma fib2_snd n : snd (fib2 n) = F (S n).
Proof. unfold F. cbn [fib2]. destruct (fib2 n). reflexivity. Qed.
Lemma F_SS n : F (S (S n)) = F (S n) + F n.
Proof. unfold F. cbn [fib2]. destruct (fib2 n) as [a b]. cbn [fst]. lia. Qed.
Lemma F_pos n : 1 <= F n /\ 1 <= F (S n).
Proof. induction n as [|n IH]; [change (F 0) with 1; change (F 1) with 2; lia|]. rewrite F_SS. lia. Qed.
Lemma F_mono n m : (n <= m)%nat -> F n <= F m.
Proof.
  intros H. induction H as [|m H IH]; [lia|]. destruct m as [|m]; [change (F 1) with 2; change (F 0) with 1 in IH; lia|].
  rewrite F_SS. pose proof (F_pos m). lia.
Qed.
Lemma good_pos t : good t -> 1 <= freq t.
Proof. induction t as [f s|f l IHl r IHr]; cbn; [auto|]. intros (H1 & H2 & -> & _). apply IHl in H1. apply IHr in H2. lia. Qed.
Lemma good_fib t : good t -> F (depth t) <= freq t /\
  match t with Leaf _ _ => True | Node _ a b => F (depth a) <= freq a /\ F (depth b) <= freq b end.
Proof.
  induction t as [f s|f l IHl r IHr]; cbn [good depth freq]; [change (F 0) with 1; lia|].
  intros (H1 & H2 & Hf & G1 & G2). destruct (IHl H1) as [L1 L2]. destruct (IHr H2) as [R1 R2].
  split; [|split; auto].
  assert (forall c, grand f c -> F (depth c) <= freq c -> match c with Leaf _ _ => True | Node _ a b => F (depth a) <= freq a /\ F (depth b) <= freq b end ->
    F (S (depth c)) <= f) as K.
  { intros c G C1 C2. destruct c as [fc sc|fc a b]; cbn [depth freq grand] in *.
    - apply good_pos in H1. apply good_pos in H2. change (F 1) with 2. lia.
    - rewrite F_SS. destruct (Nat.max_spec (depth a) (depth b)) as [[_ E]|[_ E]]; rewrite E in *; lia. }
  destruct (Nat.max_spec (depth l) (depth r)) as [[_ ->]|[_ ->]]; auto.
Qed.
Lemma good_depth t : good t -> freq t < U32 -> (depth t <= 46)%nat.
Proof.
  intros G H. destruct (Nat.le_gt_cases (depth t) 46) as [|L]; auto.
  pose proof (F_mono 47 (depth t) ltac:(lia)). assert (F 47 > U32) by (vm_compute; reflexivity).
  destruct (good_fib t G) as [B _]. lia.
Qed.

Definition wsum (l : list tree) : Z := fold_right (fun t a => freq t + a) 0 l.
Lemma wsum_perm l m : Permutation l m -> wsum l = wsum m.
Proof. unfold wsum. induction 1; cbn [fold_right] in *; lia. Qed.
Lemma flat_perm {A B} (f : A -> list B) l m : Permutation l m -> Permutation (flat_map f l) (flat_map f m).
Proof.
  induction 1; cbn; auto.
  - apply Permutation_app_head; auto.
  - rewrite !app_assoc. apply Permutation_app_tail. apply Permutation_app_comm.
  - etransitivity; eauto.
Qed.
Definition hinv (m : Z) (t : tree) : Prop := good t /\ m <= freq t /\ kids_le m t.
Lemma tree_le_freq a b : tree_le a b = true -> freq a <= freq b.
Proof. unfold tree_le. destruct a as [fa sa|fa la ra], b as [fb sb|fb lb rb]; cbn [freq]; lia. Qed.
Lemma kids_le_mono m m' t : m <= m' -> kids_le m t -> kids_le m' t.
Proof. destruct t; cbn; auto. lia. Qed.
Lemma wsum_nonneg l : Forall good l -> 0 <= wsum l.
Proof. unfold wsum. induction 1 as [|t l Ht Hl IH]; cbn [fold_right]; [lia|]. apply good_pos in Ht. lia. Qed.

Lemma merge_loop_ok H fuel : forall h m, Forall (hinv m) (h_elems H h) -> (1 <= length (h_elems H h) <= S fuel)%nat ->
  wsum (h_elems H h) < U32 ->
  exists t, merge_loop H fuel h = Ok t /\ good t /\ freq t < U32 /\ Permutation (leaves t) (flat_map leaves (h_elems H h)) /\
    ((2 <= length (h_elems H h))%nat -> exists f l r, t = Node f l r).
Proof.
  induction fuel as [|f IH]; intros h m HI HL HW; cbn [merge_loop];
    (destruct (h_pop H h) as [[l h1]|] eqn:P1; [|apply h_pop_none in P1; rewrite P1 in HL; cbn in HL; lia]);
    destruct (h_pop_some H h l h1 P1) as [Q1 M1];
    pose proof (Permutation_length Q1) as L1; cbn [length] in L1;
    pose proof (Permutation_Forall Q1 HI) as HI1; inversion HI1 as [|? ? I1 I2]; subst;
    (destruct (h_pop H h1) as [[r h2]|] eqn:P2;
    [|apply h_pop_none in P2; rewrite P2 in *; exists l; split; [auto|]; split; [apply I1|]; split;
      [rewrite (wsum_perm _ _ Q1) in HW; cbn in HW; lia|]; split; [rewrite (flat_perm leaves _ _ Q1); cbn [flat_map]; rewrite app_nil_r; reflexivity|cbn in L1; lia]]).
  { destruct (h_pop_some H h1 r h2 P2) as [Q2 M2]. pose proof (Permutation_length Q2) as L2; cbn [length] in L2. lia. }
  destruct (h_pop_some H h1 r h2 P2) as [Q2 M2]. pose proof (Permutation_length Q2) as L2; cbn [length] in L2.
  pose proof (Permutation_Forall Q2 I2) as HI2. inversion HI2 as [|? ? J1 J2]; subst.
  assert (wsum (h_elems H h) = freq l + (freq r + wsum (h_elems H h2))) as EW.
  { rewrite (wsum_perm _ _ Q1). change (wsum (l :: h_elems H h1)) with (freq l + wsum (h_elems H h1)). rewrite (wsum_perm _ _ Q2). reflexivity. }
  destruct I1 as (Gl & Ml & Kl). destruct J1 as (Gr & Mr & Kr).
  assert (0 <= wsum (h_elems H h2)) as W2 by (apply wsum_nonneg; eapply Forall_impl; [|exact J2]; intros t Ht; apply Ht).
  destruct (Z.ltb_spec (freq l + freq r) U32); [|lia].
  pose proof (good_pos l Gl) as Pl. pose proof (good_pos r Gr) as Pr.
  assert (freq l <= freq r) as Hlr.
  { rewrite Forall_forall in M1. apply tree_le_freq, M1. eapply Permutation_in; [symmetry; exact Q1|]. right.
    eapply Permutation_in; [symmetry; exact Q2|]. left; auto. }
  pose (p := Node (freq l + freq r) l r).
  assert (hinv (freq r) p) as Hp.
  { split; [|split; [cbn; lia|cbn; lia]]. cbn. split; [auto|split; [auto|split; [auto|split]]].
    - destruct l as [|fc a b]; cbn in *; auto. lia.
    - destruct r as [|fc a b]; cbn in *; auto. lia. }
  pose proof (h_push_ok H p h2) as Q3.
  destruct (IH (h_push H p h2) (freq r)) as (t & E & G & W & PL & _).
  - eapply Permutation_Forall; [symmetry; exact Q3|]. constructor; auto.
    rewrite Forall_forall in *. intros x Hx. destruct (J2 x Hx) as (X1 & X2 & X3). split; [auto|split].
    + apply tree_le_freq, M2. eapply Permutation_in; [symmetry; exact Q2|]. right; auto.
    + eapply kids_le_mono; [|exact X3]. lia.
  - rewrite (Permutation_length Q3). cbn [length]. lia.
  - rewrite (wsum_perm _ _ Q3). change (wsum (p :: h_elems H h2)) with (freq l + freq r + wsum (h_elems H h2)). lia.
  - exists t. split; [exact E|split; [auto|split; [auto|]]].
    assert (Permutation (leaves t) (flat_map leaves (h_elems H h))) as PL2.
    { rewrite PL, (flat_perm leaves _ _ Q3), (flat_perm leaves _ _ Q1). cbn [flat_map leaves p]. rewrite <- app_assoc.
      apply Permutation_app_head. rewrite (flat_perm leaves _ _ Q2). reflexivity. }
    split; [exact PL2|]. intros _. destruct t as [ft st|ft a b]; [|eauto].
    exfalso. apply Permutation_length in PL2. rewrite (Permutation_length (flat_perm leaves _ _ Q1)) in PL2.
    cbn [flat_map leaves length] in PL2. rewrite app_length, (Permutation_length (flat_perm leaves _ _ Q2)) in PL2.
    cbn [flat_map] in PL2. rewrite app_length in PL2.
    assert (forall t, 1 <= length (leaves t))%nat as NL. { clear. induction t; cbn; [lia|]. rewrite app_length; lia. }
    pose proof (NL l). pose proof (NL r). lia.
Qed.

(** ** Depths of the leaves *)
Fixpoint ld (t : tree) (d : Z) : list (Z * Z) :=
  match t with Leaf _ s => [(s, d)] | Node _ l r => ld l (d + 1) ++ ld r (d + 1) end.
Definition set_len (lens : list Z) (p : Z * Z) : list Z := upd lens (Z.to_nat (fst p)) (Z.max (snd p) 1).
Lemma ld_syms t : forall d, map fst (ld t d) = map fst (leaves t).
Proof. induction t as [f s|f l IHl r IHr]; intros d; cbn; auto. rewrite !map_app, IHl, IHr. reflexivity. Qed.
Lemma ld_range t : forall d p, In p (ld t d) -> d <= snd p <= d + Z.of_nat (depth t).
Proof.
  induction t as [f s|f l IHl r IHr]; intros d p H; cbn [ld depth] in *.
  - destruct H as [<-|[]]. cbn. lia.
  - apply in_app_or in H. destruct H as [H|H]; [apply IHl in H|apply IHr in H]; lia.
Qed.
Lemma fold_set_length ps : forall lens, length (fold_left set_len ps lens) = length lens.
Proof. induction ps as [|p ps IH]; intros lens; cbn; auto. rewrite IH. apply upd_length. Qed.
Lemma extract_ok t : forall d lens, 0 <= d -> d + Z.of_nat (depth t) < 256 ->
  Forall (fun s => 0 <= s < zlen lens) (map fst (leaves t)) ->
  extract_lengths t d lens = Ok (fold_left set_len (ld t d) lens).
Proof.
  induction t as [f s|f l IHl r IHr]; intros d lens Hd HD HS; cbn [extract_lengths ld leaves depth map fst] in *.
  - inversion HS; subst. rewrite (get_ok lens s 0) by auto. reflexivity.
  - destruct (Z.ltb_spec (d + 1) 256); [|lia]. rewrite map_app in HS. apply Forall_app in HS. destruct HS as [S1 S2].
    rewrite IHl by (auto; lia). cbn [rbind]. rewrite IHr; [|lia|lia|].
    + rewrite fold_left_app. reflexivity.
    + unfold zlen in *. rewrite fold_set_length. auto.
Qed.

(** ** Kraft sums *)
Definition kc (M l : Z) : Z := if 0 <? l then 2 ^ (M - l) else 0.
Lemma kraft_kc M lens : kraft M lens = psum (fun j => kc M (ln lens j)) (length lens).
Proof. reflexivity. Qed.
Lemma psum_upd (g : Z -> Z) lens i v : (i < length lens)%nat ->
  psum (fun j => g (ln (upd lens i v) j)) (length (upd lens i v)) = psum (fun j => g (ln lens j)) (length lens) - g (ln lens i) + g v.
Proof.
  intros Hi. rewrite upd_length.
  rewrite (psum_ext (fun j => g (ln (upd lens i v) j)) (fun j => g (ln lens j) + (if Nat.eqb j i then g v - g (ln lens i) else 0))).
  - rewrite psum_add, (psum_single i) by auto. lia.
  - intros j Hj. unfold ln. rewrite nth_upd by auto. destruct (Nat.eqb_spec j i); [subst|]; lia.
Qed.
Lemma kraft_upd M lens i v : (i < length lens)%nat -> kraft M (upd lens i v) = kraft M lens - kc M (ln lens i) + kc M v.
Proof. intros H. rewrite !kraft_kc. apply (psum_upd (kc M)). auto. Qed.
Lemma kraft_cons M x l : kraft M (x :: l) = kc M x + kraft M l.
Proof. rewrite !kraft_kc. cbn [length]. rewrite psum_shift. reflexivity. Qed.
Lemma kraft_nil M : kraft M [] = 0.
Proof. reflexivity. Qed.
Lemma kraft_zeros M n : kraft M (repeat 0 n) = 0.
Proof. induction n as [|n IH]; [reflexivity|]. cbn [repeat]. rewrite kraft_cons, IH. reflexivity. Qed.

(** the sum of the widths of the leaves *)
Definition widths (M : Z) (ps : list (Z * Z)) : Z := fold_right (fun p a => 2 ^ (M - snd p) + a) 0 ps.
Lemma widths_app M a b : widths M (a ++ b) = widths M a + widths M b.
Proof. unfold widths. induction a as [|p a IH]; cbn [app fold_right]; [lia|]. rewrite IH. lia. Qed.
Lemma widths_tree M t : forall d, d + Z.of_nat (depth t) <= M -> widths M (ld t d) = 2 ^ (M - d).
Proof.
  induction t as [f s|f l IHl r IHr]; intros d H; cbn [ld depth] in *.
  - cbn. lia.
  - rewrite widths_app, IHl, IHr by lia. replace (M - d) with (1 + (M - (d + 1))) by lia. rewrite (Z.pow_add_r 2 1) by lia. lia.
Qed.
Lemma set_all M ps : forall lens, NoDup (map fst ps) -> Forall (fun p => 0 <= fst p < zlen lens /\ 1 <= snd p) ps ->
  (forall p, In p ps -> ln lens (Z.to_nat (fst p)) = 0) ->
  let lens' := fold_left set_len ps lens in
  kraft M lens' = kraft M lens + widths M ps /\
  (forall p, In p ps -> ln lens' (Z.to_nat (fst p)) = snd p) /\
  (forall s, (forall p, In p ps -> Z.to_nat (fst p) <> s) -> ln lens' s = ln lens s).
Proof.
  induction ps as [|p ps IH]; intros lens ND HF HZ; cbn [fold_left map] in *.
  - cbn. split; [lia|split; [tauto|auto]].
  - inversion ND as [|? ? N1 N2]; subst. inversion HF as [|? ? F1 F2]; subst.
    assert (Z.to_nat (fst p) < length lens)%nat as Hp by (unfold zlen in F1; lia).
    assert (forall q, In q ps -> Z.to_nat (fst q) <> Z.to_nat (fst p)) as Hne.
    { intros q Hq E. apply N1. rewrite Forall_forall in F2. destruct (F2 q Hq). replace (fst p) with (fst q) by lia. apply in_map; auto. }
    assert (ln lens (Z.to_nat (fst p)) = 0) as Z0 by (apply HZ; left; auto).
    destruct (IH (set_len lens p)) as (I1 & I2 & I3); auto.
    + eapply Forall_impl; [|exact F2]. intros q Hq. unfold zlen, set_len in *. rewrite upd_length. auto.
    + intros q Hq. unfold set_len, ln. rewrite nth_upd_neq by (intro E; apply (Hne q Hq); auto). apply HZ. right; auto.
    + split; [|split].
      * rewrite I1. unfold set_len. rewrite kraft_upd by auto. rewrite Z0. cbn [widths fold_right].
        unfold kc. cbn [Z.ltb Z.compare]. destruct (Z.ltb_spec 0 (Z.max (snd p) 1)); [|lia].
        rewrite Z.max_l by lia. unfold widths. lia.
      * intros q [<-|Hq]; auto. rewrite I3 by (intros q Hq; auto). unfold set_len, ln. rewrite nth_upd_eq by auto. lia.
      * intros s Hs. rewrite I3 by (intros q Hq; apply Hs; right; auto). unfold set_len, ln.
        apply nth_upd_neq. apply Hs. left; auto.
Qed.

(** ** Limiting *)
Lemma contribution_kc M l : 0 <= l <= M -> 0 < l -> contribution M l = kc M l.
Proof.
  intros H H0. unfold contribution, kc. destruct (Z.ltb_spec 0 l); [|lia]. rewrite Z.shiftl_mul_pow2 by lia. lia.
Qed.
Lemma kraft_sum_gen M lens : forall a, lens_ok M lens ->
  fold_left (fun a l => if l >? 0 then a + contribution M l else a) lens a = a + kraft M lens.
Proof.
  induction lens as [|x t IH]; intros a H; cbn [fold_left]; [rewrite kraft_nil; lia|].
  inversion H; subst. rewrite IH by auto. rewrite kraft_cons.
  destruct (Z.gtb_spec x 0).
  - rewrite contribution_kc by lia. lia.
  - unfold kc. destruct (Z.ltb_spec 0 x); lia.
Qed.
Lemma kraft_sum_ok M lens : lens_ok M lens -> kraft_sum M lens = kraft M lens.
Proof. intros H. unfold kraft_sum. rewrite kraft_sum_gen; auto. Qed.

Lemma find_short_spec M lens : forall i bl best,
  match find_short M i lens bl best with
  | None => best = None /\ (forall j, (j < length lens)%nat -> 0 < ln lens j < M -> bl <= ln lens j)
  | Some idx => best = Some idx \/ exists j, idx = (i + j)%nat /\ (j < length lens)%nat /\ 0 < ln lens j < M
  end.
Proof.
  induction lens as [|x t IH]; intros i bl best; cbn [find_short].
  - destruct best; auto. split; auto. cbn. lia.
  - destruct ((x >? 0) && (x <? M) && (x <? bl)) eqn:E.
    + specialize (IH (S i) x (Some i)). destruct (find_short M (S i) t x (Some i)) as [idx|].
      * right. destruct IH as [IH|(j & -> & J1 & J2)].
        { injection IH as <-. exists 0%nat. cbn. unfold ln. cbn. lia. }
        exists (S j). cbn [length]. rewrite ln_cons. lia.
      * destruct IH; discriminate.
    + specialize (IH (S i) bl best). destruct (find_short M (S i) t bl best) as [idx|].
      * destruct IH as [IH|(j & -> & J1 & J2)]; auto. right. exists (S j). cbn [length]. rewrite ln_cons. lia.
      * destruct IH as [-> IH]. split; auto. intros [|j] Hj Hr; [unfold ln in *; cbn in *; lia|].
        rewrite ln_cons in *. apply IH; cbn in Hj; lia.
Qed.
Lemma find_long_spec lens : forall i bl best, 0 <= bl ->
  exists v, bl <= v /\ (forall j, (j < length lens)%nat -> ln lens j <= v \/ ln lens j <= 1) /\
    (find_long i lens bl best = best /\ v = bl \/
     exists j, find_long i lens bl best = Some (i + j)%nat /\ (j < length lens)%nat /\ ln lens j = v /\ 1 < v).
Proof.
  induction lens as [|x t IH]; intros i bl best Hb; cbn [find_long].
  - exists bl. split; [lia|split; [cbn; lia|auto]].
  - destruct ((x >? 1) && (x >? bl)) eqn:E.
    + destruct (IH (S i) x (Some i) ltac:(lia)) as (v & V1 & V2 & V3). exists v. split; [lia|]. split.
      * intros [|j] Hj; [unfold ln; cbn; lia|]. rewrite ln_cons. apply V2. cbn in Hj. lia.
      * right. destruct V3 as [[-> ->]|(j & -> & J1 & J2 & J3)].
        { exists 0%nat. rewrite Nat.add_0_r. unfold ln. cbn. split; [auto|split; [lia|split; [auto|lia]]]. }
        exists (S j). rewrite ln_cons. cbn [length]. split; [f_equal; lia|split; [lia|auto]].
    + destruct (IH (S i) bl best Hb) as (v & V1 & V2 & V3). exists v. split; [lia|]. split.
      * intros [|j] Hj; [unfold ln; cbn; lia|]. rewrite ln_cons. apply V2. cbn in Hj. lia.
      * destruct V3 as [[-> ->]|(j & -> & J1 & J2 & J3)]; [auto|]. right.
        exists (S j). rewrite ln_cons. cbn [length]. split; [f_equal; lia|split; [lia|auto]].
Qed.

Definition same_support (a b : list Z) : Prop := length a = length b /\ forall s, 0 < ln a s <-> 0 < ln b s.
Lemma same_support_refl a : same_support a a.
Proof. split; auto. tauto. Qed.
Lemma same_support_trans a b c : same_support a b -> same_support b c -> same_support a c.
Proof. intros [L1 H1] [L2 H2]. split; [congruence|]. intros s. rewrite H1. apply H2. Qed.
Lemma same_support_upd a i v : (i < length a)%nat -> 0 < ln a i -> 0 < v -> same_support a (upd a i v).
Proof.
  intros Hi H0 Hv. split; [rewrite upd_length; auto|]. intros s. unfold ln in *.
  destruct (Nat.eq_dec i s) as [<-|N]; [rewrite nth_upd_eq by auto; lia|]. rewrite nth_upd_neq by auto. tauto.
Qed.
Lemma lens_ok_upd M a i v : lens_ok M a -> 0 <= v <= M -> lens_ok M (upd a i v).
Proof. intros. apply Forall_upd; auto. Qed.

Definition slack (M : Z) (lens : list Z) : Z := psum (fun j => M - ln lens j) (length lens).
Definition total (lens : list Z) : Z := psum (fun j => ln lens j) (length lens).
Lemma slack_bound M lens : 0 <= M -> lens_ok M lens -> 0 <= slack M lens <= zlen lens * M.
Proof.
  intros HM H. unfold slack, zlen. split.
  - apply psum_nonneg. intros j _. pose proof (ln_range M lens j HM H). lia.
  - apply psum_bound. intros j _. pose proof (ln_range M lens j HM H). lia.
Qed.
Lemma total_bound M lens : 0 <= M -> lens_ok M lens -> 0 <= total lens <= zlen lens * M.
Proof.
  intros HM H. unfold total, zlen. split.
  - apply psum_nonneg. intros j _. pose proof (ln_range M lens j HM H). lia.
  - apply psum_bound. intros j _. pose proof (ln_range M lens j HM H). lia.
Qed.
Lemma slack_upd M lens i v : (i < length lens)%nat -> slack M (upd lens i v) = slack M lens + ln lens i - v.
Proof. intros H. unfold slack. rewrite (psum_upd (fun l => M - l)) by auto. lia. Qed.
Lemma total_upd lens i v : (i < length lens)%nat -> total (upd lens i v) = total lens - ln lens i + v.
Proof. intros H. unfold total. rewrite (psum_upd (fun l => l)) by auto. lia. Qed.
Lemma kc_step M l : 0 < l < M -> kc M l = 2 * kc M (l + 1).
Proof.
  intros H. unfold kc. destruct (Z.ltb_spec 0 l); [|lia]. destruct (Z.ltb_spec 0 (l + 1)); [|lia].
  replace (M - l) with (1 + (M - (l + 1))) by lia. rewrite Z.pow_add_r by lia. lia.
Qed.
Lemma kc_pos M l : 0 < l <= M -> 0 < kc M l.
Proof. intros H. unfold kc. destruct (Z.ltb_spec 0 l); [|lia]. apply pow2_gt0. lia. Qed.

Lemma lengthen_ok M fuel : forall lens, 1 <= M -> lens_ok M lens -> zlen lens <= 2 ^ M -> slack M lens <= Z.of_nat fuel ->
  exists lens', lengthen_loop fuel M (2 ^ M) (kraft M lens) lens = Ok (kraft M lens', lens') /\
    lens_ok M lens' /\ same_support lens lens' /\ kraft M lens' <= 2 ^ M.
Proof.
  induction fuel as [|f IH]; intros lens HM HL HN HS; cbn [lengthen_loop];
  (destruct (Z.gtb_spec (kraft M lens) (2 ^ M)) as [G|G];
    [|exists lens; split; [auto|split; [auto|split; [apply same_support_refl|lia]]]]);
  pose proof (find_short_spec M lens 0 M None) as FS;
  destruct (find_short M 0 lens M None) as [idx|].
  2,4: (destruct FS as [_ FS]; exfalso; assert (kraft M lens <= zlen lens * 1); [|lia]; rewrite kraft_kc; unfold zlen; apply psum_bound; intros j Hj; pose proof (ln_range M lens j ltac:(lia) HL) as Hr; unfold kc; destruct (Z.ltb_spec 0 (ln lens j)); [|lia]; destruct (Z.eq_dec (ln lens j) M) as [E|N]; [rewrite E, Z.sub_diag; reflexivity|specialize (FS j Hj ltac:(lia)); lia]).
  - destruct FS as [FS|(j & -> & J1 & J2)]; [discriminate|]. exfalso.
    pose proof (slack_upd M lens j (ln lens j + 1) J1) as SU.
    pose proof (slack_bound M _ ltac:(lia) (lens_ok_upd M lens j (ln lens j + 1) HL ltac:(lia))). lia.
  - destruct FS as [FS|(j & -> & J1 & J2)]; [discriminate|]. cbn [Nat.add]. fold (ln lens j).
    pose proof (slack_upd M lens j (ln lens j + 1) J1) as SU.
    assert (lens_ok M (upd lens j (ln lens j + 1))) as HL' by (apply lens_ok_upd; auto; lia).
    rewrite !contribution_kc by lia.
    replace (kraft M lens - kc M (ln lens j) + kc M (ln lens j + 1)) with (kraft M (upd lens j (ln lens j + 1)))
      by (rewrite kraft_upd by auto; lia).
    destruct (IH (upd lens j (ln lens j + 1)) HM HL') as (lens' & E & O & S & K).
    { rewrite zlen_upd. auto. } { lia. }
    exists lens'. split; [exact E|]. split; [auto|]. split; [|auto].
    eapply same_support_trans; [|exact S]. apply same_support_upd; auto; lia.
Qed.

Lemma psum_div c f n : (forall j, (j < n)%nat -> (c | f j)) -> (c | psum f n).
Proof. induction n as [|n IH]; intros H; cbn [psum]; [apply Z.divide_0_r|]. apply Z.divide_add_r; auto. Qed.

Lemma psum_two f n i j : (i < n)%nat -> (j < n)%nat -> i <> j -> (forall k, (k < n)%nat -> 0 <= f k) -> f i + f j <= psum f n.
Proof.
  intros Hi Hj Hn Hp.
  rewrite <- (psum_single i (f i) n Hi), <- (psum_single j (f j) n Hj) at 1. rewrite <- psum_add. apply psum_le.
  intros k Hk. specialize (Hp k Hk). destruct (Nat.eqb_spec k i), (Nat.eqb_spec k j); subst; try lia.
Qed.
(** at least two symbols have a code *)
Definition two_codes (lens : list Z) : Prop := exists i j, i <> j /\ has_code lens i /\ has_code lens j.
Lemma two_codes_support a b : same_support a b -> two_codes a -> two_codes b.
Proof.
  intros [L S] (i & j & N & [I1 I2] & [J1 J2]). exists i, j. split; [auto|]. rewrite L in I1, J1.
  split; (split; [auto|apply S; auto]).
Qed.

Lemma shorten_ok M fuel : forall lens, 1 <= M -> lens_ok M lens -> two_codes lens -> kraft M lens <= 2 ^ M -> total lens <= Z.of_nat fuel ->
  exists lens', shorten_loop fuel M (2 ^ M) (kraft M lens) lens = Ok lens' /\
    lens_ok M lens' /\ same_support lens lens' /\ kraft M lens' = 2 ^ M.
Proof.
  induction fuel as [|f IH]; intros lens HM HL H2 HK HT; cbn [shorten_loop];
  (destruct (Z.ltb_spec (kraft M lens) (2 ^ M)) as [G|G];
    [|exists lens; split; [auto|split; [auto|split; [apply same_support_refl|lia]]]]);
  (destruct (find_long_spec lens 0 0 None ltac:(lia)) as (v & V1 & V2 & [[-> ->]|(j & -> & J1 & J2 & J3)]);
    [exfalso; destruct H2 as (a & b & N & [A1 A2] & [B1 B2]);
     assert (2 ^ M <= kraft M lens); [|lia]; rewrite kraft_kc;
     assert (kc M (ln lens a) + kc M (ln lens b) = 2 ^ M) as <-;
     [destruct (V2 a A1), (V2 b B1); try lia; replace (ln lens a) with 1 by lia; replace (ln lens b) with 1 by lia;
      unfold kc; cbn [Z.ltb Z.compare]; replace (2 ^ M) with (2 * 2 ^ (M - 1)); [lia|]; rewrite <- (Z.pow_succ_r 2) by lia; f_equal; lia
     |apply (psum_two (fun j => kc M (ln lens j))); auto; intros k Hk; pose proof (ln_range M lens k ltac:(lia) HL); unfold kc; destruct (0 <? ln lens k); [apply Z.pow_nonneg|]; lia]
    |]); cbn [Nat.add]; fold (ln lens j);
  pose proof (ln_range M lens j ltac:(lia) HL) as Hr;
  pose proof (total_upd lens j (ln lens j - 1) J1) as TU;
  assert (lens_ok M (upd lens j (ln lens j - 1))) as HL' by (apply lens_ok_upd; auto; lia).
  - exfalso. pose proof (total_bound M _ ltac:(lia) HL'). lia.
  - rewrite !contribution_kc by lia.
    pose proof (kc_step M (ln lens j - 1) ltac:(lia)) as KS. replace (ln lens j - 1 + 1) with (ln lens j) in KS by lia.
    assert (kraft M lens + kc M (ln lens j) <= 2 ^ M) as Hle.
    { assert ((kc M (ln lens j) | 2 ^ M - kraft M lens)) as [q Hq].
      { apply Z.divide_sub_r.
        - unfold kc. destruct (Z.ltb_spec 0 (ln lens j)); [|lia]. exists (2 ^ ln lens j). rewrite <- Z.pow_add_r by lia. f_equal. lia.
        - rewrite kraft_kc. apply psum_div. intros k Hk. unfold kc. destruct (Z.ltb_spec 0 (ln lens k)); [|apply Z.divide_0_r].
          destruct (Z.ltb_spec 0 (ln lens j)); [|lia]. exists (2 ^ (ln lens j - ln lens k)).
          destruct (V2 k Hk); rewrite <- Z.pow_add_r by lia; f_equal; lia. }
      pose proof (kc_pos M (ln lens j) ltac:(lia)). assert (1 <= q) by nia. nia. }
    destruct (Z.leb_spec (kraft M lens - kc M (ln lens j) + kc M (ln lens j - 1)) (2 ^ M)); [|lia].
    replace (kraft M lens - kc M (ln lens j) + kc M (ln lens j - 1)) with (kraft M (upd lens j (ln lens j - 1)))
      by (rewrite kraft_upd by auto; lia).
    assert (same_support lens (upd lens j (ln lens j - 1))) as SS by (apply same_support_upd; auto; lia).
    destruct (IH (upd lens j (ln lens j - 1)) HM HL') as (lens' & E & O & S & K).
    { eapply two_codes_support; eauto. } { rewrite kraft_upd by auto. lia. } { lia. }
    exists lens'. split; [exact E|]. split; [auto|]. split; [|auto]. eapply same_support_trans; eauto.
Qed.

Lemma limit_ok M lens : 1 <= M -> Forall (fun l => 0 <= l) lens -> two_codes lens -> zlen lens <= 2 ^ M ->
  (lens_ok M lens -> kraft M lens = 2 ^ M) ->
  exists lens', limit_code_lengths lens M = Ok lens' /\ lens_ok M lens' /\ same_support lens lens' /\ kraft M lens' = 2 ^ M.
Proof.
  intros HM HP H2 HN HK. unfold limit_code_lengths. destruct (existsb (fun l => l >? M) lens) eqn:E.
  - set (lens1 := map (fun l => if l >? M then M else l) lens).
    assert (lens_ok M lens1) as O1.
    { unfold lens1, lens_ok. rewrite Forall_map. eapply Forall_impl; [|exact HP]. cbn. intros l Hl. destruct (Z.gtb_spec l M); lia. }
    assert (same_support lens lens1) as S1.
    { split; [unfold lens1; rewrite map_length; auto|]. intros s. unfold ln, lens1.
      set (g := fun l => if l >? M then M else l).
      assert (g 0 = 0) as G0 by (unfold g; destruct (Z.gtb_spec 0 M); lia).
      assert (nth s (map g lens) 0 = g (nth s lens 0)) as -> by (rewrite <- (map_nth g), G0; reflexivity).
      unfold g. destruct (Z.gtb_spec (nth s lens 0) M); lia. }
    rewrite Z.shiftl_mul_pow2, Z.mul_1_l by lia. rewrite kraft_sum_ok by auto.
    assert (zlen lens1 = zlen lens) as Z1 by (unfold zlen; destruct S1; congruence).
    assert (Z.of_nat (length lens1 * Z.to_nat M) = zlen lens1 * M) as ZF by (unfold zlen; lia).
    destruct (lengthen_ok M (length lens1 * Z.to_nat M) lens1 HM O1 ltac:(lia)) as (lens2 & E2 & O2 & S2 & K2).
    { pose proof (slack_bound M lens1 ltac:(lia) O1). lia. }
    rewrite E2. cbn [rbind].
    destruct (shorten_ok M (length lens1 * Z.to_nat M) lens2 HM O2) as (lens3 & E3 & O3 & S3 & K3); auto.
    { eapply two_codes_support; [exact S2|]. eapply two_codes_support; eauto. }
    { pose proof (total_bound M lens2 ltac:(lia) O2). unfold zlen in *. destruct S2 as [SL _]. rewrite <- SL in *. lia. }
    exists lens3. split; [exact E3|]. split; [auto|]. split; [|auto].
    eapply same_support_trans; [exact S1|]. eapply same_support_trans; eauto.
  - assert (lens_ok M lens) as O.
    { apply Forall_forall. intros l Hl. rewrite Forall_forall in HP. specialize (HP l Hl). split; [auto|].
      destruct (Z.gtb_spec l M) as [G|]; [|auto]. assert (existsb (fun l => l >? M) lens = true); [|congruence].
      apply existsb_exists. exists l. split; auto. apply Z.gtb_lt. lia. }
    exists lens. split; [auto|]. split; [auto|]. split; [apply same_support_refl|auto].
Qed.

(** ** Canonical codes on 16 bits *)
Lemma count_lengths_ok lens : forall blc, lens_ok 15 lens -> zlen blc = 16 ->
  count_lengths lens blc = Ok (fold_left (fun a l => if l >? 0 then upd a (Z.to_nat l) (znth a l + 1) else a) lens blc).
Proof.
  induction lens as [|x t IH]; intros blc HL HB; cbn [count_lengths fold_left]; auto.
  inversion HL; subst. destruct (Z.gtb_spec x 0); [|auto].
  rewrite (get_ok blc x 0) by lia. cbn [rbind]. apply IH; auto. rewrite zlen_upd. auto.
Qed.
Lemma code_first_le M lens l : 1 <= M <= 15 -> code_ok M lens -> 1 <= l <= 15 -> first lens l + cnt lens l (length lens) <= 2 ^ l.
Proof.
  intros HM [HL HK] Hl. assert (lens_ok 15 lens) as HL15 by (eapply Forall_impl; [|exact HL]; cbn; lia).
  pose proof (first_kraft 15 lens l HL15 ltac:(lia)) as FK.
  assert (kraft 15 lens <= 2 ^ 15) as K15.
  { assert (kraft 15 lens = 2 ^ (15 - M) * kraft M lens) as ->.
    { unfold kraft. rewrite Z.mul_comm, <- psum_mul. apply psum_ext. intros i Hi.
      pose proof (ln_range M lens i ltac:(lia) HL). destruct (Z.ltb_spec 0 (ln lens i)); [|lia].
      rewrite <- Z.pow_add_r by lia. f_equal. lia. }
    replace (2 ^ 15) with (2 ^ (15 - M) * 2 ^ M) by (rewrite <- Z.pow_add_r by lia; f_equal; lia).
    apply Z.mul_le_mono_nonneg_l; auto. apply Z.pow_nonneg. lia. }
  replace (2 ^ 15) with (2 ^ l * 2 ^ (15 - l)) in K15 by (rewrite <- Z.pow_add_r by lia; f_equal; lia).
  pose proof (pow2_gt0 (15 - l) ltac:(lia)). nia.
Qed.
Lemma next_loop16_ok M lens k : forall bits code blc nc, 1 <= M <= 15 -> code_ok M lens -> zlen lens < 2 ^ 16 ->
  znth blc 0 = 0 -> (forall l, 1 <= l <= 15 -> znth blc l = cnt lens l (length lens)) ->
  1 <= bits -> bits + Z.of_nat k = 16 ->
  (bits = 1 /\ code = 0 \/ 1 < bits /\ code = first lens (bits - 1)) ->
  next_loop16 k bits code blc nc = Ok (next_loop 16 k bits code blc nc).
Proof.
  induction k as [|k IH]; intros bits code blc nc HM HC HN B0 BL Hb HK HI; cbn [next_loop16 next_loop]; auto.
  assert (0 <= znth blc (bits - 1) < 2 ^ 16) as R.
  { destruct HI as [[-> _]|[H1 _]]; [change (1 - 1) with 0; rewrite B0; lia|]. rewrite BL by lia. pose proof (cnt_nonneg lens (bits - 1) (length lens)).
    pose proof (cnt_le lens (bits - 1) (length lens)). unfold zlen in HN. lia. }
  rewrite (wrap_id 16 (znth blc (bits - 1))) by exact R.
  assert (code + znth blc (bits - 1) <= 2 ^ 14 /\ wrap 16 (Z.shiftl (code + znth blc (bits - 1)) 1) = first lens bits) as [S1 S2].
  { destruct HI as [[-> ->]|[H1 ->]].
    - change (1 - 1) with 0. rewrite B0, first_1. split; [lia|reflexivity].
    - rewrite BL by lia. pose proof (code_first_le M lens (bits - 1) HM HC ltac:(lia)) as CF.
      pose proof (pow2_le (bits - 1) 14 ltac:(lia)) as PL. split; [lia|].
      replace (first lens bits) with (first lens (bits - 1 + 1)) by (f_equal; lia). rewrite first_succ by lia.
      rewrite Z.shiftl_mul_pow2 by lia. rewrite wrap_id; [lia|].
      pose proof (first_nonneg lens (bits - 1)). pose proof (cnt_nonneg lens (bits - 1) (length lens)).
      change (2 ^ 16) with 65536. change (2 ^ 14) with 16384 in PL. lia. }
  change (2 ^ 14) with 16384 in S1. change (2 ^ 16) with 65536. destruct (Z.ltb_spec (code + znth blc (bits - 1)) 65536); [|lia].
  apply IH; auto; try lia. rewrite S2. right. split; [lia|]. f_equal. lia.
Qed.
Lemma assign16_ok lens : forall nc, lens_ok 15 lens -> zlen nc = 16 ->
  (forall l, 1 <= l <= 15 -> znth nc l + cnt lens l (length lens) < 2 ^ 16) ->
  exists codes, assign16 lens nc = Ok codes /\ length codes = length lens /\
    (forall s, (s < length lens)%nat -> nth s codes (0, 0) =
       if 0 <? ln lens s then (znth nc (ln lens s) + cnt lens (ln lens s) s, ln lens s) else (0, 0)).
Proof.
  induction lens as [|x t IH]; intros nc HL HN HB; cbn [assign16].
  - exists []. split; [auto|split; [auto|cbn; lia]].
  - inversion HL; subst. destruct (Z.gtb_spec x 0) as [G|G].
    + rewrite (get_ok nc x 0) by lia. cbn [rbind]. fold (znth nc x).
      assert (znth nc x + 1 < 2 ^ 16).
      { pose proof (HB x ltac:(lia)) as B. cbn [length] in B. rewrite cnt_cons, Z.eqb_refl in B. pose proof (cnt_nonneg t x (length t)). lia. }
      destruct (Z.ltb_spec (znth nc x + 1) (2 ^ 16)); [|lia].
      destruct (IH (upd nc (Z.to_nat x) (znth nc x + 1))) as (codes & E & L & C); auto.
      { rewrite zlen_upd; auto. }
      { intros l Hl. rewrite znth_upd by lia. specialize (HB l Hl). cbn [length] in HB. rewrite cnt_cons in HB.
        destruct (Z.eqb_spec l x) as [->|]; [rewrite Z.eqb_refl in HB|destruct (Z.eqb_spec x l)]; lia. }
      rewrite E. cbn [rbind]. eexists. split; [reflexivity|]. split; [cbn; lia|].
      intros [|s] Hs.
      * unfold ln. cbn [nth]. destruct (Z.ltb_spec 0 x); [|lia]. f_equal. unfold cnt. cbn [psum]. lia.
      * cbn [nth]. rewrite ln_cons, C by (cbn in Hs; lia). destruct (Z.ltb_spec 0 (ln t s)); [|auto].
        pose proof (ln_range 15 t s ltac:(lia) ltac:(auto)). rewrite znth_upd by lia. rewrite cnt_cons. f_equal.
        destruct (Z.eqb_spec (ln t s) x); destruct (Z.eqb_spec x (ln t s)); try lia. rewrite e. lia.
    + destruct (IH nc) as (codes & E & L & C); auto.
      { intros l Hl. specialize (HB l Hl). cbn [length] in HB. rewrite cnt_cons in HB. destruct (Z.eqb_spec x l); lia. }
      rewrite E. cbn [rbind]. eexists. split; [reflexivity|]. split; [cbn; lia|].
      intros [|s] Hs.
      * unfold ln. cbn [nth]. destruct (Z.ltb_spec 0 x); [lia|reflexivity].
      * cbn [nth]. rewrite ln_cons, C by (cbn in Hs; lia). destruct (Z.ltb_spec 0 (ln t s)); [|auto].
        rewrite cnt_cons. f_equal. destruct (Z.eqb_spec x (ln t s)); lia.
Qed.

(** the encoder's canonical codes: lengths as given, values canonical *)
Definition canonical (lens : list Z) (codes : list hcode) : Prop :=
  map snd codes = lens /\ forall s, has_code lens s -> nth s codes (0, 0) = (canon lens s, ln lens s).
Lemma code_ok_15 M lens : 1 <= M <= 15 -> code_ok M lens -> lens_ok 15 lens.
Proof. intros HM [HL _]. eapply Forall_impl; [|exact HL]; cbn; lia. Qed.
Theorem generate_ok M lens : 1 <= M <= 15 -> code_ok M lens -> zlen lens < 2 ^ 15 ->
  exists codes, generate_canonical_codes lens = Ok codes /\ canonical lens codes.
Proof.
  intros HM HC HN. pose proof (code_ok_15 M lens HM HC) as HL. unfold generate_canonical_codes.
  rewrite count_lengths_ok by (auto; reflexivity). cbn [rbind]. change (fold_left _ lens (repeat 0 16)) with (bl_count lens).
  destruct (bl_count_spec lens HL) as (B1 & B2 & B3). change (2 ^ 15) with 32768 in HN.
  rewrite (next_loop16_ok M lens) by (auto; change (2 ^ 16) with 65536; lia). cbn [rbind].
  assert (fits 16 lens) as HF.
  { intros l Hl. pose proof (code_first_le M lens l HM HC Hl). pose proof (cnt_nonneg lens l (length lens)).
    pose proof (pow2_le l 15 ltac:(lia)) as PL. change (2 ^ 15) with 32768 in PL. change (2 ^ 16) with 65536. lia. }
  destruct (next_codes_gen 16 lens ltac:(lia) HL HF) as [N1 N2].
  set (nc := next_loop 16 15 1 0 (bl_count lens) (repeat 0 16)) in *.
  destruct (assign16_ok lens nc HL N1) as (codes & E & L & C).
  { intros l Hl. rewrite N2 by auto. pose proof (code_first_le M lens l HM HC Hl).
    pose proof (pow2_le l 15 ltac:(lia)) as PL. change (2 ^ 15) with 32768 in PL. change (2 ^ 16) with 65536. lia. }
  rewrite E. exists codes. split; [auto|]. split.
  - apply nth_ext with (d := 0) (d' := 0); [rewrite map_length; exact L|]. intros s Hs. rewrite map_length in Hs. assert (s < length lens)%nat as Hs' by (rewrite <- L; exact Hs).
    change 0 with (snd (0, 0)) at 1. rewrite map_nth. rewrite C by exact Hs'. fold (ln lens s).
    pose proof (ln_range 15 lens s ltac:(lia) HL). destruct (Z.ltb_spec 0 (ln lens s)); cbn [snd]; lia.
  - intros s [Hs Hp]. rewrite C by auto. destruct (Z.ltb_spec 0 (ln lens s)); [|lia].
    pose proof (ln_range 15 lens s ltac:(lia) HL). rewrite N2 by lia. rewrite canon_first by auto. reflexivity.
Qed.

(** ** build_codes *)
Definition lsum (l : list Z) : Z := fold_right Z.add 0 l.
Lemma non_zero_in fs : forall i s f, 0 <= i -> i + zlen fs <= 2 ^ 16 ->
  (In (s, f) (non_zero i fs) <-> i <= s < i + zlen fs /\ f = nth (Z.to_nat (s - i)) fs 0 /\ 0 < f).
Proof.
  induction fs as [|x t IH]; intros i s f Hi HL; cbn [non_zero].
  - rewrite zlen_nil. cbn. split; [tauto|lia].
  - rewrite zlen_cons in *. pose proof (zlen_nonneg t) as Z0.
    assert (i <= s < i + (1 + zlen t) /\ f = nth (Z.to_nat (s - i)) (x :: t) 0 /\ 0 < f <->
      (s = i /\ f = x /\ 0 < f) \/ (i + 1 <= s < i + 1 + zlen t /\ f = nth (Z.to_nat (s - (i + 1))) t 0 /\ 0 < f)) as ->.
    { split.
      - intros (H1 & H2 & H3). destruct (Z.eq_dec s i) as [->|N].
        + left. rewrite Z.sub_diag in H2. cbn in H2. auto.
        + right. replace (Z.to_nat (s - i)) with (S (Z.to_nat (s - (i + 1)))) in H2 by lia. cbn [nth] in H2. split; [lia|auto].
      - intros [(-> & -> & H3)|(H1 & H2 & H3)].
        + rewrite Z.sub_diag. cbn. split; [lia|auto].
        + replace (Z.to_nat (s - i)) with (S (Z.to_nat (s - (i + 1)))) by lia. cbn [nth]. split; [lia|auto]. }
    rewrite <- IH by lia. destruct (Z.gtb_spec x 0) as [G|G]; cbn [In].
    + rewrite wrap_id by lia. split.
      * intros [E|E]; [injection E as <- <-; left; split; [auto|split; [auto|lia]]|auto].
      * intros [(-> & -> & _)|E]; auto.
    + split; [auto|]. intros [(_ & -> & H)|E]; [lia|auto].
Qed.
Lemma non_zero_nodup fs : forall i, 0 <= i -> i + zlen fs <= 2 ^ 16 -> NoDup (map fst (non_zero i fs)).
Proof.
  induction fs as [|x t IH]; intros i Hi HL; cbn [non_zero]; [constructor|]. rewrite zlen_cons in HL.
  pose proof (zlen_nonneg t) as Z0.
  destruct (x >? 0); [|apply IH; lia]. cbn [map fst]. constructor; [|apply IH; lia].
  rewrite wrap_id by lia. intros H. apply in_map_iff in H. destruct H as ([s f] & E & H). cbn in E. subst.
  apply non_zero_in in H; lia.
Qed.
Lemma non_zero_sum fs : forall i, Forall (fun f => 0 <= f) fs -> lsum (map snd (non_zero i fs)) = lsum fs.
Proof.
  induction fs as [|x t IH]; intros i H; cbn [non_zero]; [auto|]. inversion H; subst.
  destruct (Z.gtb_spec x 0); cbn [map snd lsum fold_right]; unfold lsum in *; rewrite IH by auto; lia.
Qed.
Lemma leaves_of nz : flat_map leaves (map (fun '(s, f) => Leaf f s) nz) = nz.
Proof. induction nz as [|[s f] t IH]; cbn; [auto|]. f_equal. auto. Qed.
Lemma wsum_of nz : wsum (map (fun '(s, f) => Leaf f s) nz) = lsum (map snd nz).
Proof. unfold wsum, lsum. induction nz as [|[s f] t IH]; cbn [map fold_right freq snd]; [auto|]. rewrite IH. lia. Qed.

Lemma huffman_lengths_ok H fs M : 1 <= M <= 15 -> Forall (fun f => 0 <= f) fs -> lsum fs < U32 -> zlen fs <= 2 ^ M ->
  (2 <= length (non_zero 0 fs))%nat ->
  exists lens, huffman_lengths H (length fs) (non_zero 0 fs) M = Ok lens /\ lens_ok M lens /\ kraft M lens = 2 ^ M /\
    length lens = length fs /\ (forall s, 0 < ln lens s <-> 0 < ln fs s) /\ two_codes lens.
Proof.
  intros HM HP HS HN H2. unfold huffman_lengths. set (nz := non_zero 0 fs) in *.
  pose proof (pow2_le M 15 ltac:(lia)) as PL. change (2 ^ 15) with 32768 in PL.
  assert (0 + zlen fs <= 2 ^ 16) as HN16 by (change (2 ^ 16) with 65536; lia).
  pose proof (h_of_ok H (map (fun '(s, f) => Leaf f s) nz)) as PO.
  pose proof (Permutation_length PO) as LO. rewrite map_length in LO.
  destruct (merge_loop_ok H (length nz) (h_of H (map (fun '(s, f) => Leaf f s) nz)) 0) as (root & E & G & W & P & N).
  { eapply Permutation_Forall; [symmetry; exact PO|]. apply Forall_forall. intros t Ht. apply in_map_iff in Ht.
    destruct Ht as ([s f] & <- & Ht). apply non_zero_in in Ht; [|lia|auto]. split; [cbn; lia|split; [cbn; lia|cbn; auto]]. }
  { rewrite LO. lia. }
  { rewrite (wsum_perm _ _ PO), wsum_of. unfold nz. rewrite non_zero_sum; auto. }
  rewrite E. cbn [rbind]. rewrite LO in N. destruct (N H2) as (fr & tl & tr & Eroot).
  assert (Permutation (leaves root) nz) as P2 by (rewrite P, (flat_perm leaves _ _ PO), leaves_of; reflexivity).
  pose proof (good_depth root G W) as HD.
  assert (forall p, In p (leaves root) -> 0 <= fst p < zlen fs) as HR.
  { intros [s f] Hp. pose proof (Permutation_in _ P2 Hp) as Hi. apply non_zero_in in Hi; [|lia|auto]. cbn. lia. }
  assert (zlen (repeat 0 (length fs)) = zlen fs) as ZR by (unfold zlen; rewrite repeat_length; auto).
  rewrite (extract_ok root 0 (repeat 0 (length fs))); [|lia|lia|].
  2: { apply Forall_forall. intros s Hs. apply in_map_iff in Hs. destruct Hs as (p & <- & Hp). rewrite ZR. auto. }
  cbn [rbind]. set (lens := fold_left set_len (ld root 0) (repeat 0 (length fs))).
  assert (forall p, In p (ld root 0) -> 1 <= snd p) as H1.
  { rewrite Eroot. cbn [ld]. intros p Hp. apply in_app_or in Hp. destruct Hp as [Hp|Hp]; apply ld_range in Hp; lia. }
  assert (NoDup (map fst (ld root 0))) as ND.
  { rewrite ld_syms. eapply Permutation_NoDup; [symmetry; apply Permutation_map; exact P2|]. apply non_zero_nodup; [lia|auto]. }
  assert (forall s, In s (map fst (ld root 0)) <-> 0 <= s < zlen fs /\ 0 < ln fs (Z.to_nat s)) as HI.
  { intros s. rewrite ld_syms. split.
    - intros Hs. apply in_map_iff in Hs. destruct Hs as ([s' f] & <- & Hs). apply (Permutation_in _ P2) in Hs.
      apply non_zero_in in Hs; [|lia|auto]. cbn [fst]. unfold ln. rewrite Z.sub_0_r in Hs. destruct Hs as (A & -> & B). lia.
    - intros [A B]. apply in_map_iff. exists (s, ln fs (Z.to_nat s)). split; auto.
      apply (Permutation_in _ (Permutation_sym P2)). apply non_zero_in; [lia|auto|]. rewrite Z.sub_0_r. unfold ln in *. lia. }
  assert (Forall (fun p => 0 <= fst p < zlen (repeat 0 (length fs)) /\ 1 <= snd p) (ld root 0)) as HF.
  { apply Forall_forall. intros p Hp. split; [|auto]. rewrite ZR. apply (HI (fst p)). apply in_map. auto. }
  assert (forall p, In p (ld root 0) -> ln (repeat 0 (length fs)) (Z.to_nat (fst p)) = 0) as HZ.
  { intros p _. unfold ln. destruct (nth_in_or_default (Z.to_nat (fst p)) (repeat 0 (length fs)) 0) as [Hx|Hx]; auto. apply repeat_spec in Hx. auto. }
  assert (length lens = length fs) as LL by (unfold lens; rewrite fold_set_length, repeat_length; auto).
  destruct (set_all M (ld root 0) (repeat 0 (length fs)) ND HF HZ) as (S1 & S2 & S3). fold lens in S1, S2, S3.
  assert (forall s, 0 < ln lens s <-> 0 < ln fs s) as SUP.
  { intros s. destruct (in_dec Z.eq_dec (Z.of_nat s) (map fst (ld root 0))) as [Hin|Hout].
    - pose proof Hin as Hin2. apply HI in Hin2. rewrite Nat2Z.id in Hin2. apply in_map_iff in Hin. destruct Hin as (p & Ep & Hp).
      pose proof (S2 p Hp) as E2. rewrite Ep, Nat2Z.id in E2. rewrite E2. pose proof (H1 p Hp). split; lia.
    - rewrite S3.
      + unfold ln at 1. assert (nth s (repeat 0 (length fs)) 0 = 0) as ->.
        { destruct (nth_in_or_default s (repeat 0 (length fs)) 0) as [Hx|Hx]; auto. apply repeat_spec in Hx. auto. }
        split; [lia|]. intros Hp. exfalso. apply Hout. apply HI. rewrite Nat2Z.id. split; [|auto].
        unfold ln in Hp. destruct (Nat.le_gt_cases (length fs) s); [rewrite nth_overflow in Hp by auto; lia|unfold zlen; lia].
      + intros p Hp Eq. apply Hout. apply in_map_iff. exists p. split; auto. destruct (proj1 (Forall_forall _ _) HF p Hp). lia. }
  assert (two_codes lens) as H2c.
  { unfold two_codes. clear - H2 LL SUP HN16. fold nz in H2. pose proof (non_zero_nodup fs 0 ltac:(lia) HN16) as ND. fold nz in ND.
    destruct nz as [|[s f] [|[s' f'] l]] eqn:EN; cbn [length] in H2; try lia.
    assert (In (s, f) nz) as I1 by (rewrite EN; left; auto). assert (In (s', f') nz) as I2 by (rewrite EN; right; left; auto).
    unfold nz in I1, I2. apply non_zero_in in I1; [|lia|auto]. apply non_zero_in in I2; [|lia|auto]. rewrite Z.sub_0_r in *.
    unfold zlen in *. inversion ND as [|? ? N1 N2]; subst. cbn in N1.
    exists (Z.to_nat s), (Z.to_nat s'). split; [intro; apply N1; left; lia|]. unfold has_code.
    split; (split; [lia|]); apply SUP; unfold ln; lia. }
  assert (Forall (fun l => 0 <= l) lens) as HNN.
  { apply Forall_forall. intros l Hl. apply (In_nth _ _ 0) in Hl. destruct Hl as (s & Hs & <-). fold (ln lens s).
    destruct (in_dec Z.eq_dec (Z.of_nat s) (map fst (ld root 0))) as [Hin|Hout].
    - apply in_map_iff in Hin. destruct Hin as (p & Ep & Hp). pose proof (S2 p Hp) as E2. rewrite Ep, Nat2Z.id in E2. rewrite E2. pose proof (H1 p Hp). lia.
    - destruct (Z.ltb_spec (ln lens s) 0); [|lia]. exfalso. rewrite S3 in *.
      + unfold ln in *. destruct (nth_in_or_default s (repeat 0 (length fs)) 0) as [Hx|Hx]; [apply repeat_spec in Hx|]; lia.
      + intros p Hp Eq. apply Hout. apply in_map_iff. exists p. split; auto. destruct (proj1 (Forall_forall _ _) HF p Hp). lia. }
  destruct (limit_ok M lens ltac:(lia) HNN H2c) as (lens' & E' & O' & SS & K').
  { unfold zlen in *. rewrite LL. auto. }
  { intros O. rewrite S1, kraft_zeros. replace (2 ^ M) with (2 ^ (M - 0)) by (f_equal; lia).
    rewrite Z.add_0_l. apply widths_tree.
    assert (forall t d, (forall p, In p (ld t d) -> snd p <= M) -> d + Z.of_nat (depth t) <= M) as DD.
    { clear. induction t as [f s|f l IHl r IHr]; intros d Hd; cbn [ld depth] in *.
      - specialize (Hd (s, d) ltac:(left; auto)). cbn in Hd. lia.
      - specialize (IHl (d + 1) ltac:(intros; apply Hd; apply in_or_app; auto)).
        specialize (IHr (d + 1) ltac:(intros; apply Hd; apply in_or_app; auto)). lia. }
    apply DD. intros p Hp. rewrite <- (S2 p Hp). apply (ln_range M lens); [lia|auto]. }
  exists lens'. split; [exact E'|]. split; [auto|]. split; [auto|]. destruct SS as [SL SP].
  split; [congruence|]. split; [intros s; rewrite <- SP; auto|]. eapply two_codes_support; eauto. split; auto.
Qed.

Definition codes_for (fs : list Z) (M : Z) (codes : list hcode) (lens : list Z) : Prop :=
  canonical lens codes /\ code_ok M lens /\ length lens = length fs /\
  (forall s, has_code lens s <-> 0 < ln fs s) /\ (two_codes lens -> kraft M lens = 2 ^ M).

Lemma support_has lens (fs : list Z) : length lens = length fs -> (forall s, 0 < ln lens s <-> 0 < ln fs s) -> forall s, has_code lens s <-> 0 < ln fs s.
Proof.
  intros L S s. unfold has_code. rewrite S. split; [tauto|]. intros H. split; [|auto].
  unfold ln in H. destruct (Nat.le_gt_cases (length fs) s); [rewrite nth_overflow in H by auto; lia|lia].
Qed.
Lemma nth_repeat0 n s : nth s (repeat 0 n) 0 = 0.
Proof. destruct (nth_in_or_default s (repeat 0 n) 0) as [Hx|Hx]; auto. apply repeat_spec in Hx. auto. Qed.
Lemma map_upd {A B} (f : A -> B) l i v : map f (upd l i v) = upd (map f l) i (f v).
Proof. revert i; induction l as [|x t IH]; intros [|i]; cbn; auto. f_equal. auto. Qed.
Lemma map_repeat' {A B} (f : A -> B) x n : map f (repeat x n) = repeat (f x) n.
Proof. induction n; cbn; congruence. Qed.

Theorem build_codes_ok H fs M : 1 <= M <= 15 -> Forall (fun f => 0 <= f) fs -> lsum fs < U32 -> zlen fs <= 2 ^ M -> zlen fs < 2 ^ 15 ->
  exists codes lens, build_codes H fs M = Ok codes /\ codes_for fs M codes lens.
Proof.
  intros HM HP HS HN HN15. unfold build_codes. change (2 ^ 15) with 32768 in HN15.
  assert (0 + zlen fs <= 2 ^ 16) as HN16 by (change (2 ^ 16) with 65536; lia).
  destruct fs as [|f0 fs0] eqn:EF.
  { exists [], []. split; [auto|]. split; [split; [auto|intros s [Hs _]; cbn in Hs; lia]|]. split; [split; [constructor|rewrite kraft_nil; apply Z.pow_nonneg; lia]|].
    split; [auto|]. split; [apply support_has; auto; intros; tauto|]. intros (i & j & _ & [Hi _] & _). cbn in Hi. lia. }
  rewrite <- EF in *. clear EF.
  destruct (non_zero 0 fs) as [|[s f] nz] eqn:EN.
  { assert (forall s, ln fs s <= 0) as Z0.
    { intros s. destruct (Z.ltb_spec 0 (ln fs s)) as [L|]; [|auto]. exfalso.
      assert (In (Z.of_nat s, ln fs s) (non_zero 0 fs)) as HI; [|rewrite EN in HI; destruct HI].
      apply non_zero_in; [lia|auto|]. rewrite Z.sub_0_r, Nat2Z.id. split; [|auto]. unfold ln in L.
      destruct (Nat.le_gt_cases (length fs) s); [rewrite nth_overflow in L by auto; lia|unfold zlen; lia]. }
    exists (repeat (0, 0) (length fs)), (repeat 0 (length fs)). split; [auto|].
    assert (forall s, ln (repeat 0 (length fs)) s = 0) as R0 by (intros; apply nth_repeat0).
    split; [split; [apply map_repeat'|intros s [_ Hs]; rewrite R0 in Hs; lia]|].
    split; [split; [apply Forall_forall; intros x Hx; apply repeat_spec in Hx; lia|rewrite kraft_zeros; apply Z.pow_nonneg; lia]|].
    split; [apply repeat_length|]. split.
    - apply support_has; [apply repeat_length|]. intros s. rewrite R0. specialize (Z0 s). lia.
    - intros (i & j & _ & [_ Hi] & _). rewrite R0 in Hi. lia. }
  destruct nz as [|p nz].
  { assert (In (s, f) (non_zero 0 fs)) as HI by (rewrite EN; left; auto). apply non_zero_in in HI; [|lia|auto]. rewrite Z.sub_0_r in HI.
    destruct HI as (H1 & H2 & H3).
    rewrite (get_ok (repeat (0, 0) (length fs)) s (0, 0)) by (unfold zlen; rewrite repeat_length; exact H1). cbn [rbind].
    set (lens := upd (repeat 0 (length fs)) (Z.to_nat s) 1).
    assert (length lens = length fs) as LL by (unfold lens; rewrite upd_length, repeat_length; auto).
    assert (Z.to_nat s < length (repeat 0%Z (length fs)))%nat as Hlt by (rewrite repeat_length; unfold zlen in H1; lia).
    assert (forall j, ln lens j = if Nat.eqb j (Z.to_nat s) then 1 else 0) as LN.
    { intros j. unfold lens, ln. rewrite nth_upd by auto. rewrite nth_repeat0. reflexivity. }
    assert (forall j, 0 < ln lens j <-> 0 < ln fs j) as SUP.
    { intros j. rewrite LN. destruct (Nat.eqb_spec j (Z.to_nat s)) as [->|Hne]; [unfold ln; lia|]. split; [lia|]. intros Hj. exfalso.
      assert (In (Z.of_nat j, ln fs j) (non_zero 0 fs)) as HI.
      { apply non_zero_in; [lia|auto|]. rewrite Z.sub_0_r, Nat2Z.id. split; [|auto]. unfold ln in Hj.
        destruct (Nat.le_gt_cases (length fs) j); [rewrite nth_overflow in Hj by auto; lia|unfold zlen; lia]. }
      rewrite EN in HI. destruct HI as [HI|[]]. injection HI as HI _. lia. }
    assert (forall j, has_code lens j -> j = Z.to_nat s) as UQ.
    { intros j [_ Hj]. rewrite LN in Hj. destruct (Nat.eqb_spec j (Z.to_nat s)); [auto|lia]. }
    exists (upd (repeat (0, 0) (length fs)) (Z.to_nat s) (0, 1)), lens. split; [auto|].
    split; [split|split; [split|split; [auto|split]]].
    - unfold lens. rewrite map_upd, map_repeat'. reflexivity.
    - intros j Hj. pose proof (UQ j Hj) as ->. rewrite nth_upd_eq by (rewrite repeat_length; rewrite repeat_length in Hlt; exact Hlt).
      rewrite LN, Nat.eqb_refl. f_equal. unfold canon. rewrite (psum_ext _ (fun _ => 0)); [rewrite psum_const; lia|].
      intros k _. unfold before. rewrite !LN, Nat.eqb_refl. destruct (Nat.eqb_spec k (Z.to_nat s)); [|reflexivity].
      subst. rewrite Nat.ltb_irrefl. reflexivity.
    - unfold lens. apply lens_ok_upd; [|lia]. apply Forall_forall; intros x Hx; apply repeat_spec in Hx; lia.
    - unfold lens. rewrite kraft_upd by auto. rewrite kraft_zeros. unfold ln. rewrite nth_repeat0. unfold kc. cbn [Z.ltb Z.compare].
      pose proof (pow2_le (M - 1) M ltac:(lia)). lia.
    - apply support_has; auto.
    - intros (i & j & Nij & Hi & Hj). apply UQ in Hi. apply UQ in Hj. congruence. }
  destruct (huffman_lengths_ok H fs M HM HP HS HN) as (lens & E & O & K & L & SUP & H2).
  { rewrite EN. cbn. lia. }
  rewrite EN in E. rewrite E. cbn [rbind].
  destruct (generate_ok M lens HM) as (codes & E2 & C).
  { split; [auto|lia]. } { unfold zlen in *. rewrite L. exact HN15. }
  exists codes, lens. split; [auto|]. split; [auto|]. split; [split; [auto|lia]|]. split; [auto|]. split; [apply support_has; auto|auto].
Qed.

Theorem build_codes_flat H fs M : 1 <= M <= 15 -> Forall (fun f => 0 <= f) fs -> fold_right Z.add 0 fs < 2 ^ 32 -> zlen fs <= 2 ^ M -> zlen fs < 2 ^ 15 ->
  exists codes, build_codes H fs M = Ok codes /\
    let lens := map snd codes in
    length lens = length fs /\ lens_ok M lens /\
    (forall s, has_code lens s <-> 0 < nth s fs 0) /\
    kraft M lens <= 2 ^ M /\
    (forall i j, i <> j -> 0 < nth i fs 0 -> 0 < nth j fs 0 -> kraft M lens = 2 ^ M) /\
    (forall s, 0 < nth s fs 0 -> nth s codes (0, 0) = (canon lens s, nth s lens 0)).
Proof.
  intros HM HP HS HN H15. destruct (build_codes_ok H fs M HM HP HS HN H15) as (codes & lens & E & [C1 C2] & [O K] & L & S & T).
  exists codes. split; [auto|]. cbv zeta. rewrite C1. split; [auto|]. split; [auto|]. split; [auto|]. split; [auto|]. split.
  - intros i j N Hi Hj. apply T. exists i, j. split; [auto|]. split; apply S; auto.
  - intros s Hs. apply C2. apply S. auto.
Qed.
Theorem build_codes_overflow H : build_codes H [2 ^ 31; 2 ^ 31] 15 = Panic.
Proof.
  unfold build_codes, huffman_lengths. change (non_zero 0 [2 ^ 31; 2 ^ 31]) with [(0, 2 ^ 31); (1, 2 ^ 31)].
  cbv beta iota. cbn [map length].
  set (ls := [Leaf (2 ^ 31) 0; Leaf (2 ^ 31) 1]). pose proof (h_of_ok H ls) as P. set (h := h_of H ls) in *.
  assert (forall t, In t ls -> freq t = 2 ^ 31) as FQ by (intros t [<-|[<-|[]]]; reflexivity).
  assert (merge_loop H 2 h = Panic) as ->; [|reflexivity]. cbn [merge_loop].
  destruct (h_pop H h) as [[a h1]|] eqn:P1; [|apply h_pop_none in P1; rewrite P1 in P; apply Permutation_nil in P; discriminate].
  destruct (h_pop_some H _ _ _ P1) as [Q1 _]. 
  assert (Permutation ls (a :: h_elems H h1)) as Q1' by (rewrite <- P; auto).
  destruct (h_pop H h1) as [[b h2]|] eqn:P2.
  2: { apply h_pop_none in P2. rewrite P2 in Q1'. apply Permutation_length in Q1'. cbn in Q1'. lia. }
  destruct (h_pop_some H _ _ _ P2) as [Q2 _].
  assert (Permutation ls (a :: b :: h_elems H h2)) as Q by (rewrite Q1', Q2; reflexivity).
  rewrite (FQ a), (FQ b); [reflexivity| |]; eapply Permutation_in; try (symmetry; exact Q); cbn; auto.
Qed.
