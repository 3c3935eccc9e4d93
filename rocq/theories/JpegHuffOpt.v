(** Proofs for C98: what the optimised tables of the JPEG encoder cost. *)
From Coq Require Import Permutation Sorting.Sorted.
From Verif Require Import Base InflateModel CanonSpec CanonProofs HuffModel HuffProofs HuffOptSpec HuffOpt PngFilterModel JpegBaseModel JpegHuffModel JpegDecModel JpegBaseProofs JpegTabProofs JpegSymProofs JpegOptProofs JpegHuffOptSpec.

(** ** The merge loop *)
Lemma jmerge_opt fuel : forall nxt h t L ps, jmerge fuel nxt h = Ok t -> Forall (fun e => ekey e = freq (snd e) /\ 0 <= freq (snd e)) h -> Permutation (map fst ps) (map freq (map snd h)) ->
  Forall (fun p => 0 <= snd p <= L) ps -> wkraft L ps <= 2 ^ L -> inner t <= inners (map snd h) + wcost ps.
Proof.
  induction fuel as [|f IH]; intros nxt h t L ps E N Pm R K;
    (destruct h as [|x h]; [discriminate E|]); cbn [jmerge] in E;
    destruct (pop_min x h) as [a h1] eqn:P1; destruct (pop_min_spec h x a h1 P1) as [Q1 M1];
    (destruct h1 as [|y h1];
     [injection E as <-; rewrite (inners_perm _ _ (Permutation_map snd Q1)); unfold inners; cbn [fold_right map];
      (assert (0 <= wcost ps); [|lia]); rewrite (Permutation_map freq (Permutation_map snd Q1)) in Pm; apply (Permutation_Forall Q1) in N; apply Forall_cons_iff in N as (N & _); cbn [map] in Pm;
      apply Permutation_sym, Permutation_length_1_inv in Pm; destruct ps as [|p [|]]; try discriminate; cbn [map] in Pm; apply Forall_cons_iff in R as (R & _); unfold wcost; cbn [fold_right]; injection Pm as Pm; nia|]).
  { discriminate E. }
  destruct (pop_min y h1) as [b h2] eqn:P2. destruct (pop_min_spec h1 y b h2 P2) as [Q2 M2].
  assert (Permutation (x :: h) (a :: b :: h2)) as Q by (rewrite Q1, Q2; reflexivity).
  pose proof (Permutation_Forall Q N) as N'. apply Forall_cons_iff in N' as ((Ka & Na) & N'). apply Forall_cons_iff in N' as ((Kb & Nb) & N').
  apply (Permutation_Forall Q) in M1. apply Forall_cons_iff in M1 as (_ & M1). apply Forall_cons_iff in M1 as (M1 & _).
  apply (Permutation_Forall Q2) in M2. apply Forall_cons_iff in M2 as (_ & M2).
  rewrite Ka, Kb in E. destruct (freq (snd a) + freq (snd b) <? 2 ^ 64); [|discriminate].
  rewrite (Permutation_map freq (Permutation_map snd Q)) in Pm. cbn [map] in Pm.
  destruct (merge_step L (freq (snd a)) (freq (snd b)) (map freq (map snd h2)) ps Pm) as (ps' & Pm' & R' & K' & C'); [lia| |exact R|exact K|].
  { rewrite !Forall_map. apply Forall_forall. intros e He. rewrite Forall_forall in M2, N'. specialize (M2 e He). destruct (N' e He) as (N1 & _). lia. }
  specialize (IH _ _ t L ps' E). rewrite (inners_perm _ _ (Permutation_map snd Q)). unfold inners in *. cbn [fold_right inner map snd freq] in *.
  assert (inner t <= freq (snd a) + freq (snd b) + inner (snd a) + inner (snd b) + fold_right (fun t a => inner t + a) 0 (map snd h2) + wcost ps'); [|lia]. apply IH.
  - constructor; [cbn; lia|exact N'].
  - exact Pm'.
  - exact R'.
  - exact K'.
Qed.

(** ** From the tree to the lengths *)
Definition pcost (fs : list Z) (ps : list (Z * Z)) : Z := fold_right (fun p a => nth (Z.to_nat (fst p)) fs 0 * snd p + a) 0 ps.
Lemma pcost_perm fs a b : Permutation a b -> pcost fs a = pcost fs b.
Proof. unfold pcost. induction 1; cbn [fold_right] in *; lia. Qed.
Lemma pcost_app fs a b : pcost fs (a ++ b) = pcost fs a + pcost fs b.
Proof. unfold pcost. induction a as [|p a IH]; cbn [app fold_right]; [lia|]. rewrite IH. lia. Qed.
Lemma coded_fold fs ps : forall lens, length lens = length fs -> NoDup (map fst ps) -> (forall p, In p ps -> 0 <= fst p < zlen fs /\ 1 <= snd p /\ ln lens (Z.to_nat (fst p)) = 0) ->
  coded_bits fs (fold_left set_len ps lens) = coded_bits fs lens + pcost fs ps.
Proof.
  induction ps as [|p ps IH]; intros lens L ND H; cbn [fold_left]; [unfold pcost; cbn; lia|]. cbn [map] in ND. inversion ND as [|? ? N1 N2]; subst.
  destruct (H p (or_introl eq_refl)) as (A & B & C). rewrite IH.
  - unfold set_len. rewrite Z.max_l by lia. unfold zlen in A. rewrite coded_upd by (try assumption; lia). unfold pcost. cbn [fold_right]. lia.
  - unfold set_len. rewrite upd_length. exact L.
  - exact N2.
  - intros q Hq. destruct (H q (or_intror Hq)) as (A' & B' & C'). split; [exact A'|]. split; [exact B'|]. unfold set_len, ln. rewrite nth_upd_neq; [exact C'|].
    intros E. apply N1. apply in_map_iff. exists q. split; [lia|exact Hq].
Qed.
Lemma pcost_ld fs t : forall d, (forall s f, In (s, f) (leaves t) -> f = nth (Z.to_nat s) fs 0) -> pcost fs (ld t d) = lw t d.
Proof.
  induction t as [f s|f l IHl r IHr]; intros d H; cbn [ld lw leaves] in *.
  - unfold pcost. cbn [fold_right fst snd]. rewrite <- (H s f (or_introl eq_refl)). lia.
  - rewrite pcost_app, IHl, IHr; [reflexivity| |]; intros s' f' Hi; apply H, in_or_app; auto.
Qed.
Lemma good_sum t : good t -> freq t = lsum (map snd (leaves t)).
Proof.
  induction t as [f s|f l IHl r IHr]; cbn [good freq leaves map]; intros G0; [unfold lsum; cbn; lia|]. destruct G0 as (Gl & Gr & -> & _). rewrite IHl, IHr, map_app by assumption. unfold lsum. clear.
  induction (map snd (leaves l)); cbn [app fold_right]; lia.
Qed.
(** the lengths: Huffman's and one more *)
Lemma jlengths_cost counts lens : Forall (fun c => 0 <= c) counts -> lsum counts < U64 -> zlen counts <= 2 ^ 16 -> (2 <= occurring counts)%nat ->
  build_code_lengths counts = Ok (Some lens) ->
  (forall s, ln lens s = 0 \/ 2 <= ln lens s) /\
  exists c, coded_bits counts lens = c + lsum counts /\
  forall L lens', length lens' = length counts -> (forall s, 0 < nth s counts 0 -> 0 <= ln lens' s <= L) -> wkraft L (pairs_of counts lens') <= 2 ^ L -> c <= coded_bits counts lens'.
Proof.
  intros HP HS HN H2 E. assert (0 + zlen counts <= 2 ^ 16) as HN16 by lia. rewrite <- (occ_nz counts 0) in H2.
  pose proof (jleaves_nz counts 0 0 HP ltac:(lia) HN16) as EL.
  unfold build_code_lengths in E. set (h := jleaves 0 0 counts) in *.
  assert (length h = length (non_zero 0 counts)) as LH by (rewrite <- (map_length snd h), EL, map_length; reflexivity).
  assert (forall s f, In (s, f) (non_zero 0 counts) -> 0 <= s < zlen counts /\ f = nth (Z.to_nat s) counts 0 /\ 0 < f) as NZ.
  { intros s f Hi. apply non_zero_in in Hi; [|lia|exact HN16]. rewrite Z.sub_0_r in Hi. lia. }
  assert (Forall (einv 0) h) as HE.
  { apply Forall_forall. intros e He. destruct (jleaves_shape counts 0 0 e He) as (f & s & E1 & E2).
    assert (In (snd e) (map snd h)) as Hm by (apply in_map; exact He). rewrite EL, E1 in Hm.
    apply in_map_iff in Hm as ([s' f'] & E3 & Hin). injection E3 as -> ->. apply NZ in Hin. split; [rewrite E1; exact E2|]. rewrite E1. split; [cbn; lia|split; cbn; [lia|auto]]. }
  destruct (jmerge_ok (length h) (zlen h) h 0 HE ltac:(lia)) as (root & Er & G & W & P).
  { unfold esum. rewrite EL, wsum_of, non_zero_sum by auto. exact HS. }
  rewrite EL, leaves_of in P. pose proof (good_depth64 root G W) as HD.
  assert ((let* root := jmerge (length h) (zlen h) h in jextract root 0 (repeat 0 (length counts))) = Ok (Some lens)) as E'.
  { destruct h as [|[[f1 i1] [g1 s1|g1 a1 b1]] [|e2 h']] eqn:Ehh; try exact E; cbn [length] in LH; lia. }
  clear E. rewrite Er in E'. cbn [rbind] in E'. assert (zlen (repeat 0 (length counts)) = zlen counts) as ZR by (unfold zlen; rewrite repeat_length; auto).
  rewrite jextract_ok in E'; [|lia|lia|].
  2:{ apply Forall_forall. intros s Hs. apply (Permutation_in _ (Permutation_map fst P)) in Hs. apply in_map_iff in Hs as ([s' f'] & <- & Hin). apply NZ in Hin. rewrite ZR. cbn. lia. }
  destruct (forallb (fun p => snd p <=? 16) (jld root 0)) eqn:EF; [|discriminate]. injection E' as <-.
  pose proof (jld_perm root 0) as PJ. change (0 + 1) with 1 in PJ.
  assert (NoDup (map fst (jld root 0))) as ND.
  { eapply Permutation_NoDup; [symmetry; apply Permutation_map; exact PJ|]. rewrite ld_syms. eapply Permutation_NoDup; [symmetry; apply Permutation_map; exact P|]. apply non_zero_nodup; [lia|exact HN16]. }
  assert (exists fr tl tr, root = Node fr tl tr) as (fr & tl & tr & Eroot).
  { destruct root as [f0 s0|fr tl tr]; [|eauto]. apply Permutation_length in P. cbn in P. lia. }
  assert (forall p, In p (jld root 0) -> 0 <= fst p < zlen counts /\ 2 <= snd p) as HJ.
  { intros p Hp. apply (Permutation_in _ PJ) in Hp. split.
    - apply (in_map fst) in Hp. rewrite ld_syms in Hp. apply (Permutation_in _ (Permutation_map fst P)) in Hp. apply in_map_iff in Hp as ((s & f) & Es & Hi). cbn [fst] in Es. apply NZ in Hi. lia.
    - rewrite Eroot in Hp. cbn [ld] in Hp. apply in_app_or in Hp as [Hp|Hp]; apply ld_range in Hp; lia. }
  split.
  { destruct (set_all 16 (jld root 0) (repeat 0 (length counts)) ND) as (_ & S2 & S3).
    - apply Forall_forall. intros p Hp. rewrite ZR. specialize (HJ p Hp). lia.
    - intros p _. apply nth_repeat0.
    - intros s. destruct (in_dec Z.eq_dec (Z.of_nat s) (map fst (jld root 0))) as [I|I].
      + apply in_map_iff in I as (p & Ep & Hp). right. pose proof (S2 p Hp) as S2p. rewrite Ep, Nat2Z.id in S2p. rewrite S2p. apply HJ, Hp.
      + left. rewrite S3; [apply nth_repeat0|]. intros p Hp Eq. apply I, in_map_iff. exists p. split; [|exact Hp]. destruct (HJ p Hp). lia. }
  exists (inner root). split.
  { rewrite coded_fold; [|apply repeat_length|exact ND|].
    - rewrite coded_nil, (pcost_perm counts _ _ PJ), pcost_ld.
      + rewrite lw_inner by exact G. rewrite (good_sum root G), (lsum_perm _ _ (Permutation_map snd P)), non_zero_sum by exact HP. lia.
      + intros s f Hi. apply (Permutation_in _ P) in Hi. apply NZ in Hi. lia.
    - intros p Hp. destruct (HJ p Hp) as (A & B). split; [exact A|]. split; [lia|]. apply nth_repeat0. }
  intros L lens' L' R' K'. rewrite <- (pairs_cost counts lens' HP).
  assert (inner root <= inners (map snd h) + wcost (pairs_of counts lens')) as O.
  { apply (jmerge_opt (length h) (zlen h) h root L _ Er).
    - eapply Forall_impl; [|exact HE]. intros e (A & B). split; [exact A|]. destruct B as (B & _). pose proof (good_pos _ B). lia.
    - rewrite EL, map_map, (pairs_fst counts lens' 0 L'). apply Permutation_refl'. apply map_ext. intros (s, f). reflexivity.
    - apply Forall_forall. intros (w, l) Hp. unfold pairs_of in Hp. apply filter_In in Hp as (Hp & Hw). cbn [fst] in Hw. apply (In_nth _ _ (0, 0)) in Hp as (s & Hs & Hp).
      rewrite combine_nth in Hp by congruence. injection Hp as Hp1 Hp2. cbn [snd]. rewrite <- Hp2. apply R'. lia.
    - exact K'. }
  rewrite EL in O. assert (inners (map (fun '(s, f) => Leaf f s) (non_zero 0 counts)) = 0) as Z0; [|lia].
  unfold inners. clear. induction (non_zero 0 counts) as [|(s, f) nz IH]; cbn [map fold_right inner]; lia.
Qed.

(** ** The table that is written *)
Lemma lengths_sizes bits : forall len, lengths_from len bits = sizes_from len bits.
Proof. induction bits as [|c r IH]; intros len; cbn [lengths_from sizes_from]; [reflexivity|]. rewrite IH. reflexivity. Qed.
Lemma table_lengths counts bits vals : Forall (fun c => 0 <= c) counts -> lsum counts < U64 -> zlen counts <= 256 -> nsyms counts <= 255 ->
  build_bits_vals counts = Ok (Some (bits, vals)) -> exists lens, build_code_lengths counts = Ok (Some lens) /\ length lens = length counts /\ table_cost counts bits vals = coded_bits counts lens.
Proof.
  intros HP HS HN H255 E. destruct (build_code_lengths_ok counts HP HS ltac:(lia)) as (x & E1 & HX). unfold build_bits_vals in E. rewrite E1 in E. cbn [rbind] in E.
  destruct x as [lens|]; [|discriminate]. exists lens. split; [exact E1|]. destruct HX as (L1 & L2 & L3 & L4). split; [exact L1|].
  assert (zlen (filter (fun x => x >? 0) lens) = nsyms counts) as EN by (apply support_filter; auto).
  pose proof (zlen_nonneg (filter (fun x => x >? 0) lens)) as Nn.
  destruct (count_bits_ok lens (repeat 0 16) L2 (repeat_length _ _)) as (bits' & EB & B1 & B2 & B3).
  { apply Forall_forall. intros c Hc. apply repeat_spec in Hc. lia. }
  { intros l. rewrite znth_repeat0. lia. }
  rewrite EB in E. cbn [rbind] in E. change (huff_sizes (repeat 0 16)) with (@nil Z) in B3. rewrite app_nil_r in B3.
  set (syms := filter (fun i => znth lens i >? 0) (idxs (length lens))) in *. pose proof (sort_perm lens syms) as PS.
  assert (bits' = bits /\ sort_syms lens syms = vals) as (-> & EV) by (split; congruence). rewrite EV in PS.
  assert (huff_sizes bits = map (znth lens) vals) as ES.
  { apply sorted_perm_eq.
    - apply sizes_sorted.
    - rewrite <- EV. apply sorted_map, sort_sorted.
    - rewrite B3, PS. unfold syms. rewrite filter_syms. reflexivity. }
  unfold table_cost. rewrite lengths_sizes. fold (huff_sizes bits). rewrite ES.
  assert (forall l, fold_right Z.add 0 (map (fun p => nth (Z.to_nat (fst p)) counts 0 * snd p) (combine l (map (znth lens) l))) = fold_right (fun s a => znth counts s * znth lens s + a) 0 l) as A.
  { induction l as [|s l IH]; cbn [map combine fold_right fst snd]; [reflexivity|]. rewrite IH. reflexivity. }
  rewrite A. assert (forall a b, Permutation a b -> fold_right (fun s a => znth counts s * znth lens s + a) 0 a = fold_right (fun s a => znth counts s * znth lens s + a) 0 b) as PF.
  { induction 1; cbn [fold_right] in *; lia. }
  rewrite (PF _ _ PS). unfold syms, idxs, coded_bits. clear - L1 L2 HP.
  assert (forall p q s t, counts = p ++ s -> lens = q ++ t -> length p = length q -> length s = length t ->
    fold_right (fun s a => znth counts s * znth lens s + a) 0 (filter (fun i => znth lens i >? 0) (map Z.of_nat (seq (length p) (length s)))) = fold_right Z.add 0 (map (fun p => fst p * snd p) (combine s t))) as K.
  { intros p q s t. revert p q t. induction s as [|x s IH]; intros p q [|y t] E1 E2 LP LS; cbn [length] in LS; try lia; [reflexivity|]. cbn [length seq map filter combine fold_right fst snd].
    assert (znth counts (Z.of_nat (length p)) = x) as Ex by (unfold znth; rewrite Nat2Z.id, E1; apply nth_middle).
    assert (znth lens (Z.of_nat (length p)) = y) as Ey by (unfold znth; rewrite Nat2Z.id, E2, LP; apply nth_middle).
    specialize (IH (p ++ [x]) (q ++ [y]) t). rewrite !app_length in IH. cbn [length] in IH. replace (length p + 1)%nat with (S (length p)) in IH by lia.
    specialize (IH ltac:(rewrite <- app_assoc; exact E1) ltac:(rewrite <- app_assoc; exact E2) ltac:(lia) ltac:(lia)). rewrite Ey.
    assert (0 <= y) as Hy. { rewrite E2 in L2. unfold lens_ok in L2. apply Forall_app in L2 as (_ & L2). apply Forall_cons_iff in L2 as (L2 & _). lia. }
    destruct (Z.gtb_spec y 0); cbn [fold_right]; [rewrite Ex, Ey, IH; reflexivity|]. rewrite IH. replace y with 0 by lia. lia. }
  rewrite L1. apply (K [] [] counts lens eq_refl eq_refl eq_refl). congruence.
Qed.
