(** Optimised Huffman tables of the JPEG encoder. *)
From Verif Require Import Base BitsModel BitsProofs CanonSpec CanonProofs InflateModel HuffModel HuffProofs PngFilterModel JpegBaseModel JpegHuffModel JpegDecModel JpegBaseProofs MsbSpec MsbProofs JpegTabProofs JpegSymProofs JpegBlockProofs.
From Coq Require Import Permutation Sorting.Sorted.

Notation ekey e := (fst (fst (e : hentry))).
Lemma pop_min_spec l : forall m y r, pop_min m l = (y, r) ->
  Permutation (m :: l) (y :: r) /\ Forall (fun x => ekey y <= ekey x) (m :: l).
Proof.
  induction l as [|x t IH]; intros m y r H; cbn [pop_min] in H.
  - injection H as <- <-. split; [reflexivity|]. constructor; [lia|constructor].
  - assert (entry_lt x m = true -> ekey x <= ekey m) as L1.
    { destruct x as [[fx ix] tx], m as [[fm im] tm]. cbn. lia. }
    assert (entry_lt x m = false -> ekey m <= ekey x) as L2.
    { destruct x as [[fx ix] tx], m as [[fm im] tm]. cbn. lia. }
    destruct (entry_lt x m).
    + destruct (pop_min x t) as [y' r'] eqn:E. injection H as <- <-. destruct (IH _ _ _ E) as [P M]. split.
      * rewrite P. apply perm_swap.
      * constructor; [|exact M]. apply Forall_cons_iff in M as [M1 _]. specialize (L1 eq_refl). lia.
    + destruct (pop_min m t) as [y' r'] eqn:E. injection H as <- <-. destruct (IH _ _ _ E) as [P M]. split.
      * rewrite (perm_swap x m t), P. apply perm_swap.
      * apply Forall_cons_iff in M as [M1 M2]. specialize (L2 eq_refl). constructor; [lia|]. constructor; [lia|exact M2].
Qed.

Definition U64 : Z := 2 ^ 64.
Lemma good_depth64 t : good t -> freq t < U64 -> (depth t <= 92)%nat.
Proof.
  intros G H. destruct (Nat.le_gt_cases (depth t) 92) as [|L]; auto.
  pose proof (F_mono 93 (depth t) ltac:(lia)). assert (F 93 > U64) by (vm_compute; reflexivity).
  destruct (good_fib t G) as [B _]. lia.
Qed.
Definition einv (m : Z) (e : hentry) : Prop := ekey e = freq (snd e) /\ hinv m (snd e).
Definition esum (h : list hentry) : Z := wsum (map snd h).
Lemma esum_perm a b : Permutation a b -> esum a = esum b.
Proof. intros H. apply wsum_perm, Permutation_map, H. Qed.
Lemma esum_cons e h : esum (e :: h) = freq (snd e) + esum h.
Proof. reflexivity. Qed.
Notation eleaves h := (flat_map leaves (map snd (h : list hentry))).

Lemma jmerge_ok fuel : forall nxt h m, Forall (einv m) h -> (1 <= length h <= S fuel)%nat -> esum h < U64 ->
  exists t, jmerge fuel nxt h = Ok t /\ good t /\ freq t < U64 /\ Permutation (leaves t) (eleaves h).
Proof.
  induction fuel as [|f IH]; intros nxt h m HI HL HW;
    (destruct h as [|x h]; [cbn in HL; lia|]); cbn [jmerge];
    destruct (pop_min x h) as [a h1] eqn:P1; destruct (pop_min_spec h x a h1 P1) as [Q1 M1];
    pose proof (Permutation_Forall Q1 HI) as HI1; apply Forall_cons_iff in HI1 as [I1 I2];
    pose proof (Permutation_length Q1) as L1; cbn [length] in L1;
    pose proof (esum_perm _ _ Q1) as EW1; rewrite (esum_cons a h1) in EW1;
    (destruct h1 as [|y h1];
     [exists (snd a); split; [reflexivity|]; split; [apply I1|]; split;
       [rewrite EW1 in HW; change (esum []) with 0 in HW; lia|];
      rewrite (flat_perm leaves _ _ (Permutation_map snd Q1)); cbn [map flat_map]; rewrite app_nil_r; reflexivity|]).
  { cbn [length] in *. lia. }
  destruct (pop_min y h1) as [b h2] eqn:P2. destruct (pop_min_spec h1 y b h2 P2) as [Q2 M2].
  pose proof (Permutation_Forall Q2 I2) as HI2. apply Forall_cons_iff in HI2 as [J1 J2].
  pose proof (Permutation_length Q2) as L2. cbn [length] in *.
  pose proof (esum_perm _ _ Q2) as EW2. rewrite (esum_cons b h2) in EW2.
  destruct I1 as (Ka & Ga & Ma & Kda). destruct J1 as (Kb & Gb & Mb & Kdb).
  assert (0 <= esum h2) as W2.
  { apply wsum_nonneg, Forall_map. eapply Forall_impl; [|exact J2]. intros e He. apply He. }
  assert (freq (snd a) <= freq (snd b)) as Hab.
  { rewrite <- Ka, <- Kb. rewrite Forall_forall in M1. apply M1.
    apply (Permutation_in b (Permutation_sym Q1)). right. apply (Permutation_in b (Permutation_sym Q2)). left. reflexivity. }
  rewrite Ka, Kb. change (2 ^ 64) with U64.
  destruct (Z.ltb_spec (freq (snd a) + freq (snd b)) U64) as [_|G]; [|lia].
  set (p := Node (freq (snd a) + freq (snd b)) (snd a) (snd b)).
  pose proof (good_pos _ Ga) as Pa. pose proof (good_pos _ Gb) as Pb.
  assert (hinv (freq (snd b)) p) as Hp.
  { split; [|split; [cbn; lia|cbn; lia]]. cbn. split; [auto|]. split; [auto|]. split; [auto|]. split.
    - destruct (snd a) as [|fc u v]; cbn in *; auto. lia.
    - destruct (snd b) as [|fc u v]; cbn in *; auto. lia. }
  destruct (IH (nxt + 1) ((freq (snd a) + freq (snd b), nxt, p) :: h2) (freq (snd b))) as (t & E & G & W & PL).
  - constructor; [split; [reflexivity|exact Hp]|]. apply Forall_forall. intros e He.
    rewrite Forall_forall in J2. destruct (J2 e He) as (K & X1 & X2 & X3). split; [exact K|]. split; [exact X1|]. split.
    + rewrite <- Kb, <- K. rewrite Forall_forall in M2. apply M2. apply (Permutation_in e (Permutation_sym Q2)). right. exact He.
    + eapply kids_le_mono; [|exact X3]. lia.
  - cbn [length]. lia.
  - rewrite esum_cons. cbn [snd freq p]. lia.
  - exists t. split; [exact E|]. split; [exact G|]. split; [exact W|].
    rewrite PL. rewrite (flat_perm leaves _ _ (Permutation_map snd Q1)). cbn [map flat_map snd leaves p].
    rewrite <- app_assoc. apply Permutation_app_head.
    rewrite (flat_perm leaves _ _ (Permutation_map snd Q2)). reflexivity.
Qed.

(** ** depths *)
Fixpoint jld (t : tree) (d : Z) : list (Z * Z) :=
  match t with Leaf _ s => [(s, d + 1)] | Node _ l r => jld r (d + 1) ++ jld l (d + 1) end.
Lemma jld_perm t : forall d, Permutation (jld t d) (ld t (d + 1)).
Proof.
  induction t as [f s|f l IHl r IHr]; intros d; cbn [jld ld]; [reflexivity|].
  rewrite IHl, IHr. apply Permutation_app_comm.
Qed.
Lemma jextract_ok t : forall d lens, 0 <= d -> d + Z.of_nat (depth t) + 1 < 256 ->
  Forall (fun s => 0 <= s < zlen lens) (map fst (leaves t)) ->
  jextract t d lens = Ok (if forallb (fun p => snd p <=? 16) (jld t d) then Some (fold_left set_len (jld t d) lens) else None).
Proof.
  induction t as [f s|f l IHl r IHr]; intros d lens Hd HD HS; cbn [jextract jld leaves depth map fst] in *.
  - apply Forall_cons_iff in HS as [H1 _]. destruct (Z.ltb_spec (d + 1) 256); [|lia]. cbn [forallb snd andb].
    rewrite andb_true_r. destruct (Z.gtb_spec (d + 1) 16), (Z.leb_spec (d + 1) 16); try lia; [reflexivity|].
    rewrite (get_ok lens s 0) by auto. cbn [rbind fold_left]. unfold set_len. cbn [fst snd]. rewrite Z.max_l by lia. reflexivity.
  - destruct (Z.ltb_spec (d + 1) 256); [|lia]. rewrite map_app in HS. apply Forall_app in HS as [S1 S2].
    rewrite IHr by (auto; lia). cbn [rbind]. rewrite forallb_app.
    destruct (forallb (fun p => snd p <=? 16) (jld r (d + 1))); cbn [andb]; [|reflexivity].
    rewrite IHl; [|lia|lia|].
    + rewrite fold_left_app. reflexivity.
    + unfold zlen in *. rewrite fold_set_length. exact S1.
Qed.
Lemma jleaves_nz counts : forall i idx, Forall (fun c => 0 <= c) counts -> 0 <= i -> i + zlen counts <= 2 ^ 16 ->
  map snd (jleaves i idx counts) = map (fun '(s, f) => Leaf f s) (non_zero i counts).
Proof.
  induction counts as [|c t IH]; intros i idx HP Hi HL; cbn [jleaves non_zero]; [reflexivity|].
  rewrite zlen_cons in HL. apply Forall_cons_iff in HP as [Hc Ht]. pose proof (zlen_nonneg t).
  destruct (Z.eqb_spec c 0), (Z.gtb_spec c 0); try lia.
  - apply IH; auto; lia.
  - cbn [map snd]. rewrite (IH (i + 1)) by (auto; lia). rewrite wrap_id by lia. reflexivity.
Qed.
Lemma jleaves_shape counts : forall i idx e, In e (jleaves i idx counts) -> exists f s, snd e = Leaf f s /\ ekey e = f.
Proof.
  induction counts as [|c t IH]; intros i idx e H; cbn [jleaves] in H; [destruct H|].
  destruct (c =? 0); [eauto|]. destruct H as [<-|H]; [|eauto]. exists c, i. auto.
Qed.
Lemma ld_deepest M t : forall d, (forall p, In p (ld t d) -> snd p <= M) -> d + Z.of_nat (depth t) <= M.
Proof.
  induction t as [f s|f l IHl r IHr]; intros d Hd; cbn [ld depth] in *.
  - specialize (Hd (s, d) ltac:(left; auto)). cbn in Hd. lia.
  - specialize (IHl (d + 1) ltac:(intros; apply Hd; apply in_or_app; auto)).
    specialize (IHr (d + 1) ltac:(intros; apply Hd; apply in_or_app; auto)). lia.
Qed.
Lemma widths_perm M a b : Permutation a b -> widths M a = widths M b.
Proof. unfold widths. induction 1; cbn [fold_right] in *; lia. Qed.

(** the lengths: at most 16, at most half of the code space, exactly the
    counted symbols *)
Definition lens_for (counts lens : list Z) : Prop :=
  length lens = length counts /\ lens_ok 16 lens /\ kraft 16 lens = 2 ^ 15 /\ (forall s, 0 < ln lens s <-> 0 < ln counts s).

Lemma tree_lengths counts ps : Forall (fun c => 0 <= c) counts -> zlen counts <= 2 ^ 16 ->
  Permutation (map fst ps) (map fst (non_zero 0 counts)) -> Forall (fun p => 1 <= snd p <= 16) ps ->
  let lens := fold_left set_len ps (repeat 0 (length counts)) in
  length lens = length counts /\ lens_ok 16 lens /\ kraft 16 lens = widths 16 ps /\ (forall s, 0 < ln lens s <-> 0 < ln counts s).
Proof.
  intros HP HN P HR lens.
  assert (0 + zlen counts <= 2 ^ 16) as HN16 by lia.
  assert (zlen (repeat 0 (length counts)) = zlen counts) as ZR by (unfold zlen; rewrite repeat_length; auto).
  assert (NoDup (map fst ps)) as ND by (eapply Permutation_NoDup; [symmetry; exact P|]; apply non_zero_nodup; [lia|exact HN16]).
  assert (forall s, In s (map fst ps) <-> 0 <= s < zlen counts /\ 0 < ln counts (Z.to_nat s)) as HI.
  { intros s. split.
    - intros Hs. apply (Permutation_in _ P) in Hs. apply in_map_iff in Hs as ([s' f] & <- & Hs).
      apply non_zero_in in Hs; [|lia|exact HN16]. cbn [fst]. unfold ln. rewrite Z.sub_0_r in Hs. destruct Hs as (A & -> & B). lia.
    - intros [A B]. apply (Permutation_in _ (Permutation_sym P)). apply in_map_iff. exists (s, ln counts (Z.to_nat s)). split; [reflexivity|].
      apply non_zero_in; [lia|exact HN16|]. rewrite Z.sub_0_r. unfold ln in *. lia. }
  assert (Forall (fun p => 0 <= fst p < zlen (repeat 0 (length counts)) /\ 1 <= snd p) ps) as HF.
  { apply Forall_forall. intros p Hp. rewrite Forall_forall in HR. specialize (HR p Hp). split; [|lia].
    rewrite ZR. apply (HI (fst p)). apply in_map. exact Hp. }
  assert (forall p, In p ps -> ln (repeat 0 (length counts)) (Z.to_nat (fst p)) = 0) as HZ.
  { intros p _. unfold ln. apply nth_repeat0. }
  assert (length lens = length counts) as LL by (unfold lens; rewrite fold_set_length, repeat_length; auto).
  destruct (set_all 16 ps (repeat 0 (length counts)) ND HF HZ) as (S1 & S2 & S3). fold lens in S1, S2, S3.
  assert (forall s, (exists p, In p ps /\ Z.to_nat (fst p) = s /\ ln lens s = snd p /\ 0 < ln counts s) \/ (ln lens s = 0 /\ ~ 0 < ln counts s)) as Cases.
  { intros s. destruct (in_dec Z.eq_dec (Z.of_nat s) (map fst ps)) as [Hin|Hout].
    - left. pose proof (proj1 (HI _) Hin) as [_ Hc]. rewrite Nat2Z.id in Hc.
      apply in_map_iff in Hin as (p & Ep & Hp). exists p. split; [exact Hp|]. pose proof (S2 p Hp) as E2. rewrite Ep, Nat2Z.id in E2.
      split; [rewrite Ep; apply Nat2Z.id|]. auto.
    - right. rewrite S3.
      + split; [apply nth_repeat0|]. intros Hc. apply Hout, HI. rewrite Nat2Z.id. split; [|exact Hc].
        unfold ln in Hc. destruct (Nat.le_gt_cases (length counts) s); [rewrite nth_overflow in Hc by auto; lia|unfold zlen; lia].
      + intros p Hp Eq. apply Hout. apply in_map_iff. exists p. split; [|exact Hp].
        rewrite Forall_forall in HF. destruct (HF p Hp). lia. }
  split; [exact LL|]. split.
  { apply Forall_forall. intros l Hl. apply (In_nth _ _ 0) in Hl as (s & Hs & <-). fold (ln lens s).
    destruct (Cases s) as [(p & Hp & _ & -> & _)|[-> _]]; [|lia]. rewrite Forall_forall in HR. specialize (HR p Hp). lia. }
  split; [rewrite S1, kraft_zeros; lia|]. intros s.
  destruct (Cases s) as [(p & Hp & _ & -> & Hc)|[-> Hc]]; [|split; [lia|tauto]].
  rewrite Forall_forall in HR. specialize (HR p Hp). split; [auto|lia].
Qed.

Lemma build_code_lengths_ok counts : Forall (fun c => 0 <= c) counts -> lsum counts < U64 -> zlen counts <= 2 ^ 16 ->
  exists x, build_code_lengths counts = Ok x /\
    match x with
    | None => True
    | Some lens => lens_for counts lens
    end.
Proof.
  intros HP HS HN. assert (0 + zlen counts <= 2 ^ 16) as HN16 by lia.
  pose proof (jleaves_nz counts 0 0 HP ltac:(lia) HN16) as EL.
  unfold build_code_lengths. set (h := jleaves 0 0 counts) in *.
  assert (h = [] \/ (exists f i s, h = [(f, i, Leaf f s)]) \/ (2 <= length h)%nat) as [Eh|[(f & i & s & Eh)|H2]].
  { destruct h as [|[[f i] t] [|e2 h']] eqn:E; [auto| |right; right; cbn; lia].
    right. left. destruct (jleaves_shape counts 0 0 (f, i, t)) as (f' & s & E1 & E2); [fold h; rewrite E; left; reflexivity|].
    cbn in E1, E2. subst. eauto. }
  - rewrite Eh. exists None. auto.
  - rewrite Eh. exists (Some (upd (repeat 0 (length counts)) (Z.to_nat s) 1)). split; [reflexivity|].
    rewrite Eh in EL. cbn [map snd] in EL.
    assert (non_zero 0 counts = [(s, f)]) as EN.
    { destruct (non_zero 0 counts) as [|[s0 f0] [|q nz]]; cbn [map] in EL; try discriminate. congruence. }
    destruct (tree_lengths counts [(s, 1)] HP HN) as (T1 & T2 & T3 & T4).
    { rewrite EN. reflexivity. } { constructor; [cbn; lia|constructor]. }
    change (fold_left set_len [(s, 1)] (repeat 0 (length counts))) with (upd (repeat 0 (length counts)) (Z.to_nat s) 1) in *.
    split; [exact T1|]. split; [exact T2|]. split; [rewrite T3; reflexivity|exact T4].
  - assert (Forall (einv 0) h) as HE.
    { apply Forall_forall. intros e He. destruct (jleaves_shape counts 0 0 e He) as (f & s & E1 & E2).
      assert (In (snd e) (map snd h)) as Hm by (apply in_map; exact He). rewrite EL, E1 in Hm.
      apply in_map_iff in Hm as ([s' f'] & E3 & Hin). injection E3 as -> ->.
      apply non_zero_in in Hin; [|lia|exact HN16]. split; [rewrite E1; exact E2|]. rewrite E1. split; [cbn; lia|split; cbn; [lia|auto]]. }
    destruct (jmerge_ok (length h) (zlen h) h 0 HE ltac:(lia)) as (root & E & G & W & P).
    { unfold esum. rewrite EL, wsum_of, non_zero_sum by auto. exact HS. }
    rewrite EL, leaves_of in P. pose proof (good_depth64 root G W) as HD.
    assert (exists x, (let* root := jmerge (length h) (zlen h) h in jextract root 0 (repeat 0 (length counts))) = Ok x /\
      match x with None => True | Some lens => lens_for counts lens end) as K.
    { rewrite E. cbn [rbind]. rewrite jextract_ok; [|lia|lia|].
      2:{ apply Forall_forall. intros s Hs. apply (Permutation_in _ (Permutation_map fst P)) in Hs. apply in_map_iff in Hs as ([s' f'] & <- & Hin).
          apply non_zero_in in Hin; [|lia|exact HN16]. cbn [fst]. unfold zlen in *. rewrite repeat_length. lia. }
      eexists. split; [reflexivity|]. destruct (forallb (fun p => snd p <=? 16) (jld root 0)) eqn:EF; [|exact I].
      rewrite forallb_forall in EF. pose proof (jld_perm root 0) as PJ. change (0 + 1) with 1 in PJ.
      assert (Forall (fun p => 1 <= snd p <= 16) (jld root 0)) as HR.
      { apply Forall_forall. intros p Hp. specialize (EF p Hp). apply (Permutation_in _ PJ) in Hp. apply ld_range in Hp. lia. }
      destruct (tree_lengths counts (jld root 0) HP HN) as (T1 & T2 & T3 & T4).
      { rewrite (Permutation_map fst PJ), ld_syms, (Permutation_map fst P). reflexivity. } { exact HR. }
      split; [exact T1|]. split; [exact T2|]. split; [|exact T4]. rewrite T3, (widths_perm 16 _ _ PJ).
      rewrite widths_tree; [reflexivity|]. apply ld_deepest. intros p Hp. apply (Permutation_in _ (Permutation_sym PJ)) in Hp.
      specialize (EF p Hp). lia. }
    destruct h as [|[[f1 i1] [g1 s1|g1 a1 b1]] [|e2 h']] eqn:Ehh; try exact K; cbn in H2; lia.
Qed.

(** ** counts per length *)
Lemma sizes_bump len bits l : Forall (fun c => 0 <= c) bits -> 0 <= l < zlen bits ->
  Permutation (sizes_from len (upd bits (Z.to_nat l) (znth bits l + 1))) (len + l :: sizes_from len bits).
Proof.
  intros H. revert len l. induction H as [|c r Hc Hr IH]; intros len l Hl; [rewrite zlen_nil in Hl; lia|]. rewrite zlen_cons in Hl.
  destruct (Z.eq_dec l 0) as [->|N].
  - change (Z.to_nat 0) with 0%nat. change (znth (c :: r) 0) with c. cbn [upd sizes_from]. rewrite Z.add_0_r.
    replace (Z.to_nat (c + 1)) with (S (Z.to_nat c)) by lia. reflexivity.
  - replace (Z.to_nat l) with (S (Z.to_nat (l - 1))) by lia. cbn [upd sizes_from].
    assert (znth (c :: r) l = znth r (l - 1)) as ->.
    { unfold znth. replace (Z.to_nat l) with (S (Z.to_nat (l - 1))) by lia. reflexivity. }
    rewrite (IH (len + 1) (l - 1)) by lia. replace (len + 1 + (l - 1)) with (len + l) by lia. symmetry. apply Permutation_middle.
Qed.
Lemma count_bits_ok lens : forall bits, lens_ok 16 lens -> length bits = 16%nat -> Forall (fun c => 0 <= c) bits ->
  (forall l, 0 <= znth bits l + zlen (filter (fun x => x >? 0) lens) <= 255) ->
  exists bits', count_bits lens bits = Ok (Some bits') /\ length bits' = 16%nat /\ Forall (fun c => 0 <= c <= 255) bits' /\
    Permutation (huff_sizes bits') (filter (fun x => x >? 0) lens ++ huff_sizes bits).
Proof.
  induction lens as [|l t IH]; intros bits HL H16 HN HB; cbn [count_bits filter] in *.
  - exists bits. split; [reflexivity|]. split; [exact H16|]. split; [|reflexivity]. apply Forall_forall. intros c Hc.
    rewrite Forall_forall in HN. specialize (HN c Hc). apply (In_nth _ _ 0) in Hc as (i & Hi & <-).
    specialize (HB (Z.of_nat i)). unfold znth in HB. rewrite Nat2Z.id, zlen_nil in HB. lia.
  - apply Forall_cons_iff in HL as [Hl Ht]. destruct (Z.eqb_spec l 0) as [->|N].
    + change (0 >? 0) with false in *. cbn iota in *. apply IH; auto.
    + destruct (Z.gtb_spec l 0); [|lia]. destruct (Z.gtb_spec l 16); [lia|].
      rewrite (get_ok bits (l - 1) 0) by (unfold zlen; lia). cbn [rbind]. fold (znth bits (l - 1)).
      pose proof (zlen_nonneg (filter (fun x => x >? 0) t)). pose proof (HB (l - 1)) as HBl. rewrite zlen_cons in HBl.
      destruct (Z.ltb_spec (znth bits (l - 1) + 1) 256); [|lia].
      assert (0 <= znth bits (l - 1)) as Hnn by (unfold znth; apply (Forall_nth_d (fun c => 0 <= c)); auto; lia).
      destruct (IH (upd bits (Z.to_nat (l - 1)) (znth bits (l - 1) + 1))) as (b' & E & L' & R' & P'); auto.
      * rewrite upd_length. exact H16.
      * apply Forall_upd; auto. lia.
      * intros j. specialize (HB j). rewrite zlen_cons in HB. assert (znth (upd bits (Z.to_nat (l - 1)) (znth bits (l - 1) + 1)) j = if Nat.eqb (Z.to_nat j) (Z.to_nat (l - 1)) then znth bits (l - 1) + 1 else znth bits j) as ->.
        { unfold znth at 1. rewrite nth_upd by lia. reflexivity. }
        destruct (Nat.eqb_spec (Z.to_nat j) (Z.to_nat (l - 1))); [lia|]. split; [|lia].
        assert (0 <= znth bits j) by (unfold znth; apply (Forall_nth_d (fun c => 0 <= c)); auto; lia). lia.
      * exists b'. split; [exact E|]. split; [exact L'|]. split; [exact R'|]. rewrite P'. unfold huff_sizes.
        rewrite (sizes_bump 1 bits (l - 1)) by (auto; unfold zlen; lia). replace (1 + (l - 1)) with l by lia.
        cbn [app]. symmetry. apply Permutation_middle.
Qed.

(** ** sorted symbols *)
Lemma insert_perm lens s l : Permutation (insert_sym lens s l) (s :: l).
Proof.
  induction l as [|x t IH]; cbn [insert_sym]; [reflexivity|].
  destruct (_ || _); [|reflexivity]. rewrite IH. apply perm_swap.
Qed.
Lemma sort_perm lens l : Permutation (sort_syms lens l) l.
Proof.
  unfold sort_syms. induction l as [|x t IH]; cbn [fold_right]; [reflexivity|]. rewrite insert_perm, IH. reflexivity.
Qed.
Lemma insert_sorted lens s l : StronglySorted (fun a b => znth lens a <= znth lens b) l ->
  StronglySorted (fun a b => znth lens a <= znth lens b) (insert_sym lens s l).
Proof.
  induction 1 as [|x t Ht IH Hx]; cbn [insert_sym]; [repeat constructor|].
  destruct ((znth lens x <? znth lens s) || ((znth lens x =? znth lens s) && (x <? s))) eqn:E.
  - constructor; [exact IH|]. apply Forall_forall. intros y Hy. apply (Permutation_in _ (insert_perm lens s t)) in Hy.
    destruct Hy as [<-|Hy]; [lia|]. rewrite Forall_forall in Hx. auto.
  - constructor; [constructor; auto|]. constructor; [lia|]. eapply Forall_impl; [|exact Hx]. intros y Hy. cbv beta in Hy. lia.
Qed.
Lemma sort_sorted lens l : StronglySorted (fun a b => znth lens a <= znth lens b) (sort_syms lens l).
Proof. unfold sort_syms. induction l as [|x t IH]; cbn [fold_right]; [constructor|]. apply insert_sorted, IH. Qed.
Lemma sorted_map lens l : StronglySorted (fun a b => znth lens a <= znth lens b) l -> StronglySorted Z.le (map (znth lens) l).
Proof. induction 1 as [|x t Ht IH Hx]; cbn [map]; constructor; auto. apply Forall_map. exact Hx. Qed.
Lemma sizes_sorted len bits : StronglySorted Z.le (sizes_from len bits) /\ Forall (fun s => len <= s) (sizes_from len bits).
Proof.
  revert len. induction bits as [|c r IH]; intros len; cbn [sizes_from]; [split; constructor|].
  destruct (IH (len + 1)) as [I1 I2].
  assert (Forall (fun s => len <= s) (sizes_from (len + 1) r)) as I3 by (eapply Forall_impl; [|exact I2]; intros s Hs; cbv beta in Hs; lia).
  induction (Z.to_nat c) as [|k IHk]; cbn [repeat app]; [split; auto|]. destruct IHk as [K1 K2]. split.
  - constructor; auto.
  - constructor; [lia|auto].
Qed.
Lemma sorted_perm_eq a : forall b, StronglySorted Z.le a -> StronglySorted Z.le b -> Permutation a b -> a = b.
Proof.
  induction a as [|x t IH]; intros b Ha Hb P; [apply Permutation_nil in P; auto|].
  destruct b as [|y u]; [symmetry in P; apply Permutation_nil in P; discriminate|].
  inversion Ha as [|? ? A1 A2]; subst. inversion Hb as [|? ? B1 B2]; subst. rewrite Forall_forall in A2, B2.
  assert (x = y) as <-.
  { assert (In y (x :: t)) as Hy by (apply (Permutation_in _ (Permutation_sym P)); left; auto).
    assert (In x (y :: u)) as Hx by (apply (Permutation_in _ P); left; auto).
    destruct Hy as [|Hy]; auto. destruct Hx as [|Hx]; auto. specialize (A2 y Hy). specialize (B2 x Hx). lia. }
  f_equal. apply IH; auto. eapply Permutation_cons_inv; exact P.
Qed.
Lemma filter_syms lens : map (znth lens) (filter (fun i => znth lens i >? 0) (idxs (length lens))) = filter (fun x => x >? 0) lens.
Proof.
  unfold idxs.
  assert (forall p s, lens = p ++ s -> map (znth lens) (filter (fun i => znth lens i >? 0) (map Z.of_nat (seq (length p) (length s)))) = filter (fun x => x >? 0) s) as K.
  { intros p s. revert p. induction s as [|x t IH]; intros p E; [reflexivity|]. cbn [length seq map filter].
    assert (znth lens (Z.of_nat (length p)) = x) as Ex by (unfold znth; rewrite Nat2Z.id, E; apply nth_middle).
    rewrite Ex. specialize (IH (p ++ [x]) ltac:(rewrite <- app_assoc; exact E)). rewrite app_length in IH. cbn [length] in IH.
    replace (length p + 1)%nat with (S (length p)) in IH by lia.
    destruct (x >? 0); cbn [map]; [rewrite Ex; f_equal|]; exact IH. }
  exact (K [] lens eq_refl).
Qed.
Lemma kraft_perm M a b : Permutation a b -> kraft M a = kraft M b.
Proof. induction 1; rewrite ?kraft_cons in *; lia. Qed.
Lemma kraft_filter M l : kraft M (filter (fun x => x >? 0) l) = kraft M l.
Proof.
  induction l as [|x t IH]; [reflexivity|]. cbn [filter]. rewrite kraft_cons. unfold kc.
  destruct (Z.gtb_spec x 0), (Z.ltb_spec 0 x); try lia; rewrite ?kraft_cons, IH; unfold kc; destruct (Z.ltb_spec 0 x); lia.
Qed.
Lemma in_idxs i n : In i (idxs n) <-> 0 <= i < Z.of_nat n.
Proof.
  unfold idxs. rewrite in_map_iff. split.
  - intros (k & <- & Hk). apply in_seq in Hk. lia.
  - intros H. exists (Z.to_nat i). split; [lia|]. apply in_seq. lia.
Qed.
Lemma idxs_nodup n : NoDup (idxs n).
Proof. unfold idxs. apply FinFun.Injective_map_NoDup; [intros a b; lia|apply seq_NoDup]. Qed.

(** number of symbols that occur *)
Definition nsyms (counts : list Z) : Z := zlen (filter (fun c => c >? 0) counts).
Lemma support_filter (a b : list Z) : length a = length b -> (forall s, 0 < ln a s <-> 0 < ln b s) ->
  zlen (filter (fun c => c >? 0) a) = zlen (filter (fun c => c >? 0) b).
Proof.
  revert b. induction a as [|x a IH]; intros [|y b] HL H; cbn in HL; try lia.
  cbn [filter]. pose proof (H 0%nat) as H0. unfold ln in H0. cbn [nth] in H0.
  assert (zlen (filter (fun c => c >? 0) a) = zlen (filter (fun c => c >? 0) b)) as E.
  { apply IH; [lia|]. intros s. apply (H (S s)). }
  destruct (Z.gtb_spec x 0), (Z.gtb_spec y 0); rewrite ?zlen_cons; lia.
Qed.

Theorem build_bits_vals_ok counts : Forall (fun c => 0 <= c) counts -> lsum counts < U64 -> zlen counts <= 256 -> nsyms counts <= 255 ->
  exists x, build_bits_vals counts = Ok x /\
    match x with
    | None => True
    | Some (bits, vals) => tab_ok bits vals /\ Forall (fun v => 0 <= v < zlen counts) vals /\
        forall s, In s vals <-> 0 <= s < zlen counts /\ 0 < znth counts s
    end.
Proof.
  intros HP HS HN H255. destruct (build_code_lengths_ok counts HP HS ltac:(lia)) as (x & E & HX).
  unfold build_bits_vals. rewrite E. cbn [rbind]. destruct x as [lens|]; [|eexists; split; [reflexivity|exact I]].
  destruct HX as (L1 & L2 & L3 & L4).
  assert (zlen (filter (fun x => x >? 0) lens) = nsyms counts) as EN by (apply support_filter; auto).
  pose proof (zlen_nonneg (filter (fun x => x >? 0) lens)) as Nn.
  destruct (count_bits_ok lens (repeat 0 16) L2 (repeat_length _ _)) as (bits & EB & B1 & B2 & B3).
  { apply Forall_forall. intros c Hc. apply repeat_spec in Hc. lia. }
  { intros l. rewrite znth_repeat0. lia. }
  rewrite EB. cbn [rbind]. eexists. split; [reflexivity|].
  change (huff_sizes (repeat 0 16)) with (@nil Z) in B3. rewrite app_nil_r in B3.
  set (syms := filter (fun i => znth lens i >? 0) (idxs (length lens))).
  set (vals := sort_syms lens syms). pose proof (sort_perm lens syms) as PS. fold vals in PS.
  assert (huff_sizes bits = map (znth lens) vals) as ES.
  { apply sorted_perm_eq.
    - apply sizes_sorted.
    - apply sorted_map, sort_sorted.
    - rewrite B3, PS. unfold syms. rewrite filter_syms. reflexivity. }
  assert (forall s, In s vals <-> 0 <= s < zlen counts /\ 0 < znth counts s) as HIN.
  { intros s. transitivity (In s syms); [split; [apply (Permutation_in s PS)|apply (Permutation_in s (Permutation_sym PS))]|].
    unfold syms. rewrite filter_In, in_idxs, L1. unfold zlen. specialize (L4 (Z.to_nat s)). unfold ln in L4. unfold znth.
    split; intros [A B]; (split; [lia|]); apply Z.gtb_lt in B || idtac; lia. }
  assert (Forall (fun v => 0 <= v < zlen counts) vals) as HR by (apply Forall_forall; intros v Hv; apply HIN in Hv; lia).
  split; [|split; auto]. split; [exact B1|]. split; [exact B2|]. split; [rewrite ES, map_length; reflexivity|].
  split; [eapply Forall_impl; [|exact HR]; intros v Hv; cbv beta in Hv; unfold is_byte; lia|].
  split; [eapply Permutation_NoDup; [symmetry; exact PS|]; apply NoDup_filter, idxs_nodup|].
  rewrite (kraft_perm 16 _ _ B3), kraft_filter, L3. reflexivity.
Qed.
