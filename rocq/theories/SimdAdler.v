(** Proofs about the vector Adler-32 routines. *)
From Verif Require Import Base ChecksumModel ChecksumSpec ChecksumProofs SimdModel SimdProofs.

Lemma u32_id x : 0 <= x < 2 ^ 32 -> u32 x = x. Proof. apply wrap_id. Qed.
Lemma u32_add_l a b : u32 (u32 a + b) = u32 (a + b).
Proof. unfold u32, wrap. apply Zplus_mod_idemp_l. Qed.
Lemma u32_add_r a b : u32 (a + u32 b) = u32 (a + b).
Proof. unfold u32, wrap. apply Zplus_mod_idemp_r. Qed.

Lemma u32_mid a b w : u32 (u32 (a + u32 b) + w) = u32 (a + b + w).
Proof. rewrite u32_add_l. replace (a + u32 b + w) with (a + w + u32 b) by lia. rewrite u32_add_r. f_equal. lia. Qed.
Lemma hadd2 v k : let t := vhadd32 v v in (k = 0 \/ k = 4)%nat -> (forall i, (i < 8)%nat -> 0 <= v i <= 2 ^ 24) ->
  signed 32 (vhadd32 t t k) = v k + v (k + 1)%nat + v (k + 2)%nat + v (k + 3)%nat.
Proof.
  intros t Hk Hv. assert (t k = v k + v (k + 1)%nat /\ t (k + 1)%nat = v (k + 2)%nat + v (k + 3)%nat) as [E1 E2].
  { change (2 ^ 24) with 16777216 in Hv. split; destruct Hk as [-> | ->]; cbv [t vhadd32 Nat.div Nat.divmod fst snd Nat.modulo Nat.sub Nat.mul Nat.add Nat.ltb Nat.leb];
    rewrite wrap_id; try reflexivity; change (2 ^ 32) with 4294967296;
    match goal with |- 0 <= v ?a + v ?b < _ => pose proof (Hv a ltac:(lia)); pose proof (Hv b ltac:(lia)) end; lia. }
  assert (vhadd32 t t k = wrap 32 (t k + t (k + 1)%nat)) as -> by (destruct Hk as [-> | ->]; reflexivity). rewrite E1, E2.
  pose proof (Hv k ltac:(lia)). pose proof (Hv (k + 1)%nat ltac:(lia)). pose proof (Hv (k + 2)%nat ltac:(lia)). pose proof (Hv (k + 3)%nat ltac:(lia)). change (2 ^ 24) with 16777216 in *.
  rewrite wrap_id by (change (2 ^ 32) with 4294967296; lia). rewrite signed_small by (change (2 ^ (32 - 1)) with 2147483648; lia). lia.
Qed.
Lemma prod_bound x y : 0 <= x < 256 -> 0 <= y <= 32 -> 0 <= x * y <= 8160.
Proof. intros; nia. Qed.
Lemma sad_lane c i : bytes c -> vsad8 (of_list c) (vset1 0) i = vsum (fun j => nth (8 * i + j) c 0) 8.
Proof.
  intros H. unfold vsad8. apply vsum_ext. intros j _. unfold vset1, of_list. rewrite Z.sub_0_r. apply Z.abs_eq.
  assert (is_byte (nth (8 * i + j) c 0)) by (apply (Forall_nth_d is_byte); auto; unfold is_byte; lia). unfold is_byte in *. lia.
Qed.
Lemma weigh_lane n c i : bytes c -> 0 <= n <= 32 -> (16 * (2 * i / 8) + 9 + (2 * i) mod 8 < Z.to_nat n)%nat ->
  let j := (16 * (2 * i / 8) + (2 * i) mod 8)%nat in
  weigh_x86 n (of_list c) i = nth j c 0 * (n - Z.of_nat j) + nth (j + 1) c 0 * (n - Z.of_nat j - 1)
    + nth (j + 8) c 0 * (n - Z.of_nat j - 8) + nth (j + 9) c 0 * (n - Z.of_nat j - 9).
Proof.
  intros Hc Hn Hj j. unfold weigh_x86, vadd, vmadd16. fold (ext8 vunpacklo8 (of_list c)) (ext8 vunpacklo8 (weights n)) (ext8 vunpackhi8 (of_list c)) (ext8 vunpackhi8 (weights n)).
  unfold vunpacklo8, vunpackhi8. rewrite !unpack_ext by auto.
  assert ((2 * i + 1) / 8 = 2 * i / 8 /\ (2 * i + 1) mod 8 = (2 * i) mod 8 + 1)%nat as [-> ->].
  { pose proof (Nat.div_mod (2 * i) 8 ltac:(lia)) as E. pose proof (Nat.mod_upper_bound (2 * i) 8 ltac:(lia)) as B.
    assert ((2 * i) mod 8 <> 7)%nat. { intros F. rewrite F in E. set (z := (2 * i / 8)%nat) in E. lia. }
    split; [symmetry; apply (Nat.div_unique _ 8 _ ((2 * i) mod 8 + 1)); lia|symmetry; apply (Nat.mod_unique _ 8 (2 * i / 8)); lia]. }
  rewrite !Nat.add_0_r. rewrite <- (Nat.add_assoc (16 * (2 * i / 8)) 8), (Nat.add_comm 8 ((2 * i) mod 8)).
  rewrite <- (Nat.add_assoc (16 * (2 * i / 8)) 8 (_ + 1)), (Nat.add_comm 8 ((2 * i) mod 8 + 1)). rewrite !Nat.add_assoc. fold j. rewrite <- (Nat.add_assoc j 1 8). change (1 + 8)%nat with 9%nat.
  assert (J : (j + 9 < Z.to_nat n)%nat) by (unfold j; lia). clearbody j.
  unfold of_list, weights.
  assert (B : forall k, 0 <= nth k c 0 < 256). { intros k. assert (is_byte (nth k c 0)) by (apply (Forall_nth_d is_byte); auto; unfold is_byte; lia). assumption. }
  pose proof (B j). pose proof (B (j + 1)%nat). pose proof (B (j + 8)%nat). pose proof (B (j + 9)%nat).
  clear Hj Hc. assert (0 <= Z.of_nat j /\ Z.of_nat j + 9 < n) as [J1 J2] by lia. rewrite !(Nat2Z.inj_add j). change (Z.of_nat 1) with 1. change (Z.of_nat 8) with 8. change (Z.of_nat 9) with 9. clear B J.
  assert (SS : forall x, 0 <= x < 32768 -> signed 16 x = x) by (intros; apply signed_small; [lia|exact H3]).
  rewrite !SS by lia. clear SS.
  assert (PB : forall x y, 0 <= x < 256 -> 0 <= y <= 32 -> 0 <= x * y <= 8160) by (intros; nia).
  pose proof (PB (nth j c 0) (n - Z.of_nat j) H ltac:(lia)). pose proof (PB (nth (j + 1) c 0) (n - (Z.of_nat j + 1)) H0 ltac:(lia)).
  pose proof (PB (nth (j + 8) c 0) (n - (Z.of_nat j + 8)) H1 ltac:(lia)). pose proof (PB (nth (j + 9) c 0) (n - (Z.of_nat j + 9)) H2 ltac:(lia)).
  assert (W : forall x, 0 <= x < 4294967296 -> wrap 32 x = x) by (intros x Hx; apply wrap_id; exact Hx).
  rewrite (W (_ * _ + nth (j + 1) c 0 * _)), (W (_ * _ + nth (j + 9) c 0 * _)), W by lia. ring.
Qed.

(** what a piece of the input does to the sums, modulo 2^32 *)
Definition step (s : Z * Z * Z) (c : list Z) : Z * Z * Z :=
  let '(s1, s2, p) := s in adler_reduce (u32 (fst (run_sums c s1 s2)), u32 (snd (run_sums c s1 s2)), p + zlen c).
Lemma chunk_avx2 s c : length c = 32%nat -> bytes c -> adler_chunk_avx2 s c = step s c.
Proof.
  intros L B. destruct s as [[s1 s2] p]. unfold adler_chunk_avx2, step. cbv zeta.
  assert (zlen c = 32) as ZL by (unfold zlen; lia). rewrite ZL. f_equal. f_equal. 
  assert (K : forall i, 0 <= nth i c 0 < 256). { intros i. assert (is_byte (nth i c 0)) by (apply (Forall_nth_d is_byte); auto; unfold is_byte; lia). assumption. }
  rewrite run_sums_lin. cbn [fst snd]. rewrite ZL. f_equal.
  - rewrite !sad_lane by auto. rewrite u32_add_r. f_equal. f_equal. clear - L. do 32 (destruct c as [|? c]; [discriminate|]). destruct c; [|discriminate].
    unfold vsum, sumZ. cbn [seq map fold_right Nat.mul Nat.add nth]. lia.
  - rewrite u32_mid, u32_add_r.
    assert (LN : forall i, (i < 8)%nat -> (16 * (2 * i / 8) + 9 + (2 * i) mod 8 < Z.to_nat 32)%nat).
    { intros i Hi. do 8 (destruct i as [|i]; [cbv; lia|]). lia. }
    assert (WB : forall i, (i < 8)%nat -> 0 <= weigh_x86 32 (of_list c) i <= 2 ^ 24).
    { intros i Hi. rewrite weigh_lane by (auto; lia). pose proof (LN i Hi) as Q. change (Z.to_nat 32) with 32%nat in Q. change (2 ^ 24) with 16777216.
      set (j := (16 * (2 * i / 8) + (2 * i) mod 8)%nat). assert (j + 9 < 32)%nat by (unfold j; lia). clearbody j. clear - K H.
      pose proof (prod_bound _ (32 - Z.of_nat j) (K j) ltac:(lia)). pose proof (prod_bound _ (32 - Z.of_nat j - 1) (K (j + 1)%nat) ltac:(lia)).
      pose proof (prod_bound _ (32 - Z.of_nat j - 8) (K (j + 8)%nat) ltac:(lia)). pose proof (prod_bound _ (32 - Z.of_nat j - 9) (K (j + 9)%nat) ltac:(lia)). lia. }
    rewrite !hadd2 by auto. replace (32 * s1) with (s1 * 32) by ring. f_equal. f_equal. cbn [Nat.add].
    rewrite !weigh_lane by (try apply LN; auto; lia). clear - L. do 32 (destruct c as [|? c]; [discriminate|]). destruct c; [|discriminate].
    cbv [Nat.div Nat.divmod fst snd Nat.modulo Nat.sub Nat.mul Nat.add nth Z.of_nat Pos.of_succ_nat Pos.succ].
    cbn [run_sums snd]. ring.
Qed.
Lemma byte_avx2 s b : adler_byte_avx2 s b = step s [b].
Proof.
  destruct s as [[s1 s2] p]. unfold adler_byte_avx2, step. cbn [run_sums fst snd]. change (zlen [b]) with 1. rewrite u32_add_r. reflexivity.
Qed.

(** ** AVX2 *)
Definition tri (n : Z) : Z := n * (n + 1) / 2.
Lemma tri_mono a b : 0 <= a <= b -> tri a <= tri b.
Proof. intros. apply Z.div_le_mono; [lia|]. nia. Qed.
Lemma run_sums_bound_m m l : Forall (fun b => 0 <= b <= m) l -> 0 <= sumZ l <= m * zlen l /\ 0 <= snd (run_sums l 0 0) <= m * tri (zlen l).
Proof.
  unfold tri. induction l as [|x l IH] using rev_ind; intros Hl; [change (zlen []) with 0; change (sumZ []) with 0; change (0 * (0 + 1) / 2) with 0; cbn [run_sums snd]; lia|].
  apply Forall_app in Hl as [Hl Hx]. inversion Hx; subst. specialize (IH Hl). destruct IH as [I1 I2].
  rewrite run_sums_app, run_sums_lin. cbn [run_sums snd]. rewrite sumZ_app, zlen_app. change (zlen [x]) with 1. change (sumZ [x]) with (x + 0).
  assert ((zlen l + 1) * (zlen l + 1 + 1) / 2 = zlen l * (zlen l + 1) / 2 + (zlen l + 1)) as ->.
  { replace ((zlen l + 1) * (zlen l + 1 + 1)) with (zlen l * (zlen l + 1) + (zlen l + 1) * 2) by ring.
    rewrite Z.div_add by lia. reflexivity. }
  pose proof (zlen_nonneg l). split; [lia|]. rewrite Z.mul_0_r. rewrite !Z.add_0_l. lia.
Qed.
Lemma run_fst l a b : fst (run_sums l a b) = a + sumZ l. Proof. rewrite run_sums_lin. reflexivity. Qed.
Lemma run_snd l a b : snd (run_sums l a b) = b + zlen l * a + snd (run_sums l 0 0). Proof. rewrite run_sums_lin. reflexivity. Qed.
Lemma run_app_pair q c a b : run_sums (q ++ c) a b = run_sums c (fst (run_sums q a b)) (snd (run_sums q a b)).
Proof. rewrite run_sums_app. destruct (run_sums q a b). reflexivity. Qed.

(** bytes seen so far are [pre ++ q]; [q] came since the last reduction *)
Definition adv (good : Prop) (done : list Z) (s : Z * Z * Z) (pre q : list Z) (t1 t2 : Z) : Prop :=
  let '(s1, s2, p) := s in
  done = pre ++ q /\ 0 <= t1 < 65521 /\ mod_rel t1 (fst (run_sums pre 1 0)) /\
  (pre = [] -> t1 = 1 /\ t2 = 0) /\
  s1 = fst (run_sums q t1 t2) /\ p = zlen q /\ p < 5552 /\
  (good -> 0 <= t2 < 65521 /\ mod_rel t2 (snd (run_sums pre 1 0)) /\ s2 = snd (run_sums q t1 t2)).

Definition fits (m : Z) (pre : list Z) (n : Z) : Prop := n <= 5552 \/ (n <= 5568 /\ (m <= 253 \/ pre = [])).

Lemma step_adv (good : Prop) m done s pre q t1 t2 c : 0 <= m <= 255 ->
  adv good done s pre q t1 t2 -> Forall (fun b => 0 <= b <= m) q -> Forall (fun b => 0 <= b <= m) c ->
  zlen q + zlen c <= 5568 -> (zlen q + zlen c = 5568 \/ zlen q + zlen c <= 5552) ->
  (good -> fits m pre (zlen q + zlen c)) ->
  exists pre' q' t1' t2', adv good (done ++ c) (step s c) pre' q' t1' t2' /\
    ((pre' = pre /\ q' = q ++ c) \/ (pre' = pre ++ q ++ c /\ q' = [] /\ 5552 <= zlen q + zlen c)).
Proof.
  intros Hm A Fq Fc L5568 Lx Hfit. destruct s as [[s1 s2] p]. destruct A as (D & T1 & M1 & PT & S1 & P & Pl & G). unfold step.
  pose proof (zlen_nonneg q). pose proof (zlen_nonneg c).
  assert (F : Forall (fun b => 0 <= b <= m) (q ++ c)) by (apply Forall_app; auto).
  destruct (run_sums_bound_m m (q ++ c) F) as [B1 B2]. rewrite zlen_app in B1, B2.
  assert (R1 : fst (run_sums c s1 s2) = fst (run_sums (q ++ c) t1 t2)) by (rewrite run_app_pair, !(run_fst c), <- S1; reflexivity).
  assert (U1 : u32 (fst (run_sums c s1 s2)) = fst (run_sums (q ++ c) t1 t2)).
  { rewrite R1. apply u32_id. rewrite run_fst. change (2 ^ 32) with 4294967296. nia. }
  assert (U2 : good -> u32 (snd (run_sums c s1 s2)) = snd (run_sums (q ++ c) t1 t2)).
  { intros g. destruct (G g) as (T2 & M2 & S2). rewrite run_app_pair, <- S1, <- S2. apply u32_id.
    rewrite S1, S2, <- run_app_pair, run_snd, zlen_app. clear U1 R1. split; [nia|].
    specialize (Hfit g). set (n := zlen q + zlen c) in *. assert (Hn : 0 <= n) by lia.
    assert (E52 : n <= 5552 -> snd (run_sums (q ++ c) 0 0) <= 255 * 15415128).
    { intros Hn2. pose proof (tri_mono n 5552 ltac:(lia)) as Q. change (tri 5552) with 15415128 in Q. nia. }
    assert (E68 : n <= 5568 -> snd (run_sums (q ++ c) 0 0) <= m * 15504096).
    { intros Hn2. pose proof (tri_mono n 5568 ltac:(lia)) as Q. change (tri 5568) with 15504096 in Q. nia. }
    change (2 ^ 32) with 4294967296. destruct Hfit as [Hf|[Hf [Hf2|Hf2]]].
    - specialize (E52 Hf). assert (n * t1 <= 5552 * 65520) by nia. lia.
    - specialize (E68 Hf). assert (n * t1 <= 5568 * 65520) by nia. assert (m * 15504096 <= 253 * 15504096) by lia. lia.
    - specialize (E68 Hf). destruct (PT Hf2) as [-> ->]. assert (m * 15504096 <= 255 * 15504096) by lia. lia. }
  unfold adler_reduce. destruct (Z.geb_spec (p + zlen c) 5552).
  - exists (pre ++ q ++ c), [], (fst (run_sums (q ++ c) t1 t2) mod 65521), (u32 (snd (run_sums c s1 s2)) mod 65521). split; [|right; repeat split; lia].
    unfold adv. rewrite D, U1. split; [rewrite app_nil_r, app_assoc; reflexivity|]. split; [apply Z.mod_pos_bound; lia|].
    assert (MR1 : mod_rel (fst (run_sums (q ++ c) t1 t2) mod 65521) (fst (run_sums (pre ++ q ++ c) 1 0))).
    { unfold mod_rel. change MOD_ADLER with 65521. rewrite Z.mod_mod by lia. rewrite (run_app_pair pre), !(run_fst (q ++ c)). unfold mod_rel in M1. change MOD_ADLER with 65521 in M1.
      rewrite Z.add_mod, M1, <- Z.add_mod by lia. reflexivity. }
    split; [exact MR1|]. split.
    { intros E%app_eq_nil. destruct E as [_ E]. assert (E2 : zlen (q ++ c) = 0) by (rewrite E; reflexivity). rewrite zlen_app in E2. lia. }
    cbn [run_sums fst snd]. split; [reflexivity|]. split; [reflexivity|]. split; [lia|]. intros g. split; [apply Z.mod_pos_bound; lia|]. split; [|reflexivity].
    destruct (G g) as (T2 & M2 & S2). rewrite (U2 g). unfold mod_rel. change MOD_ADLER with 65521. rewrite Z.mod_mod by lia. rewrite (run_app_pair pre).
    apply run_sums_mod; assumption.
  - exists pre, (q ++ c), t1, t2. split; [|left; auto]. unfold adv. rewrite U1, zlen_app, D. split; [rewrite app_assoc; reflexivity|]. do 3 (split; [assumption|]).
    split; [reflexivity|]. split; [lia|]. split; [lia|]. intros g. destruct (G g) as (T2 & M2 & S2). auto.
Qed.

Section Avx2.
  Variables (m : Z) (total : Z).
  Hypothesis Hm : 0 <= m <= 255.
  Let bnd := Forall (fun b => 0 <= b <= m).
  Let good : Prop := m <= 253 \/ total < 11136.

  Lemma chunks_adv cs done s pre q t1 t2 k : Forall (fun c => length c = 32%nat) cs -> bnd (done ++ concat cs) ->
    adv good done s pre q t1 t2 -> zlen q = 32 * k -> (pre = [] \/ 5568 <= zlen pre) -> zlen (done ++ concat cs) <= total ->
    exists pre' q' t1' t2', adv good (done ++ concat cs) (fold_left adler_chunk_avx2 cs s) pre' q' t1' t2' /\ (pre' = [] \/ 5568 <= zlen pre') /\ exists k', zlen q' = 32 * k'.
  Proof.
    intros F. revert done s pre q t1 t2 k. induction F as [|c cs Hc F IH]; intros done s pre q t1 t2 k Hb A Hk Hp HT; cbn [concat fold_left].
    - rewrite app_nil_r. eauto 10.
    - cbn [concat] in Hb, HT. assert (zlen c = 32) as Zc by (unfold zlen; lia).
      assert (Hc2 : bnd c /\ bnd done) by (apply Forall_app in Hb as [Hb1 Hb2]; apply Forall_app in Hb2 as [Hb2 _]; auto). destruct Hc2 as [Hc1 Hd].
      assert (B : bytes c) by (eapply Forall_impl; [|exact Hc1]; cbn beta; unfold is_byte; intros; lia).
      rewrite chunk_avx2 by auto. pose proof (zlen_nonneg q) as Q0. assert (Pq : done = pre ++ q /\ zlen q < 5552) by (destruct s as [[? ?] ?]; destruct A as (D & _ & _ & _ & _ & P1 & P2 & _); split; [exact D|lia]). destruct Pq as [D Q1].
      assert (Hq : bnd q) by (rewrite D in Hd; apply Forall_app in Hd; tauto).
      rewrite !zlen_app in HT. rewrite D, zlen_app in HT. pose proof (zlen_nonneg (concat cs)). pose proof (zlen_nonneg pre).
      destruct (step_adv good m done s pre q t1 t2 c) as (pre' & q' & t1' & t2' & A' & E); auto; try lia.
      { intros g. unfold fits. destruct (Z.le_gt_cases (zlen q + zlen c) 5552); [left; lia|]. right. split; [lia|]. destruct g as [g|g]; [left; exact g|]. right. destruct Hp as [Hp|Hp]; [exact Hp|lia]. }
      rewrite app_assoc in Hb |- *.
      destruct E as [[-> ->]|(-> & -> & E)].
      + eapply (IH (done ++ c) (step s c) pre (q ++ c) t1' t2' (k + 1)); auto; rewrite ?zlen_app; [lia|]. rewrite D, zlen_app. lia.
      + eapply (IH (done ++ c) (step s c) (pre ++ q ++ c) [] t1' t2' 0); auto; rewrite ?zlen_app; [right; lia|]. rewrite D, zlen_app. lia.
  Qed.
  Lemma bytes_adv l done s pre q t1 t2 : bnd (done ++ l) ->
    adv good done s pre q t1 t2 ->
    exists pre' q' t1' t2', adv good (done ++ l) (fold_left adler_byte_avx2 l s) pre' q' t1' t2'.
  Proof.
    revert done s pre q t1 t2. induction l as [|b l IH]; intros done s pre q t1 t2 Hb A; cbn [fold_left].
    - rewrite app_nil_r. eauto 10.
    - rewrite byte_avx2. pose proof (zlen_nonneg l).
      assert (Pq : done = pre ++ q /\ zlen q < 5552) by (destruct s as [[? ?] ?]; destruct A as (D & _ & _ & _ & _ & P1 & P2 & _); split; [exact D|lia]). destruct Pq as [D Q1].
      assert (Hq : bnd q /\ bnd [b]).
      { rewrite D in Hb. apply Forall_app in Hb as [Hb1 Hb2]. apply Forall_app in Hb1 as [_ Hb1]. inversion Hb2; subst. split; [exact Hb1|]. constructor; auto. }
      destruct Hq as [Hq Hb1].
      destruct (step_adv good m done s pre q t1 t2 [b]) as (pre' & q' & t1' & t2' & A' & E); auto; change (zlen [b]) with 1 in *; try lia.
      { intros _. left. lia. }
      change (b :: l) with ([b] ++ l) in Hb |- *. rewrite app_assoc in Hb |- *.
      pose proof (zlen_nonneg pre). pose proof (zlen_nonneg q).
      destruct E as [[-> ->]|(-> & -> & E)].
      + eapply (IH (done ++ [b]) (step s [b]) pre (q ++ [b])); eauto.
      + eapply (IH (done ++ [b]) (step s [b]) (pre ++ q ++ [b]) []); eauto.
  Qed.
End Avx2.

Lemma adler_join_ok s1 s2 : adler_join s1 s2 = (s2 mod 65521) * 65536 + s1 mod 65521.
Proof. unfold adler_join. change MOD_ADLER with 65521. apply adler_combine; lia. Qed.
Lemma avx2_main m data : 0 <= m <= 255 -> Forall (fun b => 0 <= b <= m) data ->
  (m <= 253 \/ zlen data < 11136 -> adler32_avx2 data = adler_spec data) /\
  adler32_avx2 data mod 65536 = adler_spec data mod 65536 /\ 0 <= adler32_avx2 data < 2 ^ 32.
Proof.
  intros Hm Hd. unfold adler32_avx2. destruct (chunks_exact_spec (length data) 32 data) as (E & F & G); [lia|lia|].
  destruct (chunks_exact (length data) 32 data) as [cs rest]. cbn [fst snd] in *.
  assert (Hd2 := Hd). rewrite <- E in Hd2. apply Forall_app in Hd2 as [Hc Hr].
  destruct (chunks_adv m (zlen data) Hm cs [] (1, 0, 0) [] [] 1 0 0) as (pre & q & t1 & t2 & A & Hp & k & Hk); auto.
  { unfold adv. cbn [app run_sums fst snd]. unfold mod_rel. repeat split; try lia; auto. }
  { cbn [app]. assert (ZE : zlen data = zlen (concat cs ++ rest)) by (rewrite E; reflexivity). rewrite ZE, zlen_app. pose proof (zlen_nonneg rest). lia. }
  cbn [app] in A. set (s := fold_left adler_chunk_avx2 cs (1, 0, 0)) in *. clearbody s.
  assert (L : zlen rest < 32) by (unfold zlen; lia).
  assert (Q : zlen q < 5552) by (destruct s as [[? ?] ?]; destruct A as (_ & _ & _ & _ & _ & P1 & P2 & _); lia).
  assert (A' : exists pre' q' t1' t2', adv (m <= 253 \/ zlen data < 11136) (concat cs ++ rest) (fold_left adler_byte_avx2 rest s) pre' q' t1' t2').
  { eapply (bytes_adv m (zlen data) Hm rest (concat cs) s pre q t1 t2); [rewrite E; exact Hd|exact A]. }
  rewrite E in A'. clear A Hp Hk Q. destruct A' as (pre' & q' & t1' & t2' & A). destruct (fold_left adler_byte_avx2 rest s) as [[s1 s2] p].
  destruct A as (D & T1 & M1 & _ & S1 & _ & _ & G'). rewrite adler_join_ok. unfold adler_spec.
  assert (X1 : s1 mod 65521 = adler_A data mod 65521).
  { pose proof (run_sums_AB data) as R. replace (adler_A data) with (fst (run_sums data 1 0)) by (rewrite R; reflexivity). rewrite S1, D, run_app_pair, !(run_fst q').
    unfold mod_rel in M1. change MOD_ADLER with 65521 in M1. rewrite Z.add_mod, M1, <- Z.add_mod by lia. reflexivity. }
  rewrite X1. split; [|split].
  - intros g. destruct (G' g) as (T2 & M2 & S2). f_equal. f_equal.
    pose proof (run_sums_AB data) as R. replace (adler_B data) with (snd (run_sums data 1 0)) by (rewrite R; reflexivity). rewrite S2, D, run_app_pair.
    apply run_sums_mod; assumption.
  - rewrite <- !(Z.add_comm (adler_A data mod 65521)), !Z.mod_add by lia. reflexivity.
  - change (2 ^ 32) with 4294967296. lia.
Qed.

(** the same sums piece by piece, to compute with *)
Lemma avx2_steps data : bytes data ->
  adler32_avx2 data = let '(cs, rest) := chunks_exact (length data) 32 data in
    let '(s1, s2, _) := fold_left (fun s b => step s [b]) rest (fold_left step cs (1, 0, 0)) in adler_join s1 s2.
Proof.
  intros B. unfold adler32_avx2. destruct (chunks_exact_spec (length data) 32 data) as (E & F & G); [lia|lia|].
  destruct (chunks_exact (length data) 32 data) as [cs rest]. cbn [fst snd] in *. rewrite <- E in B. apply bytes_app in B as [B _]. apply bytes_concat in B.
  replace (fold_left adler_chunk_avx2 cs (1, 0, 0)) with (fold_left step cs (1, 0, 0)).
  - generalize (fold_left step cs (1, 0, 0)) as s. clear. intros s.
    replace (fold_left (fun s b => step s [b]) rest s) with (fold_left adler_byte_avx2 rest s); [reflexivity|].
    revert s. induction rest as [|b r IH]; intros s; cbn [fold_left]; [reflexivity|]. rewrite byte_avx2. apply IH.
  - generalize (1, 0, 0) as s. clear E G. induction F as [|c cs Hc F IH]; intros s; cbn [fold_left]; [reflexivity|]. inversion B; subst. rewrite chunk_avx2 by auto. apply IH; auto.
Qed.
Definition adler_witness : list Z := repeat 12 (Z.to_nat 4271) ++ repeat 11 (Z.to_nat 1297) ++ repeat 255 (Z.to_nat 5568).
Lemma bytes_repeat b n : is_byte b -> bytes (repeat b n).
Proof. intros H. apply Forall_forall. intros x Hx%repeat_spec. subst. exact H. Qed.
Lemma witness_bytes : bytes adler_witness.
Proof. unfold adler_witness. apply bytes_app; split; [apply bytes_repeat; unfold is_byte; lia|]. apply bytes_app; split; apply bytes_repeat; unfold is_byte; lia. Qed.
Lemma witness_values : adler32_avx2 adler_witness <> adler_spec adler_witness.
Proof.
  rewrite avx2_steps by apply witness_bytes. rewrite <- (proj2 (adler_all _ witness_bytes)). vm_compute. discriminate.
Qed.

(** ** NEON *)
Lemma chunk_neon s1 s2 c : length c = 16%nat -> bytes c -> adler_chunk_neon (s1, s2) c = (u32 (fst (run_sums c s1 s2)), u32 (snd (run_sums c s1 s2))).
Proof.
  intros L B. unfold adler_chunk_neon. cbv zeta. assert (zlen c = 16) as ZL by (unfold zlen; lia).
  assert (K : forall i, 0 <= nth i c 0 < 256). { intros i. assert (is_byte (nth i c 0)) by (apply (Forall_nth_d is_byte); auto; unfold is_byte; lia). assumption. }
  rewrite run_sums_lin. cbn [fst snd]. rewrite ZL. f_equal.
  - rewrite u32_add_r. f_equal. f_equal. unfold vpaddl, of_list. clear - L. do 16 (destruct c as [|? c]; [discriminate|]). destruct c; [|discriminate].
    unfold sumZ. cbn [fold_right Nat.mul Nat.add nth]. lia.
  - rewrite u32_mid, u32_add_r. replace (16 * s1) with (s1 * 16) by ring. f_equal. f_equal.
    assert (V : forall i, (i < 8)%nat -> vadd 16 (fun i => of_list c i * weights 16 i) (fun i => of_list c (8 + i)%nat * weights 16 (8 + i)%nat) i
      = nth i c 0 * (16 - Z.of_nat i) + nth (8 + i) c 0 * (8 - Z.of_nat i)).
    { intros i Hi. unfold vadd, of_list, weights. rewrite wrap_id.
      - rewrite Nat2Z.inj_add. change (Z.of_nat 8) with 8. ring.
      - change (2 ^ 16) with 65536. pose proof (prod_bound _ (16 - Z.of_nat i) (K i) ltac:(lia)). pose proof (prod_bound _ (16 - Z.of_nat (8 + i)) (K (8 + i)%nat) ltac:(lia)). lia. }
    unfold vpaddl. cbn [Nat.mul Nat.add]. rewrite !V by lia. clear - L. do 16 (destruct c as [|? c]; [discriminate|]). destruct c; [|discriminate].
    cbv [Nat.add nth Z.of_nat Pos.of_succ_nat Pos.succ]. cbn [run_sums snd]. ring.
Qed.
(** [n] sixteens hold [d] entirely *)
Lemma chunks16 d k : zlen d = 16 * k -> fst (chunks_exact (length d) 16 d) = fst (chunks_exact (length d) 16 d) /\ concat (fst (chunks_exact (length d) 16 d)) = d /\ Forall (fun c => length c = 16%nat) (fst (chunks_exact (length d) 16 d)).
Proof.
  intros Hd. destruct (chunks_exact_spec (length d) 16 d) as (E & F & G); [lia|lia|]. destruct (chunks_exact (length d) 16 d) as [cs rest]. cbn [fst snd] in *.
  split; [reflexivity|]. split; [|exact F]. assert (length rest = 0)%nat as R.
  { assert (exists j, length (concat cs) = 16 * j)%nat as [j Hj].
    { clear - F. induction F as [|c cs Hc F [j IH]]; [exists 0%nat; reflexivity|]. exists (S j). cbn [concat]. rewrite app_length. lia. }
    rewrite <- E in Hd. unfold zlen in Hd. rewrite app_length in Hd. lia. }
  destruct rest; [|discriminate]. rewrite app_nil_r in E. exact E.
Qed.
Definition sums_fit (d : list Z) (s1 s2 : Z) : Prop := 0 <= fst (run_sums d s1 s2) < 2 ^ 32 /\ 0 <= snd (run_sums d s1 s2) < 2 ^ 32.
Lemma run_mono c d s1 s2 : bytes c -> bytes d -> 0 <= s1 -> 0 <= s2 ->
  0 <= fst (run_sums c s1 s2) <= fst (run_sums (c ++ d) s1 s2) /\ 0 <= snd (run_sums c s1 s2) <= snd (run_sums (c ++ d) s1 s2).
Proof.
  intros Hc Hd H1 H2. rewrite run_app_pair, (run_fst d), (run_snd d). pose proof (sumZ_bytes d Hd). pose proof (sumZ_bytes c Hc).
  pose proof (run_sums_bound c (zlen c) Hc ltac:(lia)). pose proof (run_sums_bound d (zlen d) Hd ltac:(lia)). pose proof (zlen_nonneg d). pose proof (zlen_nonneg c).
  rewrite (run_fst c), (run_snd c). assert (0 <= zlen c * s1) by nia. assert (0 <= zlen d * (s1 + sumZ c)) by nia. lia.
Qed.
Lemma neon_fold cs s1 s2 : Forall (fun c => length c = 16%nat) cs -> bytes (concat cs) -> 0 <= s1 -> 0 <= s2 -> sums_fit (concat cs) s1 s2 ->
  fold_left adler_chunk_neon cs (s1, s2) = run_sums (concat cs) s1 s2.
Proof.
  intros F. revert s1 s2. induction F as [|c cs Hc F IH]; intros s1 s2 B H1 H2 [X1 X2]; cbn [fold_left concat] in *; [reflexivity|].
  apply bytes_app in B as [B1 B2]. rewrite chunk_neon by auto. pose proof (run_mono c (concat cs) s1 s2 B1 B2 H1 H2) as [M1 M2].
  rewrite !u32_id by lia. rewrite IH; auto; try lia.
  - rewrite run_app_pair. reflexivity.
  - unfold sums_fit. rewrite <- run_app_pair. auto.
Qed.
Lemma small_fit d s1 s2 : bytes d -> zlen d <= 5552 -> 0 <= s1 < 65521 -> 0 <= s2 < 65521 -> sums_fit d s1 s2.
Proof.
  intros B L H1 H2. unfold sums_fit. rewrite run_fst, run_snd. pose proof (sumZ_bytes d B). pose proof (run_sums_bound d (zlen d) B ltac:(lia)). pose proof (zlen_nonneg d).
  pose proof (tri_mono (zlen d) 5552 ltac:(lia)) as T. unfold tri in T at 1. change (tri 5552) with 15415128 in T.
  assert (0 <= zlen d * s1 <= 5552 * 65520) by nia. change (2 ^ 32) with 4294967296. lia.
Qed.
Lemma block_neon d k s1 s2 : bytes d -> zlen d = 16 * k -> zlen d <= 5552 -> 0 <= s1 < 65521 -> 0 <= s2 < 65521 ->
  adler_block_neon d s1 s2 = Ok (run_sums d s1 s2).
Proof.
  intros B Hk L H1 H2. unfold adler_block_neon. destruct (chunks16 d k Hk) as (_ & E & F). rewrite neon_fold; auto; rewrite ?E; auto; try lia. apply small_fit; auto.
Qed.

(** ** The block loop, over any block routine that computes the sums *)
Lemma mod_pair x : 0 <= x mod MOD_ADLER < 65521. Proof. apply Z.mod_pos_bound. reflexivity. Qed.
Lemma adler_vec_ok blk : (forall d k s1 s2, bytes d -> zlen d = 16 * k -> zlen d <= 5552 -> 0 <= s1 < 65521 -> 0 <= s2 < 65521 -> blk d s1 s2 = Ok (run_sums d s1 s2)) ->
  forall data, bytes data -> adler_vec blk data = Ok (adler_spec data).
Proof.
  intros Hblk data B. unfold adler_vec.
  assert (G : forall fuel done d s1 s2, (length d <= fuel)%nat -> bytes d -> 0 <= s1 < 65521 -> 0 <= s2 < 65521 ->
    mod_rel s1 (fst (run_sums done 1 0)) -> mod_rel s2 (snd (run_sums done 1 0)) ->
    exists pre rest t1 t2, adler_blocks blk fuel d s1 s2 = Ok (rest, t1, t2) /\ done ++ d = pre ++ rest /\ zlen rest < 5552 /\ 0 <= t1 < 65521 /\ 0 <= t2 < 65521 /\
      mod_rel t1 (fst (run_sums pre 1 0)) /\ mod_rel t2 (snd (run_sums pre 1 0))).
  { induction fuel as [|f IH]; intros done d s1 s2 Hf Bd H1 H2 M1 M2; cbn [adler_blocks]; destruct (Z.ltb_spec (zlen d) 5552); try (exists done, d, s1, s2; auto 10; fail).
    - unfold zlen in *. lia.
    - assert (LN : (Z.to_nat 5552 <= length d)%nat) by (unfold zlen in *; lia).
      rewrite <- (firstn_skipn (Z.to_nat 5552) d) in Bd. apply bytes_app in Bd as [Bd1 Bd2].
      assert (ZF : zlen (firstn (Z.to_nat 5552) d) = 16 * 347) by (unfold zlen; rewrite firstn_length, Nat.min_l by lia; lia).
      rewrite (Hblk _ 347) by (auto; lia). destruct (run_sums (firstn (Z.to_nat 5552) d) s1 s2) as [a b] eqn:R. cbn [rbind].
      destruct (IH (done ++ firstn (Z.to_nat 5552) d) (skipn (Z.to_nat 5552) d) (a mod MOD_ADLER) (b mod MOD_ADLER)) as (pre & rest & t1 & t2 & E1 & E2 & E3); auto using mod_pair.
      { rewrite skipn_length. lia. }
      { unfold mod_rel. rewrite Z.mod_mod by discriminate. rewrite run_app_pair. pose proof (run_sums_mod (firstn (Z.to_nat 5552) d) _ _ _ _ M1 M2) as [Q _]. rewrite R in Q. exact Q. }
      { unfold mod_rel. rewrite Z.mod_mod by discriminate. rewrite run_app_pair. pose proof (run_sums_mod (firstn (Z.to_nat 5552) d) _ _ _ _ M1 M2) as [_ Q]. rewrite R in Q. exact Q. }
      exists pre, rest, t1, t2. rewrite <- app_assoc, firstn_skipn in E2. auto. }
  destruct (G (length data) [] data 1 0) as (pre & rest & t1 & t2 & -> & E & L & T1 & T2 & M1 & M2); auto; try lia; try reflexivity. clear G. cbn [app] in E. cbn [rbind].
  assert (Bp : bytes rest) by (rewrite E in B; apply bytes_app in B; tauto).
  assert (FIN : forall pre rest t1 t2, data = pre ++ rest -> bytes rest -> zlen rest < 5552 -> 0 <= t1 < 65521 -> 0 <= t2 < 65521 ->
    mod_rel t1 (fst (run_sums pre 1 0)) -> mod_rel t2 (snd (run_sums pre 1 0)) ->
    (let* (s1, s2) := adler_inner rest t1 t2 in Ok (adler_join s1 s2)) = Ok (adler_spec data)).
  { clear. intros pre rest t1 t2 E Br L T1 T2 M1 M2. destruct (adler_inner_ok rest t1 t2) as [-> _]; auto; try lia.
    destruct (run_sums rest t1 t2) as [a b] eqn:R. cbn [rbind]. rewrite adler_join_ok. unfold adler_spec. pose proof (run_sums_AB data) as AB.
    pose proof (run_sums_mod rest _ _ _ _ M1 M2) as [Q1 Q2]. rewrite <- run_app_pair, <- E, AB, R in Q1, Q2. cbn [fst snd] in *. unfold mod_rel in *. change MOD_ADLER with 65521 in *. rewrite Q1, Q2. reflexivity. }
  destruct (Z.geb_spec (zlen rest) 16).
  - cbv zeta. set (n := Z.to_nat (zlen rest / 16 * 16)).
    assert (LN : (n <= length rest)%nat) by (unfold n, zlen in *; lia).
    assert (ZF : zlen (firstn n rest) = 16 * (zlen rest / 16)) by (unfold zlen at 1; rewrite firstn_length, Nat.min_l by lia; unfold n; lia).
    assert (Bp2 := Bp). rewrite <- (firstn_skipn n rest) in Bp2. apply bytes_app in Bp2 as [Bp1 Bp2].
    rewrite (Hblk _ (zlen rest / 16)) by (auto; lia). destruct (run_sums (firstn n rest) t1 t2) as [a b] eqn:R. cbn [rbind].
    pose proof (run_sums_mod (firstn n rest) _ _ _ _ M1 M2) as [Q1 Q2]. rewrite <- run_app_pair, R in Q1, Q2.
    apply (FIN (pre ++ firstn n rest)); auto using mod_pair.
    + rewrite <- app_assoc, firstn_skipn. exact E.
    + assert (zlen rest = zlen (firstn n rest) + zlen (skipn n rest)) by (rewrite <- zlen_app, firstn_skipn; reflexivity). pose proof (zlen_nonneg (firstn n rest)). lia.
    + unfold mod_rel. rewrite Z.mod_mod by discriminate. exact Q1.
    + unfold mod_rel. rewrite Z.mod_mod by discriminate. exact Q2.
  - cbn [rbind]. eapply FIN; eauto.
Qed.
Lemma neon_ok data : bytes data -> adler32_neon data = Ok (adler_spec data).
Proof. apply adler_vec_ok. intros; eapply block_neon; eauto. Qed.

(** ** SSSE3 *)
Definition lanes4sum (v : vec) : Z := v 0%nat + v 1%nat + v 2%nat + v 3%nat.
Definition vnn (v : vec) : Prop := forall i, (i < 4)%nat -> 0 <= v i.
Lemma sad_split c : length c = 16%nat -> bytes c -> let w := vsplit 32 (vsad8 (of_list c) (vset1 0)) in vnn w /\ lanes4sum w = sumZ c /\ w 1%nat = 0 /\ w 3%nat = 0.
Proof.
  intros L B w. assert (K : forall i, 0 <= nth i c 0 < 256). { intros i. assert (is_byte (nth i c 0)) by (apply (Forall_nth_d is_byte); auto; unfold is_byte; lia). assumption. }
  assert (S : forall i, (i < 2)%nat -> 0 <= vsad8 (of_list c) (vset1 0) i < 2048).
  { intros i _. rewrite sad_lane by auto. unfold vsum. cbn [seq map fold_right].
    pose proof (K (8 * i + 0)%nat). pose proof (K (8 * i + 1)%nat). pose proof (K (8 * i + 2)%nat). pose proof (K (8 * i + 3)%nat). pose proof (K (8 * i + 4)%nat). pose proof (K (8 * i + 5)%nat). pose proof (K (8 * i + 6)%nat). pose proof (K (8 * i + 7)%nat). lia. }
  pose proof (S 0%nat ltac:(lia)) as S0. pose proof (S 1%nat ltac:(lia)) as S1.
  assert (W0 : w 0%nat = vsad8 (of_list c) (vset1 0) 0%nat) by (unfold w, vsplit; cbn [Nat.even Nat.div Nat.divmod fst]; apply Z.mod_small; change (2 ^ 32) with 4294967296; lia).
  assert (W1 : w 1%nat = 0) by (unfold w, vsplit; cbn [Nat.even Nat.div Nat.divmod fst]; apply Z.div_small; change (2 ^ 32) with 4294967296; lia).
  assert (W2 : w 2%nat = vsad8 (of_list c) (vset1 0) 1%nat) by (unfold w, vsplit; cbn [Nat.even Nat.div Nat.divmod fst]; apply Z.mod_small; change (2 ^ 32) with 4294967296; lia).
  assert (W3 : w 3%nat = 0) by (unfold w, vsplit; cbn [Nat.even Nat.div Nat.divmod fst]; apply Z.div_small; change (2 ^ 32) with 4294967296; lia).
  split.
  - intros i Hi. do 4 (destruct i as [|i]; [lia|]). lia.
  - split; [|auto]. unfold lanes4sum. rewrite W0, W1, W2, W3. rewrite !sad_lane by auto. clear - L. do 16 (destruct c as [|? c]; [discriminate|]). destruct c; [|discriminate].
    unfold vsum, sumZ. cbn [seq map fold_right Nat.mul Nat.add nth]. lia.
Qed.
Lemma weigh16 c : length c = 16%nat -> bytes c -> vnn (weigh_x86 16 (of_list c)) /\ lanes4sum (weigh_x86 16 (of_list c)) = snd (run_sums c 0 0).
Proof.
  intros L B. assert (K : forall i, 0 <= nth i c 0 < 256). { intros i. assert (is_byte (nth i c 0)) by (apply (Forall_nth_d is_byte); auto; unfold is_byte; lia). assumption. }
  assert (LN : forall i, (i < 4)%nat -> (16 * (2 * i / 8) + 9 + (2 * i) mod 8 < Z.to_nat 16)%nat).
  { intros i Hi. do 4 (destruct i as [|i]; [cbv; lia|]). lia. }
  split.
  - intros i Hi. rewrite weigh_lane by (auto; lia). pose proof (LN i Hi) as Q. change (Z.to_nat 16) with 16%nat in Q.
    set (j := (16 * (2 * i / 8) + (2 * i) mod 8)%nat). assert (j + 9 < 16)%nat by (unfold j; lia). clearbody j. clear - K H.
    pose proof (prod_bound _ (16 - Z.of_nat j) (K j) ltac:(lia)). pose proof (prod_bound _ (16 - Z.of_nat j - 1) (K (j + 1)%nat) ltac:(lia)).
    pose proof (prod_bound _ (16 - Z.of_nat j - 8) (K (j + 8)%nat) ltac:(lia)). pose proof (prod_bound _ (16 - Z.of_nat j - 9) (K (j + 9)%nat) ltac:(lia)). lia.
  - unfold lanes4sum. rewrite !weigh_lane by (try apply LN; auto; lia). clear - L. do 16 (destruct c as [|? c]; [discriminate|]). destruct c; [|discriminate].
    cbv [Nat.div Nat.divmod fst snd Nat.modulo Nat.sub Nat.mul Nat.add nth Z.of_nat Pos.of_succ_nat Pos.succ].
    cbn [run_sums snd]. ring.
Qed.
Definition rep4 (v : vec) (x : Z) : Prop := vnn v /\ lanes4sum v = x.
Lemma rep4_add v w x y : rep4 v x -> rep4 w y -> x + y < 2 ^ 32 -> rep4 (vadd 32 v w) (x + y).
Proof.
  intros [V1 V2] [W1 W2] H. unfold lanes4sum in *. assert (A : forall i, (i < 4)%nat -> vadd 32 v w i = v i + w i).
  { intros i Hi. apply wrap_id. pose proof (V1 0%nat ltac:(lia)). pose proof (V1 1%nat ltac:(lia)). pose proof (V1 2%nat ltac:(lia)). pose proof (V1 3%nat ltac:(lia)).
    pose proof (W1 0%nat ltac:(lia)). pose proof (W1 1%nat ltac:(lia)). pose proof (W1 2%nat ltac:(lia)). pose proof (W1 3%nat ltac:(lia)).
    do 4 (destruct i as [|i]; [lia|]). lia. }
  split.
  - intros i Hi. rewrite A by auto. pose proof (V1 i Hi). pose proof (W1 i Hi). lia.
  - unfold lanes4sum. rewrite !A by lia. lia.
Qed.
Lemma rep4_slli v x : rep4 v x -> 16 * x < 2 ^ 32 -> rep4 (vslli 32 4 v) (16 * x).
Proof.
  intros [V1 V2] H. unfold lanes4sum in *. assert (A : forall i, (i < 4)%nat -> vslli 32 4 v i = 16 * v i).
  { intros i Hi. unfold vslli. rewrite Z.shiftl_mul_pow2 by lia. change (2 ^ 4) with 16. rewrite Z.mul_comm. apply wrap_id. pose proof (V1 0%nat ltac:(lia)). pose proof (V1 1%nat ltac:(lia)). pose proof (V1 2%nat ltac:(lia)). pose proof (V1 3%nat ltac:(lia)).
    do 4 (destruct i as [|i]; [lia|]). lia. }
  split.
  - intros i Hi. rewrite A by auto. pose proof (V1 i Hi). lia.
  - unfold lanes4sum. rewrite !A by lia. lia.
Qed.
Lemma ssse3_fold cs done s : Forall (fun c => length c = 16%nat) cs -> bytes (done ++ concat cs) -> zlen (done ++ concat cs) <= 5552 ->
  rep4 (fst (fst s)) (sumZ done) -> fst (fst s) 1%nat = 0 /\ fst (fst s) 3%nat = 0 -> rep4 (snd (fst s)) (snd (run_sums done 0 0)) -> rep4 (snd s) (sumZ done) ->
  let s' := fold_left adler_chunk_ssse3 cs s in let d := done ++ concat cs in
  rep4 (fst (fst s')) (sumZ d) /\ (fst (fst s') 1%nat = 0 /\ fst (fst s') 3%nat = 0) /\ rep4 (snd (fst s')) (snd (run_sums d 0 0)).
Proof.
  intros F. revert done s. induction F as [|c cs Hc F IH]; intros done s B L R1 R0 R2 R3; cbn [fold_left concat] in *.
  - rewrite app_nil_r. auto.
  - rewrite app_assoc in B, L |- *. assert (B' := B). apply bytes_app in B' as [B' _]. assert (B2 := B'). apply bytes_app in B2 as [Bd Bc].
    assert (L2 : zlen (done ++ c) <= 5552) by (clear - L; rewrite (zlen_app (done ++ c)) in L; pose proof (zlen_nonneg (concat cs)); lia).
    assert (Zc : zlen c = 16) by (unfold zlen; lia).
    destruct s as [[vs1 vs2] tot]. cbn [fst snd] in *. destruct (sad_split c Hc Bc) as (D1 & D2 & D3 & D4). destruct (weigh16 c Hc Bc) as [E1 E2].
    pose proof (small_fit (done ++ c) 0 0 B' L2 ltac:(lia) ltac:(lia)) as [F1 F2]. rewrite run_fst in F1. rewrite sumZ_app in F1.
    rewrite run_app_pair, run_snd, run_fst, Zc in F2. pose proof (sumZ_bytes done Bd). pose proof (sumZ_bytes c Bc). pose proof (run_sums_bound done (zlen done) Bd ltac:(lia)) as RB. pose proof (run_sums_bound c (zlen c) Bc ltac:(lia)) as RC.
    apply IH; auto; unfold adler_chunk_ssse3; cbv zeta; cbn [fst snd].
    + rewrite sumZ_app. apply rep4_add; auto; [split; auto|lia].
    + unfold vadd. rewrite D3, D4. destruct R0 as [-> ->]. split; reflexivity.
    + rewrite run_app_pair, run_snd, run_fst, Zc.
      replace (snd (run_sums done 0 0) + 16 * (0 + sumZ done)) with (snd (run_sums done 0 0) + 16 * sumZ done) by lia.
      apply rep4_add; [|split; auto|lia]. apply rep4_add; [auto| |lia]. apply rep4_slli; auto. lia.
    + rewrite sumZ_app. apply rep4_add; auto; [split; auto|lia].
Qed.

Lemma block_ssse3 d k s1 s2 : bytes d -> zlen d = 16 * k -> zlen d <= 5552 -> 0 <= s1 < 65521 -> 0 <= s2 < 65521 ->
  adler_block_ssse3 d s1 s2 = Ok (s1 + sumZ d, s2 + snd (run_sums d 0 0)).
Proof.
  intros B Hk L H1 H2. unfold adler_block_ssse3. destruct (chunks16 d k Hk) as (_ & E & F).
  pose proof (ssse3_fold _ [] (vset1 0, vset1 0, vset1 0) F) as G. cbn [app fst snd] in G. rewrite E in G.
  assert (Z0 : rep4 (vset1 0) 0) by (split; [intros i _; unfold vset1; lia|reflexivity]).
  specialize (G B L Z0 (conj eq_refl eq_refl) Z0 Z0).
  destruct (fold_left adler_chunk_ssse3 _ _) as [[vs1 vs2] tot]. cbn [fst snd] in G. destruct G as ((N1 & G1) & (O1 & O3) & (N2 & G2)).
  pose proof (small_fit d s1 s2 B L H1 H2) as [F1 F2]. rewrite run_fst in F1. rewrite run_snd in F2. pose proof (zlen_nonneg d). assert (0 <= zlen d * s1) by nia.
  unfold lanes4sum in *. cbv zeta. unfold vshuffle32, vadd.
  pose proof (N1 0%nat ltac:(lia)). pose proof (N1 2%nat ltac:(lia)). 
  pose proof (N2 0%nat ltac:(lia)). pose proof (N2 1%nat ltac:(lia)). pose proof (N2 2%nat ltac:(lia)). pose proof (N2 3%nat ltac:(lia)).
  rewrite !(wrap_id 32 (vs1 _ + _)) by lia. rewrite (wrap_id 32 (vs2 0%nat + vs2 2%nat)), (wrap_id 32 (vs2 1%nat + vs2 3%nat)) by lia. rewrite wrap_id by lia.
  unfold add_u32. destruct (Z.ltb_spec (s1 + (vs1 0%nat + vs1 2%nat)) (2 ^ 32)); [|lia]. cbn [rbind].
  destruct (Z.ltb_spec (s2 + (vs2 0%nat + vs2 2%nat + (vs2 1%nat + vs2 3%nat))) (2 ^ 32)); [|lia]. cbn [rbind]. f_equal. f_equal; lia.
Qed.
(** between 16 and 5551 bytes: the second sum lacks one unit for every byte of the vector part *)
Lemma ssse3_short data : bytes data -> 16 <= zlen data < 5552 ->
  adler32_ssse3 data = Ok ((adler_B data - 16 * (zlen data / 16)) mod 65521 * 65536 + adler_A data mod 65521).
Proof.
  intros B L. unfold adler32_ssse3, adler_vec. assert (adler_blocks adler_block_ssse3 (length data) data 1 0 = Ok (data, 1, 0)) as ->.
  { destruct (length data); cbn [adler_blocks]; destruct (Z.ltb_spec (zlen data) 5552); try reflexivity; lia. }
  cbn [rbind]. destruct (Z.geb_spec (zlen data) 16); [|lia]. cbv zeta. set (n := Z.to_nat (zlen data / 16 * 16)).
  assert (LN : (n <= length data)%nat) by (unfold n, zlen in *; lia).
  assert (ZF : zlen (firstn n data) = 16 * (zlen data / 16)) by (unfold zlen at 1; rewrite firstn_length, Nat.min_l by lia; unfold n; lia).
  assert (B' := B). rewrite <- (firstn_skipn n data) in B'. apply bytes_app in B' as [B1 B2].
  rewrite (block_ssse3 _ (zlen data / 16)) by (auto; lia). cbn [rbind].
  set (u := firstn n data) in *. set (v := skipn n data) in *.
  assert (D : data = u ++ v) by (symmetry; apply firstn_skipn).
  assert (LV : zlen v < 5552) by (assert (zlen data = zlen u + zlen v) by (rewrite D at 1; apply zlen_app); pose proof (zlen_nonneg u); lia).
  destruct (adler_inner_ok v ((1 + sumZ u) mod MOD_ADLER) ((0 + snd (run_sums u 0 0)) mod MOD_ADLER)) as [-> _]; auto using mod_pair; try lia.
  rewrite (run_sums_lin v). cbn [rbind]. rewrite adler_join_ok.
  pose proof (run_sums_AB data) as R. rewrite D in R at 1. rewrite run_app_pair, (run_sums_lin u) in R. cbn [fst snd] in R. rewrite (run_sums_lin v) in R. injection R as <- <-.
  rewrite <- ZF. change MOD_ADLER with 65521. f_equal. f_equal; [f_equal|].
  - replace (0 + zlen u * 1 + snd (run_sums u 0 0) + zlen v * (1 + sumZ u) + snd (run_sums v 0 0) - zlen u) with (0 + snd (run_sums u 0 0) + zlen v * (1 + sumZ u) + snd (run_sums v 0 0)) by lia.
    rewrite Z.add_mod, (Z.add_mod ((0 + _) mod _)), (Z.mul_mod (zlen v) ((1 + _) mod _)), !Z.mod_mod by lia. rewrite <- Z.mul_mod, <- (Z.add_mod (0 + _)), <- Z.add_mod by lia. reflexivity.
  - rewrite Z.add_mod, Z.mod_mod, <- Z.add_mod by lia. reflexivity.
Qed.
Lemma ssse3_wrong data : bytes data -> 16 <= zlen data < 5552 -> exists v, adler32_ssse3 data = Ok v /\ v <> adler_spec data.
Proof.
  intros B L. rewrite ssse3_short by auto. eexists. split; [reflexivity|]. unfold adler_spec. intros E.
  set (x := 16 * (zlen data / 16)) in *. assert (0 < x < 65521) by (unfold x; lia). set (b := adler_B data) in *. clearbody b x.
  assert ((b - x) mod 65521 = b mod 65521) by lia. lia.
Qed.
(** below 16 bytes the scalar loop runs alone *)
Lemma ssse3_tiny data : bytes data -> zlen data < 16 -> adler32_ssse3 data = Ok (adler_spec data).
Proof.
  intros B L. unfold adler32_ssse3, adler_vec. assert (adler_blocks adler_block_ssse3 (length data) data 1 0 = Ok (data, 1, 0)) as ->.
  { destruct (length data); cbn [adler_blocks]; destruct (Z.ltb_spec (zlen data) 5552); try reflexivity; lia. }
  cbn [rbind]. destruct (Z.geb_spec (zlen data) 16); [lia|]. cbn [rbind].
  destruct (adler_inner_ok data 1 0) as [-> _]; auto; try (unfold MOD_ADLER; lia). rewrite run_sums_AB. cbn [rbind]. rewrite adler_join_ok. reflexivity.
Qed.
