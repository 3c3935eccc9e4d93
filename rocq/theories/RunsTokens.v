(** How many tokens the match finder spends on data with few runs. *)
From Verif Require Import Base DeflateSpec Lz77Model Lz77Spec Lz77Proofs DeflateModel RunsSpec.
Open Scope Z_scope.

(** ** Runs in the data *)
Definition startb (data : list Z) (i : Z) : bool := (i =? 0) || negb (znth data (i - 1) =? znth data i).
Fixpoint cnt (data : list Z) (n : nat) : Z :=
  match n with O => 0 | S n' => cnt data n' + (if startb data (Z.of_nat n') then 1 else 0) end.
Definition R (data : list Z) (pos : Z) : Z := cnt data (Z.to_nat pos).
Lemma R_0 data : R data 0 = 0. Proof. reflexivity. Qed.
Lemma R_S data p : 0 <= p -> R data (p + 1) = R data p + (if startb data p then 1 else 0).
Proof. intros. unfold R. replace (Z.to_nat (p + 1)) with (S (Z.to_nat p)) by lia. cbn [cnt]. rewrite Z2Nat.id by lia. reflexivity. Qed.
Lemma R_mono data p k : 0 <= p -> 0 <= k -> R data p <= R data (p + k).
Proof.
  intros Hp Hk. rewrite <- (Z2Nat.id k) by lia. induction (Z.to_nat k) as [|n IH]; [rewrite Z.add_0_r; lia|].
  rewrite Nat2Z.inj_succ. unfold Z.succ. rewrite Z.add_assoc, R_S by lia. destruct (startb _ _); lia.
Qed.
Lemma R_hit data p q k : 0 <= p <= q -> q < p + k -> startb data q = true -> R data p + 1 <= R data (p + k).
Proof.
  intros H1 H2 S. pose proof (R_mono data p (q - p) ltac:(lia) ltac:(lia)) as A. replace (p + (q - p)) with q in A by lia.
  pose proof (R_S data q ltac:(lia)) as B. rewrite S in B. pose proof (R_mono data (q + 1) (p + k - q - 1) ltac:(lia) ltac:(lia)) as C.
  replace (q + 1 + (p + k - q - 1)) with (p + k) in C by lia. lia.
Qed.
Lemma R_flat data p k : 0 <= p -> 0 <= k -> (forall i, 0 <= i < k -> startb data (p + i) = false) -> R data (p + k) = R data p.
Proof.
  intros Hp Hk. rewrite <- (Z2Nat.id k) by lia. induction (Z.to_nat k) as [|n IH]; intros F; [rewrite Z.add_0_r; lia|].
  rewrite Nat2Z.inj_succ in *. unfold Z.succ in *. rewrite Z.add_assoc, R_S by lia. rewrite F by lia. rewrite IH; [lia|]. intros i Hi; apply F; lia.
Qed.

Definition mid (data : list Z) (pos : Z) : Prop := 1 <= pos < zlen data /\ znth data (pos - 1) = znth data pos.
Lemma mid_dec data pos : {mid data pos} + {~ mid data pos}.
Proof.
  unfold mid. destruct (Z_le_dec 1 pos), (Z_lt_dec pos (zlen data)), (Z.eq_dec (znth data (pos - 1)) (znth data pos)); try (right; tauto). left; tauto.
Qed.
Lemma not_mid data pos : 0 <= pos < zlen data -> ~ mid data pos -> startb data pos = true.
Proof.
  intros H N. unfold startb, mid in *. destruct (Z.eqb_spec pos 0); [reflexivity|]. cbn [orb].
  destruct (Z.eqb_spec (znth data (pos - 1)) (znth data pos)); [|reflexivity]. exfalso. apply N. split; [lia|assumption].
Qed.
(** the run from [pos] on has length [r] *)
Definition run_at (data : list Z) (pos r : Z) : Prop :=
  1 <= r <= zlen data - pos /\ all_eq data pos r /\ (pos + r < zlen data -> znth data (pos + r) <> znth data pos).
Lemma run_ex data pos : 0 <= pos < zlen data -> exists r, run_at data pos r.
Proof.
  intros H. assert (forall n k, zlen data - pos - k <= Z.of_nat n -> 1 <= k <= zlen data - pos -> all_eq data pos k -> exists r, run_at data pos r) as L.
  { induction n as [|n IH]; intros k Hn Hk A.
    - exists k. split; [lia|]. split; [assumption|lia].
    - destruct (Z.eq_dec (pos + k) (zlen data)) as [E|E]; [exists k; split; [lia|]; split; [assumption|lia]|].
      destruct (Z.eq_dec (znth data (pos + k)) (znth data pos)) as [Q|Q]; [|exists k; split; [lia|]; split; [assumption|auto]].
      apply (IH (k + 1)); [lia|lia|]. intros i Hi. destruct (Z.eq_dec i k) as [->|]; [assumption|apply A; lia]. }
  apply (L (Z.to_nat (zlen data)) 1); [lia|lia|]. intros i Hi. replace i with 0 by lia. f_equal; lia.
Qed.
Lemma run_inside data pos r k : 0 <= pos -> run_at data pos r -> 0 <= k < r -> run_at data (pos + k) (r - k).
Proof.
  intros Hp (A & B & C) Hk. split; [lia|]. split.
  - intros i Hi. rewrite <- Z.add_assoc, B by lia. symmetry. apply B. lia.
  - replace (pos + k + (r - k)) with (pos + r) by lia. rewrite (B k) by lia. exact C.
Qed.
Lemma run_unique data pos r r' : run_at data pos r -> run_at data pos r' -> r = r'.
Proof.
  intros (A & B & C) (A' & B' & C'). destruct (Z.lt_trichotomy r r') as [L|[L|L]]; [|assumption|].
  - exfalso. apply C; [lia|]. apply B'. lia.
  - exfalso. apply C'; [lia|]. apply B. lia.
Qed.
Lemma mid_inside data pos r k : mid data pos -> run_at data pos r -> 0 <= k < r -> mid data (pos + k).
Proof.
  intros (M1 & M2) (A & B & C) Hk. split; [lia|]. destruct (Z.eq_dec k 0) as [->|]; [rewrite Z.add_0_r; assumption|].
  replace (pos + k - 1) with (pos + (k - 1)) by lia. rewrite !B by lia. reflexivity.
Qed.
Lemma mid_after data pos r : 0 <= pos -> run_at data pos r -> ~ mid data (pos + r).
Proof.
  intros Hp (A & B & C) (M1 & M2). apply C; [lia|]. rewrite <- M2. replace (pos + r - 1) with (pos + (r - 1)) by lia. apply B. lia.
Qed.
Lemma R_inside data pos r k : mid data pos -> run_at data pos r -> 0 <= k <= r -> R data (pos + k) = R data pos.
Proof.
  intros M Hr Hk. destruct M as (M1 & M2). apply R_flat; [lia|lia|]. intros i Hi.
  destruct (mid_inside data pos r i (conj M1 M2) Hr ltac:(lia)) as (N1 & N2). unfold startb.
  destruct (Z.eqb_spec (pos + i) 0); [lia|]. cbn [orb]. rewrite N2, Z.eqb_refl. reflexivity.
Qed.
Lemma R_beyond data pos r k : mid data pos -> run_at data pos r -> r < k -> pos + k <= zlen data -> R data pos + 1 <= R data (pos + k).
Proof.
  intros M Hr Hk Hn. apply (R_hit data pos (pos + r)); [destruct Hr, M; lia|lia|]. apply not_mid; [destruct Hr, M; lia|]. apply mid_after; [destruct M; lia|assumption].
Qed.
Lemma R_start data pos k : 0 <= pos < zlen data -> ~ mid data pos -> 1 <= k -> R data pos + 1 <= R data (pos + k).
Proof. intros H N Hk. apply (R_hit data pos pos); [lia|lia|]. apply not_mid; assumption. Qed.

(** ** What the searches find inside a run *)
Definition covers (data : list Z) (pos L : Z) : Prop := forall r, run_at data pos r -> Z.min r 258 <= L.
Lemma chain_grows data pos minl nice fuel st target : forall cp bl bd bl' bd',
  chain_loop fuel st data pos nice minl target cp bl bd = Ok (bl', bd') -> bl <= bl'.
Proof.
  induction fuel as [|f IH]; intros cp bl bd bl' bd' E; cbn [chain_loop] in E; [inversion E; lia|].
  destruct (cp <? 0); [inversion E; lia|]. destruct (usub pos cp) as [d| | |]; cbn [rbind] in E; try discriminate.
  destruct (tget MAX_DISTANCE (t_prev st) (cp mod MAX_DISTANCE)) as [nx| | |]; cbn [rbind] in E.
  2-4: (destruct (d =? 0); [discriminate|]; destruct (Z.min pos MAX_DISTANCE <? d); [inversion E; lia|];
        destruct (match target with None => Ok None | Some _ => prefix4 data cp end) as [cand| | |]; cbn [rbind] in E; try discriminate;
        destruct (match target, cand with Some p, Some c => negb (c =? p) | _, _ => false end); [discriminate|];
        destruct (match_length data cp pos) as [len| | |]; cbn [rbind] in E; try discriminate;
        destruct (better minl len d bl bd) eqn:Bt; [destruct ((MAX_MATCH_LENGTH <=? len) || (nice <=? len)); [|discriminate]; inversion E; subst;
          unfold better in Bt; rewrite !andb_true_iff, orb_true_iff, andb_true_iff in Bt; lia|discriminate]).
  destruct (d =? 0); [eapply IH; exact E|]. destruct (Z.min pos MAX_DISTANCE <? d); [inversion E; lia|].
  destruct (match target with None => Ok None | Some _ => prefix4 data cp end) as [cand| | |]; cbn [rbind] in E; try discriminate.
  destruct (match target, cand with Some p, Some c => negb (c =? p) | _, _ => false end); [eapply IH; exact E|].
  destruct (match_length data cp pos) as [len| | |]; cbn [rbind] in E; try discriminate.
  destruct (better minl len d bl bd) eqn:Bt.
  - assert (bl <= len) by (unfold better in Bt; rewrite !andb_true_iff, orb_true_iff, andb_true_iff in Bt; lia).
    destruct ((MAX_MATCH_LENGTH <=? len) || (nice <=? len)); [inversion E; lia|]. apply IH in E. lia.
  - eapply IH; exact E.
Qed.
Lemma probe_grows st data pos nice minl bl bd p : probe3 st data pos nice minl bl bd = Ok p ->
  match p with inl (bl', _) => bl <= bl' | inr (l, _) => bl <= l end.
Proof.
  unfold probe3. intros E. destruct (hash3 data pos) as [h| | |]; cbn [rbind] in E; try discriminate.
  destruct (tget HASH3_SIZE (t_head3 st) h) as [c| | |]; cbn [rbind] in E; try discriminate.
  destruct (c <? 0); [inversion E; lia|]. destruct (usub pos c) as [d| | |]; cbn [rbind] in E; try discriminate.
  destruct (d =? 0); [inversion E; lia|]. destruct ((d <=? MAX_DISTANCE) && (c + 3 <=? zlen data)); [|inversion E; lia].
  destruct (slice_r data pos (pos + 3)) as [a| | |]; cbn [rbind] in E; try discriminate.
  destruct (slice_r data c (c + 3)) as [b| | |]; cbn [rbind] in E; try discriminate.
  destruct (le_val a =? le_val b); [|inversion E; lia].
  destruct (match_length data c pos) as [l0| | |]; cbn [rbind] in E; try discriminate.
  destruct (better minl (Z.min l0 MAX_MATCH_LENGTH) d bl bd) eqn:Bt; [|inversion E; lia].
  assert (bl <= Z.min l0 MAX_MATCH_LENGTH) by (unfold better in Bt; rewrite !andb_true_iff, orb_true_iff, andb_true_iff in Bt; lia).
  destruct (nice <=? Z.min l0 MAX_MATCH_LENGTH); inversion E; subst; lia.
Qed.
Lemma find_covers st data pos chain nice minl m r : 3 <= minl <= 6 -> mid data pos -> run_at data pos r -> 6 <= r ->
  find_best_match st data pos chain nice minl = Ok m -> exists L d, m = Some (L, d) /\ covers data pos L.
Proof.
  intros Hm M Hr H6 E. unfold find_best_match, MIN_MATCH_LENGTH in E. pose proof M as (M1 & M2). pose proof Hr as (R1 & R2 & R3).
  destruct (Z.ltb_spec (zlen data) (pos + 3)); [lia|].
  destruct (detect_run_ok data pos) as (n & En & (N1 & N2 & N3)); [lia|]. rewrite En in E; cbn [rbind] in E.
  assert (n = Z.min r 258) as Nr.
  { destruct (Z.lt_trichotomy n (Z.min r 258)) as [L|[L|L]]; [|assumption|].
    - exfalso. apply N3; [lia|]. apply R2. lia.
    - exfalso. apply R3; [lia|]. apply N2. lia. }
  assert (in_run data pos n minl = Ok true) as EI.
  { unfold in_run. destruct (Z.leb_spec minl n); [|lia]. destruct (Z.leb_spec 1 pos); [|lia]. cbn [andb]. rewrite !get_znth by lia. cbn [rbind]. rewrite M2, Z.eqb_refl. reflexivity. }
  rewrite EI in E; cbn [rbind andb] in E.
  assert (forall L, n <= L -> covers data pos L) as Cov.
  { intros L HL r' Hr'. rewrite (run_unique data pos r' r Hr' Hr). lia. }
  destruct ((nice <=? n) || (MAX_MATCH_LENGTH <=? n)).
  { injection E as <-. do 2 eexists. split; [reflexivity|]. apply Cov. unfold MAX_MATCH_LENGTH. lia. }
  destruct (probe3 st data pos nice minl n 1) as [p| | |] eqn:Ep; cbn [rbind] in E; try discriminate.
  apply probe_grows in Ep. destruct p as [[bl bd]|[l d]].
  - destruct (hash4 data pos) as [h| | |]; cbn [rbind] in E; try discriminate.
    destruct (tget HASH_SIZE (t_head st) h) as [cp| | |]; cbn [rbind] in E; try discriminate.
    destruct (prefix4 data pos) as [tg| | |]; cbn [rbind] in E; try discriminate.
    destruct (chain_loop (Z.to_nat chain) st data pos nice minl tg cp bl bd) as [[bl' bd']| | |] eqn:Ec; cbn [rbind] in E; try discriminate.
    apply chain_grows in Ec. destruct (Z.leb_spec minl bl'); [|lia]. injection E as <-. do 2 eexists. split; [reflexivity|]. apply Cov. lia.
  - injection E as <-. do 2 eexists. split; [reflexivity|]. apply Cov. lia.
Qed.

(** ** The bucket search of level 1 *)
Definition seen (data : list Z) (st : tables) (pos : Z) : Prop :=
  exists p h, 0 <= p < pos /\ pos - p <= 258 /\ all_eq data p (pos - p + 1) /\ hash4_ht data p = Ok h /\ t_ht0 st h = p.
Lemma update_hash_ht st data pos st' : update_hash st data pos = Ok st' -> t_ht0 st' = t_ht0 st.
Proof.
  unfold update_hash. intros E. destruct (zlen data <=? pos + 3); [congruence|].
  destruct (hash3 data pos) as [h3| | |]; cbn [rbind] in E; try discriminate.
  destruct (tset HASH3_SIZE (t_head3 st) h3 (as_i32 pos)) as [t3| | |]; cbn [rbind] in E; try discriminate.
  destruct (hash4 data pos) as [h| | |]; cbn [rbind] in E; try discriminate.
  destruct (tget HASH_SIZE (t_head st) h) as [o| | |]; cbn [rbind] in E; try discriminate.
  destruct (tset MAX_DISTANCE (t_prev st) (pos mod MAX_DISTANCE) o) as [pv| | |]; cbn [rbind] in E; try discriminate.
  destruct (tset HASH_SIZE (t_head st) h (as_i32 pos)) as [hd| | |]; cbn [rbind] in E; try discriminate.
  injection E as <-. reflexivity.
Qed.
Lemma update_range_ht n : forall st data pos st', update_range n st data pos = Ok st' -> t_ht0 st' = t_ht0 st.
Proof.
  induction n as [|n IH]; intros st data pos st' E; cbn [update_range] in E; [congruence|].
  destruct (update_hash st data pos) as [s1| | |] eqn:E1; cbn [rbind] in E; try discriminate.
  rewrite (IH _ _ _ _ E). eapply update_hash_ht; eassumption.
Qed.
Lemma update_match_ht st data pos len dist st' : update_match st data pos len dist = Ok st' -> t_ht0 st' = t_ht0 st.
Proof.
  unfold update_match. intros E. destruct ((dist =? 1) && (MIN_MATCH_LENGTH <=? len)); [|eapply update_range_ht; eassumption].
  destruct (update_hash st data pos) as [s1| | |] eqn:E1; cbn [rbind] in E; try discriminate. apply update_hash_ht in E1.
  destruct (1 <? len); [apply update_hash_ht in E; congruence|congruence].
Qed.
Lemma seen_same data st st' pos : t_ht0 st' = t_ht0 st -> seen data st pos -> seen data st' pos.
Proof. intros E (p & h & H). exists p, h. rewrite E. exact H. Qed.
Lemma ht_grows cands : forall data pos nice minl bl bd bl' bd', ht_loop cands data pos nice minl bl bd = Ok (bl', bd') -> bl <= bl'.
Proof.
  induction cands as [|c cands IH]; intros data pos nice minl bl bd bl' bd' E; cbn [ht_loop] in E; [inversion E; lia|].
  destruct (c <? 0); [eapply IH; exact E|]. destruct (usub pos c) as [d| | |]; cbn [rbind] in E; try discriminate.
  destruct ((d =? 0) || (MAX_DISTANCE <? d) || (zlen data <? c + 3)); [eapply IH; exact E|].
  destruct (slice_r data pos (pos + 3)) as [a| | |]; cbn [rbind] in E; try discriminate.
  destruct (slice_r data c (c + 3)) as [b| | |]; cbn [rbind] in E; try discriminate.
  destruct (negb (le_val a =? le_val b)); [eapply IH; exact E|].
  destruct (match_length data c pos) as [l0| | |]; cbn [rbind] in E; try discriminate.
  destruct ((Z.min l0 MAX_MATCH_LENGTH <? minl) || ((Z.min l0 MAX_MATCH_LENGTH =? 3) && (8192 <? d))); [eapply IH; exact E|].
  destruct (Z.ltb_spec bl (Z.min l0 MAX_MATCH_LENGTH)); [|eapply IH; exact E].
  destruct (nice <=? Z.min l0 MAX_MATCH_LENGTH); [inversion E; lia|]. apply IH in E. lia.
Qed.
Lemma slice_same data p q n : 0 <= p -> 0 <= q -> 0 <= n -> p + n <= zlen data -> q + n <= zlen data ->
  (forall i, 0 <= i < n -> znth data (p + i) = znth data (q + i)) -> slice data p (p + n) = slice data q (q + n).
Proof.
  intros Hp Hq Hn P Q H. apply (nth_ext _ _ 0 0); [rewrite !slice_length by lia; lia|].
  intros i Hi. rewrite slice_length in Hi by lia. rewrite <- (Nat2Z.id i), !slice_nth by lia. apply H. lia.
Qed.
Lemma ht_covers st data pos nice minl m st' r : bytes data -> 3 <= minl <= 6 -> mid data pos -> run_at data pos r -> 6 <= r -> seen data st pos ->
  find_best_match_ht st data pos nice minl = Ok (m, st') -> exists L d, m = Some (L, d) /\ covers data pos L.
Proof.
  intros Hb Hm M Hr H6 (p & h & P1 & P2 & P3 & P4 & P5) E. pose proof M as (M1 & M2). pose proof Hr as (R1 & R2 & R3).
  assert (forall i, 0 <= i < r -> znth data (p + i) = znth data (pos + i)) as Same.
  { intros i Hi. rewrite (R2 i Hi). destruct (Z_lt_dec i (pos - p + 1)) as [L|L].
    - rewrite (P3 i) by lia. symmetry. replace pos with (p + (pos - p)) at 1 by lia. apply P3. lia.
    - replace (p + i) with (pos + (i - (pos - p))) by lia. apply R2. lia. }
  unfold find_best_match_ht, MIN_MATCH_LENGTH in E. destruct (Z.ltb_spec (zlen data) (pos + 3)); [lia|].
  assert (hash4_ht data pos = Ok h) as Eh.
  { rewrite <- P4. unfold hash4_ht. destruct (Z.leb_spec (zlen data) (pos + 3)); [lia|]. destruct (Z.leb_spec (zlen data) (p + 3)); [lia|].
    rewrite !slice_r_ok by lia. cbn [rbind]. rewrite (slice_same data p pos 4) by (try lia; intros; apply Same; lia). reflexivity. }
  destruct (hash4_ht_ok data pos ltac:(lia)) as (h' & Eh' & Rh). rewrite Eh in Eh'. injection Eh' as <-.
  rewrite Eh in E. cbn [rbind] in E. rewrite !tget_ok in E by assumption. cbn [rbind] in E. rewrite !tset_ok in E by assumption. cbn [rbind] in E.
  destruct (ht_loop [t_ht0 st h; t_ht1 st h] data pos nice minl (Z.max 0 (minl - 1)) 0) as [[bl bd]| | |] eqn:El; cbn [rbind] in E; try discriminate.
  assert (Z.min r 258 <= bl) as HL.
  { rewrite P5 in El. remember [t_ht1 st h] as rest. cbn [ht_loop] in El. destruct (Z.ltb_spec p 0); [lia|]. unfold usub in El. destruct (Z.ltb_spec pos p); [lia|]. cbn [rbind] in El.
    destruct (Z.eqb_spec (pos - p) 0); [lia|]. destruct (Z.ltb_spec MAX_DISTANCE (pos - p)); [unfold MAX_DISTANCE in *; lia|]. destruct (Z.ltb_spec (zlen data) (p + 3)); [lia|]. cbn [orb] in El.
    rewrite !slice_r_ok in El by lia. cbn [rbind] in El. rewrite (slice_same data p pos 3) in El by (try lia; intros; apply Same; lia). rewrite Z.eqb_refl in El. cbn [negb] in El.
    destruct (match_length_ok data p pos Hb ltac:(lia) ltac:(lia)) as (l0 & E0 & (C1 & C2 & C3)). rewrite E0 in El. cbn [rbind] in El.
    assert (Z.min r 258 <= l0) as L0 by (destruct (Z_le_dec (Z.min r 258) l0) as [|N]; [assumption|]; exfalso; apply C3; [lia|]; apply Same; lia).
    assert (Z.min l0 MAX_MATCH_LENGTH = l0) as EQ by (unfold MAX_MATCH_LENGTH; lia). rewrite EQ in El.
    destruct (Z.ltb_spec l0 minl); [lia|]. destruct (Z.eqb_spec l0 3); [lia|]. cbn [orb andb] in El.
    destruct (Z.ltb_spec (Z.max 0 (minl - 1)) l0); [|lia]. destruct (nice <=? l0); [inversion El; lia|].
    assert (l0 <= bl) by (eapply ht_grows; exact El). lia. }
  destruct (Z.leb_spec minl bl); [|lia]. injection E as <- _. do 2 eexists. split; [reflexivity|]. intros r' Hr'. rewrite (run_unique data pos r' r Hr' Hr). exact HL.
Qed.
Lemma ht_seen st data pos nice minl m st' k : 0 <= pos -> pos < 2 ^ 31 -> pos + 3 <= zlen data -> 1 <= k <= 258 -> all_eq data pos (k + 1) ->
  find_best_match_ht st data pos nice minl = Ok (m, st') -> seen data st' (pos + k).
Proof.
  intros H0 H1 H2 Hk A E. unfold find_best_match_ht, MIN_MATCH_LENGTH in E. destruct (Z.ltb_spec (zlen data) (pos + 3)); [lia|].
  destruct (hash4_ht_ok data pos H0) as (h & Eh & Rh). rewrite Eh in E. cbn [rbind] in E. rewrite !tget_ok in E by assumption. cbn [rbind] in E. rewrite !tset_ok in E by assumption. cbn [rbind] in E.
  destruct (ht_loop [t_ht0 st h; t_ht1 st h] data pos nice minl (Z.max 0 (minl - 1)) 0) as [[bl bd]| | |]; cbn [rbind] in E; try discriminate.
  assert (t_ht0 st' h = pos) as T.
  { destruct (minl <=? bl); injection E as _ <-; cbn [t_ht0]; rewrite Z.eqb_refl; unfold as_i32; rewrite wrap_id by lia; destruct (Z.ltb_spec pos (2 ^ 31)); lia. }
  exists pos, h. split; [lia|]. split; [lia|]. replace (pos + k - pos) with k by lia. auto.
Qed.

(** ** Counting tokens *)
Definition debt (data : list Z) (s : lstate) : Z := zlen (l_out s) - l_pos s / 258 - 280 * R data (l_pos s).
Definition room (cfg : config) (data : list Z) (s : lstate) (r : Z) : Prop :=
  (l_incomp s = true -> (r < 6 -> debt data s <= - r) /\ (6 <= r -> debt data s <= l_probe s - 278)) /\
  (l_incomp s = false -> (r < 16 -> debt data s <= - r) /\
    (16 <= r -> debt data s <= - 22 \/ (debt data s <= - 21 /\ c_ht cfg = true /\ seen data (l_st s) (l_pos s))) /\
    (c_ht cfg = true -> 6 <= r -> seen data (l_st s) (l_pos s) \/ l_streak s = 0)).
Definition long_cover (data : list Z) (pos L : Z) : Prop := mid data pos -> forall r, run_at data pos r -> 16 <= r -> Z.min r 258 <= L.
Definition J (cfg : config) (data : list Z) (s : lstate) : Prop :=
  linv data s /\ (l_incomp s = true -> 0 <= l_probe s <= 256) /\ (~ mid data (l_pos s) -> debt data s <= 0) /\
  (mid data (l_pos s) -> forall r, run_at data (l_pos s) r -> room cfg data s r) /\
  (forall nl nd, l_pending s = Some (nl, nd) -> long_cover data (l_pos s) nl) /\
  (c_ht cfg = true -> l_pending s = None).
Definition cfg_ok (cfg : config) (data : list Z) : Prop := c_ht cfg = true -> c_lazy cfg = LazyNone /\ zlen data <= 2 ^ 31.

Lemma room_neg cfg data s r : 1 <= r -> (l_incomp s = true -> 0 <= l_probe s <= 256) -> room cfg data s r -> debt data s <= - 1.
Proof.
  intros Hr Hp (A & B). destruct (l_incomp s) eqn:I.
  - destruct (A eq_refl) as (A1 & A2). specialize (Hp eq_refl). destruct (Z_lt_dec r 6); [specialize (A1 ltac:(lia)); lia|specialize (A2 ltac:(lia)); lia].
  - destruct (B eq_refl) as (B1 & B2 & _). destruct (Z_lt_dec r 16); [specialize (B1 ltac:(lia)); lia|destruct (B2 ltac:(lia)) as [|(? & _)]; lia].
Qed.
Lemma J_neg cfg data s : J cfg data s -> debt data s <= 0.
Proof.
  intros ((Hp & _) & P & N & M & _). destruct (mid_dec data (l_pos s)) as [m|m]; [|auto].
  destruct (run_ex data (l_pos s)) as (r & Hr); [destruct m; lia|]. specialize (M m r Hr). apply room_neg in M; [lia|destruct Hr; lia|assumption].
Qed.
Lemma advance cfg data s s' L : J cfg data s -> linv data s' -> l_pos s < zlen data -> l_pos s' = l_pos s + L -> 1 <= L -> zlen (l_out s') = zlen (l_out s) + 1 ->
  (l_incomp s' = true -> 0 <= l_probe s' <= 256) -> (forall nl nd, l_pending s' = Some (nl, nd) -> long_cover data (l_pos s') nl) -> (c_ht cfg = true -> l_pending s' = None) ->
  (l_incomp s' = false -> c_ht cfg = true -> mid data (l_pos s') -> forall r, run_at data (l_pos s') r -> 6 <= r -> seen data (l_st s') (l_pos s') \/ l_streak s' = 0) ->
  (mid data (l_pos s) -> forall r, run_at data (l_pos s) r -> L < r -> room cfg data s' (r - L)) -> J cfg data s'.
Proof.
  intros HJ LI HN HP HL HO Hpr Hpe Hnp Hht Hin. pose proof (J_neg _ _ _ HJ) as D0. destruct HJ as ((Pb & _) & Pp & Pn & Pm & _).
  pose proof LI as (Pb' & _).
  assert (l_pos s / 258 <= l_pos s' / 258) as DV by (apply Z.div_le_mono; lia).
  assert (R data (l_pos s) + 1 <= R data (l_pos s') -> debt data s' <= -279) as Jump by (intros; unfold debt in *; lia).
  assert (debt data s' <= -279 -> mid data (l_pos s') -> forall r, run_at data (l_pos s') r -> room cfg data s' r) as Far.
  { intros D M r Hr. pose proof Hr as (R1 & _). split; intros I.
    - specialize (Hpr I). split; intros; lia.
    - split; [intros; lia|]. split; [intros; left; lia|]. intros Hh H6. apply (Hht I Hh M r Hr H6). }
  split; [assumption|]. split; [assumption|].
  destruct (mid_dec data (l_pos s)) as [m|m].
  - destruct (run_ex data (l_pos s)) as (r & Hr); [lia|].
    pose proof (room_neg _ _ _ _ (proj1 (proj1 Hr)) Pp (Pm m r Hr)) as D1.
    destruct (Z_lt_dec r L) as [C|C]; [|destruct (Z.eq_dec L r) as [C2|C2]].
    + pose proof (R_beyond data (l_pos s) r L m Hr C ltac:(lia)) as RB. rewrite <- HP in RB. specialize (Jump RB).
      split; [intros; lia|]. split; [intros; apply Far; assumption|]. auto.
    + pose proof (R_inside data (l_pos s) r L m Hr ltac:(lia)) as RI. rewrite <- HP in RI.
      pose proof (mid_after data (l_pos s) r ltac:(lia) Hr) as NM. rewrite <- C2, <- HP in NM.
      split; [intros _; unfold debt in *; rewrite RI; lia|]. split; [intros; contradiction|]. auto.
    + pose proof (mid_inside data (l_pos s) r L m Hr ltac:(lia)) as MI. rewrite <- HP in MI.
      pose proof (run_inside data (l_pos s) r L ltac:(lia) Hr ltac:(lia)) as RI. rewrite <- HP in RI.
      split; [intros; contradiction|]. split; [|auto]. intros _ r' Hr'. rewrite (run_unique _ _ _ _ Hr' RI). apply Hin; [assumption|assumption|lia].
  - pose proof (R_start data (l_pos s) L ltac:(lia) m HL) as RS. rewrite <- HP in RS. specialize (Jump RS).
    split; [intros; lia|]. split; [intros; apply Far; assumption|]. auto.
Qed.
Lemma debt_step data s s' L r : mid data (l_pos s) -> run_at data (l_pos s) r -> 0 <= L <= r -> l_pos s' = l_pos s + L -> zlen (l_out s') = zlen (l_out s) + 1 ->
  debt data s' <= debt data s + 1 /\ (L = 258 -> debt data s' = debt data s).
Proof.
  intros M Hr HL HP HO. pose proof (R_inside data (l_pos s) r L M Hr HL) as RI. rewrite <- HP in RI. unfold debt. rewrite RI, HO.
  assert (l_pos s / 258 <= l_pos s' / 258) by (apply Z.div_le_mono; destruct M; lia).
  split; [lia|]. intros ->. rewrite HP. replace (l_pos s + 258) with (l_pos s + 1 * 258) by lia. rewrite Z.div_add by lia. lia.
Qed.

Lemma incomp_step cfg data minl s s' : bytes data -> 3 <= minl <= 6 -> J cfg data s -> l_incomp s = true -> l_pos s < zlen data ->
  step_incomp cfg data minl s = Ok s' -> J cfg data s'.
Proof.
  intros Hb Hm HJ Hi Hn E. pose proof HJ as (LI & Pp & Pn & Pm & Pe & Ph). specialize (Pp Hi).
  destruct (step_incomp_ok cfg data minl s Hb ltac:(lia) LI Hi Hn) as (s2 & E2 & LI' & _ & OUT). rewrite E in E2. injection E2 as <-.
  assert (zlen (l_out s') = zlen (l_out s) + 1) as HO by (unfold zlen; rewrite OUT; lia). clear OUT.
  unfold step_incomp in E.
  destruct (if INCOMP_PROBE <=? l_probe s then find_best_match (l_st s) data (l_pos s) (Z.min INCOMP_CHAIN (c_depth cfg)) (c_nice cfg) minl else Ok None) as [hit| | |] eqn:Eh; cbn [rbind] in E; try discriminate.
  pose proof LI as (Pb & Tb & _ & _ & Hpd). specialize (Hpd Hi).
  destruct hit as [[len dist]|].
  - destruct (INCOMP_PROBE <=? l_probe s); [|discriminate].
    destruct (find_best_match_ok (l_st s) data (l_pos s) (Z.min INCOMP_CHAIN (c_depth cfg)) (c_nice cfg) minl Hb ltac:(lia) ltac:(lia) Tb) as (m & Em & Vm). rewrite Eh in Em. injection Em as <-. destruct Vm as (V1 & _).
    destruct (update_match (l_st s) data (l_pos s) len dist) as [st'| | |]; cbn [rbind] in E; try discriminate.
    assert (s' = mk_ls (l_pos s + len) 0 false 0 (l_upds s) (l_pending s) st' (push_match (l_out s) len dist)) as Es by congruence. clear E.
    apply (advance cfg data s s' len HJ LI' Hn); [subst; reflexivity|lia|exact HO|subst; discriminate|subst; cbn; rewrite Hpd; discriminate|subst; cbn; rewrite Hpd; reflexivity|subst; right; reflexivity|].
    intros M r Hr HL. destruct (debt_step data s s' len r M Hr ltac:(lia) ltac:(subst; reflexivity) HO) as (D1 & D2).
    destruct (Pm M r Hr) as (RA & _). destruct (RA Hi) as (RA1 & RA2).
    assert ((r - len < 16 -> debt data s' <= - (r - len)) /\ (16 <= r - len -> debt data s' <= -22)) as (F1 & F2).
    { destruct (Z_lt_dec r 6) as [C|C]; [specialize (RA1 C); lia|]. specialize (RA2 ltac:(lia)).
      destruct (find_covers _ _ _ _ _ _ _ r Hm M Hr ltac:(lia) Eh) as (L & d & EL & CL). injection EL as <- <-. specialize (CL r Hr).
      assert (len = 258) as EL by lia. specialize (D2 EL). split; lia. }
    split; [subst; discriminate|]. intros _. split; [lia|]. split; [intros; left; lia|]. intros; right; subst; reflexivity.
  - destruct (get data (l_pos s)) as [b| | |]; cbn [rbind] in E; try discriminate.
    match type of E with context [rbind ?X _] => destruct X as [[st' u']| | |]; cbn [rbind] in E; try discriminate end.
    set (probe := if INCOMP_PROBE <=? l_probe s then 0 else l_probe s) in *.
    assert (s' = mk_ls (l_pos s + 1) (sat_inc (l_streak s)) true (sat_inc probe) u' (l_pending s) st' (TLit b :: l_out s)) as Es by congruence. clear E.
    assert (0 <= sat_inc probe <= 256) as SP by (unfold probe, sat_inc, INCOMP_PROBE; destruct (Z.leb_spec 256 (l_probe s)); lia).
    apply (advance cfg data s s' 1 HJ LI' Hn); [subst s'; reflexivity|lia|exact HO|intros _; subst s'; exact SP|subst s'; cbn; rewrite Hpd; discriminate|subst s'; cbn; rewrite Hpd; reflexivity|subst s'; discriminate|].
    intros M r Hr HL. destruct (debt_step data s s' 1 r M Hr ltac:(lia) ltac:(subst s'; reflexivity) HO) as (D1 & _).
    destruct (Pm M r Hr) as (RA & _). destruct (RA Hi) as (RA1 & RA2).
    split; [|subst s'; discriminate]. intros _.
    destruct (Z_lt_dec r 6) as [C|C]; [specialize (RA1 C); split; [lia|intros; lia]|]. specialize (RA2 ltac:(lia)).
    destruct (Z.leb_spec INCOMP_PROBE (l_probe s)) as [HP|HP].
    + destruct (find_covers _ _ _ _ _ _ _ r Hm M Hr ltac:(lia) Eh) as (L & d & EL & _). discriminate EL.
    + assert (l_probe s' = l_probe s + 1) as EP by (subst s'; cbn [l_probe]; unfold probe, sat_inc, INCOMP_PROBE in *; destruct (Z.leb_spec 256 (l_probe s)); lia).
      rewrite EP. unfold INCOMP_PROBE in HP. split; intros; lia.
Qed.

Lemma ht_none_far cfg st data pos chain minl m st' : search cfg st data pos chain minl = Ok (m, st') -> c_ht cfg = true ->
  find_best_match_ht st data pos (c_nice cfg) minl = Ok (m, st').
Proof. unfold search. intros E H. rewrite H in E. exact E. Qed.
Lemma search_plain cfg st data pos chain minl m st' : search cfg st data pos chain minl = Ok (m, st') -> c_ht cfg = false ->
  find_best_match st data pos (Z.min chain (c_depth cfg)) (c_nice cfg) minl = Ok m /\ st' = st.
Proof.
  unfold search. intros E H. rewrite H in E. destruct (find_best_match st data pos (Z.min chain (c_depth cfg)) (c_nice cfg) minl) as [x| | |]; cbn [rbind] in E; try discriminate.
  injection E as <- <-. auto.
Qed.
(** what a normal step knows about the match it looks at *)
Lemma best_facts cfg data minl s best st chain : bytes data -> 3 <= minl <= 6 -> cfg_ok cfg data -> J cfg data s -> l_incomp s = false -> l_pos s < zlen data ->
  (match l_pending s with Some p => Ok (Some p, l_st s) | None => search cfg (l_st s) data (l_pos s) chain minl end) = Ok (best, st) ->
  match_ok data (l_pos s) best /\
  (c_ht cfg = true -> forall k, 1 <= k <= 258 -> l_pos s + 3 <= zlen data -> all_eq data (l_pos s) (k + 1) -> seen data st (l_pos s + k)) /\
  (mid data (l_pos s) -> forall r, run_at data (l_pos s) r ->
    (c_ht cfg = true /\ l_streak s = 0 /\ (16 <= r -> debt data s <= -22)) \/
    ((6 <= r -> best <> None) /\ forall len d, best = Some (len, d) -> 16 <= r -> Z.min r 258 <= len)).
Proof.
  intros Hb Hm HC HJ Hi Hn E. pose proof HJ as (LI & Pp & Pn & Pm & Pe & Ph). pose proof LI as (Pb & Tb & _ & Vp & _).
  destruct (l_pending s) as [[nl nd]|] eqn:EP.
  - injection E as <- <-. split; [exact Vp|]. split; [intros Hh; specialize (Ph Hh); discriminate|].
    intros M r Hr. right. split; [discriminate|]. intros len d EL H16. injection EL as <- <-. apply (Pe nl nd eq_refl M r Hr H16).
  - destruct (search_ok cfg (l_st s) data (l_pos s) chain minl Hb ltac:(lia) ltac:(lia) Tb) as (m & st2 & Em & Vm & _). rewrite E in Em. injection Em as <- <-.
    split; [exact Vm|]. destruct (c_ht cfg) eqn:Hh.
    + pose proof (ht_none_far _ _ _ _ _ _ _ _ E Hh) as EH. destruct (HC Hh) as (_ & HZ).
      split; [intros _ k Hk H3 A; apply (ht_seen (l_st s) data (l_pos s) (c_nice cfg) minl best st k); auto; lia|].
      intros M r Hr. destruct (Pm M r Hr) as (_ & RB). destruct (RB Hi) as (_ & RB2 & RB3).
      destruct (Z_lt_dec r 6) as [C|C]; [right; split; [intros; lia|]; intros; lia|].
      destruct (RB3 Hh ltac:(lia)) as [SE|SE].
      * right. destruct (ht_covers (l_st s) data (l_pos s) (c_nice cfg) minl best st r Hb Hm M Hr ltac:(lia) SE EH) as (L & d & EL & CL).
        split; [rewrite EL; discriminate|]. intros len d' EQ _. rewrite EL in EQ. injection EQ as <- <-. apply CL. exact Hr.
      * destruct (Z_lt_dec r 16) as [C2|C2]; [left; split; [reflexivity|]; split; [exact SE|intros; lia]|].
        destruct (RB2 ltac:(lia)) as [D|(D & _ & SE2)]; [left; auto|].
        right. destruct (ht_covers (l_st s) data (l_pos s) (c_nice cfg) minl best st r Hb Hm M Hr ltac:(lia) SE2 EH) as (L & d & EL & CL).
        split; [rewrite EL; discriminate|]. intros len d' EQ _. rewrite EL in EQ. injection EQ as <- <-. apply CL. exact Hr.
    + split; [discriminate|]. destruct (search_plain _ _ _ _ _ _ _ _ E Hh) as (EF & ->). intros M r Hr. right.
      destruct (Z_lt_dec r 6) as [C|C]; [split; [intros; lia|]; intros; lia|].
      destruct (find_covers _ _ _ _ _ _ _ r Hm M Hr ltac:(lia) EF) as (L & d & EL & CL).
      split; [rewrite EL; discriminate|]. intros len d' EQ _. rewrite EL in EQ. injection EQ as <- <-. apply CL. exact Hr.
Qed.
Lemma normal_step cfg data minl s s' : bytes data -> 3 <= minl <= 6 -> cfg_ok cfg data -> J cfg data s -> l_incomp s = false -> l_pos s < zlen data ->
  step_normal cfg data minl s = Ok s' -> J cfg data s'.
Proof.
  intros Hb Hm HC HJ Hi Hn E. pose proof HJ as (LI & Pp & Pn & Pm & Pe & Ph).
  destruct (step_normal_ok cfg data minl s Hb ltac:(lia) LI Hi Hn) as (s2 & E2 & LI' & _ & OUT). rewrite E in E2. injection E2 as <-.
  assert (zlen (l_out s') = zlen (l_out s) + 1) as HO by (unfold zlen; rewrite OUT; lia). clear OUT.
  pose proof LI as (Pb & _). unfold step_normal in E.
  set (chain := if INCOMP_THRESHOLD <=? l_streak s then INCOMP_CHAIN else c_chain cfg) in *.
  destruct (match l_pending s with Some p => Ok (Some p, l_st s) | None => search cfg (l_st s) data (l_pos s) chain minl end) as [[best st]| | |] eqn:Eb; cbn [rbind] in E; try discriminate.
  destruct (best_facts cfg data minl s best st chain Hb Hm HC HJ Hi Hn Eb) as (Vb & Sb & Fb).
  destruct best as [[len dist]|].
  - destruct Vb as (V1 & V2 & V3 & V4 & _). destruct (Z.eqb_spec dist 0); [lia|].
    match type of E with rbind (if ?c then ?x else ?y) _ = _ => destruct (if c then x else y) as [[defer st2]| | |] eqn:Ed; cbn [rbind] in E; try discriminate end.
    assert (c_ht cfg = true -> defer = None /\ st2 = st) as HT.
    { intros Hh. destruct (HC Hh) as (HL & _). rewrite HL in Ed. cbn [andb] in Ed. injection Ed as <- <-. auto. }
    destruct defer as [[nl nd]|].
    + assert (c_ht cfg = false) as Hh by (destruct (c_ht cfg); [destruct (HT eq_refl); discriminate|reflexivity]).
      match type of Ed with (if ?c then _ else _) = _ => destruct c eqn:Ec; [|discriminate] end.
      apply andb_true_iff in Ec as (Ec & _). apply andb_true_iff in Ec as (_ & Ec). apply Z.ltb_lt in Ec. unfold GOOD_MATCH_LENGTH in Ec.
      destruct (update_hash st data (l_pos s)) as [st1| | |]; cbn [rbind] in Ed; try discriminate.
      match type of Ed with context [search cfg st1 data (l_pos s + 1) ?nc minl] => destruct (search cfg st1 data (l_pos s + 1) nc minl) as [[nm st3]| | |] eqn:Es; cbn [rbind] in Ed; try discriminate end.
      assert (nm = Some (nl, nd)) as -> by (destruct nm as [[a b]|]; [destruct ((len + 3 <=? a) || (c_nice cfg <=? a)); congruence|discriminate]).
      destruct (get data (l_pos s)) as [b| | |]; cbn [rbind] in E; try discriminate.
      assert (s' = mk_ls (l_pos s + 1) 0 false 0 (l_upds s) (Some (nl, nd)) st2 (TLit b :: l_out s)) as EE by congruence. clear E.
      apply (advance cfg data s s' 1 HJ LI' Hn); [subst s'; reflexivity|lia|exact HO|subst s'; discriminate| |rewrite Hh; discriminate|rewrite Hh; discriminate|].
      * intros nl' nd' EP. subst s'. cbn [l_pending l_pos] in *. injection EP as <- <-. intros M r Hr H16.
        destruct (search_plain _ _ _ _ _ _ _ _ Es Hh) as (EF & _).
        destruct (find_covers _ _ _ _ _ _ _ r Hm M Hr ltac:(lia) EF) as (L & d & EL & CL). injection EL as <- <-. apply CL. exact Hr.
      * intros M r Hr HL. destruct (debt_step data s s' 1 r M Hr ltac:(lia) ltac:(subst s'; reflexivity) HO) as (D1 & _).
        destruct (Pm M r Hr) as (_ & RB). destruct (RB Hi) as (RB1 & _ & _).
        destruct (Z_lt_dec r 16) as [C|C].
        -- specialize (RB1 C). split; [subst s'; discriminate|]. intros _. split; [lia|]. split; [intros; lia|rewrite Hh; discriminate].
        -- exfalso. destruct (Fb M r Hr) as [(F & _)|(_ & F)]; [congruence|]. specialize (F len dist eq_refl ltac:(lia)). lia.
    + destruct (update_match st2 data (l_pos s) len dist) as [st'| | |] eqn:Eu; cbn [rbind] in E; try discriminate.
      assert (s' = mk_ls (l_pos s + len) 0 false 0 (l_upds s) None st' (push_match (l_out s) len dist)) as EE by congruence. clear E.
      apply (advance cfg data s s' len HJ LI' Hn); [subst s'; reflexivity|lia|exact HO|subst s'; discriminate|subst s'; discriminate|subst s'; reflexivity|subst s'; right; reflexivity|].
      intros M r Hr HL. destruct (debt_step data s s' len r M Hr ltac:(lia) ltac:(subst s'; reflexivity) HO) as (D1 & D2).
      destruct (Pm M r Hr) as (_ & RB). destruct (RB Hi) as (RB1 & RB2 & _).
      split; [subst s'; discriminate|]. intros _.
      assert (l_streak s' = 0) as ES by (subst s'; reflexivity).
      destruct (Z_lt_dec r 16) as [C|C].
      * specialize (RB1 C). split; [lia|]. split; [intros; lia|]. intros; right; exact ES.
      * specialize (RB2 ltac:(lia)).
        assert (c_ht cfg = true -> seen data (l_st s') (l_pos s')) as SE.
        { intros Hh. destruct (HT Hh) as (_ & E2). subst s'. cbn [l_st l_pos]. apply update_match_ht in Eu. apply (seen_same data st2); [exact Eu|]. rewrite E2.
          pose proof Hr as (R1 & R2 & _). apply Sb; [exact Hh|lia|lia|]. intros i Hi'. apply R2. lia. }
        assert (debt data s' <= -22 \/ (debt data s' <= -21 /\ c_ht cfg = true /\ seen data (l_st s') (l_pos s'))) as DD.
        { destruct (Fb M r Hr) as [(F1 & _ & F3)|(_ & F)].
          - specialize (F3 ltac:(lia)). right. split; [lia|]. auto.
          - specialize (F len dist eq_refl ltac:(lia)). assert (len = 258) as EL by lia. specialize (D2 EL). rewrite D2.
            destruct RB2 as [|(D & Hh & _)]; [left; assumption|right]. split; [exact D|]. auto. }
        split; [intros; lia|]. split; [intros; exact DD|]. intros; right; exact ES.
  - set (streak := sat_inc (l_streak s)) in *. cbv zeta in E.
    destruct (get data (l_pos s)) as [b| | |]; cbn [rbind] in E; try discriminate.
    destruct (update_hash st data (l_pos s)) as [st'| | |] eqn:Eu; cbn [rbind] in E; try discriminate. apply update_hash_ht in Eu.
    assert (l_pos s' = l_pos s + 1 /\ l_streak s' = streak /\ l_st s' = st' /\ l_pending s' = None /\
      (l_incomp s' = true -> l_probe s' = 0 /\ 1 <= l_streak s)) as (G1 & G2 & G3 & G4 & G5).
    { injection E as <-. cbn [l_pos l_streak l_st l_pending l_incomp l_probe]. do 4 (split; [reflexivity|]). intros I.
      unfold streak, sat_inc, INCOMP_THRESHOLD in *. destruct (Z.leb_spec 512 (l_streak s)), (Z.leb_spec 512 (Z.min (l_streak s + 1) (2 ^ 64 - 1))); try lia; discriminate I. }
    clear E.
    apply (advance cfg data s s' 1 HJ LI' Hn); [exact G1|lia|exact HO|intros I; destruct (G5 I); lia|rewrite G4; discriminate|auto| |].
    + intros _ Hh (M1 & M2) r Hr H6. left. rewrite G1, G3 in *. apply (seen_same data st); [exact Eu|]. pose proof Hr as (R1 & _). apply Sb; [exact Hh|lia|lia|].
      intros i Hi'. assert (i = 0 \/ i = 1) as [-> | ->] by lia; [f_equal; lia|]. rewrite <- M2. f_equal; lia.
    + intros M r Hr HL. destruct (debt_step data s s' 1 r M Hr ltac:(lia) G1 HO) as (D1 & _).
      destruct (Pm M r Hr) as (_ & RB). destruct (RB Hi) as (RB1 & RB2 & _).
      destruct (Z_lt_dec r 6) as [C|C].
      { specialize (RB1 ltac:(lia)). split; intros I; (split; [intros; lia|]); [intros; lia|]. split; [intros; lia|]. intros; lia. }
      destruct (Fb M r Hr) as [(Hh & F2 & F3)|(F & _)]; [|exfalso; apply F; [lia|reflexivity]].
      split; [intros I; destruct (G5 I); lia|]. intros I.
      assert (seen data (l_st s') (l_pos s')) as SE.
      { rewrite G1, G3. apply (seen_same data st); [exact Eu|]. pose proof Hr as (R1 & R2 & _). apply Sb; [exact Hh|lia|lia|]. intros i Hi'. apply R2. lia. }
      destruct (Z_lt_dec r 16) as [C2|C2].
      * specialize (RB1 C2). split; [intros; lia|]. split; [intros; lia|]. intros; left; exact SE.
      * specialize (F3 ltac:(lia)). split; [intros; lia|]. split; [intros; right; split; [lia|]; auto|]. intros; left; exact SE.
Qed.
Lemma loop_tokens fuel cfg data minl s s' : bytes data -> 3 <= minl <= 6 -> cfg_ok cfg data -> J cfg data s ->
  lz_loop fuel cfg data minl s = Ok s' -> J cfg data s' /\ l_pos s' = zlen data.
Proof.
  intros Hb Hm HC. revert s. induction fuel as [|f IH]; intros s HJ E; cbn [lz_loop] in E; pose proof HJ as ((Pb & _) & _).
  - destruct (Z.ltb_spec (l_pos s) (zlen data)); cbn [negb] in E; [discriminate|]. injection E as <-. split; [assumption|lia].
  - destruct (Z.ltb_spec (l_pos s) (zlen data)) as [L|L]; cbn [negb] in E; [|injection E as <-; split; [assumption|lia]].
    destruct (lz_step cfg data minl s) as [s1| | |] eqn:E1; cbn [rbind] in E; try discriminate. apply (IH s1); [|exact E].
    unfold lz_step in E1. destruct (l_incomp s) eqn:I; [eapply incomp_step; eassumption|eapply normal_step; eassumption].
Qed.
Lemma cnt_changes data : forall l pre x, data = pre ++ x :: l -> cnt data (length data) = cnt data (S (length pre)) + changes x l.
Proof.
  induction l as [|y l IH]; intros pre x E.
  - cbn [changes]. rewrite E at 2. rewrite app_length. cbn [length]. rewrite Nat.add_1_r. lia.
  - rewrite (IH (pre ++ [x]) y) by (rewrite E, <- app_assoc; reflexivity). rewrite app_length. cbn [length changes]. rewrite Nat.add_1_r.
    change (cnt data (S (S (length pre)))) with (cnt data (S (length pre)) + (if startb data (Z.of_nat (S (length pre))) then 1 else 0)).
    unfold startb at 1. destruct (Z.eqb_spec (Z.of_nat (S (length pre))) 0); [lia|]. cbn [orb].
    assert (znth data (Z.of_nat (S (length pre)) - 1) = x) as ->.
    { unfold znth. replace (Z.to_nat (Z.of_nat (S (length pre)) - 1)) with (length pre) by lia. rewrite E, app_nth2, Nat.sub_diag by lia. reflexivity. }
    assert (znth data (Z.of_nat (S (length pre))) = y) as ->.
    { unfold znth. rewrite Nat2Z.id, E, app_nth2 by lia. replace (S (length pre) - length pre)%nat with 1%nat by lia. reflexivity. }
    destruct (x =? y); cbn [negb]; lia.
Qed.
Lemma R_runs data : R data (zlen data) = runs data.
Proof.
  unfold R, zlen. rewrite Nat2Z.id. destruct data as [|x l]; [reflexivity|]. rewrite (cnt_changes (x :: l) l [] x eq_refl). reflexivity.
Qed.
Lemma min_match_6 data depth m : bytes data -> calculate_min_match_len data depth = Ok m -> 3 <= m <= 6.
Proof.
  intros Hb E. unfold calculate_min_match_len in E. destruct (count_used (repeat false 256) 0 (slice data 0 (Z.min (zlen data) 4096))) as [n| | |]; cbn [rbind] in E; try discriminate.
  injection E as <-. unfold choose_min_match_len, MIN_MATCH_LENGTH, MAX_MATCH_LENGTH.
  destruct (depth <=? 4); [lia|]. destruct (32 <? n), ((64 <? n) && (10 <=? depth)), ((96 <? n) && (20 <=? depth)); lia.
Qed.
Lemma compress_tokens cfg st old data ts st' : bytes data -> cfg_ok cfg data -> compress_into cfg st old data = Ok (ts, st') ->
  zlen ts <= zlen data / 258 + 280 * runs data.
Proof.
  intros Hb HC E. unfold compress_into in E. destruct data as [|x r] eqn:Ed; [injection E as <- _; rewrite !zlen_nil; change (runs []) with 0; change (0 / 258) with 0; lia|]. rewrite <- Ed in *.
  destruct (calculate_min_match_len data (c_depth cfg)) as [m| | |] eqn:Em; cbn [rbind] in E; try discriminate.
  destruct (lz_loop (length data) cfg data m (mk_ls 0 0 false 0 0 None empty_tables [])) as [s| | |] eqn:El; cbn [rbind] in E; try discriminate.
  injection E as <- _. pose proof (zlen_nonneg data).
  apply loop_tokens in El; [|exact Hb|eapply min_match_6; eassumption|exact HC|].
  - destruct El as (HJ & HP). apply J_neg in HJ. unfold debt in HJ. rewrite HP, R_runs in HJ. unfold zlen at 1. rewrite rev_length. fold (zlen (l_out s)). lia.
  - unfold J, linv; cbn [l_pos l_st l_out l_pending l_incomp].
    split; [split; [lia|]; split; [apply empty_tab_ok; lia|]; split; [reflexivity|]; split; [exact I|auto]|].
    split; [discriminate|]. split; [intros _; unfold debt; cbn [l_out l_pos]; rewrite zlen_nil, R_0; change (0 / 258) with 0; lia|]. split; [intros (M & _); lia|]. split; [discriminate|auto].
Qed.
Lemma level_cfg_ok level data : zlen data <= 2 ^ 31 -> cfg_ok (lz_config level) data.
Proof.
  intros HL Hh. split; [|exact HL]. revert Hh. unfold lz_config, config_for_level. set (l := Z.max 1 (Z.min level 9)). clearbody l.
  destruct (l =? 1), (l =? 2), (l =? 3), (l =? 4), (l =? 5), (l =? 6), (l =? 7), (l =? 8); intros; try reflexivity; discriminate.
Qed.
Lemma level_tokens level st old data ts st' : bytes data -> zlen data <= 2 ^ 31 -> compress_into (lz_config level) st old data = Ok (ts, st') ->
  zlen ts <= zlen data / 258 + 280 * runs data.
Proof. intros Hb HL E. eapply compress_tokens; [exact Hb|apply level_cfg_ok; exact HL|exact E]. Qed.
