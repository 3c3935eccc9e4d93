(** The optimal parser: every match it records is real, the dynamic programming
    always reaches the end, and the tokens it emits expand to the input. *)
From Coq Require Import Reals Lra.
From Flocq Require Import Core.
From Verif Require Import Base BitsModel DeflateSpec Lz77Model Lz77Spec Lz77Proofs HuffModel DeflateModel
  F32Model F32Proofs LzOptModel.
Open Scope Z_scope.

(** ** Match search *)
(** every recorded distance is a real match of that length *)
Definition sub_ok (data : list Z) (pos : Z) (sub : list Z) : Prop :=
  length sub = 259%nat /\
  forall len, 3 <= len <= 258 -> znth sub len <> 0 -> valid_match data pos len (znth sub len).
Definition found_ok (data : list Z) (pos : Z) (m : list Z * Z) : Prop :=
  sub_ok data pos (fst m) /\ 0 <= snd m <= 258.

Lemma znth_upd' l i j v : 0 <= i -> 0 <= j < zlen l -> znth (upd l (Z.to_nat j) v) i = if i =? j then v else znth l i.
Proof.
  intros Hi Hj. unfold znth, zlen in *. destruct (Z.eqb_spec i j) as [-> | ].
  - apply nth_upd_eq. lia.
  - apply nth_upd_neq. lia.
Qed.
Lemma no_sublen_ok data pos : sub_ok data pos no_sublen.
Proof.
  split; [reflexivity|]. intros len _ H. exfalso; apply H. unfold znth, no_sublen. apply nth_repeat.
Qed.
Lemma valid_shorter data pos n m d : valid_match data pos n d -> 3 <= m <= n -> valid_match data pos m d.
Proof.
  intros (A & B & C & D & F) H. split; [lia|]. split; [lia|]. split; [lia|]. split; [lia|].
  intros i Hi. apply F. lia.
Qed.
Lemma sub_upd data pos sub len d : sub_ok data pos sub -> 3 <= len <= 258 -> valid_match data pos len d ->
  sub_ok data pos (upd sub (Z.to_nat len) d).
Proof.
  intros [L V] Hl Hv. split; [rewrite upd_length; auto|]. intros n Hn.
  rewrite znth_upd' by (unfold zlen; lia). destruct (Z.eqb_spec n len) as [-> | ]; auto.
Qed.
Lemma fill_ones_ok data pos run : forall n len sub, sub_ok data pos sub -> 3 <= len -> len + Z.of_nat n = run + 1 ->
  valid_match data pos run 1 -> 
  exists sub', fill_ones n len sub = Ok sub' /\ sub_ok data pos sub'.
Proof.
  induction n as [|n IH]; intros len sub Hs Hl He Hv; cbn [fill_ones]; [eauto|].
  pose proof Hs as [L _]. pose proof Hv as (R & _).
  rewrite get_znth by (unfold zlen; lia). cbn [rbind]. apply IH; auto; try lia.
  apply sub_upd; auto; try lia. eapply valid_shorter; eauto; lia.
Qed.
Lemma fill_min_ok data pos top d : forall n len sub, sub_ok data pos sub -> 3 <= len -> len + Z.of_nat n = top + 1 ->
  (forall m, 3 <= m <= top -> valid_match data pos m d) -> top <= 258 ->
  exists sub', fill_min n len d sub = Ok sub' /\ sub_ok data pos sub'.
Proof.
  induction n as [|n IH]; intros len sub Hs Hl He Hv Ht; cbn [fill_min]; [eauto|].
  pose proof Hs as [L _].
  rewrite get_znth by (unfold zlen; lia). cbn [rbind]. apply IH; auto; try lia.
  destruct ((znth sub len =? 0) || (d <? znth sub len)); auto.
  apply sub_upd; auto; try lia. apply Hv. lia.
Qed.

(** every stored position is at most [p]; the two-way table of level 1 is not used here *)
Definition otab_ok (p : Z) (st : tables) : Prop :=
  forall i, t_head st i <= p /\ t_head3 st i <= p /\ t_prev st i <= p.
Lemma otab_mono p q st : p <= q -> otab_ok p st -> otab_ok q st.
Proof. intros H Ht i; specialize (Ht i); lia. Qed.
Lemma update_hash_otab st data pos q : 0 <= pos <= q -> otab_ok q st ->
  exists st', update_hash st data pos = Ok st' /\ otab_ok q st'.
Proof.
  intros Hp Ht; unfold update_hash.
  destruct (Z.leb_spec (zlen data) (pos + 3)); [eauto|].
  destruct (hash3_ok data pos) as (h3 & E3 & R3); [lia|].
  destruct (hash4_ok data pos) as (h4 & E4 & R4); [lia|].
  rewrite E3; cbn [rbind]. rewrite tset_ok by auto. cbn [rbind].
  rewrite E4; cbn [rbind]. rewrite tget_ok by auto. cbn [rbind].
  rewrite !tset_ok by (auto; unfold MAX_DISTANCE; lia). cbn [rbind].
  eexists; split; [reflexivity|].
  pose proof (as_i32_le pos ltac:(lia)).
  intros i; cbn. pose proof (Ht i) as Hi. pose proof (Ht h4) as Hh.
  destruct (i =? h4), (i =? h3), (i =? pos mod MAX_DISTANCE); lia.
Qed.

Section Search.
  Variables (data : list Z) (pos : Z).
  Hypothesis Hb : bytes data.
  Hypothesis Hpos : 0 <= pos.
  Hypothesis Hend : pos + 3 <= zlen data.

  Lemma sub_run_ok : exists sub maxl stop, sub_run data pos = Ok (sub, maxl, stop) /\ found_ok data pos (sub, maxl).
  Proof.
    unfold sub_run. destruct (detect_run_ok data pos) as (run & -> & Hr); [lia|]. cbn [rbind].
    unfold in_run, MIN_MATCH_LENGTH. destruct (Z.leb_spec 3 run); cbn [andb].
    2:{ cbn [rbind]. do 3 eexists; split; [reflexivity|]. split; [apply no_sublen_ok|cbn; lia]. }
    destruct (Z.leb_spec 1 pos).
    2:{ cbn [rbind]. do 3 eexists; split; [reflexivity|]. split; [apply no_sublen_ok|cbn; lia]. }
    rewrite !get_znth by lia. cbn [rbind]. destruct (Z.eqb_spec (znth data (pos - 1)) (znth data pos)).
    2:{ do 3 eexists; split; [reflexivity|]. split; [apply no_sublen_ok|cbn; lia]. }
    assert (V : valid_match data pos run 1) by (eapply (run_valid data pos 3); eauto; lia).
    destruct (fill_ones_ok data pos run (Z.to_nat (run - 3 + 1)) 3 no_sublen) as (sub & -> & S); auto; try lia.
    { apply no_sublen_ok. }
    cbn [rbind]. do 3 eexists; split; [reflexivity|]. split; [exact S|]. destruct V. cbn; lia.
  Qed.

  Lemma three_valid c : 0 <= c -> 1 <= pos - c <= 32768 -> c + 3 <= zlen data ->
    le_val (slice data pos (pos + 3)) = le_val (slice data c (c + 3)) -> valid_match data pos 3 (pos - c).
  Proof.
    intros Hc Hd Hl He.
    assert (forall p, 0 <= p -> p + 3 <= zlen data -> slice data p (p + 3) = [znth data p; znth data (p + 1); znth data (p + 2)] /\
      is_byte (znth data p) /\ is_byte (znth data (p + 1)) /\ is_byte (znth data (p + 2))) as K.
    { intros p Hp Hq. split.
      - unfold slice, znth, zlen in *. replace (Z.to_nat (p + 3 - p)) with 3%nat by lia.
        replace (Z.to_nat (p + 1)) with (S (Z.to_nat p)) by lia. replace (Z.to_nat (p + 2)) with (S (S (Z.to_nat p))) by lia.
        remember (Z.to_nat p) as n. assert (n + 3 <= length data)%nat as Hn by lia. clear - Hn.
        revert data Hn; induction n as [|n IH]; intros data Hn.
        + destruct data as [|a [|b [|c r]]]; cbn in Hn; try lia. reflexivity.
        + destruct data as [|a r]; cbn in Hn; [lia|]. cbn [skipn nth]. apply IH; lia.
      - split; [|split]; unfold znth; apply Forall_nth_d; auto; unfold is_byte; lia. }
    destruct (K pos Hpos ltac:(lia)) as (E1 & A1 & A2 & A3). destruct (K c Hc ltac:(lia)) as (E2 & B1 & B2 & B3).
    rewrite E1, E2 in He. cbn [le_val] in He. unfold is_byte in *.
    split; [lia|]. split; [lia|]. split; [lia|]. split; [lia|].
    intros i Hi. assert (i = 0 \/ i = 1 \/ i = 2) as [-> | [-> | -> ] ] by lia.
    - replace (pos + 0 - (pos - c)) with c by lia. replace (pos + 0) with pos by lia. lia.
    - replace (pos + 1 - (pos - c)) with (c + 1) by lia. lia.
    - replace (pos + 2 - (pos - c)) with (c + 2) by lia. lia.
  Qed.

  Lemma sub_probe3_ok st sub maxl : otab_ok pos st -> found_ok data pos (sub, maxl) ->
    exists m, sub_probe3 st data pos sub maxl = Ok m /\ found_ok data pos m.
  Proof.
    intros Ht Hf. unfold sub_probe3.
    destruct (hash3_ok data pos) as (h3 & -> & R3); [lia|]. cbn [rbind]. rewrite tget_ok by auto. cbn [rbind].
    pose proof (Ht h3) as (_ & Hc & _). set (c := t_head3 st h3) in *.
    destruct (Z.ltb_spec c 0); [eauto|].
    unfold usub. destruct (Z.ltb_spec pos c); [lia|]. cbn [rbind].
    destruct (Z.eqb_spec (pos - c) 0); [eauto|].
    destruct (Z.leb_spec (pos - c) MAX_DISTANCE); cbn [andb]; [|eauto].
    destruct (Z.leb_spec (c + 3) (zlen data)); [|eauto].
    rewrite !slice_r_ok by lia. cbn [rbind].
    destruct (Z.eqb_spec (le_val (slice data pos (pos + 3))) (le_val (slice data c (c + 3)))); [|eauto].
    unfold MAX_DISTANCE in *. rewrite wrap_id by lia.
    destruct Hf as [Hs Hm]. cbn [fst snd] in *.
    destruct (fill_min_ok data pos 3 (pos - c) 1 3 sub) as (sub' & -> & S); auto; try lia.
    { intros m Hm'. replace m with 3 by lia. apply three_valid; auto; lia. }
    cbn [rbind]. eexists; split; [reflexivity|]. split; [exact S|cbn; lia].
  Qed.

  Lemma sub_chain_ok st : otab_ok pos st -> forall fuel cp sub maxl, cp <= pos -> found_ok data pos (sub, maxl) ->
    exists m, sub_chain fuel st data pos cp sub maxl = Ok m /\ found_ok data pos m.
  Proof.
    intros Ht; induction fuel as [|f IH]; intros cp sub maxl Hc Hf; cbn [sub_chain]; [eauto|].
    destruct (Z.ltb_spec cp 0); [eauto|].
    unfold usub at 1. destruct (Z.ltb_spec pos cp); [lia|]. cbn [rbind].
    assert (Hprev : tget MAX_DISTANCE (t_prev st) (cp mod MAX_DISTANCE)
                    = Ok (t_prev st (cp mod MAX_DISTANCE)))
      by (apply tget_ok; unfold MAX_DISTANCE; lia).
    assert (Hn : t_prev st (cp mod MAX_DISTANCE) <= pos) by apply Ht.
    destruct (Z.eqb_spec (pos - cp) 0).
    { rewrite Hprev; cbn [rbind]. apply IH; auto. }
    destruct (Z.ltb_spec (Z.min pos MAX_DISTANCE) (pos - cp)); [eauto|].
    destruct (match_length_ok data cp pos Hb ltac:(lia) ltac:(lia)) as (len & El & Hlen).
    rewrite El; cbn [rbind]. unfold MIN_MATCH_LENGTH, MAX_MATCH_LENGTH, MAX_DISTANCE in *.
    destruct (Z.leb_spec 3 len); cbn [andb].
    2:{ rewrite Hprev; cbn [rbind]. apply IH; auto. }
    destruct (negb ((len =? 3) && (8192 <? pos - cp))).
    2:{ rewrite Hprev; cbn [rbind]. apply IH; auto. }
    assert (V : valid_match data pos len (pos - cp)) by (apply prefix_valid; auto; lia).
    rewrite wrap_id by lia. pose proof V as (R & _). destruct Hf as [Hs Hm]. cbn [fst snd] in *.
    destruct (fill_min_ok data pos len (pos - cp) (Z.to_nat (len - 3 + 1)) 3 sub) as (sub' & -> & S); auto; try lia.
    { intros m Hm'. eapply valid_shorter; eauto. }
    cbn [rbind]. destruct (Z.ltb_spec maxl len); cbn [andb].
    - destruct (Z.leb_spec 258 len).
      + eexists; split; [reflexivity|]. split; [exact S|cbn; lia].
      + rewrite Hprev; cbn [rbind]. apply IH; auto. split; [exact S|cbn; lia].
    - rewrite Hprev; cbn [rbind]. apply IH; auto. split; [exact S|cbn; lia].
  Qed.
End Search.

Lemma find_sublen_ok cfg st data pos : bytes data -> 0 <= pos -> otab_ok pos st ->
  exists m, find_match_with_sublen cfg st data pos = Ok m /\ found_ok data pos m.
Proof.
  intros Hb Hp Ht. unfold find_match_with_sublen, MIN_MATCH_LENGTH.
  destruct (Z.ltb_spec (zlen data) (pos + 3)).
  { eexists; split; [reflexivity|]. split; [apply no_sublen_ok|cbn; lia]. }
  destruct (sub_run_ok data pos) as (sub & maxl & stop & -> & F); auto; try lia. cbn [rbind].
  destruct stop; [eauto|].
  destruct (sub_probe3_ok data pos Hb Hp ltac:(lia) st sub maxl Ht F) as ([sub1 maxl1] & -> & F1). cbn [rbind].
  destruct (hash4_ok data pos) as (h4 & -> & R4); [lia|]. cbn [rbind]. rewrite tget_ok by auto. cbn [rbind].
  apply sub_chain_ok; auto; try lia. apply Ht.
Qed.

(** ** Costs stay finite *)
Definition small (x : f32) (k : Z) : Prop := fin x /\ (Rabs (val x) <= bpow radix2 k)%R.
Lemma bpow_S k : bpow radix2 (k + 1) = (2 * bpow radix2 k)%R.
Proof. rewrite bpow_plus, Rmult_comm. reflexivity. Qed.
Lemma small_add x y k : -149 <= k < 127 -> small x k -> small y k -> small (f_add x y) (k + 1).
Proof.
  intros Hk [Fx Bx] [Fy By].
  destruct (add_bound x y (bpow radix2 (k + 1)) Fx Fy) as (A & _ & B).
  - apply fmt_bpow; lia.
  - rewrite bpow_S. eapply Rle_trans; [apply Rabs_triang|]. lra.
  - apply bpow_lt; lia.
  - split; auto.
Qed.
Lemma small_mono x j k : j <= k -> small x j -> small x k.
Proof. intros H [A B]. split; auto. eapply Rle_trans; [exact B|]. apply bpow_le; auto. Qed.
Lemma small_of_Z n k : 0 <= k <= 24 -> Z.abs n <= 2 ^ k -> small (f_of_Z n) k.
Proof.
  intros Hk Hn. assert (2 ^ k <= 2 ^ 24) by (apply Z.pow_le_mono_r; lia).
  destruct (of_Z_exact n ltac:(lia)) as [F V]. split; auto. rewrite V.
  rewrite <- abs_IZR. rewrite <- IZR_Zpower by lia. apply IZR_le. exact Hn.
Qed.

(** adding a small cost never lifts an accumulated cost above 2^64 *)
Lemma big_absorb : (rnd (bpow radix2 64 + bpow radix2 12) <= bpow radix2 64)%R.
Proof.
  apply round_N_le_midp; [apply FLT_exp_valid; reflexivity|apply fmt_bpow; lia|].
  rewrite succ_eq_pos by apply bpow_ge_0. rewrite ulp_bpow.
  replace (FLT_exp (-149) 24 (64 + 1)) with 41 by reflexivity.
  assert (bpow radix2 12 < bpow radix2 40)%R by (apply bpow_lt; lia).
  assert (bpow radix2 41 = 2 * bpow radix2 40)%R as -> by (change 41 with (40 + 1); apply bpow_S).
  lra.
Qed.
Definition acc (x : f32) : Prop := small x 64.
Lemma acc_add x y : acc x -> small y 12 -> acc (f_add x y).
Proof.
  intros [Fx Bx] [Fy By].
  assert (Rabs (rnd (val x + val y)) <= bpow radix2 64)%R as K.
  { apply Rabs_le. apply Rabs_le_inv in Bx. apply Rabs_le_inv in By. split.
    - rewrite <- (Ropp_involutive (rnd _)), <- rnd_opp. apply Ropp_le_contravar.
      eapply Rle_trans; [|apply big_absorb]. apply rnd_le. lra.
    - eapply Rle_trans; [|apply big_absorb]. apply rnd_le. lra. }
  destruct (add_ok x y Fx Fy) as [A B].
  - eapply Rle_lt_trans; [exact K|]. apply bpow_lt; lia.
  - split; auto. rewrite B. exact K.
Qed.
Lemma acc_zero : acc f_zero.
Proof. split; [apply fin_zero|]. rewrite val_zero, Rabs_R0. apply bpow_ge_0. Qed.
Lemma acc_lt_max x : acc x -> f_lt x f_max = true /\ f_ge x f_max = false.
Proof.
  intros [F B]. rewrite lt_ok, ge_ok by (auto; apply fin_max). rewrite val_max.
  assert (val x < F2R (Float radix2 16777215 104))%R as K.
  { apply Rabs_le_inv in B. eapply Rle_lt_trans; [apply B|].
    unfold F2R; cbn [Fnum Fexp]. apply Rlt_le_trans with (1 * bpow radix2 104)%R.
    - rewrite Rmult_1_l. apply bpow_lt; lia.
    - apply Rmult_le_compat_r; [apply bpow_ge_0|]. apply (IZR_le 1). lia. }
  split; [apply Rlt_bool_true; auto|apply Rle_bool_false; auto].
Qed.

(** a usable cost model: 286 + 30 finite entries of at most 512 bits *)
Definition cost_ok (cm : cost_model) : Prop :=
  length (lit_len_costs cm) = 286%nat /\ length (dist_costs cm) = 30%nat /\
  Forall (fun c => small c 9) (lit_len_costs cm) /\ Forall (fun c => small c 9) (dist_costs cm).

Lemma get_forall {A} (P : A -> Prop) l i : Forall P l -> 0 <= i < zlen l -> exists x, get l i = Ok x /\ P x.
Proof.
  intros HF Hi. unfold get, zlen in *. destruct (Z.ltb_spec i 0); [lia|].
  destruct (nth_error l (Z.to_nat i)) as [x|] eqn:E.
  - exists x; split; auto. rewrite Forall_forall in HF. apply HF. eapply nth_error_In; eauto.
  - apply nth_error_None in E. lia.
Qed.
Lemma literal_cost_ok cm b : cost_ok cm -> is_byte b -> exists c, literal_cost cm b = Ok c /\ small c 9.
Proof. intros (L & _ & F & _) H. unfold is_byte in H. apply get_forall; auto. unfold zlen; lia. Qed.

Lemma length_to_symbol_ok len : 3 <= len <= 258 -> exists s e, length_to_symbol len = Ok (s, e) /\ 257 <= s <= 285 /\ 0 <= e <= 5.
Proof.
  intros H. assert (forallb (fun n => match length_to_symbol (Z.of_nat n) with
    | Ok (s, e) => (257 <=? s) && (s <=? 285) && (0 <=? e) && (e <=? 5) | _ => false end) (seq 3 256) = true) as K
    by (vm_compute; reflexivity).
  rewrite forallb_forall in K. specialize (K (Z.to_nat len) ltac:(apply in_seq; lia)). rewrite Z2Nat.id in K by lia.
  destruct (length_to_symbol len) as [[s e]| | |]; try discriminate. exists s, e. split; auto. lia.
Qed.
Lemma distance_to_symbol_ok d : 1 <= d <= 32768 -> exists s e, distance_to_symbol d = Ok (s, e) /\ 0 <= s <= 29 /\ 0 <= e <= 13.
Proof.
  intros H. unfold distance_to_symbol. replace ((1 <=? d) && (d <=? 32768)) with true by lia.
  destruct (Z.ltb_spec d 5). { do 2 eexists; split; [reflexivity|lia]. }
  set (c := Z.min _ 29). assert (0 <= c <= 29) as Hc.
  { subst c. assert (0 <= Z.log2 (d - 1)) by apply Z.log2_nonneg.
    assert (0 <= Z.land (Z.shiftr (d - 1) (Z.log2 (d - 1) - 1)) 1) by (apply Z.land_nonneg; right; lia). lia. }
  assert (Forall (fun e => 0 <= e <= 13) DISTANCE_EXTRA) as F.
  { apply Forall_forall. intros x Hx.
    assert (forallb (fun e => (0 <=? e) && (e <=? 13)) DISTANCE_EXTRA = true) as K by reflexivity.
    rewrite forallb_forall in K. specialize (K x Hx). lia. }
  destruct (get_forall _ DISTANCE_EXTRA c F) as (e & -> & He); [change (zlen DISTANCE_EXTRA) with 30; lia|].
  cbn [rbind]. do 2 eexists; split; [reflexivity|]. lia.
Qed.
Lemma match_cost_ok cm len d : cost_ok cm -> 3 <= len <= 258 -> 1 <= d <= 32768 -> exists c, match_cost cm len d = Ok c /\ small c 12.
Proof.
  intros (L1 & L2 & F1 & F2) Hl Hd. unfold match_cost.
  destruct (length_to_symbol_ok len Hl) as (ls & le & -> & R1 & R2). cbn [rbind].
  destruct (get_forall _ _ ls F1) as (lc & -> & S1); [unfold zlen; lia|]. cbn [rbind].
  destruct (distance_to_symbol_ok d Hd) as (ds & de & -> & R3 & R4). cbn [rbind].
  destruct (get_forall _ _ ds F2) as (dc & -> & S2); [unfold zlen; lia|]. cbn [rbind].
  eexists; split; [reflexivity|]. apply (small_mono _ (9 + 1 + 1)); [lia|].
  apply small_add; [lia| |]; apply small_add; auto; try lia; apply small_of_Z; lia.
Qed.

(** ** Forward pass *)
Definition unset : f32 * Z * Z := (f_max, 0, 0).
Definition row (dp : list (f32 * Z * Z)) (j : Z) : f32 * Z * Z := nth (Z.to_nat j) dp unset.
(** a token of length [len] may end at [j] *)
Definition tok_ok (data : list Z) (j len dist : Z) : Prop :=
  (len = 1 /\ dist = 0) \/ valid_match data (j - len) len dist.
Definition row_ok (data : list Z) (j : Z) (r : f32 * Z * Z) : Prop :=
  let '(c, len, dist) := r in acc c /\ (j = 0 \/ tok_ok data j len dist).
Definition dp_inv (data : list Z) (i : Z) (dp : list (f32 * Z * Z)) : Prop :=
  zlen dp = zlen data + 1 /\
  forall j, 0 <= j <= zlen data -> row_ok data j (row dp j) \/ (i < j /\ row dp j = unset).

Lemma get_row dp j : 0 <= j < zlen dp -> get dp j = Ok (row dp j).
Proof.
  intros H. unfold get, row, zlen in *. destruct (Z.ltb_spec j 0); [lia|].
  rewrite (nth_error_nth' dp unset); auto. lia.
Qed.
Lemma relax_ok data i dp e c len dist : dp_inv data i dp -> 0 < e <= zlen data -> acc c -> tok_ok data e len dist ->
  exists dp', relax dp e c len dist = Ok dp' /\ dp_inv data i dp' /\ row_ok data e (row dp' e).
Proof.
  intros [L V] He Hc Ht. unfold relax. rewrite get_row by lia. cbn [rbind].
  destruct (row dp e) as [[old ol] od] eqn:E. destruct (f_lt c old) eqn:Q.
  - eexists; split; [reflexivity|].
    assert (forall j, 0 <= j <= zlen data -> row (upd dp (Z.to_nat e) (c, len, dist)) j =
      if j =? e then (c, len, dist) else row dp j) as R.
    { intros j Hj. unfold row. destruct (Z.eqb_spec j e) as [->|].
      - apply nth_upd_eq. unfold zlen in *; lia.
      - apply nth_upd_neq. lia. }
    split; [split|].
    + unfold zlen in *. rewrite upd_length. auto.
    + intros j Hj. rewrite R by auto. destruct (Z.eqb_spec j e) as [->|]; auto. left. split; auto.
    + rewrite R, Z.eqb_refl by lia. split; auto.
  - eexists; split; [reflexivity|]. split; [split; auto|]. destruct (V e ltac:(lia)) as [H|[_ H]]; auto.
    rewrite E in H. unfold unset in H. inversion H; subst. destruct (acc_lt_max c Hc) as [X _]. congruence.
Qed.
Lemma try_literal_ok cm data i dp : cost_ok cm -> bytes data -> 0 <= i < zlen data -> dp_inv data i dp ->
  exists dp', try_literal cm data i dp = Ok dp' /\ dp_inv data (i + 1) dp'.
Proof.
  intros Hc Hb Hi HI. unfold try_literal. pose proof HI as [L V].
  rewrite get_row by lia. cbn [rbind]. destruct (V i ltac:(lia)) as [R|[Y _]]; [|lia].
  destruct (row dp i) as [[ci li] di]. destruct R as [A _].
  rewrite get_znth by lia. cbn [rbind].
  assert (is_byte (znth data i)) as HB by (unfold znth; apply Forall_nth_d; auto; unfold is_byte; lia).
  destruct (literal_cost_ok cm _ Hc HB) as (lc & -> & S). cbn [rbind].
  destruct (relax_ok data i dp (i + 1) (f_add ci lc) 1 0 HI) as (dp' & -> & HI' & R'); [lia| | |].
  - apply acc_add; auto. eapply small_mono; [|exact S]; lia.
  - left; auto.
  - eexists; split; [reflexivity|]. destruct HI' as [L' V']. split; auto. intros j Hj.
    destruct (Z.eq_dec j (i + 1)) as [->|]; auto. destruct (V' j Hj) as [|[Y Z0]]; auto. right. split; auto. lia.
Qed.
Lemma try_matches_ok cm data i sub : cost_ok cm -> 0 <= i < zlen data -> sub_ok data i sub ->
  forall k len dp, 3 <= len -> len + Z.of_nat k <= 259 -> dp_inv data (i + 1) dp ->
  exists dp', try_matches k cm (zlen data) i sub len dp = Ok dp' /\ dp_inv data (i + 1) dp'.
Proof.
  intros Hc Hi [SL SV]. induction k as [|k IH]; intros len dp Hl Hk HI; cbn [try_matches]; [eauto|].
  rewrite get_znth by (unfold zlen; lia). cbn [rbind].
  destruct (Z.eqb_spec (znth sub len) 0); cbn [rbind]; [apply IH; auto; lia|].
  specialize (SV len ltac:(lia) n). set (d := znth sub len) in *.
  pose proof HI as [L V]. rewrite get_row by lia. cbn [rbind]. destruct (V i ltac:(lia)) as [R|[Y _]]; [|lia].
  destruct (row dp i) as [[ci li] di]. destruct R as [A _].
  pose proof SV as (V1 & V2 & V3 & V4 & _).
  destruct (match_cost_ok cm len d Hc V1 V2) as (mc & -> & S). cbn [rbind].
  destruct (Z.leb_spec (i + len) (zlen data)); [|lia].
  destruct (relax_ok data (i + 1) dp (i + len) (f_add ci mc) len d HI) as (dp' & -> & HI' & _); [lia| | |].
  - apply acc_add; auto.
  - right. replace (i + len - len) with i by lia. exact SV.
  - cbn [rbind]. apply IH; auto; lia.
Qed.
Lemma try_all_ok cm data i m dp : cost_ok cm -> 0 <= i < zlen data -> found_ok data i m -> dp_inv data (i + 1) dp ->
  exists dp', try_all cm data i m dp = Ok dp' /\ dp_inv data (i + 1) dp'.
Proof.
  intros Hc Hi [Hs Hm] HI. destruct m as [sub maxl]. cbn [fst snd] in *. unfold try_all, MIN_MATCH_LENGTH.
  apply try_matches_ok; auto; lia.
Qed.
Lemma row_reached data i dp : 0 <= i <= zlen data -> dp_inv data i dp -> exists c l d, get dp i = Ok (c, l, d) /\ f_ge c f_max = false.
Proof.
  intros Hi [L V]. rewrite get_row by lia. destruct (V i Hi) as [R|[Y _]]; [|lia].
  destruct (row dp i) as [[c l] d]. destruct R as [A _]. do 3 eexists; split; [reflexivity|]. apply acc_lt_max; auto.
Qed.
Lemma dp_init_inv data : dp_inv data 0 (dp_init (length data)).
Proof.
  unfold dp_inv, dp_init, zlen. cbn [length]. rewrite repeat_length. split; [lia|]. intros j Hj.
  destruct (Z.eq_dec j 0) as [->|].
  - left. unfold row. change (Z.to_nat 0) with 0%nat. cbn [nth row_ok]. split; [apply acc_zero|auto].
  - right. split; [lia|]. unfold row. replace (Z.to_nat j) with (S (Z.to_nat (j - 1))) by lia. cbn [nth].
    apply nth_repeat.
Qed.

Lemma reset_tab_ok st q : -1 <= q -> otab_ok q (reset_tables st).
Proof. intros Hq i. cbn. lia. Qed.

(** ** Back trace *)
Fixpoint lens_sum (l : list (Z * Z)) : Z := match l with [] => 0 | (n, _) :: r => n + lens_sum r end.
Lemma lens_sum_app a b : lens_sum (a ++ b) = lens_sum a + lens_sum b.
Proof. induction a as [|[n d] a IH]; cbn [app lens_sum]; lia. Qed.
Lemma emit_snoc data : forall a pos ts len dist t, emit_tokens data pos a = Ok ts ->
  (if dist =? 0 then let* b := get data (pos + lens_sum a) in Ok (TLit b) else Ok (TMatch len dist)) = Ok t ->
  emit_tokens data pos (a ++ [(len, dist)]) = Ok (ts ++ [t]).
Proof.
  induction a as [|[n d] a IH]; intros pos ts len dist t E T; cbn [app emit_tokens lens_sum] in *.
  - inversion E; subst. replace (pos + 0) with pos in T by lia. rewrite T. cbn [rbind app]. reflexivity.
  - destruct (if d =? 0 then let* b := get data pos in Ok (TLit b) else Ok (TMatch n d)) as [t0| | |]; cbn [rbind] in *; try discriminate.
    destruct (emit_tokens data (pos + n) a) as [ts0| | |] eqn:E0; cbn [rbind] in *; try discriminate.
    inversion E; subst. rewrite (IH (pos + n) ts0 len dist t E0); [reflexivity|].
    replace (pos + n + lens_sum a) with (pos + (n + lens_sum a)) by lia. exact T.
Qed.
Lemma walk_ok data dp : bytes data -> dp_inv data (zlen data) dp ->
  forall fuel p, 0 <= p <= zlen data -> p <= Z.of_nat fuel ->
  exists l ts, walk_back fuel dp p = Ok l /\ lens_sum (rev l) = p /\ emit_tokens data 0 (rev l) = Ok ts /\
    expand [] ts = Some (firstn (Z.to_nat p) data) /\ zlen ts <= p.
Proof.
  intros Hb HI. pose proof HI as [L V]. induction fuel as [|f IH]; intros p Hp Hf.
  - replace p with 0 by lia. exists [], []. unfold zlen; cbn. auto with zarith.
  - cbn [walk_back]. destruct (Z.leb_spec p 0).
    { replace p with 0 by lia. exists [], []. unfold zlen; cbn. auto with zarith. }
    rewrite get_row by lia. cbn [rbind]. destruct (V p Hp) as [R|[Y _]]; [|lia].
    destruct (row dp p) as [[c len] dist]. destruct R as [_ [R|R]]; [lia|].
    assert (1 <= len <= p) as Hlen. { destruct R as [[-> ->]|(A & B & C & D & _)]; lia. }
    destruct (Z.eqb_spec len 0); [lia|]. unfold usub. destruct (Z.ltb_spec p len); [lia|]. cbn [rbind].
    destruct (IH (p - len) ltac:(lia) ltac:(lia)) as (l & ts & -> & S & E & X & N). cbn [rbind].
    exists ((len, dist) :: l). cbn [rev]. rewrite lens_sum_app. cbn [lens_sum].
    destruct R as [[-> ->]|R].
    + exists (ts ++ [TLit (znth data (p - 1))]). split; [reflexivity|]. split; [lia|]. split.
      { apply emit_snoc; auto. rewrite Z.eqb_refl, S. rewrite get_znth by lia. cbn [rbind]. repeat f_equal; lia. }
      split; [|unfold zlen in *; rewrite app_length; cbn [length]; lia].
      rewrite expand_snoc, X. replace p with (p - 1 + 1) at 3 by lia. apply expand1_lit; auto. lia.
    + exists (ts ++ [TMatch len dist]). split; [reflexivity|]. split; [lia|].
      pose proof R as (A & B & _). split.
      { apply emit_snoc; auto. destruct (Z.eqb_spec dist 0); [lia|]. reflexivity. }
      split; [|unfold zlen in *; rewrite app_length; cbn [length]; lia].
      rewrite expand_snoc, X. replace p with (p - len + len) at 2 by lia. apply expand1_match; auto. lia.
Qed.
Lemma trace_ok data dp : bytes data -> dp_inv data (zlen data) dp ->
  exists ts, trace_backwards dp data = Ok ts /\ expand [] ts = Some data /\ zlen ts <= zlen data.
Proof.
  intros Hb HI. unfold trace_backwards.
  destruct (walk_ok data dp Hb HI (length data) (zlen data)) as (l & ts & -> & _ & E & X & N); [unfold zlen; lia|unfold zlen; lia|].
  cbn [rbind]. exists ts. split; auto. split; auto. rewrite X. f_equal. unfold zlen. rewrite Nat2Z.id. apply firstn_all.
Qed.

(** ** The loops *)
(** forget the table the parser does not use *)
Definition norm (st : tables) : tables := mk_tables (t_head st) (t_head3 st) (fun _ => -1) (fun _ => -1) (t_prev st).
Lemma norm_chain fuel st data pos : forall cp sub maxl, sub_chain fuel (norm st) data pos cp sub maxl = sub_chain fuel st data pos cp sub maxl.
Proof.
  induction fuel as [|f IH]; intros; cbn [sub_chain]; auto. cbn [norm t_prev].
  destruct (cp <? 0); auto. destruct (usub pos cp); cbn [rbind]; auto.
  destruct (a =? 0). { destruct (tget MAX_DISTANCE (t_prev st) (cp mod MAX_DISTANCE)); cbn [rbind]; auto. }
  destruct (Z.min pos MAX_DISTANCE <? a); auto. destruct (match_length data cp pos); cbn [rbind]; auto.
  destruct ((MIN_MATCH_LENGTH <=? a0) && negb ((a0 =? 3) && (8192 <? a))).
  - destruct (fill_min (Z.to_nat (a0 - MIN_MATCH_LENGTH + 1)) MIN_MATCH_LENGTH (wrap 16 a) sub); cbn [rbind]; auto.
    destruct ((maxl <? a0) && (MAX_MATCH_LENGTH <=? a0)); auto.
    destruct (tget MAX_DISTANCE (t_prev st) (cp mod MAX_DISTANCE)); cbn [rbind]; auto.
  - destruct (tget MAX_DISTANCE (t_prev st) (cp mod MAX_DISTANCE)); cbn [rbind]; auto.
Qed.
Lemma norm_find cfg st data pos : find_match_with_sublen cfg (norm st) data pos = find_match_with_sublen cfg st data pos.
Proof.
  unfold find_match_with_sublen. destruct (zlen data <? pos + MIN_MATCH_LENGTH); auto.
  destruct (sub_run data pos) as [[[sub maxl] stop]| | |]; cbn [rbind]; auto. destruct stop; auto.
  change (sub_probe3 (norm st) data pos sub maxl) with (sub_probe3 st data pos sub maxl).
  destruct (sub_probe3 st data pos sub maxl) as [[s m]| | |]; cbn [rbind]; auto.
  destruct (hash4 data pos); cbn [rbind]; auto. cbn [norm t_head].
  destruct (tget HASH_SIZE (t_head st) a); cbn [rbind]; auto. apply norm_chain.
Qed.
Lemma norm_update st data pos st' : update_hash st data pos = Ok st' -> update_hash (norm st) data pos = Ok (norm st').
Proof.
  unfold update_hash. cbn [norm t_head t_head3 t_prev t_ht0 t_ht1]. destruct (zlen data <=? pos + 3).
  { intros E; inversion E; subst; reflexivity. }
  intros E. repeat (apply rbind_ok in E as (? & ? & E)). inversion E; subst.
  repeat match goal with H : _ = Ok _ |- _ => rewrite H; cbn [rbind] end. reflexivity.
Qed.
Lemma update_range_snoc data : forall n st pos st1 st2, update_range n st data pos = Ok st1 -> update_hash st1 data (pos + Z.of_nat n) = Ok st2 ->
  update_range (S n) st data pos = Ok st2.
Proof.
  induction n as [|n IH]; intros st pos st1 st2 E1 E2.
  - cbn [update_range] in *. inversion E1; subst. replace (pos + Z.of_nat 0) with pos in E2 by lia. rewrite E2. reflexivity.
  - cbn [update_range] in E1. destruct (update_hash st data pos) as [st0| | |] eqn:E; cbn [rbind] in E1; try discriminate.
    change (update_range (S (S n)) st data pos) with (let* st' := update_hash st data pos in update_range (S n) st' data (pos + 1)).
    rewrite E. cbn [rbind]. eapply IH; eauto. replace (pos + 1 + Z.of_nat n) with (pos + Z.of_nat (S n)) by lia. auto.
Qed.

Section Loops.
  Variables (cfg : config) (data : list Z).
  Hypothesis Hb : bytes data.
  Notation n := (zlen data).
  (** the tables after positions 0 .. i-1 have been inserted *)
  Definition reach (i : Z) (st : tables) : Prop := update_range (Z.to_nat i) empty_tables data 0 = Ok (norm st).
  Lemma reach_step i st st' : 0 <= i -> reach i st -> update_hash st data i = Ok st' -> reach (i + 1) st'.
  Proof.
    unfold reach. intros Hi R U. replace (Z.to_nat (i + 1)) with (S (Z.to_nat i)) by lia.
    eapply update_range_snoc; [exact R|]. replace (0 + Z.of_nat (Z.to_nat i)) with i by lia. apply norm_update; auto.
  Qed.
  Lemma reach_find i st1 st2 : reach i st1 -> reach i st2 -> find_match_with_sublen cfg st1 data i = find_match_with_sublen cfg st2 data i.
  Proof. unfold reach. intros A B. rewrite A in B. rewrite <- (norm_find cfg st1), <- (norm_find cfg st2). congruence. Qed.
  (** the cache holds what a search at [j] finds *)
  Definition entry (c : list (list Z * Z)) (j : Z) : Prop :=
    exists st, reach j st /\ find_match_with_sublen cfg st data j = Ok (cache_get c j) /\ found_ok data j (cache_get c j).
  Definition full (c : list (list Z * Z)) : Prop := zlen c = n /\ forall j, 0 <= j < n -> entry c j.

  Lemma cache_set_get c i m : 0 <= i < zlen c -> 0 <= snd m <= 258 ->
    zlen (cache_set c i m) = zlen c /\ cache_get (cache_set c i m) i = m /\
    forall j, 0 <= j -> j <> i -> cache_get (cache_set c i m) j = cache_get c j.
  Proof.
    intros Hi Hm. destruct m as [s l]. unfold cache_set. cbn [fst snd] in *. rewrite wrap_id by lia.
    unfold cache_get, get, zlen in *. split; [rewrite upd_length; auto|]. split.
    - destruct (Z.ltb_spec i 0); [lia|]. rewrite (nth_error_nth' _ ([], 0)) by (rewrite upd_length; lia).
      rewrite nth_upd_eq by lia. reflexivity.
    - intros j Hj Hn. destruct (Z.ltb_spec j 0); [lia|].
      destruct (Nat.lt_ge_cases (Z.to_nat j) (length c)).
      + rewrite !(nth_error_nth' _ ([], 0)) by (rewrite ?upd_length; lia). rewrite nth_upd_neq by lia. reflexivity.
      + rewrite !(proj2 (nth_error_None _ _)) by (rewrite ?upd_length; lia). reflexivity.
  Qed.

  Lemma loops_ok cm : cost_ok cm -> forall k i st dp c, 0 <= i -> i + Z.of_nat k = n -> reach i st -> otab_ok i st -> dp_inv data i dp ->
    zlen c = n -> (forall j, 0 <= j < i -> entry c j) ->
    exists st' dp' c', opt_loop cfg data cm k i st dp = Ok (st', dp') /\
      opt_loop_cached cfg data cm false k i st c dp = Ok (st', c', dp') /\
      dp_inv data n dp' /\ full c' /\
      (forall st2 c2, full c2 -> opt_loop_cached cfg data cm true k i st2 c2 dp = Ok (st2, c2, dp')).
  Proof.
    intros Hc. induction k as [|k IH]; intros i st dp c Hi Hk HR HT HI HL HE.
    - exists st, dp, c. cbn [opt_loop opt_loop_cached]. replace i with n in * by lia.
      split; auto. split; auto. split; auto. split; auto. split; auto.
    - cbn [opt_loop opt_loop_cached].
      destruct (row_reached data i dp ltac:(lia) HI) as (ci & li & di & EG & EM). rewrite EG. cbn [rbind]. rewrite EM.
      destruct (try_literal_ok cm data i dp Hc Hb ltac:(lia) HI) as (dp1 & -> & HI1). cbn [rbind].
      destruct (find_sublen_ok cfg st data i Hb Hi HT) as (m & EF & HF). rewrite EF. cbn [rbind].
      destruct (update_hash_otab st data i i ltac:(lia) HT) as (st1 & EU & HT1). rewrite EU. cbn [rbind].
      destruct (cache_set_get c i m ltac:(lia) (proj2 HF)) as (C1 & C2 & C3). rewrite C2.
      destruct (try_all_ok cm data i m dp1 Hc ltac:(lia) HF HI1) as (dp2 & ET & HI2). rewrite ET. cbn [rbind].
      destruct (IH (i + 1) st1 dp2 (cache_set c i m)) as (st' & dp' & c' & A & B & D & F & G); auto; try lia.
      { eapply reach_step; eauto. }
      { eapply otab_mono; [|exact HT1]; lia. }
      { intros j Hj. destruct (Z.eq_dec j i) as [->|].
        - exists st. rewrite C2. auto.
        - unfold entry. rewrite C3 by lia. apply HE. lia. }
      exists st', dp', c'. split; auto. split; auto. split; auto. split; auto.
      intros st2 c2 F2. destruct (proj2 F2 i ltac:(lia)) as (st3 & R3 & E3 & _).
      rewrite (reach_find i st3 st R3 HR), EF in E3. inversion E3 as [E4]. rewrite <- E4, ET. cbn [rbind]. apply G. exact F2.
  Qed.

  Lemma init_reach st : reach 0 (reset_tables st).
  Proof. reflexivity. Qed.

  (** a cache that a parse of [data] may be given: of the right size, and right about
      every position if it claims to hold anything *)
  Definition good_cache (c : list (list Z * Z)) : Prop := zlen c = n /\ (is_populated c = true -> full c).
  Lemma new_cache_good : good_cache (cache_new (length data)).
  Proof.
    split; [unfold zlen, cache_new; rewrite repeat_length; auto|]. intros E. exfalso. unfold is_populated, cache_new in E.
    apply existsb_exists in E as (x & Hx & E). apply repeat_spec in Hx. subst x. discriminate.
  Qed.
  Theorem optimal_ok cm st1 st2 c : cost_ok cm -> good_cache c ->
    exists ts st1' st2' c', compress_optimal cfg data cm st1 = Ok (ts, st1') /\
      compress_optimal_cached cfg data cm st2 c = Ok (ts, st2', c') /\ good_cache c' /\
      expand [] ts = Some data /\ zlen ts <= zlen data.
  Proof.
    intros Hc [HL HG]. unfold compress_optimal, compress_optimal_cached.
    destruct data as [|x0 r0] eqn:ED.
    { exists [], st1, st2, c. split; [reflexivity|]. split; [reflexivity|]. split; [split; [rewrite HL, ED; reflexivity|exact HG]|]. split; [reflexivity|]. unfold zlen; cbn [length]; lia. }
    rewrite <- ED in *.
    destruct (loops_ok cm Hc (length data) 0 (reset_tables st1) (dp_init (length data)) c) as (st' & dp' & c' & A & B & D & F & G); auto; try lia.
    { apply init_reach. } { apply reset_tab_ok; lia. } { apply dp_init_inv. }
    rewrite A. cbn [rbind]. destruct (trace_ok data dp' Hb D) as (ts & ET & X & N). rewrite ET. cbn [rbind].
    destruct (is_populated c) eqn:EP.
    - rewrite (G st2 c (HG eq_refl)). cbn [rbind]. rewrite ET. cbn [rbind]. exists ts. do 3 eexists. split; [reflexivity|].
      split; [reflexivity|]. split; auto. split; auto.
    - destruct (loops_ok cm Hc (length data) 0 (reset_tables st2) (dp_init (length data)) c) as (st'' & dp'' & c'' & A2 & B2 & D2 & F2 & G2); auto; try lia.
      { apply init_reach. } { apply reset_tab_ok; lia. } { apply dp_init_inv. }
      rewrite B2. cbn [rbind].
      assert (dp'' = dp') as ->.
      { pose proof (G st2 c'' F2) as E1. pose proof (G2 st2 c'' F2) as E2. congruence. }
      rewrite ET. cbn [rbind]. exists ts. do 3 eexists. split; [reflexivity|]. split; [reflexivity|].
      split; [split; [apply F2|intros _; exact F2]|]. auto.
  Qed.
End Loops.
