(** The parse found is a cheapest one under the cost model: no token sequence built
    from literals and cached matches has a smaller accumulated f32 cost. *)
From Coq Require Import Reals Lra.
From Flocq Require Import Core.
From Verif Require Import Base BitsModel DeflateSpec Lz77Model Lz77Spec Lz77Proofs HuffModel DeflateModel
  F32Model F32Proofs LzOptModel LzOptProofs LzOptTop.
Open Scope Z_scope.

(** the cache offers a match of this length and distance at [pos] *)
Definition offered (c : list (list Z * Z)) (pos len dist : Z) : Prop :=
  3 <= len <= snd (cache_get c pos) /\ znth (fst (cache_get c pos)) len = dist /\ dist <> 0.
(** token sequences for data[pos..] made of literals and offered matches *)
Inductive parse_of (data : list Z) (c : list (list Z * Z)) : Z -> list token -> Prop :=
| parse_end : parse_of data c (zlen data) []
| parse_lit pos ts : pos < zlen data -> parse_of data c (pos + 1) ts -> parse_of data c pos (TLit (znth data pos) :: ts)
| parse_match pos len dist ts : offered c pos len dist -> parse_of data c (pos + len) ts -> parse_of data c pos (TMatch len dist :: ts).

Definition cost_of (r : f32 * Z * Z) : f32 := fst (fst r).
Lemma acc_not_max x : acc x -> x <> f_max.
Proof. intros H ->. destruct (acc_lt_max f_max H) as [A _]. vm_compute in A. discriminate. Qed.
Lemma add_mono x y t : acc x -> acc y -> small t 12 -> (val x <= val y)%R -> (val (f_add x t) <= val (f_add y t))%R.
Proof.
  intros Hx Hy Ht L.
  assert (forall z, acc z -> val (f_add z t) = rnd (val z + val t)) as K.
  { intros z Hz. destruct (acc_add z t Hz Ht) as [_ B]. destruct Hz as [F Bz]. destruct Ht as [Ft Bt].
    apply add_ok; auto.
    assert (Rabs (rnd (val z + val t)) <= bpow radix2 65)%R as Q.
    { apply rnd_bound; [apply fmt_bpow; lia|]. replace 65 with (64 + 1) by lia. rewrite bpow_S.
      assert (bpow radix2 12 <= bpow radix2 64)%R by (apply bpow_le; lia).
      apply Rabs_le. apply Rabs_le_inv in Bz. apply Rabs_le_inv in Bt. lra. }
    eapply Rle_lt_trans; [exact Q|]. apply bpow_lt; lia. }
  rewrite !K by auto. apply rnd_le. lra.
Qed.
Lemma flt_val x y : fin x -> fin y -> f_lt x y = true -> (val x < val y)%R.
Proof. intros A B H. rewrite lt_ok in H by auto. destruct (Rlt_bool_spec (val x) (val y)); auto; discriminate. Qed.
Lemma nflt_val x y : fin x -> fin y -> f_lt x y = false -> (val y <= val x)%R.
Proof. intros A B H. rewrite lt_ok in H by auto. destruct (Rlt_bool_spec (val x) (val y)); auto; discriminate. Qed.

Section Best.
  Variables (cfg : config) (data : list Z) (cm : cost_model) (c : list (list Z * Z)).
  Hypothesis Hb : bytes data.
  Hypothesis Hc : cost_ok cm.
  Hypothesis Hf : forall j, 0 <= j < zlen data -> found_ok data j (cache_get c j).
  Notation n := (zlen data).

  Definition tokcost (p len dist : Z) : res f32 := if dist =? 0 then literal_cost cm (znth data p) else match_cost cm len dist.
  (** a literal or an offered match at [p] *)
  Definition avail (p len dist : Z) : Prop := 0 <= p < n /\ ((len = 1 /\ dist = 0) \/ offered c p len dist).
  Lemma avail_ok p len dist : avail p len dist -> 1 <= len /\ p + len <= n /\ exists tc, tokcost p len dist = Ok tc /\ small tc 12.
  Proof.
    intros [Hp [[-> ->]|(A & B & D)]].
    - split; [lia|]. split; [lia|]. unfold tokcost. cbn [Z.eqb].
      assert (is_byte (znth data p)) as HB by (unfold znth; apply Forall_nth_d; auto; unfold is_byte; lia).
      destruct (literal_cost_ok cm _ Hc HB) as (tc & E & S). exists tc. split; auto. eapply small_mono; [|exact S]; lia.
    - destruct (Hf p Hp) as [[_ V] R]. specialize (V len ltac:(lia)). rewrite B in V. specialize (V D).
      destruct V as (V1 & V2 & V3 & V4 & _). split; [lia|]. split; [lia|]. unfold tokcost. destruct (Z.eqb_spec dist 0); [lia|].
      apply match_cost_ok; auto.
  Qed.

  (** the rows, knowing that exactly the tokens in [D] have been tried *)
  Definition binv (D : Z -> Z -> Z -> Prop) (dp : list (f32 * Z * Z)) : Prop :=
    zlen dp = n + 1 /\ row dp 0 = (f_zero, 0, 0) /\
    (forall j, 0 < j <= n -> row dp j = unset \/
       exists co len dist tc, row dp j = (co, len, dist) /\ acc co /\ D (j - len) len dist /\ avail (j - len) len dist /\
         tokcost (j - len) len dist = Ok tc /\ co = f_add (cost_of (row dp (j - len))) tc) /\
    (forall p len dist tc, D p len dist -> avail p len dist -> tokcost p len dist = Ok tc ->
       (val (cost_of (row dp (p + len))) <= val (f_add (cost_of (row dp p)) tc))%R).

  Lemma binv_fin D dp j : binv D dp -> 0 <= j <= n -> fin (cost_of (row dp j)) /\ (acc (cost_of (row dp j)) \/ row dp j = unset).
  Proof.
    intros (_ & Z0 & R & _) Hj. destruct (Z.eq_dec j 0) as [->|].
    - rewrite Z0. split; [apply fin_zero|]. left. apply acc_zero.
    - destruct (R j ltac:(lia)) as [E|(co & len & dist & tc & E & A & _)]; rewrite E; cbn [cost_of unset fst].
      + split; [apply fin_max|auto].
      + split; [apply A|auto].
  Qed.

  Lemma relax_best (D : Z -> Z -> Z -> Prop) dp i len dist tc : binv D dp -> (forall p l d, D p l d -> p <= i) -> avail i len dist ->
    tokcost i len dist = Ok tc -> acc (cost_of (row dp i)) ->
    exists dp', relax dp (i + len) (f_add (cost_of (row dp i)) tc) len dist = Ok dp' /\
      binv (fun p l d => D p l d \/ (p = i /\ l = len /\ d = dist)) dp' /\ row dp' i = row dp i.
  Proof.
    intros HI HD HA HT Ai. pose proof HI as (L & Z0 & R & LB).
    destruct (avail_ok _ _ _ HA) as (A1 & A2 & tc' & A3 & A4). rewrite HT in A3. inversion A3; subst tc'. clear A3.
    destruct HA as [Hi HA0]. assert (HA : avail i len dist) by (split; auto).
    unfold relax. rewrite get_row by lia. cbn [rbind]. set (e := i + len) in *.
    destruct (row dp e) as [[old ol] od] eqn:E.
    assert (fin old) as Fo. { destruct (binv_fin D dp e HI ltac:(lia)) as [F _]. rewrite E in F. exact F. }
    set (x := f_add (cost_of (row dp i)) tc) in *. assert (acc x) as Ax by (apply acc_add; auto).
    destruct (f_lt x old) eqn:Q.
    - set (dp' := upd dp (Z.to_nat e) (x, len, dist)).
      assert (forall j, 0 <= j <= n -> row dp' j = if j =? e then (x, len, dist) else row dp j) as RW.
      { intros j Hj. unfold row, dp'. destruct (Z.eqb_spec j e) as [->|].
        - apply nth_upd_eq. unfold zlen in *; lia.
        - apply nth_upd_neq. lia. }
      assert (forall p l d, D p l d -> avail p l d -> row dp' p = row dp p) as RP.
      { intros p l d HDp [Hp _]. rewrite RW by lia. specialize (HD _ _ _ HDp). destruct (Z.eqb_spec p e); [lia|auto]. }
      assert (row dp' i = row dp i) as RI. { rewrite RW by lia. destruct (Z.eqb_spec i e); [lia|auto]. }
      exists dp'. split; [reflexivity|]. split; [|exact RI].
      split; [unfold dp', zlen in *; rewrite upd_length; auto|]. split.
      { rewrite RW by lia. destruct (Z.eqb_spec 0 e); [lia|auto]. }
      split.
      + intros j Hj. rewrite (RW j) by lia. destruct (Z.eqb_spec j e) as [->|Hne].
        * right. exists x, len, dist, tc. split; auto. split; auto. replace (e - len) with i by lia. split; [right; auto|].
          split; auto. split; auto. rewrite RI. reflexivity.
        * destruct (R j Hj) as [U|(co & l & d & t & E1 & E2 & E3 & E4 & E5 & E6)]; [auto|right].
          exists co, l, d, t. split; auto. split; auto. split; auto. split; auto. split; auto. rewrite (RP _ _ _ E3 E4). auto.
      + intros p l d t HDp HAp HTp. pose proof (avail_ok _ _ _ HAp) as (B1 & B2 & _). destruct HAp as [Hp HAp'].
        destruct HDp as [HDp|(-> & -> & ->)].
        * rewrite (RP p l d HDp (conj Hp HAp')). rewrite (RW (p + l)) by lia. specialize (LB p l d t HDp (conj Hp HAp') HTp).
          destruct (Z.eqb_spec (p + l) e) as [Ee|]; auto. cbn [cost_of fst]. rewrite Ee, E in LB. cbn [cost_of fst] in LB.
          apply flt_val in Q; auto; [lra|apply Ax].
        * rewrite RI. rewrite RW by lia. fold e. rewrite Z.eqb_refl. cbn [cost_of fst]. rewrite HT in HTp. inversion HTp; subst. apply Rle_refl.
    - exists dp. split; [reflexivity|]. split; auto. split; auto. split; auto. split.
      + intros j Hj. destruct (R j Hj) as [U|(co & l & d & t & E1 & E2 & E3 & E4)]; [auto|right]. exists co, l, d, t. auto.
      + intros p l d t HDp HAp HTp. destruct HDp as [HDp|(-> & -> & ->)]; [apply (LB p l d t); auto|].
        fold e. rewrite E. cbn [cost_of fst]. rewrite HT in HTp. inversion HTp; subst. fold x. apply nflt_val; auto. apply Ax.
  Qed.

  Lemma binv_iff D D' dp : (forall p l d, avail p l d -> (D p l d <-> D' p l d)) -> binv D dp -> binv D' dp.
  Proof.
    intros HD (L & Z0 & R & LB). split; auto. split; auto. split.
    - intros j Hj. destruct (R j Hj) as [U|(co & l & d & t & E1 & E2 & E3 & E4 & E5)]; [auto|right]. exists co, l, d, t.
      split; auto. split; auto. split; auto. apply HD; auto.
    - intros p l d t HDp HAp. apply LB; auto. apply HD; auto.
  Qed.

  (** everything at positions before [i]; at [i] the literal and the matches shorter than [len] *)
  Definition upto (i len : Z) (p l d : Z) : Prop := p < i \/ (p = i /\ l < len).

  Lemma try_matches_best i : 0 <= i < n -> forall k len dp, 3 <= len -> len + Z.of_nat k = Z.max len (snd (cache_get c i) + 1) ->
    binv (upto i len) dp -> acc (cost_of (row dp i)) ->
    exists dp', try_matches k cm n i (fst (cache_get c i)) len dp = Ok dp' /\ binv (upto i (len + Z.of_nat k)) dp'.
  Proof.
    intros Hi. destruct (Hf i Hi) as [[SL SV] SM]. induction k as [|k IH]; intros len dp Hl Hk HI Ai; cbn [try_matches].
    { exists dp. split; auto. replace (len + Z.of_nat 0) with len by lia. auto. }
    rewrite get_znth by (unfold zlen; lia). cbn [rbind]. set (sub := fst (cache_get c i)) in *. set (d := znth sub len) in *.
    replace (len + Z.of_nat (S k)) with (len + 1 + Z.of_nat k) in * by lia.
    destruct (Z.eqb_spec d 0) as [Dz|Dn]; cbn [rbind].
    - apply IH; auto; try lia. revert HI. apply binv_iff. intros p l dd HA. unfold upto. split; [lia|].
      intros [|[-> Q]]; auto. destruct (Z.eq_dec l len) as [->|]; [|right; lia]. exfalso.
      destruct HA as [_ [[-> ->]|(_ & X & Y)]]; [lia|]. fold sub in X. fold d in X. lia.
    - specialize (SV len ltac:(lia) Dn). assert (HA : avail i len d) by (split; auto; right; split; [lia|]; split; auto).
      destruct (avail_ok _ _ _ HA) as (A1 & A2 & tc & A3 & A4). pose proof HI as [L _].
      rewrite get_row by lia. cbn [rbind]. destruct (row dp i) as [[ci li] di] eqn:ER. pose proof A3 as A3'. unfold tokcost in A3. destruct (Z.eqb_spec d 0) as [|_]; [lia|].
      rewrite A3. cbn [rbind]. destruct (Z.leb_spec (i + len) n); [|lia].
      destruct (relax_best (upto i len) dp i len d tc HI) as (dp' & EX & HI' & RI); auto.
      { intros p l dd. unfold upto. lia. } { rewrite ER; exact Ai. }
      rewrite ER in EX. cbn [cost_of fst] in EX. rewrite EX. cbn [rbind]. apply IH; auto; try lia.
      + revert HI'. apply binv_iff. intros p l dd HAp. unfold upto. split.
        * intros [[|]|(-> & -> & _)]; lia.
        * intros [|[-> Q]]; auto. destruct (Z.eq_dec l len) as [->|]; [|left; right; lia]. right. split; auto. split; auto.
          destruct HAp as [_ [[-> ->]|(_ & X & Y)]]; [lia|]. symmetry; exact X.
      + rewrite RI, ER. exact Ai.
  Qed.

  Lemma step_best i dp dp1 : 0 <= i < n -> dp_inv data i dp -> binv (fun p _ _ => p < i) dp ->
    try_literal cm data i dp = Ok dp1 -> exists dp2, try_all cm data i (cache_get c i) dp1 = Ok dp2 /\ binv (fun p _ _ => p < i + 1) dp2.
  Proof.
    intros Hi [L V] HI ET. assert (HA : avail i 1 0) by (split; auto).
    destruct (avail_ok _ _ _ HA) as (_ & _ & tc & A3 & A4).
    assert (acc (cost_of (row dp i))) as Ai.
    { destruct (V i ltac:(lia)) as [R|[Y _]]; [|lia]. destruct (row dp i) as [[ci li] di]. apply R. }
    destruct (relax_best (fun p _ _ => p < i) dp i 1 0 tc HI) as (dp1' & EX & HI1 & RI); auto.
    { intros; lia. }
    unfold try_literal in ET. rewrite get_row in ET by lia. cbn [rbind] in ET. destruct (row dp i) as [[ci li] di] eqn:ER.
    rewrite get_znth in ET by lia. cbn [rbind] in ET. unfold tokcost in A3. cbn [Z.eqb] in A3. rewrite A3 in ET. cbn [rbind] in ET.
    cbn [cost_of fst] in EX. rewrite EX in ET. inversion ET; subst dp1'. 
    destruct (Hf i Hi) as [_ SM]. unfold try_all. destruct (cache_get c i) as [sub maxl] eqn:EC. cbn [snd] in SM.
    destruct (try_matches_best i Hi (Z.to_nat (maxl - MIN_MATCH_LENGTH + 1)) MIN_MATCH_LENGTH dp1) as (dp2 & E2 & HI2).
    - unfold MIN_MATCH_LENGTH; lia.
    - rewrite EC. cbn [snd]. unfold MIN_MATCH_LENGTH. lia.
    - revert HI1. apply binv_iff. intros p l d HAp. unfold upto, MIN_MATCH_LENGTH. split.
      + intros [|(-> & -> & _)]; lia.
      + intros [|[-> Q]]; auto. right. destruct HAp as [_ [[-> ->]|(X & _)]]; auto. lia.
    - rewrite RI. exact Ai.
    - rewrite EC in E2. cbn [fst] in E2. rewrite E2. exists dp2. split; auto. revert HI2. apply binv_iff. intros p l d HAp. unfold upto, MIN_MATCH_LENGTH.
      split; [lia|]. intros Hp. destruct (Z.eq_dec p i) as [->|]; [|left; lia]. right. split; auto.
      destruct HAp as [_ [[-> ->]|(X & _)]]; [lia|]. rewrite EC in X. cbn [snd] in X. lia.
  Qed.
  Lemma loop_best : forall k i st dp, 0 <= i -> i + Z.of_nat k = n -> dp_inv data i dp -> binv (fun p _ _ => p < i) dp ->
    exists dp', opt_loop_cached cfg data cm true k i st c dp = Ok (st, c, dp') /\ dp_inv data n dp' /\ binv (fun p _ _ => p < n) dp'.
  Proof.
    induction k as [|k IH]; intros i st dp Hi Hk HI HB; cbn [opt_loop_cached].
    { exists dp. replace n with i by lia. auto. }
    destruct (row_reached data i dp ltac:(lia) HI) as (ci & li & di & EG & EM). rewrite EG. cbn [rbind]. rewrite EM.
    destruct (try_literal_ok cm data i dp Hc Hb ltac:(lia) HI) as (dp1 & E1 & HI1). rewrite E1. cbn [rbind].
    destruct (try_all_ok cm data i (cache_get c i) dp1 Hc ltac:(lia) (Hf i ltac:(lia)) HI1) as (dp2 & E2 & HI2).
    destruct (step_best i dp dp1 ltac:(lia) HI HB E1) as (dp3 & E3 & HB3). rewrite E2 in E3. inversion E3; subst dp3.
    rewrite E2. cbn [rbind]. apply IH; auto; lia.
  Qed.
  Lemma init_best : binv (fun p _ _ => p < 0) (dp_init (length data)).
  Proof.
    destruct (dp_init_inv data) as [L V]. split; auto. split; [reflexivity|]. split.
    - intros j Hj. left. unfold row, dp_init. replace (Z.to_nat j) with (S (Z.to_nat (j - 1))) by lia. cbn [nth]. apply nth_repeat.
    - intros p l d t Hp [Hp2 _]. lia.
  Qed.

  Lemma total_snoc t : forall ts a x, total_cost cm ts a = Ok x ->
    total_cost cm (ts ++ [t]) a = (match t with TLit b => let* y := literal_cost cm b in Ok (f_add x y) | TMatch l d => let* y := match_cost cm l d in Ok (f_add x y) end).
  Proof.
    induction ts as [|u ts IH]; intros a x E; cbn [app total_cost] in *.
    - inversion E; subst. destruct t; reflexivity.
    - destruct u; [destruct (literal_cost cm b)|destruct (match_cost cm len dist)]; cbn [rbind] in *; try discriminate; auto.
  Qed.
  Lemma walk_cost dp : dp_inv data n dp -> binv (fun p _ _ => p < n) dp ->
    forall fuel p, 0 <= p <= n -> p <= Z.of_nat fuel ->
    exists l ts, walk_back fuel dp p = Ok l /\ lens_sum (rev l) = p /\ emit_tokens data 0 (rev l) = Ok ts /\
      total_cost cm ts f_zero = Ok (cost_of (row dp p)).
  Proof.
    intros [L V] (_ & Z0 & R & _). induction fuel as [|f IH]; intros p Hp Hfu.
    - replace p with 0 by lia. exists [], []. rewrite Z0. cbn [total_cost]. auto.
    - cbn [walk_back]. destruct (Z.leb_spec p 0).
      { replace p with 0 by lia. exists [], []. rewrite Z0. cbn [total_cost]. auto. }
      rewrite get_row by lia. cbn [rbind].
      destruct (R p ltac:(lia)) as [U|(co & len & dist & tc & E1 & E2 & E3 & E4 & E5 & E6)].
      { destruct (V p Hp) as [K|[K _]]; [|lia]. rewrite U in K. destruct K as [K _]. exfalso. apply (acc_not_max _ K). reflexivity. }
      rewrite E1. destruct (avail_ok _ _ _ E4) as (A1 & A2 & _). destruct E4 as [Hq E4].
      destruct (Z.eqb_spec len 0); [lia|]. unfold usub. destruct (Z.ltb_spec p len); [lia|]. cbn [rbind].
      destruct (IH (p - len) ltac:(lia) ltac:(lia)) as (l & ts & -> & S & EE & C). cbn [rbind].
      exists ((len, dist) :: l). cbn [rev]. rewrite lens_sum_app. cbn [lens_sum].
      unfold tokcost in E5. destruct (Z.eqb_spec dist 0) as [->|].
      + exists (ts ++ [TLit (znth data (p - len))]). split; [reflexivity|]. split; [lia|]. split.
        { apply emit_snoc; auto. rewrite Z.eqb_refl, S. rewrite get_znth by lia. cbn [rbind]. repeat f_equal; lia. }
        rewrite (total_snoc _ _ _ _ C), E5. cbn [rbind cost_of fst]. rewrite E6. reflexivity.
      + exists (ts ++ [TMatch len dist]). split; [reflexivity|]. split; [lia|]. split.
        { apply emit_snoc; auto. destruct (Z.eqb_spec dist 0); [lia|]. reflexivity. }
        rewrite (total_snoc _ _ _ _ C), E5. cbn [rbind cost_of fst]. rewrite E6. reflexivity.
  Qed.
  Lemma path_lower dp : dp_inv data n dp -> binv (fun p _ _ => p < n) dp ->
    forall pos ts, parse_of data c pos ts -> 0 <= pos -> forall y, acc y -> (val (cost_of (row dp pos)) <= val y)%R ->
    exists z, total_cost cm ts y = Ok z /\ acc z /\ (val (cost_of (row dp n)) <= val z)%R.
  Proof.
    intros [L V] HB. pose proof HB as (_ & _ & _ & LB).
    assert (forall p len dist tc y, avail p len dist -> tokcost p len dist = Ok tc -> small tc 12 -> acc y -> (val (cost_of (row dp p)) <= val y)%R ->
      (val (cost_of (row dp (p + len))) <= val (f_add y tc))%R) as ST.
    { intros p len dist tc y HA HT HS Hy Hv. eapply Rle_trans; [apply (LB p len dist tc); auto; apply HA|].
      apply add_mono; auto. destruct HA as [Hp _]. destruct (V p ltac:(lia)) as [K|[K _]]; [|lia]. destruct (row dp p) as [[? ?] ?]. apply K. }
    induction 1 as [|pos ts Hp HP IH|pos len dist ts HO HP IH]; intros H0 y Hy Hv; cbn [total_cost].
    - exists y. auto.
    - assert (HA : avail pos 1 0) by (split; auto; lia). destruct (avail_ok _ _ _ HA) as (_ & _ & tc & A3 & A4).
      pose proof A3 as A5. unfold tokcost in A5. cbn [Z.eqb] in A5. rewrite A5. cbn [rbind]. apply IH; [lia|apply acc_add; auto|].
      eapply ST; eauto.
    - destruct (Z.lt_ge_cases pos n) as [Hlt|Hge].
      + assert (HA : avail pos len dist) by (split; auto; lia). destruct (avail_ok _ _ _ HA) as (B1 & B2 & tc & A3 & A4).
        pose proof A3 as A5. unfold tokcost in A5. destruct (Z.eqb_spec dist 0); [destruct HO as (_ & _ & HO); lia|]. rewrite A5. cbn [rbind]. apply IH; [lia|apply acc_add; auto|].
        eapply ST; eauto.
      + exfalso. assert (forall q us, parse_of data c q us -> q <= n) as K.
        { intros q us HQ. induction HQ; try lia. destruct H as (H & _). lia. }
        apply K in HP. destruct HO as (HO & _). lia.
  Qed.
End Best.

Theorem optimal_is_cheapest cfg data cm st c : bytes data -> cost_ok cm -> good_cache cfg data c ->
  exists ts st' c' cost, compress_optimal_cached cfg data cm st c = Ok (ts, st', c') /\ total_cost cm ts f_zero = Ok cost /\
    (is_populated c = true -> c' = c) /\
    forall ts', parse_of data c' 0 ts' -> exists cost', total_cost cm ts' f_zero = Ok cost' /\ f_lt cost' cost = false.
Proof.
  intros HB HC HG. unfold compress_optimal_cached. destruct (empty_or data) as [ED|ED].
  { rewrite ED. exists [], st, c, f_zero. split; [reflexivity|]. split; [reflexivity|]. split; auto. intros ts' P. inversion P; subst.
    - exists f_zero. split; reflexivity.
    - unfold zlen in H; cbn in H; lia.
    - exfalso. destruct H as (H & _). assert (forall q us, parse_of [] c q us -> q <= 0) as K.
      { intros q us HQ. induction HQ as [|? ? HL|? ? ? ? HO]; unfold zlen in *; cbn [length] in *; try lia. destruct HO as (HO & _). lia. }
      match goal with HP : parse_of _ _ (0 + _) _ |- _ => apply K in HP end. lia. }
  rewrite nonempty_match by auto. destruct HG as [HL HG].
  assert (exists st' c' dp', opt_loop_cached cfg data cm (is_populated c) (length data) 0 (if is_populated c then st else reset_tables st) c (dp_init (length data)) = Ok (st', c', dp') /\
    full cfg data c' /\ (is_populated c = true -> c' = c) /\ forall st2, opt_loop_cached cfg data cm true (length data) 0 st2 c' (dp_init (length data)) = Ok (st2, c', dp')) as (st' & c' & dp' & E & F & FC & G).
  { destruct (loops_ok cfg data HB cm HC (length data) 0 (reset_tables st) (dp_init (length data)) c) as (st' & dp' & c' & A & B & D & F & G); auto; try lia.
    { apply init_reach. } { apply reset_tab_ok; lia. } { apply dp_init_inv. }
    destruct (is_populated c) eqn:EP.
    - exists st, c, dp'. split; [apply G; auto|]. split; [auto|]. split; auto.
    - exists st', c', dp'. split; auto. split; auto. split; [discriminate|]. auto. }
  rewrite E. cbn [rbind].
  assert (HF : forall j, 0 <= j < zlen data -> found_ok data j (cache_get c' j)).
  { intros j Hj. destruct (proj2 F j Hj) as (s & _ & _ & K). exact K. }
  destruct (loop_best cfg data cm c' HB HC HF (length data) 0 st (dp_init (length data)) ltac:(lia) ltac:(unfold zlen; lia) (dp_init_inv data) (init_best data cm c' HF))
    as (dp2 & E2 & I2 & B2). rewrite G in E2. inversion E2; subst dp2. clear E2.
  unfold trace_backwards.
  destruct (walk_cost data cm c' HB HC HF dp' I2 B2 (length data) (zlen data)) as (l & ts & -> & _ & ET & EC); [unfold zlen; lia|unfold zlen; lia|].
  cbn [rbind]. rewrite ET. cbn [rbind]. exists ts, st', c', (cost_of (row dp' (zlen data))). split; auto. split; auto. split; auto.
  intros ts' P. pose proof B2 as (_ & Z0 & _).
  destruct (path_lower data cm c' HB HC HF dp' I2 B2 0 ts' P ltac:(lia) f_zero acc_zero) as (z & EZ & AZ & VZ).
  { rewrite Z0. apply Rle_refl. }
  exists z. split; auto. rewrite lt_ok.
  - apply Rlt_bool_false. exact VZ.
  - apply AZ.
  - apply (binv_fin data cm c' HF (fun p _ _ => p < zlen data) dp' (zlen data) B2). unfold zlen; lia.
Qed.
