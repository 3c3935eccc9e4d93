(** The DEFLATE encoder: frequencies, block headers, blocks, streams. *)
From Verif Require Import Base BitsModel BitsProofs CanonSpec CanonProofs ChecksumModel ChecksumSpec ChecksumProofs
  DeflateSpec InflateModel InflateProofs HuffModel HuffProofs Lz77Model Lz77Spec Lz77Proofs DeflateModel DeflateSyms.

(** ** Codes that differ only by trailing zero lengths *)
Section SameLn.
  Variables (a b : list Z).
  Hypothesis Hab : forall s, ln a s = ln b s.
  Lemma same_before j s : before a j s = before b j s.
  Proof. unfold before. rewrite !Hab. reflexivity. Qed.
  Lemma ln_beyond l s : (length l <= s)%nat -> ln l s = 0.
  Proof. intros; unfold ln; apply nth_overflow; auto. Qed.
  Lemma psum_same f : (forall j, ln a j = 0 -> f j = 0) -> psum f (length a) = psum f (length b).
  Proof.
    intros Hf. set (m := Nat.max (length a) (length b)).
    rewrite <- (psum_le_ind f (length a) m) by (subst m; try lia; intros; apply Hf, ln_beyond; auto).
    rewrite <- (psum_le_ind f (length b) m) by (subst m; try lia; intros; apply Hf; rewrite Hab; apply ln_beyond; auto).
    reflexivity.
  Qed.
  Lemma same_canon s : canon a s = canon b s.
  Proof.
    unfold canon. rewrite psum_same.
    - apply psum_ext. intros j _. rewrite same_before, !Hab. reflexivity.
    - intros j Hj. unfold before. rewrite Hj. reflexivity.
  Qed.
  Lemma same_code_word s : code_word a s = code_word b s.
  Proof. unfold code_word. rewrite same_canon, Hab. reflexivity. Qed.
  Lemma same_kraft M : kraft M a = kraft M b.
  Proof.
    unfold kraft. rewrite psum_same.
    - apply psum_ext. intros j _. rewrite !Hab. reflexivity.
    - intros j Hj. rewrite Hj. reflexivity.
  Qed.
  Lemma same_has_code s : has_code a s -> has_code b s.
  Proof.
    intros [_ H]. rewrite Hab in H. split; auto.
    destruct (Nat.lt_ge_cases s (length b)); auto. rewrite ln_beyond in H by auto. lia.
  Qed.
End SameLn.
Lemma ln_firstn n l s : (forall s, (n <= s)%nat -> ln l s = 0) -> ln (firstn n l) s = ln l s.
Proof.
  intros H. unfold ln in *. destruct (Nat.lt_ge_cases s n).
  - rewrite <- (firstn_skipn n l) at 2. destruct (Nat.lt_ge_cases s (length l)).
    + rewrite app_nth1; auto. rewrite firstn_length; lia.
    + rewrite firstn_skipn. rewrite !nth_overflow; auto. rewrite firstn_length; lia.
  - rewrite H by auto. apply nth_overflow. rewrite firstn_length; lia.
Qed.
Lemma trunc_code_ok M n l : (forall s, (n <= s)%nat -> ln l s = 0) -> code_ok M l -> code_ok M (firstn n l).
Proof.
  intros H [H1 H2]. split; [apply Forall_firstn; auto|].
  rewrite (same_kraft (firstn n l) l) by (intros; apply ln_firstn; auto). auto.
Qed.

Lemma last_nz_spec l : forall i best, best <= i ->
  best <= last_nz l i best <= Z.max best (i + zlen l) /\
  (forall k, 0 <= k < zlen l -> znth l k <> 0 -> i + k < last_nz l i best).
Proof.
  induction l as [|x l IH]; intros i best Hb; cbn [last_nz].
  - rewrite zlen_nil. split; [lia|]. intros; lia.
  - rewrite zlen_cons. pose proof (zlen_nonneg l).
    destruct (IH (i + 1) (if x =? 0 then best else i + 1)) as [A B]; [destruct (x =? 0); lia|].
    split; [destruct (x =? 0); lia|]. intros k Hk Hx.
    destruct (Z.eq_dec k 0) as [->|Hk0].
    + destruct (Z.eqb_spec x 0) as [->|]; [contradiction Hx; reflexivity|]. lia.
    + assert (i + 1 + (k - 1) < last_nz l (i + 1) (if x =? 0 then best else i + 1)).
      { apply B; [lia|]. intros Hz. apply Hx. unfold znth in *.
        replace (Z.to_nat k) with (S (Z.to_nat (k - 1))) by lia. exact Hz. }
      lia.
Qed.
Lemma last_nz_tight l : forall i best, last_nz l i best = best \/
  (exists k, 0 <= k < zlen l /\ znth l k <> 0 /\ last_nz l i best = i + k + 1).
Proof.
  induction l as [|x l IH]; intros i best; cbn [last_nz]; auto.
  destruct (IH (i + 1) (if x =? 0 then best else i + 1)) as [A|(k & K1 & K2 & K3)].
  - destruct (Z.eqb_spec x 0); auto. right. exists 0. rewrite zlen_cons. pose proof (zlen_nonneg l).
    split; [lia|]. split; auto. lia.
  - right. exists (k + 1). rewrite zlen_cons. split; [lia|]. split; [|lia].
    unfold znth in *. replace (Z.to_nat (k + 1)) with (S (Z.to_nat k)) by lia. exact K2.
Qed.
Lemma last_nonzero_spec l : 1 <= last_nonzero l <= Z.max 1 (zlen l) /\
  (forall s, (Z.to_nat (last_nonzero l) <= s)%nat -> ln l s = 0) /\
  (forall s, 0 < ln l s -> Z.of_nat s < last_nonzero l).
Proof.
  unfold last_nonzero. destruct l as [|x l].
  { cbn. repeat split; try lia; intros s; unfold ln; destruct s; cbn; lia. }
  cbn [last_nz]. pose proof (last_nz_spec (x :: l) 0 0 ltac:(lia)) as P0.
  pose proof (last_nz_spec l (0 + 1) (if x =? 0 then 1 else 0 + 1) ltac:(destruct (x =? 0); lia)) as [A B].
  set (L := last_nz l (0 + 1) (if x =? 0 then 1 else 0 + 1)) in *. clear P0.
  rewrite zlen_cons. pose proof (zlen_nonneg l).
  assert (forall s, ln (x :: l) s <> 0 -> Z.of_nat s < L) as C.
  { intros [|s] Hs; [destruct (x =? 0); lia|]. unfold ln in Hs; cbn [nth] in Hs.
    destruct (Nat.lt_ge_cases s (length l)).
    - specialize (B (Z.of_nat s)). unfold znth, zlen in B. rewrite Nat2Z.id in B. specialize (B ltac:(lia) Hs). lia.
    - rewrite nth_overflow in Hs by auto. lia. }
  split; [destruct (x =? 0); lia|]. split.
  - intros s Hs. destruct (Z.eq_dec (ln (x :: l) s) 0); auto. specialize (C s n). lia.
  - intros s Hs. apply C. lia.
Qed.

(** ** Counting *)
Lemma lsum_nonneg l : Forall (fun f => 0 <= f) l -> 0 <= lsum l.
Proof. unfold lsum; induction 1; cbn [fold_right]; lia. Qed.
Lemma lsum_cons x l : lsum (x :: l) = x + lsum l.
Proof. reflexivity. Qed.
Lemma lsum_ge l i : Forall (fun f => 0 <= f) l -> nth i l 0 <= lsum l.
Proof.
  intros H; revert i; induction H as [|x l Hx Hl IH]; intros i; [destruct i; cbn; lia|].
  rewrite lsum_cons. pose proof (lsum_nonneg l Hl). destruct i as [|i]; cbn [nth]; [lia|]. specialize (IH i). lia.
Qed.
Lemma lsum_upd l i v : (i < length l)%nat -> lsum (upd l i v) = lsum l + v - nth i l 0.
Proof.
  revert i; induction l as [|x l IH]; intros i H; cbn [length] in H; [lia|].
  destruct i as [|i]; cbn [upd nth]; rewrite !lsum_cons; [lia|]. rewrite IH by lia. lia.
Qed.
(** counters after an increment at [i] *)
Lemma inc32_ok l i : Forall (fun f => 0 <= f) l -> 0 <= i < zlen l -> lsum l + 1 < U32 ->
  exists l', inc32 l i = Ok l' /\ length l' = length l /\ Forall (fun f => 0 <= f) l' /\ lsum l' = lsum l + 1 /\
    0 < znth l' i /\ (forall j, znth l j <= znth l' j).
Proof.
  intros H Hi Hs. unfold inc32. rewrite (get_ok l i 0) by auto. cbn [rbind].
  pose proof (lsum_ge l (Z.to_nat i) H) as G. unfold U32 in *.
  destruct (Z.ltb_spec (nth (Z.to_nat i) l 0 + 1) (2 ^ 32)); [|lia].
  eexists; split; [reflexivity|].
  assert (Z.to_nat i < length l)%nat as L by (unfold zlen in Hi; lia).
  assert (0 <= nth (Z.to_nat i) l 0) by (apply (Forall_nth_d (fun f => 0 <= f)); auto; lia).
  split; [apply upd_length|]. split; [apply Forall_upd; auto; lia|].
  split; [rewrite lsum_upd by auto; lia|]. unfold znth. split.
  - rewrite nth_upd_eq by auto. lia.
  - intros j. rewrite nth_upd by auto. destruct (Nat.eqb_spec (Z.to_nat j) (Z.to_nat i)) as [->|]; lia.
Qed.

Definition counted (lf df : list Z) (t : token) : Prop :=
  match t with
  | TLit b => 0 < znth lf b
  | TMatch l d =>
      (forall s e v, length_code l = Ok (s, e, v) -> 0 < znth lf s) /\
      (forall s e v, distance_code d = Ok (s, e, v) -> 0 < znth df s)
  end.
Definition le_tab (a b : list Z) : Prop := forall j, znth a j <= znth b j.
Lemma le_tab_trans a b c : le_tab a b -> le_tab b c -> le_tab a c.
Proof. intros H1 H2 j. specialize (H1 j); specialize (H2 j); lia. Qed.
Lemma counted_mono lf df lf' df' t : le_tab lf lf' -> le_tab df df' -> counted lf df t -> counted lf' df' t.
Proof.
  intros H1 H2. destruct t as [b|l d]; cbn [counted].
  - specialize (H1 b); lia.
  - intros [A B]; split; intros s e v E; [specialize (A s e v E); specialize (H1 s)|specialize (B s e v E); specialize (H2 s)]; lia.
Qed.
Definition nn (l : list Z) : Prop := Forall (fun f => 0 <= f) l.
Lemma count_tokens_ok : forall ts lf df, nn lf -> nn df -> length lf = 286%nat -> length df = 30%nat ->
  Forall legal_token ts -> lsum lf + zlen ts < U32 -> lsum df + zlen ts < U32 ->
  exists lf' df', count_tokens ts lf df = Ok (lf', df') /\ nn lf' /\ nn df' /\ length lf' = 286%nat /\ length df' = 30%nat /\
    lsum lf' = lsum lf + zlen ts /\ lsum df' <= lsum df + zlen ts /\ le_tab lf lf' /\ le_tab df df' /\
    Forall (counted lf' df') ts.
Proof.
  induction ts as [|t ts IH]; intros lf df N1 N2 L1 L2 HL S1 S2; cbn [count_tokens].
  - exists lf, df. rewrite zlen_nil in *. repeat (split; [auto; try lia|]); try (intros j; lia). constructor.
  - rewrite zlen_cons in *. pose proof (zlen_nonneg ts). inversion HL as [|? ? T1 T2]; subst.
    destruct t as [b|l d]; cbn [legal_token] in T1.
    + unfold is_byte in T1. destruct (inc32_ok lf b N1) as (lf1 & E & A1 & A2 & A3 & A4 & A5); [unfold zlen; lia|lia|].
      rewrite E; cbn [rbind].
      destruct (IH lf1 df A2 N2 ltac:(lia) L2 T2 ltac:(lia) ltac:(lia)) as (lf' & df' & E' & B1 & B2 & B3 & B4 & B5 & B6 & B7 & B8 & B9).
      exists lf', df'. split; auto. split; auto. split; auto. split; auto. split; auto. split; [lia|]. split; [lia|].
      split; [eapply le_tab_trans; [exact A5|exact B7]|]. split; auto. constructor; auto.
      cbn [counted]. specialize (B7 b). lia.
    + destruct (length_code_ok l ltac:(lia)) as (li & lb & le & x & K1 & R1 & X1 & -> & E1).
      destruct (distance_code_ok d ltac:(lia)) as (di & db & de & y & K2 & R2 & X2 & -> & E2).
      assert (li < 29)%nat by (change 29%nat with (length rfc_length); apply nth_error_Some; congruence).
      assert (di < 30)%nat by (change 30%nat with (length rfc_distance); apply nth_error_Some; congruence).
      rewrite E1; cbn [rbind].
      destruct (inc32_ok lf (257 + Z.of_nat li) N1) as (lf1 & E & A1 & A2 & A3 & A4 & A5); [unfold zlen; lia|lia|].
      rewrite E; cbn [rbind]. rewrite E2; cbn [rbind].
      destruct (inc32_ok df (0 + Z.of_nat di) N2) as (df1 & F & C1 & C2 & C3 & C4 & C5); [unfold zlen; lia|lia|].
      rewrite F; cbn [rbind].
      destruct (IH lf1 df1 A2 C2 ltac:(lia) ltac:(lia) T2 ltac:(lia) ltac:(lia)) as (lf' & df' & E' & B1 & B2 & B3 & B4 & B5 & B6 & B7 & B8 & B9).
      exists lf', df'. split; auto. split; auto. split; auto. split; auto. split; auto. split; [lia|]. split; [lia|].
      split; [eapply le_tab_trans; [exact A5|exact B7]|]. split; [eapply le_tab_trans; [exact C5|exact B8]|].
      constructor; auto. cbn [counted]. rewrite E1, E2. split; intros s e v Ev; inversion Ev; subst.
      * specialize (B7 (257 + Z.of_nat li)). lia.
      * specialize (B8 (0 + Z.of_nat di)). lia.
Qed.
Lemma nn_repeat n : nn (repeat 0 n).
Proof. apply Forall_forall. intros x H. apply repeat_spec in H. lia. Qed.
Lemma lsum_repeat n : lsum (repeat 0 n) = 0.
Proof. induction n; cbn; auto. Qed.

(** what the frequency tables guarantee *)
Definition freqs_ok (ts : list token) (lf df : list Z) : Prop :=
  nn lf /\ nn df /\ length lf = 286%nat /\ length df = 30%nat /\ lsum lf < U32 /\ lsum df < U32 /\
  0 < znth lf 256 /\ Forall (counted lf df) ts /\ (exists i, (i < 30)%nat /\ 0 < nth i df 0).
Lemma finish_counts_ok ts lf df : nn lf -> nn df -> length lf = 286%nat -> length df = 30%nat ->
  lsum lf + 1 < U32 -> lsum df < U32 -> Forall (counted lf df) ts ->
  exists lf' df', finish_counts (lf, df) = Ok (lf', df') /\ freqs_ok ts lf' df' /\ lsum lf' = lsum lf + 1 /\ le_tab lf lf' /\ le_tab df df'.
Proof.
  intros N1 N2 L1 L2 S1 S2 C. unfold finish_counts.
  destruct (inc32_ok lf 256 N1) as (lf1 & E & A1 & A2 & A3 & A4 & A5); [unfold zlen; lia|lia|].
  rewrite E; cbn [rbind]. eexists _, _. split; [reflexivity|].
  destruct (forallb (fun f => f =? 0) df) eqn:Z0.
  - assert (df = repeat 0 30) as ->.
    { rewrite forallb_forall in Z0. rewrite <- L2. apply Forall_eq_repeat. apply Forall_forall. intros x Hx.
      specialize (Z0 x Hx). lia. }
    assert (le_tab (repeat 0 30) (upd (repeat 0 30) 0 1)) as LT.
    { intros j. unfold znth. rewrite nth_upd by (cbn; lia). destruct (Nat.eqb_spec (Z.to_nat j) 0) as [->|]; cbn [nth repeat]; lia. }
    split; [|split; [lia|split; [exact A5|exact LT]]].
    split; auto. split; [apply Forall_upd; auto; lia|]. split; [lia|]. split; [reflexivity|]. split; [lia|].
    split; [vm_compute; reflexivity|]. split; auto. split.
    + eapply Forall_impl; [|exact C]. intros t. apply counted_mono; auto.
    + exists O. cbn. lia.
  - split; [|split; [lia|split; [exact A5|intros j; lia]]].
    split; auto. split; auto. split; [lia|]. split; auto. split; [lia|]. split; auto. split; auto. split.
    + eapply Forall_impl; [|exact C]. intros t. apply counted_mono; auto. intros j; lia.
    + assert (exists x, In x df /\ x <> 0) as (x & Hx & Hn).
      { clear - Z0. induction df as [|y df IH]; cbn in Z0; [discriminate|].
        destruct (Z.eqb_spec y 0); cbn in Z0; [destruct (IH Z0) as (x & ? & ?); exists x; cbn; auto|exists y; cbn; auto]. }
      destruct (In_nth df x 0 Hx) as (i & Hi & Hv). exists i. split; [lia|]. rewrite Hv.
      unfold nn in N2. rewrite Forall_forall in N2. specialize (N2 x Hx). lia.
Qed.
Lemma count_symbols_ok ts : Forall legal_token ts -> zlen ts + 1 < U32 ->
  exists lf df, count_symbols ts = Ok (lf, df) /\ freqs_ok ts lf df.
Proof.
  intros HL HS. unfold count_symbols.
  destruct (count_tokens_ok ts zero_lf zero_df (nn_repeat _) (nn_repeat _)) as (lf & df & E & B1 & B2 & B3 & B4 & B5 & B6 & B7 & B8 & B9); auto.
  { unfold zero_lf. rewrite lsum_repeat. lia. } { unfold zero_df. rewrite lsum_repeat. lia. }
  unfold zero_lf, zero_df in *. rewrite lsum_repeat in *.
  rewrite E; cbn [rbind].
  destruct (finish_counts_ok ts lf df B1 B2 B3 B4 ltac:(lia) ltac:(lia) B9) as (lf' & df' & F & G & _). eauto.
Qed.
