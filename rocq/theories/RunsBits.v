(** Sizes of the blocks the encoders write, per token (C111). *)
From Verif Require Import Base BitsModel BitsProofs CanonSpec DeflateSpec InflateProofs HuffModel HuffProofs Lz77Model Lz77Spec Lz77Proofs DeflateModel DeflateSyms DeflateProofs DeflateRle DeflateBlock DeflateTop.

Definition blen (b : list bool) : Z := Z.of_nat (length b).
Lemma blen_app a b : blen (a ++ b) = blen a + blen b.
Proof. unfold blen. rewrite app_length. lia. Qed.
Lemma blen_nonneg a : 0 <= blen a.
Proof. unfold blen. lia. Qed.
Lemma blen_bits n v : blen (bits_of n v) = Z.of_nat n.
Proof. unfold blen. rewrite bits_of_length. reflexivity. Qed.
Lemma word_max M lens s : 0 <= M -> lens_ok M lens -> blen (code_word lens s) <= M.
Proof.
  intros HM H. unfold blen, code_word. rewrite rev_length, bits_of_length. unfold ln.
  destruct (nth_in_or_default s lens 0) as [I|E]; [|rewrite E; lia].
  unfold lens_ok in H. rewrite Forall_forall in H. specialize (H _ I). lia.
Qed.
Lemma extra_max (tab : list (Z * Z)) M li a e : forallb (fun p => (0 <=? snd p) && (snd p <=? M)) tab = true -> nth_error tab li = Some (a, e) -> 0 <= e <= M.
Proof. intros H E. rewrite forallb_forall in H. apply nth_error_In in E. specialize (H _ E). cbn [snd] in H. lia. Qed.
Lemma tok_max ll dl t b : lens_ok 15 ll -> lens_ok 15 dl -> tok_bits ll dl t b -> blen b <= 48.
Proof.
  intros HL HD T. destruct T as [b R C|li lb le x di db de y E1 X1 C1 E2 X2 C2].
  - pose proof (word_max 15 ll (Z.to_nat b) ltac:(lia) HL). lia.
  - rewrite !blen_app, !blen_bits. pose proof (word_max 15 ll (257 + li) ltac:(lia) HL). pose proof (word_max 15 dl di ltac:(lia) HD).
    pose proof (extra_max rfc_length 5 _ _ _ eq_refl E1). pose proof (extra_max rfc_distance 13 _ _ _ eq_refl E2). lia.
Qed.
Lemma toks_max ll dl ts b : lens_ok 15 ll -> lens_ok 15 dl -> toks_bits ll dl ts b -> blen b <= 48 * zlen ts.
Proof.
  intros HL HD T. induction T as [|t ts b bs T1 T2 IH]; [reflexivity|]. rewrite blen_app, zlen_cons.
  pose proof (tok_max ll dl t b HL HD T1). lia.
Qed.
Lemma body_max ll dl ts b : lens_ok 15 ll -> lens_ok 15 dl -> body_bits ll dl ts b -> blen b <= 48 * zlen ts + 15.
Proof.
  intros HL HD T. destruct T as [ts bs T C]. rewrite blen_app. pose proof (toks_max ll dl ts bs HL HD T).
  pose proof (word_max 15 ll 256 ltac:(lia) HL). lia.
Qed.
Lemma rep_grow (acc : list Z) v n a : 1 <= n -> acc ++ repeat v (Z.to_nat n) = a -> zlen acc + 1 <= zlen a.
Proof. intros H <-. rewrite zlen_app. unfold zlen. rewrite repeat_length. lia. Qed.
Lemma cl_grow is : forall acc r, cl_run acc is = Some r -> zlen acc + zlen is <= zlen r.
Proof.
  induction is as [|i is IH]; intros acc r E; cbn [cl_run] in E.
  - inversion E; subst. rewrite zlen_nil. lia.
  - destruct (cl_run1 acc i) as [a|] eqn:E1; [|discriminate]. apply IH in E. rewrite zlen_cons.
    enough (zlen acc + 1 <= zlen a) by lia. clear - E1. destruct i as [v|n|n|n]; cbn [cl_run1] in E1.
    + destruct (_ && _); inversion E1; subst. rewrite zlen_app, zlen_cons, zlen_nil. lia.
    + destruct acc as [|z acc]; [discriminate|]. destruct ((3 <=? n) && (n <=? 6)) eqn:B; [|discriminate]. apply (rep_grow (z :: acc) (last (z :: acc) 0) n a); [lia|congruence].
    + destruct ((3 <=? n) && (n <=? 10)) eqn:B; [|discriminate]. apply (rep_grow acc 0 n a); [lia|congruence].
    + destruct ((11 <=? n) && (n <=? 138)) eqn:B; [|discriminate]. apply (rep_grow acc 0 n a); [lia|congruence].
Qed.
Lemma cl_bits_max cl is : lens_ok 7 cl -> blen (cl_bits cl is) <= 14 * zlen is.
Proof.
  intros H. unfold cl_bits. induction is as [|i is IH]; [reflexivity|]. cbn [flat_map]. rewrite !blen_app, zlen_cons.
  pose proof (word_max 7 cl (cl_sym i) ltac:(lia) H). assert (blen (cl_extra i) <= 7) by (destruct i; cbn [cl_extra]; rewrite ?blen_bits; unfold blen; cbn [length]; lia). lia.
Qed.
Lemma flat3 (f : nat -> Z) l : blen (flat_map (fun o => bits_of 3 (f o)) l) = 3 * zlen l.
Proof. induction l as [|o l IH]; [reflexivity|]. cbn [flat_map]. rewrite blen_app, blen_bits, IH, zlen_cons. lia. Qed.
Lemma header_max hb ll dl : dyn_header code_ok hb ll dl -> blen hb <= 4551.
Proof.
  intros D. destruct D as [hlit hdist hclen cl is ll dl R1 R2 R3 L K Z0 Hc E L1 L2].
  rewrite !blen_app, !blen_bits. unfold cl_header. rewrite (flat3 (fun o => nth o cl 0)).
  pose proof (cl_bits_max cl is (proj1 K)). pose proof (cl_grow is [] _ E) as G. rewrite zlen_app, zlen_nil in G.
  assert (zlen (firstn (Z.to_nat (hclen + 4)) rfc_cl_order) <= 19). { unfold zlen. rewrite firstn_length. cbn [length rfc_cl_order]. lia. }
  lia.
Qed.
Lemma dyn_max final ts bs : dyn_block_bits final ts bs -> blen bs <= 4569 + 48 * zlen ts.
Proof.
  intros (hb & ll & dl & body & -> & D & K1 & K2 & B).
  change (final :: [false; true] ++ hb ++ body) with ([final; false; true] ++ hb ++ body). rewrite !blen_app.
  change (blen [final; false; true]) with 3. pose proof (header_max _ _ _ D). pose proof (body_max _ _ _ _ (proj1 K1) (proj1 K2) B). lia.
Qed.
Lemma finish_max w bs n : wrote b64_new bs w -> blen bs <= 8 * n + 1 -> zlen (b64_finish w) <= n + 1.
Proof.
  intros [W1 W2] HB. destruct (b64_finish_spec w W1) as [F1 F2]. rewrite W2 in F2. change (b64_bits b64_new) with (@nil bool) in F2. cbn [app] in F2.
  apply (f_equal (@length bool)) in F2. rewrite bytes_bits_length, app_length, repeat_length in F2. unfold zlen, blen in *.
  pose proof (Z.mod_pos_bound (- b64_n w) 8 ltac:(lia)). lia.
Qed.
Lemma encode_dynamic_max H ts o : Forall legal_token ts -> zlen ts + 1 < U32 -> encode_dynamic_huffman H ts = Ok o -> zlen o <= 6 * zlen ts + 572.
Proof.
  intros HL HS. unfold encode_dynamic_huffman. destruct (dyn_block_ok H b64_new ts true b64_new_inv HL HS) as (w & bs & E & W & D). rewrite E; cbn [rbind].
  intros Y; inversion Y; subst. pose proof (dyn_max _ _ _ D). pose proof (finish_max w bs (6 * zlen ts + 571) W ltac:(lia)). lia.
Qed.
Lemma encode_fixed_max ts o : Forall legal_token ts -> encode_fixed_huffman ts = Ok o -> zlen o <= 6 * zlen ts + 572.
Proof.
  intros HL. unfold encode_fixed_huffman. destruct fixed_tables as (lr & dr & -> & -> & T1 & T2). cbn [rbind].
  pose proof (write_wrote b64_new 1 1 b64_new_inv ltac:(lia)) as W1.
  pose proof (write_wrote _ 1 2 (proj1 W1) ltac:(lia)) as W2.
  destruct (body_ok _ _ lr dr ts _ T1 T2 (proj1 W2) HL (fixed_covered ts HL) (fixed_lit_pos 256 ltac:(lia))) as (w3 & bs & E & W3 & B).
  destruct (write_tokens lr dr _ ts) as [w'| | |]; cbn [rbind] in *; try discriminate. rewrite E; cbn [rbind].
  intros Y; inversion Y; subst.
  pose proof (wrote_trans _ _ _ _ _ W1 (wrote_trans _ _ _ _ _ W2 W3)) as W.
  pose proof (body_max _ _ _ _ (proj1 fixed_lit_ok) (proj1 fixed_dist_ok) B).
  pose proof (finish_max w3 _ (6 * zlen ts + 571) W) as F. rewrite !blen_app, !blen_bits in F. cbn in F. lia.
Qed.
Lemma encode_best_max H ts o : Forall legal_token ts -> zlen ts + 1 < U32 -> encode_best_huffman H ts = Ok o -> zlen o <= 6 * zlen ts + 572.
Proof.
  intros HL HS. unfold encode_best_huffman.
  destruct (encode_dynamic_huffman H ts) as [d| | |] eqn:ED; cbn [rbind]; destruct (encode_fixed_huffman ts) as [f| | |] eqn:EF; cbn [rbind];
    repeat match goal with |- context [if ?b then _ else _] => destruct b end; intros Y; inversion Y; subst;
    first [eapply encode_dynamic_max; eauto; fail | eapply encode_fixed_max; eauto].
Qed.

(** several blocks *)
Lemma slice_len {A} (l : list A) a b : 0 <= a -> a <= b <= zlen l -> zlen (slice l a b) = b - a.
Proof. intros. unfold slice, zlen in *. rewrite firstn_length, skipn_length. lia. Qed.
Lemma write_blocks_max H ts : Forall legal_token ts -> zlen ts + 1 < U32 -> forall bs lo w, b64_inv w -> 0 <= lo ->
  bounds_ok lo bs (zlen ts) ->
  exists w' xs, write_blocks H w ts (lo :: bs ++ [zlen ts]) = Ok w' /\ wrote w xs w' /\
    blen xs <= 4569 * (zlen bs + 1) + 48 * (zlen ts - lo).
Proof.
  intros HL HS. assert (forall a b, 0 <= a -> a <= b <= zlen ts -> slice_r ts a b = Ok (slice ts a b)) as SR.
  { intros a b Ha Hb. apply slice_r_ok; lia. }
  induction bs as [|b bs IH]; intros lo w Hw Hlo HB; cbn [bounds_ok] in HB.
  - cbn [app write_blocks]. rewrite SR by lia. cbn [rbind]. pose proof (slice_len ts lo (zlen ts) Hlo ltac:(lia)) as L.
    destruct (dyn_block_ok H w (slice ts lo (zlen ts)) true Hw (Forall_slice _ _ _ _ HL) ltac:(lia)) as (w' & xs & E & W & D).
    rewrite E; cbn [rbind]. exists w', xs. split; auto. split; auto. pose proof (dyn_max _ _ _ D). rewrite zlen_nil. lia.
  - destruct HB as [B1 B2]. pose proof (bounds_ok_le _ _ _ B2) as B3.
    cbn [app write_blocks]. rewrite SR by lia. cbn [rbind]. pose proof (slice_len ts lo b Hlo ltac:(lia)) as L.
    destruct (dyn_block_ok H w (slice ts lo b) false Hw (Forall_slice _ _ _ _ HL) ltac:(lia)) as (w1 & xs & E & W & D).
    destruct (IH b w1 (proj1 W) ltac:(lia) B2) as (w2 & ys & E2 & W2 & K2).
    exists w2, (xs ++ ys). split; [|split].
    + destruct (bs ++ [zlen ts]) eqn:Eb; [destruct bs; discriminate|]. rewrite E; cbn [rbind]. exact E2.
    + eapply wrote_trans; eauto.
    + rewrite blen_app, zlen_cons. pose proof (dyn_max _ _ _ D). lia.
Qed.
Lemma insert_len x l : zlen (insert_split x l) = 1 + zlen l.
Proof. induction l as [|y l IH]; cbn [insert_split]; [reflexivity|]. destruct (x <? y); rewrite !zlen_cons; [|rewrite IH]; lia. Qed.
Lemma split_loop_len E fuel : forall ts splits done nb maxb r, nb <= maxb -> split_loop E fuel ts splits done nb maxb = Ok r -> zlen r <= zlen splits + (maxb - nb).
Proof.
  induction fuel as [|f IH]; intros ts splits done nb maxb r HN; cbn [split_loop]; destruct (Z.leb_spec maxb nb).
  - intros Y; inversion Y; subst. lia.
  - destruct (largest_block _ _ _) as [[[s e]|]| | |]; cbn [rbind]; intros Y; inversion Y; subst. lia.
  - intros Y; inversion Y; subst. lia.
  - destruct (largest_block _ _ _) as [[[s e]|]| | |]; cbn [rbind]; try (intros Y; inversion Y; subst; lia).
    destruct (find_best_split E ts s e) as [[x|]| | |]; cbn [rbind]; try discriminate; intros Y; apply IH in Y; try lia. rewrite insert_len in Y. lia.
Qed.
Lemma encode_split_max H E ts o : est_total E -> Forall legal_token ts -> zlen ts + 1 < U32 ->
  encode_with_block_splitting H E ts 15 = Ok o -> zlen o <= 6 * zlen ts + 8568.
Proof.
  intros HE HL HS. unfold encode_with_block_splitting. destruct (zlen ts <? MIN_BLOCK_SIZE * 2).
  { intros Y. apply encode_dynamic_max in Y; auto. lia. }
  destruct (negb _); [discriminate|]. destruct (find_block_splits_ok E ts HE HL HS 15) as (r & ER & G). rewrite ER. cbn [rbind].
  destruct r as [|x r].
  { intros Y. apply encode_dynamic_max in Y; auto. lia. }
  destruct G as [|G]; [discriminate|].
  assert (zlen (x :: r) <= 14) as HR.
  { unfold find_block_splits in ER. destruct ((zlen ts <? MIN_BLOCK_SIZE * 2) || (15 <=? 1)); [inversion ER|].
    apply split_loop_len in ER; [|lia]. rewrite zlen_nil in ER. lia. }
  remember (x :: r) as sp. destruct (write_blocks_max H ts HL HS sp 0 b64_new b64_new_inv ltac:(lia) (proj1 (gaps_bounds _ _ _ G))) as (w & xs & EW & W & K).
  destruct sp as [|y sp]; [discriminate|]. rewrite EW. cbn [rbind].
  intros Y; inversion Y; subst o. pose proof (finish_max w xs (6 * zlen ts + 8567) W ltac:(lia)). lia.
Qed.
Lemma encode_tokens_max H E level n ts o : est_total E -> Forall legal_token ts -> zlen ts + 1 < U32 ->
  encode_tokens H E level n ts = Ok o -> zlen o <= 6 * zlen ts + 8568.
Proof.
  intros HE HL HS. unfold encode_tokens. destruct (_ && _).
  - apply encode_split_max; auto.
  - intros Y. apply encode_best_max in Y; auto. lia.
Qed.
