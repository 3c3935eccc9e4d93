(** Stored blocks, zlib container, block-split search, packed tokens, the
    Deflater and the public entry points. *)
From Verif Require Import Base BitsModel BitsProofs CanonSpec ChecksumModel ChecksumSpec ChecksumProofs
  DeflateSpec InflateModel InflateProofs HuffModel HuffProofs Lz77Model Lz77Spec Lz77Proofs DeflateModel DeflateSyms DeflateProofs
  DeflateRle DeflateBlock.

(** ** Packed tokens *)
Lemma count_packed_eq ps : forall ts lf df, map_res unpack_token ps = Ok ts -> count_packed ps lf df = count_tokens ts lf df.
Proof.
  induction ps as [|p ps IH]; intros ts lf df H; cbn [map_res] in H; [inversion H; reflexivity|].
  unfold unpack_token in H at 1. cbn [count_packed].
  destruct (packed_as_literal p) as [b|].
  - cbn [rbind] in H. apply rbind_ok in H as (ts' & H1 & H2). inversion H2; subst. cbn [count_tokens].
    destruct (inc32 lf b); cbn [rbind]; auto.
  - apply rbind_ok in H as (t & H1 & H2). apply rbind_ok in H1 as (m & H3 & H4). rewrite H3; cbn [rbind].
    destruct m as [[l d]|]; [|discriminate]. inversion H4; subst.
    apply rbind_ok in H2 as (ts' & H5 & H6). inversion H6; subst. cbn [count_tokens].
    destruct (length_code l) as [[[ls le] lv]| | |]; cbn [rbind]; auto. destruct (inc32 lf ls); cbn [rbind]; auto.
    destruct (distance_code d) as [[[ds de] dv]| | |]; cbn [rbind]; auto. destruct (inc32 df ds); cbn [rbind]; auto.
Qed.
Lemma write_packed_eq lr dr ps : forall ts w, map_res unpack_token ps = Ok ts -> write_packed lr dr w ps = write_tokens lr dr w ts.
Proof.
  induction ps as [|p ps IH]; intros ts w H; cbn [map_res] in H; [inversion H; reflexivity|].
  unfold unpack_token in H at 1. cbn [write_packed].
  destruct (packed_as_literal p) as [b|].
  - cbn [rbind] in H. apply rbind_ok in H as (ts' & H1 & H2). inversion H2; subst. cbn [write_tokens].
    destruct (emit w lr b); cbn [rbind]; auto.
  - apply rbind_ok in H as (t & H1 & H2). apply rbind_ok in H1 as (m & H3 & H4). rewrite H3; cbn [rbind].
    destruct m as [[l d]|]; [|discriminate]. inversion H4; subst.
    apply rbind_ok in H2 as (ts' & H5 & H6). inversion H6; subst. cbn [write_tokens].
    destruct (write_match lr dr w l d); cbn [rbind]; auto.
Qed.
Lemma map_res_length {A B} (f : A -> res B) l m : map_res f l = Ok m -> zlen l = zlen m.
Proof.
  revert m; induction l as [|x l IH]; intros m H; cbn [map_res] in H; [inversion H; reflexivity|].
  apply rbind_ok in H as (y & _ & H). apply rbind_ok in H as (ys & H1 & H2). inversion H2; subst.
  rewrite !zlen_cons. f_equal. auto.
Qed.
Lemma encode_dynamic_packed_eq H ps ts : map_res unpack_token ps = Ok ts ->
  encode_dynamic_huffman_packed H ps = encode_dynamic_huffman H ts.
Proof.
  intros E. unfold encode_dynamic_huffman_packed, encode_dynamic_huffman, write_dynamic_huffman_block, count_symbols_packed, count_symbols.
  rewrite (count_packed_eq ps ts _ _ E). destruct (count_tokens ts zero_lf zero_df); cbn [rbind]; auto.
  destruct (finish_counts a); cbn [rbind]; auto.
  destruct (write_dyn_header H b64_new true a0) as [[[w lr] dr]| | |]; cbn [rbind]; auto.
  rewrite (write_packed_eq lr dr ps ts _ E). destruct (write_tokens lr dr w ts); cbn [rbind]; auto.
Qed.
Lemma encode_fixed_packed_eq ps ts : map_res unpack_token ps = Ok ts -> encode_fixed_huffman_packed ps = encode_fixed_huffman ts.
Proof.
  intros E. unfold encode_fixed_huffman_packed, encode_fixed_huffman.
  destruct fixed_literal_codes_rev; cbn [rbind]; auto. destruct fixed_distance_codes_rev; cbn [rbind]; auto.
  rewrite (write_packed_eq _ _ ps ts _ E). reflexivity.
Qed.
Lemma encode_best_packed_eq H ps ts : map_res unpack_token ps = Ok ts -> encode_best_huffman_packed H ps = encode_best_huffman H ts.
Proof.
  intros E. unfold encode_best_huffman_packed, encode_best_huffman.
  rewrite (encode_fixed_packed_eq ps ts E), (encode_dynamic_packed_eq H ps ts E), (map_res_length _ _ _ E). reflexivity.
Qed.

(** ** Stored blocks *)
Lemma bits16_bytes v : 0 <= v < 65536 -> bits_of 8 (wrap 8 v) ++ bits_of 8 (wrap 8 (Z.shiftr v 8)) = bits_of 16 v.
Proof.
  intros H. change 16%nat with (8 + 8)%nat. rewrite bits_of_app. unfold wrap. change (2 ^ 8) with (2 ^ Z.of_nat 8).
  rewrite !bits_of_mod, Z.shiftr_div_pow2 by lia. reflexivity.
Qed.
Lemma stored_ok cs : Forall bytes cs -> Forall (fun c => zlen c <= 65535) cs -> cs <> [] ->
  forall out, blocks code_ok out (bytes_bits (stored_blocks cs)) (out ++ concat cs) [].
Proof.
  induction cs as [|c cs IH]; intros HB HL HN out; [congruence|]. apply Forall_cons_iff in HB as [B1 B2]. apply Forall_cons_iff in HL as [L1 L2].
  pose proof (zlen_nonneg c). cbn [stored_blocks concat].
  rewrite (wrap_id 16 (zlen c)) by (change (2 ^ 16) with 65536; lia).
  assert (forall h rest, bytes_bits ([h; wrap 8 (zlen c); wrap 8 (Z.shiftr (zlen c) 8); wrap 8 (65535 - zlen c);
           wrap 8 (Z.shiftr (65535 - zlen c) 8)] ++ c ++ rest) =
         bits_of 8 h ++ bits_of 16 (zlen c) ++ bits_of 16 (65535 - zlen c) ++ bytes_bits c ++ bytes_bits rest) as E.
  { intros h rest. rewrite !bytes_bits_app. cbn [bytes_bits flat_map]. rewrite app_nil_r.
    rewrite <- (bits16_bytes (zlen c)), <- (bits16_bytes (65535 - zlen c)) by lia. rewrite !app_assoc. reflexivity. }
  rewrite E. destruct cs as [|c2 cs].
  - cbn [concat stored_blocks]. change (bytes_bits []) with (@nil bool). rewrite (app_nil_r c).
    apply bks_last. apply (blk_stored code_ok out [false; false; false; false; false] c []); [cbn; lia|auto|auto|reflexivity].
  - apply (bks_more _ _ _ (out ++ c) (bytes_bits (stored_blocks (c2 :: cs)))).
    + apply (blk_stored code_ok out [false; false; false; false; false] c (bytes_bits (stored_blocks (c2 :: cs)))); [cbn; lia|auto|auto|].
      rewrite bytes_bits_length, Nat.mul_comm. apply Nat.mod_mul. lia.
    + rewrite app_assoc. apply IH; auto. discriminate.
Qed.
Lemma stored_bytes cs : Forall bytes cs -> bytes (stored_blocks cs).
Proof.
  induction 1 as [|c cs H1 H2 IH]; cbn [stored_blocks]; [constructor|].
  apply Forall_app; split; [|apply Forall_app; split; auto].
  constructor; [destruct cs; unfold is_byte; lia|]. repeat (constructor; [apply wrap8_byte|]). constructor.
Qed.
Lemma chunks_bytes n data : bytes data -> Forall bytes (chunks n data).
Proof.
  unfold chunks. generalize (length data) as f. intros f; revert data. induction f as [|f IH]; intros data H; cbn [chunks_fuel]; [constructor|].
  destruct data; constructor; [apply Forall_firstn; auto|]. apply IH. apply Forall_skipn; auto.
Qed.
Lemma chunk_size data : Forall (fun c : list Z => zlen c <= 65535) (chunks (Z.to_nat 65535) data).
Proof. eapply Forall_impl; [|apply chunks_fuel_len]. cbv beta. intros c H. unfold zlen. lia. Qed.
Lemma chunk_pos : (0 < Z.to_nat 65535)%nat.
Proof. lia. Qed.
Theorem deflate_stored_ok data : bytes data -> data <> [] ->
  bytes (deflate_stored data) /\ deflate_stream (deflate_stored data) data.
Proof.
  intros HB HN. unfold deflate_stored. split; [apply stored_bytes, chunks_bytes; auto|].
  exists []. split; [|cbn; lia].
  pose proof (stored_ok (chunks (Z.to_nat 65535) data) (chunks_bytes _ _ HB) (chunk_size data)) as K.
  rewrite chunks_concat in K by apply chunk_pos. apply K.
  rewrite chunks_cons by (auto using chunk_pos). discriminate.
Qed.
Lemma stored_blocks_len cs : zlen (stored_blocks cs) = zlen (concat cs) + 5 * zlen cs.
Proof.
  induction cs as [|c cs IH]; [reflexivity|]. cbn [stored_blocks concat]. rewrite !zlen_app, !zlen_cons, IH, zlen_nil. lia.
Qed.
Lemma chunks_count {A} (n : Z) (l : list A) : 0 < n -> zlen (chunks (Z.to_nat n) l) = (zlen l + n - 1) / n.
Proof.
  intros Hn. remember (length l) as k eqn:Hk. revert l Hk. induction k as [k IH] using lt_wf_ind. intros l Hk.
  destruct l as [|x t].
  - rewrite chunks_nil, !zlen_nil. rewrite Z.div_small by lia. reflexivity.
  - rewrite chunks_cons by (try discriminate; lia). rewrite zlen_cons.
    rewrite (IH (length (skipn (Z.to_nat n) (x :: t)))); auto.
    2:{ subst k. rewrite skipn_length. cbn [length]. lia. }
    set (L := zlen (x :: t)). assert (0 < L) by (unfold L, zlen; cbn [length]; lia).
    assert (zlen (skipn (Z.to_nat n) (x :: t)) = Z.max 0 (L - n)) as -> by (unfold L, zlen; rewrite skipn_length; lia).
    destruct (Z.le_gt_cases n L).
    + rewrite Z.max_r by lia. replace (L - n + n - 1) with (L + n - 1 + (-1) * n) by lia. rewrite Z.div_add by lia. lia.
    + rewrite Z.max_l by lia. rewrite (Z.div_small (0 + n - 1)) by lia.
      rewrite Z.add_0_r. apply (Z.div_unique (L + n - 1) n 1 (L - 1)); lia.
Qed.
Theorem deflate_stored_size data : zlen (deflate_stored data) = zlen data + 5 * ((zlen data + 65534) / 65535).
Proof.
  unfold deflate_stored. rewrite stored_blocks_len, chunks_concat by apply chunk_pos. rewrite chunks_count by lia.
  replace (zlen data + 65535 - 1) with (zlen data + 65534) by lia. reflexivity.
Qed.

(** ** zlib container *)
Lemma zlib_header_ok level : exists f, zlib_header level = [120; f] /\ is_byte f /\ (120 * 256 + f) mod 31 = 0 /\ Z.testbit f 5 = false.
Proof.
  unfold zlib_header. destruct (level <=? 2); [|destruct (level <=? 6)]; eexists; (split; [reflexivity|]); vm_compute; repeat split; congruence.
Qed.
Lemma be32_ok v : 0 <= v < 2 ^ 32 -> exists a b c d, be32 v = [a; b; c; d] /\ bytes [a; b; c; d] /\
  a * 2 ^ 24 + b * 2 ^ 16 + c * 2 ^ 8 + d = v.
Proof.
  intros H. unfold be32. eexists _, _, _, _. split; [reflexivity|]. split.
  - repeat (constructor; [apply wrap8_byte|]). constructor.
  - unfold wrap. rewrite !Z.shiftr_div_pow2 by lia. change (2 ^ 24) with 16777216. change (2 ^ 16) with 65536. change (2 ^ 8) with 256.
    change (2 ^ 32) with 4294967296 in H. lia.
Qed.
Lemma zlib_ok level body out : bytes body -> bytes out -> deflate_stream body out ->
  let o := zlib_header level ++ body ++ be32 (adler32 out) in bytes o /\ zlib_stream o out.
Proof.
  intros HB HO HD. rewrite (proj2 (adler_all out HO)).
  destruct (zlib_header_ok level) as (f & -> & F1 & F2 & F3).
  destruct (be32_ok (adler_spec out) (adler_spec_range out)) as (a & b & c & d & -> & G1 & G2).
  cbv zeta. split.
  - apply Forall_app; split; [constructor; [unfold is_byte; lia|constructor; [exact F1|constructor]]|]. apply Forall_app; split; [exact HB|exact G1].
  - exists 120, f, body, a, b, c, d. split; [reflexivity|]. split; [unfold is_byte; lia|]. split; auto.
    split; [reflexivity|]. split; [vm_compute; congruence|]. split; auto.
Qed.
Lemma zlib_wrap_ok level data deflated : bytes data -> data <> [] -> bytes deflated -> deflate_stream deflated data ->
  bytes (zlib_wrap level data deflated) /\ zlib_stream (zlib_wrap level data deflated) data.
Proof.
  intros HB HN HD1 HD2. unfold zlib_wrap. destruct (deflate_stored_ok data HB HN) as [S1 S2].
  destruct (should_use_stored (zlen data) (zlen deflated)); apply zlib_ok; auto.
Qed.
Lemma empty_zlib_ok level : exists o, empty_zlib level = Ok o /\ bytes o /\ zlib_stream o [].
Proof.
  destruct empty_block_ok as (e & E & B & D). unfold empty_zlib. rewrite E; cbn [rbind]. eexists; split; [reflexivity|].
  apply zlib_ok; auto. constructor.
Qed.

(** ** Block-split search *)
(** no NaN among the estimates *)
Definition est_total (E : estimator) : Prop := forall a b, e_cmp E a b <> None.
Section Splits.
  Variables (E : estimator) (ts : list token).
  Hypothesis HE : est_total E.
  Hypothesis HL : Forall legal_token ts.
  Hypothesis HS : zlen ts + 1 < U32.
  Lemma estimate_ok s e : 0 <= s -> e <= zlen ts -> exists c, estimate_block_cost E ts s e = Ok c.
  Proof.
    intros H1 H2. unfold estimate_block_cost. destruct (Z.leb_spec e s); [eauto|].
    rewrite slice_r_ok by lia. cbn [rbind].
    destruct (count_symbols_ok (slice ts s e)) as (lf & df & C & _); [apply Forall_slice; auto| |rewrite C; cbn [rbind]; eauto].
    unfold slice, zlen in *. rewrite firstn_length, skipn_length. lia.
  Qed.
  Lemma split_cost_ok s e i : 0 <= s -> e <= zlen ts -> s <= i <= e -> exists c, split_cost E ts s e i = Ok c.
  Proof.
    intros. unfold split_cost. destruct (estimate_ok s i) as (a & ->); [lia|lia|]. destruct (estimate_ok i e) as (b & ->); [lia|lia|].
    cbn [rbind]. eauto.
  Qed.
  Lemma candidates_ok n s e step lim : 1 <= step -> 0 <= s -> e <= zlen ts -> lim <= e -> forall i, s <= i -> lim - i <= Z.of_nat n ->
    exists l, split_candidates E n ts s e i step lim = Ok l /\ Forall (fun c => i <= fst c < lim) l.
  Proof.
    intros Hst Hs He Hlim. induction n as [|n IH]; intros i Hi Hn; cbn [split_candidates].
    - destruct (Z.ltb_spec i lim); [lia|]. exists []. split; auto.
    - destruct (Z.ltb_spec i lim); cbn [negb]; [|exists []; split; auto].
      destruct (split_cost_ok s e i) as (c & ->); [lia|lia|lia|]. cbn [rbind].
      destruct (IH (i + step)) as (l & -> & F); [lia|lia|]. cbn [rbind]. eexists; split; [reflexivity|].
      constructor; [cbn; lia|]. eapply Forall_impl; [|exact F]. cbv beta. intros. lia.
  Qed.
  Lemma min_cand_ok (P : Z * e_num E -> Prop) l : forall best, P best -> Forall P l -> exists c, min_cand E best l = Ok c /\ P c.
  Proof.
    induction l as [|c l IH]; intros best Hb Hl; cbn [min_cand]; [eauto|]. inversion Hl; subst.
    destruct (e_cmp E (snd best) (snd c)) as [[]|] eqn:C; eauto. contradiction (HE _ _ C).
  Qed.
  Lemma fine_tune_ok (P : Z -> Prop) n s e lim : 0 <= s -> e <= zlen ts -> lim <= e -> forall i best bc, s <= i -> lim - i < Z.of_nat n ->
    P best -> (forall x, i <= x <= lim -> P x) ->
    exists b c, fine_tune E n ts s e i lim best bc = Ok (b, c) /\ P b.
  Proof.
    intros Hs He Hlim. induction n as [|n IH]; intros i best bc Hi Hn HP HQ; cbn [fine_tune].
    - destruct (Z.ltb_spec lim i); [|lia]. eauto.
    - destruct (Z.ltb_spec lim i); [eauto|].
      destruct (split_cost_ok s e i) as (c & ->); [lia|lia|lia|]. cbn [rbind].
      destruct (e_lt E c bc); apply IH; auto; try lia; intros; apply HQ; lia.
  Qed.
  Lemma find_best_split_ok s e : 0 <= s <= e -> e <= zlen ts ->
    exists r, find_best_split E ts s e = Ok r /\ match r with Some x => s + 10 <= x <= e - 10 | None => True end.
  Proof.
    intros H1 H2. unfold find_best_split, usub, MIN_BLOCK_SIZE. destruct (Z.ltb_spec e s); [lia|]. cbn [rbind].
    destruct (Z.ltb_spec (e - s) (10 * 2)); [exists None; auto|].
    destruct (estimate_ok s e) as (orig & ->); [lia|lia|]. cbn [rbind].
    set (step := Z.max ((e - s) / 9) 1).
    destruct (candidates_ok (length ts) s e step (e - 10)) with (i := s + 10) as (l & -> & F); try lia.
    { unfold zlen in *. lia. }
    cbn [rbind]. destruct l as [|c l]; [exists None; auto|]. inversion F; subst.
    destruct (min_cand_ok (fun c => s + 10 <= fst c < e - 10) l c) as ([bi cost] & -> & P); auto. cbn [rbind fst] in *.
    destruct (e_lt E cost orig); [|exists None; auto].
    destruct (fine_tune_ok (fun x => s + 10 <= x <= e - 10) (S (length ts)) s e (Z.min (bi + step) (e - 10))) with
      (i := Z.max (Z.max 0 (bi - step)) (s + 10)) (best := bi) (bc := cost) as (b & bc & -> & Q); try lia.
    { unfold zlen in *. lia. }
    cbn [rbind]. destruct (e_lt E bc (e_less10 E orig)); [exists (Some b)|exists None]; auto.
  Qed.

  (** boundaries at least 10 apart *)
  Fixpoint gaps (lo : Z) (bs : list Z) (hi : Z) : Prop :=
    match bs with [] => lo + 10 <= hi | b :: r => lo + 10 <= b /\ gaps b r hi end.
  Lemma gaps_bounds lo bs hi : gaps lo bs hi -> bounds_ok lo bs hi /\ lo + 10 <= hi.
  Proof.
    revert lo; induction bs as [|b r IH]; cbn [gaps bounds_ok]; intros lo H; [lia|].
    destruct H as [A B]. apply IH in B as [B1 B2]. split; [split; auto|]; lia.
  Qed.
  (** [s, e] are neighbours among the boundaries *)
  Inductive neighbours : list Z -> Z -> Z -> Prop :=
  | nb_here s e r : neighbours (s :: e :: r) s e
  | nb_later x l s e : neighbours l s e -> neighbours (x :: l) s e.
  Lemma largest_cons s e r done best : largest_block (s :: e :: r) done best =
    (let* size := usub e s in
     let* d := get done s in
     largest_block (e :: r) done
       (if negb d && (MIN_BLOCK_SIZE * 2 <=? size) && match best with None => true | Some (s', e') => e' - s' <? size end
        then Some (s, e) else best)).
  Proof. reflexivity. Qed.
  Lemma largest_block_ok bs : forall lo done best hi, 0 <= lo -> gaps lo bs hi -> zlen done = hi ->
    exists r, largest_block (lo :: bs ++ [hi]) done best = Ok r /\
      (r = best \/ exists s e, r = Some (s, e) /\ neighbours (lo :: bs ++ [hi]) s e /\ nth (Z.to_nat s) done false = false).
  Proof.
    induction bs as [|b bs IH]; intros lo done best hi Hlo HG HD; pose proof (gaps_bounds _ _ _ HG) as [GB1 GB2]; cbn [gaps] in HG.
    - cbn [app largest_block]. unfold usub. destruct (Z.ltb_spec hi lo); [lia|]. cbn [rbind].
      rewrite (get_ok done lo false) by lia. cbn [rbind].
      eexists; split; [reflexivity|].
      destruct (negb (nth (Z.to_nat lo) done false) && _ && _) eqn:B; [|auto]. right.
      exists lo, hi. split; auto. split; [constructor|].
      rewrite !andb_true_iff in B. destruct B as [[B _] _]. destruct (nth (Z.to_nat lo) done false); [discriminate|auto].
    - destruct HG as [G1 G2]. cbn [app]. rewrite largest_cons. unfold usub. destruct (Z.ltb_spec b lo); [lia|]. cbn [rbind].
      rewrite (get_ok done lo false) by lia. cbn [rbind].
      match goal with |- context [largest_block _ done ?bst] => set (best' := bst) end.
      destruct (IH b done best' hi ltac:(lia) G2 HD) as (r & E1 & K).
      exists r. split; [exact E1|]. destruct K as [->|(s & e & -> & N & D)].
      + unfold best'. destruct (negb (nth (Z.to_nat lo) done false) && _ && _) eqn:B; [|auto]. right.
        exists lo, b. split; auto. split; [constructor|].
        rewrite !andb_true_iff in B. destruct B as [[B _] _]. destruct (nth (Z.to_nat lo) done false); [discriminate|auto].
      + right. exists s, e. split; auto. split; auto. constructor; auto.
  Qed.
  Lemma neighbours_gap bs : forall lo hi s e, gaps lo bs hi -> neighbours (lo :: bs ++ [hi]) s e -> lo <= s /\ s + 10 <= e /\ e <= hi.
  Proof.
    induction bs as [|b bs IH]; intros lo hi s e HG HN; cbn [gaps app] in *.
    - inversion HN as [? ? ? |? ? ? ? HN2]; subst; [lia|]. inversion HN2 as [? ? ? |? ? ? ? HN3]; subst. inversion HN3.
    - destruct HG as [G1 G2]. pose proof (gaps_bounds _ _ _ G2) as [_ G3]. inversion HN as [? ? ? |? ? ? ? HN2]; subst; [lia|].
      apply IH in HN2; auto. lia.
  Qed.
  Lemma insert_gaps bs : forall lo hi s e x, gaps lo bs hi -> neighbours (lo :: bs ++ [hi]) s e -> s + 10 <= x <= e - 10 ->
    gaps lo (insert_split x bs) hi.
  Proof.
    induction bs as [|b bs IH]; intros lo hi s e x HG HN HX; cbn [gaps app insert_split] in *.
    - inversion HN as [? ? ? |? ? ? ? HN2]; subst; [lia|]. inversion HN2 as [? ? ? |? ? ? ? HN3]; subst. inversion HN3.
    - destruct HG as [G1 G2]. inversion HN as [? ? ? |? ? ? ? HN2]; subst.
      + destruct (Z.ltb_spec x e); [|lia]. cbn [gaps]. split; [lia|]. split; [lia|]. auto.
      + pose proof (neighbours_gap _ _ _ _ _ G2 HN2). destruct (Z.ltb_spec x b); [lia|]. cbn [gaps]. split; auto. eapply IH; eauto.
  Qed.
  Definition open_cnt (done : list bool) : nat := length (filter negb done).
  Lemma open_upd done i : nth i done true = false -> (i < length done)%nat -> S (open_cnt (upd done i true)) = open_cnt done.
  Proof.
    unfold open_cnt. revert i; induction done as [|d done IH]; intros [|i] H L; cbn [length nth upd filter] in *; try lia.
    - subst d. cbn [negb length]. lia.
    - specialize (IH i H ltac:(lia)). destruct d; cbn [negb length]; lia.
  Qed.
  Lemma split_loop_ok fuel : forall splits done nb maxb, gaps 0 splits (zlen ts) -> zlen done = zlen ts ->
    Z.of_nat (open_cnt done) + (maxb - nb) <= Z.of_nat fuel ->
    exists r, split_loop E fuel ts splits done nb maxb = Ok r /\ gaps 0 r (zlen ts).
  Proof.
    induction fuel as [|f IH]; intros splits done nb maxb HG HD HF; cbn [split_loop].
    - destruct (Z.leb_spec maxb nb); [eauto|]. lia.
    - destruct (Z.leb_spec maxb nb); [eauto|].
      destruct (largest_block_ok splits 0 done None (zlen ts) ltac:(lia) HG HD) as (r & -> & K). cbn [rbind].
      destruct K as [->|(s & e & -> & N & D)]; [eauto|].
      destruct (neighbours_gap _ _ _ _ _ HG N) as (N1 & N2 & N3).
      destruct (find_best_split_ok s e) as (x & -> & X); [lia|lia|]. cbn [rbind]. destruct x as [x|].
      + apply IH; auto; [|lia]. eapply insert_gaps; eauto.
      + apply IH; auto; [unfold zlen in *; rewrite upd_length; auto|].
        assert (S (open_cnt (upd done (Z.to_nat s) true)) = open_cnt done); [|lia].
        apply open_upd; [|unfold zlen in *; lia]. rewrite (nth_indep _ true false); auto. unfold zlen in *; lia.
  Qed.
  Lemma open_repeat n : open_cnt (repeat false n) = n.
  Proof. unfold open_cnt. induction n; cbn; auto. Qed.
  Theorem find_block_splits_ok maxb : exists r, find_block_splits E ts maxb = Ok r /\ (r = [] \/ gaps 0 r (zlen ts)).
  Proof.
    unfold find_block_splits, MIN_BLOCK_SIZE. destruct (Z.ltb_spec (zlen ts) (10 * 2)); cbn [orb]; [eauto|].
    destruct (Z.leb_spec maxb 1); [eauto|].
    destruct (split_loop_ok (length ts + Z.to_nat maxb) [] (repeat false (length ts)) 1 maxb) as (r & -> & G).
    - cbn [gaps]. lia.
    - unfold zlen. rewrite repeat_length. reflexivity.
    - rewrite open_repeat. lia.
    - eauto.
  Qed.
End Splits.
Theorem encode_split_ok H E ts out maxb : est_total E -> Forall legal_token ts -> zlen ts + 1 < U32 -> expand [] ts = Some out ->
  exists o, encode_with_block_splitting H E ts maxb = Ok o /\ bytes o /\ deflate_stream o out.
Proof.
  intros HE HL HS HX. unfold encode_with_block_splitting.
  destruct (encode_dynamic_ok H ts out HL HS HX) as (d & ED & D).
  destruct (Z.ltb_spec (zlen ts) (MIN_BLOCK_SIZE * 2)); [eauto|].
  assert (forallb (fun t => match t with TLit _ => true | TMatch _ d => 1 <=? d end) ts = true) as ->.
  { apply forallb_forall. intros t Ht. rewrite Forall_forall in HL. specialize (HL t Ht). destruct t; cbn [legal_token] in HL; lia. }
  cbn [negb]. destruct (find_block_splits_ok E ts HE HL HS maxb) as (r & -> & G). cbn [rbind].
  destruct r as [|x r]; [eauto|]. destruct G as [|G]; [discriminate|].
  destruct (split_blocks_ok H ts (x :: r) out HL HS (proj1 (gaps_bounds _ _ _ G)) HX) as (w & -> & K). cbn [rbind]. eauto.
Qed.

(** ** Deflater *)
Definition U32_LIMIT : Z := 2 ^ 32 - 1.
Lemma encode_tokens_ok H E level n ts out : est_total E -> Forall legal_token ts -> zlen ts + 1 < U32 -> expand [] ts = Some out ->
  exists o, encode_tokens H E level n ts = Ok o /\ bytes o /\ deflate_stream o out.
Proof.
  intros. unfold encode_tokens. destruct ((5 <=? level) && (1024 <? n) && (n <=? 512 * 1024)).
  - apply encode_split_ok; auto.
  - apply encode_best_ok; auto.
Qed.
Lemma run_lz77_ok d data : bytes data -> exists d', run_lz77 d data = Ok d' /\ d_level d' = d_level d /\
  expand [] (d_tokens d') = Some data /\ Forall legal_token (d_tokens d') /\ zlen (d_tokens d') <= zlen data.
Proof.
  intros HB. unfold run_lz77. destruct (compress_into_ok (lz_config (d_level d)) (d_tabs d) [] data HB) as (ts & st & E & X & L).
  rewrite E; cbn [rbind]. eexists; split; [reflexivity|]. cbn [d_level d_tokens]. split; auto. split; auto. split; auto.
  exact (expand_legal _ _ _ X).
Qed.
Lemma run_lz77_packed_ok d data : bytes data -> exists d' ts, run_lz77_packed d data = Ok d' /\ d_level d' = d_level d /\
  map_res unpack_token (d_packed d') = Ok ts /\ expand [] ts = Some data /\ Forall legal_token ts /\ zlen ts <= zlen data.
Proof.
  intros HB. unfold run_lz77_packed. destruct (compress_packed_ok (lz_config (d_level d)) (d_tabs d) [] data HB) as (ps & ts & st & E & E2 & U).
  destruct (compress_into_ok (lz_config (d_level d)) (d_tabs d) [] data HB) as (ts2 & st2 & E3 & X & L).
  rewrite E2 in E3; inversion E3; subst.
  rewrite E; cbn [rbind]. eexists _, _; split; [reflexivity|]. cbn [d_level d_packed]. split; auto. split; [exact U|]. split; auto. split; auto.
  exact (expand_legal _ _ _ X).
Qed.

(** an operation on a deflater that keeps its level and outputs a stream for [data] *)
Definition good_op {P : list Z -> list Z -> Prop} (f : deflater -> res (list Z * deflater)) (data : list Z) : Prop :=
  forall d, exists o d', f d = Ok (o, d') /\ d_level d' = d_level d /\ bytes o /\ P o data.
Arguments good_op P f data : clear implicits.
Section Ops.
  Variables (H : heap) (E : estimator) (data : list Z).
  Hypothesis HE : est_total E.
  Hypothesis HB : bytes data.
  Hypothesis HN : zlen data + 1 < U32.
  Ltac start := intros d; destruct data as [|x0 t0] eqn:ED;
    [destruct empty_block_ok as (e0 & EE & EB & EDs); rewrite ?EE; cbn [rbind]; do 2 eexists; split; [reflexivity|auto]|].
  Lemma d_compress_ok : good_op deflate_stream (fun d => d_compress H E d data) data.
  Proof.
    unfold d_compress. start. rewrite <- ED in *.
    destruct (run_lz77_ok d data HB) as (d' & -> & L & X & F & Z0). cbn [rbind].
    destruct (encode_tokens_ok H E (d_level d') (zlen data) (d_tokens d') data) as (o & -> & B & D); auto; [lia|].
    cbn [rbind]. exists o, d'. auto.
  Qed.
  Lemma d_compress_fixed_only_ok : good_op deflate_stream (fun d => d_compress_fixed_only d data) data.
  Proof.
    unfold d_compress_fixed_only. start. rewrite <- ED in *.
    destruct (run_lz77_ok d data HB) as (d' & -> & L & X & F & Z0). cbn [rbind].
    destruct (encode_fixed_ok (d_tokens d') data) as (o & -> & B & D); auto.
    cbn [rbind]. exists o, d'. auto.
  Qed.
  Lemma d_compress_zlib_ok : good_op zlib_stream (fun d => d_compress_zlib H E d data) data.
  Proof.
    unfold d_compress_zlib. intros d; destruct data as [|x0 t0] eqn:ED.
    { destruct (empty_zlib_ok (d_level d)) as (o & -> & B & D). cbn [rbind]. exists o, d. auto. }
    assert (data <> []) as NN by (rewrite ED; discriminate). rewrite <- ED in *.
    destruct (run_lz77_ok d data HB) as (d' & -> & L & X & F & Z0). cbn [rbind].
    destruct (encode_tokens_ok H E (d_level d') (zlen data) (d_tokens d') data) as (o & -> & B & D); auto; [lia|].
    cbn [rbind]. do 2 eexists; split; [reflexivity|]. split; auto. apply zlib_wrap_ok; auto.
  Qed.
  Lemma d_compress_packed_ok : good_op deflate_stream (fun d => d_compress_packed H d data) data.
  Proof.
    unfold d_compress_packed. start. assert (data <> []) as NN by (rewrite ED; discriminate). rewrite <- ED in *.
    destruct (run_lz77_packed_ok d data HB) as (d' & ts & -> & L & U & X & F & Z0). cbn [rbind].
    destruct ((match_count (d_packed d') =? 0) && (8192 <=? zlen data)).
    - do 2 eexists; split; [reflexivity|]. split; auto. apply deflate_stored_ok; auto.
    - rewrite (encode_best_packed_eq H _ ts U). destruct (encode_best_ok H ts data) as (o & -> & B & D); auto; [lia|].
      cbn [rbind]. exists o, d'. auto.
  Qed.
  Lemma d_compress_fixed_only_packed_ok : good_op deflate_stream (fun d => d_compress_fixed_only_packed d data) data.
  Proof.
    unfold d_compress_fixed_only_packed. start. rewrite <- ED in *.
    destruct (run_lz77_packed_ok d data HB) as (d' & ts & -> & L & U & X & F & Z0). cbn [rbind].
    rewrite (encode_fixed_packed_eq _ ts U). destruct (encode_fixed_ok ts data) as (o & -> & B & D); auto.
    cbn [rbind]. exists o, d'. auto.
  Qed.
  Lemma d_compress_packed_zlib_ok : good_op zlib_stream (fun d => d_compress_packed_zlib H d data) data.
  Proof.
    unfold d_compress_packed_zlib. intros d; destruct data as [|x0 t0] eqn:ED.
    { destruct (empty_zlib_ok (d_level d)) as (o & -> & B & D). cbn [rbind]. exists o, d. auto. }
    assert (data <> []) as NN by (rewrite ED; discriminate). rewrite <- ED in *.
    destruct (run_lz77_packed_ok d data HB) as (d' & ts & -> & L & U & X & F & Z0). cbn [rbind].
    destruct ((match_count (d_packed d') =? 0) && (8192 <=? zlen data)).
    - do 2 eexists; split; [reflexivity|]. split; auto. destruct (deflate_stored_ok data HB NN). apply zlib_ok; auto.
    - rewrite (encode_best_packed_eq H _ ts U). destruct (encode_best_ok H ts data) as (o & -> & B & D); auto; [lia|].
      cbn [rbind]. do 2 eexists; split; [reflexivity|]. split; auto. apply zlib_wrap_ok; auto.
  Qed.
End Ops.

(** The global pool: any ten deflaters *)
Lemma clamp_range level : 1 <= clamp_level level <= 9.
Proof. unfold clamp_level. lia. Qed.
Lemma with_pool_ok P f data (p : pool) level : good_op P f data -> length p = 10%nat ->
  exists o p', with_reusable_deflater p level f = Ok (o, p') /\ length p' = 10%nat /\ bytes o /\ P o data.
Proof.
  intros G HP. unfold with_reusable_deflater. pose proof (clamp_range level).
  rewrite (get_ok p _ (deflater_new 1)) by (unfold zlen; lia). cbn [rbind].
  match goal with |- context [f ?g] => destruct (G g) as (o & d' & -> & L & B & D) end.
  cbn [rbind]. do 2 eexists; split; [reflexivity|]. rewrite upd_length. auto.
Qed.
Theorem deflate_ok H E p data level : est_total E -> length p = 10%nat -> bytes data -> zlen data + 1 < U32 ->
  exists o p', deflate H E p data level = Ok (o, p') /\ length p' = 10%nat /\ bytes o /\ deflate_stream o data.
Proof.
  intros HE HP HB HN. unfold deflate. destruct data as [|x t] eqn:ED.
  { destruct empty_block_ok as (o & -> & B & D). cbn [rbind]. eauto 6. }
  rewrite <- ED in *. destruct (zlen data <=? 1024); apply with_pool_ok; auto.
  - apply d_compress_fixed_only_ok; auto.
  - apply d_compress_ok; auto.
Qed.
Theorem deflate_packed_ok H p data level : length p = 10%nat -> bytes data -> zlen data + 1 < U32 ->
  exists o p', deflate_packed H p data level = Ok (o, p') /\ length p' = 10%nat /\ bytes o /\ deflate_stream o data.
Proof.
  intros HP HB HN. unfold deflate_packed. destruct data as [|x t] eqn:ED.
  { destruct empty_block_ok as (o & -> & B & D). cbn [rbind]. eauto 6. }
  rewrite <- ED in *. destruct (zlen data <=? 1024); apply with_pool_ok; auto.
  - apply d_compress_fixed_only_packed_ok; auto.
  - apply d_compress_packed_ok; auto.
Qed.

(** the entropy test never panics *)
Lemma collisions_ok fuel : forall l seen n, length seen = 4096%nat -> exists c, collisions fuel l seen n = Ok c.
Proof.
  induction fuel as [|f IH]; intros l seen n HS; cbn [collisions]; [eauto|].
  destruct (zlen l <? 4); [eauto|].
  set (v := Z.shiftr _ 20). pose proof (hash_range v 12 4096 ltac:(lia) eq_refl) as R. change (4096 - 1) with 4095 in R.
  rewrite (get_ok seen _ false) by (unfold zlen; rewrite HS; lia). cbn [rbind].
  destruct (nth _ seen false); apply IH; auto. rewrite upd_length; auto.
Qed.
Lemma high_entropy_ok data : exists b, is_high_entropy_data data = Ok b.
Proof.
  unfold is_high_entropy_data. destruct (zlen data <? 4096); [eauto|]. set (sm := slice data 0 _).
  destruct (collisions_ok (length sm) sm (repeat false 4096) 0) as (c & ->); [apply repeat_length|]. cbn [rbind]. eauto.
Qed.
Lemma zlib_stored_ok data level : bytes data -> data <> [] ->
  bytes (deflate_zlib_stored data level) /\ zlib_stream (deflate_zlib_stored data level) data.
Proof. intros HB HN. unfold deflate_zlib_stored. destruct (deflate_stored_ok data HB HN). apply zlib_ok; auto. Qed.
Lemma entropy_gate data : exists hi, (if 4096 <=? zlen data then is_high_entropy_data data else Ok false) = Ok hi /\ (hi = true -> data <> []).
Proof.
  destruct (Z.leb_spec 4096 (zlen data)); [|eexists; split; [reflexivity|discriminate]].
  destruct (high_entropy_ok data) as (b & ->). exists b. split; auto. intros _ ->. rewrite zlen_nil in *. lia.
Qed.
Theorem deflate_zlib_ok H E p data level : est_total E -> length p = 10%nat -> bytes data -> zlen data + 1 < U32 ->
  exists o p', deflate_zlib H E p data level = Ok (o, p') /\ length p' = 10%nat /\ bytes o /\ zlib_stream o data.
Proof.
  intros HE HP HB HN. unfold deflate_zlib. destruct (entropy_gate data) as (hi & -> & K). cbn [rbind].
  destruct hi; [|apply with_pool_ok; auto; apply d_compress_zlib_ok; auto].
  do 2 eexists; split; [reflexivity|]. split; auto. apply zlib_stored_ok; auto.
Qed.
Theorem deflate_zlib_packed_ok H p data level : length p = 10%nat -> bytes data -> zlen data + 1 < U32 ->
  exists o p', deflate_zlib_packed H p data level = Ok (o, p') /\ length p' = 10%nat /\ bytes o /\ zlib_stream o data.
Proof.
  intros HP HB HN. unfold deflate_zlib_packed. destruct (entropy_gate data) as (hi & -> & K). cbn [rbind].
  destruct hi; [|apply with_pool_ok; auto; apply d_compress_packed_zlib_ok; auto].
  do 2 eexists; split; [reflexivity|]. split; auto. apply zlib_stored_ok; auto.
Qed.

(** ** The output does not depend on history *)
Definition same_out {T S : Type} (a b : res (T * S)) : Prop :=
  match a, b with Ok (x, _), Ok (y, _) => x = y | Ok _, _ => False | _, Ok _ => False | _, _ => True end.
Lemma run_lz77_indep d1 d2 data : d_level d1 = d_level d2 ->
  match run_lz77 d1 data, run_lz77 d2 data with
  | Ok a, Ok b => d_level a = d_level b /\ d_tokens a = d_tokens b
  | Ok _, _ => False | _, Ok _ => False | _, _ => True end.
Proof.
  intros L. unfold run_lz77, compress_into. rewrite L. destruct data as [|x t]; cbn [rbind].
  - cbn [d_level d_tokens]. auto.
  - destruct (calculate_min_match_len (x :: t) (c_depth (lz_config (d_level d2)))); cbn [rbind]; auto.
    destruct (lz_loop _ _ _ _ _); cbn [rbind]; auto.
Qed.
Lemma run_lz77_packed_indep d1 d2 data : d_level d1 = d_level d2 ->
  match run_lz77_packed d1 data, run_lz77_packed d2 data with
  | Ok a, Ok b => d_level a = d_level b /\ d_packed a = d_packed b
  | Ok _, _ => False | _, Ok _ => False | _, _ => True end.
Proof.
  intros L. unfold run_lz77_packed, compress_packed_into, compress_into. rewrite L. destruct data as [|x t]; cbn [rbind].
  - destruct (map_res pack_token []); cbn [rbind d_level d_packed]; auto.
  - destruct (calculate_min_match_len (x :: t) (c_depth (lz_config (d_level d2)))); cbn [rbind]; auto.
    destruct (lz_loop _ _ _ _ _); cbn [rbind]; auto. destruct (map_res pack_token _); cbn [rbind]; auto.
Qed.
Section Indep.
  Variables (H : heap) (E : estimator) (data : list Z) (d1 d2 : deflater).
  Hypothesis HL : d_level d1 = d_level d2.
  Ltac fin := repeat (match goal with |- context [rbind ?r _] => destruct r; cbn [rbind same_out] end); auto.
  Ltac plain := destruct data as [|x0 t0] eqn:ED;
    [rewrite ?HL; fin|rewrite <- ED; pose proof (run_lz77_indep d1 d2 data HL) as R;
     destruct (run_lz77 d1 data), (run_lz77 d2 data); cbn [rbind same_out]; try tauto; destruct R as [R1 R2]; rewrite ?R1, ?R2; fin].
  Ltac packd := destruct data as [|x0 t0] eqn:ED;
    [rewrite ?HL; fin|rewrite <- ED; pose proof (run_lz77_packed_indep d1 d2 data HL) as R;
     destruct (run_lz77_packed d1 data), (run_lz77_packed d2 data); cbn [rbind same_out]; try tauto; destruct R as [R1 R2]; rewrite ?R1, ?R2;
     try (destruct (_ && _); cbn [same_out]; [reflexivity|]); fin].
  Lemma d_compress_indep : same_out (d_compress H E d1 data) (d_compress H E d2 data).
  Proof. unfold d_compress. plain. Qed.
  Lemma d_compress_fixed_only_indep : same_out (d_compress_fixed_only d1 data) (d_compress_fixed_only d2 data).
  Proof. unfold d_compress_fixed_only. plain. Qed.
  Lemma d_compress_zlib_indep : same_out (d_compress_zlib H E d1 data) (d_compress_zlib H E d2 data).
  Proof. unfold d_compress_zlib. plain. Qed.
  Lemma d_compress_packed_indep : same_out (d_compress_packed H d1 data) (d_compress_packed H d2 data).
  Proof. unfold d_compress_packed. packd. Qed.
  Lemma d_compress_fixed_only_packed_indep : same_out (d_compress_fixed_only_packed d1 data) (d_compress_fixed_only_packed d2 data).
  Proof. unfold d_compress_fixed_only_packed. packd. Qed.
  Lemma d_compress_packed_zlib_indep : same_out (d_compress_packed_zlib H d1 data) (d_compress_packed_zlib H d2 data).
  Proof. unfold d_compress_packed_zlib. packd. Qed.
End Indep.
Lemma with_pool_indep {T} (f : deflater -> res (T * deflater)) p1 p2 level :
  (forall a b, d_level a = d_level b -> same_out (f a) (f b)) -> length p1 = 10%nat -> length p2 = 10%nat ->
  same_out (with_reusable_deflater p1 level f) (with_reusable_deflater p2 level f).
Proof.
  intros K H1 H2. unfold with_reusable_deflater. pose proof (clamp_range level). pose proof (clamp_range (clamp_level level)).
  rewrite !(get_ok _ _ (deflater_new 1)) by (unfold zlen; lia). cbn [rbind].
  match goal with |- context [rbind (f ?a) _] => set (g1 := a) end.
  match goal with |- same_out _ (rbind (f ?a) _) => set (g2 := a) end.
  assert (forall g, d_level (if d_level g =? clamp_level level then g else deflater_new (clamp_level level)) = clamp_level level) as Q.
  { intros g. destruct (Z.eqb_spec (d_level g) (clamp_level level)); auto. unfold deflater_new. cbn [d_level]. unfold clamp_level. lia. }
  assert (d_level g1 = d_level g2) as L by (unfold g1, g2; rewrite !Q; reflexivity).
  specialize (K g1 g2 L). destruct (f g1) as [[]| | |], (f g2) as [[]| | |]; cbn [rbind same_out] in *; tauto.
Qed.
Lemma same_refl {A B} (r : res A) (x y : B) : same_out (let* e := r in Ok (e, x)) (let* e := r in Ok (e, y)).
Proof. destruct r; cbn; auto. Qed.
Lemma deflate_indep H E p1 p2 data level : length p1 = 10%nat -> length p2 = 10%nat ->
  same_out (deflate H E p1 data level) (deflate H E p2 data level).
Proof.
  intros. unfold deflate. destruct data; [apply same_refl|]. destruct (_ <=? _); apply with_pool_indep; auto; intros;
    [apply d_compress_fixed_only_indep|apply d_compress_indep]; auto.
Qed.
Lemma deflate_packed_indep H p1 p2 data level : length p1 = 10%nat -> length p2 = 10%nat ->
  same_out (deflate_packed H p1 data level) (deflate_packed H p2 data level).
Proof.
  intros. unfold deflate_packed. destruct data; [apply same_refl|]. destruct (_ <=? _); apply with_pool_indep; auto; intros;
    [apply d_compress_fixed_only_packed_indep|apply d_compress_packed_indep]; auto.
Qed.
Lemma deflate_zlib_indep H E p1 p2 data level : length p1 = 10%nat -> length p2 = 10%nat ->
  same_out (deflate_zlib H E p1 data level) (deflate_zlib H E p2 data level).
Proof.
  intros. unfold deflate_zlib. destruct (entropy_gate data) as (hi & -> & K). cbn [rbind]. destruct hi; [reflexivity|].
  apply with_pool_indep; auto; intros; apply d_compress_zlib_indep; auto.
Qed.
Lemma deflate_zlib_packed_indep H p1 p2 data level : length p1 = 10%nat -> length p2 = 10%nat ->
  same_out (deflate_zlib_packed H p1 data level) (deflate_zlib_packed H p2 data level).
Proof.
  intros. unfold deflate_zlib_packed. destruct (entropy_gate data) as (hi & -> & K). cbn [rbind]. destruct hi; [reflexivity|].
  apply with_pool_indep; auto; intros; apply d_compress_packed_zlib_indep; auto.
Qed.

(** ** Round trips *)
Lemma stream_inflates o data : bytes o -> deflate_stream o data -> inflate o = Ok data.
Proof. intros B (rest & D & _). exact (inflate_complete o data rest B D). Qed.
Lemma op_inflates f data : good_op deflate_stream f data ->
  forall d, exists o d', f d = Ok (o, d') /\ d_level d' = d_level d /\ deflate_stream o data /\ inflate o = Ok data.
Proof. intros G d. destruct (G d) as (o & d' & A & B & C & D). exists o, d'. split; auto. split; auto. split; auto. apply stream_inflates; auto. Qed.
Lemma op_zinflates f data : good_op zlib_stream f data ->
  forall d, exists o d', f d = Ok (o, d') /\ d_level d' = d_level d /\ zlib_stream o data /\ inflate_zlib o None = Ok data.
Proof. intros G d. destruct (G d) as (o & d' & A & B & C & D). exists o, d'. split; auto. split; auto. split; auto. apply inflate_zlib_complete; auto. Qed.

Lemma deflate_roundtrip_l H E p data level : est_total E -> length p = 10%nat -> bytes data -> zlen data < 2 ^ 32 - 1 ->
  exists o p', deflate H E p data level = Ok (o, p') /\ length p' = 10%nat /\ deflate_stream o data /\ inflate o = Ok data.
Proof.
  intros HE HP HB HN. destruct (deflate_ok H E p data level HE HP HB ltac:(unfold U32; lia)) as (o & p' & A & B & C & D).
  exists o, p'. split; auto. split; auto. split; auto. apply stream_inflates; auto.
Qed.
Lemma deflate_packed_roundtrip_l H p data level : length p = 10%nat -> bytes data -> zlen data < 2 ^ 32 - 1 ->
  exists o p', deflate_packed H p data level = Ok (o, p') /\ length p' = 10%nat /\ deflate_stream o data /\ inflate o = Ok data.
Proof.
  intros HP HB HN. destruct (deflate_packed_ok H p data level HP HB ltac:(unfold U32; lia)) as (o & p' & A & B & C & D).
  exists o, p'. split; auto. split; auto. split; auto. apply stream_inflates; auto.
Qed.
Lemma deflate_zlib_roundtrip_l H E p data level : est_total E -> length p = 10%nat -> bytes data -> zlen data < 2 ^ 32 - 1 ->
  exists o p', deflate_zlib H E p data level = Ok (o, p') /\ length p' = 10%nat /\ zlib_stream o data /\
    inflate_zlib o None = Ok data /\ inflate_zlib o (Some (zlen data)) = Ok data.
Proof.
  intros HE HP HB HN. destruct (deflate_zlib_ok H E p data level HE HP HB ltac:(unfold U32; lia)) as (o & p' & A & B & C & D).
  exists o, p'. split; auto. split; auto. split; auto. apply inflate_zlib_complete; auto.
Qed.
Lemma deflate_zlib_packed_roundtrip_l H p data level : length p = 10%nat -> bytes data -> zlen data < 2 ^ 32 - 1 ->
  exists o p', deflate_zlib_packed H p data level = Ok (o, p') /\ length p' = 10%nat /\ zlib_stream o data /\
    inflate_zlib o None = Ok data /\ inflate_zlib o (Some (zlen data)) = Ok data.
Proof.
  intros HP HB HN. destruct (deflate_zlib_packed_ok H p data level HP HB ltac:(unfold U32; lia)) as (o & p' & A & B & C & D).
  exists o, p'. split; auto. split; auto. split; auto. apply inflate_zlib_complete; auto.
Qed.
Lemma packed_writers_l H ps ts : map_res unpack_token ps = Ok ts ->
  encode_dynamic_huffman_packed H ps = encode_dynamic_huffman H ts /\
  encode_fixed_huffman_packed ps = encode_fixed_huffman ts /\
  encode_best_huffman_packed H ps = encode_best_huffman H ts.
Proof. intros E. split; [apply encode_dynamic_packed_eq|split; [apply encode_fixed_packed_eq|apply encode_best_packed_eq]]; auto. Qed.
Lemma deflate_stored_roundtrip_l data : bytes data -> data <> [] ->
  deflate_stream (deflate_stored data) data /\ inflate (deflate_stored data) = Ok data.
Proof. intros B N. destruct (deflate_stored_ok data B N). split; auto. apply stream_inflates; auto. Qed.
Lemma deflate_stored_empty_l : exists data, bytes data /\ inflate (deflate_stored data) = Err EInvalidDecode.
Proof. exists []. split; [constructor|vm_compute; reflexivity]. Qed.
Lemma reuse_aux P f data d g : good_op P f data -> d_level d = d_level g -> same_out (f d) (f g) ->
  exists o d' f', f d = Ok (o, d') /\ f g = Ok (o, f') /\ d_level d' = d_level d /\ bytes o /\ P o data.
Proof.
  intros G L S. destruct (G d) as (o & d' & A & B & C & D). destruct (G g) as (o2 & g' & A2 & _).
  rewrite A, A2 in S. cbn in S. subst o2. exists o, d', g'. auto 6.
Qed.
Lemma deflater_reuse_l H E data d : est_total E -> bytes data -> zlen data < 2 ^ 32 - 1 ->
  1 <= d_level d <= 9 ->
  let fresh := deflater_new (d_level d) in
  (exists o d' f', d_compress H E d data = Ok (o, d') /\ d_compress H E fresh data = Ok (o, f') /\ d_level d' = d_level d /\ inflate o = Ok data) /\
  (exists o d' f', d_compress_zlib H E d data = Ok (o, d') /\ d_compress_zlib H E fresh data = Ok (o, f') /\ d_level d' = d_level d /\ inflate_zlib o None = Ok data) /\
  (exists o d' f', d_compress_packed H d data = Ok (o, d') /\ d_compress_packed H fresh data = Ok (o, f') /\ d_level d' = d_level d /\ inflate o = Ok data) /\
  (exists o d' f', d_compress_packed_zlib H d data = Ok (o, d') /\ d_compress_packed_zlib H fresh data = Ok (o, f') /\ d_level d' = d_level d /\ inflate_zlib o None = Ok data).
Proof.
  intros HE HB HN HL fresh. assert (zlen data + 1 < U32) as HU by (unfold U32; lia).
  assert (d_level d = d_level fresh) as L by (unfold fresh, deflater_new; cbn [d_level]; unfold clamp_level; lia).
  split; [|split; [|split]].
  - destruct (reuse_aux _ _ _ d fresh (d_compress_ok H E data HE HB HU) L (d_compress_indep H E data d fresh L)) as (o & a & b & X & Y & Z1 & B & D).
    exists o, a, b. split; auto. split; auto. split; auto. apply stream_inflates; auto.
  - destruct (reuse_aux _ _ _ d fresh (d_compress_zlib_ok H E data HE HB HU) L (d_compress_zlib_indep H E data d fresh L)) as (o & a & b & X & Y & Z1 & B & D).
    exists o, a, b. split; auto. split; auto. split; auto. apply inflate_zlib_complete; auto.
  - destruct (reuse_aux _ _ _ d fresh (d_compress_packed_ok H data HB HU) L (d_compress_packed_indep H data d fresh L)) as (o & a & b & X & Y & Z1 & B & D).
    exists o, a, b. split; auto. split; auto. split; auto. apply stream_inflates; auto.
  - destruct (reuse_aux _ _ _ d fresh (d_compress_packed_zlib_ok H data HB HU) L (d_compress_packed_zlib_indep H data d fresh L)) as (o & a & b & X & Y & Z1 & B & D).
    exists o, a, b. split; auto. split; auto. split; auto. apply inflate_zlib_complete; auto.
Qed.
Lemma pool_indep_l H E p1 p2 data level : length p1 = 10%nat -> length p2 = 10%nat ->
  same_out (deflate H E p1 data level) (deflate H E p2 data level) /\
  same_out (deflate_packed H p1 data level) (deflate_packed H p2 data level) /\
  same_out (deflate_zlib H E p1 data level) (deflate_zlib H E p2 data level) /\
  same_out (deflate_zlib_packed H p1 data level) (deflate_zlib_packed H p2 data level).
Proof.
  intros. split; [apply deflate_indep|split; [apply deflate_packed_indep|split; [apply deflate_zlib_indep|apply deflate_zlib_packed_indep]]]; auto.
Qed.
Lemma split_transparent_l H ts splits out : Forall legal_token ts -> zlen ts + 1 < 2 ^ 32 ->
  bounds_ok 0 splits (zlen ts) -> expand [] ts = Some out ->
  exists w, write_blocks H b64_new ts (0 :: splits ++ [zlen ts]) = Ok w /\
    deflate_stream (b64_finish w) out /\ inflate (b64_finish w) = Ok out.
Proof.
  intros A B C D. destruct (split_blocks_ok H ts splits out A B C D) as (w & X & Y & Z1).
  exists w. split; auto. split; auto. apply stream_inflates; auto.
Qed.
Lemma encoder_split_l H E ts out maxb : est_total E -> Forall legal_token ts -> zlen ts + 1 < 2 ^ 32 ->
  expand [] ts = Some out ->
  exists o, encode_with_block_splitting H E ts maxb = Ok o /\ deflate_stream o out /\ inflate o = Ok out.
Proof.
  intros A B C D. destruct (encode_split_ok H E ts out maxb A B C D) as (w & X & Y & Z1).
  exists w. split; auto. split; auto. apply stream_inflates; auto.
Qed.
Lemma rle_roundtrip_l ll dl : Forall (fun l => 0 <= l <= 15) (ll ++ dl) -> zlen (ll ++ dl) < 2 ^ 32 ->
  exists items cf, rle_code_lengths ll dl = Ok (items, cf) /\
    cl_run [] (map instr_of items) = Some (ll ++ dl) /\ Forall item_wf items.
Proof.
  intros A B. destruct (rle_ok ll dl A B) as (i & cf & X & Y). exists i, cf. split; auto. destruct Y as (Y1 & Y2 & _). auto.
Qed.
Definition list_eqb (a b : list Z) : bool := (zlen a =? zlen b) && forallb (fun p => fst p =? snd p) (combine a b).
Lemma bytes_of_check l : forallb (fun x => (0 <=? x) && (x <? 256)) l = true -> bytes l.
Proof. rewrite forallb_forall. intros K. apply Forall_forall. intros x Hx. specialize (K x Hx). unfold is_byte. lia. Qed.
