(** The compressed size of data made of few runs, at the public entry points (C111). *)
From Verif Require Import Base HuffModel DeflateSpec Lz77Model Lz77Spec Lz77Proofs ChecksumModel DeflateModel DeflateProofs DeflateBlock DeflateTop SizeProofs RunsSpec RunsTokens RunsBits RunsEntropy.


Lemma runs_nonneg l : 0 <= runs l.
Proof.
  assert (forall m x, 0 <= changes x m) as K. { induction m as [|y r IH]; intros x; cbn [changes]; [lia|]. specialize (IH y). destruct (x =? y); lia. }
  destruct l as [|x r]; cbn [runs]; [lia|]. pose proof (K r x). lia.
Qed.
Lemma within n r t k : 0 <= n -> t <= n / 258 + 280 * r -> 6 * t + k <= n / 43 + 1680 * r + k.
Proof. intros. pose proof (Z.div_mod n 258 ltac:(lia)). pose proof (Z.div_mod n 43 ltac:(lia)). lia. Qed.
(** tokens that are all literals are as many as the bytes *)
Lemma lits_len ts : forall out o, Forall (fun t => match t with TLit _ => True | _ => False end) ts -> expand out ts = Some o -> zlen o = zlen out + zlen ts.
Proof.
  induction ts as [|t ts IH]; intros out o F E; cbn [expand] in E.
  - inversion E; subst. rewrite zlen_nil. lia.
  - inversion F as [|? ? T F']; subst. destruct t as [b|]; [|contradiction]. cbn [expand1] in E. destruct (_ && _); [|discriminate].
    apply IH in E; auto. rewrite E, zlen_app, !zlen_cons, zlen_nil. lia.
Qed.
Lemma no_match ps : forall ts, match_count ps = 0 -> map_res unpack_token ps = Ok ts -> Forall (fun t => match t with TLit _ => True | _ => False end) ts.
Proof.
  unfold match_count. induction ps as [|p ps IH]; intros ts M E; cbn [map_res] in E.
  - inversion E; subst. constructor.
  - destruct (unpack_token p) as [t| | |] eqn:U; cbn [rbind] in E; try discriminate.
    destruct (map_res unpack_token ps) as [ts'| | |] eqn:E'; cbn [rbind] in E; try discriminate. inversion E; subst.
    cbn [filter] in M. unfold unpack_token, packed_as_literal in U. destruct (packed_is_literal p); cbn [negb] in M.
    + inversion U; subst. constructor; [exact I|]. apply IH; auto.
    + rewrite zlen_cons in M. pose proof (zlen_nonneg (filter (fun p => negb (packed_is_literal p)) ps)). lia.
Qed.

Lemma nil_or {A} (l : list A) : l = [] \/ exists x r, l = x :: r.
Proof. destruct l; eauto. Qed.
Section Few.
  Variable data : list Z.
  Hypothesis HB : bytes data.
  Hypothesis HN : zlen data <= 2 ^ 31.
  Let n := zlen data.
  Let r := runs data.
  Let t := n / 258 + 280 * r.
  Lemma lz_few d d' : run_lz77 d data = Ok d' -> Forall legal_token (d_tokens d') /\ zlen (d_tokens d') <= t /\ zlen (d_tokens d') + 1 < U32.
  Proof.
    intros Y. destruct (run_lz77_ok d data HB) as (d2 & E & _ & _ & F & L). rewrite Y in E. inversion E; subst d2. split; [exact F|]. split; [|unfold U32 in *; lia].
    unfold run_lz77 in Y. destruct (compress_into (lz_config (d_level d)) (d_tabs d) [] data) as [[ts st]| | |] eqn:C; cbn [rbind] in Y; [|discriminate..].
    inversion Y; subst. cbn [d_tokens]. exact (level_tokens _ _ _ _ _ _ HB HN C).
  Qed.
  Lemma lz_packed_few d d' : run_lz77_packed d data = Ok d' -> exists ts, map_res unpack_token (d_packed d') = Ok ts /\ expand [] ts = Some data /\
    Forall legal_token ts /\ zlen ts <= t /\ zlen ts + 1 < U32.
  Proof.
    intros Y. unfold run_lz77_packed in Y. destruct (compress_packed_ok (lz_config (d_level d)) (d_tabs d) [] data HB) as (ps & ts & st & E & E2 & U).
    rewrite E in Y. cbn [rbind] in Y. inversion Y; subst d'. cbn [d_packed]. exists ts. split; [exact U|].
    destruct (compress_into_ok (lz_config (d_level d)) (d_tabs d) [] data HB) as (ts2 & st2 & E3 & X & L). rewrite E2 in E3; inversion E3; subst.
    split; [exact X|]. split; [exact (expand_legal _ _ _ X)|]. split; [exact (level_tokens _ _ _ _ _ _ HB HN E2)|unfold U32 in *; lia].
  Qed.
  Lemma n_pos : 0 <= n. Proof. apply zlen_nonneg. Qed.
  Lemma r_pos : 0 <= r. Proof. apply runs_nonneg. Qed.
  Lemma d_compress_few H E d o d' : est_total E -> d_compress H E d data = Ok (o, d') -> zlen o <= n / 43 + 1680 * r + 8568.
  Proof.
    intros HE Y. unfold d_compress in Y. pose proof n_pos. pose proof r_pos. destruct (nil_or data) as [ED|(b & l & ED)]; rewrite ED in Y.
    { rewrite empty_fixed in Y. cbn [rbind] in Y. apply ok_fst in Y; rewrite Y. change (zlen [3; 0]) with 2. pose proof (Z.div_pos n 43). lia. }
    cbv beta iota in Y. rewrite <- ED in Y. destruct (run_lz77 d data) as [d1| | |] eqn:E1; cbn [rbind] in Y; [|discriminate..].
    destruct (lz_few _ _ E1) as (F & L & U). destruct (encode_tokens _ _ _ _ _) as [o1| | |] eqn:E2; cbn [rbind] in Y; [|discriminate..].
    apply ok_fst in Y; rewrite Y. apply encode_tokens_max in E2; auto. pose proof (within n r _ 8568 H0 L). lia.
  Qed.
  Lemma d_fixed_few d o d' : d_compress_fixed_only d data = Ok (o, d') -> zlen o <= n / 43 + 1680 * r + 572.
  Proof.
    intros Y. unfold d_compress_fixed_only in Y. pose proof n_pos. pose proof r_pos. destruct (nil_or data) as [ED|(b & l & ED)]; rewrite ED in Y.
    { rewrite empty_fixed in Y. cbn [rbind] in Y. apply ok_fst in Y; rewrite Y. change (zlen [3; 0]) with 2. pose proof (Z.div_pos n 43). lia. }
    cbv beta iota in Y. rewrite <- ED in Y. destruct (run_lz77 d data) as [d1| | |] eqn:E1; cbn [rbind] in Y; [|discriminate..].
    destruct (lz_few _ _ E1) as (F & L & U). destruct (encode_fixed_huffman _) as [o1| | |] eqn:E2; cbn [rbind] in Y; [|discriminate..].
    apply ok_fst in Y; rewrite Y. apply encode_fixed_max in E2; auto. pose proof (within n r _ 572 H L). lia.
  Qed.
  Lemma d_fixed_packed_few d o d' : d_compress_fixed_only_packed d data = Ok (o, d') -> zlen o <= n / 43 + 1680 * r + 572.
  Proof.
    intros Y. unfold d_compress_fixed_only_packed in Y. pose proof n_pos. pose proof r_pos. destruct (nil_or data) as [ED|(b & l & ED)]; rewrite ED in Y.
    { rewrite empty_fixed in Y. cbn [rbind] in Y. apply ok_fst in Y; rewrite Y. change (zlen [3; 0]) with 2. pose proof (Z.div_pos n 43). lia. }
    cbv beta iota in Y. rewrite <- ED in Y. destruct (run_lz77_packed d data) as [d1| | |] eqn:E1; cbn [rbind] in Y; [|discriminate..].
    destruct (lz_packed_few _ _ E1) as (ts & M & X & F & L & U). rewrite (encode_fixed_packed_eq _ ts M) in Y.
    destruct (encode_fixed_huffman _) as [o1| | |] eqn:E2; cbn [rbind] in Y; [|discriminate..].
    apply ok_fst in Y; rewrite Y. apply encode_fixed_max in E2; auto. pose proof (within n r _ 572 H L). lia.
  Qed.
  Lemma stored_few : n <= t -> zlen (deflate_stored data) <= n / 43 + 1680 * r + 572.
  Proof.
    intros A. pose proof (stored_len data). pose proof n_pos. pose proof r_pos. fold n in H.
    pose proof (Z.div_mod n 258 ltac:(lia)). pose proof (Z.div_mod n 43 ltac:(lia)). pose proof (Z.div_mod n 65535 ltac:(lia)).
    pose proof (Z.mod_pos_bound n 258 ltac:(lia)). pose proof (Z.mod_pos_bound n 43 ltac:(lia)). pose proof (Z.mod_pos_bound n 65535 ltac:(lia)). unfold t in A. lia.
  Qed.
  Lemma d_packed_few H d o d' : d_compress_packed H d data = Ok (o, d') -> zlen o <= n / 43 + 1680 * r + 572.
  Proof.
    intros Y. unfold d_compress_packed in Y. pose proof n_pos. pose proof r_pos. destruct (nil_or data) as [ED|(b & l & ED)]; rewrite ED in Y.
    { rewrite empty_fixed in Y. cbn [rbind] in Y. apply ok_fst in Y; rewrite Y. change (zlen [3; 0]) with 2. pose proof (Z.div_pos n 43). lia. }
    cbv beta iota in Y. rewrite <- ED in Y. destruct (run_lz77_packed d data) as [d1| | |] eqn:E1; cbn [rbind] in Y; [|discriminate..].
    destruct (lz_packed_few _ _ E1) as (ts & M & X & F & L & U).
    destruct ((match_count (d_packed d1) =? 0) && (8192 <=? zlen data)) eqn:G.
    - apply ok_fst in Y; rewrite Y. apply stored_few. apply (no_match _ ts) in M; [|lia].
      unfold n. rewrite (lits_len ts [] data M X), zlen_nil. lia.
    - rewrite (encode_best_packed_eq H _ ts M) in Y. destruct (encode_best_huffman H ts) as [o1| | |] eqn:E2; cbn [rbind] in Y; [|discriminate..].
      apply ok_fst in Y; rewrite Y. apply encode_best_max in E2; auto. pose proof (within n r _ 572 H0 L). lia.
  Qed.
  Lemma wrap_few l o : zlen (zlib_wrap l data o) <= zlen o + 6.
  Proof.
    unfold zlib_wrap. rewrite !zlen_app. change (zlen (zlib_header l)) with 2. change (zlen (be32 (adler32 data))) with 4.
    unfold should_use_stored. destruct (Z.leb_spec (zlen data + (zlen data / 65535 + 1) * 5 + 2 + 4) (zlen o + 2 + 4)); [pose proof (stored_len data)|]; lia.
  Qed.
  Lemma d_zlib_few H E d o d' : est_total E -> d_compress_zlib H E d data = Ok (o, d') -> zlen o <= n / 43 + 1680 * r + 8574.
  Proof.
    intros HE Y. unfold d_compress_zlib in Y. pose proof n_pos. pose proof r_pos. destruct (nil_or data) as [ED|(b & l & ED)]; rewrite ED in Y.
    { rewrite empty_zlib_eq in Y. cbn [rbind] in Y. apply ok_fst in Y; rewrite Y. change (zlen (zlib_header (d_level d) ++ [3; 0] ++ be32 (adler32 []))) with 8. pose proof (Z.div_pos n 43). lia. }
    cbv beta iota in Y. rewrite <- ED in Y. destruct (run_lz77 d data) as [d1| | |] eqn:E1; cbn [rbind] in Y; [|discriminate..].
    destruct (lz_few _ _ E1) as (F & L & U). destruct (encode_tokens _ _ _ _ _) as [o1| | |] eqn:E2; cbn [rbind] in Y; [|discriminate..].
    apply ok_fst in Y; rewrite Y. apply encode_tokens_max in E2; auto. pose proof (within n r _ 8568 H0 L). pose proof (wrap_few (d_level d1) o1). lia.
  Qed.
  Lemma d_packed_zlib_few H d o d' : d_compress_packed_zlib H d data = Ok (o, d') -> zlen o <= n / 43 + 1680 * r + 578.
  Proof.
    intros Y. unfold d_compress_packed_zlib in Y. pose proof n_pos. pose proof r_pos. destruct (nil_or data) as [ED|(b & l & ED)]; rewrite ED in Y.
    { rewrite empty_zlib_eq in Y. cbn [rbind] in Y. apply ok_fst in Y; rewrite Y. change (zlen (zlib_header (d_level d) ++ [3; 0] ++ be32 (adler32 []))) with 8. pose proof (Z.div_pos n 43). lia. }
    cbv beta iota in Y. rewrite <- ED in Y. destruct (run_lz77_packed d data) as [d1| | |] eqn:E1; cbn [rbind] in Y; [|discriminate..].
    destruct (lz_packed_few _ _ E1) as (ts & M & X & F & L & U).
    destruct ((match_count (d_packed d1) =? 0) && (8192 <=? zlen data)) eqn:G.
    - apply ok_fst in Y; rewrite Y. assert (zlen (deflate_stored data) <= n / 43 + 1680 * r + 572).
      { apply stored_few. apply (no_match _ ts) in M; [|lia]. unfold n. rewrite (lits_len ts [] data M X), zlen_nil. lia. }
      rewrite !zlen_app. change (zlen (zlib_header (d_level d1))) with 2. change (zlen (be32 (adler32 data))) with 4. lia.
    - rewrite (encode_best_packed_eq H _ ts M) in Y. destruct (encode_best_huffman H ts) as [o1| | |] eqn:E2; cbn [rbind] in Y; [|discriminate..].
      apply ok_fst in Y; rewrite Y. apply encode_best_max in E2; auto. pose proof (within n r _ 572 H0 L). pose proof (wrap_few (d_level d1) o1). lia.
  Qed.
  Lemma gate_few level hi : (if 4096 <=? zlen data then is_high_entropy_data data else Ok false) = Ok hi -> hi = true ->
    zlen (deflate_zlib_stored data level) <= 4383.
  Proof.
    intros Y ->. destruct (4096 <=? zlen data); [|discriminate]. apply entropy_small in Y. unfold deflate_zlib_stored.
    rewrite !zlen_app. change (zlen (zlib_header level)) with 2. change (zlen (be32 (adler32 data))) with 4. pose proof (stored_len data). lia.
  Qed.
  Lemma deflate_few H E p level o p' : est_total E -> deflate H E p data level = Ok (o, p') -> zlen o <= runs_bound n r + 8400.
  Proof.
    intros HE Y. unfold deflate in Y. unfold runs_bound. pose proof n_pos. pose proof r_pos. destruct (nil_or data) as [ED|(b & l & ED)]; rewrite ED in Y.
    { rewrite empty_fixed in Y. cbn [rbind] in Y. apply ok_fst in Y; rewrite Y. change (zlen [3; 0]) with 2. pose proof (Z.div_pos n 43). lia. }
    cbv beta iota in Y. rewrite <- ED in Y. destruct (zlen data <=? 1024).
    - apply (pool_len _ _ _ _ _ (fun z => zlen z <= n / 43 + 1680 * r + 600 + 8400) Y). intros d o' d' X. apply d_fixed_few in X. lia.
    - apply (pool_len _ _ _ _ _ (fun z => zlen z <= n / 43 + 1680 * r + 600 + 8400) Y). intros d o' d' X. apply d_compress_few in X; auto. lia.
  Qed.
  Lemma deflate_packed_few H p level o p' : deflate_packed H p data level = Ok (o, p') -> zlen o <= runs_bound n r.
  Proof.
    intros Y. unfold deflate_packed in Y. unfold runs_bound. pose proof n_pos. pose proof r_pos. destruct (nil_or data) as [ED|(b & l & ED)]; rewrite ED in Y.
    { rewrite empty_fixed in Y. cbn [rbind] in Y. apply ok_fst in Y; rewrite Y. change (zlen [3; 0]) with 2. pose proof (Z.div_pos n 43). lia. }
    cbv beta iota in Y. rewrite <- ED in Y. destruct (zlen data <=? 1024).
    - apply (pool_len _ _ _ _ _ (fun z => zlen z <= n / 43 + 1680 * r + 600) Y). intros d o' d' X. apply d_fixed_packed_few in X. lia.
    - apply (pool_len _ _ _ _ _ (fun z => zlen z <= n / 43 + 1680 * r + 600) Y). intros d o' d' X. apply d_packed_few in X; auto. lia.
  Qed.
  Lemma deflate_zlib_few H E p level o p' : est_total E -> deflate_zlib H E p data level = Ok (o, p') -> zlen o <= runs_bound n r + 8400.
  Proof.
    intros HE Y. unfold deflate_zlib in Y. unfold runs_bound. pose proof n_pos. pose proof r_pos. pose proof (Z.div_pos n 43).
    destruct (if 4096 <=? zlen data then _ else _) as [hi| | |] eqn:G; cbn [rbind] in Y; [|discriminate..]. destruct hi.
    - apply ok_fst in Y; rewrite Y. pose proof (gate_few level true G eq_refl). lia.
    - apply (pool_len _ _ _ _ _ (fun z => zlen z <= n / 43 + 1680 * r + 600 + 8400) Y). intros d o' d' X. apply d_zlib_few in X; auto. lia.
  Qed.
  Lemma deflate_zlib_packed_few H p level o p' : deflate_zlib_packed H p data level = Ok (o, p') -> zlen o <= runs_bound n r + 3800.
  Proof.
    intros Y. unfold deflate_zlib_packed in Y. unfold runs_bound. pose proof n_pos. pose proof r_pos. pose proof (Z.div_pos n 43).
    destruct (if 4096 <=? zlen data then _ else _) as [hi| | |] eqn:G; cbn [rbind] in Y; [|discriminate..]. destruct hi.
    - apply ok_fst in Y; rewrite Y. pose proof (gate_few level true G eq_refl). lia.
    - apply (pool_len _ _ _ _ _ (fun z => zlen z <= n / 43 + 1680 * r + 600 + 3800) Y). intros d o' d' X. apply d_packed_zlib_few in X; auto. lia.
  Qed.
End Few.

Lemma deflate_few_l H E p data level : est_total E -> length p = 10%nat -> bytes data -> zlen data <= 2 ^ 31 ->
  exists o p', deflate H E p data level = Ok (o, p') /\ zlen o <= runs_bound (zlen data) (runs data) + 8400.
Proof.
  intros HE HP HB HN. destruct (deflate_ok H E p data level HE HP HB ltac:(unfold U32; lia)) as (o & p' & X & _).
  exists o, p'. split; [exact X|]. exact (deflate_few data HB HN H E p level o p' HE X).
Qed.
Lemma deflate_packed_few_l H p data level : length p = 10%nat -> bytes data -> zlen data <= 2 ^ 31 ->
  exists o p', deflate_packed H p data level = Ok (o, p') /\ zlen o <= runs_bound (zlen data) (runs data).
Proof.
  intros HP HB HN. destruct (deflate_packed_ok H p data level HP HB ltac:(unfold U32; lia)) as (o & p' & X & _).
  exists o, p'. split; [exact X|]. exact (deflate_packed_few data HB HN H p level o p' X).
Qed.
Lemma deflate_zlib_few_l H E p data level : est_total E -> length p = 10%nat -> bytes data -> zlen data <= 2 ^ 31 ->
  exists o p', deflate_zlib H E p data level = Ok (o, p') /\ zlen o <= runs_bound (zlen data) (runs data) + 8400.
Proof.
  intros HE HP HB HN. destruct (deflate_zlib_ok H E p data level HE HP HB ltac:(unfold U32; lia)) as (o & p' & X & _).
  exists o, p'. split; [exact X|]. exact (deflate_zlib_few data HB HN H E p level o p' HE X).
Qed.
Lemma deflate_zlib_packed_few_l H p data level : length p = 10%nat -> bytes data -> zlen data <= 2 ^ 31 ->
  exists o p', deflate_zlib_packed H p data level = Ok (o, p') /\ zlen o <= runs_bound (zlen data) (runs data) + 3800.
Proof.
  intros HP HB HN. destruct (deflate_zlib_packed_ok H p data level HP HB ltac:(unfold U32; lia)) as (o & p' & X & _).
  exists o, p'. split; [exact X|]. exact (deflate_zlib_packed_few data HB HN H p level o p' X).
Qed.
Lemma runs_repeat v n : runs (repeat v (S n)) = 1.
Proof. cbn [repeat runs]. enough (changes v (repeat v n) = 0) by lia. induction n as [|n IH]; cbn [repeat changes]; [reflexivity|]. rewrite Z.eqb_refl, IH. reflexivity. Qed.
