(** The optimal-parsing compressor as its callers see it. *)
From Coq Require Import Reals Lra.
From Verif Require Import Base BitsModel DeflateSpec InflateModel InflateProofs Lz77Model Lz77Spec Lz77Proofs HuffModel DeflateModel DeflateTop
  F32Model F32Proofs LzOptModel LzOptProofs LzOptTop LzOptBest PngFilterModel PngPaletteModel PngQuantModel PngDecModel PngModel PngSpec PngEncSpec.
Open Scope Z_scope.

(** the match caches a caller can hold for [data]: a new one, or one that has
    been through earlier passes over the same data *)
Inductive held_cache (cfg : config) (data : list Z) : list (list Z * Z) -> Prop :=
| held_new : held_cache cfg data (cache_new (length data))
| held_pass c cm st ts st' c' : held_cache cfg data c -> cost_ok cm ->
    compress_optimal_cached cfg data cm st c = Ok (ts, st', c') -> held_cache cfg data c'.

Lemma held_good cfg data c : bytes data -> held_cache cfg data c -> good_cache cfg data c.
Proof.
  intros HB. induction 1 as [|c cm st ts st' c' _ IH HC E]; [apply new_cache_good|].
  destruct (optimal_ok cfg data HB cm st st c HC IH) as (ts2 & s1 & s2 & c2 & _ & E2 & G & _ & _). rewrite E in E2. inversion E2; subst. exact G.
Qed.

Lemma cache_transparent_l cfg data cm st1 st2 c : bytes data -> cost_ok cm -> held_cache cfg data c ->
  exists ts st1' st2' c', compress_optimal cfg data cm st1 = Ok (ts, st1') /\ compress_optimal_cached cfg data cm st2 c = Ok (ts, st2', c') /\
    expand [] ts = Some data /\ zlen ts <= zlen data.
Proof.
  intros HB HC HG. destruct (optimal_ok cfg data HB cm st1 st2 c HC (held_good _ _ _ HB HG)) as (ts & s1 & s2 & c2 & A & B & _ & D & E).
  exists ts, s1, s2, c2. auto.
Qed.
Lemma cheapest_l cfg data cm st c : bytes data -> cost_ok cm -> held_cache cfg data c ->
  exists ts st' c' cost, compress_optimal_cached cfg data cm st c = Ok (ts, st', c') /\ total_cost cm ts f_zero = Ok cost /\
    forall ts', parse_of data c' 0 ts' -> exists cost', total_cost cm ts' f_zero = Ok cost' /\ f_lt cost' cost = false.
Proof.
  intros HB HC HG. destruct (optimal_is_cheapest cfg data cm st c HB HC (held_good _ _ _ HB HG)) as (ts & st' & c' & k & A & B & _ & D).
  exists ts, st', c', k. auto.
Qed.

Lemma opt_roundtrip_l H log2 data iterations : log2_ok log2 -> bytes data -> 3 * (zlen data + 1) < 2 ^ 32 ->
  exists o, deflate_optimal H log2 data iterations = Ok o /\ deflate_stream o data /\ inflate o = Ok data.
Proof.
  intros A B D. destruct (deflate_optimal_ok H log2 data A B D iterations) as (o & E & F & G).
  exists o. split; auto. split; auto. apply stream_inflates; auto.
Qed.
Lemma opt_split_roundtrip_l H E log2 data iterations maxb : est_total E -> log2_ok log2 -> bytes data -> 3 * (zlen data + 1) < 2 ^ 32 ->
  exists o, deflate_optimal_split H E log2 data iterations maxb = Ok o /\ deflate_stream o data /\ inflate o = Ok data.
Proof.
  intros T A B D. destruct (deflate_optimal_split_ok H E log2 data T A B D iterations maxb) as (o & X & F & G).
  exists o. split; auto. split; auto. apply stream_inflates; auto.
Qed.
Lemma opt_zlib_roundtrip_l H E log2 data iterations : est_total E -> log2_ok log2 -> bytes data -> 3 * (zlen data + 1) < 2 ^ 32 ->
  exists o, deflate_optimal_zlib H E log2 data iterations = Ok o /\ zlib_stream o data /\
    inflate_zlib o None = Ok data /\ inflate_zlib o (Some (zlen data)) = Ok data.
Proof.
  intros T A B D. destruct (deflate_optimal_zlib_ok H E log2 data T A B D iterations) as (o & X & F & G).
  exists o. split; auto. split; auto. apply inflate_zlib_complete; auto.
Qed.
Lemma opt_split_zlib_roundtrip_l H E log2 data iterations maxb : est_total E -> log2_ok log2 -> bytes data -> 3 * (zlen data + 1) < 2 ^ 32 ->
  exists o, deflate_optimal_split_zlib H E log2 data iterations maxb = Ok o /\ zlib_stream o data /\
    inflate_zlib o None = Ok data /\ inflate_zlib o (Some (zlen data)) = Ok data.
Proof.
  intros T A B D. destruct (deflate_optimal_split_zlib_ok H E log2 data T A B D iterations maxb) as (o & X & F & G).
  exists o. split; auto. split; auto. apply inflate_zlib_complete; auto.
Qed.
Lemma opt_le_l H log2 data iterations : log2_ok log2 -> bytes data -> 3 * (zlen data + 1) < 2 ^ 32 -> data <> [] ->
  exists ts st o r, compress_into (lz_config 9) empty_tables [] data = Ok (ts, st) /\ encode_dynamic_huffman H ts = Ok o /\
    deflate_optimal H log2 data iterations = Ok r /\ zlen r <= zlen o.
Proof. intros A B D. exact (deflate_optimal_le H log2 data A B D iterations). Qed.

Lemma opt_comp_ok_l H E log2 e o : est_total E -> log2_ok log2 -> o_optimal o = true -> e_opt e = deflate_optimal_zlib H E log2 -> comp_ok e o.
Proof.
  intros T A Ho He d Hd Hs. unfold room in Hs. rewrite Ho in Hs. unfold compress. rewrite Ho, He.
  assert (3 * (zlen d + 1) < 2 ^ 32) as Hs3. { change (2 ^ 32 / 3) with 1431655765 in Hs. change (2 ^ 32) with 4294967296. lia. }
  exact (deflate_optimal_zlib_ok H E log2 d T A Hd Hs3 5).
Qed.

(** a logarithm good enough for the theorems *)
Definition int_log2 (x : f32) : f32 := f_of_Z (Z.log2 (f_to_Z 0 4294967295 x)).
Lemma int_log2_ok : log2_ok int_log2.
Proof.
  intros n _. unfold int_log2. set (m := f_to_Z 0 4294967295 (f_of_Z n)).
  assert (0 <= m <= 4294967295) as Hm.
  { unfold m, f_to_Z. destruct (f_of_Z n) as [s|s| |s q e]; try destruct s; lia. }
  pose proof (Z.log2_nonneg m). pose proof (Z.log2_le_mono m 4294967295 ltac:(lia)) as L. change (Z.log2 4294967295) with 31 in L.
  destruct (of_Z_exact (Z.log2 m)) as [F V]; [change (2 ^ 24) with 16777216; lia|]. split; auto. rewrite V. split; apply IZR_le; lia.
Qed.
(** decides [parse_of], for the examples *)
Fixpoint parse_check (data : list Z) (c : list (list Z * Z)) (pos : Z) (ts : list token) : bool :=
  match ts with
  | [] => pos =? zlen data
  | TLit b :: ts => (pos <? zlen data) && (b =? znth data pos) && parse_check data c (pos + 1) ts
  | TMatch l d :: ts => (3 <=? l) && (l <=? snd (cache_get c pos)) && (znth (fst (cache_get c pos)) l =? d) && negb (d =? 0) && parse_check data c (pos + l) ts
  end.
Lemma parse_check_ok data c : forall ts pos, parse_check data c pos ts = true -> parse_of data c pos ts.
Proof.
  induction ts as [|[b|l d] ts IH]; intros pos E; cbn [parse_check] in E; rewrite ?andb_true_iff in E.
  - apply Z.eqb_eq in E. subst. apply parse_end.
  - destruct E as ((E1 & E2) & E3). apply Z.ltb_lt in E1. apply Z.eqb_eq in E2. subst b. apply parse_lit; auto.
  - destruct E as ((((E1 & E2) & E3) & E4) & E5). apply Z.leb_le in E1, E2. apply Z.eqb_eq in E3. apply negb_true_iff, Z.eqb_neq in E4.
    apply parse_match; auto. split; auto.
Qed.
