(** Proofs for C87: the filters that the strategies choose. *)
From Verif Require Import Base Lz77Model PngFilterModel PngSpec PngFilterProofs FilterSpec.

(** ** Scores *)
Lemma score_from f : bytes f -> forall a, fold_left (fun s b => s + (if b <? 128 then b else 256 - b)) f a = a + sum_abs f.
Proof.
  induction 1 as [|b f Hb B IH]; intros a; cbn [fold_left]; [unfold sum_abs; cbn [fold_right]; lia|].
  rewrite IH. change (sum_abs (b :: f)) with (Z.min b (256 - b) + sum_abs f). unfold is_byte in Hb. destruct (Z.ltb_spec b 128); lia.
Qed.
Lemma score_sum f : bytes f -> score_filter f = sum_abs f.
Proof. intros B. exact (score_from f B 0). Qed.
Lemma sum_abs_bound f : bytes f -> 0 <= sum_abs f <= 128 * zlen f.
Proof.
  induction 1 as [|b f Hb B IH]; [unfold sum_abs, zlen; cbn [fold_right length]; lia|]. change (sum_abs (b :: f)) with (Z.min b (256 - b) + sum_abs f). rewrite zlen_cons. unfold is_byte in Hb. lia.
Qed.
Definition key (p : Z * Z) : Z := Z.lor (Z.shiftl (fst p) 8) (snd p).
Lemma key_inj p q : is_byte (fst p) -> is_byte (snd p) -> is_byte (fst q) -> is_byte (snd q) -> key p = key q -> p = q.
Proof.
  destruct p as [a b], q as [c d]. unfold is_byte, key. cbn [fst snd]. intros A B C D E. rewrite (Z.lor_comm _ b), (Z.lor_comm _ d), !lor_shiftl in E by lia.
  f_equal; lia.
Qed.
Definition bpair (p : Z * Z) : Prop := is_byte (fst p) /\ is_byte (snd p).
(** the number of pairs of [l] that are not in [s], each counted once *)
Fixpoint fresh (s l : list (Z * Z)) : Z :=
  match l with
  | [] => 0
  | p :: r => if in_dec pair_dec p s then fresh s r else 1 + fresh (p :: s) r
  end.
Lemma existsb_key s p : Forall bpair s -> bpair p -> existsb (Z.eqb (key p)) (map key s) = true <-> In p s.
Proof.
  intros S P. rewrite existsb_exists. split.
  - intros (x & I & E%Z.eqb_eq). subst x. apply in_map_iff in I. destruct I as (q & E & I). rewrite Forall_forall in S. destruct (S q I), P. replace p with q; [exact I|]. apply key_inj; auto.
  - intros I. exists (key p). split; [apply in_map, I|apply Z.eqb_refl].
Qed.
Lemma bigrams_fresh f : bytes f -> forall s, Forall bpair s -> score_bigrams_go (map key s) f = fresh s (combine f (tl f)).
Proof.
  induction f as [|a f IH]; intros B s S; [reflexivity|]. inversion B as [|a' f' Ba Bf]; subst. destruct f as [|b f]; [reflexivity|].
  inversion Bf as [|b' f'' Bb _]; subst. cbn [tl combine fresh]. change (combine (b :: f) f) with (combine (b :: f) (tl (b :: f))). cbn [score_bigrams_go]. change (Z.lor (Z.shiftl a 8) b) with (key (a, b)).
  assert (bpair (a, b)) as P by (split; assumption). pose proof (existsb_key s (a, b) S P) as K. destruct (existsb (Z.eqb (key (a, b))) (map key s)) eqn:E; destruct (in_dec pair_dec (a, b) s) as [I|I].
  - apply IH; assumption.
  - exfalso. apply I, K. reflexivity.
  - apply K in I. discriminate.
  - f_equal. change (key (a, b) :: map key s) with (map key ((a, b) :: s)). apply IH; [exact Bf|constructor; assumption].
Qed.
Lemma fresh_ext l : forall s s', (forall p, In p s <-> In p s') -> fresh s l = fresh s' l.
Proof.
  induction l as [|p l IH]; intros s s' H; [reflexivity|]. cbn [fresh]. destruct (in_dec pair_dec p s) as [I|I], (in_dec pair_dec p s') as [I'|I']; try (exfalso; apply H in I || apply H in I'; tauto); [apply IH, H|]. f_equal. apply IH. intros q. cbn [In]. rewrite H. reflexivity.
Qed.
(** the new pairs can be listed *)
Lemma fresh_list l : forall s, exists d, NoDup d /\ (forall p, In p d <-> In p l /\ ~ In p s) /\ fresh s l = zlen d.
Proof.
  induction l as [|p l IH]; intros s; [exists []; split; [constructor|split; [intros; cbn; tauto|reflexivity]]|]. cbn [fresh]. destruct (in_dec pair_dec p s) as [I|I].
  - destruct (IH s) as (d & N & H & E). exists d. split; [exact N|]. split; [|exact E]. intros q. rewrite H. cbn [In]. split; [tauto|]. intros [[->|J] K]; tauto.
  - destruct (IH (p :: s)) as (d & N & H & E). exists (p :: d). split; [|split].
    + constructor; [|exact N]. rewrite H. cbn [In]. tauto.
    + intros q. cbn [In]. rewrite H. cbn [In]. destruct (pair_dec p q) as [->|]; tauto.
    + rewrite zlen_cons, E. lia.
Qed.
Lemma score_pairs f : bytes f -> score_bigrams f = different_pairs f.
Proof.
  intros B. unfold score_bigrams. change [] with (map key []). rewrite bigrams_fresh by (assumption || constructor). unfold different_pairs.
  destruct (fresh_list (combine f (tl f)) []) as (d & N & H & ->). unfold zlen. f_equal. apply Nat.le_antisymm; apply NoDup_incl_length; try assumption; try apply NoDup_nodup; intros p I.
  - apply nodup_In. apply H in I. tauto.
  - apply nodup_In in I. apply H. split; [exact I|intros []].
Qed.
Lemma pairs_bound f : 0 <= different_pairs f <= zlen f.
Proof.
  unfold different_pairs, zlen. split; [lia|]. assert (length (nodup pair_dec (combine f (tl f))) <= length (combine f (tl f)))%nat as L by (apply NoDup_incl_length; [apply NoDup_nodup|intros p I; apply nodup_In in I; exact I]).
  rewrite combine_length in L. lia.
Qed.

(** ** One row *)
Definition within (F : Z -> list Z) (score : list Z -> Z) (slack : Z) (o : res (list Z)) : Prop :=
  exists t, a_filter t /\ o = Ok (t :: F t) /\ forall t', a_filter t' -> score (F t) <= Z.max (score (F t')) slack.
Lemma five (P : Z -> Prop) : P 0 -> P 1 -> P 2 -> P 3 -> P 4 -> forall t, a_filter t -> P t.
Proof. intros ? ? ? ? ? t H'. unfold a_filter in H'. assert (t = 0 \/ t = 1 \/ t = 2 \/ t = 3 \/ t = 4) as [-> | [-> | [-> | [-> | ->]]]] by lia; assumption. Qed.

Ltac codes := unfold FILTER_NONE, FILTER_SUB, FILTER_UP, FILTER_AVERAGE, FILTER_PAETH in *.
Ltac b2p := repeat match goal with
  | H : (_ && _)%bool = true |- _ => apply andb_prop in H; destruct H
  | H : (_ && _)%bool = false |- _ => apply Bool.andb_false_iff in H
  | H : (_ || _)%bool = true |- _ => apply Bool.orb_prop in H
  | H : (_ || _)%bool = false |- _ => apply Bool.orb_false_iff in H; destruct H
  | H : (_ <? _) = true |- _ => apply Z.ltb_lt in H
  | H : (_ <? _) = false |- _ => apply Z.ltb_ge in H
  | H : (_ <=? _) = true |- _ => apply Z.leb_le in H
  | H : (_ <=? _) = false |- _ => apply Z.leb_gt in H
  | H : (_ =? _) = true |- _ => apply Z.eqb_eq in H
  | H : (_ =? _) = false |- _ => apply Z.eqb_neq in H
  end.

Section Pure.
Context (F : Z -> list Z) (score : list Z -> Z) (slack : Z).
Lemma emit_is b : a_filter b -> emit_best b (F 0) (F 1) (F 2) (F 3) (F 4) = Ok (b :: F b).
Proof. intros H. unfold a_filter in H. assert (b = 0 \/ b = 1 \/ b = 2 \/ b = 3 \/ b = 4) as [-> | [-> | [-> | [-> | ->]]]] by lia; reflexivity. Qed.
Lemma within_intro t : a_filter t ->
  score (F t) <= Z.max (score (F 0)) slack -> score (F t) <= Z.max (score (F 1)) slack -> score (F t) <= Z.max (score (F 2)) slack ->
  score (F t) <= Z.max (score (F 3)) slack -> score (F t) <= Z.max (score (F 4)) slack -> within F score slack (Ok (t :: F t)).
Proof. intros T H0 H1 H2 H3 H4. exists t. split; [exact T|]. split; [reflexivity|]. apply five; assumption. Qed.
Lemma within_emit t : a_filter t ->
  score (F t) <= Z.max (score (F 0)) slack -> score (F t) <= Z.max (score (F 1)) slack -> score (F t) <= Z.max (score (F 2)) slack ->
  score (F t) <= Z.max (score (F 3)) slack -> score (F t) <= Z.max (score (F 4)) slack -> within F score slack (emit_best t (F 0) (F 1) (F 2) (F 3) (F 4)).
Proof. intros. rewrite emit_is by assumption. apply within_intro; assumption. Qed.
End Pure.

Ltac br := match goal with
  | |- context [let '(_, _) := (if ?c then _ else _) in _] => destruct c eqn:?
  | |- within _ _ _ (if ?c then _ else _) => destruct c eqn:?
  | |- context [if ?c then 4 else _] => destruct c eqn:?
  | |- context [if ?c then _ else U64MAX] => destruct c eqn:?
  end; cbn beta iota.

Section Row.
Context (bpp : Z) (row prev : list Z).
Hypothesis Hbpp : 0 < bpp.
Hypothesis Hlen : length prev = length row.
Hypothesis Hrow : bytes row.
Hypothesis Hprev : bytes prev.
Hypothesis Hbig : zlen row < 2 ^ 56.

Lemma filtered_is t g : row_filtered t bpp prev row g -> g = filt t bpp prev row.
Proof.
  intros [L G]. pose proof (filt_spec t bpp prev row) as [L' G']. apply (nth_ext _ _ 0 0); [lia|]. intros n Hn.
  specialize (G (Z.of_nat n)). specialize (G' (Z.of_nat n)). unfold znth in G, G'. rewrite Nat2Z.id in G, G'. rewrite G, G' by (unfold zlen; lia). reflexivity.
Qed.

Lemma adaptive_within : within (fun t => filt t bpp prev row) sum_abs (zlen row / 4 + 1) (adaptive_filter row prev bpp).
Proof.
  unfold adaptive_filter. rewrite (filter_sub_ok bpp row prev Hbpp), (filter_up_ok bpp row prev), (filter_average_ok bpp row prev), (filter_paeth_ok bpp row prev) by assumption. cbn [rbind].
  assert (forall t, bytes (filt t bpp prev row)) as B by (intros; apply filt_bytes). assert (forall t, zlen (filt t bpp prev row) = zlen row) as Lz by (intros; unfold zlen; rewrite filt_length; reflexivity).
  assert (filt 0 bpp prev row = row) as E0 by (apply filt_none; assumption).
  set (F := fun t => filt t bpp prev row). change (filt 1 bpp prev row) with (F 1). change (filt 2 bpp prev row) with (F 2). change (filt 3 bpp prev row) with (F 3). change (filt 4 bpp prev row) with (F 4).
  change (filt 0 bpp prev row) with (F 0) in E0. change (forall t, bytes (F t)) in B. change (forall t, zlen (F t) = zlen row) in Lz. clearbody F.
  pose proof (zlen_nonneg row) as Z0. set (early := zlen row / 4 + 1). assert (0 <= early) as Ze by (unfold early; lia). clearbody early. rewrite <- E0.
  rewrite !score_sum by apply B. pose proof (fun t => sum_abs_bound (F t) (B t)) as S. assert (forall t, 0 <= sum_abs (F t) < U64MAX) as S' by (intros t; specialize (S t); rewrite Lz in S; unfold U64MAX; lia).
  pose proof (S' 0). pose proof (S' 1). pose proof (S' 2). pose proof (S' 3). pose proof (S' 4). clear S S' B Lz E0 Hbig Hrow Hprev Hlen Hbpp Z0. codes.
  replace (sum_abs (F 0) <? U64MAX) with true by (symmetry; apply Z.ltb_lt; lia). cbn [andb].
  repeat br; b2p; repeat match goal with H : _ \/ _ |- _ => destruct H; b2p end; try lia; (apply within_intro || apply within_emit); try (unfold a_filter; lia); lia.
Qed.
Lemma bigrams_within : within (fun t => filt t bpp prev row) different_pairs 0 (bigrams_filter row prev bpp).
Proof.
  unfold bigrams_filter. rewrite (filter_sub_ok bpp row prev Hbpp), (filter_up_ok bpp row prev), (filter_average_ok bpp row prev), (filter_paeth_ok bpp row prev) by assumption. cbn [rbind].
  assert (forall t, bytes (filt t bpp prev row)) as B by (intros; apply filt_bytes). assert (forall t, zlen (filt t bpp prev row) = zlen row) as Lz by (intros; unfold zlen; rewrite filt_length; reflexivity).
  assert (filt 0 bpp prev row = row) as E0 by (apply filt_none; assumption).
  set (F := fun t => filt t bpp prev row). change (filt 1 bpp prev row) with (F 1). change (filt 2 bpp prev row) with (F 2). change (filt 3 bpp prev row) with (F 3). change (filt 4 bpp prev row) with (F 4).
  change (filt 0 bpp prev row) with (F 0) in E0. change (forall t, bytes (F t)) in B. change (forall t, zlen (F t) = zlen row) in Lz. clearbody F.
  rewrite <- E0. rewrite !score_pairs by apply B. pose proof (fun t => pairs_bound (F t)) as S. assert (forall t, 0 <= different_pairs (F t) < U64MAX) as S' by (intros t; specialize (S t); rewrite Lz in S; unfold U64MAX; lia).
  pose proof (S' 0). pose proof (S' 1). pose proof (S' 2). pose proof (S' 3). pose proof (S' 4). clear S S' B Lz E0 Hbig Hrow Hprev Hlen Hbpp. codes.
  replace (different_pairs (F 0) <? U64MAX) with true by (symmetry; apply Z.ltb_lt; lia).
  repeat br; b2p; apply within_emit; try (unfold a_filter; lia); lia.
Qed.
Lemma named_row s t : named s = Some t -> filter_row row prev bpp s = Ok (t :: filt t bpp prev row).
Proof.
  destruct s; intros [= <-]; cbn [filter_row]; codes; rewrite ?(filter_sub_ok bpp row prev Hbpp), ?(filter_up_ok bpp row prev), ?(filter_average_ok bpp row prev), ?(filter_paeth_ok bpp row prev) by assumption; cbn [rbind]; rewrite ?(filt_none bpp row prev) by assumption; reflexivity.
Qed.
End Row.

(** ** Whole images *)
Definition by_strategy (bpp : Z) (s : strategy) (prev row : list Z) (t : Z) (f : list Z) : Prop :=
  filter_row row prev bpp s = Ok (t :: f) /\ bytes prev /\ bytes row /\ length prev = length row /\ a_filter t /\ row_filtered t bpp prev row f.

Lemma rows_by bpp sb data s n : s <> SAdaptiveFast -> forall y prev last,
  0 < bpp -> 0 <= sb -> 0 <= y -> bytes data -> bytes prev -> zlen prev = sb ->
  zlen data = (y + Z.of_nat n) * sb ->
  (y = 0 -> prev = repeat 0 (Z.to_nat sb)) ->
  exists o, filter_rows n y data prev sb bpp s last = Ok o /\ rows_such (by_strategy bpp s) sb prev (skipn (Z.to_nat (y * sb)) data) o.
Proof.
  intros NF. induction n as [|n IH]; intros y prev last Hb Hs Hy Hd Hp Hpl Hl Hz.
  - exists []. cbn [filter_rows]. split; [reflexivity|]. rewrite skipn_all2 by (unfold zlen in Hl; lia). constructor.
  - cbn [filter_rows]. rewrite slice_r_ok by nia. cbn [rbind]. fold (rowsl sb data y).
    assert (zlen (rowsl sb data y) = sb) as Hrl by (unfold rowsl; rewrite slice_len; nia).
    assert (bytes (rowsl sb data y)) as Hrb by (apply slice_bytes; auto).
    assert (length prev = length (rowsl sb data y)) as Hll by (unfold zlen in *; lia).
    replace (if y =? 0 then repeat 0 (Z.to_nat sb) else prev) with prev by (destruct (Z.eqb_spec y 0); auto).
    destruct (filter_row_good bpp (rowsl sb data y) prev Hb Hll Hrb Hp s) as (t & Ht & E).
    match goal with |- exists o, rbind ?m _ = _ /\ _ => assert (m = Ok (fline bpp (rowsl sb data y) prev t, last)) as -> end.
    { rewrite E. destruct s; try reflexivity; [|congruence]. cbn [filter_row] in E. rewrite E. reflexivity. }
    cbn [rbind]. destruct (IH (y + 1) (rowsl sb data y) last) as (o & -> & Hi); auto; try lia. cbn [rbind]. eexists. split; [reflexivity|].
    pose proof (rows_concat sb (S n) data y Hs Hy Hl) as R1. pose proof (rows_concat sb n data (y + 1) Hs ltac:(lia) ltac:(lia)) as R2.
    rewrite <- R1. cbn [seq map concat]. rewrite Z.add_0_r. rewrite <- seq_shift, map_map.
    replace (map (fun x : nat => rowsl sb data (y + Z.of_nat (S x))) (seq 0 n)) with (map (fun k => rowsl sb data ((y + 1) + Z.of_nat k)) (seq 0 n)) by (apply map_ext; intros k; f_equal; lia).
    rewrite R2. unfold fline. cbn [app]. apply RS_row; auto.
    + unfold zlen. rewrite filt_length. exact Hrl.
    + split; [exact E|]. do 4 (split; [assumption|]). apply filt_spec.
Qed.
Lemma parallel_by bpp sb data s n : forall y prev,
  0 < bpp -> 0 <= sb -> 0 <= y -> bytes data -> bytes prev -> zlen prev = sb ->
  zlen data = (y + Z.of_nat n) * sb ->
  (if y =? 0 then prev = repeat 0 (Z.to_nat sb) else prev = rowsl sb data (y - 1)) ->
  exists rows, map_res (parallel_row data sb bpp s) (map (fun k => y + Z.of_nat k) (seq 0 n)) = Ok rows /\
    rows_such (by_strategy bpp s) sb prev (skipn (Z.to_nat (y * sb)) data) (concat rows).
Proof.
  induction n as [|n IH]; intros y prev Hb Hs Hy Hd Hp Hpl Hl Hz.
  - exists []. cbn. split; [reflexivity|]. rewrite skipn_all2 by (unfold zlen in Hl; lia). constructor.
  - cbn [seq map map_res]. rewrite Z.add_0_r.
    assert (zlen (rowsl sb data y) = sb) as Hrl by (unfold rowsl; rewrite slice_len; nia).
    assert (bytes (rowsl sb data y)) as Hrb by (apply slice_bytes; auto).
    assert (length prev = length (rowsl sb data y)) as Hll by (unfold zlen in *; lia).
    destruct (filter_row_good bpp (rowsl sb data y) prev Hb Hll Hrb Hp s) as (t & Ht & E).
    assert (parallel_row data sb bpp s y = Ok (fline bpp (rowsl sb data y) prev t)) as ->.
    { unfold parallel_row. rewrite slice_r_ok by nia. cbn [rbind]. fold (rowsl sb data y).
      assert ((if y =? 0 then Ok (repeat 0 (Z.to_nat sb)) else slice_r data ((y - 1) * sb) (y * sb)) = Ok prev) as ->.
      { destruct (Z.eqb_spec y 0); [congruence|]. rewrite slice_r_ok by nia. rewrite Hz. f_equal. unfold rowsl, slice. f_equal. lia. }
      cbn [rbind]. rewrite E. cbn [rbind].
      assert (zlen (fline bpp (rowsl sb data y) prev t) = sb + 1) as ->.
      { unfold fline. rewrite zlen_cons. unfold zlen at 1. rewrite filt_length. unfold zlen in Hrl. lia. }
      rewrite Z.eqb_refl. reflexivity. }
    cbn [rbind]. destruct (IH (y + 1) (rowsl sb data y)) as (rows & Er & Hi); auto; try lia.
    { destruct (Z.eqb_spec (y + 1) 0); [lia|]. f_equal; lia. }
    replace (map (fun k : nat => y + Z.of_nat k) (seq 1 n)) with (map (fun k => (y + 1) + Z.of_nat k) (seq 0 n)) by (rewrite <- seq_shift, map_map; apply map_ext; intros; lia).
    rewrite Er. cbn [rbind concat]. eexists. split; [reflexivity|]. cbn [concat].
    pose proof (rows_concat sb (S n) data y Hs Hy Hl) as R1. pose proof (rows_concat sb n data (y + 1) Hs ltac:(lia) ltac:(lia)) as R2.
    rewrite <- R1. cbn [seq map concat]. rewrite Z.add_0_r. rewrite <- seq_shift, map_map.
    replace (map (fun x : nat => rowsl sb data (y + Z.of_nat (S x))) (seq 0 n)) with (map (fun k => rowsl sb data ((y + 1) + Z.of_nat k)) (seq 0 n)) by (apply map_ext; intros k; f_equal; lia).
    rewrite R2. unfold fline. cbn [app]. apply RS_row; auto.
    + unfold zlen. rewrite filt_length. exact Hrl.
    + split; [exact E|]. do 4 (split; [assumption|]). apply filt_spec.
Qed.
Lemma filters_by par data width height sb bpp s : s <> SAdaptiveFast -> (is_search s = true -> 4096 < width * height) ->
  0 < bpp -> 0 <= sb -> 0 <= height -> bytes data -> zlen data = sb * height ->
  exists o, apply_filters_with_row_bytes par data width height sb bpp s = Ok o /\
    rows_such (by_strategy bpp s) sb (repeat 0 (Z.to_nat sb)) data o.
Proof.
  intros NF Big Hb Hs Hh Hd Hl. unfold apply_filters_with_row_bytes.
  replace ((width * height <=? 4096) && is_search s) with false by (destruct (is_search s); [rewrite Bool.andb_true_r; symmetry; apply Z.leb_gt; auto|symmetry; apply Bool.andb_false_r]).
  destruct (par && _).
  - unfold apply_filters_parallel, idxs.
    destruct (parallel_by bpp sb data s (Z.to_nat height) 0 (repeat 0 (Z.to_nat sb))) as (rows & E & Hi); auto; try lia.
    { apply repeat0_bytes. } { rewrite zlen_repeat; lia. } { cbn. reflexivity. }
    change (map (fun k : nat => 0 + Z.of_nat k) (seq 0 (Z.to_nat height))) with (map Z.of_nat (seq 0 (Z.to_nat height))) in E.
    rewrite E. cbn [rbind]. eexists; split; [reflexivity|]. cbn [skipn Z.mul Z.to_nat] in Hi. exact Hi.
  - replace (zlen data =? sb * height) with true by (symmetry; apply Z.eqb_eq; auto). cbn [negb].
    destruct (rows_by bpp sb data s (Z.to_nat height) NF 0 (repeat 0 (Z.to_nat sb)) None) as (o & E & Hi); auto; try lia.
    { apply repeat0_bytes. } { rewrite zlen_repeat; lia. }
    exists o; split; auto.
Qed.
Lemma small_search par data width height sb bpp s : is_search s = true -> width * height <= 4096 ->
  apply_filters_with_row_bytes par data width height sb bpp s = apply_filters_with_row_bytes par data width height sb bpp SSub.
Proof.
  intros S L. unfold apply_filters_with_row_bytes. apply Z.leb_le in L. rewrite S, L. cbn [andb is_search]. reflexivity.
Qed.
Lemma rows_weaken (P Q : list Z -> list Z -> Z -> list Z -> Prop) sb prev raw filt' : (forall prev row t f, zlen row = sb -> P prev row t f -> Q prev row t f) -> rows_such P sb prev raw filt' -> rows_such Q sb prev raw filt'.
Proof. intros H R. induction R; constructor; auto. Qed.

(** ** The statements *)
Definition well_sized (data : list Z) (sb height bpp : Z) : Prop :=
  0 < bpp /\ 0 <= sb < 2 ^ 56 /\ 0 <= height /\ bytes data /\ zlen data = sb * height.
Lemma named_filters par data width height sb bpp s t : named s = Some t -> well_sized data sb height bpp ->
  exists o, apply_filters_with_row_bytes par data width height sb bpp s = Ok o /\
    rows_such (fun prev row t' f => t' = t /\ row_filtered t bpp prev row f) sb (repeat 0 (Z.to_nat sb)) data o.
Proof.
  intros N (Hb & Hs & Hh & Hd & Hl). destruct (filters_by par data width height sb bpp s) as (o & E & R); auto; try lia.
  - intros ->. discriminate N.
  - destruct s; discriminate.
  - exists o. split; [exact E|]. revert R. apply rows_weaken. intros prev row t' f L (F & Bp & Br & Ll & A & RF). pose proof (named_row bpp row prev Hb Ll Br Bp s t N) as F'. assert (t' = t) by congruence. subst t'. split; [reflexivity|exact RF].
Qed.
Lemma bigrams_best par data width height sb bpp : 4096 < width * height -> well_sized data sb height bpp ->
  exists o, apply_filters_with_row_bytes par data width height sb bpp SBigrams = Ok o /\
    rows_such (fun prev row t f => row_filtered t bpp prev row f /\ best_by different_pairs bpp prev row f) sb (repeat 0 (Z.to_nat sb)) data o.
Proof.
  intros W (Hb & Hs & Hh & Hd & Hl). destruct (filters_by par data width height sb bpp SBigrams) as (o & E & R); auto; try lia; [discriminate|].
  exists o. split; [exact E|]. revert R. apply rows_weaken. intros prev row t f L (F & Bp & Br & Ll & A & RF). split; [exact RF|].
  intros t' g T' G. cbn [filter_row] in F. destruct (bigrams_within bpp row prev Hb Ll Br Bp ltac:(lia)) as (u & U & E' & M). rewrite (filtered_is bpp row prev Ll t' g G).
  assert (f = filt u bpp prev row) as -> by congruence. specialize (M t' T'). pose proof (pairs_bound (filt t' bpp prev row)). lia.
Qed.
Lemma minsum_near par data width height sb bpp s : (s = SMinSum \/ s = SAdaptive /\ 4096 < width * height) -> well_sized data sb height bpp ->
  exists o, apply_filters_with_row_bytes par data width height sb bpp s = Ok o /\
    rows_such (fun prev row t f => row_filtered t bpp prev row f /\
      (sb / 4 + 1 < sum_abs f -> best_by sum_abs bpp prev row f)) sb (repeat 0 (Z.to_nat sb)) data o.
Proof.
  intros W (Hb & Hs & Hh & Hd & Hl). destruct (filters_by par data width height sb bpp s) as (o & E & R); auto; try lia.
  - destruct W as [->|[-> _]]; discriminate.
  - destruct W as [->|[-> W]]; [discriminate|auto].
  - exists o. split; [exact E|]. revert R. apply rows_weaken. intros prev row t f L (F & Bp & Br & Ll & A & RF). split; [exact RF|].
    assert (adaptive_filter row prev bpp = Ok (t :: f)) as F' by (destruct W as [->|[-> _]]; exact F).
    intros S t' g T' G. destruct (adaptive_within bpp row prev Hb Ll Br Bp ltac:(lia)) as (u & U & E' & M). rewrite (filtered_is bpp row prev Ll t' g G).
    assert (f = filt u bpp prev row) as -> by congruence. specialize (M t' T'). rewrite L in M. lia.
Qed.
(** two rows alike: the second scores 0 with the filter Up, but None is good enough *)
Definition twice : list Z := [1; 0; 0; 0; 1; 0; 0; 0].
Lemma up_of_row : row_filtered 2 1 [1; 0; 0; 0] [1; 0; 0; 0] [0; 0; 0; 0].
Proof.
  split; [reflexivity|]. intros i Hi. change (zlen [1; 0; 0; 0]) with 4 in Hi. assert (i = 0 \/ i = 1 \/ i = 2 \/ i = 3) as [-> | [-> | [-> | ->]]] by lia; reflexivity.
Qed.
Lemma rows_inv (P : list Z -> list Z -> Z -> list Z -> Prop) sb prev row raws filts : rows_such P sb prev (row ++ raws) filts -> zlen row = sb -> 0 < sb ->
  exists t f filts', filts = t :: f ++ filts' /\ zlen f = sb /\ P prev row t f /\ rows_such P sb row raws filts'.
Proof.
  intros R L Z0. remember (row ++ raws) as all eqn:E. destruct R as [prev|prev row' t f raws' filts' L1 L2 H R].
  - destruct row; [change (zlen (@nil Z)) with 0 in L; lia|discriminate E].
  - assert (length row' = length row) as Ll by (unfold zlen in *; lia). assert (row' = row /\ raws' = raws) as [-> ->].
    { clear - E Ll. revert row' E Ll. induction row as [|x row IH]; intros [|x' row'] E Ll; try discriminate Ll; [split; [reflexivity|exact E]|]. cbn in E. injection E as -> E. injection Ll as Ll. destruct (IH row' E Ll) as [-> ->]. split; reflexivity. }
    exists t, f, filts'. auto.
Qed.
Lemma app_same_len {A} (a b c d : list A) : length a = length c -> a ++ b = c ++ d -> a = c /\ b = d.
Proof. revert c. induction a as [|x a IH]; intros [|y c] L E; try discriminate L; [split; [reflexivity|exact E]|]. cbn in E. injection E as -> E. injection L as L. destruct (IH c L E) as [-> ->]. split; reflexivity. Qed.
Lemma minsum_not_best : exists o, apply_filters_with_row_bytes false twice 4 2 4 1 SMinSum = Ok o /\
  ~ rows_such (fun prev row t f => best_by sum_abs 1 prev row f) 4 [0; 0; 0; 0] twice o.
Proof.
  exists [0; 1; 0; 0; 0; 0; 1; 0; 0; 0]. split; [vm_compute; reflexivity|]. intros R.
  change twice with ([1; 0; 0; 0] ++ [1; 0; 0; 0] ++ []) in R. apply rows_inv in R; [|reflexivity|lia]. destruct R as (t & f & filts & E & L & _ & R).
  injection E as <- E. assert (length f = 4%nat) as L' by (unfold zlen in L; lia).
  destruct f as [|f0 [|f1 [|f2 [|f3 [|]]]]]; try discriminate L'. cbn [app] in E. injection E as <- <- <- <- <-.
  apply rows_inv in R; [|reflexivity|lia]. destruct R as (t & f & filts & E & L2 & H & _). injection E as <- E. assert (length f = 4%nat) as L2' by (unfold zlen in L2; lia).
  destruct f as [|f0 [|f1 [|f2 [|f3 [|]]]]]; try discriminate L2'. cbn [app] in E. injection E as <- <- <- <- _.
  specialize (H 2 [0; 0; 0; 0] ltac:(unfold a_filter; lia) up_of_row). vm_compute in H. apply H. reflexivity.
Qed.
