(** Proofs about the colour quantiser. *)
From Coq Require Import Permutation.
From Verif Require Import Base Lz77Model PngFilterModel PngPaletteModel PngQuantModel PngSpec
  PngFilterProofs PngPackProofs PngDecProofs PngPaletteProofs PngReduceProofs.

(** ** Nearest colour *)
(** the weighted squared distance, without machine arithmetic *)
Lemma sq_bound a b : is_byte a -> is_byte b -> 0 <= (a - b) ^ 2 <= 65025.
Proof. unfold is_byte. intros. rewrite Z.pow_2_r. assert (-255 <= a - b <= 255) as H1 by lia. set (x := a - b) in *. clearbody x. split; [apply Z.square_nonneg|nia]. Qed.
Lemma distance_ok c1 c2 : byte4 c1 -> byte4 c2 -> perceptual_distance_sq c1 c2 = dist c1 c2 /\ 0 <= dist c1 c2 < 2 ^ 32 - 1.
Proof.
  destruct c1 as [[[r1 g1] b1] a1], c2 as [[[r2 g2] b2] a2]. intros (R1 & G1 & B1 & A1) (R2 & G2 & B2 & A2).
  unfold perceptual_distance_sq, dist. rewrite !Z.shiftr_div_pow2 by lia. change (2 ^ 1) with 2. change (2 ^ 8) with 256.
  pose proof (sq_bound r1 r2 R1 R2). pose proof (sq_bound g1 g2 G1 G2). pose proof (sq_bound b1 b2 B1 B2). pose proof (sq_bound a1 a2 A1 A2).
  replace ((512 + (r1 + r2) / 2) * (r1 - r2) * (r1 - r2)) with ((512 + (r1 + r2) / 2) * (r1 - r2) ^ 2) by ring.
  replace (1024 * (g1 - g2) * (g1 - g2)) with (1024 * (g1 - g2) ^ 2) by ring.
  replace ((767 - (r1 + r2) / 2) * (b1 - b2) * (b1 - b2)) with ((767 - (r1 + r2) / 2) * (b1 - b2) ^ 2) by ring.
  replace ((a1 - a2) * (a1 - a2)) with ((a1 - a2) ^ 2) by ring.
  assert (0 <= (r1 + r2) / 2 <= 255) as Hm by (unfold is_byte in *; lia).
  set (m := (r1 + r2) / 2) in *. clearbody m.
  set (dr := (r1 - r2) ^ 2) in *. set (dg := (g1 - g2) ^ 2) in *. set (db := (b1 - b2) ^ 2) in *. set (da := (a1 - a2) ^ 2) in *.
  clearbody dr dg db da.
  assert (0 <= (512 + m) * dr <= 767 * 65025) by (split; [nia|apply Z.mul_le_mono_nonneg; lia]).
  assert (0 <= (767 - m) * db <= 767 * 65025) by (split; [nia|apply Z.mul_le_mono_nonneg; lia]).
  set (x := (512 + m) * dr) in *. set (y := (767 - m) * db) in *. clearbody x y.
  change (2 ^ 32) with 4294967296. split; [|lia]. unfold wrap. change (2 ^ 32) with 4294967296. apply Z.mod_small. lia.
Qed.

Lemma nearest_go_ok color : byte4 color -> forall rest before bi bd,
  Forall byte4 (before ++ rest) -> zlen (before ++ rest) <= 256 ->
  ((before = [] /\ bi = 0 /\ bd = 2 ^ 32 - 1) \/
   (0 <= bi < zlen before /\ bd = dist color (colour_at before bi) /\
    (forall j, 0 <= j < zlen before -> bd <= dist color (colour_at before j)) /\
    (forall j, 0 <= j < bi -> bd < dist color (colour_at before j)))) ->
  before ++ rest <> [] ->
  let k := nearest_go color rest (zlen before) bi bd in
  0 <= k < zlen (before ++ rest) /\
  (forall j, 0 <= j < zlen (before ++ rest) -> dist color (colour_at (before ++ rest) k) <= dist color (colour_at (before ++ rest) j)) /\
  (forall j, 0 <= j < k -> dist color (colour_at (before ++ rest) k) < dist color (colour_at (before ++ rest) j)).
Proof.
  intros Hc. induction rest as [|p rest IH]; intros before bi bd Hb Hl Hinv Hne; cbn [nearest_go].
  - rewrite app_nil_r in *. destruct Hinv as [(-> & _)|(R & -> & M1 & M2)]; [congruence|]. cbv zeta. auto.
  - assert (byte4 p) as Hp by (apply Forall_app in Hb as (_ & Hb); apply Forall_cons_iff in Hb as (Hb & _); auto).
    destruct (distance_ok color p Hc Hp) as (-> & Dr).
    replace (before ++ p :: rest) with ((before ++ [p]) ++ rest) in * by (rewrite <- app_assoc; reflexivity).
    assert (zlen (before ++ [p]) = zlen before + 1) as L1 by (rewrite zlen_app, zlen_cons, zlen_nil; ring).
    assert (zlen before < 256) as L2 by (rewrite zlen_app in Hl; pose proof (zlen_nonneg rest); lia).
    pose proof (zlen_nonneg before).
    assert (colour_at (before ++ [p]) (zlen before) = p) as Ep.
    { unfold colour_at, zlen. rewrite Nat2Z.id, app_nth2, Nat.sub_diag by lia. reflexivity. }
    assert (forall j, 0 <= j < zlen before -> colour_at (before ++ [p]) j = colour_at before j) as Eb.
    { intros j Hj. unfold colour_at. apply app_nth1. unfold zlen in Hj. lia. }
    assert ((before ++ [p]) ++ rest <> []) as Hne2 by (destruct before; discriminate).
    rewrite <- L1. destruct (Z.ltb_spec (dist color p) bd) as [Hlt|Hge].
    + rewrite wrap_id by (change (2 ^ 8) with 256; lia). apply IH; auto. right. rewrite Ep, L1. split; [lia|]. split; auto. split.
      * intros j Hj. destruct (Z.eq_dec j (zlen before)) as [->|]; [rewrite Ep; lia|]. rewrite Eb by lia.
        destruct Hinv as [(-> & _ & _)|(R & -> & M1 & M2)]; [rewrite zlen_nil in *; lia|]. specialize (M1 j ltac:(lia)). lia.
      * intros j Hj. rewrite Eb by lia. destruct Hinv as [(-> & _ & _)|(R & -> & M1 & M2)]; [rewrite zlen_nil in *; lia|].
        specialize (M1 j ltac:(lia)). lia.
    + destruct Hinv as [(-> & -> & ->)|(R & -> & M1 & M2)]; [lia|]. apply IH; auto. right. rewrite Eb, L1 by lia. split; [lia|]. split; auto. split.
      * intros j Hj. destruct (Z.eq_dec j (zlen before)) as [->|]; [rewrite Ep; lia|]. rewrite Eb by lia. apply M1; lia.
      * intros j Hj. rewrite Eb by lia. apply M2; lia.
Qed.
Lemma nearest_ok color palette : byte4 color -> Forall byte4 palette -> 1 <= zlen palette <= 256 ->
  let k := nearest_palette_index color palette in
  0 <= k < zlen palette /\
  (forall j, 0 <= j < zlen palette -> dist color (colour_at palette k) <= dist color (colour_at palette j)) /\
  (forall j, 0 <= j < k -> dist color (colour_at palette k) < dist color (colour_at palette j)).
Proof.
  intros Hc Hp Hl. unfold nearest_palette_index.
  apply (nearest_go_ok color Hc palette [] 0 (2 ^ 32 - 1)); auto; cbn [app]; [lia|].
  intros ->. rewrite zlen_nil in Hl. lia.
Qed.
(** in range whatever the colour *)
Lemma nearest_go_range color : forall rest i bi bd n, 0 <= i -> i + zlen rest <= n -> n <= 256 -> 0 <= bi < n ->
  0 <= nearest_go color rest i bi bd < n.
Proof.
  induction rest as [|p rest IH]; intros i bi bd n Hi Hn H6 Hb; cbn [nearest_go]; auto.
  rewrite zlen_cons in Hn. pose proof (zlen_nonneg rest). destruct (_ <? bd); apply IH; try lia.
  rewrite wrap_id by (change (2 ^ 8) with 256; lia). lia.
Qed.
Lemma nearest_range color palette : 1 <= zlen palette <= 256 -> 0 <= nearest_palette_index color palette < zlen palette.
Proof. intros H. apply nearest_go_range; lia. Qed.
Lemma lut_range palette r g b a : 1 <= zlen palette <= 256 -> 0 <= lut_lookup palette r g b a < zlen palette.
Proof. intros H. unfold lut_lookup. destruct (a =? 255); apply nearest_range; auto. Qed.
Lemma nearest_ix_range color : forall rest i bi bd n, 0 <= i -> i + zlen rest <= n -> 0 <= bi < n ->
  0 <= nearest_ix color rest i bi bd < n.
Proof.
  induction rest as [|p rest IH]; intros i bi bd n Hi Hn Hb; cbn [nearest_ix]; auto.
  rewrite zlen_cons in Hn. pose proof (zlen_nonneg rest). destruct (_ <? bd); apply IH; lia.
Qed.

(** ** Colour counts *)
Definition csum (l : list ccount) : Z := zsum (map snd l).
Definition okc (x : ccount) : Prop := byte4 (fst x) /\ 0 <= snd x.
Lemma csum_perm a b : Permutation a b -> csum a = csum b.
Proof. intros H. apply zsum_perm. apply Permutation_map. auto. Qed.
Lemma csum_app a b : csum (a ++ b) = csum a + csum b.
Proof. unfold csum. rewrite map_app, zsum_app. reflexivity. Qed.
Lemma csum_cons x l : csum (x :: l) = snd x + csum l.
Proof. reflexivity. Qed.
Lemma csum_nonneg l : Forall okc l -> 0 <= csum l.
Proof. intros H. apply zsum_nonneg. apply Forall_map. eapply Forall_impl; [|exact H]. intros x (_ & G); auto. Qed.
Lemma csum_firstn n l : Forall okc l -> csum (firstn n l) <= csum l.
Proof.
  intros H. rewrite <- (firstn_skipn n l) at 2. rewrite csum_app. pose proof (csum_nonneg (skipn n l) (Forall_skipn _ _ _ H)). lia.
Qed.
Lemma insert_cc_perm c x l : Permutation (insert_cc c x l) (x :: l).
Proof.
  induction l as [|y l IH]; [reflexivity|]. cbn [insert_cc]. destruct (_ <=? _); [reflexivity|].
  rewrite IH. apply perm_swap.
Qed.
Lemma sort_cc_perm c l : Permutation (sort_cc c l) l.
Proof. induction l as [|x l IH]; [reflexivity|]. cbn [sort_cc fold_right]. fold (sort_cc c l). rewrite insert_cc_perm, IH. reflexivity. Qed.

Lemma sum32_ok l : forall s, Forall okc l -> 0 <= s -> s + csum l < 2 ^ 32 -> fold_res (fun s x => add32 s (snd x)) l s = Ok (s + csum l).
Proof.
  induction l as [|x l IH]; intros s H Hs Hb; cbn [fold_res]; [f_equal; unfold csum; cbn; lia|].
  apply Forall_cons_iff in H as ((_ & Hx) & H). rewrite csum_cons in Hb. pose proof (csum_nonneg l H).
  unfold add32 at 1. replace (s + snd x <? 2 ^ 32) with true by lia. cbn [rbind]. rewrite IH by (auto; lia). rewrite csum_cons. f_equal. ring.
Qed.
Lemma find_split_ok half l : forall i acc, Forall okc l -> 0 <= acc -> acc + csum l < 2 ^ 32 -> l <> [] ->
  exists k, find_split half i acc l = Ok k /\ (k = 0 \/ i <= k < i + zlen l).
Proof.
  induction l as [|x l IH]; intros i acc H Ha Hb Hne; [congruence|]. cbn [find_split].
  apply Forall_cons_iff in H as ((_ & Hx) & H). rewrite csum_cons in Hb. pose proof (csum_nonneg l H). rewrite zlen_cons. pose proof (zlen_nonneg l).
  unfold add32. replace (acc + snd x <? 2 ^ 32) with true by lia. cbn [rbind]. destruct (half <=? acc + snd x); [exists i; split; auto; lia|].
  destruct l as [|y l]; [exists 0; auto|]. destruct (IH (i + 1) (acc + snd x)) as (k & -> & Hk); auto; try lia; [discriminate|].
  exists k. split; auto. lia.
Qed.

(** ** Boxes *)
Lemma box_bounds c l : Forall okc l -> l <> [] -> 0 <= c <= 3 -> box_min c l <= box_max c l.
Proof.
  intros H Hne Hc. destruct l as [|x l]; [congruence|]. apply Forall_cons_iff in H as ((B & _) & _).
  assert (forall (l : list ccount) m, fold_left (fun m x => Z.min m (chan c (fst x))) l m <= m) as G1.
  { intros l'. induction l' as [|y l' IH]; intros m; cbn [fold_left]; [lia|]. specialize (IH (Z.min m (chan c (fst y)))). lia. }
  assert (forall (l : list ccount) m, m <= fold_left (fun m x => Z.max m (chan c (fst x))) l m) as G2.
  { intros l'. induction l' as [|y l' IH]; intros m; cbn [fold_left]; [lia|]. specialize (IH (Z.max m (chan c (fst y)))). lia. }
  unfold box_min, box_max. cbn [fold_left].
  specialize (G1 l (Z.min 255 (chan c (fst x)))). specialize (G2 l (Z.max 0 (chan c (fst x)))). lia.
Qed.
Lemma box_range_ok l : Forall okc l -> l <> [] -> exists ch s, box_range l = Ok (ch, s).
Proof.
  intros H Hne. unfold box_range, sub8.
  pose proof (box_bounds 0 l H Hne ltac:(lia)). pose proof (box_bounds 1 l H Hne ltac:(lia)).
  pose proof (box_bounds 2 l H Hne ltac:(lia)). pose proof (box_bounds 3 l H Hne ltac:(lia)).
  replace (box_min 0 l <=? box_max 0 l) with true by lia. replace (box_min 1 l <=? box_max 1 l) with true by lia.
  replace (box_min 2 l <=? box_max 2 l) with true by lia. replace (box_min 3 l <=? box_max 3 l) with true by lia.
  cbn [rbind].
  repeat match goal with |- context [if ?b then _ else _] => destruct b end; eauto.
Qed.
Definition okbox (b : list ccount) : Prop := b <> [] /\ Forall okc b /\ csum b < 2 ^ 32.
Lemma okbox_part a b l : Permutation (a ++ b) l -> okbox l -> a <> [] -> okbox a.
Proof.
  intros Hp (_ & H & S) Hne. assert (Forall okc (a ++ b)) as H2.
  { apply Forall_forall. intros x Hx. rewrite Forall_forall in H. apply H. eapply Permutation_in; [exact Hp|auto]. }
  rewrite <- (csum_perm _ _ Hp), csum_app in S. apply Forall_app in H2 as (Ha & Hb). pose proof (csum_nonneg b Hb).
  split; auto. split; auto. lia.
Qed.
Lemma box_split_ok l : okbox l -> 1 < zlen l -> exists lo hi, box_split l = Ok (lo, hi) /\ okbox lo /\ okbox hi.
Proof.
  intros (Hne & H & S) Hl. unfold box_split. destruct (box_range_ok l H Hne) as (ch & ms & ->). cbn [rbind].
  pose proof (sort_cc_perm ch l) as P. set (s := sort_cc ch l) in *.
  assert (okbox s) as (Hs1 & Hs2 & Hs3).
  { split; [intros E; rewrite E in P; apply Permutation_nil in P; congruence|]. split; [|rewrite (csum_perm _ _ P); auto].
    apply Forall_forall. intros x Hx. rewrite Forall_forall in H. apply H. eapply Permutation_in; [exact P|auto]. }
  assert (zlen s = zlen l) as Ls by (unfold zlen; rewrite (Permutation_length P); auto).
  unfold sum32. rewrite (sum32_ok s 0) by (auto; lia). cbn [rbind].
  destruct (find_split_ok ((0 + csum s) / 2) s 0 0) as (k & -> & Hk); auto; try lia. cbn [rbind].
  set (i := Z.min k (Z.max 0 (zlen s - 2))). assert (0 <= i <= zlen s - 2) as Hi by lia. clearbody i.
  rewrite !slice_r_ok by lia. cbn [rbind]. eexists _, _. split; [reflexivity|].
  assert (slice s 0 (i + 1) ++ slice s (i + 1) (zlen s) = s) as Es.
  { unfold slice. change (Z.to_nat 0) with 0%nat. rewrite skipn_O. replace (i + 1 - 0) with (i + 1) by ring.
    rewrite (firstn_all2 (skipn _ s)); [apply firstn_skipn|]. rewrite skipn_length. unfold zlen. lia. }
  assert (zlen (slice s 0 (i + 1)) = i + 1) as L1 by (rewrite slice_len; lia).
  assert (zlen (slice s (i + 1) (zlen s)) = zlen s - (i + 1)) as L2 by (rewrite slice_len; lia).
  split.
  - apply (okbox_part _ (slice s (i + 1) (zlen s)) s); [rewrite Es; reflexivity|split; auto|]. intros E. rewrite E, zlen_nil in L1. lia.
  - apply (okbox_part _ (slice s 0 (i + 1)) s); [|split; auto|]. { rewrite Permutation_app_comm, Es. reflexivity. }
    intros E. rewrite E, zlen_nil in L2. lia.
Qed.
Lemma max_by_last_in {A} (key : A -> Z) l : forall best, l <> [] \/ best <> None ->
  exists x, max_by_last key l best = Some x /\ (In x l \/ best = Some x).
Proof.
  induction l as [|y l IH]; intros best H; cbn [max_by_last].
  - destruct best as [b|]; [eauto|]. destruct H; congruence.
  - destruct (IH (match best with None => Some y | Some b => if key b <=? key y then Some y else best end)) as (x & -> & Hx).
    { right. destruct best; [destruct (_ <=? _)|]; discriminate. }
    exists x. split; auto. destruct Hx as [Hx|Hx]; [left; right; auto|]. destruct best as [b|]; [|injection Hx as ->; left; left; auto].
    destruct (key b <=? key y); [injection Hx as ->; left; left; auto|right; auto].
Qed.
Lemma cut_loop_ok f mc : forall boxes, Forall okbox boxes -> boxes <> [] -> mc <= Z.of_nat f + zlen boxes ->
  exists bs, cut_loop f mc boxes = Ok bs /\ Forall okbox bs /\ zlen boxes <= zlen bs <= Z.max (zlen boxes) mc.
Proof.
  induction f as [|f IH]; intros boxes H Hne Hf.
  - cbn [cut_loop]. replace (zlen boxes <? mc) with false by lia. cbn [negb]. exists boxes. split; auto. split; auto. lia.
  - cbn [cut_loop]. destruct (Z.ltb_spec (zlen boxes) mc) as [Hlt|]; cbn [negb]; [|exists boxes; split; auto; split; auto; lia].
    assert (exists rs, map_res box_range boxes = Ok rs /\ length rs = length boxes) as (rs & -> & Lr).
    { clear - H. induction H as [|b bs (H1 & H2 & _) _ IH]; [exists []; auto|]. cbn [map_res].
      destruct (box_range_ok b H2 H1) as (ch & s & ->). cbn [rbind]. destruct IH as (rs & -> & L). cbn [rbind]. eexists; split; [reflexivity|]. cbn; lia. }
    cbn [rbind].
    assert (enum 0 rs <> []) as Hen.
    { destruct rs; [|discriminate]. destruct boxes; [congruence|discriminate]. }
    destruct (max_by_last_in (fun p : Z * (Z * Z) => snd (snd p)) (enum 0 rs) None (or_introl Hen)) as ((idx, r) & -> & [Hin|G]); [|discriminate G].
    apply enum_nth in Hin as (Hi & _). assert (0 <= idx < zlen boxes) as Hix by (unfold zlen in *; lia).
    rewrite (get_ok boxes idx []) by auto. cbn [rbind].
    set (b := nth (Z.to_nat idx) boxes []). assert (okbox b) as Hb.
    { rewrite Forall_forall in H. apply H. apply nth_In. unfold zlen in Hix; lia. }
    destruct (Z.ltb_spec 1 (zlen b)) as [H1|]; cbn [negb]; [|exists boxes; split; auto; split; auto; lia].
    destruct (box_split_ok b Hb H1) as (lo & hi & -> & Hlo & Hhi). cbn [rbind].
    set (rest := firstn (Z.to_nat idx) boxes ++ skipn (Z.to_nat (idx + 1)) boxes).
    assert (Forall okbox rest) as Hr by (apply Forall_app; split; [apply Forall_firstn|apply Forall_skipn]; auto).
    assert (zlen rest = zlen boxes - 1) as Lrest.
    { unfold rest. rewrite zlen_app. unfold zlen in *. rewrite firstn_length, skipn_length. lia. }
    destruct lo as [|l0 lo]; [destruct Hlo; congruence|]. destruct hi as [|h0 hi]; [destruct Hhi; congruence|].
    set (L := l0 :: lo) in *. set (R := h0 :: hi) in *.
    assert (zlen ((rest ++ [L]) ++ [R]) = zlen boxes + 1) as Lnew.
    { rewrite !zlen_app, !zlen_cons, !zlen_nil, Lrest. ring. }
    destruct (IH ((rest ++ [L]) ++ [R])) as (bs & -> & B1 & B2).
    + apply Forall_app; split; [apply Forall_app; split; auto|]; (constructor; [auto|constructor]).
    + destruct rest; discriminate.
    + lia.
    + exists bs. split; auto. split; auto. lia.
Qed.

(** ** Palettes *)
Lemma entry_byte l : byte4 (make_palette_entry l).
Proof.
  unfold make_palette_entry. destruct (_ =? 0); [unfold byte4, is_byte; lia|]. split; [|split; [|split]]; apply wrap8_byte.
Qed.
Lemma kmeans_step_ok colors palette : palette <> [] -> Forall byte4 palette ->
  exists p, kmeans_step colors palette = Ok p /\ zlen p = zlen palette /\ Forall byte4 p.
Proof.
  intros Hne Hp. unfold kmeans_step.
  assert (exists accs, fold_res (kmeans_add palette) colors (repeat (0, 0, 0, 0, 0) (length palette)) = Ok accs /\ length accs = length palette) as (accs & -> & La).
  { assert (forall a, length a = length palette -> exists accs, fold_res (kmeans_add palette) colors a = Ok accs /\ length accs = length palette) as G.
    { induction colors as [|x cs IH]; intros a Ha; cbn [fold_res]; [eauto|]. unfold kmeans_add at 1.
      assert (0 <= nearest_ix (fst x) palette 0 0 (2 ^ 32 - 1) < zlen palette) as Hr.
      { apply nearest_ix_range; try lia. destruct palette; [congruence|]. rewrite zlen_cons. pose proof (zlen_nonneg palette). lia. }
      rewrite (get_ok a _ (0, 0, 0, 0, 0)) by (unfold zlen in *; lia). cbn [rbind].
      destruct (nth _ a _) as [[[[a0 a1] a2] a3] a4]. cbn [rbind]. apply IH. rewrite upd_length. auto. }
    apply G. apply repeat_length. }
  cbn [rbind]. eexists. split; [reflexivity|]. split.
  - rewrite zlen_map. unfold zlen. rewrite combine_length. lia.
  - apply Forall_map. apply Forall_forall. intros (p, (((( a0, a1), a2), a3), a4)) Hin. unfold kmeans_update.
    destruct (0 <? a4); [split; [|split; [|split]]; apply wrap8_byte|]. apply in_combine_l in Hin. rewrite Forall_forall in Hp. auto.
Qed.
Lemma median_cut_ok colors mc : Forall okc colors -> csum colors < 2 ^ 32 -> mc <= 256 ->
  exists p, median_cut_palette colors mc = Ok p /\ 1 <= zlen p <= Z.max 1 mc /\ Forall byte4 p.
Proof.
  intros H S Hm. unfold median_cut_palette. destruct colors as [|c cs].
  - eexists. split; [reflexivity|]. split; [change (zlen [(0, 0, 0, 255)]) with 1; lia|]. constructor; [unfold byte4, is_byte; lia|constructor].
  - set (colors := c :: cs) in *.
    destruct (cut_loop_ok (Z.to_nat mc) mc [colors]) as (bs & -> & B1 & B2).
    + constructor; [split; [discriminate|auto]|constructor].
    + discriminate.
    + change (zlen [colors]) with 1. lia.
    + cbn [rbind]. change (zlen [colors]) with 1 in B2.
      set (pal := map make_palette_entry bs).
      assert (Forall byte4 pal) as Bp by (apply Forall_map; apply Forall_forall; intros; apply entry_byte).
      assert (zlen pal = zlen bs) as Lp by apply zlen_map.
      assert (pal <> []) as Hne by (intros E; rewrite E, zlen_nil in Lp; lia).
      assert (refine_palette_kmeans pal colors = let* p := kmeans_step colors pal in kmeans_step colors p) as ->.
      { unfold refine_palette_kmeans. destruct pal; [congruence|reflexivity]. }
      destruct (kmeans_step_ok colors pal Hne Bp) as (p1 & -> & L1 & P1). cbn [rbind].
      assert (p1 <> []) as Hne1 by (intros E; rewrite E, zlen_nil in L1; lia).
      destruct (kmeans_step_ok colors p1 Hne1 P1) as (p2 & -> & L2 & P2). exists p2. split; auto. split; auto. lia.
Qed.

(** ** Histogram *)
Lemma runs_ok stride keys : forall prev count, 0 < stride -> 0 <= count ->
  let l := runs stride prev count keys in
  Forall okc l /\ l <> [] /\ csum l <= count + stride * zlen keys /\ zlen l <= 1 + zlen keys /\
  (forall c, In c (map fst l) <-> exists k, In k (prev :: keys) /\ c = key_color k).
Proof.
  induction keys as [|k r IH]; intros prev count Hs Hc; cbn [runs].
  - split; [constructor; [split; [apply key_color_byte|auto]|constructor]|]. split; [discriminate|]. rewrite zlen_nil. split; [unfold csum, zsum; cbn; lia|].
    split; [change (zlen [(key_color prev, count)]) with 1; lia|].
    intros c. cbn. split; [intros [<-|[]]; eauto|intros (k & [->|[]] & ->); auto].
  - rewrite zlen_cons. destruct (Z.eqb_spec k prev) as [->|Hk].
    + destruct (IH prev (Z.min (count + stride) (2 ^ 32 - 1)) Hs ltac:(lia)) as (H1 & H2 & H3 & H4 & H5). split; auto. split; auto. split; [lia|]. split; [lia|].
      intros c. rewrite H5. cbn. split; intros (x & Hx & ->); exists x; split; auto; tauto.
    + destruct (IH k stride Hs ltac:(lia)) as (H1 & H2 & H3 & H4 & H5). split; [constructor; [split; [apply key_color_byte|auto]|auto]|]. split; [discriminate|].
      split; [rewrite csum_cons; cbn [snd]; lia|]. split; [rewrite zlen_cons; lia|].
      intros c. cbn [map In fst]. rewrite H5. split.
      * intros [<-|(x & Hx & ->)]; [exists prev; split; auto; left; auto|exists x; split; auto; right; auto].
      * intros (x & [->|Hx] & ->); [left; auto|right; eauto].
Qed.
Lemma insert_key_perm k l : Permutation (insert_key k l) (k :: l).
Proof.
  induction l as [|y l IH]; [reflexivity|]. cbn [insert_key]. destruct (_ <=? _); [reflexivity|]. rewrite IH. apply perm_swap.
Qed.
Lemma sort_keys_perm l : Permutation (sort_keys l) l.
Proof. induction l as [|x l IH]; [reflexivity|]. cbn [sort_keys fold_right]. fold (sort_keys l). rewrite insert_key_perm, IH. reflexivity. Qed.
Lemma histogram_ok stride keys : 0 < stride -> keys <> [] ->
  let l := histogram stride keys in
  Forall okc l /\ l <> [] /\ csum l <= stride * zlen keys /\ (forall c, In c (map fst l) <-> exists k, In k keys /\ c = key_color k).
Proof.
  intros Hs Hne. unfold histogram. pose proof (sort_keys_perm keys) as P. destruct (sort_keys keys) as [|k r].
  { apply Permutation_nil in P. congruence. }
  destruct (runs_ok stride r k stride Hs ltac:(lia)) as (H1 & H2 & H3 & H4 & H5). split; auto. split; auto. split.
  - apply Permutation_length in P. cbn [length] in P. unfold zlen in *. nia.
  - intros c. rewrite H5. split; intros (x & Hx & ->); exists x; split; auto; [apply (Permutation_in _ P)|apply (Permutation_in _ (Permutation_sym P))]; auto.
Qed.
Lemma sample_fuel_ok {A} (stride : nat) : (0 < stride)%nat -> forall f (l : list A), (length l <= f)%nat ->
  (forall x, In x (sample_fuel f stride l) -> In x l) /\
  (l <> [] -> sample_fuel f stride l <> [] /\ ((length (sample_fuel f stride l) - 1) * stride < length l)%nat).
Proof.
  intros Hs. induction f as [|f IH]; intros l Hf.
  - destruct l; [|cbn in Hf; lia]. split; [intros x []|congruence].
  - destruct l as [|x l]; [split; [intros y []|congruence]|]. cbn [sample_fuel]. set (t := skipn stride (x :: l)).
    assert (length t = (S (length l) - stride)%nat) as Lt by (unfold t; rewrite skipn_length; reflexivity).
    cbn [length] in Hf. destruct (IH t ltac:(lia)) as (I1 & I2). split.
    + intros y [<-|Hy]; [left; auto|]. apply I1 in Hy. unfold t in Hy. rewrite <- (firstn_skipn stride (x :: l)). apply in_or_app. auto.
    + intros _. split; [discriminate|]. cbn [length]. destruct t as [|y t'] eqn:Et.
      * assert (sample_fuel f stride [] = []) as -> by (destruct f; reflexivity). cbn. lia.
      * destruct I2 as (_ & I2); [discriminate|]. cbn [length] in Lt, I2.
        destruct (length (sample_fuel f stride (y :: t'))) as [|m]; [cbn; lia|]. replace (S (S m) - 1)%nat with (S m) by lia. replace (S m - 1)%nat with m in I2 by lia.
        rewrite Nat.mul_succ_l. lia.
Qed.
Lemma sample_one {A} (l : list A) : sample 1 l = l.
Proof.
  unfold sample. assert (forall f (l : list A), (length l <= f)%nat -> sample_fuel f 1 l = l) as G; [|apply G; lia].
  induction f as [|f IH]; intros [|x t] Hf; cbn [length] in Hf; try lia; try reflexivity. cbn [sample_fuel skipn]. rewrite IH by lia. reflexivity.
Qed.

Lemma enum_in {A} (l : list A) : forall i k x, nth_error l k = Some x -> In (i + Z.of_nat k, x) (enum i l).
Proof.
  induction l as [|y l IH]; intros i [|k] x H; cbn [nth_error] in H; try discriminate; cbn [enum].
  - injection H as ->. left. f_equal. lia.
  - right. specialize (IH (i + 1) k x H). replace (i + 1 + Z.of_nat k) with (i + Z.of_nat (S k)) in IH by lia. exact IH.
Qed.
Lemma pal_find_ok key l i : pal_find key l = Some i -> exists j c, In (j, c) l /\ i = wrap 8 j /\ color_key c = key.
Proof.
  induction l as [|(j, c) l IH]; cbn [pal_find]; [discriminate|]. destruct (Z.eqb_spec (color_key c) key) as [E|E].
  - intros [= <-]. exists j, c. split; [left; auto|auto].
  - intros H. destruct (IH H) as (j' & c' & H1 & H2). exists j', c'. split; [right; auto|auto].
Qed.
Lemma pal_find_none key l : pal_find key l = None -> forall j c, In (j, c) l -> color_key c <> key.
Proof.
  induction l as [|(j, c) l IH]; cbn [pal_find]; [intros _ j c []|]. destruct (Z.eqb_spec (color_key c) key) as [E|E]; [discriminate|].
  intros H j' c' [[= <- <-]|Hin]; eauto.
Qed.

(** ** Dithering *)
Section Dither.
Variable F : fops.
Variable palette : list rgba.
Hypothesis Hpal : 1 <= zlen palette <= 256.
Variable w : Z.
Hypothesis Hw : 0 < w.
Definition okd (d : dchan F) : Prop := zlen (fst d) = w + 2 /\ zlen (snd d) = w + 2.
Lemma zlen_upd {A} (l : list A) i v : zlen (upd l i v) = zlen l.
Proof. unfold zlen. rewrite upd_length. reflexivity. Qed.
Lemma f_bump_ok v i e k : 0 <= i < zlen v -> exists v', f_bump F v i e k = Ok v' /\ zlen v' = zlen v.
Proof.
  intros H. unfold f_bump. destruct v as [|v0 v']; [rewrite zlen_nil in H; lia|]. set (v := v0 :: v') in *.
  rewrite (get_ok v i v0) by auto. cbn [rbind]. eexists. split; [reflexivity|]. apply zlen_upd.
Qed.
Lemma diffuse_ok d x e : okd d -> 0 <= x < w -> exists d', diffuse F d x e = Ok d' /\ okd d'.
Proof.
  intros (H1 & H2) Hx. destruct d as [err nxt]. cbn [fst snd] in *. unfold diffuse.
  destruct (f_bump_ok err (x + 2) e 7) as (e1 & -> & L1); [lia|]. cbn [rbind].
  destruct (f_bump_ok nxt x e 3) as (n1 & -> & L2); [lia|]. cbn [rbind].
  destruct (f_bump_ok n1 (x + 1) e 5) as (n2 & -> & L3); [lia|]. cbn [rbind].
  destruct (f_bump_ok n2 (x + 2) e 1) as (n3 & -> & L4); [lia|]. cbn [rbind].
  eexists. split; [reflexivity|]. split; cbn [fst snd]; lia.
Qed.
Lemma adjust_ok d x v : okd d -> 0 <= x < w -> exists r, adjust F d x v = Ok r.
Proof.
  intros (H1 & _) Hx. unfold adjust. destruct (fst d) as [|v0 v']; [rewrite zlen_nil in H1; lia|].
  rewrite (get_ok (v0 :: v') (x + 1) v0) by lia. cbn [rbind]. eauto.
Qed.
Lemma dither_row_ok px : forall x dr dg db, okd dr -> okd dg -> okd db -> 0 <= x -> x + zlen px <= w ->
  exists is dr' dg' db', dither_row F palette x px dr dg db = Ok (is, dr', dg', db') /\ okd dr' /\ okd dg' /\ okd db' /\
    zlen is = zlen px /\ Forall (fun v => 0 <= v < zlen palette) is.
Proof.
  induction px as [|(((r, g), b), a) px IH]; intros x dr dg db Hr Hg Hb Hx Hl; cbn [dither_row].
  - eexists _, _, _, _. split; [reflexivity|]. split; auto.
  - rewrite zlen_cons in *. pose proof (zlen_nonneg px).
    destruct (adjust_ok dr x r Hr ltac:(lia)) as (ar & ->). cbn [rbind].
    destruct (adjust_ok dg x g Hg ltac:(lia)) as (ag & ->). cbn [rbind].
    destruct (adjust_ok db x b Hb ltac:(lia)) as (ab & ->). cbn [rbind].
    pose proof (lut_range palette ar ag ab a Hpal) as Hi. set (idx := lut_lookup palette ar ag ab a) in *. clearbody idx.
    rewrite (get_ok palette idx (0, 0, 0, 0)) by auto. cbn [rbind]. destruct (nth (Z.to_nat idx) palette (0, 0, 0, 0)) as [[[p0 p1] p2] p3].
    destruct (diffuse_ok dr x (f_sub F (f_lit F ar) (f_lit F p0)) Hr ltac:(lia)) as (dr1 & -> & Hr1). cbn [rbind].
    destruct (diffuse_ok dg x (f_sub F (f_lit F ag) (f_lit F p1)) Hg ltac:(lia)) as (dg1 & -> & Hg1). cbn [rbind].
    destruct (diffuse_ok db x (f_sub F (f_lit F ab) (f_lit F p2)) Hb ltac:(lia)) as (db1 & -> & Hb1). cbn [rbind].
    destruct (IH (x + 1) dr1 dg1 db1 Hr1 Hg1 Hb1 ltac:(lia) ltac:(lia)) as (is & dr2 & dg2 & db2 & -> & H1 & H2 & H3 & H4 & H5).
    cbn [rbind]. eexists _, _, _, _. split; [reflexivity|]. split; auto. split; auto. split; auto. split; [rewrite zlen_cons; lia|]. constructor; auto.
Qed.
Lemma next_row_ok d : okd d -> okd (next_row F d).
Proof. intros (H1 & H2). split; cbn [next_row fst snd]; auto. rewrite zlen_map. auto. Qed.
Lemma dither_rows_ok h : forall px dr dg db, okd dr -> okd dg -> okd db -> zlen px = w * Z.of_nat h ->
  exists is, dither_rows F palette w h px dr dg db = Ok is /\ zlen is = zlen px /\ Forall (fun v => 0 <= v < zlen palette) is.
Proof.
  induction h as [|h IH]; intros px dr dg db Hr Hg Hb Hl; cbn [dither_rows].
  - exists []. split; auto. split; [rewrite zlen_nil; lia|constructor].
  - assert (w <= zlen px) as Hle by nia. rewrite slice_r_ok by lia. cbn [rbind].
    destruct (dither_row_ok (slice px 0 w) 0 dr dg db) as (is & dr1 & dg1 & db1 & -> & H1 & H2 & H3 & H4 & H5); auto; try lia.
    { rewrite slice_len by lia. lia. }
    cbn [rbind]. rewrite slice_len in H4 by lia.
    assert (zlen (skipn (Z.to_nat w) px) = zlen px - w) as Ls by (unfold zlen in *; rewrite skipn_length; lia).
    destruct (IH (skipn (Z.to_nat w) px) (next_row F dr1) (next_row F dg1) (next_row F db1)) as (rest & -> & L & R); auto using next_row_ok.
    { rewrite Ls. lia. }
    cbn [rbind]. eexists. split; [reflexivity|]. rewrite zlen_app. split; [lia|]. apply Forall_app; auto.
Qed.
End Dither.

(** ** The quantiser *)
Definition is_rgb (ct : color_type) : Prop := ct = Rgb \/ ct = Rgba.
Lemma pixels_view ct data n : is_rgb ct -> image_ok ct data n -> pixels_of ct data = view ct data n.
Proof. intros [-> | ->] H; cbn [pixels_of]; [apply view_rgb; auto|apply view_rgba; auto]. Qed.

Lemma quantize_ok F top data w h ct mc dith :
  (forall l, Permutation (top l) l) -> 0 < w -> 0 < h -> is_rgb ct -> image_ok ct data (w * h) ->
  2 * (w * h) < 2 ^ 32 -> 0 <= mc <= 256 ->
  exists pal idx, quantize_image F top data w h ct mc dith = Ok (pal, idx) /\
    1 <= zlen pal <= Z.max 1 mc /\ Forall byte4 pal /\ zlen idx = w * h /\ Forall (fun v => 0 <= v < zlen pal) idx.
Proof.
  intros Htop Hw Hh Hct Hi Hsz Hmc. unfold quantize_image.
  replace (negb (bytes_per_pixel ct =? 3) && negb (bytes_per_pixel ct =? 4)) with false by (destruct Hct as [-> | ->]; reflexivity).
  pose proof (pixels_view ct data (w * h) Hct Hi) as Ev. destruct (Hi) as (Hn & Hb & L).
  assert (zlen data / bytes_per_pixel ct = w * h) as -> by (rewrite L; apply Z.div_mul; destruct ct; discriminate).
  set (stride := Z.max (w * h / 50000) 1). set (px := pixels_of ct data) in *.
  assert (zlen px = w * h) as Lpx by (rewrite Ev; unfold zlen; rewrite view_length; lia).
  assert (Forall byte4 px) as Bpx by (rewrite Ev; apply view_bytes; auto).
  assert (1 <= w * h) as Hwh by nia. assert (1 <= stride <= w * h) as Hst.
  { unfold stride. split; [lia|]. assert (w * h / 50000 <= w * h) by (apply Z.div_le_upper_bound; lia). lia. }
  set (n := w * h) in *. change (2 ^ 32) with 4294967296 in Hsz.
  destruct (sample_fuel_ok (Z.to_nat stride) ltac:(lia) (length px) px ltac:(lia)) as (S1 & S2).
  assert (px <> []) as Hpne by (intros E; rewrite E, zlen_nil in Lpx; lia).
  destruct (S2 Hpne) as (S3 & S4). fold (sample (Z.to_nat stride) px) in *.
  set (keys := map color_key (sample (Z.to_nat stride) px)).
  assert (keys <> []) as Hk by (unfold keys; destruct (sample _ px); [congruence|discriminate]).
  rewrite wrap_id by (change (2 ^ 32) with 4294967296; lia).
  destruct (histogram_ok stride keys ltac:(lia) Hk) as (H1 & H2 & H3 & H4). set (colors := histogram stride keys) in *.
  assert (stride * zlen keys < 2 ^ 32) as Hb32.
  { unfold keys. rewrite zlen_map. unfold zlen. unfold zlen in Lpx.
    assert ((Z.of_nat (length (sample (Z.to_nat stride) px)) - 1) * stride < n).
    { rewrite <- Lpx. apply Nat2Z.inj_lt in S4. rewrite Nat2Z.inj_mul, Z2Nat.id in S4 by lia.
      destruct (sample (Z.to_nat stride) px); [congruence|]. cbn [length] in *. lia. }
    change (2 ^ 32) with 4294967296. lia. }
  set (cs := if 8192 <? zlen colors then firstn (Z.to_nat 8192) (top colors) else colors).
  assert (Forall okc cs /\ csum cs < 2 ^ 32 /\ cs <> []) as (C1 & C2 & C3).
  { unfold cs. destruct (Z.ltb_spec 8192 (zlen colors)) as [Hlt|]; [|split; auto; split; auto; lia].
    assert (Forall okc (top colors)) as Ht.
    { apply Forall_forall. intros x Hx. rewrite Forall_forall in H1. apply H1. eapply Permutation_in; [apply Htop|auto]. }
    split; [apply Forall_firstn; auto|]. split.
    - pose proof (csum_firstn (Z.to_nat 8192) (top colors) Ht) as G. rewrite (csum_perm _ _ (Htop colors)) in G. lia.
    - intros E. assert (zlen (firstn (Z.to_nat 8192) (top colors)) = 0) as G by (rewrite E; reflexivity).
      unfold zlen in G, Hlt. rewrite firstn_length, (Permutation_length (Htop colors)) in G. lia. }
  clearbody cs. destruct (Z.leb_spec (zlen cs) mc) as [Hle|Hgt].
  - eexists _, _. split; [reflexivity|]. rewrite zlen_map.
    assert (1 <= zlen cs) by (destruct cs; [congruence|rewrite zlen_cons; pose proof (zlen_nonneg cs); lia]).
    split; [lia|]. split; [apply Forall_map; eapply Forall_impl; [|exact C1]; intros x (G & _); auto|]. split; [rewrite zlen_map; auto|].
    apply Forall_map. apply Forall_forall. intros c _. destruct (pal_find _ _) as [i|] eqn:Ep.
    + apply pal_find_ok in Ep as (j & c' & Hin & -> & _). apply enum_nth in Hin as (Hj & _). rewrite zlen_map in Hj.
      rewrite wrap_id by (change (2 ^ 8) with 256; lia). lia.
    + pose proof (nearest_range c (map fst cs)) as G. rewrite zlen_map in G. apply G. lia.
  - destruct (median_cut_ok cs mc C1 C2 ltac:(lia)) as (p & -> & P1 & P2). cbn [rbind].
    assert (1 <= zlen p <= 256) as P3 by lia.
    destruct dith; cbn [negb].
    + destruct (dither_rows_ok F p P3 w Hw (Z.to_nat h) px (repeat (f_lit F 0) (Z.to_nat (w + 2)), repeat (f_lit F 0) (Z.to_nat (w + 2)))
        (repeat (f_lit F 0) (Z.to_nat (w + 2)), repeat (f_lit F 0) (Z.to_nat (w + 2)))
        (repeat (f_lit F 0) (Z.to_nat (w + 2)), repeat (f_lit F 0) (Z.to_nat (w + 2)))) as (is & -> & I1 & I2).
      1-3: split; cbn [fst snd]; unfold zlen; rewrite repeat_length; lia.
      { rewrite Lpx, Z2Nat.id by lia. reflexivity. }
      cbn [rbind]. eexists _, _. split; [reflexivity|]. split; auto. split; auto. split; [lia|auto].
    + eexists _, _. split; [reflexivity|]. split; auto. split; auto. split; [rewrite zlen_map; auto|].
      apply Forall_map. apply Forall_forall. intros (((r, g), b), a) _. apply lut_range; auto.
Qed.

(** images with few colours, all of them sampled, keep their colours *)
Lemma runs_len stride keys (D : list Z) : forall prev count, ascending (prev :: keys) -> (forall k, In k (prev :: keys) -> In k D) -> NoDup D ->
  zlen (runs stride prev count keys) <= zlen D.
Proof.
  revert D. induction keys as [|k r IH]; intros D prev count Ha Hin Hnd; cbn [runs].
  - assert (In prev D) by (apply Hin; left; auto). destruct D as [|d0 D]; [contradiction|]. pose proof (zlen_nonneg D).
    rewrite !zlen_cons, zlen_nil. lia.
  - destruct (Z.eqb_spec k prev) as [->|Hk].
    + apply IH; auto. { inversion Ha; subst; auto. } intros x Hx. apply Hin. right. exact Hx.
    + rewrite zlen_cons.
      assert (In prev D) as Hp by (apply Hin; left; auto).
      apply in_split in Hp as (D1 & D2 & ->).
      assert (zlen (D1 ++ prev :: D2) = 1 + zlen (D1 ++ D2)) as E by (rewrite !zlen_app, zlen_cons; ring). rewrite E.
      apply Z.add_le_mono_l. apply IH.
      * inversion Ha; subst; auto.
      * intros x Hx. assert (In x (D1 ++ prev :: D2)) as G by (apply Hin; right; auto).
        apply in_app_or in G as [G|[G|G]]; [apply in_or_app; auto| |apply in_or_app; auto].
        exfalso. subst x. apply Hk. apply Z.le_antisymm.
        { destruct Hx as [Hx|Hx]; [lia|]. clear - Ha Hx. inversion Ha as [|a l Hf Ha2]; subst. inversion Ha2 as [|b m Hf2 Hb]; subst.
          rewrite Forall_forall in Hf2. apply Hf2; auto. }
        { inversion Ha as [|a l Hf Ha2]; subst. rewrite Forall_forall in Hf. apply Hf. left; auto. }
      * apply NoDup_remove_1 in Hnd. auto.
Qed.

Lemma quantize_exact F top data w h ct mc dith (D : list rgba) :
  0 < w -> 0 < h -> is_rgb ct -> image_ok ct data (w * h) -> w * h < 100000 ->
  NoDup D -> zlen D <= mc -> mc <= 256 -> (forall i, 0 <= i < w * h -> In (pixel ct data i) D) ->
  exists pal idx, quantize_image F top data w h ct mc dith = Ok (pal, idx) /\ forall i, 0 <= i < w * h -> colour_at pal (znth idx i) = pixel ct data i.
Proof.
  intros Hw Hh Hct Hi Hsz Hnd HD Hmc Hin. unfold quantize_image.
  replace (negb (bytes_per_pixel ct =? 3) && negb (bytes_per_pixel ct =? 4)) with false by (destruct Hct as [-> | ->]; reflexivity).
  pose proof (pixels_view ct data (w * h) Hct Hi) as Ev. destruct (Hi) as (Hn & Hb & L).
  assert (zlen data / bytes_per_pixel ct = w * h) as -> by (rewrite L; apply Z.div_mul; destruct ct; discriminate).
  set (n := w * h) in *. assert (1 <= n) as Hn1 by (unfold n; nia).
  assert (Z.max (n / 50000) 1 = 1) as ->.
  { assert (n / 50000 < 2) by (apply Z.div_lt_upper_bound; lia). lia. }
  change (Z.to_nat 1) with 1%nat. rewrite sample_one. set (px := pixels_of ct data) in *.
  assert (zlen px = n) as Lpx by (rewrite Ev; unfold zlen; rewrite view_length; lia).
  assert (Forall byte4 px) as Bpx by (rewrite Ev; apply view_bytes; auto).
  assert (px <> []) as Hpne by (intros E; rewrite E, zlen_nil in Lpx; lia).
  set (keys := map color_key px).
  assert (keys <> []) as Hk by (unfold keys; destruct px; [congruence|discriminate]).
  change (wrap 32 1) with 1.
  destruct (histogram_ok 1 keys ltac:(lia) Hk) as (H1 & H2 & H3 & H4). set (colors := histogram 1 keys) in *.
  assert (forall c, In c px -> In c (map fst colors)) as Hall.
  { intros c Hc. apply H4. exists (color_key c). split; [apply in_map; auto|]. symmetry. apply key_color_inv.
    rewrite Forall_forall in Bpx. auto. }
  assert (zlen colors <= mc) as Hle.
  { apply Z.le_trans with (zlen D); auto. unfold colors, histogram. pose proof (sort_asc keys) as Ha. pose proof (sort_keys_perm keys) as P.
    destruct (sort_keys keys) as [|k r]; [rewrite zlen_nil; apply zlen_nonneg|].
    assert (forall x, In x (k :: r) -> In x (map color_key (filter (fun c => existsb (fun d => color_key c =? color_key d) px) D))) as Hsub.
    { intros x Hx. apply (Permutation_in _ P) in Hx. unfold keys in Hx. apply in_map_iff in Hx as (c & <- & Hc).
      apply in_map_iff. exists c. split; auto. apply filter_In. split.
      - rewrite Ev in Hc. apply view_in in Hc as (i & Hr & ->). auto.
      - apply existsb_exists. exists c. split; auto. apply Z.eqb_refl. }
    set (K := map color_key (filter (fun c => existsb (fun d => color_key c =? color_key d) px) D)) in *.
    assert (zlen K <= zlen D) as LK.
    { unfold K. rewrite zlen_map. unfold zlen. apply Nat2Z.inj_le. clear. induction D as [|c D IH]; cbn [filter length]; [lia|].
      destruct (existsb _ px); cbn [length]; lia. }
    apply Z.le_trans with (zlen (nodup Z.eq_dec K)).
    - apply runs_len; auto; [|apply NoDup_nodup]. intros x Hx. apply nodup_In. auto.
    - apply Z.le_trans with (zlen K); auto. unfold zlen. apply Nat2Z.inj_le. apply NoDup_incl_length; [apply NoDup_nodup|].
      intros x Hx. apply nodup_In in Hx. auto. }
  replace (8192 <? zlen colors) with false by lia. replace (zlen colors <=? mc) with true by lia.
  eexists _, _. split; [reflexivity|]. intros i Hr.
  set (f := fun c => match pal_find (color_key c) (enum 0 (map fst colors)) with Some j => j | None => nearest_palette_index c (map fst colors) end).
  assert (znth (map f px) i = f (nth (Z.to_nat i) px (0, 0, 0, 0))) as ->.
  { unfold znth. rewrite nth_indep with (d' := f (0, 0, 0, 0)) by (rewrite map_length; unfold zlen in Lpx; lia). apply map_nth. }
  assert (nth (Z.to_nat i) px (0, 0, 0, 0) = pixel ct data i) as Epx by (rewrite Ev; apply view_nth; auto).
  assert (In (nth (Z.to_nat i) px (0, 0, 0, 0)) px) as Hinp by (apply nth_In; unfold zlen in Lpx; lia).
  rewrite <- Epx. set (c := nth (Z.to_nat i) px (0, 0, 0, 0)) in *. unfold f.
  assert (byte4 c) as Bc by (rewrite Forall_forall in Bpx; auto).
  destruct (pal_find (color_key c) (enum 0 (map fst colors))) as [j|] eqn:Ep.
  - apply pal_find_ok in Ep as (j' & c' & Hin' & -> & Ek). apply enum_nth in Hin' as (Hj & Hnth). rewrite Z.sub_0_r in Hnth. rewrite zlen_map in Hj.
    rewrite wrap_id by (change (2 ^ 8) with 256; lia). unfold colour_at. rewrite (nth_error_nth _ _ _ Hnth).
    rewrite <- (key_color_inv c Bc), <- Ek. symmetry. apply key_color_inv.
    apply nth_error_In in Hnth. apply in_map_iff in Hnth as (x & <- & Hx). rewrite Forall_forall in H1. apply H1 in Hx. apply Hx.
  - exfalso. specialize (Hall c Hinp). apply In_nth_error in Hall as (k & Hk2). apply (enum_in _ 0) in Hk2.
    apply (pal_find_none _ _ Ep _ _ Hk2). reflexivity.
Qed.
