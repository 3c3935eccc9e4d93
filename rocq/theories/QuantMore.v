(** More about the colour quantiser: where its colours lie, what it keeps,
    which colour a pixel is given, and when it is used. *)
From Coq Require Import Permutation.
From Verif Require Import Base ChecksumModel ChecksumSpec ChecksumProofs InflateModel DeflateSpec InflateProofs Lz77Model Lz77Proofs
  HuffModel DeflateModel DeflateTop PngFilterModel PngPaletteModel PngQuantModel PngDecModel PngModel PngSpec PngEncSpec
  PngFilterProofs PngPackProofs PngDecProofs PngPaletteProofs PngReduceProofs PngFileProofs PngEncodeProofs PngQuantProofs PngTop PngApi QuantSpec.

(** ** Properties of colours kept by averaging *)
Definition okp (P : rgba -> Prop) (x : ccount) : Prop := byte4 (fst x) /\ 0 < snd x /\ P (fst x).
Definition avg_closed (P : rgba -> Prop) : Prop := forall l, l <> [] -> Forall (okp P) l -> P (make_palette_entry l).
Definition wtotal (l : list ccount) : Z := fold_left (fun s x => s + snd x) l 0.
Definition wsum (c : Z) (l : list ccount) : Z := fold_left (fun s x => s + chan c (fst x) * snd x) l 0.
Lemma entry_eq l : make_palette_entry l =
  if wtotal l =? 0 then (0, 0, 0, 255)
  else (wrap 8 (wsum 0 l / wtotal l), wrap 8 (wsum 1 l / wtotal l), wrap 8 (wsum 2 l / wtotal l), wrap 8 (wsum 3 l / wtotal l)).
Proof. reflexivity. Qed.
Lemma wtotal_snoc l x : wtotal (l ++ [x]) = wtotal l + snd x.
Proof. unfold wtotal. rewrite fold_left_app. reflexivity. Qed.
Lemma wsum_snoc c l x : wsum c (l ++ [x]) = wsum c l + chan c (fst x) * snd x.
Proof. unfold wsum. rewrite fold_left_app. reflexivity. Qed.
Lemma wtotal_pos P l : l <> [] -> Forall (okp P) l -> 0 < wtotal l.
Proof.
  induction l as [|x l IH] using rev_ind; [congruence|]. intros _ H. apply Forall_app in H as (H1 & H2). apply Forall_cons_iff in H2 as ((_ & H2 & _) & _).
  rewrite wtotal_snoc. destruct l as [|y l]; [change (wtotal []) with 0; lia|]. assert (0 < wtotal (y :: l)) by (apply IH; [discriminate|auto]). lia.
Qed.
Lemma wsum_between P c l lo hi : Forall (okp P) l -> (forall x, In x l -> lo <= chan c (fst x) <= hi) ->
  lo * wtotal l <= wsum c l <= hi * wtotal l.
Proof.
  induction l as [|x l IH] using rev_ind; intros H1 H2; [change (wtotal []) with 0; change (wsum c []) with 0; lia|].
  apply Forall_app in H1 as (H1 & H3). apply Forall_cons_iff in H3 as ((_ & H3 & _) & _).
  rewrite wtotal_snoc, wsum_snoc.
  assert (lo * wtotal l <= wsum c l <= hi * wtotal l) by (apply IH; auto; intros y Hy; apply H2; apply in_or_app; auto).
  assert (lo <= chan c (fst x) <= hi) by (apply H2; apply in_or_app; right; left; auto). nia.
Qed.
Lemma div_between s t lo hi : 0 < t -> lo * t <= s <= hi * t -> lo <= s / t <= hi.
Proof. intros Ht H. split; [apply Z.div_le_lower_bound; lia|]. apply Z.lt_succ_r. apply Z.div_lt_upper_bound; lia. Qed.
Lemma chan_byte c p : byte4 p -> is_byte (chan c p).
Proof.
  destruct p as (((r, g), b), a). intros (H1 & H2 & H3 & H4). unfold chan.
  destruct (c =? 0); [auto|]. destruct (c =? 1); [auto|]. destruct (c =? 2); auto.
Qed.
Lemma avg_byte P c l : l <> [] -> Forall (okp P) l -> 0 <= wsum c l / wtotal l < 256.
Proof.
  intros Hne H. pose proof (wtotal_pos P l Hne H) as Ht.
  assert (0 <= wsum c l / wtotal l <= 255); [|lia]. apply div_between; auto. apply (wsum_between P); auto.
  intros x Hx. rewrite Forall_forall in H. apply H in Hx as (Hx & _). apply (chan_byte c) in Hx. unfold is_byte in Hx. lia.
Qed.
Lemma entry_avg P l : l <> [] -> Forall (okp P) l ->
  make_palette_entry l = (wsum 0 l / wtotal l, wsum 1 l / wtotal l, wsum 2 l / wtotal l, wsum 3 l / wtotal l).
Proof.
  intros Hne H. rewrite entry_eq. pose proof (wtotal_pos P l Hne H). replace (wtotal l =? 0) with false by lia.
  rewrite !wrap_id; [reflexivity|..]; change (2 ^ 8) with 256; apply (avg_byte P); auto.
Qed.

Definition chan_ix (c : channel) : Z := match c with Red => 0 | Green => 1 | Blue => 2 | Alpha => 3 end.
Lemma channel_chan c p : channel_of c p = chan (chan_ix c) p.
Proof. destruct p as (((r, g), b), a). destruct c; reflexivity. Qed.
Lemma range_closed c lo hi : avg_closed (fun p => lo <= channel_of c p <= hi).
Proof.
  intros l Hne H. rewrite (entry_avg _ l Hne H). pose proof (wtotal_pos _ l Hne H) as Ht.
  assert (lo <= wsum (chan_ix c) l / wtotal l <= hi).
  { apply div_between; auto. eapply wsum_between; [exact H|]. intros x Hx. rewrite Forall_forall in H. apply H in Hx as (_ & _ & Hx).
    rewrite channel_chan in Hx. exact Hx. }
  destruct c; exact H0.
Qed.
Lemma gray_closed : avg_closed is_gray.
Proof.
  intros l Hne H. rewrite (entry_avg _ l Hne H).
  assert (wsum 0 l = wsum 1 l /\ wsum 1 l = wsum 2 l) as (E1 & E2).
  { clear Hne. induction l as [|x l IH] using rev_ind; [split; reflexivity|]. apply Forall_app in H as (H1 & H2). apply Forall_cons_iff in H2 as ((_ & _ & H2) & _).
    destruct (IH H1) as (I1 & I2). rewrite !wsum_snoc. destruct x as ((((r, g), b), a), n). destruct H2 as (G1 & G2). cbn [fst channel_of] in G1, G2.
    subst. unfold chan. cbn [fst snd]. change (1 =? 0) with false. change (0 =? 0) with true. change (1 =? 1) with true. change (2 =? 0) with false.
    change (2 =? 1) with false. change (2 =? 2) with true. cbn iota. lia. }
  split; cbn [channel_of]; congruence.
Qed.

(** ** Boxes hold colours of the image *)
Lemma slice_r_in {A} (l : list A) a b s : slice_r l a b = Ok s -> forall x, In x s -> In x l.
Proof.
  unfold slice_r. destruct (_ && _); [|discriminate]. intros [= <-] x Hx. unfold slice in Hx.
  assert (forall n (m : list A), In x (firstn n m) -> In x m) as F.
  { intros n m G. rewrite <- (firstn_skipn n m). apply in_or_app. auto. }
  assert (forall n (m : list A), In x (skipn n m) -> In x m) as S.
  { intros n m G. rewrite <- (firstn_skipn n m). apply in_or_app. auto. }
  apply F in Hx. apply S in Hx. exact Hx.
Qed.
Lemma box_split_in l lo hi : box_split l = Ok (lo, hi) -> forall x, In x lo \/ In x hi -> In x l.
Proof.
  unfold box_split. intros H. destruct (box_range l) as [(ch, ms)| | |]; cbn [rbind] in H; try discriminate.
  destruct (sum32 _) as [t| | |]; cbn [rbind] in H; try discriminate.
  destruct (find_split _ _ _ _) as [i| | |]; cbn [rbind] in H; try discriminate.
  destruct (slice_r (sort_cc ch l) 0 _) as [s1| | |] eqn:E1; cbn [rbind] in H; try discriminate.
  destruct (slice_r (sort_cc ch l) _ (zlen _)) as [s2| | |] eqn:E2; cbn [rbind] in H; try discriminate.
  injection H as <- <-. intros x [Hx|Hx]; apply (Permutation_in _ (sort_cc_perm ch l)); [apply (slice_r_in _ _ _ _ E1); auto|apply (slice_r_in _ _ _ _ E2); auto].
Qed.
Lemma cut_loop_in (Q : ccount -> Prop) mc f : forall boxes bs, cut_loop f mc boxes = Ok bs -> Forall (Forall Q) boxes -> Forall (Forall Q) bs.
Proof.
  induction f as [|f IH]; intros boxes bs H HQ; cbn [cut_loop] in H.
  - destruct (negb _); [injection H as <-; auto|discriminate].
  - destruct (negb _); [injection H as <-; auto|].
    destruct (map_res box_range boxes) as [rs| | |]; cbn [rbind] in H; try discriminate.
    destruct (max_by_last _ _ _) as [(idx, r)|]; try discriminate.
    destruct (get boxes idx) as [b| | |] eqn:Eb; cbn [rbind] in H; try discriminate.
    destruct (negb _); [injection H as <-; auto|].
    destruct (box_split b) as [(lo, hi)| | |] eqn:Es; cbn [rbind] in H; try discriminate.
    assert (Forall Q b) as Qb.
    { unfold get in Eb. destruct (_ <? 0); [discriminate|]. destruct (nth_error boxes _) eqn:En; [|discriminate]. injection Eb as ->.
      apply nth_error_In in En. rewrite Forall_forall in HQ. auto. }
    assert (Forall Q lo /\ Forall Q hi) as (Ql & Qh).
    { rewrite Forall_forall in Qb. split; apply Forall_forall; intros x Hx; apply Qb; apply (box_split_in _ _ _ Es); auto. }
    apply IH in H; auto.
    set (rest := firstn (Z.to_nat idx) boxes ++ skipn (Z.to_nat (idx + 1)) boxes) in *.
    assert (Forall (Forall Q) rest) by (apply Forall_app; split; [apply Forall_firstn|apply Forall_skipn]; auto).
    assert (Forall (Forall Q) (match lo with [] => rest | _ => rest ++ [lo] end)) by (destruct lo; [auto|apply Forall_app; split; auto]).
    destruct hi; [auto|apply Forall_app; split; auto].
Qed.

(** ** The refinement averages colours of the image *)
Definition accfor (l : list ccount) : kacc := (wsum 0 l, wsum 1 l, wsum 2 l, wsum 3 l, wtotal l).
Lemma kmeans_acc (Q : ccount -> Prop) palette colors : forall accs accs', fold_res (kmeans_add palette) colors accs = Ok accs' ->
  Forall Q colors -> Forall (fun a => exists l, a = accfor l /\ Forall Q l) accs -> Forall (fun a => exists l, a = accfor l /\ Forall Q l) accs'.
Proof.
  induction colors as [|x cs IH]; intros accs accs' H HQ HA; cbn [fold_res] in H; [injection H as <-; auto|].
  apply Forall_cons_iff in HQ as (Qx & HQ). destruct (kmeans_add palette accs x) as [a1| | |] eqn:E; cbn [rbind] in H; try discriminate.
  apply (IH a1); auto. unfold kmeans_add in E.
  set (bi := nearest_ix _ _ _ _ _) in *. destruct (get accs bi) as [a| | |] eqn:Eg; cbn [rbind] in E; try discriminate.
  assert (exists l, a = accfor l /\ Forall Q l) as (l & -> & Ql).
  { unfold get in Eg. destruct (_ <? 0); [discriminate|]. destruct (nth_error accs _) eqn:En; [|discriminate]. injection Eg as ->.
    apply nth_error_In in En. rewrite Forall_forall in HA. apply HA in En. exact En. }
  unfold accfor in E. injection E as <-.
  assert (forall v n, (exists l, v = accfor l /\ Forall Q l) -> Forall (fun a => exists l, a = accfor l /\ Forall Q l) (upd accs n v)) as G.
  { intros v n Hv. apply Forall_forall. intros y Hy. apply In_nth_error in Hy as (k & Hk).
    destruct (Nat.eq_dec k n) as [->|Hne].
    - destruct (lt_dec n (length accs)) as [Hl|Hl].
      + assert (nth_error (upd accs n v) n = Some v) as E2.
        { clear - Hl. revert n Hl. induction accs as [|a accs IH]; intros [|n] Hl; cbn in *; try lia; [reflexivity|apply IH; lia]. }
        rewrite E2 in Hk. injection Hk as <-. auto.
      + exfalso. assert (nth_error (upd accs n v) n = None) by (apply nth_error_None; rewrite upd_length; lia). congruence.
    - assert (nth_error (upd accs n v) k = nth_error accs k) as E2.
      { clear - Hne. revert n k Hne. induction accs as [|a accs IH]; intros [|n] [|k] Hne; cbn; try reflexivity; try congruence. apply IH. congruence. }
      rewrite E2 in Hk. apply nth_error_In in Hk. rewrite Forall_forall in HA. apply HA in Hk. exact Hk. }
  apply G. exists (l ++ [x]). split; [|apply Forall_app; split; auto]. unfold accfor. rewrite !wsum_snoc, wtotal_snoc. reflexivity.
Qed.
Lemma kmeans_keeps P colors palette p : avg_closed P -> Forall (okp P) colors -> kmeans_step colors palette = Ok p -> Forall P palette -> Forall P p.
Proof.
  intros HP HC H Hpal. unfold kmeans_step in H.
  destruct (fold_res _ _ _) as [accs| | |] eqn:E; cbn [rbind] in H; try discriminate. injection H as <-.
  apply (kmeans_acc (okp P)) in E; auto.
  2:{ apply Forall_forall. intros a Ha. apply repeat_spec in Ha. subst a. exists []. split; [reflexivity|constructor]. }
  apply Forall_map. apply Forall_forall. intros (q, a) Hin. pose proof (in_combine_l _ _ _ _ Hin) as H1. pose proof (in_combine_r _ _ _ _ Hin) as H2.
  rewrite Forall_forall in E, Hpal. destruct (E a H2) as (l & -> & Ql). unfold kmeans_update, accfor.
  destruct (Z.ltb_spec 0 (wtotal l)) as [Ht|Ht]; [|auto].
  assert (l <> []) as Hne by (intros ->; change (wtotal []) with 0 in Ht; lia).
  pose proof (HP l Hne Ql) as G. rewrite entry_eq in G. replace (wtotal l =? 0) with false in G by lia. exact G.
Qed.
Lemma median_cut_keeps P colors mc p : avg_closed P -> Forall (okp P) colors -> colors <> [] -> csum colors < 2 ^ 32 -> mc <= 256 ->
  median_cut_palette colors mc = Ok p -> Forall P p.
Proof.
  intros HP HC Hne Hs Hm H. unfold median_cut_palette in H. destruct colors as [|c cs]; [congruence|]. set (colors := c :: cs) in *.
  assert (Forall okc colors) as Hok by (eapply Forall_impl; [|exact HC]; intros x (A & B & _); split; auto; lia).
  destruct (cut_loop_ok (Z.to_nat mc) mc [colors]) as (bs & E & B1 & B2).
  { constructor; [split; [discriminate|auto]|constructor]. } { discriminate. } { change (zlen [colors]) with 1. lia. }
  rewrite E in H. cbn [rbind] in H. apply (cut_loop_in (okp P)) in E; [|constructor; [exact HC|constructor]].
  assert (Forall P (map make_palette_entry bs)) as Hp.
  { apply Forall_map. apply Forall_forall. intros b Hb. rewrite Forall_forall in B1, E. apply HP; [apply B1; auto|apply E; auto]. }
  unfold refine_palette_kmeans in H. destruct (map make_palette_entry bs) as [|q qs] eqn:Eq; [injection H as <-; constructor|]. rewrite <- Eq in H, Hp.
  unfold colors in H. fold colors in H.
  destruct (kmeans_step colors (map make_palette_entry bs)) as [p1| | |] eqn:E1; cbn [rbind] in H; try discriminate.
  apply (kmeans_keeps P colors p1 p HP HC H). apply (kmeans_keeps P colors _ p1 HP HC E1 Hp).
Qed.

(** ** The quantiser as a function of the list of pixels *)
Definition qcolors (top : list ccount -> list ccount) (px : list rgba) : list ccount :=
  let stride := Z.max (zlen px / 50000) 1 in
  let colors := histogram (wrap 32 stride) (map color_key (sample (Z.to_nat stride) px)) in
  if 8192 <? zlen colors then firstn (Z.to_nat 8192) (top colors) else colors.
Definition qpalette (top : list ccount -> list ccount) (px : list rgba) (mc : Z) : res (list rgba) :=
  if zlen (qcolors top px) <=? mc then Ok (map fst (qcolors top px)) else median_cut_palette (qcolors top px) mc.
Definition qpick (top : list ccount -> list ccount) (px : list rgba) (mc : Z) (palette : list rgba) (c : rgba) : Z :=
  if zlen (qcolors top px) <=? mc then
    match pal_find (color_key c) (enum 0 palette) with
    | Some i => i
    | None => nearest_palette_index c palette
    end
  else let '(r, g, b, a) := c in lut_lookup palette r g b a.
Lemma quantize_shape F top data w h ct mc dith pal idx : 0 < w -> 0 < h -> is_rgb ct -> image_ok ct data (w * h) ->
  quantize_image F top data w h ct mc dith = Ok (pal, idx) ->
  let px := view ct data (w * h) in
  qpalette top px mc = Ok pal /\
  (zlen (qcolors top px) <= mc \/ dith = false -> idx = map (qpick top px mc pal) px).
Proof.
  intros Hw Hh Hct Hi H px. unfold quantize_image in H.
  replace (negb (bytes_per_pixel ct =? 3) && negb (bytes_per_pixel ct =? 4)) with false in H by (destruct Hct as [-> | ->]; reflexivity).
  rewrite (pixels_view ct data (w * h) Hct Hi) in H. fold px in H. destruct (Hi) as (Hn & Hb & L).
  assert (zlen data / bytes_per_pixel ct = zlen px) as E.
  { unfold px, zlen. rewrite view_length. fold (zlen data). rewrite L, Z2Nat.id by auto. apply Z.div_mul. destruct ct; discriminate. }
  rewrite E in H. clear E. cbv zeta in H. unfold qpalette, qpick.
  change (if 8192 <? zlen (histogram _ _) then _ else _) with (qcolors top px) in H.
  set (cs := qcolors top px) in *. destruct (Z.leb_spec (zlen cs) mc) as [Hle|Hgt].
  - injection H as <- <-. split; auto.
  - destruct (median_cut_palette cs mc) as [p| | |]; cbn [rbind] in H; try discriminate.
    destruct dith; cbn [negb] in H.
    + destruct (dither_rows _ _ _ _ _ _ _ _) as [is| | |]; cbn [rbind] in H; try discriminate. injection H as <- <-. split; auto. intros [G|G]; [lia|discriminate].
    + injection H as <- <-. split; auto.
Qed.
Lemma runs_pos stride keys : forall prev count, 0 < stride -> 0 < count -> Forall (fun x : ccount => 0 < snd x) (runs stride prev count keys).
Proof.
  induction keys as [|k r IH]; intros prev count Hs Hc; cbn [runs]; [constructor; auto|].
  destruct (k =? prev); [apply IH; lia|]. constructor; auto.
Qed.
Lemma sample_in {A} stride (l : list A) x : (0 < stride)%nat -> In x (sample stride l) -> In x l.
Proof. intros Hs. apply (sample_fuel_ok stride Hs (length l) l (Nat.le_refl _)). Qed.
Lemma stride_range n : 0 < n < 2 ^ 31 -> 0 < Z.max (n / 50000) 1 < 2 ^ 32.
Proof.
  intros H. change (2 ^ 31) with 2147483648 in H. change (2 ^ 32) with 4294967296. split; [lia|].
  assert (n / 50000 <= n) by (apply Z.div_le_upper_bound; lia). lia.
Qed.
(** the colours counted are colours of sampled pixels, with positive weights *)
Lemma qcolors_ok top px : (forall l, Permutation (top l) l) -> px <> [] -> Forall byte4 px -> zlen px < 2 ^ 31 ->
  let cs := qcolors top px in
  cs <> [] /\ Forall okc cs /\ Forall (fun x : ccount => 0 < snd x) cs /\ csum cs < 2 ^ 32 /\
  (forall x, In x cs -> In (fst x) (sample (Z.to_nat (Z.max (zlen px / 50000) 1)) px)).
Proof.
  intros Htop Hne Hb Hl cs. assert (0 < zlen px) as Hn by (destruct px; [congruence|rewrite zlen_cons; pose proof (zlen_nonneg px); lia]).
  destruct (stride_range (zlen px) ltac:(lia)) as (Hs1 & Hs2). unfold cs, qcolors. set (stride := Z.max (zlen px / 50000) 1) in *.
  rewrite wrap_id by lia.
  destruct (sample_fuel_ok (Z.to_nat stride) ltac:(lia) (length px) px ltac:(lia)) as (S1 & S2).
  destruct (S2 Hne) as (S3 & S4). fold (sample (Z.to_nat stride) px) in *. set (sp := sample (Z.to_nat stride) px) in *.
  assert (map color_key sp <> []) as Hk by (destruct sp; [congruence|discriminate]).
  destruct (histogram_ok stride (map color_key sp) ltac:(lia) Hk) as (H1 & H2 & H3 & H4). set (colors := histogram stride (map color_key sp)) in *.
  assert (Forall (fun x : ccount => 0 < snd x) colors) as Hp.
  { unfold colors, histogram. destruct (sort_keys _); [constructor|]. apply runs_pos; auto. }
  assert (csum colors < 2 ^ 32) as Hcs.
  { eapply Z.le_lt_trans; [exact H3|]. rewrite zlen_map. unfold zlen. unfold zlen in Hl, Hn.
    assert ((Z.of_nat (length sp) - 1) * stride < zlen px).
    { unfold zlen. apply Nat2Z.inj_lt in S4. rewrite Nat2Z.inj_mul, Z2Nat.id in S4 by lia. destruct sp; [congruence|]. cbn [length] in *. lia. }
    assert (stride <= zlen px).
    { unfold stride. assert (zlen px / 50000 <= zlen px) by (apply Z.div_le_upper_bound; unfold zlen in *; lia). unfold zlen in *; lia. }
    unfold zlen in *. change (2 ^ 31) with 2147483648 in Hl. change (2 ^ 32) with 4294967296. lia. }
  assert (forall x, In x colors -> In (fst x) sp) as Hin.
  { intros x Hx. assert (In (fst x) (map fst colors)) as G by (apply in_map; auto). apply H4 in G as (k & Hk2 & Ek).
    apply in_map_iff in Hk2 as (c & <- & Hc). rewrite key_color_inv in Ek; [rewrite Ek; auto|].
    rewrite Forall_forall in Hb. apply Hb. apply S1. auto. }
  destruct (Z.ltb_spec 8192 (zlen colors)) as [Hlt|]; [|auto 6].
  assert (forall x, In x (firstn (Z.to_nat 8192) (top colors)) -> In x colors) as Hf.
  { intros x Hx. apply (Permutation_in _ (Htop colors)). rewrite <- (firstn_skipn (Z.to_nat 8192) (top colors)). apply in_or_app. auto. }
  assert (Forall okc (top colors)) as Ht.
  { apply Forall_forall. intros x Hx. rewrite Forall_forall in H1. apply H1. eapply Permutation_in; [apply Htop|auto]. }
  split; [|split; [|split; [|split]]].
  - intros E. assert (zlen (firstn (Z.to_nat 8192) (top colors)) = 0) as G by (rewrite E; reflexivity).
    unfold zlen in G, Hlt. rewrite firstn_length, (Permutation_length (Htop colors)) in G. lia.
  - apply Forall_firstn; auto.
  - apply Forall_forall. intros x Hx. rewrite Forall_forall in Hp. auto.
  - pose proof (csum_firstn (Z.to_nat 8192) (top colors) Ht) as G. rewrite (csum_perm _ _ (Htop colors)) in G. lia.
  - auto.
Qed.
Lemma qpalette_keeps P top px mc pal : avg_closed P -> (forall l, Permutation (top l) l) -> px <> [] -> Forall byte4 px -> zlen px < 2 ^ 31 -> mc <= 256 ->
  Forall P px -> qpalette top px mc = Ok pal -> Forall P pal.
Proof.
  intros HP Htop Hne Hb Hl Hm HPx H. destruct (qcolors_ok top px Htop Hne Hb Hl) as (C1 & C2 & C3 & C4 & C5).
  unfold qpalette in H. set (cs := qcolors top px) in *.
  assert (Forall (okp P) cs) as Hok.
  { apply Forall_forall. intros x Hx. rewrite Forall_forall in C2, C3, HPx. split; [apply C2; auto|]. split; [apply C3; auto|].
    apply HPx. apply C5 in Hx. apply sample_in in Hx; auto. assert (0 < Z.max (zlen px / 50000) 1) by lia. lia. }
  destruct (zlen cs <=? mc).
  - injection H as <-. apply Forall_map. eapply Forall_impl; [|exact Hok]. intros x (_ & _ & G). exact G.
  - apply (median_cut_keeps P cs mc); auto.
Qed.

(** ** Files *)
Lemma small_n o : 0 < o_width o -> 0 < o_height o -> is_rgb (o_ct o) -> small o -> o_width o * o_height o < 2 ^ 31.
Proof.
  intros Hw Hh Hct (Hs & _). pose proof (room_le o). change (2 ^ 31) with 2147483648. change (2 ^ 32) with 4294967296 in *.
  destruct Hct as [E|E]; rewrite E in Hs; cbn [bytes_per_pixel] in Hs; nia.
Qed.
Lemma quantize_rgb data o : should_quantize data o = true -> is_rgb (o_ct o).
Proof. intros Hq. unfold should_quantize in Hq. unfold is_rgb. destruct (o_qmode o); [discriminate| |]; destruct (o_ct o); auto; discriminate. Qed.

(** everything about a quantised file in terms of the list of pixels *)
Lemma quantized_file e data o : accepted o data -> env_ok e o -> small o -> 0 <= o_max_colors o -> should_quantize data o = true ->
  let n := o_width o * o_height o in let px := view (o_ct o) data n in let mc := Z.min (o_max_colors o) 256 in
  exists f im pal idx, encode e data o = Ok f /\ decode_png f = Ok im /\ im_width im = o_width o /\ im_height im = o_height o /\
    0 < n < 2 ^ 31 /\ zlen px = n /\ Forall byte4 px /\ px <> [] /\
    qpalette (e_top e) px mc = Ok pal /\ 1 <= zlen pal <= 256 /\ Forall byte4 pal /\
    zlen idx = n /\ Forall (fun v => 0 <= v < zlen pal) idx /\
    (zlen (qcolors (e_top e) px) <= mc \/ o_dither o = false -> idx = map (qpick (e_top e) px mc pal) px) /\
    (forall i, 0 <= i < n -> pixel (im_ct im) (im_pixels im) i = colour_at pal (znth idx i)).
Proof.
  intros Ha He Hs Hm Hq n px mc. destruct (accepted_rejects _ _ Ha) as (Hr & Hw & Hh & Hb).
  destruct (encode_quantized e data o [] Hw Hh Hb Hr Hq He Hs Hm) as (cs & pal & idx & px' & oct & A & B & C & D & E & F & G & H & I).
  pose proof (quantize_rgb data o Hq) as Hct. destruct Ha as (_ & Hw' & Hh' & Hi).
  destruct (quantize_shape (e_float e) (e_top e) data (o_width o) (o_height o) (o_ct o) (Z.min (o_max_colors o) 256) (o_dither o) pal idx
    ltac:(lia) ltac:(lia) Hct Hi A) as (S1 & S2).
  assert (0 < n) as Hn by (unfold n; nia).
  assert (zlen px = n) as Lp by (unfold px, zlen; rewrite view_length; lia).
  exists (png_file cs), (mkImage (o_width o) (o_height o) px' oct), pal, idx. split; [unfold encode; rewrite D; reflexivity|].
  split; [rewrite <- (app_nil_r (png_file cs)); apply H|]. split; [reflexivity|]. split; [reflexivity|].
  split; [split; [auto|apply small_n; auto; lia]|]. split; [auto|]. split; [apply view_bytes; auto|].
  split; [intros E0; rewrite E0, zlen_nil in Lp; lia|]. split; [auto|]. split; [lia|]. auto 8.
Qed.
Lemma idx_range (pal : list rgba) idx n i : zlen idx = n -> Forall (fun v => 0 <= v < zlen pal) idx -> 0 <= i < n -> In (colour_at pal (znth idx i)) pal /\ 0 <= znth idx i < zlen pal.
Proof.
  intros L H Hi. rewrite Forall_forall in H. assert (In (znth idx i) idx) as Hin by (apply nth_In; unfold zlen in L; lia).
  apply H in Hin. split; auto. unfold colour_at. apply nth_In. unfold zlen in Hin. lia.
Qed.
Lemma keeps_l P e data o : avg_closed P -> accepted o data -> env_ok e o -> small o -> 0 <= o_max_colors o -> should_quantize data o = true ->
  (forall i, 0 <= i < o_width o * o_height o -> P (pixel (o_ct o) data i)) ->
  exists f im, encode e data o = Ok f /\ decode_png f = Ok im /\
    forall i, 0 <= i < o_width o * o_height o -> P (pixel (im_ct im) (im_pixels im) i).
Proof.
  intros HP Ha He Hs Hm Hq HPx.
  destruct (quantized_file e data o Ha He Hs Hm Hq) as (f & im & pal & idx & A & B & _ & _ & Hn & Lp & Bp & Hne & Q & _ & _ & L & R & _ & S).
  exists f, im. split; auto. split; auto. intros i Hi. rewrite S by auto.
  assert (Forall P pal) as Hpal.
  { apply (qpalette_keeps P (e_top e) (view (o_ct o) data (o_width o * o_height o)) (Z.min (o_max_colors o) 256)); auto.
    - apply He.
    - rewrite Lp. lia.
    - lia.
    - apply Forall_forall. intros c (k & Hk & ->)%view_in. auto. }
  rewrite Forall_forall in Hpal. apply Hpal. apply (idx_range pal idx _ i L R Hi).
Qed.
Lemma range_l e data o c lo hi : accepted o data -> env_ok e o -> small o -> 0 <= o_max_colors o -> should_quantize data o = true ->
  (forall i, 0 <= i < o_width o * o_height o -> lo <= channel_of c (pixel (o_ct o) data i) <= hi) ->
  exists f im, encode e data o = Ok f /\ decode_png f = Ok im /\
    forall i, 0 <= i < o_width o * o_height o -> lo <= channel_of c (pixel (im_ct im) (im_pixels im) i) <= hi.
Proof. apply (keeps_l (fun p => lo <= channel_of c p <= hi)). apply range_closed. Qed.
Lemma gray_l e data o : accepted o data -> env_ok e o -> small o -> 0 <= o_max_colors o -> should_quantize data o = true ->
  (forall i, 0 <= i < o_width o * o_height o -> is_gray (pixel (o_ct o) data i)) ->
  exists f im, encode e data o = Ok f /\ decode_png f = Ok im /\
    forall i, 0 <= i < o_width o * o_height o -> is_gray (pixel (im_ct im) (im_pixels im) i).
Proof. apply (keeps_l is_gray). apply gray_closed. Qed.

(** ** Which colour a pixel is given *)
Lemma expand6_near v : is_byte v -> is_byte (expand6 (Z.shiftr v 2)) /\ Z.abs (expand6 (Z.shiftr v 2) - v) <= 3.
Proof.
  intros H. assert (forallb (fun v => let e := expand6 (Z.shiftr v 2) in (0 <=? e) && (e <? 256) && (Z.abs (e - v) <=? 3)) (idxs 256) = true) as G by reflexivity.
  rewrite forallb_forall in G. assert (In v (idxs 256)) as Hin by (apply in_idxs; unfold is_byte in H; lia). apply G in Hin. cbv zeta in Hin.
  apply andb_prop in Hin as (Hin & H3). apply andb_prop in Hin as (H1 & H2). unfold is_byte. lia.
Qed.
Lemma qpick_ok top px mc pal c : byte4 c -> Forall byte4 pal -> 1 <= zlen pal <= 256 ->
  let x := colour_at pal (qpick top px mc pal c) in
  exists c', byte4 c' /\ near 3 c c' /\ alpha_of c' = alpha_of c /\ (alpha_of c <> 255 \/ zlen (qcolors top px) <= mc -> c' = c) /\
    forall j, 0 <= j < zlen pal -> dist c' x <= dist c' (colour_at pal j).
Proof.
  intros Hc Hp Hl x. assert (near 3 c c) as Hn by (intros ch; rewrite Z.sub_diag; cbn; lia).
  unfold x, qpick. destruct (Z.leb_spec (zlen (qcolors top px)) mc) as [Hle|Hgt].
  - exists c. split; auto. split; auto. split; auto. split; auto. intros j Hj.
    destruct (pal_find (color_key c) (enum 0 pal)) as [k|] eqn:Ef.
    + apply pal_find_ok in Ef as (j' & c' & Hin & -> & Ek). apply enum_nth in Hin as (Hj' & Hnth). rewrite Z.sub_0_r in Hnth.
      rewrite wrap_id by (change (2 ^ 8) with 256; lia). unfold colour_at. rewrite (nth_error_nth _ _ _ Hnth).
      assert (byte4 c') as Bc by (rewrite Forall_forall in Hp; apply Hp; apply nth_error_In in Hnth; auto).
      assert (c' = c) as -> by (rewrite <- (key_color_inv c Hc), <- Ek; symmetry; apply key_color_inv; auto).
      assert (dist c c = 0) as ->.
      { destruct c as (((r, g), b), a). unfold dist. rewrite !Z.sub_diag. change (0 ^ 2) with 0. rewrite !Z.mul_0_r. reflexivity. }
      apply (distance_ok c (nth (Z.to_nat j) pal (0, 0, 0, 0))); auto. rewrite Forall_forall in Hp. apply Hp. apply nth_In. unfold zlen in Hj. lia.
    + destruct (nearest_ok c pal Hc Hp Hl) as (_ & N & _). apply N; auto.
  - destruct c as (((r, g), b), a). unfold lut_lookup. destruct (Z.eqb_spec a 255) as [->|Ha].
    + destruct Hc as (Hr & Hg & Hb & _). destruct (expand6_near r Hr) as (Br & Nr). destruct (expand6_near g Hg) as (Bg & Ng). destruct (expand6_near b Hb) as (Bb & Nb).
      set (c' := (expand6 (Z.shiftr r 2), expand6 (Z.shiftr g 2), expand6 (Z.shiftr b 2), 255)).
      assert (byte4 c') as Bc by (unfold c', byte4, is_byte in *; lia).
      exists c'. split; auto. split; [intros ch; destruct ch; unfold c'; cbn [channel_of]; lia|]. split; [reflexivity|].
      split; [intros [G|G]; [cbn in G; congruence|lia]|]. apply (nearest_ok c' pal Bc Hp Hl).
    + exists (r, g, b, a). split; auto. split; auto. split; auto. split; auto. apply (nearest_ok _ pal Hc Hp Hl).
Qed.
Lemma dist_upper p q m m' : byte4 p -> byte4 q -> 0 <= m <= m' -> near m' p q -> Z.abs (alpha_of p - alpha_of q) <= m -> dist p q <= 9 * (m' * m') + m * m.
Proof.
  destruct p as (((r1, g1), b1), a1), q as (((r2, g2), b2), a2). intros (P1 & P2 & P3 & P4) (Q1 & Q2 & Q3 & Q4) Hm Hn Ha.
  pose proof (Hn Red) as N1. pose proof (Hn Green) as N2. pose proof (Hn Blue) as N3. cbn [channel_of alpha_of] in *. unfold dist, is_byte in *. clear Hn.
  assert (forall d k, Z.abs d <= k -> 0 <= d ^ 2 <= k * k) as Sq by (intros d k Hd; rewrite Z.pow_2_r; nia).
  apply Sq in N1, N2, N3, Ha. set (rm := (r1 + r2) / 2). assert (0 <= rm <= 255) as Hrm by (unfold rm; split; [apply Z.div_pos; lia|apply Z.lt_succ_r, Z.div_lt_upper_bound; lia]).
  clearbody rm. set (x := (r1 - r2) ^ 2) in *. set (y := (g1 - g2) ^ 2) in *. set (z := (b1 - b2) ^ 2) in *. set (t := (a1 - a2) ^ 2) in *. set (M := m' * m') in *.
  clearbody x y z t M. assert (((512 + rm) * x + 1024 * y + (767 - rm) * z) / 256 <= 9 * M); [|lia].
  apply Z.div_le_upper_bound; [lia|]. nia.
Qed.
Lemma dist_lower p q B : byte4 p -> byte4 q -> dist p q <= B ->
  forall c, (channel_of c p - channel_of c q) * (channel_of c p - channel_of c q) * (match c with Alpha => 1 | _ => 2 end) <= B.
Proof.
  destruct p as (((r1, g1), b1), a1), q as (((r2, g2), b2), a2). intros (P1 & P2 & P3 & P4) (Q1 & Q2 & Q3 & Q4) H c. unfold dist, is_byte in *.
  set (rm := (r1 + r2) / 2) in *. assert (0 <= rm <= 255) as Hrm by (unfold rm; split; [apply Z.div_pos; lia|apply Z.lt_succ_r, Z.div_lt_upper_bound; lia]).
  clearbody rm. assert (forall d, d ^ 2 = d * d) as Sq by (intros; apply Z.pow_2_r). rewrite !Sq in H.
  assert (forall d : Z, 0 <= d * d) as Nn by (intros; nia).
  pose proof (Nn (r1 - r2)). pose proof (Nn (g1 - g2)). pose proof (Nn (b1 - b2)). pose proof (Nn (a1 - a2)).
  set (x := (r1 - r2) * (r1 - r2)) in *. set (y := (g1 - g2) * (g1 - g2)) in *. set (z := (b1 - b2) * (b1 - b2)) in *. set (t := (a1 - a2) * (a1 - a2)) in *.
  set (S := (512 + rm) * x + 1024 * y + (767 - rm) * z) in *.
  assert (512 * x + 1024 * y + 512 * z <= S) as HS by (unfold S; nia).
  pose proof (Z.div_mod S 256 ltac:(lia)) as D. pose proof (Z.mod_pos_bound S 256 ltac:(lia)) as M. assert (0 <= S / 256) by (apply Z.div_pos; lia).
  destruct c; cbn [channel_of]; [change ((r1 - r2) * (r1 - r2)) with x|change ((g1 - g2) * (g1 - g2)) with y|change ((b1 - b2) * (b1 - b2)) with z|change ((a1 - a2) * (a1 - a2)) with t];
    clearbody S x y z t; lia.
Qed.
Lemma bound2 m d : 0 <= m -> d * d <= 9 * ((m + 3) * (m + 3)) + m * m -> Z.abs d <= 4 * m + 9.
Proof. intros. nia. Qed.
Lemma bound1 m d : 0 <= m -> d * d * 2 <= 9 * ((m + 3) * (m + 3)) + m * m -> Z.abs d <= 4 * m + 6.
Proof. intros. nia. Qed.
(** the colour at the place of a pixel *)
Lemma picked_at {A} (f : rgba -> Z) ct data n i (g : Z -> A) : 0 <= i < n -> g (znth (map f (view ct data n)) i) = g (f (pixel ct data i)).
Proof.
  intros Hi. f_equal. unfold znth. rewrite nth_indep with (d' := f (0, 0, 0, 0)) by (rewrite map_length, view_length; lia).
  rewrite map_nth. f_equal. apply view_nth; auto.
Qed.
Lemma chosen_l e data o : accepted o data -> env_ok e o -> small o -> 0 <= o_max_colors o -> should_quantize data o = true -> o_dither o = false ->
  exists f im, encode e data o = Ok f /\ decode_png f = Ok im /\
    forall i j, 0 <= i < o_width o * o_height o -> 0 <= j < o_width o * o_height o ->
    let p := pixel (o_ct o) data i in let q := pixel (im_ct im) (im_pixels im) i in let t := pixel (im_ct im) (im_pixels im) j in
    (alpha_of p <> 255 -> dist p q <= dist p t) /\ (forall m, near m p t -> near (4 * m + 9) p q).
Proof.
  intros Ha He Hs Hm Hq Hd.
  destruct (quantized_file e data o Ha He Hs Hm Hq) as (f & im & pal & idx & A & B & _ & _ & Hn & Lp & Bp & Hne & Q & Lpal & Bpal & L & R & Hidx & S).
  exists f, im. split; auto. split; auto. intros i j Hi Hj p q t. specialize (Hidx (or_intror Hd)).
  assert (t = colour_at pal (znth idx j)) as Et by (apply S; auto).
  destruct (idx_range pal idx _ j L R Hj) as (Tin & Tr).
  assert (byte4 t) as Bt by (rewrite Et; rewrite Forall_forall in Bpal; auto).
  assert (byte4 q) as Bq. { unfold q. rewrite S by auto. rewrite Forall_forall in Bpal. apply Bpal. apply (idx_range pal idx _ i L R Hi). }
  assert (byte4 p) as Bpx by (apply pixel_bytes; apply Ha).
  destruct (qpick_ok (e_top e) (view (o_ct o) data (o_width o * o_height o)) (Z.min (o_max_colors o) 256) pal p Bpx Bpal Lpal) as (c' & C1 & C2 & C3 & C4 & C5).
  assert (q = colour_at pal (qpick (e_top e) (view (o_ct o) data (o_width o * o_height o)) (Z.min (o_max_colors o) 256) pal p)) as Eq.
  { unfold q. rewrite S by auto. rewrite Hidx. rewrite (picked_at _ _ _ _ _ (colour_at pal)) by auto. reflexivity. }
  rewrite <- Eq in C5. specialize (C5 _ Tr). rewrite <- Et in C5. clear S Hidx Eq Et Q R. split.
  - intros Hal. rewrite (C4 (or_introl Hal)) in C5. exact C5.
  - intros m Hm2. assert (0 <= m) as Hm0 by (pose proof (Hm2 Red); lia).
    assert (dist c' t <= 9 * ((m + 3) * (m + 3)) + m * m) as U.
    { apply dist_upper; auto; try lia.
      - intros ch. specialize (C2 ch). specialize (Hm2 ch). lia.
      - rewrite C3. specialize (Hm2 Alpha). destruct p as (((? & ?) & ?) & ?), t as (((? & ?) & ?) & ?). exact Hm2. }
    pose proof (dist_lower c' q _ C1 Bq (Z.le_trans _ _ _ C5 U)) as Lo. intros ch. specialize (Lo ch). specialize (C2 ch).
    destruct ch.
    1-3: apply bound1 in Lo; lia.
    rewrite Z.mul_1_r in Lo. apply bound2 in Lo; auto.
    assert (channel_of Alpha c' = channel_of Alpha p) as Eal by (destruct c' as (((? & ?) & ?) & ?), p as (((? & ?) & ?) & ?); exact C3). lia.
Qed.

(** ** Order of the pixels *)
Lemma sorted_unique l : forall l', ascending l -> ascending l' -> Permutation l l' -> l = l'.
Proof.
  induction l as [|x l IH]; intros l' Ha Ha' P; [apply Permutation_nil in P; auto|].
  destruct l' as [|y l']; [apply Permutation_sym, Permutation_nil in P; discriminate|].
  assert (x = y) as <-.
  { inversion Ha as [|? ? H1 H2]; subst. inversion Ha' as [|? ? H3 H4]; subst. rewrite Forall_forall in H1, H3.
    assert (In x (y :: l')) as G1 by (apply (Permutation_in _ P); left; auto). assert (In y (x :: l)) as G2 by (apply (Permutation_in _ (Permutation_sym P)); left; auto).
    destruct G1 as [->|G1]; auto. destruct G2 as [->|G2]; auto. apply H1 in G2. apply H3 in G1. lia. }
  f_equal. apply IH; [inversion Ha; auto|inversion Ha'; auto|]. apply Permutation_cons_inv in P. exact P.
Qed.
Lemma sort_keys_same l l' : Permutation l l' -> sort_keys l = sort_keys l'.
Proof.
  intros P. apply sorted_unique; [apply sort_asc|apply sort_asc|]. rewrite sort_keys_perm, P. symmetry. apply sort_keys_perm.
Qed.
Lemma qcolors_same top px px' : Permutation px px' -> zlen px < 100000 -> qcolors top px = qcolors top px'.
Proof.
  intros P Hl. assert (zlen px' = zlen px) as E by (unfold zlen; rewrite (Permutation_length P); auto). unfold qcolors. rewrite E.
  assert (Z.max (zlen px / 50000) 1 = 1) as ->.
  { assert (zlen px / 50000 < 2) by (apply Z.div_lt_upper_bound; lia). lia. }
  change (Z.to_nat 1) with 1%nat. rewrite !sample_one. unfold histogram. rewrite (sort_keys_same (map color_key px) (map color_key px')) by (apply Permutation_map; auto).
  reflexivity.
Qed.
Lemma all_view ct data n : all_pixels ct data n = view ct data n.
Proof. unfold all_pixels, view, idxs. rewrite map_map. reflexivity. Qed.
Lemma order_l e data o data' o' : accepted o data -> accepted o' data' -> env_ok e o -> env_ok e o' -> small o -> small o' ->
  0 <= o_max_colors o -> o_max_colors o' = o_max_colors o -> should_quantize data o = true -> should_quantize data' o' = true ->
  o_dither o = false -> o_dither o' = false -> o_width o * o_height o < 100000 ->
  Permutation (all_pixels (o_ct o) data (o_width o * o_height o)) (all_pixels (o_ct o') data' (o_width o' * o_height o')) ->
  exists f im f' im', encode e data o = Ok f /\ decode_png f = Ok im /\ encode e data' o' = Ok f' /\ decode_png f' = Ok im' /\
    forall i j, 0 <= i < o_width o * o_height o -> 0 <= j < o_width o' * o_height o' ->
    pixel (o_ct o) data i = pixel (o_ct o') data' j ->
    pixel (im_ct im) (im_pixels im) i = pixel (im_ct im') (im_pixels im') j.
Proof.
  intros Ha Ha' He He' Hs Hs' Hm Em Hq Hq' Hd Hd' Hn P. rewrite !all_view in P.
  destruct (quantized_file e data o Ha He Hs Hm Hq) as (f & im & pal & idx & A & B & _ & _ & Hn1 & Lp & Bp & Hne & Q & Lpal & Bpal & L & R & Hidx & S).
  destruct (quantized_file e data' o' Ha' He' Hs' ltac:(lia) Hq') as (f' & im' & pal' & idx' & A' & B' & _ & _ & Hn1' & Lp' & Bp' & Hne' & Q' & Lpal' & Bpal' & L' & R' & Hidx' & S').
  specialize (Hidx (or_intror Hd)). specialize (Hidx' (or_intror Hd')).
  pose proof (qcolors_same (e_top e) _ _ P ltac:(rewrite Lp; auto)) as Ec.
  rewrite Em in *. assert (pal' = pal) as ->.
  { unfold qpalette in Q, Q'. rewrite <- Ec in Q'. congruence. }
  exists f, im, f', im'. split; auto. split; auto. split; auto. split; auto. intros i j Hi Hj E. rewrite S, S' by auto. rewrite Hidx, Hidx'.
  rewrite !(picked_at _ _ _ _ _ (colour_at pal)) by auto. rewrite E. unfold qpick. rewrite <- Ec. reflexivity.
Qed.
(** pixels of one colour stay of one colour, whatever the size *)
Lemma same_l e data o : accepted o data -> env_ok e o -> small o -> 0 <= o_max_colors o -> should_quantize data o = true -> o_dither o = false ->
  exists f im, encode e data o = Ok f /\ decode_png f = Ok im /\
    forall i j, 0 <= i < o_width o * o_height o -> 0 <= j < o_width o * o_height o ->
    pixel (o_ct o) data i = pixel (o_ct o) data j -> pixel (im_ct im) (im_pixels im) i = pixel (im_ct im) (im_pixels im) j.
Proof.
  intros Ha He Hs Hm Hq Hd.
  destruct (quantized_file e data o Ha He Hs Hm Hq) as (f & im & pal & idx & A & B & _ & _ & Hn1 & Lp & Bp & Hne & Q & Lpal & Bpal & L & R & Hidx & S).
  specialize (Hidx (or_intror Hd)). exists f, im. split; auto. split; auto. intros i j Hi Hj E. rewrite !S by auto. rewrite Hidx.
  rewrite !(picked_at _ _ _ _ _ (colour_at pal)) by auto. rewrite E. reflexivity.
Qed.

(** ** Pictures with few colours *)
Lemma key_inj c c' : byte4 c -> byte4 c' -> color_key c = color_key c' -> c = c'.
Proof. intros H H' E. rewrite <- (key_color_inv c H), <- (key_color_inv c' H'), E. reflexivity. Qed.
Lemma keys_nodup D : Forall byte4 D -> NoDup D -> NoDup (map color_key D).
Proof.
  induction 1 as [|c D Hc HD IH]; intros Hn; [constructor|]. inversion Hn; subst. cbn [map]. constructor; auto.
  intros (c' & Ek & Hin)%in_map_iff. assert (c' = c) as ->; [|auto]. apply key_inj; auto. rewrite Forall_forall in HD. auto.
Qed.
Lemma qcolors_count top px D : (forall l, Permutation (top l) l) -> Forall byte4 D -> NoDup D -> (forall c, In c px -> In c D) -> px <> [] -> zlen (qcolors top px) <= zlen D.
Proof.
  intros Htop Hb Hn Hin Hne. unfold qcolors. set (stride := Z.max (zlen px / 50000) 1). set (keys := map color_key _).
  assert (zlen (histogram (wrap 32 stride) keys) <= zlen D) as G.
  { unfold histogram. pose proof (sort_asc keys) as Ha. pose proof (sort_keys_perm keys) as P.
    destruct (sort_keys keys) as [|k r]; [rewrite zlen_nil; apply zlen_nonneg|].
    rewrite <- (zlen_map color_key D). apply runs_len; auto; [|apply keys_nodup; auto].
    intros x Hx. apply (Permutation_in _ P) in Hx. unfold keys in Hx. apply in_map_iff in Hx as (c & <- & Hc). apply in_map. apply Hin.
    apply sample_in in Hc; auto. assert (0 < stride) by (unfold stride; lia). lia. }
  destruct (8192 <? _); auto. eapply Z.le_trans; [|exact G]. unfold zlen. rewrite firstn_length, (Permutation_length (Htop _)). lia.
Qed.
Lemma nth_error_after {A} n : forall (l : list A) k, nth_error (skipn n l) k = nth_error l (n + k).
Proof. induction n as [|n IH]; intros [|x l] k; cbn [skipn Nat.add nth_error]; auto. destruct k; reflexivity. Qed.
Lemma sample_at {A} stride (l : list A) x : (0 < stride)%nat -> In x (sample stride l) -> exists k, nth_error l (k * stride) = Some x.
Proof.
  intros Hs. unfold sample. generalize (length l) as f. intros f. revert l. induction f as [|f IH]; intros l H; [destruct H|].
  destruct l as [|y l]; [destruct H|]. cbn [sample_fuel] in H. destruct H as [<-|H]; [exists 0%nat; reflexivity|].
  apply IH in H as (k & Hk). exists (S k). rewrite nth_error_after in Hk. rewrite Nat.mul_succ_l, Nat.add_comm. exact Hk.
Qed.
Lemma lost_l e data o D i : accepted o data -> env_ok e o -> small o -> should_quantize data o = true ->
  colours_are (o_ct o) data (o_width o * o_height o) D -> zlen D <= o_max_colors o -> zlen D <= 256 ->
  100000 <= o_width o * o_height o -> 0 <= i < o_width o * o_height o ->
  (forall k, 0 <= k * (o_width o * o_height o / 50000) < o_width o * o_height o -> pixel (o_ct o) data (k * (o_width o * o_height o / 50000)) <> pixel (o_ct o) data i) ->
  exists f im, encode e data o = Ok f /\ decode_png f = Ok im /\ pixel (im_ct im) (im_pixels im) i <> pixel (o_ct o) data i.
Proof.
  intros Ha He Hs Hq (Hnd & HD) HD1 HD2 Hn Hi Hk. pose proof (zlen_nonneg D) as HD0.
  destruct (quantized_file e data o Ha He Hs ltac:(lia) Hq) as (f & im & pal & idx & A & B & _ & _ & Hn1 & Lp & Bp & Hne & Q & Lpal & Bpal & L & R & _ & S).
  exists f, im. split; auto. split; auto. rewrite S by auto. intros E.
  set (n := o_width o * o_height o) in *. set (px := view (o_ct o) data n) in *.
  assert (zlen (qcolors (e_top e) px) <= Z.min (o_max_colors o) 256) as Hc.
  { apply Z.le_trans with (zlen D); [|lia]. apply qcolors_count; auto; [apply He| |].
    - apply Forall_forall. intros c Hc. apply HD in Hc as (k & _ & <-). apply pixel_bytes. apply Ha.
    - intros c (k & Hk2 & ->)%view_in. apply HD. eauto. }
  unfold qpalette in Q. replace (zlen (qcolors (e_top e) px) <=? Z.min (o_max_colors o) 256) with true in Q by lia. injection Q as <-.
  destruct (idx_range _ idx _ i L R Hi) as (Hin & _). rewrite E in Hin.
  destruct (qcolors_ok (e_top e) px) as (_ & _ & _ & _ & C5); [apply He|auto|auto|lia|].
  apply in_map_iff in Hin as (x & Ex & Hx). apply C5 in Hx. rewrite Lp in Hx.
  assert (2 <= n / 50000) as Hst by (apply Z.div_le_lower_bound; lia).
  replace (Z.max (n / 50000) 1) with (n / 50000) in Hx by lia.
  apply sample_at in Hx as (k & Hk2); [|lia]. rewrite Ex in Hk2.
  assert ((k * Z.to_nat (n / 50000) < length px)%nat) as Hlt by (apply nth_error_Some; congruence).
  apply nth_error_nth with (d := (0, 0, 0, 0)) in Hk2.
  assert (0 <= Z.of_nat k * (n / 50000) < n) as Hr.
  { unfold zlen in Lp. apply Nat2Z.inj_lt in Hlt. rewrite Nat2Z.inj_mul, Z2Nat.id in Hlt by lia. rewrite Lp in Hlt. split; [apply Z.mul_nonneg_nonneg; lia|exact Hlt]. }
  apply (Hk (Z.of_nat k) Hr). rewrite <- Hk2. unfold px. rewrite <- (view_nth (o_ct o) data n) by auto. f_equal.
  rewrite Z2Nat.inj_mul, Nat2Z.id by lia. reflexivity.
Qed.

(** ** When the quantiser is used *)
Lemma count_unique_ok th : forall keys c prev, count_unique th c prev keys =
  let u := c + zlen (dedup (prev :: keys)) - 1 in if u <=? Z.max th c then Some u else None.
Proof.
  induction keys as [|k r IH]; intros c prev; cbn [count_unique].
  - change (zlen (dedup [prev])) with 1. cbv zeta. replace (c + 1 - 1) with c by ring. replace (c <=? Z.max th c) with true by lia. reflexivity.
  - rewrite dedup_cons2. rewrite (Z.eqb_sym prev k). destruct (k =? prev); [apply IH|]. rewrite zlen_cons.
    assert (1 <= zlen (dedup (k :: r))) as H1.
    { assert (In k (dedup (k :: r))) as G by (apply dedup_in; left; auto). destruct (dedup (k :: r)) as [|d ds]; [destruct G|]. rewrite zlen_cons. pose proof (zlen_nonneg ds). lia. }
    cbv zeta. destruct (Z.ltb_spec th (c + 1)).
    + replace (c + (1 + zlen (dedup (k :: r))) - 1 <=? Z.max th c) with false by lia. reflexivity.
    + rewrite IH. cbv zeta. replace (c + 1 + zlen (dedup (k :: r)) - 1) with (c + (1 + zlen (dedup (k :: r))) - 1) by ring.
      replace (Z.max th (c + 1)) with (Z.max th c) by lia. reflexivity.
Qed.
Lemma auto_counts data ct n mc D : is_rgb ct -> image_ok ct data n -> 0 < n -> 0 <= mc -> colours_are ct data n D ->
  exists u, 1 <= u <= zlen D /\ (n < 40000 -> u = zlen D) /\ should_quantize_auto data ct mc = (mc <? u) && (u <=? mc * 32).
Proof.
  intros Hct Hi Hn Hm (Hnd & HD). unfold should_quantize_auto. destruct (Hi) as (_ & Hb & L).
  assert (zlen data / bytes_per_pixel ct = n) as -> by (rewrite L; apply Z.div_mul; destruct ct; discriminate).
  replace (n =? 0) with false by lia. cbv zeta. rewrite (pixels_view ct data n Hct Hi). set (px := view ct data n).
  assert (px <> []) as Hne. { intros E. assert (length px = 0)%nat as G by (rewrite E; auto). unfold px in G. rewrite view_length in G. lia. }
  set (stride := Z.max (n / 20000) 1). set (keys := map color_key (sample (Z.to_nat stride) px)).
  assert (0 < Z.to_nat stride)%nat as Hst by (unfold stride; lia).
  assert (keys <> []) as Hk.
  { destruct (sample_fuel_ok (Z.to_nat stride) Hst (length px) px ltac:(lia)) as (_ & S2). destruct (S2 Hne) as (S3 & _).
    unfold keys, sample. destruct (sample_fuel _ _ px); [congruence|discriminate]. }
  pose proof (sort_keys_perm keys) as P. pose proof (sort_asc keys) as As. destruct (sort_keys keys) as [|k r] eqn:Ek.
  { apply Permutation_nil in P. congruence. }
  assert (Forall byte4 D) as BD by (apply Forall_forall; intros c (j & _ & <-)%HD; apply pixel_bytes; auto).
  assert (forall x, In x (dedup (k :: r)) -> In x (map color_key D)) as Hin.
  { intros x Hx. apply (dedup_in (k :: r)) in Hx. apply (Permutation_in _ P) in Hx. unfold keys in Hx. apply in_map_iff in Hx as (c & <- & Hc). apply in_map.
    apply sample_in in Hc; auto. apply view_in in Hc as (j & Hj & ->). apply HD. eauto. }
  exists (zlen (dedup (k :: r))). split; [split|split].
  - assert (In k (dedup (k :: r))) as G by (apply dedup_in; left; auto). destruct (dedup (k :: r)) as [|d ds]; [destruct G|]. rewrite zlen_cons. pose proof (zlen_nonneg ds). lia.
  - rewrite <- (zlen_map color_key D). unfold zlen. apply Nat2Z.inj_le. apply NoDup_incl_length; [apply dedup_nodup; auto|exact Hin].
  - intros Hsm. assert (stride = 1) as Es. { unfold stride. assert (n / 20000 < 2) by (apply Z.div_lt_upper_bound; lia). lia. }
    rewrite <- (zlen_map color_key D). unfold zlen. f_equal. apply Permutation_length. apply NoDup_Permutation; [apply dedup_nodup; auto|apply keys_nodup; auto|].
    intros x. split; [apply Hin|]. intros (c & <- & (j & Hj & <-)%HD)%in_map_iff. apply (dedup_in (k :: r)). apply (Permutation_in _ (Permutation_sym P)).
    unfold keys. apply in_map. rewrite Es. change (Z.to_nat 1) with 1%nat. rewrite sample_one. apply view_in. eauto.
  - rewrite count_unique_ok. cbv zeta. set (u := zlen (dedup (k :: r))). replace (1 + u - 1) with u by ring.
    destruct (Z.leb_spec u (Z.max (mc * 32) 1)); [reflexivity|]. replace (u <=? mc * 32) with false by lia. rewrite andb_false_r. reflexivity.
Qed.
Lemma kept_l e data o : accepted o data -> comp_ok e o -> small o -> should_quantize data o = false ->
  ~ loses (o_reduce o) (o_palette o) (o_ct o) data (o_width o * o_height o) ->
  exists f im, encode e data o = Ok f /\ decode_png f = Ok im /\ im_width im = o_width o /\ im_height im = o_height o /\
    forall i, 0 <= i < o_width o * o_height o -> shown (o_alpha o) (pixel (im_ct im) (im_pixels im) i) (pixel (o_ct o) data i).
Proof.
  intros Ha Hc Hs H4 Hn. destruct (accepted_rejects _ _ Ha) as (Hr & Hw & Hh & Hb).
  destruct (encode_lossless e data o [] Hw Hh Hb Hr H4 Hc Hs) as (depth & ctb & cs & px & oct & A & B & C & D & _).
  exists (png_file cs), (mkImage (o_width o) (o_height o) px oct). split; [unfold encode; rewrite A; reflexivity|].
  split; [rewrite <- (app_nil_r (png_file cs)); apply C|]. split; [reflexivity|]. split; [reflexivity|]. intros i Hi. cbn [im_ct im_pixels]. apply D; auto.
Qed.
Lemma auto_kept_l e data o D : accepted o data -> comp_ok e o -> small o -> o_qmode o = QAuto -> 0 <= o_max_colors o ->
  colours_are (o_ct o) data (o_width o * o_height o) D ->
  zlen D <= Z.min (o_max_colors o) 256 \/ (o_width o * o_height o < 40000 /\ 32 * Z.min (o_max_colors o) 256 < zlen D) ->
  ~ loses (o_reduce o) (o_palette o) (o_ct o) data (o_width o * o_height o) ->
  exists f im, encode e data o = Ok f /\ decode_png f = Ok im /\ im_width im = o_width o /\ im_height im = o_height o /\
    forall i, 0 <= i < o_width o * o_height o -> shown (o_alpha o) (pixel (im_ct im) (im_pixels im) i) (pixel (o_ct o) data i).
Proof.
  intros Ha Hc Hs Hq Hm HD Hcase Hn. apply kept_l; auto. unfold should_quantize. rewrite Hq.
  destruct (is_color (o_ct o)) eqn:Ec; [|reflexivity]. cbn [andb]. destruct Ha as (_ & Hw & Hh & Hi).
  destruct (auto_counts data (o_ct o) (o_width o * o_height o) (Z.min (o_max_colors o) 256) D) as (u & U1 & U2 & ->); auto; try nia; try lia.
  { unfold is_rgb. destruct (o_ct o); auto; discriminate. }
Qed.
Lemma auto_reduced_l e data o D : accepted o data -> env_ok e o -> small o -> o_qmode o = QAuto -> o_ct o = Rgb \/ o_ct o = Rgba -> 0 <= o_max_colors o ->
  colours_are (o_ct o) data (o_width o * o_height o) D -> o_width o * o_height o < 40000 ->
  Z.min (o_max_colors o) 256 < zlen D <= 32 * Z.min (o_max_colors o) 256 ->
  exists f im pal, encode e data o = Ok f /\ decode_png f = Ok im /\ im_width im = o_width o /\ im_height im = o_height o /\
    1 <= zlen pal <= Z.min (o_max_colors o) 256 /\
    forall i, 0 <= i < o_width o * o_height o -> In (pixel (im_ct im) (im_pixels im) i) pal.
Proof.
  intros Ha He Hs Hq Hct Hm HD Hn Hcase.
  assert (should_quantize data o = true) as Hs2.
  { unfold should_quantize. rewrite Hq. replace (is_color (o_ct o)) with true by (destruct Hct as [-> | ->]; reflexivity). cbn [andb].
    destruct Ha as (_ & Hw & Hh & Hi).
    destruct (auto_counts data (o_ct o) (o_width o * o_height o) (Z.min (o_max_colors o) 256) D) as (u & U1 & U2 & ->); auto; try nia; try lia. }
  destruct (quantized_l e data o Ha He Hs Hm Hs2) as (f & im & pal & A & B & C & E & F & G). exists f, im, pal. repeat split; auto; lia.
Qed.

(** ** Counterexamples *)
(** gray levels 100, 103 and 104 in two colours *)
Definition three : list Z := [100;100;100; 103;103;103; 104;104;104].
Definition three_opts : options := mkOpts 3 1 Rgb 6 SNone false false false false false QForce 2 false.
Lemma three_ok : accepted three_opts three /\ small three_opts.
Proof.
  split; [|split; [vm_compute; reflexivity|discriminate]]. split; [cbn; lia|]. split; [cbn; lia|]. split; [cbn; lia|].
  split; [cbn; lia|]. split; [apply bytes_of_check; reflexivity|reflexivity].
Qed.
Lemma three_l e : env_ok e three_opts ->
  exists f im, encode e three three_opts = Ok f /\ decode_png f = Ok im /\
    pixel Rgb three 1 = pixel (im_ct im) (im_pixels im) 2 /\ pixel (im_ct im) (im_pixels im) 1 <> pixel Rgb three 1.
Proof.
  intros He. destruct three_ok as (Ha & Hs). destruct (accepted_rejects _ _ Ha) as (Hr & Hw & Hh & Hb).
  destruct (encode_quantized e three three_opts [] Hw Hh Hb Hr eq_refl He Hs ltac:(cbn; lia)) as (cs & pal & idx & px & oct & A & B & C & D & E & F & G & H & I).
  exists (png_file cs), (mkImage 3 1 px oct). split; [unfold encode; rewrite D; reflexivity|]. split; [rewrite <- (app_nil_r (png_file cs)); apply H|].
  assert (quantize_image (e_float e) (e_top e) three 3 1 Rgb 2 false = Ok ([(100, 100, 100, 255); (103, 103, 103, 255)], [0; 0; 1])) as Q by (vm_compute; reflexivity).
  cbn [o_width o_height o_ct o_max_colors o_dither three_opts] in A. change (Z.min 2 256) with 2 in A. rewrite Q in A. injection A as <- <-.
  cbn [im_ct im_pixels]. cbn [o_width o_height three_opts] in I. split; rewrite I by lia; [reflexivity|]. vm_compute. discriminate.
Qed.
(** 100000 pixels, black but for the second *)
Definition dotted : list Z := [0;0;0; 1;1;1] ++ repeat 0 (Z.to_nat 299994).
Definition dotted_opts : options := mkOpts 100000 1 Rgb 6 SNone false false false false false QForce 256 false.
Lemma dotted_nth k : 0 <= k -> znth dotted k = if (3 <=? k) && (k <? 6) then 1 else 0.
Proof.
  intros Hk. unfold znth, dotted. destruct (Z.ltb_spec k 6).
  - rewrite app_nth1 by (cbn; lia). assert (k = 0 \/ k = 1 \/ k = 2 \/ k = 3 \/ k = 4 \/ k = 5) as [-> | [-> | [-> | [-> | [-> | ->]]]]] by lia; reflexivity.
  - rewrite app_nth2 by (cbn; lia). rewrite andb_false_r. apply nth_repeat.
Qed.
Lemma dotted_pixel i : 0 <= i -> pixel Rgb dotted i = if i =? 1 then (1, 1, 1, 255) else (0, 0, 0, 255).
Proof.
  intros Hi. cbn [pixel]. rewrite !dotted_nth by lia. destruct (Z.eqb_spec i 1) as [->|Hne]; [reflexivity|].
  replace ((3 <=? 3 * i) && (3 * i <? 6)) with false by lia. replace ((3 <=? 3 * i + 1) && (3 * i + 1 <? 6)) with false by lia.
  replace ((3 <=? 3 * i + 2) && (3 * i + 2 <? 6)) with false by lia. reflexivity.
Qed.
Lemma dotted_ok : accepted dotted_opts dotted /\ small dotted_opts.
Proof.
  split; [|split; [vm_compute; reflexivity|discriminate]]. split; [cbn; lia|]. split; [cbn; lia|]. split; [cbn; lia|].
  cbn [o_width o_height o_ct dotted_opts]. split; [lia|]. split.
  - unfold dotted. apply bytes_app2; [apply bytes_of_check; reflexivity|]. apply Forall_forall. intros x Hx. apply repeat_spec in Hx. subst. unfold is_byte. lia.
  - unfold dotted. rewrite zlen_app. unfold zlen at 2. rewrite repeat_length, Z2Nat.id by lia. reflexivity.
Qed.
Definition two_colours : list rgba := [(0, 0, 0, 255); (1, 1, 1, 255)].
Lemma dotted_colours : colours_are Rgb dotted 100000 two_colours.
Proof.
  split; [repeat constructor; cbn; intuition congruence|]. intros c. split.
  - intros [<-|[<-|[]]]; [exists 0|exists 1]; (split; [lia|apply dotted_pixel; lia]).
  - intros (i & Hi & <-). rewrite dotted_pixel by lia. destruct (i =? 1); [right; left|left]; reflexivity.
Qed.
Lemma dotted_l e : env_ok e dotted_opts ->
  exists f im, encode e dotted dotted_opts = Ok f /\ decode_png f = Ok im /\ pixel (im_ct im) (im_pixels im) 1 <> pixel Rgb dotted 1.
Proof.
  intros He. destruct dotted_ok as (Ha & Hs).
  assert (zlen two_colours <= 256) as H2 by (change (zlen two_colours) with 2; lia).
  apply (lost_l e dotted dotted_opts two_colours 1 Ha He Hs eq_refl dotted_colours H2 H2); cbn [o_width o_height o_ct dotted_opts]; [lia|lia|].
  change (100000 * 1 / 50000) with 2. intros k Hk. rewrite !dotted_pixel by lia.
  destruct (Z.eqb_spec (k * 2) 1); [lia|]. discriminate.
Qed.

(** ** Sampled colours are kept *)
Lemma sample_has {A} stride (l : list A) x k : (0 < stride)%nat -> nth_error l (k * stride) = Some x -> In x (sample stride l).
Proof.
  intros Hs. unfold sample. assert (forall f (l : list A) k, (length l <= f)%nat -> nth_error l (k * stride) = Some x -> In x (sample_fuel f stride l)) as G; [|apply G; lia].
  clear l k. induction f as [|f IH]; intros l k Hf H.
  - destruct l; [|cbn in Hf; lia]. destruct (k * stride)%nat; discriminate.
  - destruct l as [|y l]; [destruct (k * stride)%nat; discriminate|]. cbn [sample_fuel]. destruct k as [|k].
    + injection H as <-. left; auto.
    + right. apply (IH _ k).
      * rewrite skipn_length. cbn [length] in *. lia.
      * rewrite nth_error_after. rewrite Nat.mul_succ_l, Nat.add_comm in H. exact H.
Qed.
Lemma qcolors_has top px c D : Forall byte4 D -> NoDup D -> (forall c, In c px -> In c D) -> zlen D <= 256 -> Forall byte4 px -> zlen px < 2 ^ 31 ->
  In c (sample (Z.to_nat (Z.max (zlen px / 50000) 1)) px) -> In c (map fst (qcolors top px)).
Proof.
  intros HD Hn Hin HL Hb Hl Hc. assert (px <> []) as Hne by (intros ->; exact Hc).
  assert (0 < zlen px) as Hpos by (destruct px; [congruence|rewrite zlen_cons; pose proof (zlen_nonneg px); lia]).
  pose proof (qcolors_count (fun l => l) px D (fun l => Permutation_refl l) HD Hn Hin Hne) as Hcount.
  destruct (stride_range (zlen px) ltac:(lia)) as (Hs1 & Hs2). unfold qcolors in *. set (stride := Z.max (zlen px / 50000) 1) in *.
  rewrite wrap_id in * by lia. set (sp := sample (Z.to_nat stride) px) in *.
  assert (map color_key sp <> []) as Hk by (destruct sp; [destruct Hc|discriminate]).
  destruct (histogram_ok stride (map color_key sp) ltac:(lia) Hk) as (_ & _ & _ & H4). set (colors := histogram stride (map color_key sp)) in *.
  assert (zlen colors <= 8192) as Hsm.
  { destruct (Z.ltb_spec 8192 (zlen colors)); [|lia]. exfalso. unfold zlen in Hcount at 1. rewrite firstn_length in Hcount. unfold zlen in *. lia. }
  replace (8192 <? zlen colors) with false by lia. apply H4. exists (color_key c). split; [apply in_map; auto|]. symmetry. apply key_color_inv.
  rewrite Forall_forall in Hb. apply Hb. apply sample_in in Hc; auto. lia.
Qed.
Lemma sampled_l e data o D i k : accepted o data -> env_ok e o -> small o -> should_quantize data o = true ->
  colours_are (o_ct o) data (o_width o * o_height o) D -> zlen D <= o_max_colors o -> zlen D <= 256 ->
  0 <= i < o_width o * o_height o ->
  let stride := Z.max (o_width o * o_height o / 50000) 1 in
  0 <= k * stride < o_width o * o_height o -> pixel (o_ct o) data (k * stride) = pixel (o_ct o) data i ->
  exists f im, encode e data o = Ok f /\ decode_png f = Ok im /\ pixel (im_ct im) (im_pixels im) i = pixel (o_ct o) data i.
Proof.
  intros Ha He Hs Hq (Hnd & HD) HD1 HD2 Hi stride Hk Ek. pose proof (zlen_nonneg D) as HD0.
  destruct (quantized_file e data o Ha He Hs ltac:(lia) Hq) as (f & im & pal & idx & A & B & _ & _ & Hn1 & Lp & Bp & Hne & Q & Lpal & Bpal & L & R & Hidx & S).
  exists f, im. split; auto. split; auto.
  set (n := o_width o * o_height o) in *. set (px := view (o_ct o) data n) in *.
  assert (Forall byte4 D) as BD by (apply Forall_forall; intros c (j & _ & <-)%HD; apply pixel_bytes; apply Ha).
  assert (forall c, In c px -> In c D) as Hin by (intros c (j & Hj & ->)%view_in; apply HD; eauto).
  assert (zlen (qcolors (e_top e) px) <= Z.min (o_max_colors o) 256) as Hc.
  { apply Z.le_trans with (zlen D); [|lia]. apply qcolors_count; auto. apply He. }
  rewrite S by auto. rewrite (Hidx (or_introl Hc)). unfold px at 2. rewrite (picked_at _ _ _ _ _ (colour_at pal)) by auto. fold px.
  set (c := pixel (o_ct o) data i) in *. assert (byte4 c) as Bc by (apply pixel_bytes; apply Ha).
  unfold qpick, qpalette in *. replace (zlen (qcolors (e_top e) px) <=? Z.min (o_max_colors o) 256) with true in * by lia. injection Q as Q.
  assert (In c pal) as Hcp.
  { rewrite <- Q. apply (qcolors_has _ _ _ D); auto; [lia|]. rewrite Lp. fold stride. apply (sample_has _ _ _ (Z.to_nat k)); [unfold stride; lia|].
    assert (0 < stride) as Hst by (unfold stride; lia). assert (0 <= k) by nia.
    rewrite <- Z2Nat.inj_mul by lia. rewrite nth_error_nth' with (d := (0, 0, 0, 0)) by (unfold px; rewrite view_length; lia).
    f_equal. unfold px. rewrite view_nth by auto. exact Ek. }
  destruct (pal_find (color_key c) (enum 0 pal)) as [j|] eqn:Ef.
  - apply pal_find_ok in Ef as (j' & c' & Hin' & -> & Ek2). apply enum_nth in Hin' as (Hj & Hnth). rewrite Z.sub_0_r in Hnth.
    rewrite wrap_id by (change (2 ^ 8) with 256; lia). unfold colour_at. rewrite (nth_error_nth _ _ _ Hnth).
    apply key_inj; auto. rewrite Forall_forall in Bpal. apply Bpal. apply nth_error_In in Hnth. auto.
  - exfalso. apply In_nth_error in Hcp as (m & Hm). apply (enum_in _ 0) in Hm. apply (pal_find_none _ _ Ef _ _ Hm). reflexivity.
Qed.

(** the same picture with the first pixel in place of the second *)
Definition dotted0 : list Z := [1;1;1; 0;0;0] ++ repeat 0 (Z.to_nat 299994).
Lemma dotted0_nth k : 0 <= k -> znth dotted0 k = if k <? 3 then 1 else 0.
Proof.
  intros Hk. unfold znth, dotted0. destruct (Z.ltb_spec k 6).
  - rewrite app_nth1 by (cbn; lia). assert (k = 0 \/ k = 1 \/ k = 2 \/ k = 3 \/ k = 4 \/ k = 5) as [-> | [-> | [-> | [-> | [-> | ->]]]]] by lia; reflexivity.
  - rewrite app_nth2 by (cbn; lia). replace (k <? 3) with false by lia. apply nth_repeat.
Qed.
Lemma dotted0_pixel i : 0 <= i -> pixel Rgb dotted0 i = if i =? 0 then (1, 1, 1, 255) else (0, 0, 0, 255).
Proof.
  intros Hi. cbn [pixel]. rewrite !dotted0_nth by lia. destruct (Z.eqb_spec i 0) as [->|Hne]; [reflexivity|].
  replace (3 * i <? 3) with false by lia. replace (3 * i + 1 <? 3) with false by lia. replace (3 * i + 2 <? 3) with false by lia. reflexivity.
Qed.
Lemma dotted0_ok : accepted dotted_opts dotted0.
Proof.
  split; [cbn; lia|]. split; [cbn; lia|]. split; [cbn; lia|].
  cbn [o_width o_height o_ct dotted_opts]. split; [lia|]. split.
  - unfold dotted0. apply bytes_app2; [apply bytes_of_check; reflexivity|]. apply Forall_forall. intros x Hx. apply repeat_spec in Hx. subst. unfold is_byte. lia.
  - unfold dotted0. rewrite zlen_app. unfold zlen at 2. rewrite repeat_length, Z2Nat.id by lia. reflexivity.
Qed.
Lemma dotted0_colours : colours_are Rgb dotted0 100000 two_colours.
Proof.
  split; [repeat constructor; cbn; intuition congruence|]. intros c. split.
  - intros [<-|[<-|[]]]; [exists 1|exists 0]; (split; [lia|apply dotted0_pixel; lia]).
  - intros (i & Hi & <-). rewrite dotted0_pixel by lia. destruct (i =? 0); [right; left|left]; reflexivity.
Qed.
Lemma dotted_swap : Permutation (all_pixels Rgb dotted 100000) (all_pixels Rgb dotted0 100000).
Proof.
  unfold all_pixels. replace (Z.to_nat 100000) with (S (S (Z.to_nat 99998))) by lia. cbn [seq map].
  rewrite !dotted_pixel, !dotted0_pixel by lia. cbn [Z.of_nat Z.eqb Pos.of_succ_nat Pos.eqb].
  rewrite (map_ext_in (fun k => pixel Rgb dotted (Z.of_nat k)) (fun k => pixel Rgb dotted0 (Z.of_nat k))); [apply perm_swap|].
  intros k Hk. apply in_seq in Hk. rewrite dotted_pixel, dotted0_pixel by lia. destruct (Z.eqb_spec (Z.of_nat k) 1), (Z.eqb_spec (Z.of_nat k) 0); try lia. reflexivity.
Qed.
Lemma swapped_l e : env_ok e dotted_opts ->
  exists f im f' im', encode e dotted dotted_opts = Ok f /\ decode_png f = Ok im /\ encode e dotted0 dotted_opts = Ok f' /\ decode_png f' = Ok im' /\
    pixel (im_ct im) (im_pixels im) 1 <> pixel (im_ct im') (im_pixels im') 0.
Proof.
  intros He. destruct (dotted_l e He) as (f & im & A & B & C).
  assert (zlen two_colours <= 256) as H2 by (change (zlen two_colours) with 2; lia).
  destruct (sampled_l e dotted0 dotted_opts two_colours 0 0 dotted0_ok He (proj2 dotted_ok) eq_refl dotted0_colours H2 H2) as (f' & im' & A' & B' & C').
  { cbn [o_width o_height dotted_opts]. lia. } { cbn [o_width o_height dotted_opts]. lia. } { reflexivity. }
  exists f, im, f', im'. split; auto. split; auto. split; auto. split; auto. rewrite C'. cbn [o_ct dotted_opts].
  rewrite dotted0_pixel by lia. rewrite dotted_pixel in C by lia. exact C.
Qed.
