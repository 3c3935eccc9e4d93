(** Proofs about the PNG decoder: it never panics, what it returns has the
    right size, and how it reads a file made of well-formed chunks. *)
From Verif Require Import Base ChecksumModel ChecksumSpec ChecksumProofs InflateModel DeflateSpec InflateProofs
  Lz77Model PngFilterModel PngPaletteModel PngDecModel PngSpec PngFilterProofs PngPackProofs.

Lemma zs_eqb_eq a b : zs_eqb a b = true <-> a = b.
Proof.
  revert b. induction a as [|x a IH]; intros [|y b]; cbn [zs_eqb]; try (split; congruence).
  rewrite andb_true_iff, IH, Z.eqb_eq. split; [intros (-> & ->); auto|intros E; injection E; auto].
Qed.
Lemma zs_eqb_refl a : zs_eqb a a = true.
Proof. apply zs_eqb_eq; auto. Qed.

Lemma znth_byte l i : bytes l -> is_byte (znth l i).
Proof. intros H. unfold znth. apply (Forall_nth_d is_byte); auto. unfold is_byte; lia. Qed.

Lemma get_be32_ok l p : 0 <= p -> p + 4 <= zlen l -> bytes l ->
  get_be32 l p = Ok (InflateModel.be32 (znth l p) (znth l (p + 1)) (znth l (p + 2)) (znth l (p + 3))) /\
  0 <= InflateModel.be32 (znth l p) (znth l (p + 1)) (znth l (p + 2)) (znth l (p + 3)) < 2 ^ 32.
Proof.
  intros Hp Hl Hb. unfold get_be32. rewrite !get_znth by lia. split; [reflexivity|].
  pose proof (znth_byte l p Hb). pose proof (znth_byte l (p + 1) Hb).
  pose proof (znth_byte l (p + 2) Hb). pose proof (znth_byte l (p + 3) Hb).
  unfold InflateModel.be32, is_byte in *. change (2 ^ 32) with 4294967296. change (2 ^ 24) with 16777216.
  change (2 ^ 16) with 65536. change (2 ^ 8) with 256. lia.
Qed.

(** ** Totality *)
Definition wf_ihdr (h : ihdr) : Prop :=
  0 <= ih_width h < 2 ^ 32 /\ 0 <= ih_height h < 2 ^ 32 /\ is_byte (ih_depth h).
Record wf_c (st : cstate) : Prop := {
  wf_h : forall h, c_ihdr st = Some h -> wf_ihdr h;
  wf_i : bytes (c_idat st);
  wf_p : forall p, c_pal st = Some p -> Forall byte3 p;
  wf_t : forall t, c_trns st = Some t -> bytes t }.
Lemma wf_init : wf_c c_init.
Proof. constructor; cbn; try discriminate. constructor. Qed.

Definition ok_or_err {A} (P : A -> Prop) (r : res A) : Prop := (exists a, r = Ok a /\ P a) \/ exists e, r = Err e.
Lemma oe_ok {A} (P : A -> Prop) a : P a -> ok_or_err P (Ok a).
Proof. left; eauto. Qed.
Lemma oe_err {A} (P : A -> Prop) e : ok_or_err P (Err e).
Proof. right; eauto. Qed.
Lemma oe_bind {A B} (P : A -> Prop) (Q : B -> Prop) r (f : A -> res B) :
  ok_or_err P r -> (forall a, P a -> ok_or_err Q (f a)) -> ok_or_err Q (rbind r f).
Proof. intros [(a & -> & Ha)|(e & ->)] H; cbn [rbind]; auto. apply oe_err. Qed.

Lemma parse_ihdr_total d : bytes d -> ok_or_err wf_ihdr (parse_ihdr d).
Proof.
  intros Hb. unfold parse_ihdr. destruct (Z.eqb_spec (zlen d) 13) as [L|]; cbn [negb]; [|apply oe_err].
  destruct (get_be32_ok d 0) as (-> & R0); try lia; auto. cbn [rbind].
  destruct (get_be32_ok d 4) as (-> & R4); try lia; auto. cbn [rbind].
  rewrite !get_znth by lia. cbn [rbind].
  unfold png_ct_of. repeat (destruct (_ =? _); [apply oe_ok; repeat split; cbn; try apply R0; try apply R4; apply znth_byte; auto|]).
  apply oe_err.
Qed.
Lemma parse_plte_total d : bytes d -> ok_or_err (Forall byte3) (parse_plte d).
Proof.
  intros Hb. unfold parse_plte. destruct (negb _); [apply oe_err|].
  rewrite (map_res_ok _ (fun i => (znth d (i * 3), znth d (i * 3 + 1), znth d (i * 3 + 2)))).
  2:{ intros i Hi%in_idxs. assert (i * 3 + 2 < zlen d) by (unfold zlen; lia).
      rewrite !get_znth by lia. reflexivity. }
  apply oe_ok, Forall_forall. intros c (i & <- & _)%in_map_iff. cbn. auto using znth_byte.
Qed.
Lemma chunk_effect_total ty d st : bytes d -> wf_c st -> ok_or_err wf_c (chunk_effect ty d st).
Proof.
  intros Hb [W1 W2 W3 W4]. unfold chunk_effect.
  destruct (zs_eqb ty T_IHDR).
  { eapply oe_bind; [apply parse_ihdr_total; auto|]. intros h Hh. apply oe_ok.
    constructor; cbn; auto. intros ? [= <-]; auto. }
  destruct (zs_eqb ty T_PLTE).
  { eapply oe_bind; [apply parse_plte_total; auto|]. intros p Hp. apply oe_ok.
    constructor; cbn; auto. intros ? [= <-]; auto. }
  destruct (zs_eqb ty T_tRNS).
  { apply oe_ok. constructor; cbn; auto. intros ? [= <-]; auto. }
  destruct (zs_eqb ty T_IDAT).
  { apply oe_ok. constructor; cbn; auto. apply bytes_app; auto. }
  destruct (zs_eqb ty T_IEND).
  { apply oe_ok. constructor; cbn; auto. }
  apply oe_ok. constructor; auto.
Qed.

Lemma parse_chunks_total f : forall rest st, (length rest <= f)%nat -> bytes rest -> wf_c st ->
  ok_or_err wf_c (parse_chunks f rest st).
Proof.
  induction f as [|f IH]; intros rest st Hf Hb Hw; cbn [parse_chunks].
  - replace (12 <=? zlen rest) with false by (unfold zlen; lia). apply oe_ok; auto.
  - destruct (Z.leb_spec 12 (zlen rest)) as [L|]; cbn [negb]; [|apply oe_ok; auto].
    destruct (get_be32_ok rest 0) as (-> & R0); try lia; auto. cbn [rbind].
    set (len := InflateModel.be32 _ _ _ _) in *.
    rewrite slice_r_ok by lia. cbn [rbind].
    destruct (Z.ltb_spec (zlen rest) (8 + len + 4)); [apply oe_err|].
    rewrite slice_r_ok by lia. cbn [rbind].
    destruct (get_be32_ok rest (8 + len)) as (-> & R1); try lia; auto. cbn [rbind].
    destruct (negb _); [apply oe_err|].
    eapply oe_bind; [apply chunk_effect_total; auto; apply slice_bytes; auto|].
    intros st' Hw'. destruct (c_end st'); [apply oe_ok; auto|].
    apply IH; auto.
    + rewrite skipn_length. unfold zlen in *. lia.
    + apply Forall_skipn; auto.
Qed.

(** *** Sizes *)
Lemma evens_length l m : length l = (2 * m)%nat -> length (evens l) = m.
Proof.
  revert l. induction m as [|m IH]; intros l Hl.
  - destruct l; [reflexivity|cbn in Hl; lia].
  - destruct l as [|a [|b l]]; cbn in Hl; try lia. cbn [evens length]. rewrite IH by lia. auto.
Qed.
Lemma evens_bytes l : bytes l -> bytes (evens l).
Proof.
  remember (length l) as n. revert l Heqn. induction n as [n IH] using lt_wf_ind. intros l Hn H.
  destruct l as [|a [|b l]]; cbn [evens]; try constructor.
  - apply Forall_cons_iff in H as (H & _); auto.
  - apply Forall_cons_iff in H as (_ & H). apply Forall_cons_iff in H as (_ & H).
    eapply IH; [| reflexivity | auto]. subst n; cbn; lia.
Qed.
Lemma high_bytes_size k n l : (0 < k)%nat -> length l = (n * (2 * k))%nat -> bytes l ->
  length (high_bytes (2 * k) l) = (n * k)%nat /\ bytes (high_bytes (2 * k) l).
Proof.
  intros Hk Hl Hb. unfold high_bytes. rewrite (chunks_exact_map l (2 * k) n) by lia.
  rewrite flat_map_concat_map', map_map. split.
  - assert (Forall (fun r => zlen r = Z.of_nat k) (map (fun y => evens (slice l (y * Z.of_nat (2 * k))
      (y * Z.of_nat (2 * k) + Z.of_nat (2 * k)))) (idxs n))) as HF.
    { apply Forall_forall. intros r (y & <- & Hy%in_idxs)%in_map_iff. unfold zlen. f_equal.
      apply evens_length. apply Nat2Z.inj.
      change (zlen (slice l (y * Z.of_nat (2 * k)) (y * Z.of_nat (2 * k) + Z.of_nat (2 * k))) = Z.of_nat (2 * k)).
      rewrite slice_len; [lia|nia|unfold zlen; nia|]. unfold zlen. nia. }
    apply concat_const_len in HF. unfold zlen in HF. rewrite map_length, idxs_length in HF. lia.
  - apply Forall_concat, Forall_forall. intros r (y & <- & Hy)%in_map_iff.
    apply evens_bytes, slice_bytes; auto.
Qed.

Lemma sample_at_range d row i : 0 <= d -> 0 <= sample_at d row i < 2 ^ d.
Proof. intros. unfold sample_at. apply Z.mod_pos_bound. apply Z.pow_pos_nonneg; lia. Qed.

Lemma scale_byte d s : depths d -> 0 <= s < 2 ^ d -> is_byte (scale_to_8bit s d).
Proof.
  intros [-> | [-> | [-> | ->]]] H; unfold scale_to_8bit; cbn [Z.eqb Pos.eqb].
  - destruct (s =? 0); unfold is_byte; lia.
  - change (2 ^ 2) with 4 in H.
    assert (s = 0 \/ s = 1 \/ s = 2 \/ s = 3) as [-> | [-> | [-> | ->]]] by lia; vm_compute; split; congruence.
  - assert (E : forallb (fun n => let v := Z.lor (Z.of_nat n) (wrap 8 (Z.shiftl (Z.of_nat n) 4)) in
       (0 <=? v) && (v <? 256)) (seq 0 16) = true) by (vm_compute; reflexivity).
    rewrite forallb_forall in E. specialize (E (Z.to_nat s)).
    rewrite in_seq, Z2Nat.id in E by lia. unfold is_byte. change (2 ^ 4) with 16 in H. cbn beta zeta in E. lia.
  - exact H.
Qed.

Lemma unpack_rows_range data w h d out :
  depths d -> 0 <= w -> 0 <= h -> bytes data -> zlen data = ceil8 (w * d) * h ->
  unpack_rows data w h d = Ok out -> zlen out = w * h /\ Forall (fun v => 0 <= v < 2 ^ d) out.
Proof.
  intros Hd Hw Hh Hb Hl E. destruct (unpack_rows_spec data w h d Hd Hw Hh Hb Hl) as (o & E' & L & S).
  rewrite E in E'. injection E' as <-. split; auto. apply Forall_forall. intros v Hv.
  apply In_nth with (d := 0) in Hv as (n & Hn & <-).
  assert (0 < w) as Hw0.
  { destruct (Z.eq_dec w 0) as [->|]; [|lia]. unfold zlen in L. lia. }
  specialize (S (Z.of_nat n / w) (Z.of_nat n mod w)).
  assert (0 <= Z.of_nat n / w) by (apply Z.div_pos; lia).
  assert (Z.of_nat n / w < h) by (apply Z.div_lt_upper_bound; [lia|rewrite <- L; unfold zlen; lia]).
  pose proof (Z.mod_pos_bound (Z.of_nat n) w Hw0).
  pose proof (Z.div_mod (Z.of_nat n) w ltac:(lia)).
  replace (Z.of_nat n / w * w + Z.of_nat n mod w) with (Z.of_nat n) in S by lia.
  unfold znth in S at 1. rewrite Nat2Z.id in S. rewrite S by lia. apply sample_at_range.
  unfold depths in Hd; lia.
Qed.

Lemma zlen_map {A B} (f : A -> B) l : zlen (map f l) = zlen l.
Proof. unfold zlen. rewrite map_length. reflexivity. Qed.

Lemma znth_nth {A} (l : list A) i d : get l i = if (0 <=? i) && (i <? zlen l) then Ok (nth (Z.to_nat i) l d) else Panic.
Proof.
  destruct ((0 <=? i) && (i <? zlen l)) eqn:E.
  - apply get_ok. lia.
  - unfold get. destruct (Z.ltb_spec i 0); auto.
    destruct (nth_error l (Z.to_nat i)) eqn:En; auto. exfalso.
    assert (Z.to_nat i < length l)%nat by (apply nth_error_Some; congruence). unfold zlen in E. lia.
Qed.

(** the colour of index [i], as the decoder resolves it *)
Definition pal_rgb (pal : list (Z * Z * Z)) (i : Z) : Z * Z * Z := nth (Z.to_nat i) pal (0, 0, 0).
Definition pal_alpha (pal : list (Z * Z * Z)) (tab : list Z) (i : Z) : Z :=
  if i <? zlen pal then nth (Z.to_nat i) tab 255 else 255.
Lemma pal_rgb_byte pal i : Forall byte3 pal -> byte3 (pal_rgb pal i).
Proof. intros H. unfold pal_rgb. apply (Forall_nth_d byte3); auto. cbn. unfold is_byte. lia. Qed.
Lemma expand_palette_ok pal trns idx :
  Forall (fun v => 0 <= v) idx ->
  expand_palette pal trns idx = Ok (concat (map (fun i => let '(r, g, b) := pal_rgb pal i in
    match trns with
    | Some tab => if has_alpha_in_trns trns then [r; g; b; pal_alpha pal tab i] else [r; g; b]
    | None => [r; g; b]
    end) idx)).
Proof.
  intros H. assert (forall i, i <? zlen pal = false -> 0 <= i -> pal_rgb pal i = (0, 0, 0)) as Hout.
  { intros i Hi H0. unfold pal_rgb. apply nth_overflow. unfold zlen in Hi. lia. }
  rewrite Forall_forall in H.
  unfold expand_palette. destruct trns as [tab|].
  - destruct (has_alpha_in_trns (Some tab)).
    + rewrite (map_res_ok _ (fun i => let '(r, g, b) := pal_rgb pal i in [r; g; b; pal_alpha pal tab i])); [reflexivity|].
      intros i Hi%H. unfold pal_alpha. destruct (i <? zlen pal) eqn:E.
      * rewrite (get_ok pal i (0, 0, 0)) by lia. cbn [rbind]. unfold pal_rgb.
        destruct (nth (Z.to_nat i) pal (0, 0, 0)) as [[r g] b].
        destruct (Z.ltb_spec i (zlen tab)).
        -- rewrite (get_ok tab i 255) by lia. reflexivity.
        -- rewrite nth_overflow by (unfold zlen in *; lia). reflexivity.
      * rewrite Hout by auto. reflexivity.
    + rewrite (map_res_ok _ (fun i => let '(r, g, b) := pal_rgb pal i in [r; g; b])); [reflexivity|].
      intros i Hi%H. destruct (i <? zlen pal) eqn:E.
      * rewrite (get_ok pal i (0, 0, 0)) by lia. cbn [rbind]. unfold pal_rgb.
        destruct (nth (Z.to_nat i) pal (0, 0, 0)) as [[r g] b]. reflexivity.
      * rewrite Hout by auto. reflexivity.
  - cbn [has_alpha_in_trns].
    rewrite (map_res_ok _ (fun i => let '(r, g, b) := pal_rgb pal i in [r; g; b])); [reflexivity|].
    intros i Hi%H. destruct (i <? zlen pal) eqn:E.
    + rewrite (get_ok pal i (0, 0, 0)) by lia. cbn [rbind]. unfold pal_rgb.
      destruct (nth (Z.to_nat i) pal (0, 0, 0)) as [[r g] b]. reflexivity.
    + rewrite Hout by auto. reflexivity.
Qed.
Lemma expand_palette_size pal trns idx :
  Forall byte3 pal -> (forall t, trns = Some t -> bytes t) -> Forall (fun v => 0 <= v) idx ->
  exists px, expand_palette pal trns idx = Ok px /\ bytes px /\
    zlen px = zlen idx * (if has_alpha_in_trns trns then 4 else 3).
Proof.
  intros Hp Ht Hi. rewrite expand_palette_ok by auto. eexists; split; [reflexivity|].
  set (g := fun i => _).
  assert (forall i, bytes (g i) /\ zlen (g i) = if has_alpha_in_trns trns then 4 else 3) as Hg.
  { intros i. unfold g. pose proof (pal_rgb_byte pal i Hp) as B. destruct (pal_rgb pal i) as [[r gg] b].
    destruct B as (B1 & B2 & B3).
    destruct trns as [tab|];
      [|split; [constructor; [auto|constructor; [auto|constructor; [auto|constructor]]]|reflexivity]].
    destruct (has_alpha_in_trns (Some tab)); (split; [|reflexivity]);
      (constructor; [auto|constructor; [auto|constructor; [auto|]]]); [|constructor].
    constructor; [|constructor]. unfold pal_alpha. destruct (i <? zlen pal); [|unfold is_byte; lia].
    apply (Forall_nth_d is_byte); [apply Ht; auto|unfold is_byte; lia]. }
  split.
  - apply Forall_concat, Forall_forall. intros r (i & <- & _)%in_map_iff. apply Hg.
  - rewrite (concat_const_len _ (if has_alpha_in_trns trns then 4 else 3)).
    + rewrite zlen_map. reflexivity.
    + apply Forall_forall. intros r (i & <- & _)%in_map_iff. apply Hg.
Qed.

Definition sane (w h : Z) (ct : color_type) (px : list Z) : Prop :=
  bytes px /\ zlen px = w * h * bytes_per_pixel ct.

Lemma convert_total h raw pal trns :
  0 < ih_width h -> 0 < ih_height h -> valid_depth (ih_ct h) (ih_depth h) = true ->
  zlen raw = ih_height h * snd (layout h) -> bytes raw ->
  (forall p, pal = Some p -> Forall byte3 p) -> (forall t, trns = Some t -> bytes t) ->
  ok_or_err (sane (ih_width h) (ih_height h) (output_ct h trns)) (convert_to_pixels h raw pal trns).
Proof.
  destruct h as [w ht d ct cm f il]. cbn [ih_width ih_height ih_depth ih_ct].
  intros Hw Hh Hv Hl Hb Hp Ht. unfold convert_to_pixels, output_ct, layout in *.
  cbn [ih_width ih_height ih_depth ih_ct] in *.
  assert (forall k : nat, (0 < k)%nat -> zlen raw = w * ht * Z.of_nat (2 * k) ->
    zlen (high_bytes (2 * k) raw) = w * ht * Z.of_nat k /\ bytes (high_bytes (2 * k) raw)) as HB.
  { intros k Hk Hkl. destruct (high_bytes_size k (Z.to_nat (w * ht)) raw Hk) as (L & B); auto.
    - unfold zlen in Hkl. nia.
    - split; auto. unfold zlen. rewrite L. nia. }
  destruct ct; cbn [valid_depth snd] in *.
  - destruct (Z.eqb_spec d 8) as [->|].
    { apply oe_ok. split; auto. rewrite Hl. unfold ceil8. cbn [bytes_per_pixel].
      replace ((w * 8 + 7) / 8) with w by lia. ring. }
    destruct (Z.eqb_spec d 16) as [->|].
    { apply oe_ok. destruct (HB 1%nat) as (L & B); try lia.
      - rewrite Hl. unfold ceil8. replace ((w * 16 + 7) / 8) with (w * 2) by lia. change (Z.of_nat (2 * 1)) with 2. ring.
      - split; auto. }
    unfold unpack_gray. assert (depths d) as Hd by (unfold depths; lia).
    destruct (unpack_rows_spec raw w ht d) as (o & E & L & _); auto; try lia.
    rewrite E. cbn [rbind]. apply oe_ok. split.
    + apply unpack_rows_range in E as (_ & F); auto; try lia.
      apply Forall_forall. intros x (s & <- & Hs)%in_map_iff. rewrite Forall_forall in F. apply scale_byte; auto.
    + rewrite zlen_map, L. cbn. lia.
  - destruct (Z.eqb_spec d 8) as [->|].
    { apply oe_ok. split; auto. rewrite Hl. cbn [bytes_per_pixel]. change (3 * 8 / 8) with 3. ring. }
    apply oe_ok. destruct (HB 3%nat) as (L & B); try lia.
    + rewrite Hl. replace d with 16 by lia. change (3 * 16 / 8) with 6. change (Z.of_nat (2 * 3)) with 6. ring.
    + split; auto.
  - destruct pal as [p|]; [|apply oe_err]. unfold unpack_indices.
    assert (depths d) as Hd by (unfold depths; lia).
    destruct (unpack_rows_spec raw w ht d) as (o & E & L & _); auto; try lia.
    rewrite E. cbn [rbind]. pose proof E as E2. apply unpack_rows_range in E2 as (_ & F); auto; try lia.
    destruct (expand_palette_size p trns o) as (px & -> & B & S); auto.
    { eapply Forall_impl; [|exact F]. cbn. intros; lia. }
    apply oe_ok. split; auto. rewrite S, L. destruct (has_alpha_in_trns trns); reflexivity.
  - destruct (Z.eqb_spec d 8) as [->|].
    { apply oe_ok. split; auto. rewrite Hl. cbn [bytes_per_pixel]. change (2 * 8 / 8) with 2. ring. }
    apply oe_ok. destruct (HB 2%nat) as (L & B); try lia.
    + rewrite Hl. replace d with 16 by lia. change (2 * 16 / 8) with 4. change (Z.of_nat (2 * 2)) with 4. ring.
    + split; auto.
  - destruct (Z.eqb_spec d 8) as [->|].
    { apply oe_ok. split; auto. rewrite Hl. cbn [bytes_per_pixel]. change (4 * 8 / 8) with 4. ring. }
    apply oe_ok. destruct (HB 4%nat) as (L & B); try lia.
    + rewrite Hl. replace d with 16 by lia. change (4 * 16 / 8) with 8. change (Z.of_nat (2 * 4)) with 8. ring.
    + split; auto.
Qed.

Lemma layout_pos h : 0 < ih_width h -> valid_depth (ih_ct h) (ih_depth h) = true ->
  0 < fst (layout h) /\ 0 <= snd (layout h).
Proof.
  destruct h as [w ht d ct cm f il]. unfold layout. cbn [ih_width ih_height ih_depth ih_ct].
  intros Hw Hv. destruct ct; cbn [valid_depth fst snd] in *; unfold ceil8.
  - split; [lia|]. apply Z.div_pos; [|lia]. assert (0 < d) by lia. nia.
  - assert (d = 8 \/ d = 16) as [-> | ->] by lia; [change (3 * 8 / 8) with 3|change (3 * 16 / 8) with 6]; lia.
  - split; [lia|]. apply Z.div_pos; [|lia]. assert (0 < d) by lia. nia.
  - assert (d = 8 \/ d = 16) as [-> | ->] by lia; [change (2 * 8 / 8) with 2|change (2 * 16 / 8) with 4]; lia.
  - assert (d = 8 \/ d = 16) as [-> | ->] by lia; [change (4 * 8 / 8) with 4|change (4 * 16 / 8) with 8]; lia.
Qed.

Lemma reconstruct_total h data pal trns :
  0 < ih_width h -> 0 < ih_height h -> valid_depth (ih_ct h) (ih_depth h) = true -> bytes data ->
  (forall p, pal = Some p -> Forall byte3 p) -> (forall t, trns = Some t -> bytes t) ->
  ok_or_err (sane (ih_width h) (ih_height h) (output_ct h trns)) (reconstruct_image h data pal trns).
Proof.
  intros Hw Hh Hv Hb Hp Ht. unfold reconstruct_image.
  pose proof (layout_pos h Hw Hv) as (L1 & L2). pose proof (convert_total h) as C.
  destruct (layout h) as [bpp sb] eqn:El. cbn [fst snd] in *.
  destruct (Z.ltb_spec (zlen data) (ih_height h * (1 + sb))); [apply oe_err|].
  destruct (unfilter_rows_total (Z.to_nat (ih_height h)) 0 data (repeat 0 (Z.to_nat sb)) sb bpp)
    as [(r & -> & Lr & Br)| ->]; try lia; auto.
  - rewrite zlen_repeat. lia.
  - cbn [rbind]. apply C; auto. rewrite Lr. lia.
  - apply oe_err.
Qed.

Lemma inflate_zlib_bytes data expected out : bytes data -> inflate_zlib data expected = Ok out -> bytes out.
Proof.
  intros Hb E. unfold inflate_zlib in E. destruct (zlen data <? 6); [discriminate|].
  apply rbind_ok in E as (cmf & _ & E). apply rbind_ok in E as (flg & _ & E).
  destruct (negb _); [discriminate|]. destruct (negb _); [discriminate|]. destruct (negb _); [discriminate|].
  apply rbind_ok in E as (o & Ei & E).
  apply rbind_ok in E as (a & _ & E). apply rbind_ok in E as (b & _ & E).
  apply rbind_ok in E as (c & _ & E). apply rbind_ok in E as (d & _ & E).
  destruct (negb _); [discriminate|].
  assert (o = out) as -> by (destruct expected as [x|]; [destruct (zlen o =? x)|]; congruence).
  destruct (inflate_total_bytes (slice data 2 (zlen data - 4))) as [(o' & Ho & E')|E'].
  - apply slice_bytes; auto.
  - congruence.
  - congruence.
Qed.

Definition good_image (im : image) : Prop :=
  1 <= im_width im <= 2 ^ 24 /\ 1 <= im_height im <= 2 ^ 24 /\ bytes (im_pixels im) /\
  zlen (im_pixels im) = im_width im * im_height im * bytes_per_pixel (im_ct im).

Lemma finish_total st : wf_c st -> ok_or_err good_image (finish_decode st).
Proof.
  intros [W1 W2 W3 W4]. unfold finish_decode. destruct (negb (c_end st)); [apply oe_err|].
  destruct (c_ihdr st) as [h|]; [|apply oe_err]. specialize (W1 h eq_refl) as (Ww & Wh & Wd).
  destruct ((ih_width h =? 0) || (ih_height h =? 0)) eqn:E0; [apply oe_err|].
  destruct ((MAX_DIMENSION <? ih_width h) || (MAX_DIMENSION <? ih_height h)) eqn:E1; [apply oe_err|].
  destruct (negb (ih_comp h =? 0)); [apply oe_err|]. destruct (negb (ih_filt h =? 0)); [apply oe_err|].
  destruct (negb (ih_inter h =? 0)); [apply oe_err|].
  destruct (valid_depth (ih_ct h) (ih_depth h)) eqn:Ev; cbn [negb]; [|apply oe_err].
  destruct (c_idat st) as [|z0 zs]; [apply oe_err|].
  unfold calculate_expected_size. cbv zeta. destruct (_ <? 2 ^ 64); [|apply oe_err]. cbn [rbind].
  set (e := _ * ih_height h). clearbody e.
  destruct (inflate_zlib_total (z0 :: zs) (Some e) W2) as [(o & Eo)|[Eo|Eo]]; rewrite Eo; cbn [rbind];
    try apply oe_err.
  apply inflate_zlib_bytes in Eo; auto.
  eapply oe_bind; [apply reconstruct_total; auto; lia|].
  intros px (Hb & Hl). apply oe_ok. unfold good_image. cbn. unfold MAX_DIMENSION in E1. repeat split; auto; lia.
Qed.

Lemma decode_png_total data : bytes data -> ok_or_err good_image (decode_png data).
Proof.
  intros Hb. unfold decode_png. destruct (_ || _); [apply oe_err|].
  eapply oe_bind; [|apply finish_total].
  apply parse_chunks_total; auto; [apply Forall_skipn; auto|apply wf_init].
Qed.

(** ** Files made of chunks *)
Lemma be4_val v : 0 <= v < 2 ^ 32 ->
  InflateModel.be32 (v / 2 ^ 24) (v / 2 ^ 16 mod 256) (v / 2 ^ 8 mod 256) (v mod 256) = v.
Proof.
  intros H. unfold InflateModel.be32. change (2 ^ 32) with 4294967296 in H.
  change (2 ^ 24) with 16777216. change (2 ^ 16) with 65536. change (2 ^ 8) with 256. lia.
Qed.
Lemma get_be32_at pre a b c d post :
  get_be32 (pre ++ a :: b :: c :: d :: post) (zlen pre) = Ok (InflateModel.be32 a b c d).
Proof.
  unfold get_be32. pose proof (zlen_nonneg post).
  assert (forall k x, 0 <= k -> nth (Z.to_nat k) (a :: b :: c :: d :: post) 0 = x ->
    k < 4 -> get (pre ++ a :: b :: c :: d :: post) (zlen pre + k) = Ok x) as G.
  { intros k x Hk Hx H4. rewrite (get_ok _ _ 0).
    - f_equal. rewrite app_nth2 by (unfold zlen; lia). rewrite <- Hx. f_equal. unfold zlen; lia.
    - rewrite zlen_app, !zlen_cons. pose proof (zlen_nonneg pre). lia. }
  rewrite <- (Z.add_0_r (zlen pre)) at 1.
  rewrite (G 0 a), (G 1 b), (G 2 c), (G 3 d) by (try lia; reflexivity). reflexivity.
Qed.
Lemma crc_spec_range l : bytes l -> 0 <= crc_spec l < 2 ^ 32.
Proof. intros Hb. destruct (crc_all l Hb) as (_ & _ & E). exact E. Qed.

(** one chunk with any CRC field *)
Definition framed (n : Z) (body crcb : list Z) : list Z := be4 n ++ body ++ crcb.
Lemma parse_framed f n body a b c d more st :
  0 <= n < 2 ^ 32 -> zlen body = 4 + n ->
  parse_chunks (S f) (framed n body [a; b; c; d] ++ more) st =
  if negb (InflateModel.be32 a b c d =? crc32 body) then Err EInvalidDecode
  else let* st' := chunk_effect (slice body 0 4) (slice body 4 (4 + n)) st in
       if c_end st' then Ok st' else parse_chunks f more st'.
Proof.
  intros Hn Hb. set (rest := framed n body [a; b; c; d] ++ more).
  pose proof (zlen_nonneg more) as Hm.
  assert (rest = be4 n ++ body ++ [a; b; c; d] ++ more) as Er.
  { unfold rest, framed. rewrite <- !app_assoc. reflexivity. }
  assert (zlen rest = 12 + n + zlen more) as Hl.
  { rewrite Er, !zlen_app, Hb. change (zlen (be4 n)) with 4. change (zlen [a; b; c; d]) with 4. ring. }
  cbn [parse_chunks]. replace (12 <=? zlen rest) with true by lia. cbn [negb].
  assert (get_be32 rest 0 = Ok n) as ->.
  { rewrite Er. unfold be4. change 0 with (zlen (@nil Z)) at 1. cbn [app].
    pose proof (get_be32_at [] (n / 2 ^ 24) (n / 2 ^ 16 mod 256) (n / 2 ^ 8 mod 256) (n mod 256)
      (body ++ [a; b; c; d] ++ more)) as G.
    cbn [app] in G. rewrite be4_val in G by auto. exact G. }
  cbn [rbind]. rewrite slice_r_ok by lia. cbn [rbind].
  replace (zlen rest <? 8 + n + 4) with false by lia.
  rewrite slice_r_ok by lia. cbn [rbind].
  assert (slice rest 4 8 = slice body 0 4) as ->.
  { rewrite Er. unfold slice, be4. change (Z.to_nat 4) with 4%nat. change (Z.to_nat (8 - 4)) with 4%nat.
    change (Z.to_nat (4 - 0)) with 4%nat. change (Z.to_nat 0) with 0%nat. cbn [app skipn].
    rewrite firstn_app. unfold zlen in Hb.
    replace (4 - length body)%nat with 0%nat by lia. cbn [firstn]. rewrite app_nil_r. reflexivity. }
  assert (slice rest 8 (8 + n) = slice body 4 (4 + n)) as ->.
  { rewrite Er. unfold slice, be4. change (Z.to_nat 8) with 8%nat. change (Z.to_nat 4) with 4%nat. cbn [app].
    change (skipn 8 (n / 2 ^ 24 :: n / 2 ^ 16 mod 256 :: n / 2 ^ 8 mod 256 :: n mod 256 :: body ++ a :: b :: c :: d :: more))
      with (skipn 4 (body ++ a :: b :: c :: d :: more)).
    rewrite skipn_app. unfold zlen in Hb. replace (4 - length body)%nat with 0%nat by lia.
    rewrite (skipn_O (a :: b :: c :: d :: more)). rewrite firstn_app. rewrite skipn_length.
    replace (Z.to_nat (8 + n - 8) - (length body - 4))%nat with 0%nat by lia. cbn [firstn]. rewrite app_nil_r.
    f_equal. lia. }
  assert (get_be32 rest (8 + n) = Ok (InflateModel.be32 a b c d)) as ->.
  { pose proof (get_be32_at (be4 n ++ body) a b c d more) as G.
    rewrite zlen_app, Hb in G. change (zlen (be4 n)) with 4 in G.
    replace (4 + (4 + n)) with (8 + n) in G by ring. rewrite Er. rewrite app_assoc. exact G. }
  cbn [rbind].
  assert (slice body 0 4 ++ slice body 4 (4 + n) = body) as ->.
  { unfold slice. change (Z.to_nat (4 - 0)) with 4%nat. change (Z.to_nat 0) with 0%nat.
    change (Z.to_nat 4) with 4%nat. cbn [skipn].
    rewrite (firstn_all2 (skipn 4 body)) by (rewrite skipn_length; unfold zlen in Hb; lia).
    apply firstn_skipn. }
  destruct (negb _); auto.
  destruct (chunk_effect _ _ st) as [st'|e| |]; auto. cbn [rbind].
  destruct (c_end st'); auto. f_equal.
  rewrite Er. rewrite app_assoc, app_assoc. rewrite skipn_app.
  assert (length ((be4 n ++ body) ++ [a; b; c; d]) = Z.to_nat (8 + n + 4)) as El.
  { assert (zlen ((be4 n ++ body) ++ [a; b; c; d]) = 8 + n + 4) as G; [|unfold zlen in G; lia].
    rewrite !zlen_app, Hb. change (zlen (be4 n)) with 4. change (zlen [a; b; c; d]) with 4. ring. }
  rewrite <- El. rewrite skipn_all, Nat.sub_diag. reflexivity.
Qed.

Definition chunk_file (cs : list (list Z * list Z)) : list Z := flat_map (fun '(t, d) => chunk_of t d) cs.

(** the effect of a sequence of chunks, up to and including IEND *)
Fixpoint run_chunks (cs : list (list Z * list Z)) (st : cstate) : res cstate :=
  match cs with
  | [] => Ok st
  | (t, d) :: r => let* st' := chunk_effect t d st in if c_end st' then Ok st' else run_chunks r st'
  end.

Lemma be4_four v : exists a b c d, be4 v = [a; b; c; d] /\ InflateModel.be32 a b c d = InflateModel.be32 (v / 2 ^ 24) (v / 2 ^ 16 mod 256) (v / 2 ^ 8 mod 256) (v mod 256).
Proof. unfold be4. eexists _, _, _, _. split; reflexivity. Qed.

Lemma parse_one f t d more st : wf_chunk (t, d) ->
  parse_chunks (S f) (chunk_of t d ++ more) st =
  let* st' := chunk_effect t d st in if c_end st' then Ok st' else parse_chunks f more st'.
Proof.
  intros (H1 & H2 & H3 & H4). cbn [fst snd] in *.
  assert (bytes (t ++ d)) as Hb by (apply bytes_app; auto).
  assert (chunk_of t d = framed (zlen d) (t ++ d) (be4 (crc_spec (t ++ d)))) as ->.
  { unfold chunk_of, framed. rewrite <- app_assoc. reflexivity. }
  unfold be4 at 1. rewrite parse_framed.
  - rewrite be4_val by (apply crc_spec_range; auto).
    destruct (crc_all (t ++ d) Hb) as (-> & _). rewrite Z.eqb_refl. cbn [negb].
    assert (slice (t ++ d) 0 4 = t) as ->.
    { unfold slice. change (Z.to_nat (4 - 0)) with 4%nat. change (Z.to_nat 0) with 0%nat. cbn [skipn].
      rewrite firstn_app, H1, Nat.sub_diag, firstn_O, app_nil_r, <- H1. apply firstn_all. }
    assert (slice (t ++ d) 4 (4 + zlen d) = d) as ->; [|reflexivity].
    unfold slice. change (Z.to_nat 4) with 4%nat. rewrite skipn_app, H1, Nat.sub_diag. rewrite <- H1, skipn_all.
    cbn [skipn app]. apply firstn_all2. unfold zlen; lia.
  - pose proof (zlen_nonneg d). lia.
  - rewrite zlen_app. unfold zlen at 1. rewrite H1. reflexivity.
Qed.

(** once the accumulated flag is set, nothing more is read; before that each
    chunk has its effect *)
Lemma parse_many cs : forall f more st, Forall wf_chunk cs ->
  (length cs <= f)%nat ->
  exists g, (f - length cs <= g <= f)%nat /\
  parse_chunks f (chunk_file cs ++ more) st =
  match cs with
  | [] => parse_chunks f more st
  | _ => let* st' := run_chunks cs st in if c_end st' then Ok st' else parse_chunks (f - length cs) more st'
  end.
Proof.
  induction cs as [|(t, d) cs IH]; intros f more st Hw Hf.
  - exists f. split; [lia|]. reflexivity.
  - apply Forall_cons_iff in Hw as (Hc & Hw). cbn [length] in Hf. destruct f as [|f]; [lia|].
    exists (S f). split; [lia|]. cbn [chunk_file flat_map]. rewrite <- app_assoc. rewrite parse_one by auto.
    cbn [run_chunks]. destruct (chunk_effect t d st) as [st'|e| |]; auto. cbn [rbind].
    destruct (c_end st') eqn:Ee; [cbn [rbind]; rewrite Ee; reflexivity|].
    destruct (IH f more st') as (g & _ & E); auto; [lia|]. fold (chunk_file cs). rewrite E. cbn [length Nat.sub].
    destruct cs as [|c cs]; [cbn [run_chunks rbind]; rewrite Ee, Nat.sub_0_r; reflexivity|reflexivity].
Qed.

Lemma chunk_file_len cs : (12 * length cs <= length (chunk_file cs))%nat \/ ~ Forall wf_chunk cs.
Proof.
  induction cs as [|(t, d) cs IH]; [left; cbn; lia|].
  destruct IH as [IH|IH].
  2:{ right. intros H. apply Forall_cons_iff in H as (_ & H). auto. }
  destruct (Nat.eq_dec (length t) 4) as [Ht|Ht].
  - left. cbn [chunk_file flat_map length]. rewrite app_length. fold (chunk_file cs).
    unfold chunk_of. rewrite !app_length. change (length (be4 (zlen d))) with 4%nat.
    change (length (be4 (crc_spec (t ++ d)))) with 4%nat. lia.
  - right. intros H. apply Forall_cons_iff in H as ((H & _) & _). cbn in H. auto.
Qed.

Lemma decode_png_chunks cs more st :
  Forall wf_chunk cs -> run_chunks cs c_init = Ok st -> c_end st = true ->
  decode_png (png_file cs ++ more) = finish_decode st.
Proof.
  intros Hw Hr He. unfold decode_png, png_file. rewrite <- app_assoc.
  set (body := flat_map _ cs ++ more). change (flat_map _ cs) with (chunk_file cs) in body.
  replace (zlen ([137; 80; 78; 71; 13; 10; 26; 10] ++ body) <? 8) with false
    by (rewrite zlen_app; change (zlen [137; 80; 78; 71; 13; 10; 26; 10]) with 8; pose proof (zlen_nonneg body); lia).
  cbn [app firstn skipn orb negb]. change (zs_eqb _ PNG_SIGNATURE) with true. cbn [negb].
  destruct (chunk_file_len cs) as [Hl|]; [|contradiction].
  destruct (parse_many cs (length body) more c_init Hw) as (g & _ & E).
  { unfold body. rewrite app_length. lia. }
  fold body in E. rewrite E. destruct cs as [|c cs].
  { cbn in Hr. injection Hr as <-. discriminate He. }
  rewrite Hr. cbn [rbind]. rewrite He. reflexivity.
Qed.

(** without an IEND chunk the flag stays down *)
Lemma run_chunks_noend cs : forall st st', Forall (fun c => fst c <> T_IEND) cs -> c_end st = false ->
  run_chunks cs st = Ok st' -> c_end st' = false.
Proof.
  induction cs as [|(t, d) cs IH]; intros st st' Hn He Hr; cbn [run_chunks] in Hr; [congruence|].
  apply Forall_cons_iff in Hn as (Ht & Hn). cbn [fst] in Ht.
  apply rbind_ok in Hr as (s1 & E1 & Hr).
  assert (c_end s1 = false) as He1.
  { unfold chunk_effect in E1. destruct (zs_eqb t T_IHDR).
    { apply rbind_ok in E1 as (h & _ & E1). injection E1 as <-. auto. }
    destruct (zs_eqb t T_PLTE). { apply rbind_ok in E1 as (h & _ & E1). injection E1 as <-. auto. }
    destruct (zs_eqb t T_tRNS). { injection E1 as <-. auto. }
    destruct (zs_eqb t T_IDAT). { injection E1 as <-. auto. }
    destruct (zs_eqb t T_IEND) eqn:Ez. { apply zs_eqb_eq in Ez. contradiction. }
    injection E1 as <-. auto. }
  rewrite He1 in Hr. eauto.
Qed.
Lemma run_chunks_total cs : forall st, Forall wf_chunk cs -> wf_c st -> ok_or_err wf_c (run_chunks cs st).
Proof.
  induction cs as [|(t, d) cs IH]; intros st Hw Hst; cbn [run_chunks]; [apply oe_ok; auto|].
  apply Forall_cons_iff in Hw as ((_ & _ & Hd & _) & Hw).
  eapply oe_bind; [apply chunk_effect_total; auto|]. intros s Hs. destruct (c_end s); [apply oe_ok; auto|auto].
Qed.

(** C15 at the level of the decoder: a chunk before IEND whose CRC field does
    not match makes the file undecodable. *)
Lemma bad_crc_rejected pre n body a b c d more :
  Forall wf_chunk pre -> Forall (fun c => fst c <> T_IEND) pre ->
  0 <= n < 2 ^ 32 -> zlen body = 4 + n -> InflateModel.be32 a b c d <> crc32 body ->
  exists e, decode_png (png_file pre ++ framed n body [a; b; c; d] ++ more) = Err e.
Proof.
  intros Hw Hn Hr Hb Hc. unfold decode_png, png_file. rewrite <- app_assoc.
  set (tl := framed n body [a; b; c; d] ++ more).
  set (bd := flat_map _ pre ++ tl). change (flat_map _ pre) with (chunk_file pre) in bd.
  replace (zlen ([137; 80; 78; 71; 13; 10; 26; 10] ++ bd) <? 8) with false
    by (rewrite zlen_app; change (zlen [137; 80; 78; 71; 13; 10; 26; 10]) with 8; pose proof (zlen_nonneg bd); lia).
  cbn [app firstn skipn orb negb]. change (zs_eqb _ PNG_SIGNATURE) with true. cbn [negb].
  destruct (chunk_file_len pre) as [Hl|]; [|contradiction].
  assert (forall f st, (0 < f)%nat -> parse_chunks f tl st = Err EInvalidDecode) as Hbad.
  { intros [|f] st Hf; [lia|]. unfold tl. rewrite parse_framed by auto.
    destruct (Z.eqb_spec (InflateModel.be32 a b c d) (crc32 body)); [contradiction|]. reflexivity. }
  assert (length tl > 0)%nat as Htl.
  { unfold tl, framed. rewrite !app_length. unfold be4. cbn [length]. lia. }
  destruct (parse_many pre (length bd) tl c_init Hw) as (g & _ & E).
  { unfold bd. rewrite app_length. lia. }
  fold bd in E. rewrite E. destruct pre as [|p0 pre'].
  { rewrite Hbad by (unfold bd; rewrite app_length; lia). eexists; reflexivity. }
  set (pre := p0 :: pre') in *.
  destruct (run_chunks_total pre c_init Hw wf_init) as [(st & Es & _)|(e & Es)]; rewrite Es; cbn [rbind]; eauto.
  rewrite (run_chunks_noend pre c_init st) by auto.
  rewrite Hbad by (unfold bd; rewrite app_length; lia). eexists; reflexivity.
Qed.

Lemma crc_of_four a b c d : bytes [a; b; c; d] ->
  be4 (InflateModel.be32 a b c d) = [a; b; c; d] /\ 0 <= InflateModel.be32 a b c d < 2 ^ 32.
Proof.
  intros H. repeat (apply Forall_cons_iff in H as (? & H)). unfold is_byte in *.
  unfold be4, InflateModel.be32. change (2 ^ 32) with 4294967296.
  change (2 ^ 24) with 16777216. change (2 ^ 16) with 65536. change (2 ^ 8) with 256.
  split; [|lia]. repeat f_equal; lia.
Qed.
Lemma corrupt_rejected pre ty data body' more :
  Forall wf_chunk pre -> Forall (fun c => fst c <> T_IEND) pre -> wf_chunk (ty, data) ->
  bytes body' -> zlen body' = zlen (ty ++ data) -> crc_spec body' <> crc_spec (ty ++ data) ->
  exists e, decode_png (png_file pre ++ be4 (zlen data) ++ body' ++ be4 (crc_spec (ty ++ data)) ++ more) = Err e.
Proof.
  intros Hw Hn (H1 & H2 & H3 & H4) Hb Hl Hc. cbn [fst snd] in *.
  assert (bytes (ty ++ data)) as Hbt by (apply bytes_app; auto).
  unfold be4 at 2.
  destruct (bad_crc_rejected pre (zlen data) body' (crc_spec (ty ++ data) / 2 ^ 24) (crc_spec (ty ++ data) / 2 ^ 16 mod 256)
    (crc_spec (ty ++ data) / 2 ^ 8 mod 256) (crc_spec (ty ++ data) mod 256) more) as (e & E); auto.
  - pose proof (zlen_nonneg data). lia.
  - rewrite Hl, zlen_app. unfold zlen at 1. rewrite H1. reflexivity.
  - rewrite be4_val by (apply crc_spec_range; auto). destruct (crc_all body' Hb) as (-> & _). congruence.
  - exists e. rewrite <- E. unfold framed. rewrite <- !app_assoc. reflexivity.
Qed.
Lemma corrupt_crc_rejected pre ty data crc' more :
  Forall wf_chunk pre -> Forall (fun c => fst c <> T_IEND) pre -> wf_chunk (ty, data) ->
  bytes crc' -> length crc' = 4%nat -> crc' <> be4 (crc_spec (ty ++ data)) ->
  exists e, decode_png (png_file pre ++ be4 (zlen data) ++ (ty ++ data) ++ crc' ++ more) = Err e.
Proof.
  intros Hw Hn (H1 & H2 & H3 & H4) Hb Hl Hc. cbn [fst snd] in *.
  assert (bytes (ty ++ data)) as Hbt by (apply bytes_app; auto).
  destruct crc' as [|a [|b [|c [|d [|]]]]]; try discriminate Hl.
  destruct (bad_crc_rejected pre (zlen data) (ty ++ data) a b c d more) as (e & E); auto.
  - pose proof (zlen_nonneg data). lia.
  - rewrite zlen_app. unfold zlen at 1. rewrite H1. reflexivity.
  - destruct (crc_all (ty ++ data) Hbt) as (-> & _). intros E. apply Hc.
    rewrite <- E. symmetry. apply crc_of_four; auto.
  - exists e. rewrite <- E. unfold framed. rewrite <- !app_assoc. reflexivity.
Qed.
