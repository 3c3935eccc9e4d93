(** Consequences for the public PNG functions. *)
From Coq Require Import Permutation.
From Verif Require Import Base ChecksumModel ChecksumSpec ChecksumProofs InflateModel DeflateSpec InflateProofs Lz77Model Lz77Proofs
  HuffModel DeflateModel DeflateTop PngFilterModel PngPaletteModel PngQuantModel PngDecModel PngModel PngSpec PngEncSpec
  PngFilterProofs PngPackProofs PngDecProofs PngPaletteProofs PngReduceProofs PngFileProofs PngEncodeProofs PngQuantProofs PngTop.

Lemma rejects_none o len : 0 <= o_width o -> 0 <= o_height o ->
  rejects o len = None <-> 1 <= o_level o <= 9 /\ 0 < o_width o <= 2 ^ 24 /\ 0 < o_height o <= 2 ^ 24 /\
    len = o_width o * o_height o * bytes_per_pixel (o_ct o).
Proof.
  intros Hw Hh. unfold rejects.
  destruct (Z.ltb_spec (o_level o) 1), (Z.ltb_spec 9 (o_level o)); cbn [orb]; try (split; [discriminate|lia]).
  destruct (Z.eqb_spec (o_width o) 0), (Z.eqb_spec (o_height o) 0); cbn [orb]; try (split; [discriminate|lia]).
  destruct (Z.ltb_spec (2 ^ 24) (o_width o)), (Z.ltb_spec (2 ^ 24) (o_height o)); cbn [orb]; try (split; [discriminate|lia]).
  destruct (Z.eqb_spec len (o_width o * o_height o * bytes_per_pixel (o_ct o))); split; try discriminate; try lia; auto.
Qed.
Lemma accepted_rejects o data : accepted o data -> rejects o (zlen data) = None /\ 0 <= o_width o /\ 0 <= o_height o /\ bytes data.
Proof.
  intros (A & B & C & (D & E & F)). rewrite rejects_none by lia. repeat split; auto; try lia.
Qed.

(** C28 *)
Lemma reject_keeps_buffer_l e buf data o er : 0 <= o_width o -> 0 <= o_height o ->
  rejects o (zlen data) = Some er -> encode_into e buf data o = (buf, Err er).
Proof. intros Hw Hh Hr. pose proof (encode_into_checks e buf data o Hw Hh) as K. rewrite Hr in K. exact K. Qed.
Lemma encode_structure_l e buf data o : accepted o data -> env_ok e o -> small o -> 0 <= o_max_colors o ->
  exists depth ctb cs im, encode_into e buf data o = (png_file cs, Ok tt) /\ encode e data o = Ok (png_file cs) /\
    png_layout (o_width o) (o_height o) depth ctb cs /\ decode_png (png_file cs) = Ok im /\
    im_width im = o_width o /\ im_height im = o_height o.
Proof.
  intros Ha He Hs Hm. destruct (accepted_rejects _ _ Ha) as (Hr & Hw & Hh & Hb).
  destruct (should_quantize data o) eqn:Hq.
  - destruct (encode_quantized e data o buf) as (cs & pal & idx & px & oct & A & B & C & D & E & F & G & H & I); auto.
    destruct (encode_quantized e data o []) as (cs' & pal' & idx' & px' & oct' & A' & B' & C' & D' & E' & F' & G' & H' & I'); auto.
    assert (encode_into e [] data o = encode_into e buf data o) as Eq.
    { pose proof (encode_into_checks e buf data o Hw Hh) as K1. pose proof (encode_into_checks e [] data o Hw Hh) as K2.
      rewrite Hr, Hq in K1, K2. destruct K1 as (K1 & _), K2 as (K2 & _). rewrite D'. rewrite K2 in D'. rewrite K1. rewrite A in D' |- *. cbn [rbind] in *.
      destruct (maybe_trim_transparency _); cbn [rbind] in *; try discriminate D'.
      unfold encode_indexed_into in *. destruct (_ || _); [discriminate D'|]. destruct (match a with Some _ => _ | None => _ end); [discriminate D'|].
      destruct (checked_expected_len _ _ _ _); try discriminate D'. destruct (negb _); [discriminate D'|]. symmetry; exact D'. }
    exists 8, 3, cs, (mkImage (o_width o) (o_height o) px oct). split; auto. split.
    { unfold encode. rewrite Eq, D. reflexivity. }
    split; auto. split; auto. rewrite <- (H []), app_nil_r. reflexivity.
  - destruct He as (Hc & _).
    destruct (encode_lossless e data o buf) as (depth & ctb & cs & px & oct & A & B & C & _); auto.
    exists depth, ctb, cs, (mkImage (o_width o) (o_height o) px oct). split; auto. split.
    { unfold encode. pose proof (encode_into_checks e buf data o Hw Hh) as K1. pose proof (encode_into_checks e [] data o Hw Hh) as K2.
      rewrite Hr, Hq in K1, K2. destruct K1 as (K1 & _), K2 as (K2 & _). rewrite K2, <- K1, A. reflexivity. }
    split; auto. split; auto. rewrite <- (C []), app_nil_r. reflexivity.
Qed.
Lemma encode_into_total_l e buf data o : 0 <= o_width o -> 0 <= o_height o -> bytes data -> env_ok e o -> small o -> 0 <= o_max_colors o ->
  match rejects o (zlen data) with
  | Some er => encode_into e buf data o = (buf, Err er)
  | None => exists f, encode_into e buf data o = (f, Ok tt)
  end.
Proof.
  intros Hw Hh Hb He Hs Hm. destruct (rejects o (zlen data)) as [er|] eqn:Hr; [apply reject_keeps_buffer_l; auto|].
  pose proof Hr as Hr'. rewrite rejects_none in Hr' by auto. destruct Hr' as (A & B & C & D).
  destruct (encode_structure_l e buf data o) as (depth & ctb & cs & im & E & _); auto; [|eauto].
  split; auto. split; auto. split; auto. split; [nia|]. split; auto.
Qed.

(** C29 *)
Lemma buffer_independent_l e buf buf' data o f :
  encode_into e buf data o = (f, Ok tt) -> encode_into e buf' data o = (f, Ok tt) /\ encode e data o = Ok f.
Proof.
  intros H. assert (forall b, encode_into e b data o = (f, Ok tt)) as G; [|split; [auto|unfold encode; rewrite G; reflexivity]].
  intros b. revert H. unfold encode_into, encode_indexed_into.
  repeat match goal with
  | |- context [finish_into ?x] => destruct (finish_into x)
  | |- context [match ?x with _ => _ end] => destruct x
  end; auto; discriminate.
Qed.
Lemma indexed_buffer_independent_l e buf buf' data w h pal trns o f :
  encode_indexed_into e buf data w h pal trns o = (f, Ok tt) ->
  encode_indexed_into e buf' data w h pal trns o = (f, Ok tt) /\ encode_indexed_with_options e data w h pal trns o = Ok f.
Proof.
  intros H. assert (forall b, encode_indexed_into e b data w h pal trns o = (f, Ok tt)) as G.
  { intros b. revert H. unfold encode_indexed_into.
    repeat match goal with
    | |- context [finish_into ?x] => destruct (finish_into x)
    | |- context [match ?x with _ => _ end] => destruct x
    end; auto; discriminate. }
  split; [auto|unfold encode_indexed_with_options; rewrite G; reflexivity].
Qed.

(** C20 *)
Lemma shouldnt_quantize data o : o_qmode o = QOff -> should_quantize data o = false.
Proof. intros H. unfold should_quantize. rewrite H. reflexivity. Qed.
Lemma lossless_l e data o : accepted o data -> comp_ok e o -> small o ->
  o_alpha o = false -> o_reduce o = false -> o_palette o = false -> o_qmode o = QOff ->
  exists f, encode e data o = Ok f /\ decode_png f = Ok (mkImage (o_width o) (o_height o) data (o_ct o)).
Proof.
  intros Ha Hc Hs H1 H2 H3 H4. destruct (accepted_rejects _ _ Ha) as (Hr & Hw & Hh & Hb).
  destruct (encode_lossless e data o [] Hw Hh Hb Hr (shouldnt_quantize data o H4) Hc Hs) as (depth & ctb & cs & px & oct & A & B & C & _ & _ & D).
  destruct (D H2 H3) as (-> & _ & _ & ->). exists (png_file cs). split; [unfold encode; rewrite A; reflexivity|].
  rewrite <- (app_nil_r (png_file cs)), C. rewrite H1. reflexivity.
Qed.

(** C45: the header *)
Lemma header_l e data o : accepted o data -> comp_ok e o -> small o ->
  o_reduce o = false -> o_palette o = false -> o_qmode o = QOff ->
  exists cs, encode e data o = Ok (png_file cs) /\
    png_layout (o_width o) (o_height o) 8 (match o_ct o with Gray => 0 | GrayAlpha => 4 | Rgb => 2 | Rgba => 6 end) cs.
Proof.
  intros Ha Hc Hs H2 H3 H4. destruct (accepted_rejects _ _ Ha) as (Hr & Hw & Hh & Hb).
  destruct (encode_lossless e data o [] Hw Hh Hb Hr (shouldnt_quantize data o H4) Hc Hs) as (depth & ctb & cs & px & oct & A & B & C & _ & _ & D).
  destruct (D H2 H3) as (_ & -> & -> & _). exists cs. split; [unfold encode; rewrite A; reflexivity|]. exact B.
Qed.

(** C22, C26 *)
Lemma pixels_l e data o : accepted o data -> comp_ok e o -> small o -> o_qmode o = QOff ->
  ~ loses (o_reduce o) (o_palette o) (o_ct o) data (o_width o * o_height o) ->
  exists f im, encode e data o = Ok f /\ decode_png f = Ok im /\ im_width im = o_width o /\ im_height im = o_height o /\
    forall i, 0 <= i < o_width o * o_height o -> shown (o_alpha o) (pixel (im_ct im) (im_pixels im) i) (pixel (o_ct o) data i).
Proof.
  intros Ha Hc Hs H4 Hn. destruct (accepted_rejects _ _ Ha) as (Hr & Hw & Hh & Hb).
  destruct (encode_lossless e data o [] Hw Hh Hb Hr (shouldnt_quantize data o H4) Hc Hs) as (depth & ctb & cs & px & oct & A & B & C & D & _).
  exists (png_file cs), (mkImage (o_width o) (o_height o) px oct). split; [unfold encode; rewrite A; reflexivity|].
  split; [rewrite <- (app_nil_r (png_file cs)); apply C|]. split; [reflexivity|]. split; [reflexivity|]. intros i Hi. cbn [im_ct im_pixels]. apply D; auto.
Qed.
(** C24 *)
Lemma faint_l e data o : accepted o data -> comp_ok e o -> small o -> o_qmode o = QOff ->
  loses (o_reduce o) (o_palette o) (o_ct o) data (o_width o * o_height o) ->
  exists f im i, encode e data o = Ok f /\ decode_png f = Ok im /\ 0 <= i < o_width o * o_height o /\
    pixel (im_ct im) (im_pixels im) i <> pixel (o_ct o) data i /\ 17 * level (pixel (o_ct o) data i) <= level (pixel (im_ct im) (im_pixels im) i).
Proof.
  intros Ha Hc Hs H4 Hl. destruct (accepted_rejects _ _ Ha) as (Hr & Hw & Hh & Hb).
  destruct (encode_lossless e data o [] Hw Hh Hb Hr (shouldnt_quantize data o H4) Hc Hs) as (depth & ctb & cs & px & oct & A & B & C & _ & D & _).
  destruct (D Hl) as (k & Hk & Hp). destruct (Hl) as (_ & _ & _ & Hg & (i & Hi & Hi0)).
  exists (png_file cs), (mkImage (o_width o) (o_height o) px oct), i. split; [unfold encode; rewrite A; reflexivity|].
  split; [rewrite <- (app_nil_r (png_file cs)); apply C|]. split; auto. cbn [im_ct im_pixels]. rewrite Hp by auto.
  destruct Ha as (_ & _ & _ & Him).
  assert (byte4 (pixel (o_ct o) data i)) as Hb4.
  { pose proof (view_bytes (o_ct o) data (o_width o * o_height o) Hb) as V. rewrite Forall_forall in V. apply V. apply view_in. eauto. }
  unfold want_gray. destruct (Hg i Hi) as (g & Eg & _). rewrite Eg in *. cbn [level] in *. destruct Hb4 as (Hg0 & _). unfold is_byte in Hg0.
  split; [|nia]. intros [= E]. nia.
Qed.

(** C32 *)
Lemma quantized_l e data o : accepted o data -> env_ok e o -> small o -> 0 <= o_max_colors o -> should_quantize data o = true ->
  exists f im pal, encode e data o = Ok f /\ decode_png f = Ok im /\ im_width im = o_width o /\ im_height im = o_height o /\
    1 <= zlen pal <= Z.max 1 (Z.min (o_max_colors o) 256) /\
    forall i, 0 <= i < o_width o * o_height o -> In (pixel (im_ct im) (im_pixels im) i) pal.
Proof.
  intros Ha He Hs Hm Hq. destruct (accepted_rejects _ _ Ha) as (Hr & Hw & Hh & Hb).
  destruct (encode_quantized e data o [] Hw Hh Hb Hr Hq He Hs Hm) as (cs & pal & idx & px & oct & A & B & C & D & E & F & G & H & I).
  exists (png_file cs), (mkImage (o_width o) (o_height o) px oct), pal. split; [unfold encode; rewrite D; reflexivity|].
  split; [rewrite <- (app_nil_r (png_file cs)); apply H|]. split; [reflexivity|]. split; [reflexivity|]. split; [auto|].
  intros i Hi. cbn [im_ct im_pixels]. rewrite I by auto. unfold colour_at. apply nth_In.
  rewrite Forall_forall in G. assert (In (znth idx i) idx) as Hin by (apply nth_In; unfold zlen in F; lia).
  apply G in Hin. unfold zlen in Hin. lia.
Qed.
Lemma quantized_exact_l e data o D : accepted o data -> env_ok e o -> small o -> o_width o * o_height o < 100000 ->
  should_quantize data o = true -> NoDup D -> zlen D <= o_max_colors o -> zlen D <= 256 ->
  (forall i, 0 <= i < o_width o * o_height o -> In (pixel (o_ct o) data i) D) ->
  exists f im, encode e data o = Ok f /\ decode_png f = Ok im /\
    forall i, 0 <= i < o_width o * o_height o -> pixel (im_ct im) (im_pixels im) i = pixel (o_ct o) data i.
Proof.
  intros Ha He Hs Hsz Hq Hnd HD H256 Hin. destruct (accepted_rejects _ _ Ha) as (Hr & Hw & Hh & Hb).
  pose proof (zlen_nonneg D).
  destruct (encode_quantized e data o [] Hw Hh Hb Hr Hq He Hs ltac:(lia)) as (cs & pal & idx & px & oct & A & B & C & D' & E & F & G & H' & I).
  assert (is_rgb (o_ct o)) as Hct.
  { unfold should_quantize in Hq. unfold is_rgb. destruct (o_qmode o); [discriminate| |]; destruct (o_ct o); auto; discriminate. }
  destruct Ha as (_ & Hw' & Hh' & Hi).
  destruct (quantize_exact (e_float e) (e_top e) data (o_width o) (o_height o) (o_ct o) (Z.min (o_max_colors o) 256) (o_dither o) D)
    as (pal' & idx' & Q & Hq'); auto; try lia.
  rewrite A in Q. injection Q as <- <-.
  exists (png_file cs), (mkImage (o_width o) (o_height o) px oct). split; [unfold encode; rewrite D'; reflexivity|].
  split; [rewrite <- (app_nil_r (png_file cs)); apply H'|]. intros i Hi'. cbn [im_ct im_pixels]. rewrite I by auto. apply Hq'; auto.
Qed.

(** C15 *)
Lemma corrupt_byte_l pre ty data a x y b more : Forall wf_chunk pre -> Forall (fun c => fst c <> T_IEND) pre -> wf_chunk (ty, data) ->
  ty ++ data ++ be4 (crc_spec (ty ++ data)) = a ++ x :: b -> is_byte y -> y <> x ->
  exists er, decode_png (png_file pre ++ be4 (zlen data) ++ (a ++ y :: b) ++ more) = Err er.
Proof.
  intros Hw Hn Hc Es Hy Hne. destruct (Hc) as (H1 & H2 & H3 & H4). cbn [fst snd] in *.
  assert (bytes (ty ++ data)) as Hb by (apply bytes_app2; auto). rewrite app_assoc in Es.
  assert (0 <= crc_spec (ty ++ data) < 2 ^ 32) as Hcr by (apply crc_spec_range; auto).
  assert (bytes (be4 (crc_spec (ty ++ data)))) as Hb4 by (apply be4_bytes; auto).
  assert (bytes a /\ is_byte x /\ bytes b) as (Ba & Bx & Bb).
  { assert (bytes (a ++ x :: b)) as G by (rewrite <- Es; apply bytes_app2; auto). apply bytes_app in G as (G1 & G2).
    apply Forall_cons_iff in G2 as (G2 & G3). auto. }
  assert ((exists b', ty ++ data = a ++ x :: b' /\ b = b' ++ be4 (crc_spec (ty ++ data))) \/
          exists a', a = (ty ++ data) ++ a' /\ be4 (crc_spec (ty ++ data)) = a' ++ x :: b) as [(b' & E1 & E2)|(a' & E1 & E2)].
  { destruct (app_eq_app _ _ _ _ Es) as (l & [(E1 & E2)|(E1 & E2)]); [|right; eauto].
    destruct l as [|x' l]; [right|left; cbn [app] in E2; injection E2 as <- E2; eauto].
    exists []. rewrite app_nil_r in *. auto. }
  - (* in the type or the data *)
    subst b. rewrite E1 in Hb. apply bytes_app in Hb as (_ & Hb'). apply Forall_cons_iff in Hb' as (_ & Bb').
    destruct (corrupt_rejected pre ty data (a ++ y :: b') more) as (er & G); auto.
    + apply bytes_app2; auto. constructor; auto.
    + rewrite E1. rewrite !zlen_app, !zlen_cons. reflexivity.
    + rewrite E1. assert (bytes (a ++ x :: b') /\ bytes (a ++ y :: b')) as (G1 & G2) by (split; apply bytes_app2; auto; constructor; auto).
      destruct (crc_all _ G1) as (<- & _). destruct (crc_all _ G2) as (<- & _). apply crc_one_byte_ok; auto.
    + exists er. rewrite <- G. rewrite <- !app_assoc. cbn [app]. rewrite <- !app_assoc. reflexivity.
  - (* in the CRC *)
    destruct (corrupt_crc_rejected pre ty data (a' ++ y :: b) more) as (er & G); auto.
    + assert (bytes a') as Ba' by (rewrite E1 in Ba; apply bytes_app in Ba as (_ & ?); auto). apply bytes_app2; auto. constructor; auto.
    + assert (length (a' ++ x :: b) = 4%nat) as L by (rewrite <- E2; reflexivity). rewrite app_length in *. cbn [length] in *. exact L.
    + rewrite E2. intros E. apply app_inv_head in E. congruence.
    + exists er. rewrite <- G. rewrite E1. rewrite <- !app_assoc. cbn [app]. reflexivity.
Qed.

(** C30 *)
Lemma run_end p d : forall st st', run_chunks (p ++ [(T_IEND, d)]) st = Ok st' -> c_end st' = true.
Proof.
  induction p as [|(t, x) p IH]; intros st st'; cbn [app run_chunks].
  - cbn. intros [= <-]. reflexivity.
  - destruct (chunk_effect t x st) as [s1| | |]; cbn [rbind]; try discriminate. destruct (c_end s1) eqn:E; [intros [= <-]; auto|apply IH].
Qed.
Lemma decode_png_chunks_gen cs more :
  Forall wf_chunk cs -> (forall st, run_chunks cs c_init = Ok st -> c_end st = true) ->
  decode_png (png_file cs ++ more) = rbind (run_chunks cs c_init) finish_decode.
Proof.
  intros Hw He. destruct (run_chunks cs c_init) as [st|er| |] eqn:Er.
  1:{ cbn [rbind]. apply decode_png_chunks; auto. }
  all: unfold decode_png, png_file; rewrite <- app_assoc;
    set (body := flat_map _ cs ++ more); change (flat_map _ cs) with (chunk_file cs) in body;
    (replace (zlen ([137; 80; 78; 71; 13; 10; 26; 10] ++ body) <? 8) with false
      by (rewrite zlen_app; change (zlen [137; 80; 78; 71; 13; 10; 26; 10]) with 8; pose proof (zlen_nonneg body); lia));
    cbn [app firstn skipn orb negb]; change (zs_eqb _ PNG_SIGNATURE) with true; cbn [negb];
    (destruct (chunk_file_len cs) as [Hl|]; [|contradiction]);
    (destruct (parse_many cs (length body) more c_init Hw) as (g & _ & E); [unfold body; rewrite app_length; lia|]);
    fold body in E; rewrite E; (destruct cs as [|c cs]; [discriminate Er|]); rewrite Er; reflexivity.
Qed.
Lemma strip_decode_l pre d more : Forall wf_chunk (pre ++ [(T_IEND, d)]) -> Forall (fun c => fst c <> T_IEND) pre ->
  exists f', strip_metadata_chunks (png_file (pre ++ [(T_IEND, d)]) ++ more) = Ok f' /\
    f' = png_file (filter (fun c => negb (zs_eqb (fst c) T_tEXt || zs_eqb (fst c) T_zTXt || zs_eqb (fst c) T_iTXt || zs_eqb (fst c) T_tIME)) (pre ++ [(T_IEND, d)])) /\
    decode_png f' = decode_png (png_file (pre ++ [(T_IEND, d)]) ++ more).
Proof.
  intros Hw Hn. exists (png_file (filter keep_chunk pre ++ [(T_IEND, d)])). split; [apply strip_ok; auto|]. split.
  { rewrite filter_app. reflexivity. }
  set (cs := pre ++ [(T_IEND, d)]) in *. set (cs' := filter keep_chunk pre ++ [(T_IEND, d)]).
  assert (cs' = filter keep_chunk cs) as Ec by (unfold cs', cs; rewrite filter_app; reflexivity).
  assert (Forall wf_chunk cs') as Hw' by (rewrite Ec; apply Forall_forall; intros c Hc; apply filter_In in Hc as (Hc & _); rewrite Forall_forall in Hw; auto).
  assert (run_chunks cs' c_init = run_chunks cs c_init) as Er by (rewrite Ec; apply run_filter; reflexivity).
  assert (forall st, run_chunks cs c_init = Ok st -> c_end st = true) as Hend by (intros st; apply run_end).
  rewrite (decode_png_chunks_gen cs more) by auto.
  rewrite <- (app_nil_r (png_file cs')). rewrite (decode_png_chunks_gen cs' []) by (auto; rewrite Er; auto). rewrite Er. reflexivity.
Qed.

(** C26 *)
Lemma image_ext ct a b n : image_ok ct a n -> image_ok ct b n -> (forall i, 0 <= i < n -> pixel ct a i = pixel ct b i) -> a = b.
Proof.
  intros (Hn & _ & La) (_ & _ & Lb) H. apply (nth_ext _ _ 0 0); [unfold zlen in *; lia|]. intros j Hj.
  assert (forall l, nth j l 0 = znth l (Z.of_nat j)) as E by (intros l; unfold znth; rewrite Nat2Z.id; reflexivity). rewrite !E.
  assert (0 <= Z.of_nat j < n * bytes_per_pixel ct) as Hr by (unfold zlen in La; lia). set (k := Z.of_nat j) in *. clearbody k. clear E Hj j La Lb.
  destruct ct; cbn [bytes_per_pixel] in Hr.
  - specialize (H k ltac:(lia)). unfold pixel in H. congruence.
  - specialize (H (k / 2) ltac:(lia)). unfold pixel in H. injection H as H1 H2.
    assert (k = 2 * (k / 2) \/ k = 2 * (k / 2) + 1) as [-> | ->] by lia; auto.
  - specialize (H (k / 3) ltac:(lia)). unfold pixel in H. injection H as H1 H2 H3.
    assert (k = 3 * (k / 3) \/ k = 3 * (k / 3) + 1 \/ k = 3 * (k / 3) + 2) as [-> | [-> | ->]] by lia; auto.
  - specialize (H (k / 4) ltac:(lia)). unfold pixel in H. injection H as H1 H2 H3 H4.
    assert (k = 4 * (k / 4) \/ k = 4 * (k / 4) + 1 \/ k = 4 * (k / 4) + 2 \/ k = 4 * (k / 4) + 3) as [-> | [-> | [-> | ->]]] by lia; auto.
Qed.
Lemma alpha_l data ct n : image_ok ct data n ->
  let data' := maybe_optimize_alpha data ct true in
  image_ok ct data' n /\
  (forall i, 0 <= i < n -> alpha_of (pixel ct data' i) = alpha_of (pixel ct data i) /\
     (alpha_of (pixel ct data i) <> 0 -> pixel ct data' i = pixel ct data i)) /\
  ((forall i, 0 <= i < n -> alpha_of (pixel ct data i) <> 0) -> data' = data).
Proof.
  intros H data'. destruct (optimize_alpha_ok data ct n H) as (A & B). fold data' in A, B. split; auto.
  assert (forall i, 0 <= i < n -> alpha_of (pixel ct data' i) = alpha_of (pixel ct data i) /\
     (alpha_of (pixel ct data i) <> 0 -> pixel ct data' i = pixel ct data i)) as G.
  { intros i Hi. rewrite B by auto. destruct ct; auto; destruct (pixel _ data i) as [[[r g] b] a]; cbn [visible alpha_of];
      destruct (Z.eqb_spec a 0); cbn [alpha_of]; subst; auto; split; auto; congruence. }
  split; auto. intros Hn. apply (image_ext ct _ _ n); auto. intros i Hi. apply G; auto.
Qed.

(** C48 *)
Lemma indexed_l e data w h pal trns o :
  0 < w <= 2 ^ 24 -> 0 < h <= 2 ^ 24 -> zlen data = w * h -> 1 <= zlen pal <= 256 -> Forall byte3 pal ->
  Forall (fun v => 0 <= v < zlen pal) data ->
  (forall t, trns = Some t -> bytes t /\ zlen t <= zlen pal) -> comp_ok e o -> h * (w + 1) + 1 < room o ->
  exists cs im, encode_indexed_with_options e data w h pal trns o = Ok (png_file cs) /\ png_layout w h 8 3 cs /\
    decode_png (png_file cs) = Ok im /\ im_width im = w /\ im_height im = h /\
    forall i, 0 <= i < w * h -> pixel (im_ct im) (im_pixels im) i =
      let '(r, g, b) := nth (Z.to_nat (znth data i)) pal (0, 0, 0) in
      (r, g, b, match trns with Some t => nth (Z.to_nat (znth data i)) t 255 | None => 255 end).
Proof.
  intros Hw Hh L Lp Bp Fi Ht Hc Hs.
  assert (bytes data) as Bi by (eapply Forall_impl; [|exact Fi]; intros v Hv; cbv beta in Hv; unfold is_byte; lia).
  assert (trns_fits trns) as Tf by (intros a Ea; destruct (Ht a Ea); split; auto; lia).
  unfold encode_indexed_with_options, encode_indexed_into.
  replace ((zlen pal =? 0) || (256 <? zlen pal)) with false by lia.
  replace (match trns with Some a => zlen pal <? zlen a | None => false end) with false by (destruct trns as [a|]; auto; destruct (Ht a eq_refl); lia).
  assert (w * h < 2 ^ 64) by (change (2 ^ 24) with 16777216 in *; change (2 ^ 64) with 18446744073709551616; nia).
  unfold checked_expected_len. rewrite Z.mul_1_r. replace (2 ^ 64 <=? w * h) with false by lia.
  replace (negb (zlen data =? w * h)) with false by lia.
  destruct (indexed_body_ok e data w h pal trns o) as (z & filt & px & -> & Zb & W & Zs & Lf & D & S); auto; try lia.
  cbn [finish_into rbind].
  exists (indexed_chunks w h pal trns z), (mkImage w h px (if has_alpha_in_trns trns then Rgba else Rgb)). split; [reflexivity|]. split.
  { unfold indexed_chunks. apply (file_layout w h 8 3 (Some pal) trns z filt 1 (ceil8 (w * 8))); auto.
    - unfold legal. cbn [In]. tauto.
    - rewrite Lf. unfold ceil8. f_equal. lia.
    - split; congruence.
    - congruence.
    - intros p [= <-]. change (2 ^ 8) with 256. split; [lia|]. intros t' ->. destruct (Ht t' eq_refl). lia. }
  split; [rewrite <- (D []), app_nil_r; reflexivity|]. split; [reflexivity|]. split; [reflexivity|].
  intros i Hi. cbn [im_ct im_pixels]. rewrite S by auto.
  assert (0 <= znth data i < zlen pal) as Rv.
  { unfold znth. rewrite Forall_forall in Fi. apply Fi. apply nth_In. unfold zlen in L. lia. }
  replace (znth data i <? zlen pal) with true by lia. reflexivity.
Qed.
Lemma indexed_rejects_l e buf data w h pal trns o : 0 <= w < 2 ^ 32 -> 0 <= h < 2 ^ 32 ->
  zlen pal = 0 \/ 256 < zlen pal \/ (exists t, trns = Some t /\ zlen pal < zlen t) \/ zlen data <> w * h ->
  exists er, encode_indexed_into e buf data w h pal trns o = (buf, Err er).
Proof.
  intros Hw Hh H. unfold encode_indexed_into. pose proof (zlen_nonneg pal).
  destruct (Z.eqb_spec (zlen pal) 0), (Z.ltb_spec 256 (zlen pal)); cbn [orb]; eauto.
  assert (w * h < 2 ^ 64) by (change (2 ^ 32) with 4294967296 in *; change (2 ^ 64) with 18446744073709551616; nia).
  destruct H as [H|[H|[(t & -> & H)|H]]]; try lia.
  - replace (zlen pal <? zlen t) with true by lia. eauto.
  - destruct (match trns with Some _ => _ | None => _ end); eauto. unfold checked_expected_len. rewrite Z.mul_1_r.
    replace (2 ^ 64 <=? w * h) with false by lia. replace (negb (zlen data =? w * h)) with true by lia. eauto.
Qed.
