(** Proofs about the files the encoder writes: chunk layout, stripping, and
    what the decoder makes of them. *)
From Verif Require Import Base ChecksumModel ChecksumSpec ChecksumProofs InflateModel DeflateSpec InflateProofs Lz77Model
  DeflateModel DeflateTop PngFilterModel PngPaletteModel PngQuantModel PngDecModel PngModel PngSpec
  PngFilterProofs PngPackProofs PngDecProofs PngPaletteProofs PngReduceProofs.

(** ** Chunks *)
Lemma bytes_app2 a b : bytes a -> bytes b -> bytes (a ++ b).
Proof. intros. apply bytes_app. auto. Qed.
Lemma be32_be4 v : 0 <= v < 2 ^ 32 -> DeflateModel.be32 v = be4 v.
Proof.
  intros H. unfold DeflateModel.be32, be4, wrap. rewrite !Z.shiftr_div_pow2 by lia.
  change (2 ^ 32) with 4294967296 in H. change (2 ^ 24) with 16777216. change (2 ^ 16) with 65536. change (2 ^ 8) with 256.
  rewrite (Z.mod_small (v / 16777216)) by lia. reflexivity.
Qed.
Lemma be4_bytes v : 0 <= v < 2 ^ 32 -> bytes (be4 v).
Proof.
  intros H. unfold be4. change (2 ^ 32) with 4294967296 in H. change (2 ^ 24) with 16777216. change (2 ^ 16) with 65536. change (2 ^ 8) with 256.
  constructor; [|constructor; [|constructor; [|constructor; [|constructor]]]]; unfold is_byte; lia.
Qed.
Lemma chunk_bytes_ok ty d : bytes ty -> bytes d -> zlen d < 2 ^ 32 -> chunk_bytes ty d = chunk_of ty d.
Proof.
  intros Ht Hd Hl. unfold chunk_bytes, chunk_of. pose proof (zlen_nonneg d).
  rewrite wrap_id by lia. rewrite be32_be4 by lia.
  assert (crc_finalize (crc_update (crc_update crc_new ty) d) = crc_spec (ty ++ d)) as ->.
  { rewrite <- crc_update_app. unfold crc_finalize, crc_update, crc_new.
    destruct (crc_all (ty ++ d) (proj2 (bytes_app _ _) (conj Ht Hd))) as (<- & _).
    unfold crc32. rewrite (crc_loop_spec (length (ty ++ d))) by (try (apply bytes_app2; auto); lia). reflexivity. }
  destruct (crc_all (ty ++ d) (proj2 (bytes_app _ _) (conj Ht Hd))) as (_ & _ & R). rewrite be32_be4 by auto. reflexivity.
Qed.
Lemma chunk_of_bytes ty d : bytes ty -> bytes d -> zlen d < 2 ^ 32 -> bytes (chunk_of ty d).
Proof.
  intros Ht Hd Hl. unfold chunk_of. pose proof (zlen_nonneg d).
  apply bytes_app2; [apply be4_bytes; lia|]. apply bytes_app2; auto. apply bytes_app2; auto.
  apply be4_bytes. destruct (crc_all (ty ++ d) (proj2 (bytes_app _ _) (conj Ht Hd))) as (_ & _ & R). auto.
Qed.
Lemma png_file_bytes cs : Forall wf_chunk cs -> bytes (png_file cs).
Proof.
  intros H. unfold png_file. apply bytes_app2.
  - repeat (constructor; [unfold is_byte; lia|]). constructor.
  - induction H as [|(t, d) cs (H1 & H2 & H3 & H4) _ IH]; [constructor|]. cbn [flat_map].
    apply bytes_app2; auto. apply chunk_of_bytes; auto.
Qed.

(** ** The chunks of an encoded image *)
Definition opt_chunk {A} (f : A -> list Z * list Z) (o : option A) : list (list Z * list Z) :=
  match o with Some a => [f a] | None => [] end.
Definition plte_data (p : list (Z * Z * Z)) : list Z := flat_map (fun '(r, g, b) => [r; g; b]) p.
Definition file_chunks (w h depth ctb : Z) (pal : option (list (Z * Z * Z))) (trns : option (list Z)) (z : list Z)
  : list (list Z * list Z) :=
  (T_IHDR, be4 w ++ be4 h ++ [depth; ctb; 0; 0; 0]) ::
  opt_chunk (fun p => (T_PLTE, plte_data p)) pal ++
  opt_chunk (fun a => (T_tRNS, a)) trns ++
  map (fun c => (T_IDAT, c)) (chunks (Z.to_nat IDAT_CHUNK) z) ++
  [(T_IEND, [])].

Lemma idat_pos : (0 < Z.to_nat IDAT_CHUNK)%nat.
Proof. unfold IDAT_CHUNK. lia. Qed.
Lemma chunks_small {A} k (l : list A) : (0 < k)%nat -> Forall (fun c => (1 <= length c <= k)%nat) (chunks k l).
Proof.
  intros Hk. apply Forall_forall. intros c Hc. apply In_nth with (d := []) in Hc as (q & Hq & <-).
  rewrite nth_chunks by auto. rewrite firstn_length, skipn_length.
  assert (zlen (chunks k l) = (zlen l + Z.of_nat k - 1) / Z.of_nat k) as L by (apply chunks_length; auto).
  assert (Z.of_nat q < (zlen l + Z.of_nat k - 1) / Z.of_nat k) as Hq2 by (rewrite <- L; unfold zlen; lia).
  assert ((Z.of_nat q + 1) * Z.of_nat k <= zlen l + Z.of_nat k - 1) as H.
  { pose proof (Z.mul_div_le (zlen l + Z.of_nat k - 1) (Z.of_nat k) ltac:(lia)).
    assert ((Z.of_nat q + 1) * Z.of_nat k <= (zlen l + Z.of_nat k - 1) / Z.of_nat k * Z.of_nat k) by (apply Z.mul_le_mono_nonneg_r; lia).
    lia. }
  assert (Z.of_nat (q * k) < zlen l) as H2 by (rewrite Nat2Z.inj_mul; lia). unfold zlen in H2. lia.
Qed.

Lemma T_bytes : bytes T_IHDR /\ bytes T_PLTE /\ bytes T_tRNS /\ bytes T_IDAT /\ bytes T_IEND.
Proof. repeat (apply conj); (repeat (constructor; [unfold is_byte; lia|])); constructor. Qed.
Lemma plte_len p : zlen (plte_data p) = 3 * zlen p.
Proof. unfold plte_data, zlen. rewrite (flat_const_length _ 3); [lia|]. intros ((r, g), b); reflexivity. Qed.
Lemma plte_bytes p : Forall byte3 p -> bytes (plte_data p).
Proof.
  induction 1 as [|((r, g), b) p (H1 & H2 & H3) _ IH]; [constructor|]. unfold plte_data. cbn [flat_map app].
  constructor; [auto|constructor; [auto|constructor; auto]].
Qed.
Lemma plte_nth p : forall i, 0 <= i < zlen p ->
  (znth (plte_data p) (i * 3), znth (plte_data p) (i * 3 + 1), znth (plte_data p) (i * 3 + 2)) = nth (Z.to_nat i) p (0, 0, 0).
Proof.
  induction p as [|((r, g), b) p IH]; intros i Hi; [rewrite zlen_nil in Hi; lia|].
  rewrite zlen_cons in Hi. unfold plte_data. cbn [flat_map app]. fold (plte_data p). destruct (Z.eq_dec i 0) as [->|].
  - reflexivity.
  - replace (Z.to_nat i) with (S (Z.to_nat (i - 1))) by lia. cbn [nth]. rewrite <- IH by lia.
    rewrite !znth_consS by lia.
    replace (i * 3 - 1 - 1 - 1) with ((i - 1) * 3) by lia.
    replace (i * 3 + 1 - 1 - 1 - 1) with ((i - 1) * 3 + 1) by lia.
    replace (i * 3 + 2 - 1 - 1 - 1) with ((i - 1) * 3 + 2) by lia. reflexivity.
Qed.
Lemma parse_plte_ok p : parse_plte (plte_data p) = Ok p.
Proof.
  unfold parse_plte. rewrite plte_len. replace (3 * zlen p mod 3 =? 0) with true by lia. cbn [negb].
  assert (length (plte_data p) / 3 = length p)%nat as ->.
  { pose proof (plte_len p) as L. unfold zlen in L. replace (length (plte_data p)) with (length p * 3)%nat by lia. apply Nat.div_mul. lia. }
  rewrite (map_res_ok _ (fun i => nth (Z.to_nat i) p (0, 0, 0))).
  - f_equal. apply (nth_ext _ _ (0, 0, 0) (0, 0, 0)); [apply map_idxs_length|]. intros k Hk. rewrite map_idxs_length in Hk.
    rewrite nth_map_idxs by auto. rewrite Nat2Z.id. reflexivity.
  - intros i Hi%in_idxs. rewrite !get_znth by (rewrite plte_len; unfold zlen; lia). cbn [rbind].
    rewrite plte_nth by (unfold zlen; lia). reflexivity.
Qed.

Definition pal_fits (pal : option (list (Z * Z * Z))) : Prop := forall p, pal = Some p -> zlen p <= 256 /\ Forall byte3 p.
Definition trns_fits (t : option (list Z)) : Prop := forall a, t = Some a -> zlen a <= 256 /\ bytes a.
Lemma file_chunks_wf w h depth ctb pal trns z :
  0 <= w < 2 ^ 32 -> 0 <= h < 2 ^ 32 -> is_byte depth -> is_byte ctb -> pal_fits pal -> trns_fits trns -> bytes z ->
  Forall wf_chunk (file_chunks w h depth ctb pal trns z).
Proof.
  intros Hw Hh Hd Hc Hp Ht Hz. destruct T_bytes as (B1 & B2 & B3 & B4 & B5). unfold file_chunks.
  assert (forall t d, length t = 4%nat -> bytes t -> bytes d -> zlen d < 2 ^ 32 -> wf_chunk (t, d)) as W.
  { intros. split; [auto|split; [auto|split; auto]]. }
  constructor.
  - apply W; auto.
    + apply bytes_app2; [apply be4_bytes; auto|]. apply bytes_app2; [apply be4_bytes; auto|].
      constructor; [auto|]. constructor; [auto|]. repeat (constructor; [unfold is_byte; lia|]). constructor.
    + rewrite !zlen_app. change (zlen (be4 w)) with 4. change (zlen (be4 h)) with 4. change (zlen [depth; ctb; 0; 0; 0]) with 5. lia.
  - apply Forall_app; split; [|apply Forall_app; split; [|apply Forall_app; split]].
    + destruct pal as [p|]; cbn [opt_chunk]; [|constructor]. destruct (Hp p eq_refl) as (P1 & P2).
      constructor; [|constructor]. apply W; auto; [apply plte_bytes; auto|]. rewrite plte_len. lia.
    + destruct trns as [a|]; cbn [opt_chunk]; [|constructor]. destruct (Ht a eq_refl) as (P1 & P2).
      constructor; [|constructor]. apply W; auto. lia.
    + apply Forall_forall. intros c Hin. apply in_map_iff in Hin as (d & <- & Hin).
      pose proof (chunks_small (Z.to_nat IDAT_CHUNK) z idat_pos) as S. rewrite Forall_forall in S. specialize (S d Hin).
      pose proof (chunks_bytes (Z.to_nat IDAT_CHUNK) z Hz) as S2. rewrite Forall_forall in S2. specialize (S2 d Hin).
      apply W; auto. unfold zlen. unfold IDAT_CHUNK in S. lia.
    + constructor; [|constructor]. apply W; auto; [constructor|]. rewrite zlen_nil. lia.
Qed.

Lemma run_idat l : forall st, c_end st = false ->
  run_chunks (map (fun c => (T_IDAT, c)) l ++ [(T_IEND, [])]) st =
  Ok (mkC (c_ihdr st) (c_idat st ++ concat l) (c_pal st) (c_trns st) true).
Proof.
  induction l as [|c l IH]; intros st He; cbn [map app run_chunks].
  - cbn [concat]. rewrite app_nil_r. reflexivity.
  - change (chunk_effect T_IDAT c st) with (Ok (mkC (c_ihdr st) (c_idat st ++ c) (c_pal st) (c_trns st) (c_end st))).
    cbn [rbind c_end]. rewrite He. rewrite IH by reflexivity. cbn [c_ihdr c_idat c_pal c_trns concat]. rewrite <- app_assoc. reflexivity.
Qed.

Definition hdr (w h depth ctb : Z) : ihdr := mkIhdr w h depth (pct ctb) 0 0 0.
Lemma parse_ihdr_ok w h depth ctb : 0 <= w < 2 ^ 32 -> 0 <= h < 2 ^ 32 -> png_ct_of ctb = Ok (pct ctb) ->
  parse_ihdr (be4 w ++ be4 h ++ [depth; ctb; 0; 0; 0]) = Ok (hdr w h depth ctb).
Proof.
  intros Hw Hh Hc. unfold parse_ihdr. change (negb (zlen _ =? 13)) with false. cbn iota.
  pose proof (get_be32_at [] (w / 2 ^ 24) (w / 2 ^ 16 mod 256) (w / 2 ^ 8 mod 256) (w mod 256) (be4 h ++ [depth; ctb; 0; 0; 0])) as G1.
  change (zlen []) with 0 in G1. cbn [app] in G1. unfold be4 at 1. cbn [app]. rewrite G1. cbn [rbind]. rewrite be4_val by auto.
  pose proof (get_be32_at (be4 w) (h / 2 ^ 24) (h / 2 ^ 16 mod 256) (h / 2 ^ 8 mod 256) (h mod 256) [depth; ctb; 0; 0; 0]) as G2.
  change (zlen (be4 w)) with 4 in G2. unfold be4 in *. cbn [app] in *. rewrite G2. cbn [rbind]. rewrite be4_val by auto.
  change (get _ 8) with (Ok depth). cbn [rbind]. change (get _ 9) with (Ok ctb). cbn [rbind]. rewrite Hc. cbn [rbind].
  change (get _ 10) with (Ok 0). cbn [rbind]. change (get _ 11) with (Ok 0). cbn [rbind]. change (get _ 12) with (Ok 0). reflexivity.
Qed.
Lemma run_file w h depth ctb pal trns z : 0 <= w < 2 ^ 32 -> 0 <= h < 2 ^ 32 -> png_ct_of ctb = Ok (pct ctb) ->
  run_chunks (file_chunks w h depth ctb pal trns z) c_init = Ok (mkC (Some (hdr w h depth ctb)) z pal trns true).
Proof.
  intros Hw Hh Hc. unfold file_chunks. cbn [run_chunks].
  assert (forall st, chunk_effect T_IHDR (be4 w ++ be4 h ++ [depth; ctb; 0; 0; 0]) st =
     Ok (mkC (Some (hdr w h depth ctb)) (c_idat st) (c_pal st) (c_trns st) (c_end st))) as ->.
  { intros st. unfold chunk_effect. change (zs_eqb T_IHDR T_IHDR) with true. cbn iota. rewrite parse_ihdr_ok by auto. reflexivity. }
  cbn [rbind c_end c_init].
  assert (forall st p, chunk_effect T_PLTE (plte_data p) st = Ok (mkC (c_ihdr st) (c_idat st) (Some p) (c_trns st) (c_end st))) as EP.
  { intros. unfold chunk_effect. change (zs_eqb T_PLTE T_IHDR) with false. change (zs_eqb T_PLTE T_PLTE) with true. cbn iota.
    rewrite parse_plte_ok. reflexivity. }
  assert (forall st a, chunk_effect T_tRNS a st = Ok (mkC (c_ihdr st) (c_idat st) (c_pal st) (Some a) (c_end st))) as ET by reflexivity.
  assert (concat (chunks (Z.to_nat IDAT_CHUNK) z) = z) as EC by (apply chunks_concat, idat_pos).
  destruct pal as [p|], trns as [a|]; cbn [opt_chunk app run_chunks]; rewrite ?EP; cbn [rbind c_end c_ihdr c_idat c_pal c_trns c_init];
    rewrite ?ET; cbn [rbind c_end c_ihdr c_idat c_pal c_trns c_init]; rewrite run_idat by reflexivity;
    cbn [c_end c_ihdr c_idat c_pal c_trns c_init app]; rewrite EC; reflexivity.
Qed.

(** ** What the decoder makes of such a file *)
Lemma expected_size h : valid_depth (ih_ct h) (ih_depth h) = true -> 0 <= ih_width h ->
  (1 + snd (layout h)) * ih_height h < 2 ^ 64 ->
  calculate_expected_size h = Ok ((1 + snd (layout h)) * ih_height h).
Proof.
  intros Hv Hw Hs. unfold calculate_expected_size, layout in *.
  destruct (ih_ct h); cbn [valid_depth snd] in *.
  - replace (_ <? 2 ^ 64) with true by lia. reflexivity.
  - assert (ih_width h * 3 * ih_depth h / 8 = ih_width h * (3 * ih_depth h / 8)) as ->.
    { assert (ih_depth h = 8 \/ ih_depth h = 16) as [-> | ->] by lia; [change (3 * 8 / 8) with 3|change (3 * 16 / 8) with 6]; lia. }
    replace (_ <? 2 ^ 64) with true by lia. reflexivity.
  - replace (_ <? 2 ^ 64) with true by lia. reflexivity.
  - assert (ih_width h * 2 * ih_depth h / 8 = ih_width h * (2 * ih_depth h / 8)) as ->.
    { assert (ih_depth h = 8 \/ ih_depth h = 16) as [-> | ->] by lia; [change (2 * 8 / 8) with 2|change (2 * 16 / 8) with 4]; lia. }
    replace (_ <? 2 ^ 64) with true by lia. reflexivity.
  - assert (ih_width h * 4 * ih_depth h / 8 = ih_width h * (4 * ih_depth h / 8)) as ->.
    { assert (ih_depth h = 8 \/ ih_depth h = 16) as [-> | ->] by lia; [change (4 * 8 / 8) with 4|change (4 * 16 / 8) with 8]; lia. }
    replace (_ <? 2 ^ 64) with true by lia. reflexivity.
Qed.

Lemma zlib_nonempty z out : zlib_stream z out -> z <> [].
Proof. intros (cmf & flg & body & a & b & c & d & -> & _). discriminate. Qed.

Lemma file_decodes w h depth ctb pal trns bpp sb raw filt z px more :
  0 < w <= MAX_DIMENSION -> 0 < h <= MAX_DIMENSION -> png_ct_of ctb = Ok (pct ctb) ->
  is_byte depth -> is_byte ctb -> pal_fits pal -> trns_fits trns ->
  valid_depth (pct ctb) depth = true -> layout (hdr w h depth ctb) = (bpp, sb) -> 0 < bpp -> 0 <= sb <= w * 8 ->
  bytes raw -> zlen filt = h * (sb + 1) -> img_filtered bpp sb (repeat 0 (Z.to_nat sb)) raw filt ->
  bytes z -> zlib_stream z filt ->
  convert_to_pixels (hdr w h depth ctb) raw pal trns = Ok px ->
  decode_png (png_file (file_chunks w h depth ctb pal trns z) ++ more) = Ok (mkImage w h px (output_ct (hdr w h depth ctb) trns)).
Proof.
  intros Hw Hh Hc Bd Bc Hp Ht Hv Hl Hbpp Hsb Hr Lf Hi Hz Hs Hx. unfold MAX_DIMENSION in *.
  assert (0 <= w < 2 ^ 32 /\ 0 <= h < 2 ^ 32) as (Rw & Rh).
  { change (2 ^ 24) with 16777216 in *. change (2 ^ 32) with 4294967296. lia. }
  rewrite (decode_png_chunks _ more (mkC (Some (hdr w h depth ctb)) z pal trns true)).
  - unfold finish_decode. cbn [c_end c_ihdr c_idat c_pal c_trns negb hdr ih_width ih_height ih_comp ih_filt ih_inter].
    replace ((w =? 0) || (h =? 0)) with false by lia. unfold MAX_DIMENSION.
    replace ((2 ^ 24 <? w) || (2 ^ 24 <? h)) with false by lia.
    change (negb (0 =? 0)) with false. cbn iota.
    change (ih_ct _) with (pct ctb). change (ih_depth _) with depth. rewrite Hv. cbn [negb].
    fold (hdr w h depth ctb).
    destruct z as [|z0 z']; [destruct (zlib_nonempty _ _ Hs eq_refl)|]. set (z := z0 :: z') in *.
    rewrite expected_size.
    + rewrite Hl. cbn [snd rbind]. change (ih_height (hdr w h depth ctb)) with h.
      replace ((1 + sb) * h) with (zlen filt) by (rewrite Lf; ring).
      destruct (inflate_zlib_complete z filt Hz Hs) as (_ & ->). cbn [rbind].
      unfold reconstruct_image. rewrite Hl. change (ih_height (hdr w h depth ctb)) with h.
      replace (zlen filt <? h * (1 + sb)) with false by (rewrite Lf; lia).
      rewrite (unfilter_rows_ok bpp sb filt Hbpp ltac:(lia) _ raw filt Hi (Z.to_nat h) 0 []); auto.
      * cbn [rbind]. rewrite Hx. reflexivity.
      * apply repeat0_bytes.
      * rewrite zlen_repeat. lia.
      * lia.
      * rewrite Z2Nat.id by lia. rewrite Lf. ring.
    + exact Hv.
    + cbn; lia.
    + rewrite Hl. cbn [snd]. change (ih_height (hdr w h depth ctb)) with h.
      change (2 ^ 24) with 16777216 in *. change (2 ^ 64) with 18446744073709551616.
      assert ((1 + sb) * h <= (1 + 16777216 * 8) * 16777216) by (apply Z.mul_le_mono_nonneg; lia). lia.
  - apply file_chunks_wf; auto.
  - apply run_file; auto.
  - reflexivity.
Qed.

(** ** The bytes written *)
Lemma flat_map_map {A B C} (f : B -> list C) (g : A -> B) l : flat_map f (map g l) = flat_map (fun x => f (g x)) l.
Proof. induction l as [|x l IH]; [reflexivity|]. cbn [map flat_map]. rewrite IH. reflexivity. Qed.
Lemma written_file w h depth ctb pal trns z :
  0 <= w < 2 ^ 32 -> 0 <= h < 2 ^ 32 -> is_byte depth -> is_byte ctb -> pal_fits pal -> trns_fits trns -> bytes z ->
  PNG_SIGNATURE ++ ihdr_bytes w h depth ctb ++
    match pal with Some p => chunk_bytes T_PLTE (plte_data p) | None => [] end ++
    match trns with Some a => chunk_bytes T_tRNS a | None => [] end ++
    idat_bytes z ++ iend_bytes = png_file (file_chunks w h depth ctb pal trns z).
Proof.
  intros Hw Hh Hd Hc Hp Ht Hz. pose proof (file_chunks_wf w h depth ctb pal trns z Hw Hh Hd Hc Hp Ht Hz) as W.
  unfold png_file, file_chunks in *. apply Forall_cons_iff in W as (W1 & W). apply Forall_app in W as (W2 & W). apply Forall_app in W as (W3 & W).
  apply Forall_app in W as (W4 & W5). unfold PNG_SIGNATURE. f_equal. cbn [flat_map]. f_equal.
  - unfold ihdr_bytes. rewrite !be32_be4 by auto. destruct W1 as (_ & A & B & C). apply chunk_bytes_ok; auto.
  - rewrite !flat_map_app. f_equal; [|f_equal; [|f_equal]].
    + destruct pal as [p|]; [|reflexivity]. apply Forall_cons_iff in W2 as ((_ & A & B & C) & _). cbn [opt_chunk flat_map]. rewrite app_nil_r. apply chunk_bytes_ok; auto.
    + destruct trns as [a|]; [|reflexivity]. apply Forall_cons_iff in W3 as ((_ & A & B & C) & _). cbn [opt_chunk flat_map]. rewrite app_nil_r. apply chunk_bytes_ok; auto.
    + unfold idat_bytes. rewrite flat_map_map. rewrite !flat_map_concat_map. apply (f_equal (@concat Z)). apply map_ext_in. intros c Hin.
      rewrite Forall_forall in W4. destruct (W4 (T_IDAT, c)) as (_ & A & B & C); [apply in_map_iff; eauto|]. apply chunk_bytes_ok; auto.
Qed.

(** ** Stripping *)
Definition is_meta (t : list Z) : bool := zs_eqb t T_tEXt || zs_eqb t T_zTXt || zs_eqb t T_iTXt || zs_eqb t T_tIME.
Definition keep_chunk (c : list Z * list Z) : bool := negb (is_meta (fst c)).
Lemma strip_one f t d more : wf_chunk (t, d) ->
  strip_loop (S f) (chunk_of t d ++ more) =
  if zs_eqb t T_IEND then Ok (chunk_of t d)
  else let* r := strip_loop f more in Ok ((if is_meta t then [] else chunk_of t d) ++ r).
Proof.
  intros (H1 & H2 & H3 & H4). cbn [fst snd] in *. pose proof (zlen_nonneg d). pose proof (zlen_nonneg more).
  assert (zlen (chunk_of t d) = 12 + zlen d) as L1.
  { unfold chunk_of. rewrite !zlen_app. change (zlen (be4 (zlen d))) with 4. change (zlen (be4 (crc_spec (t ++ d)))) with 4.
    unfold zlen at 1. rewrite H1. lia. }
  set (rest := chunk_of t d ++ more). assert (zlen rest = 12 + zlen d + zlen more) as L2 by (unfold rest; rewrite zlen_app; lia).
  cbn [strip_loop]. replace (8 <=? zlen rest) with true by lia. cbn [negb].
  assert (rest = be4 (zlen d) ++ t ++ d ++ be4 (crc_spec (t ++ d)) ++ more) as Er.
  { unfold rest, chunk_of. rewrite <- !app_assoc. reflexivity. }
  assert (get_be32 rest 0 = Ok (zlen d)) as ->.
  { rewrite Er. unfold be4. cbn [app].
    match goal with |- context [_ :: _ :: _ :: _ :: ?p] => pose proof (get_be32_at [] (zlen d / 2 ^ 24) (zlen d / 2 ^ 16 mod 256) (zlen d / 2 ^ 8 mod 256) (zlen d mod 256) p) as G end.
    change (zlen []) with 0 in G. cbn [app] in G. rewrite G, be4_val by lia. reflexivity. }
  cbn [rbind]. rewrite slice_r_ok by lia. cbn [rbind].
  assert (slice rest 4 8 = t) as ->.
  { rewrite Er. unfold slice, be4. change (Z.to_nat 4) with 4%nat. change (Z.to_nat (8 - 4)) with 4%nat. cbn [app skipn].
    rewrite firstn_app, H1, Nat.sub_diag, firstn_O, app_nil_r, <- H1. apply firstn_all. }
  replace (zlen rest <? 8 + zlen d + 4) with false by lia.
  assert (get t 0 = Ok (znth t 0)) as -> by (apply get_znth; unfold zlen; lia). cbn [rbind].
  assert (forall (x : bool), (negb (Z.land (znth t 0) 32 =? 0) && is_meta t) = is_meta t) as Hm.
  { intros _. destruct (is_meta t) eqn:Em; [|apply andb_false_r]. unfold is_meta in Em.
    rewrite !orb_true_iff in Em. destruct Em as [[[E|E]|E]|E]; apply zs_eqb_eq in E; rewrite E; reflexivity. }
  change (zs_eqb t T_tEXt || zs_eqb t T_zTXt || zs_eqb t T_iTXt || zs_eqb t T_tIME) with (is_meta t).
  rewrite (Hm true).
  assert (slice_r rest 0 (8 + zlen d + 4) = Ok (chunk_of t d)) as Es.
  { rewrite slice_r_ok by lia. f_equal. unfold slice, rest. change (Z.to_nat 0) with 0%nat. cbn [skipn].
    replace (Z.to_nat (8 + zlen d + 4 - 0)) with (length (chunk_of t d)) by (unfold zlen in L1 at 1; lia).
    rewrite firstn_app, Nat.sub_diag, firstn_O, app_nil_r. apply firstn_all. }
  assert (skipn (Z.to_nat (8 + zlen d + 4)) rest = more) as ->.
  { unfold rest. replace (Z.to_nat (8 + zlen d + 4)) with (length (chunk_of t d)) by (unfold zlen in L1 at 1; lia).
    rewrite skipn_app, skipn_all, Nat.sub_diag. reflexivity. }
  destruct (zs_eqb t T_IEND) eqn:Ei.
  - apply zs_eqb_eq in Ei. assert (is_meta t = false) as -> by (rewrite Ei; reflexivity). rewrite Es. reflexivity.
  - destruct (is_meta t); cbn [rbind]; [reflexivity|]. rewrite Es. reflexivity.
Qed.
Lemma strip_many cs : forall f more, Forall wf_chunk cs -> Forall (fun c => fst c <> T_IEND) cs -> (length cs <= f)%nat ->
  strip_loop f (chunk_file cs ++ more) =
  let* r := strip_loop (f - length cs) more in Ok (chunk_file (filter keep_chunk cs) ++ r).
Proof.
  induction cs as [|(t, d) cs IH]; intros f more Hw Hn Hf.
  - cbn [chunk_file flat_map app length filter]. rewrite Nat.sub_0_r. destruct (strip_loop f more); reflexivity.
  - apply Forall_cons_iff in Hw as (Hc & Hw). apply Forall_cons_iff in Hn as (Ht & Hn). cbn [length] in Hf. destruct f as [|f]; [lia|].
    cbn [chunk_file flat_map]. rewrite <- app_assoc. rewrite strip_one by auto.
    destruct (zs_eqb t T_IEND) eqn:Ez. { apply zs_eqb_eq in Ez. cbn in Ht. contradiction. }
    fold (chunk_file cs). rewrite IH by (auto; lia). cbn [length Nat.sub filter]. unfold keep_chunk at 2. cbn [fst].
    destruct (strip_loop (f - length cs) more) as [r|e| |]; cbn [rbind]; auto.
    destruct (is_meta t); cbn [negb chunk_file flat_map]; [reflexivity|].
    rewrite <- app_assoc. reflexivity.
Qed.
Lemma skip_sig l : skipn 8 ([137; 80; 78; 71; 13; 10; 26; 10] ++ l) = l.
Proof. reflexivity. Qed.
Lemma strip_ok pre d more : Forall wf_chunk (pre ++ [(T_IEND, d)]) -> Forall (fun c => fst c <> T_IEND) pre ->
  strip_metadata_chunks (png_file (pre ++ [(T_IEND, d)]) ++ more) = Ok (png_file (filter keep_chunk pre ++ [(T_IEND, d)])).
Proof.
  intros Hw Hn. apply Forall_app in Hw as (Hw & Hd). apply Forall_cons_iff in Hd as (Hd & _).
  unfold strip_metadata_chunks, png_file. rewrite <- app_assoc. rewrite !flat_map_app. cbn [flat_map]. rewrite app_nil_r.
  change (flat_map (fun '(t, d0) => chunk_of t d0) pre) with (chunk_file pre).
  change (flat_map (fun '(t, d0) => chunk_of t d0) (filter keep_chunk pre)) with (chunk_file (filter keep_chunk pre)).
  rewrite <- app_assoc. set (bd := chunk_file pre ++ chunk_of T_IEND d ++ more).
  assert (slice_r ([137; 80; 78; 71; 13; 10; 26; 10] ++ bd) 0 8 = Ok [137; 80; 78; 71; 13; 10; 26; 10]) as ->.
  { rewrite slice_r_ok by (try rewrite zlen_app; change (zlen [137; 80; 78; 71; 13; 10; 26; 10]) with 8; pose proof (zlen_nonneg bd); lia). reflexivity. }
  cbn [rbind]. rewrite skip_sig.
  destruct (chunk_file_len pre) as [Hl|]; [|contradiction].
  assert (length (chunk_of T_IEND d) > 0)%nat as Hp by (unfold chunk_of, be4; rewrite app_length; cbn [length]; lia).
  unfold bd at 2. rewrite strip_many; auto.
  - match goal with |- context [strip_loop (?n - length pre) _] => assert (length pre < n)%nat as Hlt;
      [|destruct (n - length pre)%nat as [|k] eqn:Ek; [lia|]] end.
    { unfold bd. rewrite !app_length. cbn [length]. lia. }
    rewrite strip_one by auto. change (zs_eqb T_IEND T_IEND) with true. cbn iota. cbn [rbind]. reflexivity.
  - unfold bd. rewrite !app_length. lia.
Qed.
Lemma strip_noend pre : Forall wf_chunk pre -> Forall (fun c => fst c <> T_IEND) pre ->
  strip_metadata_chunks (png_file pre) = Ok (png_file (filter keep_chunk pre)).
Proof.
  intros Hw Hn. unfold strip_metadata_chunks, png_file.
  change (flat_map (fun '(t, d0) => chunk_of t d0) pre) with (chunk_file pre).
  change (flat_map (fun '(t, d0) => chunk_of t d0) (filter keep_chunk pre)) with (chunk_file (filter keep_chunk pre)).
  set (bd := chunk_file pre).
  assert (slice_r ([137; 80; 78; 71; 13; 10; 26; 10] ++ bd) 0 8 = Ok [137; 80; 78; 71; 13; 10; 26; 10]) as ->.
  { rewrite slice_r_ok by (try rewrite zlen_app; change (zlen [137; 80; 78; 71; 13; 10; 26; 10]) with 8; pose proof (zlen_nonneg bd); lia). reflexivity. }
  cbn [rbind]. rewrite skip_sig. destruct (chunk_file_len pre) as [Hl|]; [|contradiction].
  replace bd with (chunk_file pre ++ []) at 2 by apply app_nil_r. rewrite strip_many; auto.
  - assert (forall f, strip_loop f [] = Ok []) as -> by (intros []; reflexivity). cbn [rbind]. rewrite app_nil_r. reflexivity.
  - rewrite app_length. fold bd in Hl. lia.
Qed.

(** metadata chunks mean nothing to the decoder *)
Lemma meta_no_effect t d st : is_meta t = true -> chunk_effect t d st = Ok st.
Proof.
  intros H. unfold is_meta in H. rewrite !orb_true_iff in H.
  destruct H as [[[E|E]|E]|E]; apply zs_eqb_eq in E; rewrite E; reflexivity.
Qed.
Lemma run_filter cs : forall st, c_end st = false -> run_chunks (filter keep_chunk cs) st = run_chunks cs st.
Proof.
  induction cs as [|(t, d) cs IH]; intros st He; [reflexivity|]. cbn [filter run_chunks]. unfold keep_chunk at 1. cbn [fst].
  destruct (is_meta t) eqn:Em; cbn [negb].
  - rewrite meta_no_effect by auto. cbn [rbind]. rewrite He. auto.
  - cbn [run_chunks]. destruct (chunk_effect t d st) as [st'|e| |]; auto. cbn [rbind]. destruct (c_end st') eqn:E'; auto.
Qed.
Lemma strip_id cs d : forallb keep_chunk cs = true -> filter keep_chunk cs ++ [(T_IEND, d)] = cs ++ [(T_IEND, d)].
Proof.
  intros H. f_equal. induction cs as [|c cs IH]; [reflexivity|]. cbn [forallb] in H. apply andb_prop in H as (H1 & H2).
  cbn [filter]. rewrite H1, IH by auto. reflexivity.
Qed.
Lemma file_chunks_split w h depth ctb pal trns z : exists pre, file_chunks w h depth ctb pal trns z = pre ++ [(T_IEND, [])] /\
  Forall (fun c => fst c <> T_IEND) pre /\ forallb keep_chunk pre = true.
Proof.
  unfold file_chunks. eexists. split; [rewrite !app_assoc, app_comm_cons; reflexivity|]. split.
  - constructor; [discriminate|]. apply Forall_app; split; [apply Forall_app; split|].
    + destruct pal; constructor; [discriminate|constructor].
    + destruct trns; constructor; [discriminate|constructor].
    + apply Forall_forall. intros c Hc. apply in_map_iff in Hc as (x & <- & _). discriminate.
  - cbn [forallb]. change (keep_chunk (T_IHDR, _)) with true. cbn [andb]. rewrite !forallb_app.
    replace (forallb keep_chunk (opt_chunk _ pal)) with true by (destruct pal; reflexivity).
    replace (forallb keep_chunk (opt_chunk _ trns)) with true by (destruct trns; reflexivity). cbn [andb].
    apply forallb_forall. intros c Hc. apply in_map_iff in Hc as (x & <- & _). reflexivity.
Qed.
Lemma strip_file w h depth ctb pal trns z : Forall wf_chunk (file_chunks w h depth ctb pal trns z) ->
  strip_metadata_chunks (png_file (file_chunks w h depth ctb pal trns z)) = Ok (png_file (file_chunks w h depth ctb pal trns z)).
Proof.
  intros H. destruct (file_chunks_split w h depth ctb pal trns z) as (pre & E & N & K). rewrite E in *.
  pose proof (strip_ok pre [] [] H N) as S. rewrite app_nil_r in S. rewrite S. rewrite strip_id by auto. reflexivity.
Qed.
(** any file: stripping never panics once the signature is there *)
Lemma strip_loop_total f : forall rest, bytes rest -> (length rest <= f)%nat -> exists o, strip_loop f rest = Ok o /\ bytes o.
Proof.
  induction f as [|f IH]; intros rest Hb Hf.
  - assert (rest = []) as -> by (destruct rest; cbn in Hf; [auto|lia]). exists []. split; [reflexivity|constructor].
  - cbn [strip_loop]. destruct (Z.leb_spec 8 (zlen rest)) as [L|L]; cbn [negb]; [|exists []; split; [auto|constructor]].
    unfold get_be32. rewrite !get_znth by lia. cbn [rbind].
    set (n := InflateModel.be32 _ _ _ _).
    assert (0 <= n) as Hn.
    { unfold n, InflateModel.be32. pose proof (znth_byte rest 0 Hb). pose proof (znth_byte rest (0 + 1) Hb).
      pose proof (znth_byte rest (0 + 2) Hb). pose proof (znth_byte rest (0 + 3) Hb). unfold is_byte in *. lia. }
    rewrite slice_r_ok by lia. cbn [rbind].
    destruct (Z.ltb_spec (zlen rest) (8 + n + 4)); [exists []; split; [auto|constructor]|].
    rewrite get_znth by (rewrite slice_len by lia; lia). cbn [rbind].
    match goal with |- context [if ?c then Ok [] else slice_r rest 0 _] => set (cc := c) end.
    assert (exists k, (if cc then Ok [] else slice_r rest 0 (8 + n + 4)) = Ok k /\ bytes k) as (k & -> & Hk).
    { destruct cc; [exists []; split; [auto|constructor]|]. rewrite slice_r_ok by lia. eexists; split; [reflexivity|]. apply slice_bytes; auto. }
    cbn [rbind]. destruct (zs_eqb _ T_IEND); [eauto|].
    destruct (IH (skipn (Z.to_nat (8 + n + 4)) rest)) as (o & -> & Ho).
    + apply Forall_skipn; auto.
    + rewrite skipn_length. lia.
    + cbn [rbind]. eexists; split; [reflexivity|]. apply bytes_app2; auto.
Qed.
