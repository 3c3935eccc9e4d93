(** Proofs for C81 and C82. *)
From Verif Require Import Base CanonSpec CanonProofs DeflateSpec ChecksumModel ChecksumSpec InflateModel InflateProofs Lz77Model HuffModel DeflateModel DeflateTop LzOptModel LzOptTop
  PngFilterModel PngPaletteModel PngQuantModel PngDecModel PngModel PngSpec PngEncSpec PngFilterProofs PngPackProofs PngDecProofs PngPaletteProofs PngReduceProofs PngFileProofs
  PngQuantProofs PngEncodeProofs PngTop PngApi CliSpec CliProofs SizeSpec.
From Coq Require Import Permutation.

(** ** What DEFLATE bits can stand for *)
Lemma copy_back_len n d out : zlen (copy_back n d out) = zlen out + Z.of_nat n.
Proof. revert out. induction n as [|n IH]; intros out; cbn [copy_back]; [lia|]. rewrite IH, zlen_app, zlen_cons, zlen_nil. lia. Qed.
Lemma word_len lens s : has_code lens s -> (1 <= length (code_word lens s))%nat.
Proof. intros (_ & H). unfold code_word. rewrite rev_length, bits_of_length. lia. Qed.
Lemma tok_cost ll dl t b out out' : tok_bits ll dl t b -> expand1 out t = Some out' -> zlen out' <= zlen out + 129 * Z.of_nat (length b).
Proof.
  intros T E. destruct T as [v Hv C|li lb le x di db de y A B C D F G].
  - cbn in E. destruct (_ && _); [|discriminate]. injection E as <-. rewrite zlen_app, zlen_cons, zlen_nil. pose proof (word_len _ _ C). lia.
  - unfold expand1 in E. destruct ((3 <=? lb + x) && (lb + x <=? 258) && (1 <=? db + y) && (db + y <=? 32768) && (db + y <=? zlen out)) eqn:Q; [|discriminate].
    injection E as <-. rewrite copy_back_len, !app_length. pose proof (word_len _ _ C). pose proof (word_len _ _ G). lia.
Qed.
Lemma toks_cost ll dl ts b : toks_bits ll dl ts b -> forall out out', expand out ts = Some out' -> zlen out' <= zlen out + 129 * Z.of_nat (length b).
Proof.
  induction 1 as [|t ts b bs T _ IH]; intros out out' E.
  - cbn in E. injection E as <-. cbn. lia.
  - cbn [expand] in E. destruct (expand1 out t) as [o1|] eqn:E1; [|discriminate]. pose proof (tok_cost _ _ _ _ _ _ T E1). specialize (IH _ _ E). rewrite app_length. lia.
Qed.
Lemma block_cost K out bits out' rest : block K out bits out' rest -> zlen out' + 129 * Z.of_nat (length rest) <= zlen out + 129 * Z.of_nat (length bits).
Proof.
  intros B. destruct B as [out pad data rest P By L M|out ts bs out' rest B E|out hb ll dl ts bs out' rest Hd K1 K2 B E].
  - rewrite zlen_app, !app_length, bytes_bits_length. cbn [length]. unfold zlen. lia.
  - destruct B as [ts bs T C]. pose proof (toks_cost _ _ _ _ T _ _ E). rewrite !app_length. cbn [length]. lia.
  - destruct B as [ts bs T C]. pose proof (toks_cost _ _ _ _ T _ _ E). rewrite !app_length. cbn [length]. lia.
Qed.
Lemma blocks_cost K out bits out' rest : blocks K out bits out' rest -> zlen out' + 129 * Z.of_nat (length rest) <= zlen out + 129 * Z.of_nat (length bits).
Proof.
  induction 1 as [out bits out' rest B|out bits o1 mid out' rest B _ IH]; pose proof (block_cost _ _ _ _ _ B); cbn [length]; lia.
Qed.
Lemma inflate_cost data out : bytes data -> inflate data = Ok out -> zlen out <= 1032 * zlen data.
Proof.
  intros B E. destruct (inflate_sound _ _ B E) as (rest & H). apply blocks_cost in H. rewrite bytes_bits_length, zlen_nil in H. unfold zlen in *. lia.
Qed.
Lemma inflate_zlib_cost data x out : bytes data -> inflate_zlib data x = Ok out -> zlen out <= 1032 * (zlen data - 6).
Proof.
  intros B E. destruct (inflate_zlib_sound _ _ _ B E) as ((cmf & flg & body & a & b & c & d & rest & -> & _ & _ & _ & H & _) & _).
  apply blocks_cost in H. rewrite bytes_bits_length, zlen_nil in H. rewrite !zlen_app. unfold zlen in *. cbn [length]. lia.
Qed.

(** ** Decoded PNG images *)
Lemma effect_idat ty d st st' : chunk_effect ty d st = Ok st' -> c_idat st' = c_idat st \/ c_idat st' = c_idat st ++ d.
Proof.
  unfold chunk_effect. destruct (zs_eqb ty T_IHDR). { destruct (parse_ihdr d); cbn [rbind]; try discriminate. intros [= <-]. left. reflexivity. }
  destruct (zs_eqb ty T_PLTE). { destruct (parse_plte d); cbn [rbind]; try discriminate. intros [= <-]. left. reflexivity. }
  destruct (zs_eqb ty T_tRNS); [intros [= <-]; left; reflexivity|]. destruct (zs_eqb ty T_IDAT); [intros [= <-]; right; reflexivity|].
  destruct (zs_eqb ty T_IEND); intros [= <-]; left; reflexivity.
Qed.
Lemma bytes_skipn n l : bytes l -> bytes (skipn n l).
Proof. apply Forall_skipn. Qed.
Lemma parse_idat fuel : forall rest st st', bytes rest -> bytes (c_idat st) -> parse_chunks fuel rest st = Ok st' ->
  bytes (c_idat st') /\ zlen (c_idat st') <= zlen (c_idat st) + zlen rest.
Proof.
  induction fuel as [|f IH]; intros rest st st' B1 B2 E; cbn [parse_chunks] in E.
  - destruct (negb _); [injection E as <-; split; [exact B2|pose proof (zlen_nonneg rest); lia]|discriminate].
  - destruct (negb _). { injection E as <-. split; [exact B2|pose proof (zlen_nonneg rest); lia]. }
    destruct (get_be32 rest 0) as [len| | |]; cbn [rbind] in E; try discriminate. destruct (slice_r rest 4 8) as [ty| | |]; cbn [rbind] in E; try discriminate.
    destruct (Z.ltb_spec (zlen rest) (8 + len + 4)) as [_|Ln]; [discriminate|]. destruct (slice_r rest 8 (8 + len)) as [d| | |] eqn:Ed; cbn [rbind] in E; try discriminate.
    destruct (get_be32 rest (8 + len)) as [crc| | |]; cbn [rbind] in E; try discriminate. destruct (negb _); [discriminate|].
    destruct (chunk_effect ty d st) as [s1| | |] eqn:Es; cbn [rbind] in E; try discriminate.
    assert (0 <= len /\ bytes d /\ zlen d = len) as (L0 & Bd & Ld).
    { unfold slice_r in Ed. destruct (Z.leb_spec 0 8); [|lia]. destruct (Z.leb_spec 8 (8 + len)); [|discriminate]. destruct (Z.leb_spec (8 + len) (zlen rest)); [|discriminate].
      cbn in Ed. injection Ed as <-. split; [lia|]. unfold slice. split; [apply Forall_firstn, Forall_skipn, B1|]. unfold zlen in *. rewrite firstn_length, skipn_length. lia. }
    assert (bytes (c_idat s1) /\ zlen (c_idat s1) <= zlen (c_idat st) + len) as (Bs & Ls).
    { destruct (effect_idat _ _ _ _ Es) as [-> | ->]; [split; [exact B2|lia]|]. split; [apply Forall_app; auto|rewrite zlen_app; lia]. }
    destruct (c_end s1). { injection E as <-. split; [exact Bs|lia]. }
    destruct (IH _ _ _ (bytes_skipn _ _ B1) Bs E) as (B3 & L3). split; [exact B3|]. unfold zlen in *. rewrite skipn_length in L3. lia.
Qed.
Lemma layout_pixels h bpp sb ct trns : 0 < ih_width h -> valid_depth (ih_ct h) (ih_depth h) = true -> layout h = (bpp, sb) -> ct = output_ct h trns ->
  ih_width h * bytes_per_pixel ct <= 32 * sb.
Proof.
  intros W V L ->. unfold valid_depth in V. unfold layout in L. unfold output_ct. destruct (ih_ct h); injection L as _ <-.
  - cbn [bytes_per_pixel]. unfold ceil8. assert (1 <= ih_depth h) by lia. assert (ih_width h <= ih_width h * ih_depth h) by nia. lia.
  - cbn [bytes_per_pixel]. apply orb_prop in V as [V|V]; apply Z.eqb_eq in V; rewrite V; [change (3 * 8 / 8) with 3|change (3 * 16 / 8) with 6]; lia.
  - unfold ceil8. assert (1 <= ih_depth h) by lia. assert (ih_width h <= ih_width h * ih_depth h) by nia. destruct (has_alpha_in_trns trns); cbn [bytes_per_pixel]; lia.
  - cbn [bytes_per_pixel]. apply orb_prop in V as [V|V]; apply Z.eqb_eq in V; rewrite V; [change (2 * 8 / 8) with 2|change (2 * 16 / 8) with 4]; lia.
  - cbn [bytes_per_pixel]. apply orb_prop in V as [V|V]; apply Z.eqb_eq in V; rewrite V; [change (4 * 8 / 8) with 4|change (4 * 16 / 8) with 8]; lia.
Qed.
Lemma decode_png_cost file im : bytes file -> decode_png file = Ok im -> im_width im * im_height im * bytes_per_pixel (im_ct im) <= 33024 * zlen file.
Proof.
  intros B E. assert (good_image im) as G by (destruct (decode_png_total file B) as [(x & Ex & G)|(er & Er)]; congruence). unfold decode_png in E. destruct (_ || _) eqn:Hs; [discriminate|]. destruct (parse_chunks _ _ _) as [st| | |] eqn:P; cbn [rbind] in E; try discriminate.
  destruct (parse_idat _ _ _ _ (bytes_skipn 8 _ B) (Forall_nil _ : bytes (c_idat c_init)) P) as (Bi & Li). cbn [c_init c_idat] in Li. rewrite zlen_nil in Li.
  unfold finish_decode in E. destruct (negb (c_end st)); [discriminate|]. destruct (c_ihdr st) as [h|]; [|discriminate].
  destruct (_ || _) eqn:Z0 in E; [discriminate|]. destruct (_ || _) eqn:Zm in E; [discriminate|]. destruct (negb _) in E; [discriminate|]. destruct (negb _) in E; [discriminate|].
  destruct (negb _) in E; [discriminate|]. destruct (negb (valid_depth _ _)) eqn:V in E; [discriminate|]. destruct (c_idat st) as [|i0 idat] eqn:Ei; [discriminate|]. rewrite <- Ei in *.
  destruct (calculate_expected_size h) as [e| | |]; cbn [rbind] in E; try discriminate. destruct (inflate_zlib _ _) as [dec| | |] eqn:I; cbn [rbind] in E; try discriminate.
  destruct (reconstruct_image h dec (c_pal st) (c_trns st)) as [px| | |] eqn:R; cbn [rbind] in E; try discriminate. injection E as <-. cbn [im_width im_height im_ct].
  apply inflate_zlib_cost in I; [|exact Bi]. unfold reconstruct_image in R. destruct (layout h) as [bpp sb] eqn:Ly.
  destruct (Z.ltb_spec (zlen dec) (ih_height h * (1 + sb))) as [_|Ld]; [discriminate|].
  assert (0 < ih_width h /\ 0 < ih_height h) as (W & Hh) by (destruct G as (? & ? & _); cbn in *; lia).
  pose proof (layout_pixels h bpp sb _ (c_trns st) W ltac:(destruct (valid_depth _ _); [reflexivity|discriminate V]) Ly eq_refl) as LP.
  assert (zlen (skipn 8 file) <= zlen file) by (unfold zlen; rewrite skipn_length; lia).
  set (n := ih_width h * bytes_per_pixel (output_ct h (c_trns st))) in *.
  replace (ih_width h * ih_height h * bytes_per_pixel (output_ct h (c_trns st))) with (ih_height h * n) by (unfold n; ring). nia.
Qed.

Lemma reserves_cost file im n : bytes file -> decode_png file = Ok im -> png_reserves file = Some n -> n <= 1032 * zlen file.
Proof.
  intros B E N. unfold decode_png in E. unfold png_reserves in N. destruct (_ || negb (zs_eqb _ _)) eqn:Hs; [discriminate|]. destruct (parse_chunks _ _ _) as [st| | |] eqn:P; cbn [rbind] in E; try discriminate.
  destruct (parse_idat _ _ _ _ (bytes_skipn 8 _ B) (Forall_nil _ : bytes (c_idat c_init)) P) as (Bi & Li). cbn [c_init c_idat] in Li. rewrite zlen_nil in Li.
  unfold finish_decode in E. destruct (negb (c_end st)); [discriminate|]. destruct (c_ihdr st) as [h|]; [|discriminate].
  destruct (_ || _) in N; [discriminate|].
  destruct (_ || _) in E; [discriminate|]. destruct (_ || _) in E; [discriminate|]. destruct (negb _) in E; [discriminate|]. destruct (negb _) in E; [discriminate|].
  destruct (negb _) in E; [discriminate|]. destruct (negb (valid_depth _ _)) in E; [discriminate|]. destruct (c_idat st) as [|i0 idat] eqn:Ei; [discriminate|]. rewrite <- Ei in *.
  destruct (calculate_expected_size h) as [e| | |]; cbn [rbind] in E; try discriminate. destruct (inflate_zlib _ _) as [dec| | |] eqn:I; cbn [rbind] in E; try discriminate.
  injection N as <-. pose proof (inflate_zlib_cost _ _ _ Bi I) as C. destruct (inflate_zlib_sound _ _ _ Bi I) as (_ & X). specialize (X e eq_refl).
  assert (zlen (skipn 8 file) <= zlen file) by (unfold zlen; rewrite skipn_length; lia). lia.
Qed.

(** ** zlib streams *)
Lemma ok_eq {A} (a c : A) : Ok a = Ok c -> c = a.
Proof. congruence. Qed.
Lemma ok_fst {A B} (a c : A) (b d : B) : Ok (a, b) = Ok (c, d) -> c = a.
Proof. congruence. Qed.
Lemma empty_fixed : empty_deflate_fixed_block = Ok [3; 0].
Proof. vm_compute. reflexivity. Qed.
Lemma empty_zlib_eq l : empty_zlib l = Ok (zlib_header l ++ [3; 0] ++ be32 (adler32 [])).
Proof. unfold empty_zlib. rewrite empty_fixed. reflexivity. Qed.
Lemma bound_mono m n : 0 <= m <= n -> zlib_bound m <= zlib_bound n.
Proof. intros H. unfold zlib_bound. pose proof (Z.div_le_mono m n 65535 ltac:(lia) ltac:(lia)). lia. Qed.
Lemma stored_len data : zlen (deflate_stored data) <= zlen data + 5 * (zlen data / 65535 + 1).
Proof. rewrite deflate_stored_size. pose proof (zlen_nonneg data). lia. Qed.
Lemma wrap_len l data o : zlen (zlib_wrap l data o) <= zlib_bound (zlen data).
Proof.
  unfold zlib_wrap, zlib_bound. rewrite !zlen_app. change (zlen (zlib_header l)) with 2. change (zlen (be32 (adler32 data))) with 4.
  unfold should_use_stored. destruct (Z.leb_spec (zlen data + (zlen data / 65535 + 1) * 5 + 2 + 4) (zlen o + 2 + 4)); [pose proof (stored_len data)|]; lia.
Qed.
Lemma stored_zlib_len l data : zlen (zlib_header l ++ deflate_stored data ++ be32 (adler32 data)) <= zlib_bound (zlen data).
Proof. unfold zlib_bound. rewrite !zlen_app. change (zlen (zlib_header l)) with 2. change (zlen (be32 (adler32 data))) with 4. pose proof (stored_len data). lia. Qed.
Lemma bound_8 n : 0 <= n -> 8 <= zlib_bound n.
Proof. intros H. unfold zlib_bound. pose proof (Z.div_pos n 65535 H ltac:(lia)). lia. Qed.
Lemma pool_len {T} p level f (o : T) p' (P : T -> Prop) : with_reusable_deflater p level f = Ok (o, p') -> (forall d o' d', f d = Ok (o', d') -> P o') -> P o.
Proof.
  unfold with_reusable_deflater. destruct (get p (clamp_level level)) as [g| | |]; cbn [rbind]; try discriminate.
  destruct (f (if d_level g =? clamp_level level then g else deflater_new (clamp_level level))) as [[o' g']| | |] eqn:E; cbn [rbind]; try discriminate.
  intros Y H. apply ok_fst in Y. rewrite Y. exact (H _ _ _ E).
Qed.
Lemma zlib_len H E p data level z p' : deflate_zlib H E p data level = Ok (z, p') -> zlen z <= zlib_bound (zlen data).
Proof.
  unfold deflate_zlib. destruct (if 4096 <=? zlen data then _ else _) as [hi| | |]; cbn [rbind]; try discriminate. destruct hi.
  { intros Y. apply ok_fst in Y. rewrite Y. apply stored_zlib_len. }
  intros X. apply (pool_len _ _ _ _ _ (fun z => zlen z <= zlib_bound (zlen data)) X). intros d o d' Y. unfold d_compress_zlib in Y. destruct data as [|b data].
  - rewrite empty_zlib_eq in Y. cbn [rbind] in Y. apply ok_fst in Y; rewrite Y. apply (bound_8 0). lia.
  - destruct (run_lz77 d (b :: data)) as [d1| | |]; cbn [rbind] in Y; try discriminate. destruct (encode_tokens _ _ _ _ _) as [o1| | |]; cbn [rbind] in Y; try discriminate.
    apply ok_fst in Y; rewrite Y. apply wrap_len.
Qed.
Lemma zlib_packed_len H p data level z p' : deflate_zlib_packed H p data level = Ok (z, p') -> zlen z <= zlib_bound (zlen data).
Proof.
  unfold deflate_zlib_packed. destruct (if 4096 <=? zlen data then _ else _) as [hi| | |]; cbn [rbind]; try discriminate. destruct hi.
  { intros Y. apply ok_fst in Y. rewrite Y. apply stored_zlib_len. }
  intros X. apply (pool_len _ _ _ _ _ (fun z => zlen z <= zlib_bound (zlen data)) X). intros d o d' Y. unfold d_compress_packed_zlib in Y. destruct data as [|b data].
  - rewrite empty_zlib_eq in Y. cbn [rbind] in Y. apply ok_fst in Y; rewrite Y. apply (bound_8 0). lia.
  - destruct (run_lz77_packed d (b :: data)) as [d1| | |]; cbn [rbind] in Y; try discriminate. destruct (_ && _).
    { apply ok_fst in Y; rewrite Y. apply stored_zlib_len. }
    destruct (encode_best_huffman_packed _ _) as [o1| | |]; cbn [rbind] in Y; try discriminate. apply ok_fst in Y; rewrite Y. apply wrap_len.
Qed.
Lemma zlib_optimal_len H E log2 data n z : deflate_optimal_zlib H E log2 data n = Ok z -> zlen z <= zlib_bound (zlen data).
Proof.
  unfold deflate_optimal_zlib, deflate_optimal_split_zlib. destruct data as [|b data].
  - rewrite empty_zlib_eq. intros Y. apply ok_eq in Y. rewrite Y. apply (bound_8 0). lia.
  - destruct (512 * 1024 <? zlen (b :: data)).
    + destruct (deflate_optimal _ _ _ _) as [o| | |]; cbn [rbind]; try discriminate. intros Y. apply ok_eq in Y. rewrite Y. apply wrap_len.
    + destruct (deflate_optimal_split _ _ _ _ _ _) as [o| | |]; cbn [rbind]; try discriminate. intros Y. apply ok_eq in Y. rewrite Y. apply wrap_len.
Qed.
Lemma compress_len e o data z : pixo_compressors e -> compress e o data = Ok z -> zlen z <= zlib_bound (zlen data).
Proof.
  intros (H & p & E & log2 & _ & F & _ & _ & O) X. unfold compress in X. rewrite F, O in X. destruct (o_optimal o); [exact (zlib_optimal_len _ _ _ _ _ _ X)|].
  unfold fast_of in X. destruct (deflate_zlib_packed H p data (o_level o)) as [[z' p']| | |] eqn:Y; cbn [rbind] in X; try discriminate. injection X as <-. exact (zlib_packed_len _ _ _ _ _ _ Y).
Qed.

(** ** PNG files *)
Lemma chunk_len ty d : zlen ty = 4 -> zlen (chunk_bytes ty d) = 12 + zlen d.
Proof. intros H. unfold chunk_bytes. rewrite !zlen_app, H. change (zlen (be32 (wrap 32 (zlen d)))) with 4. change (zlen (be32 (crc_finalize (crc_update (crc_update crc_new ty) d)))) with 4. lia. Qed.
Lemma chunks_total ty (l : list (list Z)) : zlen ty = 4 -> zlen (flat_map (chunk_bytes ty) l) = zlen (concat l) + 12 * zlen l.
Proof. intros H. induction l as [|c l IH]; [reflexivity|]. cbn [flat_map concat]. rewrite !zlen_app, zlen_cons, IH, (chunk_len _ _ H). lia. Qed.
Lemma idat_len z : zlen (idat_bytes z) <= zlen z + 12 * (zlen z / 262144 + 1).
Proof.
  unfold idat_bytes. rewrite chunks_total by reflexivity. rewrite chunks_concat by apply idat_pos.
  unfold IDAT_CHUNK. rewrite chunks_count by lia. pose proof (zlen_nonneg z). lia.
Qed.
Lemma strip_loop_len fuel : forall rest r, strip_loop fuel rest = Ok r -> zlen r <= zlen rest.
Proof.
  induction fuel as [|f IH]; intros rest r E; cbn [strip_loop] in E.
  - destruct (negb _); [apply ok_eq in E; rewrite E; apply zlen_nonneg|discriminate].
  - destruct (negb _). { apply ok_eq in E. rewrite E. apply zlen_nonneg. }
    destruct (get_be32 rest 0) as [len| | |]; cbn [rbind] in E; try discriminate. destruct (slice_r rest 4 8) as [ty| | |]; cbn [rbind] in E; try discriminate.
    destruct (Z.ltb_spec (zlen rest) (8 + len + 4)). { apply ok_eq in E. rewrite E. apply zlen_nonneg. }
    destruct (get ty 0) as [t0| | |]; cbn [rbind] in E; try discriminate.
    assert (forall keep, (if negb (Z.land t0 32 =? 0) && (zs_eqb ty T_tEXt || zs_eqb ty T_zTXt || zs_eqb ty T_iTXt || zs_eqb ty T_tIME) then Ok [] else slice_r rest 0 (8 + len + 4)) = Ok keep ->
      zlen keep <= Z.max 0 (8 + len + 4)) as K.
    { intros keep. destruct (_ && _); [intros [= <-]; rewrite zlen_nil; lia|]. unfold slice_r. destruct (_ && _) eqn:Q; [|discriminate]. intros [= <-].
      unfold slice, zlen. rewrite firstn_length. lia. }
    destruct (if negb (Z.land t0 32 =? 0) && _ then _ else _) as [keep| | |]; cbn [rbind] in E; try discriminate. specialize (K keep eq_refl).
    destruct (zs_eqb ty T_IEND). { apply ok_eq in E. rewrite E. pose proof (zlen_nonneg rest). lia. }
    destruct (strip_loop f (skipn (Z.to_nat (8 + len + 4)) rest)) as [more| | |] eqn:M; cbn [rbind] in E; try discriminate. apply ok_eq in E. rewrite E, zlen_app.
    apply IH in M. unfold zlen in *. rewrite skipn_length in M. lia.
Qed.
Lemma strip_len out r : strip_metadata_chunks out = Ok r -> zlen r <= zlen out.
Proof.
  unfold strip_metadata_chunks. destruct (slice_r out 0 8) as [sig| | |] eqn:S; cbn [rbind]; try discriminate.
  destruct (strip_loop _ _) as [m| | |] eqn:M; cbn [rbind]; try discriminate. intros E. apply ok_eq in E. rewrite E, zlen_app. apply strip_loop_len in M.
  unfold slice_r in S. destruct (_ && _) eqn:Q; [|discriminate]. apply ok_eq in S. rewrite S. unfold slice, zlen in *. rewrite skipn_length in M. rewrite firstn_length. cbn [Z.to_nat skipn]. lia.
Qed.
Lemma triples_len {A} (f : A -> list Z) l : (forall x, zlen (f x) = 3) -> zlen (flat_map f l) = 3 * zlen l.
Proof. intros H. induction l as [|x l IH]; [reflexivity|]. cbn [flat_map]. rewrite zlen_app, zlen_cons, H, IH. lia. Qed.
Lemma sum_bound n m (z : list Z) : 0 <= n <= m -> zlen z <= zlib_bound n -> zlen z + 12 * (zlen z / 262144 + 1) + 1093 <= png_bound m.
Proof.
  intros H L. unfold zlib_bound, png_bound in *. pose proof (zlen_nonneg z). lia.
Qed.
Lemma body_len e data o f : pixo_compressors e -> 0 < o_width o -> 0 < o_height o -> image_ok (o_ct o) data (o_width o * o_height o) -> (o_palette o = true -> 4 * (o_width o * o_height o) < 2 ^ 32) ->
  encode_body e data o = Ok f -> zlen f <= png_bound (o_height o * (o_width o * bytes_per_pixel (o_ct o) + 1)).
Proof.
  intros C Hw Hh Hi Hp. set (w := o_width o) in *. set (h := o_height o) in *.
  destruct (maybe_reduce_ok data w h (o_ct o) (o_reduce o) (o_palette o) (o_alpha o)) as (rd & want & E & F & (px & C1 & C2 & C3 & C4) & _); auto; try lia.
  unfold encode_body. fold w h. rewrite E. cbn [rbind].
  change (if rd_depth rd <? 8 then ceil8 (w * rd_depth rd) else w * rd_bpp rd) with (row_bytes_of w rd).
  assert (0 <= row_bytes_of w rd) as Hrb.
  { unfold row_bytes_of. pose proof (rf_bpp _ _ _ _ F). destruct (rf_byte_byte _ _ _ _ F) as (_ & B). unfold is_byte in B.
    destruct (rd_depth rd <? 8); [|nia]. unfold ceil8. apply Z.div_pos; [nia|lia]. }
  destruct (apply_filters_good (e_par e) (maybe_optimize_alpha (rd_data rd) (rd_ct rd) (o_alpha o)) w h (row_bytes_of w rd) (rd_bpp rd) (o_filter o)) as (filt & -> & Fb & Fl & _); auto; try lia.
  { apply (rf_bpp _ _ _ _ F). }
  { rewrite C2. apply (rf_len _ _ _ _ F). }
  cbn [rbind]. destruct (compress e o filt) as [z| | |] eqn:Z0; cbn [rbind]; try discriminate. apply compress_len in Z0; [|exact C].
  assert (h * (row_bytes_of w rd + 1) <= h * (w * bytes_per_pixel (o_ct o) + 1)) as Le.
  { pose proof (rf_small _ _ _ _ F). apply Z.mul_le_mono_nonneg_l; lia. }
  rewrite Fl in Z0. pose proof (sum_bound (h * (row_bytes_of w rd + 1)) _ z ltac:(split; [nia|exact Le]) Z0) as SB. pose proof (idat_len z) as IL.
  match goal with |- (if _ then _ ?x else _) = _ -> _ => assert (zlen x <= zlen z + 12 * (zlen z / 262144 + 1) + 1093) as LX end.
  { rewrite !zlen_app. change (zlen PNG_SIGNATURE) with 8. unfold ihdr_bytes, iend_bytes. rewrite !chunk_len by reflexivity. rewrite !zlen_app.
    change (zlen (be32 w)) with 4. change (zlen (be32 h)) with 4. change (zlen [rd_depth rd; rd_byte rd; 0; 0; 0]) with 5. rewrite zlen_nil.
    destruct (rd_pal rd) as [p|] eqn:Ep; [|rewrite zlen_nil; lia]. destruct (rf_pal _ _ _ _ F p Ep) as (Lp & _). rewrite zlen_app, chunk_len by reflexivity.
    rewrite (triples_len (fun '(r, g, b, _) => [r; g; b])) by (intros [[[r g] b] a]; reflexivity). destruct (existsb _ p); [rewrite chunk_len by reflexivity; rewrite zlen_map|rewrite zlen_nil]; lia. }
  destruct (o_strip o); [intros S; apply strip_len in S; lia|]. intros X. apply ok_eq in X. rewrite X. lia.
Qed.
Lemma indexed_len e data w h pal trns o f m : pixo_compressors e -> 0 < w -> 0 < h -> bytes data -> zlen data = w * h -> zlen pal <= 256 -> (forall t, trns = Some t -> zlen t <= 256) -> h * (w + 1) <= m ->
  indexed_body e data w h pal trns o = Ok f -> zlen f <= png_bound m.
Proof.
  intros C Hw Hh Bd Ld Lp Lt Lm. unfold indexed_body, apply_filters. replace (w * 1) with w by ring.
  destruct (apply_filters_good (e_par e) data w h w 1 (indexed_filter (o_filter o))) as (filt & -> & Fb & Fl & _); auto; try lia.
  cbn [rbind]. destruct (compress e o filt) as [z| | |] eqn:Z0; cbn [rbind]; try discriminate. apply compress_len in Z0; [|exact C]. rewrite Fl in Z0.
  pose proof (sum_bound (h * (w + 1)) m z ltac:(split; [nia|exact Lm]) Z0) as SB. pose proof (idat_len z) as IL.
  intros X. apply ok_eq in X. rewrite X. rewrite !zlen_app. change (zlen PNG_SIGNATURE) with 8. unfold ihdr_bytes, iend_bytes. rewrite !chunk_len by reflexivity. rewrite !zlen_app.
  change (zlen (be32 w)) with 4. change (zlen (be32 h)) with 4. change (zlen [8; 3; 0; 0; 0]) with 5. rewrite zlen_nil.
  rewrite (triples_len (fun '(r, g, b) => [r; g; b])) by (intros [[r g] b]; reflexivity).
  destruct trns as [t|]; [specialize (Lt t eq_refl); rewrite chunk_len by reflexivity|rewrite zlen_nil]; lia.
Qed.
Lemma finish_ok r out : finish_into r = (out, Ok tt) -> r = Ok out.
Proof. unfold finish_into. destruct r; try discriminate. congruence. Qed.
Lemma indexed_into_len e output data w h pal trns o f m : pixo_compressors e -> 0 < w -> 0 < h -> bytes data -> h * (w + 1) <= m ->
  encode_indexed_into e output data w h pal trns o = (f, Ok tt) -> zlen f <= png_bound m.
Proof.
  intros C Hw Hh Bd Lm. unfold encode_indexed_into. destruct ((zlen pal =? 0) || (256 <? zlen pal)) eqn:Q1; [discriminate|].
  destruct (match trns with Some a => zlen pal <? zlen a | None => false end) eqn:Q2; [discriminate|].
  destruct (checked_expected_len w h 1 (zlen data)) as [x| | |] eqn:X; try discriminate.
  destruct (Z.eqb_spec (zlen data) x) as [L|]; [|discriminate]. cbn [negb]. intros E. apply finish_ok in E.
  apply (indexed_len e data w h pal trns o f m) in E; auto; try lia.
  - rewrite L. unfold checked_expected_len in X. destruct (2 ^ 64 <=? w * h); [discriminate|]. destruct (2 ^ 64 <=? w * h * 1); [discriminate|]. apply ok_eq in X. rewrite X. lia.
  - intros t ->. lia.
Qed.
Lemma png_len e data o f : pixo_compressors e -> accepted o data -> 4 * (o_width o * o_height o) < 2 ^ 32 -> 0 <= o_max_colors o ->
  (forall l, Permutation (e_top e l) l) ->
  encode e data o = Ok f -> zlen f <= png_bound (o_height o * (o_width o * bytes_per_pixel (o_ct o) + 1)).
Proof.
  intros C A Sz Mc P E. destruct (accepted_rejects _ _ A) as (Hr & Hw & Hh & Hb). destruct A as (_ & Hw' & Hh' & Hi).
  unfold encode in E. destruct (encode_into e [] data o) as (out, r) eqn:EI. destruct r as [u| | |]; cbn [rbind] in E; try discriminate. destruct u. apply ok_eq in E. rewrite E. clear E f.
  pose proof (encode_into_checks e [] data o Hw Hh) as K. rewrite Hr in K. destruct K as (K & _). rewrite EI in K. clear EI. rename K into EI. symmetry in EI.
  destruct (should_quantize data o) eqn:Q.
  - assert (is_rgb (o_ct o)) as Hct.
    { unfold should_quantize in Q. unfold is_rgb. destruct (o_qmode o); [discriminate| |]; destruct (o_ct o); auto; discriminate. }
    destruct (quantize_ok (e_float e) (e_top e) data (o_width o) (o_height o) (o_ct o) (Z.min (o_max_colors o) 256) (o_dither o)) as (pal & idx & Eq & Lp & Bp & Li & Fi); auto; try lia.
    rewrite Eq in EI. cbn [rbind] in EI. destruct (maybe_trim_transparency _) as [al| | |]; cbn [rbind] in EI; try discriminate.
    eapply indexed_into_len; [exact C| | | | |exact EI]; try lia.
    + eapply Forall_impl; [|exact Fi]. intros v. unfold is_byte. cbn beta. lia.
    + apply Z.mul_le_mono_nonneg_l; [lia|]. pose proof (bpp_le (o_ct o)). nia.
  - apply finish_ok in EI. apply (body_len e data o out); auto; lia.
Qed.
