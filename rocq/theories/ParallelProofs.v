(** Proofs for C88: what the feature [parallel] changes. *)
From Verif Require Import Base ChecksumModel ChecksumSpec ChecksumProofs InflateModel DeflateSpec InflateProofs Lz77Model
  HuffModel DeflateModel DeflateTop PngFilterModel PngPaletteModel PngQuantModel PngDecModel PngModel PngSpec PngEncSpec
  PngFilterProofs PngPackProofs PngDecProofs PngPaletteProofs PngReduceProofs PngFileProofs PngEncodeProofs FilterSpec FilterChoice.

Lemma rows_unique (P : list Z -> list Z -> Z -> list Z -> Prop) sb : 0 < sb ->
  (forall prev row t f t' f', P prev row t f -> P prev row t' f' -> t = t' /\ f = f') ->
  forall prev raw a, rows_such P sb prev raw a -> forall b, rows_such P sb prev raw b -> a = b.
Proof.
  intros S U prev raw a R. induction R as [prev|prev row t f raws filts L1 L2 H R IH]; intros b Rb.
  - remember [] as e eqn:E in Rb. destruct Rb as [|prev row t f raws filts L1 _ _ _]; [reflexivity|]. destruct row; [change (zlen (@nil Z)) with 0 in L1; lia|discriminate E].
  - apply rows_inv in Rb; [|assumption|assumption]. destruct Rb as (t' & f' & filts' & -> & L' & H' & R'). destruct (U _ _ _ _ _ _ H H') as [-> ->]. rewrite (IH _ R'). reflexivity.
Qed.
Lemma filters_same data width height sb bpp s : 0 < bpp -> 0 < sb -> 0 <= height -> bytes data -> zlen data = sb * height ->
  s <> SAdaptiveFast \/ width * height <= 4096 \/ height <= 32 ->
  apply_filters_with_row_bytes true data width height sb bpp s = apply_filters_with_row_bytes false data width height sb bpp s.
Proof.
  intros Hb Hs Hh Hd Hl C. destruct (is_search s) eqn:S.
  - destruct (Z.le_gt_cases (width * height) 4096) as [L|L].
    + rewrite (small_search true), (small_search false) by assumption. unfold apply_filters_with_row_bytes. cbn [is_search]. rewrite Bool.andb_false_r. cbn [is_search]. rewrite Bool.andb_false_r. reflexivity.
    + destruct (Z.le_gt_cases height 32) as [L2|L2].
      * unfold apply_filters_with_row_bytes. replace (32 <? height) with false by lia. reflexivity.
      * destruct C as [C|C]; [|lia]. destruct (filters_by true data width height sb bpp s C) as (a & -> & Ra); auto; try lia. destruct (filters_by false data width height sb bpp s C) as (b & -> & Rb); auto; try lia.
        f_equal. apply (rows_unique (by_strategy bpp s) sb Hs) with (repeat 0 (Z.to_nat sb)) data; auto. intros prev row t f t' f' (F & _) (F' & _). rewrite F in F'. injection F' as -> ->. split; reflexivity.
  - unfold apply_filters_with_row_bytes. rewrite S, Bool.andb_false_r. cbn [andb]. rewrite S, Bool.andb_false_r. reflexivity.
Qed.

(** the same surroundings, with or without the feature *)
Definition with_par (e : env) (b : bool) : env := mkEnv (e_fast e) (e_opt e) (e_float e) (e_top e) b.
Lemma body_same e data o : 0 < o_width o -> 0 < o_height o -> image_ok (o_ct o) data (o_width o * o_height o) -> (o_palette o = true -> 4 * (o_width o * o_height o) < 2 ^ 32) ->
  o_filter o <> SAdaptiveFast \/ o_width o * o_height o <= 4096 \/ o_height o <= 32 ->
  encode_body (with_par e true) data o = encode_body (with_par e false) data o.
Proof.
  intros Hw Hh Hi Hp C. destruct (maybe_reduce_ok data (o_width o) (o_height o) (o_ct o) (o_reduce o) (o_palette o) (o_alpha o)) as (rd & want & E & F & (px & C1 & C2 & C3 & C4) & K1 & K2); auto.
  unfold encode_body. rewrite E. cbn [rbind]. cbn [with_par e_par].
  change (if rd_depth rd <? 8 then ceil8 (o_width o * rd_depth rd) else o_width o * rd_bpp rd) with (row_bytes_of (o_width o) rd).
  rewrite (filters_same (maybe_optimize_alpha (rd_data rd) (rd_ct rd) (o_alpha o))); [reflexivity| | | | | |exact C].
  - apply (rf_bpp _ _ _ _ F).
  - unfold row_bytes_of. pose proof (rf_bpp _ _ _ _ F). pose proof (rf_depth _ _ _ _ F) as V. destruct (rf_byte_byte _ _ _ _ F) as (_ & B). unfold is_byte in B.
    destruct (rd_depth rd <? 8); [|nia]. assert (0 < rd_depth rd) by (destruct (Z.eq_dec (rd_depth rd) 0) as [Z0|]; [rewrite Z0 in V; destruct (pct (rd_byte rd)); discriminate V|lia]).
    unfold ceil8. apply Z.div_str_pos. nia.
  - lia.
  - exact C3.
  - rewrite C2. apply (rf_len _ _ _ _ F).
Qed.
Lemma indexed_same e data w h pal trns o : indexed_body (with_par e true) data w h pal trns o = indexed_body (with_par e false) data w h pal trns o.
Proof.
  unfold indexed_body. cbn [with_par e_par]. assert (apply_filters true data w h 1 (indexed_filter (o_filter o)) = apply_filters false data w h 1 (indexed_filter (o_filter o))) as ->; [|reflexivity].
  assert (is_search (indexed_filter (o_filter o)) = false) as S by (destruct (o_filter o); reflexivity). unfold apply_filters, apply_filters_with_row_bytes. rewrite S, Bool.andb_false_r. cbn [andb]. rewrite S, Bool.andb_false_r. reflexivity.
Qed.
Lemma encode_same e buf data o : 0 <= o_width o -> 0 <= o_height o -> bytes data -> (o_palette o = true -> 4 * (o_width o * o_height o) < 2 ^ 32) ->
  o_filter o <> SAdaptiveFast \/ o_width o * o_height o <= 4096 \/ o_height o <= 32 \/ should_quantize data o = true ->
  encode_into (with_par e true) buf data o = encode_into (with_par e false) buf data o.
Proof.
  intros Hw Hh Hb Hp C. pose proof (encode_into_checks (with_par e true) buf data o Hw Hh) as A. pose proof (encode_into_checks (with_par e false) buf data o Hw Hh) as B.
  destruct (rejects o (zlen data)); [congruence|]. destruct A as (-> & Lv & Rw & Rh & Ln), B as (-> & _).
  destruct (should_quantize data o) eqn:Q.
  - cbn [with_par e_float e_top]. destruct (let* (pal, idx) := quantize_image _ _ _ _ _ _ _ _ in _) as [[[pal idx] alpha]|er| |]; try reflexivity.
    unfold encode_indexed_into. rewrite indexed_same. reflexivity.
  - rewrite body_same; auto; try lia; [|destruct C as [|[|[|]]]; auto; discriminate]. split; [nia|]. split; [exact Hb|exact Ln].
Qed.

(** *** The default strategy *)
(** a row of zeros and 32 rows of stripes *)
Definition stripes : list Z := repeat 0 128 ++ concat (repeat (concat (repeat [0; 100] 64)) 32).
Definition stripes_opts : options := mkOpts 128 33 Gray 2 SAdaptiveFast false false false false false QOff 256 false.
Lemma stripes_differ : match apply_filters true stripes 128 33 1 SAdaptiveFast, apply_filters false stripes 128 33 1 SAdaptiveFast with
  | Ok a, Ok b => negb (znth a 258 =? znth b 258) | _, _ => false end = true.
Proof. vm_compute. reflexivity. Qed.
Lemma stripes_bytes : bytes stripes.
Proof. apply bytes_of_check. vm_compute. reflexivity. Qed.
Lemma stripes_ok : accepted stripes_opts stripes.
Proof. split; [cbn; lia|]. split; [cbn; lia|]. split; [cbn; lia|]. split; [cbn; lia|]. split; [exact stripes_bytes|vm_compute; reflexivity]. Qed.
Lemma files_unique w h d c pal trns z z' : 0 <= w < 2 ^ 32 -> 0 <= h < 2 ^ 32 -> png_ct_of c = Ok (pct c) ->
  Forall wf_chunk (file_chunks w h d c pal trns z) -> Forall wf_chunk (file_chunks w h d c pal trns z') ->
  png_file (file_chunks w h d c pal trns z) = png_file (file_chunks w h d c pal trns z') -> z = z'.
Proof.
  intros Hw Hh Hc W W' E. unfold png_file in E. apply app_inv_head in E. change (chunk_file (file_chunks w h d c pal trns z) = chunk_file (file_chunks w h d c pal trns z')) in E.
  set (cs := file_chunks w h d c pal trns z) in *. set (cs' := file_chunks w h d c pal trns z') in *.
  destruct (parse_many cs (length cs + length cs') [] c_init W ltac:(lia)) as (_ & _ & P). destruct (parse_many cs' (length cs + length cs') [] c_init W' ltac:(lia)) as (_ & _ & P').
  rewrite <- E, P in P'. unfold cs, cs' in P'. rewrite !run_file in P' by assumption. cbn [rbind c_end] in P'. unfold file_chunks at 1 3 in P'. injection P'. auto.
Qed.
Lemma stripes_body e : comp_ok e stripes_opts -> forall b, exists f z, apply_filters b stripes 128 33 1 SAdaptiveFast = Ok f /\ zlib_stream z f /\ bytes z /\
  encode (with_par e b) stripes stripes_opts = Ok (png_file (file_chunks 128 33 8 0 None None z)) /\ Forall wf_chunk (file_chunks 128 33 8 0 None None z).
Proof.
  intros Hc b. pose proof stripes_bytes as Sb. assert (zlen stripes = 4224) as Sl by (vm_compute; reflexivity).
  destruct (apply_filters_good b stripes 128 33 128 1 SAdaptiveFast) as (f & E & Fb & Fl & Fi); try lia; try assumption.
  destruct (Hc f Fb) as (z & Ez & Zb & Zs). { rewrite Fl. unfold room. cbn. lia. }
  exists f, z. split; [exact E|]. split; [exact Zs|]. split; [exact Zb|].
  assert (pal_fits None) as Pf by (intros p; discriminate). assert (trns_fits None) as Tf by (intros p; discriminate).
  pose proof (file_chunks_wf 128 33 8 0 None None z ltac:(lia) ltac:(lia) ltac:(unfold is_byte; lia) ltac:(unfold is_byte; lia) Pf Tf Zb) as W.
  pose proof (written_file 128 33 8 0 None None z ltac:(lia) ltac:(lia) ltac:(unfold is_byte; lia) ltac:(unfold is_byte; lia) Pf Tf Zb) as Wr. split; [|exact W].
  unfold encode. assert (encode_into (with_par e b) [] stripes stripes_opts = finish_into (encode_body (with_par e b) stripes stripes_opts)) as ->.
  { pose proof (encode_into_checks (with_par e b) [] stripes stripes_opts ltac:(cbn; lia) ltac:(cbn; lia)) as A. unfold rejects in A. rewrite Sl in A. exact (proj1 A). }
  assert (encode_body (with_par e b) stripes stripes_opts = Ok (png_file (file_chunks 128 33 8 0 None None z))) as ->; [|reflexivity].
  rewrite <- Wr. unfold encode_body. cbn [stripes_opts o_width o_height o_ct o_reduce o_palette o_alpha o_filter o_strip with_par e_par].
  change (maybe_reduce_color_type stripes 128 33 Gray false false) with (Ok (plain stripes Gray)). cbn [rbind plain rd_depth rd_byte rd_pal rd_data rd_ct rd_bpp].
  change (maybe_optimize_alpha stripes Gray false) with stripes. change (128 * bytes_per_pixel Gray) with 128. change (8 <? 8) with false. cbn iota. change (bytes_per_pixel Gray) with 1. rewrite E. cbn [rbind].
  match goal with |- context [compress ?x ?y f] => change (compress x y f) with (compress e stripes_opts f) end. rewrite Ez. reflexivity.
Qed.
Lemma default_differs e : comp_ok e stripes_opts -> exists a b, encode (with_par e true) stripes stripes_opts = Ok a /\ encode (with_par e false) stripes stripes_opts = Ok b /\ a <> b.
Proof.
  intros Hc. destruct (stripes_body e Hc true) as (f & z & F & Zs & Zb & E & W). destruct (stripes_body e Hc false) as (f' & z' & F' & Zs' & Zb' & E' & W').
  eexists. eexists. split; [exact E|]. split; [exact E'|]. intros Q.
  apply files_unique in Q; try assumption; try lia; [|reflexivity]. subst z'.
  destruct (inflate_zlib_complete z f Zb Zs) as (I & _). destruct (inflate_zlib_complete z f' Zb Zs') as (I' & _). assert (f = f') by congruence. subst f'.
  pose proof stripes_differ as D. rewrite F, F', Z.eqb_refl in D. discriminate D.
Qed.
