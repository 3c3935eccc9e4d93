(** The JPEG decoder refuses what it does not support; the pictures it returns are well formed. *)
From Verif Require Import Base BitsModel Lz77Model PngFilterModel PngPaletteModel PngFilterProofs JpegBaseModel JpegDecModel JpegDecTotal CanonSpec MsbSpec JpegSpec JpegFileSpec JpegTop JpegAnySpec JpegAny JpegOtherSpec.
Open Scope Z_scope.

(** ** Segments that are not frame headers *)
Lemma dht_comps f : forall st seg st', parse_dht f st seg = Ok st' -> js_comps st' = js_comps st.
Proof.
  induction f as [|f IH]; intros st [|info r] st' E; cbn [parse_dht] in E; try congruence; try discriminate.
  destruct (_ >? 3); [discriminate|]. destruct (16 >? _); [discriminate|]. cbv zeta in E. destruct (zsum _ >? _); [discriminate|].
  rewrite (IH _ _ _ E). destruct (_ =? 0); reflexivity.
Qed.
Lemma dqt_comps f : forall st seg st', parse_dqt f st seg = Ok st' -> js_comps st' = js_comps st.
Proof.
  induction f as [|f IH]; intros st [|info r] st' E; cbn [parse_dqt] in E; try congruence; try discriminate.
  destruct (_ >? 3); [discriminate|]. cbv zeta in E. destruct (_ =? 0); (destruct (_ >? zlen r); [discriminate|]); rewrite (IH _ _ _ E); reflexivity.
Qed.
Definition goes_on (f : nat) (st : jstate) (rest : list Z) (r : res jimage) : Prop :=
  (exists e, r = Err e) \/ exists st', state_wf st' /\ js_comps st' = js_comps st /\ r = marker_loop f st' rest.
Lemma goes_by f st rest (x : res jstate) : okerr state_wf x -> (forall st', x = Ok st' -> js_comps st' = js_comps st) ->
  goes_on f st rest (let* st := x in marker_loop f st rest).
Proof.
  intros H K. destruct x as [s|e| |]; cbn in H; try contradiction; [|left; exists e; reflexivity].
  right. exists s. split; [exact H|]. split; [apply K; reflexivity|reflexivity].
Qed.
Lemma side_step f st s rest : state_wf st -> side_segment s -> goes_on f st rest (marker_loop (S f) st (any_segment s ++ rest)).
Proof.
  destruct s as [[n m] p]. intros W (HM & HB & HZ). unfold any_segment. rewrite marker_loop_S, fill_marker, read_segment by lia. cbn [rbind].
  destruct (Z.eqb_spec m 192); [lia|]. destruct (Z.eqb_spec m 194); [lia|].
  destruct (Z.eqb_spec m 196); [apply goes_by; [apply JpegDecTotal.parse_dht_ok; auto|apply dht_comps]|].
  destruct (Z.eqb_spec m 219); [apply goes_by; [apply JpegDecTotal.parse_dqt_ok; auto|apply dqt_comps]|].
  destruct (Z.eqb_spec m 221).
  { apply goes_by; [apply parse_dri_ok; auto|]. unfold parse_dri. intros st' E. destruct (negb _); [discriminate|]. injection E as <-. reflexivity. }
  destruct (Z.eqb_spec m 218); [lia|]. destruct (Z.eqb_spec m 217); [lia|]. right. exists st. auto.
Qed.
Lemma side_steps l : Forall side_segment l -> forall f st rest, state_wf st -> goes_on f st rest (marker_loop (length l + f) st (flat_map any_segment l ++ rest)).
Proof.
  induction 1 as [|s l Hs _ IH]; intros f st rest W; [right; exists st; auto|].
  cbn [flat_map length plus]. rewrite <- app_assoc. destruct (side_step (length l + f) st s (flat_map any_segment l ++ rest) W Hs) as [(e & E)|(st1 & W1 & C1 & E)]; [left; eauto|].
  rewrite E. destruct (IH f st1 rest W1) as [(e & E2)|(st2 & W2 & C2 & E2)]; [left; eauto|]. right. exists st2. split; [exact W2|]. split; [congruence|exact E2].
Qed.

(** ** The frame *)
Lemma frame_len prec w h comps : zlen (frame_header prec w h comps) = 6 + 3 * zlen comps.
Proof.
  unfold frame_header, hi_lo. cbn [app]. rewrite !zlen_cons. assert (zlen (flat_map (fun '(id, hs, vs, tq) => [id; 16 * hs + vs; tq]) comps) = 3 * zlen comps); [|lia].
  induction comps as [|[[[id hs] vs] tq] cs IH]; [reflexivity|]. cbn [flat_map]. rewrite zlen_app, IH, (zlen_cons _ cs), !zlen_cons, zlen_nil. lia.
Qed.
Lemma frame_refused st prec w h comps : comps <> [] -> prec <> 8 \/ (prec = 8 /\ zlen comps <> 1 /\ zlen comps <> 3) ->
  parse_sof0 st (frame_header prec w h comps) = Err EUnsupportedDecode.
Proof.
  intros N H. unfold parse_sof0. rewrite frame_len. assert (1 <= zlen comps) by (destruct comps; [congruence|rewrite zlen_cons; pose proof (zlen_nonneg comps); lia]).
  destruct (Z.ltb_spec (6 + 3 * zlen comps) 8); [lia|]. change (znth (frame_header prec w h comps) 0) with prec. change (znth (frame_header prec w h comps) 5) with (zlen comps).
  destruct (Z.eqb_spec prec 8) as [->|]; [|reflexivity]. cbn [negb]. destruct H as [H|(_ & N1 & N3)]; [lia|]. cbv zeta.
  destruct (Z.eqb_spec (zlen comps) 1); [lia|]. destruct (Z.eqb_spec (zlen comps) 3); [lia|]. reflexivity.
Qed.
Definition named_unsupported (frame : nat * Z * list Z) : Prop := snd (fst frame) = 192 \/ snd (fst frame) = 194.
Lemma unsupported_step f st frame rest : unsupported frame ->
  (named_unsupported frame /\ marker_loop (S f) st (any_segment frame ++ rest) = Err EUnsupportedDecode) \/
  (~ named_unsupported frame /\ marker_loop (S f) st (any_segment frame ++ rest) = marker_loop f st rest).
Proof.
  unfold named_unsupported. intros [n m p HM [HB HZ]|n prec w h comps HP HC [HB HZ]|n w h comps HC N1 N3 [HB HZ]]; unfold any_segment; cbn [fst snd];
    rewrite marker_loop_S, fill_marker, read_segment by (cbn in *; lia); cbn [rbind].
  - unfold other_process in HM. cbn in HM. destruct (Z.eqb_spec m 192); [lia|]. destruct (Z.eqb_spec m 194); [left; auto|]. right. split; [lia|].
    destruct (Z.eqb_spec m 196); [lia|]. destruct (Z.eqb_spec m 219); [lia|]. destruct (Z.eqb_spec m 221); [lia|]. destruct (Z.eqb_spec m 218); [lia|]. destruct (Z.eqb_spec m 217); [lia|]. reflexivity.
  - left. split; [auto|]. change (192 =? 192) with true. cbv iota. rewrite frame_refused by auto. reflexivity.
  - left. split; [auto|]. change (192 =? 192) with true. cbv iota. rewrite frame_refused by auto. reflexivity.
Qed.
Lemma scan_refused f st n c params rest : 1 <= c -> js_comps st = [] -> segment_fits (n, 218, c :: params) -> marker_loop (S f) st (any_segment (n, 218, c :: params) ++ rest) = Err EInvalidDecode.
Proof.
  intros Hc HE [HB HZ]. unfold any_segment. rewrite marker_loop_S, fill_marker, read_segment by lia. cbn [rbind].
  change (218 =? 192) with false. change (218 =? 194) with false. change (218 =? 196) with false. change (218 =? 219) with false. change (218 =? 221) with false. change (218 =? 218) with true. cbv iota.
  unfold parse_sos. rewrite HE. change (zlen (@nil jcomp)) with 0. destruct (Z.eqb_spec c 0); [lia|]. reflexivity.
Qed.

Lemma any_segment_len s : (1 <= length (any_segment s))%nat.
Proof. destruct s as [[n m] p]. unfold any_segment, marker_segment. rewrite !app_length. cbn. lia. Qed.
Theorem other_refused before frame after n c params rest : Forall side_segment before -> unsupported frame -> Forall side_segment after ->
  1 <= c -> segment_fits (n, 218, c :: params) -> exists e, decode_jpeg (other_file before frame after n c params rest) = Err e.
Proof.
  intros HB HF HA Hc HS. unfold other_file, decode_jpeg. cbn [app]. change ((255 =? 255) && (216 =? 216)) with true. cbv iota.
  set (all := flat_map any_segment before ++ _). assert (length before + (2 + length after) <= length all)%nat as HL.
  { pose proof (flat_map_len_ge any_segment before any_segment_len). pose proof (flat_map_len_ge any_segment after any_segment_len). pose proof (any_segment_len frame). pose proof (any_segment_len (n, 218, c :: params)).
    unfold all. rewrite !app_length. lia. }
  replace (S (length all)) with (length before + S (length after + S (length all - length before - length after - 1)))%nat by lia. unfold all at 2. clearbody all.
  match goal with |- exists e, marker_loop _ _ (_ ++ ?r) = _ => destruct (side_steps before HB (S (length after + S (length all - length before - length after - 1))) js_new r js_new_wf) as [E|(st & W & C & ->)] end; [exact E|].
  destruct (unsupported_step (length after + S (length all - length before - length after - 1)) st frame (flat_map any_segment after ++ any_segment (n, 218, c :: params) ++ rest) HF) as [[_ E]|[_ E]]; [eauto|].
  rewrite E. destruct (side_steps after HA (S (length all - length before - length after - 1)) st (any_segment (n, 218, c :: params) ++ rest) W) as [E2|(st2 & W2 & C2 & ->)]; [exact E2|].
  exists EInvalidDecode. apply scan_refused; [exact Hc| |exact HS]. rewrite C2, C. reflexivity.
Qed.
(** after legal tables the error says that the file is not supported *)
Theorem other_named before frame rest : Forall seg_legal before -> unsupported frame -> named_unsupported frame ->
  decode_jpeg ([255; 216] ++ flat_map seg_bytes before ++ any_segment frame ++ rest) = Err EUnsupportedDecode.
Proof.
  intros HB HF HN. unfold decode_jpeg. cbn [app]. change ((255 =? 255) && (216 =? 216)) with true. cbv iota.
  set (all := flat_map seg_bytes before ++ _). assert (length before <= length all)%nat as HL.
  { pose proof (flat_map_len_ge seg_bytes before seg_bytes_len). unfold all. rewrite !app_length. lia. }
  replace (S (length all)) with (length before + S (length all - length before))%nat by lia. unfold all at 2. clearbody all.
  rewrite segs_step by exact HB. destruct (unsupported_step (length all - length before) (run_segs js_new before) frame rest HF) as [[_ E]|[K _]]; [exact E|contradiction].
Qed.

(** ** The number of lines given later *)
Theorem lines_lost M f B T Q : conforming_jpeg M f B T Q -> decode_jpeg (lines_later f) = Ok (mkjimg (f_w f) 0 [] (if single f then Gray else Rgb)).
Proof.
  intros CJ. destruct CJ as [[Hw Hh] HN HC HS _ _ _]. apply Forall_app in HS as [HS1 HS2].
  assert (Forall comp_legal (f_comps f)) as HC' by (apply Forall_forall; exact HC). clear HC.
  unfold lines_later, decode_jpeg. cbn [app]. change ((255 =? 255) && (216 =? 216)) with true. cbv iota.
  set (tl := f_scan f ++ _). set (all := flat_map seg_bytes (f_before f) ++ _).
  assert (length (f_before f) + (2 + length (f_after f)) <= length all)%nat as HL.
  { pose proof (flat_map_len_ge seg_bytes (f_before f) seg_bytes_len). pose proof (flat_map_len_ge seg_bytes (f_after f) seg_bytes_len).
    unfold all, sof_segment, sos_segment, marker_segment. rewrite !app_length. cbn [length]. lia. }
  replace (S (length all)) with (length (f_before f) + S (length (f_after f) + S (length all - length (f_before f) - length (f_after f) - 1)))%nat by lia. unfold all at 2. clearbody all.
  rewrite segs_step by exact HS1. rewrite sof_any by (try lia; auto). rewrite segs_step by exact HS2. rewrite sos_any by auto.
  unfold run_segs. cbn [js_w js_h js_comps js_quant js_dc js_ac js_restart js_maxh js_maxv]. unfold decode_scan. cbn [js_w js_h js_comps js_quant js_dc js_ac js_restart js_maxh js_maxv]. cbv zeta.
  assert (forall l, 1 <= fold_right Z.max 1 l) as G by (intros l; induction l; cbn; lia).
  assert (div_ceil 0 (fold_right Z.max 1 (map a_v (f_comps f)) * 8) = 0) as ->.
  { unfold div_ceil. specialize (G (map a_v (f_comps f))). apply Z.div_small. lia. }
  rewrite Z.mul_0_r. change (idxs (Z.to_nat 0)) with (@nil Z). cbn [flow_fold rbind s_comps].
  unfold single. destruct (f_comps f) as [|c1 [|c2 [|c3 [|c4 l]]]] eqn:EC; try (exfalso; revert HN; clear; rewrite !zlen_cons; pose proof (zlen_nonneg l); lia); try (exfalso; revert HN; clear; unfold zlen; cbn; lia); reflexivity.
Qed.

(** ** What is returned *)
Lemma flat_len {A} (g : A -> list Z) n l : (forall x, zlen (g x) = n) -> zlen (flat_map g l) = n * zlen l.
Proof. intros H. induction l as [|x l IH]; [rewrite Z.mul_0_r; reflexivity|]. cbn [flat_map]. rewrite zlen_app, H, IH, zlen_cons. lia. Qed.
Lemma flat_bytes {A} (g : A -> list Z) l : (forall x, bytes (g x)) -> bytes (flat_map g l).
Proof. intros H. induction l as [|x l IH]; [constructor|]. cbn [flat_map]. apply Forall_app. split; [apply H|exact IH]. Qed.
Lemma clamp_byte x : is_byte (clamp x 0 255).
Proof. unfold clamp, is_byte. destruct (Z.ltb_spec x 0); [lia|]. destruct (Z.gtb_spec x 255); lia. Qed.
Lemma idxs_zlen n : 0 <= n -> zlen (idxs (Z.to_nat n)) = n.
Proof. intros H. unfold zlen, idxs. rewrite map_length, seq_length. lia. Qed.
Theorem decoded_well_formed data im : bytes data -> decode_jpeg data = Ok im ->
  0 <= ji_w im <= 65535 /\ 0 <= ji_h im <= 65535 /\ (ji_ct im = Gray \/ ji_ct im = Rgb) /\
  zlen (ji_pixels im) = ji_w im * ji_h im * bytes_per_pixel (ji_ct im) /\ bytes (ji_pixels im).
Proof.
  intros HB E. destruct (jpeg_header_total data HB) as [(e & E')|(st & rest & W & _ & E')]; [congruence|]. rewrite E' in E. clear E'.
  destruct W as [Hw Hh _ _ _ _ _ _ _ _]. unfold decode_scan in E. cbv zeta in E. destruct (flow_fold _ _ _) as [fl|e| |]; cbn [rbind] in E; try discriminate.
  set (comps := match fl with Go s => s_comps s | Stop d => d end) in E. clearbody comps.
  assert (forall cs, (let* px := ycbcr_to_rgb comps (js_w st) (js_h st) cs (js_maxh st) (js_maxv st) in Ok (mkjimg (js_w st) (js_h st) px Rgb)) = Ok im ->
    ji_w im = js_w st /\ ji_h im = js_h st /\ ji_ct im = Rgb /\ zlen (ji_pixels im) = js_w st * js_h st * 3 /\ bytes (ji_pixels im)) as K.
  { intros cs K. unfold ycbcr_to_rgb in K. destruct (get cs 1); cbn [rbind] in K; try discriminate. destruct (get cs 2); cbn [rbind] in K; try discriminate.
    destruct (get comps 0); cbn [rbind] in K; try discriminate. destruct (get comps 1); cbn [rbind] in K; try discriminate. destruct (get comps 2); cbn [rbind] in K; try discriminate.
    cbv zeta in K. injection K as <-. cbn [ji_w ji_h ji_ct ji_pixels]. split; [reflexivity|]. split; [reflexivity|]. split; [reflexivity|]. split.
    - erewrite flat_len; [|intros y; erewrite flat_len; [|intros x; unfold ycbcr_pixel; cbv zeta; rewrite !zlen_cons, zlen_nil; reflexivity]; reflexivity].
      rewrite !idxs_zlen by lia. lia.
    - apply flat_bytes. intros y. apply flat_bytes. intros x. unfold ycbcr_pixel. cbv zeta. repeat (constructor; [apply clamp_byte|]). constructor. }
  destruct (js_comps st) as [|c [|c2 l]].
  - apply K in E as (-> & -> & -> & L & B). cbn. auto.
  - destruct (get comps 0); cbn [rbind] in E; try discriminate. injection E as <-. cbn [ji_w ji_h ji_ct ji_pixels]. cbn.
    split; [exact Hw|]. split; [exact Hh|]. split; [auto|]. split.
    + erewrite flat_len; [|intros y; unfold zlen at 1; rewrite map_length; reflexivity]. fold (zlen (idxs (Z.to_nat (js_w st)))). rewrite !idxs_zlen by lia. lia.
    + apply flat_bytes. intros y. apply Forall_forall. intros z Hz. apply in_map_iff in Hz as (x & <- & _). apply clamp_byte.
  - apply K in E as (-> & -> & -> & L & B). cbn. auto.
Qed.

(** ** Size *)
(** a file of 35 bytes without tables and without a scan stands for any size of picture *)
Definition tiny (w h : Z) : list Z := [255; 216] ++ sof_segment 192 w h [(1, 1, 1, 0); (2, 1, 1, 0); (3, 1, 1, 0)] ++ sos_segment [(1, 0, 0); (2, 0, 0); (3, 0, 0)].
Lemma tiny_len w h : zlen (tiny w h) = 35.
Proof. reflexivity. Qed.
Lemma tiny_bytes w h : 0 <= w < 65536 -> 0 <= h < 65536 -> bytes (tiny w h).
Proof.
  intros Hw Hh. unfold tiny, sof_segment, sos_segment, marker_segment, hi_lo, bytes, zlen. cbn [app length map flat_map].
  assert (forall z, 0 <= z < 65536 -> is_byte (z / 256) /\ is_byte (z mod 256)) as K.
  { intros z Hz. unfold is_byte. split; [split; [apply Z.div_pos; lia|apply Z.div_lt_upper_bound; lia]|apply Z.mod_pos_bound; lia]. }
  destruct (K w Hw), (K h Hh). repeat constructor; try assumption; unfold is_byte; cbn; lia.
Qed.
Definition tiny_comps : list acomp := [mkac 1 1 1 0 0 0; mkac 2 1 1 0 0 0; mkac 3 1 1 0 0 0].
Lemma tiny_legal : Forall comp_legal tiny_comps.
Proof. repeat constructor; cbn; lia. Qed.
Lemma tiny_decodes w h : 1 <= w < 65536 -> 1 <= h < 65536 -> exists im, decode_jpeg (tiny w h) = Ok im /\ ji_w im = w /\ ji_h im = h /\ ji_ct im = Rgb.
Proof.
  intros Hw Hh. unfold decode_jpeg, tiny. cbn [app]. change ((255 =? 255) && (216 =? 216)) with true. cbv iota.
  change [(1, 1, 1, 0); (2, 1, 1, 0); (3, 1, 1, 0)] with (map (fun c => (a_id c, a_h c, a_v c, a_tq c)) tiny_comps).
  change (sos_segment [(1, 0, 0); (2, 0, 0); (3, 0, 0)]) with (sos_segment (map (fun c => (a_id c, a_td c, a_ta c)) tiny_comps)).
  rewrite <- (app_nil_r (sos_segment (map (fun c => (a_id c, a_td c, a_ta c)) tiny_comps))).
  set (n := length _). assert (exists k, n = S k) as (k & ->) by (exists 32%nat; reflexivity).
  rewrite sof_any by (try lia; auto using tiny_legal; right; reflexivity). rewrite sos_any by (auto using tiny_legal; right; reflexivity).
  cbn [js_w js_h js_comps js_quant js_dc js_ac js_restart js_maxh js_maxv]. change (fold_right Z.max 1 (map a_h tiny_comps)) with 1. change (fold_right Z.max 1 (map a_v tiny_comps)) with 1.
  unfold decode_scan. cbn [js_w js_h js_comps js_quant js_dc js_ac js_restart js_maxh js_maxv]. cbv zeta.
  assert (1 <= div_ceil w (1 * 8)) as Mw by (unfold div_ceil; apply Z.div_le_lower_bound; lia).
  assert (1 <= div_ceil h (1 * 8)) as Mh by (unfold div_ceil; apply Z.div_le_lower_bound; lia).
  set (mw := div_ceil w (1 * 8)) in *. set (mh := div_ceil h (1 * 8)) in *. clearbody mw mh.
  assert (1 <= mw * mh) by nia. destruct (Z.to_nat (mw * mh)) as [|m] eqn:EM; [lia|].
  change (firstn (Z.to_nat (find_entropy_end [])) []) with (@nil Z).
  set (comp0 := map _ (map cooked tiny_comps)). assert (length comp0 = 3%nat) as LC by reflexivity. clearbody comp0.
  match goal with |- context [flow_fold ?f _ ?s] => assert (flow_fold f (idxs (S m)) s = Ok (Stop comp0)) as -> end.
  { change (idxs (S m)) with (Z.of_nat 0 :: map Z.of_nat (seq 1 m)). cbn [flow_fold]. unfold scan_mcu. cbv zeta.
    cbn [js_w js_h js_comps js_quant js_dc js_ac js_restart js_maxh js_maxv]. change ((js_restart js_new >? 0) && (Z.of_nat 0 >? 0) && (Z.of_nat 0 mod js_restart js_new =? 0)) with false. cbv iota.
    change (mcu_blocks (map cooked tiny_comps)) with ((0, cooked (mkac 1 1 1 0 0 0), 0, 0) :: [(1, cooked (mkac 2 1 1 0 0 0), 0, 0); (2, cooked (mkac 3 1 1 0 0 0), 0, 0)]). cbn [flow_fold].
    unfold scan_block. cbn [js_dc js_ac s_preds s_reader s_comps].
    change (get (js_dc js_new) (c_dc (cooked (mkac 1 1 1 0 0 0)))) with (Ok jtab_default). change (get (js_ac js_new) (c_ac (cooked (mkac 1 1 1 0 0 0)))) with (Ok jtab_default).
    change (get (map (fun _ : jcomp => 0) (map cooked tiny_comps)) 0) with (Ok 0). cbn [rbind].
    assert (exists e, dec_block jtab_default jtab_default (mr_new []) 0 = Err e) as (e & ->) by (eexists; vm_compute; reflexivity). reflexivity. }
  cbn [rbind]. destruct comp0 as [|d0 [|d1 [|d2 [|? ?]]]]; try discriminate LC.
  eexists. split; [reflexivity|]. auto.
Qed.
Theorem unbounded w h : 1 <= w < 65536 -> 1 <= h < 65536 -> exists file im, bytes file /\ zlen file = 35 /\ decode_jpeg file = Ok im /\ zlen (ji_pixels im) = 3 * (w * h).
Proof.
  intros Hw Hh. destruct (tiny_decodes w h Hw Hh) as (im & E & W & H & C). exists (tiny w h), im. pose proof (tiny_bytes w h ltac:(lia) ltac:(lia)) as B.
  split; [exact B|]. split; [apply tiny_len|]. split; [exact E|]. destruct (decoded_well_formed _ _ B E) as (_ & _ & _ & L & _). rewrite L, W, H, C. cbn [bytes_per_pixel]. lia.
Qed.

(** every block of a scan takes two bits at least *)
Lemma sym_len bits vals s w : huff_legal bits vals -> sym_code bits vals s w -> (1 <= length w)%nat.
Proof.
  intros (_ & _ & L & _) (k & Hk & _ & ->). rewrite CanonProofs.code_word_length. rewrite L in Hk.
  assert (In (CanonSpec.ln (spec_sizes bits) k) (spec_sizes bits)) as I by (apply nth_In; exact Hk). unfold spec_sizes in I at 2. apply in_concat in I as (x & Hx & Hi). apply in_map_iff in Hx as (i & <- & _).
  apply repeat_spec in Hi. lia.
Qed.
Lemma block_len dcb dcv acb acv pred zz bb : huff_legal dcb dcv -> huff_legal acb acv -> block_code dcb dcv acb acv pred zz bb -> (2 <= length bb)%nat.
Proof.
  intros D A (dc & ac & b1 & b2 & _ & L & HD & HA & ->). rewrite app_length.
  assert (1 <= length b1)%nat by (inversion HD; subst; [|rewrite app_length]; match goal with H : sym_code _ _ _ _ |- _ => apply (sym_len _ _ _ _ D) in H end; lia).
  assert (1 <= length b2)%nat; [|lia]. inversion HA; subst; try discriminate L; rewrite ?app_length; match goal with H : sym_code _ _ _ _ |- _ => apply (sym_len _ _ _ _ A) in H end; lia.
Qed.
Definition legal_tabs (t : ctabs) : Prop := huff_legal (ct_dcb t) (ct_dcv t) /\ huff_legal (ct_acb t) (ct_acv t).
Lemma interval_len T iv : forall preds bits, (forall c zz, In (c, zz) iv -> legal_tabs (T c)) -> interval_code T preds iv bits -> (2 * length iv <= length bits)%nat.
Proof.
  induction iv as [|[c zz] iv IH]; intros preds bits HT H; inversion H; subst; [cbn; lia|]. rewrite app_length. cbn [length].
  destruct (HT c zz ltac:(left; reflexivity)) as [D A].
  match goal with K : block_code _ _ _ _ _ _ _ |- _ => apply (block_len _ _ _ _ _ _ _ D A) in K end.
  match goal with K : interval_code _ _ _ _ |- _ => apply IH in K; [|intros c' zz' I; apply (HT c' zz'); right; exact I] end. lia.
Qed.
Lemma unstuff_shorter k : forall l x, (length l <= k)%nat -> unstuff l = Some x -> (length x <= length l)%nat.
Proof.
  induction k as [|k IH]; intros [|b l] x HL E; cbn [length] in HL; try (cbn in E; injection E as <-; cbn; lia); try lia. cbn [unstuff] in E.
  destruct (b =? 255).
  - destruct l as [|z r]; [discriminate|]. destruct (z =? 0); [|discriminate]. destruct (unstuff r) as [y|] eqn:U; [|discriminate]. injection E as <-.
    apply IH in U; [|cbn [length] in HL; lia]. cbn [length]. lia.
  - destruct (unstuff l) as [y|] eqn:U; [|discriminate]. injection E as <-. apply IH in U; [|lia]. cbn [length]. lia.
Qed.
Lemma segment_len seg bits : segment seg bits -> Z.of_nat (length bits) <= 8 * zlen seg.
Proof.
  intros (_ & l & U & E). apply (unstuff_shorter (length seg)) in U; [|lia]. apply (f_equal (@length bool)) in E. unfold pad_ones in E. rewrite app_length in E.
  assert (length (bytes_msb l) = 8 * length l)%nat as K.
  { unfold bytes_msb. clear. induction l as [|b l IH]; [reflexivity|]. cbn [flat_map]. rewrite app_length, IH. assert (length (msb 8 b) = 8%nat) as -> by reflexivity. cbn [length]. lia. }
  unfold zlen. lia.
Qed.
Lemma scan_len T ivs : forall idx out, (forall iv c zz, In iv ivs -> In (c, zz) iv -> legal_tabs (T c)) -> scan_code T idx ivs out -> 2 * zlen (concat ivs) <= 8 * zlen out.
Proof.
  induction ivs as [|iv ivs IH]; intros idx out HT H; inversion H; subst.
  - cbn [concat]. rewrite app_nil_r. match goal with K : interval_code _ _ _ _ |- _ => apply interval_len in K; [|intros c zz I; apply (HT iv c zz); [left; reflexivity|exact I]] end.
    match goal with K : segment _ _ |- _ => apply segment_len in K end. unfold zlen in *. lia.
  - cbn [concat]. rewrite !zlen_app. match goal with K : interval_code _ _ _ _ |- _ => apply interval_len in K; [|intros c zz I; apply (HT iv c zz); [left; reflexivity|exact I]] end.
    match goal with K : segment _ _ |- _ => apply segment_len in K end. match goal with K : scan_code _ _ ivs _ |- _ => apply IH in K; [|intros iv' c zz I; apply HT; right; exact I] end.
    unfold zlen in *. cbn [length]. lia.
Qed.

Lemma force_legal cls l id bits vals : Forall seg_legal l -> in_force (huffs cls l) id (bits, vals) -> huff_legal bits vals.
Proof.
  intros HL (a & b & E & _). assert (In (id, (bits, vals)) (huffs cls l)) as I by (rewrite E; apply in_or_app; right; left; reflexivity). clear E.
  unfold huffs in I. apply in_flat_map in I as (s & Hs & I). rewrite Forall_forall in HL. specialize (HL s Hs). destruct s as [n [ts|ts|i|m p]]; cbn [snd] in I; try contradiction.
  unfold seg_legal in HL. cbn [snd] in HL. destruct HL as [_ HL]. apply in_flat_map in I as ([[[k id'] bits'] vals'] & Ht & I). rewrite Forall_forall in HL. specialize (HL _ Ht). cbn in HL.
  destruct (k =? cls); [|contradiction]. destruct I as [I|[]]. injection I as -> -> ->. apply HL.
Qed.
Lemma concat_map_map {A B} (g : A -> B) (l : list (list A)) : concat (map (map g) l) = map g (concat l).
Proof. symmetry. apply concat_map. Qed.
Lemma restart_pos l n : Forall seg_legal l -> restart_interval l = Some n -> 0 < n.
Proof.
  intros HL E. unfold restart_interval in E. destruct (Z.eqb_spec (last (intervals_set l) 0) 0) as [|N]; [discriminate|]. injection E as <-.
  assert (Forall (fun z => 0 <= z) (intervals_set l)) as F.
  { unfold intervals_set. apply Forall_forall. intros z I. apply in_flat_map in I as (s & Hs & I). rewrite Forall_forall in HL. specialize (HL s Hs). destruct s as [k [ts|ts|i|m p]]; cbn [snd] in I; try contradiction.
    destruct I as [<-|[]]. unfold seg_legal in HL. cbn [snd] in HL. lia. }
  assert (forall d, 0 <= d -> 0 <= last (intervals_set l) d) as G.
  { revert F. generalize (intervals_set l). clear. intros l F. induction F as [|x l Hx F IH]; intros d Hd; [exact Hd|]. cbn [last]. destruct l; [exact Hx|]. apply IH. exact Hd. }
  specialize (G 0 ltac:(lia)). lia.
Qed.
Lemma flat_const {A B} (g : A -> list B) n l : (forall x, In x l -> n <= zlen (g x)) -> n * zlen l <= zlen (flat_map g l).
Proof.
  intros H. induction l as [|x l IH]; [unfold zlen; cbn; lia|]. cbn [flat_map]. rewrite zlen_app, zlen_cons. pose proof (H x ltac:(left; reflexivity)). specialize (IH ltac:(intros y I; apply H; right; exact I)). lia.
Qed.
Lemma mcu_len f k : 1 <= zlen (f_comps f) -> 0 <= hfac f 0 -> 0 <= vfac f 0 -> hfac f 0 * vfac f 0 <= zlen (mcu_order f k).
Proof.
  intros HN Hh Hv. unfold mcu_order. destruct (f_comps f) as [|c cs] eqn:E; [unfold zlen in HN; cbn in HN; lia|]. cbn [length]. change (idxs (S (length cs))) with (0 :: map Z.of_nat (seq 1 (length cs))). cbn [flat_map]. rewrite zlen_app.
  match goal with |- _ <= zlen (flat_map ?g ?l) + zlen ?r => pose proof (flat_const g (hfac f 0) l) as K; pose proof (zlen_nonneg r) end.
  rewrite idxs_zlen in K by exact Hv. specialize (K ltac:(intros x _; unfold zlen at 1; rewrite map_length; fold (zlen (idxs (Z.to_nat (hfac f 0)))); rewrite idxs_zlen by exact Hh; lia)). lia.
Qed.
Lemma up_div_ge a b : 0 < b -> a <= b * up_div a b.
Proof. intros H. unfold up_div. pose proof (Z.div_mod (a + b - 1) b ltac:(lia)). pose proof (Z.mod_pos_bound (a + b - 1) b H). lia. Qed.
Theorem conforming_bounded M f B T Q : conforming_jpeg M f B T Q -> usual_sampling f -> f_w f * f_h f * zlen (f_comps f) <= 768 * zlen (f_scan f).
Proof.
  intros CJ US. destruct CJ as [[Hw Hh] HN HC HS HT _ SC].
  apply scan_len in SC.
  - assert (concat (map (fun mcus => map (fun '(c, bx, by_) => (c, B c bx by_)) (concat mcus)) (intervals (restart_interval (f_before f ++ f_after f)) (map (mcu_order f) (idxs (Z.to_nat (across f * down f)))))) =
            map (fun '(c, bx, by_) => (c, B c bx by_)) (all_blocks f)) as E.
    { rewrite <- (map_map (fun mcus => concat mcus) (map (fun '(c, bx, by_) => (c, B c bx by_)))), concat_map_map. f_equal. unfold all_blocks. rewrite flat_map_concat_map.
      set (L := map (mcu_order f) _). assert (concat (intervals (restart_interval (f_before f ++ f_after f)) L) = L) as K.
      { unfold intervals. destruct (restart_interval _) as [n|] eqn:R; [|cbn; apply app_nil_r]. apply restart_pos in R; [|exact HS]. apply chunks_concat. lia. }
      rewrite <- K at 2. generalize (intervals (restart_interval (f_before f ++ f_after f)) L). clear. intros ls. induction ls as [|l ls IH]; [reflexivity|]. cbn [map concat]. rewrite concat_app, IH. reflexivity. }
    rewrite E in SC. unfold zlen at 1 in SC. rewrite map_length in SC. fold (zlen (all_blocks f)) in SC. clear E.
    assert (1 <= a_h (comp_at f 0) <= 4 /\ 1 <= a_v (comp_at f 0) <= 4) as [C1 C2].
    { unfold comp_at. revert HN HC. clear. destruct (f_comps f) as [|c cs]; intros HN HC; [unfold zlen in HN; cbn in HN; lia|]. specialize (HC c ltac:(left; reflexivity)). change (nth (Z.to_nat 0) (c :: cs) (mkac 0 1 1 0 0 0)) with c. lia. }
    assert (1 <= hfac f 0 /\ 1 <= vfac f 0 /\ f_w f <= 8 * hfac f 0 * across f /\ f_h f <= 8 * vfac f 0 * down f) as (P1 & P2 & P3 & P4).
    { unfold hfac, vfac, across, down, single. destruct US as [(N & _)|(N & Mh & Mv & _)]; rewrite N.
      - pose proof (up_div_ge (f_w f) (8 * 1) ltac:(lia)). pose proof (up_div_ge (f_h f) (8 * 1) ltac:(lia)). change (1 =? 1) with true. cbv iota. lia.
      - change (3 =? 1) with false. cbv iota. rewrite <- Mh, <- Mv. pose proof (up_div_ge (f_w f) (8 * a_h (comp_at f 0)) ltac:(lia)). pose proof (up_div_ge (f_h f) (8 * a_v (comp_at f 0)) ltac:(lia)). lia. }
    assert (0 < across f) as P5 by nia. assert (0 < down f) as P6 by nia.
    pose proof (flat_const (mcu_order f) (hfac f 0 * vfac f 0) (idxs (Z.to_nat (across f * down f)))) as K. rewrite idxs_zlen in K by nia.
    specialize (K ltac:(intros k _; apply mcu_len; [destruct HN as [-> | ->]; lia|lia|lia])). fold (all_blocks f) in K.
    assert (f_w f * f_h f <= 64 * (hfac f 0 * vfac f 0 * (across f * down f))) as G.
    { replace (64 * (hfac f 0 * vfac f 0 * (across f * down f))) with ((8 * hfac f 0 * across f) * (8 * vfac f 0 * down f)) by ring. apply Z.mul_le_mono_nonneg; lia. }
    assert (f_w f * f_h f <= 256 * zlen (f_scan f)) by lia. pose proof (zlen_nonneg (f_scan f)). destruct HN as [-> | ->]; lia.
  - intros iv c zz I1 I2. apply in_map_iff in I1 as (mcus & <- & I1). apply in_map_iff in I2 as ([[c' bx] by_] & E & I2). injection E as -> _.
    apply in_concat in I2 as (mcu & I3 & I4).
    assert (In mcu (map (mcu_order f) (idxs (Z.to_nat (across f * down f))))) as I5.
    { unfold intervals in I1. destruct (restart_interval _) as [n|] eqn:R; [|destruct I1 as [<-|[]]; exact I3]. apply restart_pos in R; [|exact HS].
      rewrite <- (chunks_concat (Z.to_nat n) (map (mcu_order f) _)) by lia. apply in_concat. exists mcus. auto. }
    apply in_map_iff in I5 as (k & <- & _). unfold mcu_order in I4. apply in_flat_map in I4 as (c2 & Hc & I4). apply in_flat_map in I4 as (v & _ & I4). apply in_map_iff in I4 as (h & E & _). injection E as -> _ _.
    apply in_map_iff in Hc as (j & <- & Hj). apply in_seq in Hj. destruct (HT (Z.of_nat j) ltac:(unfold zlen; lia)) as (_ & T1 & T2).
    split; eapply force_legal; eauto.
Qed.
