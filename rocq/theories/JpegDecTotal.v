(** Parsing a JPEG header: total on every byte sequence, up to the first scan. *)
From Verif Require Import Base BitsModel Lz77Model PngFilterModel PngPaletteModel PngFilterProofs JpegBaseModel JpegDecModel.

Definition comp_wf (mh mv : Z) (c : jcomp) : Prop :=
  1 <= c_h c <= mh /\ 1 <= c_v c <= mv /\ 0 <= c_q c <= 3 /\ 0 <= c_dc c <= 3 /\ 0 <= c_ac c <= 3.
Definition tabs_wf (l : list jtab) : Prop := length l = 4%nat /\ Forall (fun t => length (j_lookup t) = 256%nat) l.
(** what holds of the decoder's state whatever was read *)
Record state_wf (st : jstate) : Prop := mkwf {
  wf_w : 0 <= js_w st <= 65535; wf_h : 0 <= js_h st <= 65535;
  wf_n : js_comps st = [] \/ length (js_comps st) = 1%nat \/ length (js_comps st) = 3%nat;
  wf_c : Forall (comp_wf (js_maxh st) (js_maxv st)) (js_comps st);
  wf_q : length (js_quant st) = 4%nat /\ Forall (fun t => length t = 64%nat) (js_quant st);
  wf_d : tabs_wf (js_dc st); wf_a : tabs_wf (js_ac st);
  wf_mh : 1 <= js_maxh st <= 15; wf_mv : 1 <= js_maxv st <= 15; wf_r : 0 <= js_restart st <= 65535 }.
Lemma js_new_wf : state_wf js_new.
Proof.
  assert (tabs_wf (repeat jtab_default 4)) by (split; [reflexivity|]; repeat (constructor; [reflexivity|]); constructor).
  split; cbn [js_w js_h js_comps js_quant js_dc js_ac js_restart js_maxh js_maxv js_new]; try lia; auto. split; [reflexivity|]. repeat (constructor; [reflexivity|]). constructor.
Qed.
Lemma fill_one_length lk e : length (fill_one lk e) = length lk.
Proof.
  destruct e as [[len code] val]. unfold fill_one. destruct (len <=? 8); [|reflexivity]. cbv zeta. generalize (idxs (Z.to_nat (Z.shiftl 1 (8 - len)))). intros l. revert lk.
  induction l as [|i l IH]; intros lk; cbn [fold_left]; [reflexivity|]. rewrite IH. destruct (_ <? 256); [apply upd_length|reflexivity].
Qed.
Lemma jtab_build_lookup bits values : length (j_lookup (jtab_build bits values)) = 256%nat.
Proof.
  unfold jtab_build. cbn [j_lookup]. change 256%nat with (length (repeat 0 256)) at 2. generalize (repeat 0 256) (code_entries bits values). intros lk l. revert lk.
  induction l as [|e l IH]; intros lk; cbn [fold_left]; [reflexivity|]. rewrite IH. apply fill_one_length.
Qed.
Lemma tabs_upd l i bits values : tabs_wf l -> tabs_wf (upd l i (jtab_build bits values)).
Proof. intros [L F]. split; [rewrite upd_length; exact L|]. apply Forall_upd; [exact F|apply jtab_build_lookup]. Qed.

Lemma nib x : 0 <= Z.land x 15 <= 15.
Proof. change 15 with (Z.ones 4). rewrite Z.land_ones by lia. pose proof (Z.mod_pos_bound x (2 ^ 4) ltac:(lia)). change (2 ^ 4) with 16 in *. change (Z.ones 4) with 15. lia. Qed.
Lemma skip_to_ff_len l : (length (skip_to_ff l) <= length l)%nat.
Proof. induction l as [|b r IH]; cbn; [lia|]. destruct (b =? 255); cbn; lia. Qed.
Lemma skip_ff_len l : (length (skip_ff l) <= length l)%nat.
Proof. induction l as [|b r IH]; cbn; [lia|]. destruct (b =? 255); cbn; lia. Qed.
Lemma skip_to_ff_bytes l : bytes l -> bytes (skip_to_ff l).
Proof. intros H. induction H as [|b r Hb Hr IH]; cbn; [constructor|]. destruct (b =? 255); [constructor; auto|exact IH]. Qed.
Lemma skip_ff_bytes l : bytes l -> bytes (skip_ff l).
Proof. intros H. induction H as [|b r Hb Hr IH]; cbn; [constructor|]. destruct (b =? 255); [exact IH|constructor; auto]. Qed.
Lemma read_marker_ok data : bytes data -> (exists e, read_marker data = Err e) \/
  exists m seg rest, read_marker data = Ok (m, seg, rest) /\ bytes seg /\ bytes rest /\ (length rest < length data)%nat.
Proof.
  intros HB. unfold read_marker. pose proof (skip_ff_bytes _ (skip_to_ff_bytes _ HB)) as HS.
  pose proof (skip_to_ff_len data) as L1. pose proof (skip_ff_len (skip_to_ff data)) as L2.
  destruct (skip_ff (skip_to_ff data)) as [|m r]; [left; eauto|]. apply Forall_cons_iff in HS as [_ HS]. cbn [length] in L2.
  destruct ((m =? 216) || (m =? 217) || ((208 <=? m) && (m <=? 215))).
  - right. exists m, [], r. split; [reflexivity|]. split; [constructor|]. split; [exact HS|lia].
  - destruct r as [|a [|b r']]; [left; eauto|left; eauto|]. apply Forall_cons_iff in HS as [_ HS]. apply Forall_cons_iff in HS as [_ HS].
    destruct ((be16 a b <? 2) || (be16 a b - 2 >? zlen r')); [left; eauto|]. right.
    exists m, (firstn (Z.to_nat (be16 a b - 2)) r'), (skipn (Z.to_nat (be16 a b - 2)) r'). split; [reflexivity|].
    split; [apply Forall_firstn; exact HS|]. split; [apply Forall_skipn; exact HS|]. rewrite skipn_length. cbn [length] in L2. lia.
Qed.

Definition okerr {A} (P : A -> Prop) (r : res A) : Prop := match r with Ok a => P a | Err _ => True | _ => False end.
Lemma okerr_bind {A B} (P : A -> Prop) (Q : B -> Prop) (r : res A) (f : A -> res B) : okerr P r -> (forall a, P a -> okerr Q (f a)) -> okerr Q (let* a := r in f a).
Proof. destruct r; cbn; auto; contradiction. Qed.

Lemma sof_comps_ok n : forall seg mh mv, bytes seg -> zlen seg >= 3 * Z.of_nat n -> 1 <= mh <= 15 -> 1 <= mv <= 15 ->
  okerr (fun '(cs, mh', mv') => length cs = n /\ Forall (comp_wf mh' mv') cs /\ mh <= mh' <= 15 /\ mv <= mv' <= 15) (sof_comps n seg mh mv).
Proof.
  induction n as [|n IH]; intros seg mh mv HB HL Hh Hv; cbn [sof_comps]; [cbn; split; [reflexivity|]; split; [constructor|lia]|].
  rewrite (get_ok seg 1 0) by lia. cbn [rbind]. rewrite (get_ok seg 2 0) by lia. cbn [rbind].
  set (h := Z.land (Z.shiftr _ 4) 15). set (v := Z.land _ 15) at 1. pose proof (nib (Z.shiftr (nth (Z.to_nat 1) seg 0) 4)) as Nh. fold h in Nh.
  fold v. assert (0 <= v <= 15) as Nv by apply nib. clearbody h v.
  destruct (Z.eqb_spec h 0); [exact I|]. destruct (Z.eqb_spec v 0); [exact I|]. cbn [orb].
  destruct (Z.gtb_spec (nth (Z.to_nat 2) seg 0) 3) as [G|G]; [exact I|].
  assert (0 <= nth (Z.to_nat 2) seg 0) as Nq.
  { assert (is_byte (nth (Z.to_nat 2) seg 0)) as K by (apply (Forall_nth_d is_byte); [exact HB|unfold is_byte; lia]). unfold is_byte in K. lia. }
  eapply okerr_bind; [apply IH; [apply Forall_skipn; exact HB| |lia|lia]|].
  - unfold zlen in *. rewrite skipn_length. lia.
  - intros [[cs mh'] mv'] (L & F & Bh & Bv). cbn. split; [cbn; congruence|]. split; [|lia]. constructor; [|exact F].
    unfold comp_wf. cbn. lia.
Qed.
Lemma be16_range seg i j : bytes seg -> 0 <= be16 (znth seg i) (znth seg j) <= 65535.
Proof.
  intros HB. assert (forall k, is_byte (znth seg k)) as K by (intros k; unfold znth; apply (Forall_nth_d is_byte); [exact HB|unfold is_byte; lia]).
  pose proof (K i). pose proof (K j). unfold be16, is_byte in *. lia.
Qed.
Lemma parse_sof0_ok st seg : state_wf st -> bytes seg -> okerr state_wf (parse_sof0 st seg).
Proof.
  intros W HB. unfold parse_sof0. destruct (zlen seg <? 8); [exact I|]. destruct (znth seg 0 =? 8); cbn [negb]; [|exact I].
  set (n := znth seg 5) in *.
  destruct (negb (n =? 1) && negb (n =? 3)) eqn:EN; [exact I|].
  assert (n = 1 \/ n = 3) as HN by (destruct (Z.eqb_spec n 1), (Z.eqb_spec n 3); cbn in EN; auto; discriminate). clear EN.
  destruct (Z.ltb_spec (zlen seg) (6 + n * 3)) as [G|G]; [exact I|].
  eapply okerr_bind; [apply sof_comps_ok; [apply Forall_skipn; exact HB| |apply W|apply W]|].
  - unfold zlen in *. rewrite skipn_length. lia.
  - intros [[cs mh] mv] (L & F & Bh & Bv). pose proof (wf_mh st W). pose proof (wf_mv st W). cbn. split; cbn; try apply W; try lia; auto.
    + apply be16_range; exact HB.
    + apply be16_range; exact HB.
Qed.
Lemma parse_dht_ok f : forall st seg, state_wf st -> (length seg <= f)%nat -> okerr state_wf (parse_dht f st seg).
Proof.
  induction f as [|f IH]; intros st [|info r] W HL; cbn [parse_dht length] in *; try exact W; try lia.
  destruct (Z.land info 15 >? 3); [exact I|]. destruct (16 >? zlen r); [exact I|].
  destruct (zsum (firstn 16 r) >? zlen (skipn 16 r)); [exact I|]. cbv zeta. apply IH.
  - destruct (Z.land (Z.shiftr info 4) 15 =? 0); destruct W; split; cbn [js_w js_h js_comps js_quant js_dc js_ac js_restart js_maxh js_maxv]; auto; apply tabs_upd; auto.
  - rewrite !skipn_length. lia.
Qed.
Lemma parse_dqt_ok f : forall st seg, state_wf st -> (length seg <= f)%nat -> okerr state_wf (parse_dqt f st seg).
Proof.
  induction f as [|f IH]; intros st [|info r] W HL; cbn [parse_dqt length] in *; try exact W; try lia.
  destruct (Z.land info 15 >? 3); [exact I|]. destruct (Z.land (Z.shiftr info 4) 15 =? 0).
  - destruct (Z.gtb_spec 64 (zlen r)) as [G|G]; [exact I|]. cbv zeta. apply IH; [|rewrite !skipn_length; lia].
    destruct W as [? ? ? ? [Q1 Q2] ? ? ? ? ?]; split; cbn [js_w js_h js_comps js_quant js_dc js_ac js_restart js_maxh js_maxv]; auto. split; [rewrite upd_length; exact Q1|]. apply Forall_upd; [exact Q2|].
    rewrite firstn_length. unfold zlen in G. lia.
  - destruct (128 >? zlen r); [exact I|]. cbv zeta. apply IH; [|rewrite !skipn_length; lia].
    destruct W as [? ? ? ? [Q1 Q2] ? ? ? ? ?]; split; cbn [js_w js_h js_comps js_quant js_dc js_ac js_restart js_maxh js_maxv]; auto. split; [rewrite upd_length; exact Q1|]. apply Forall_upd; [exact Q2|reflexivity].
Qed.
Lemma parse_dri_ok st seg : state_wf st -> bytes seg -> okerr state_wf (parse_dri st seg).
Proof.
  intros W HB. unfold parse_dri. destruct (zlen seg =? 2); cbn [negb]; [|exact I]. destruct W; split; cbn; auto. apply be16_range. exact HB.
Qed.
Lemma sos_comps_ok mh mv cs : forall seg, Forall (comp_wf mh mv) cs -> okerr (fun cs' => length cs' = length cs /\ Forall (comp_wf mh mv) cs') (sos_comps cs seg).
Proof.
  induction cs as [|c cs IH]; intros seg HF; cbn [sos_comps]; [cbn; auto|]. apply Forall_cons_iff in HF as [Hc HF].
  destruct seg as [|x [|tb seg]]; try exact I.
  pose proof (nib (Z.shiftr tb 4)) as N1. pose proof (nib tb) as N2.
  destruct (Z.gtb_spec (Z.land (Z.shiftr tb 4) 15) 3); [exact I|]. destruct (Z.gtb_spec (Z.land tb 15) 3); [exact I|].
  eapply okerr_bind; [apply IH; exact HF|]. intros cs' [L F]. cbn. split; [cbn; congruence|]. constructor; [|exact F].
  destruct Hc as (A & B & C & _). unfold comp_wf. cbn. lia.
Qed.
Lemma parse_sos_ok st seg : state_wf st -> okerr (fun st' => state_wf st' /\ length (js_comps st') = length (js_comps st)) (parse_sos st seg).
Proof.
  intros W. unfold parse_sos. destruct seg as [|n r]; [exact I|]. destruct (n =? zlen (js_comps st)); cbn [negb]; [|exact I].
  eapply okerr_bind; [apply sos_comps_ok; apply W|]. intros cs [L F]. cbn. split; [|exact L]. destruct W as [? ? N ? ? ? ? ? ? ?]; split; cbn; auto.
  destruct N as [N|[N|N]]; [left|right; left|right; right]; [rewrite N in L; destruct cs; [reflexivity|discriminate L]|congruence|congruence].
Qed.
Lemma marker_loop_ok f : forall st data, state_wf st -> bytes data -> (length data < f)%nat ->
  (exists e, marker_loop f st data = Err e) \/ exists st' rest, state_wf st' /\ bytes rest /\ marker_loop f st data = decode_scan st' rest.
Proof.
  induction f as [|f IH]; intros st data W HB HL; [lia|]. cbn [marker_loop].
  destruct (read_marker_ok data HB) as [(e & ->)|(m & seg & rest & -> & HS & HR & HLr)]; cbn [rbind]; [left; eauto|].
  assert (forall x, okerr state_wf x -> (exists e, (let* st := x in marker_loop f st rest) = Err e) \/
            exists st' rest', state_wf st' /\ bytes rest' /\ (let* st := x in marker_loop f st rest) = decode_scan st' rest') as STEP.
  { intros [s|e| |] Hx; cbn in Hx; [|left; exists e; reflexivity|contradiction|contradiction]. cbn [rbind]. exact (IH s rest Hx HR ltac:(lia)). }
  destruct (m =? 192); [apply STEP, parse_sof0_ok; auto|]. destruct (m =? 194); [left; eauto|].
  destruct (m =? 196); [apply STEP, parse_dht_ok; auto|]. destruct (m =? 219); [apply STEP, parse_dqt_ok; auto|].
  destruct (m =? 221); [apply STEP, parse_dri_ok; auto|]. destruct (m =? 218).
  { pose proof (parse_sos_ok st seg W) as K. destruct (parse_sos st seg) as [s|e| |]; cbn in K; [|left; exists e; reflexivity|contradiction|contradiction].
    cbn [rbind]. right. exists s, rest. split; [apply K|]. split; [exact HR|reflexivity]. }
  destruct (m =? 217); [left; eauto|]. apply IH; auto. lia.
Qed.
Theorem jpeg_header_total data : bytes data ->
  (exists e, decode_jpeg data = Err e) \/ exists st rest, state_wf st /\ bytes rest /\ decode_jpeg data = decode_scan st rest.
Proof.
  intros HB. unfold decode_jpeg. destruct data as [|a [|b rest]]; [left; eauto|left; eauto|].
  destruct ((a =? 255) && (b =? 216)); [|left; eauto]. apply Forall_cons_iff in HB as [_ HB]. apply Forall_cons_iff in HB as [_ HB].
  apply marker_loop_ok; [exact js_new_wf|exact HB|lia].
Qed.

(** ** the decoder always comes to an end *)
Definition fin {A} (r : res A) : Prop := r <> NoFuel.
Lemma fin_bind {A B} (r : res A) (f : A -> res B) : fin r -> (forall a, r = Ok a -> fin (f a)) -> fin (let* a := r in f a).
Proof. intros H K. destruct r; cbn; [apply K; reflexivity|intros X; discriminate X|intros X; discriminate X|exfalso; apply H; reflexivity]. Qed.
Lemma fin_get {A} (l : list A) i : fin (get l i).
Proof. unfold get, fin. destruct (i <? 0); [discriminate|]. destruct (nth_error l (Z.to_nat i)); discriminate. Qed.
Lemma fin_i32 x : fin (i32 x).
Proof. unfold i32, fin. destruct (_ && _); discriminate. Qed.
Lemma mr_next_len k : forall l b n, (length l <= k)%nat ->
  match mr_next l b n with (Ok _, r') => (length (mr_rest r') < length l)%nat | (x, _) => fin x end.
Proof.
  induction k as [|k IH]; intros [|x l] b n HL; cbn [length] in HL; try (cbn; discriminate); try lia. cbn [mr_next].
  destruct (x =? 255); [|cbn; lia]. destruct l as [|y l]; [discriminate|]. destruct (y =? 0); [cbn; lia|].
  destruct ((208 <=? y) && (y <=? 215)); [|discriminate]. specialize (IH l 0 0 ltac:(cbn [length] in HL; lia)).
  destruct (mr_next l 0 0) as [[z|e| |] r']; auto. cbn [length] in *. lia.
Qed.
Lemma mr_fill_fin f : forall r n, (length (mr_rest r) < f)%nat -> fin (fst (mr_fill f r n)).
Proof.
  induction f as [|f IH]; intros r n HL; [lia|]. cbn [mr_fill]. destruct (mr_n r <? n); [|discriminate].
  pose proof (mr_next_len (length (mr_rest r)) (mr_rest r) (mr_buf r) (mr_n r) (le_n _)) as K.
  destruct (mr_next (mr_rest r) (mr_buf r) (mr_n r)) as [[b|e| |] r']; try discriminate; [apply IH; cbn; lia|].
  exfalso; apply K; reflexivity.
Qed.
Lemma mr_peek_fin r n : fin (fst (mr_peek r n)).
Proof.
  unfold mr_peek. destruct (n >? 25); [discriminate|]. unfold mr_ensure. pose proof (mr_fill_fin (S (length (mr_rest r))) r n ltac:(lia)) as K.
  destruct (mr_fill _ r n) as [[u|e| |] r']; cbn [fst] in *; try discriminate; [|exfalso; apply K; reflexivity]. destruct (mr_n r' - n >=? 32); discriminate.
Qed.
Lemma mr_read_fin r n : fin (fst (mr_read r n)).
Proof. unfold mr_read. pose proof (mr_peek_fin r n) as K. destruct (mr_peek r n) as [[u|e| |] r']; cbn [fst] in *; [discriminate|exact K|exact K|exact K]. Qed.
Lemma slow_loop_fin k : forall len code t r, fin (slow_loop k len code t r).
Proof.
  induction k as [|k IH]; intros len code t r; cbn [slow_loop]; [discriminate|]. pose proof (mr_read_fin r 1) as K.
  destruct (mr_read r 1) as [[b|e| |] r']; cbn [fst] in K; try discriminate; [|contradiction (K eq_refl)]. cbv zeta.
  destruct (_ <=? _); [|apply IH]. destruct (_ && _); discriminate.
Qed.
Lemma jdecode_fin t r : fin (jdecode t r).
Proof.
  unfold jdecode. pose proof (mr_peek_fin r 8) as K. destruct (mr_peek r 8) as [[p|e| |] r']; cbn [fst] in K; [|apply slow_loop_fin|discriminate|contradiction (K eq_refl)].
  apply fin_bind; [apply fin_get|]. intros en _. cbv zeta. destruct (_ && _); [discriminate|apply slow_loop_fin].
Qed.
Lemma read_amplitude_fin r n : fin (read_amplitude r n).
Proof.
  unfold read_amplitude. destruct (n =? 0); [discriminate|]. pose proof (mr_read_fin r n) as K.
  destruct (mr_read r n) as [[b|e| |] r']; cbn [fst] in K; try discriminate. contradiction (K eq_refl).
Qed.
Lemma dec_ac_fin f : forall t r k cs, 64 - k <= Z.of_nat f -> fin (dec_ac f t r k cs).
Proof.
  induction f as [|f IH]; intros t r k cs HK; cbn [dec_ac]; (destruct (Z.ltb_spec k 64); [|discriminate]); [lia|].
  apply fin_bind; [apply jdecode_fin|]. intros [sym r1] _. destruct (sym =? 0); [discriminate|]. cbv zeta.
  pose proof (nib (Z.shiftr sym 4)) as N. destruct (sym =? 240); [apply IH; lia|]. destruct (_ >=? 64); [discriminate|].
  destruct (_ >? 0); [|apply IH; lia]. apply fin_bind; [apply read_amplitude_fin|]. intros [amp r2] _. apply IH. lia.
Qed.
Lemma dec_block_fin d a r p : fin (dec_block d a r p).
Proof.
  unfold dec_block. apply fin_bind; [apply jdecode_fin|]. intros [cat r1] _. apply fin_bind.
  { destruct (cat >? 0); [apply read_amplitude_fin|discriminate]. }
  intros [df r2] _. apply fin_bind; [apply fin_i32|]. intros p' _. apply fin_bind; [apply dec_ac_fin; lia|]. intros [cs r3] _. discriminate.
Qed.
Lemma fin_map_res {A B} (f : A -> res B) l : (forall a, fin (f a)) -> fin (map_res f l).
Proof. intros H. induction l as [|a l IH]; cbn [map_res]; [discriminate|]. apply fin_bind; [apply H|]. intros b _. apply fin_bind; [exact IH|]. discriminate. Qed.
Lemma idct_line_fin l : fin (idct_line l).
Proof. unfold idct_line, idct_1d, add32, sub32. cbv zeta. repeat (apply fin_bind; [apply fin_i32|]; intros ? _). discriminate. Qed.
Lemma idct_2d_fin l : fin (idct_2d l).
Proof.
  unfold idct_2d. apply fin_bind; [apply fin_map_res; intros c; apply fin_bind; [apply idct_line_fin|]; intros x _; apply fin_map_res; intros y; unfold descale1, add32; apply fin_bind; [apply fin_i32|discriminate]|].
  intros cols _. apply fin_bind; [|discriminate]. apply fin_map_res; intros c; apply fin_bind; [apply idct_line_fin|]. intros x _. apply fin_map_res. intros y.
  unfold descale_and_clamp, add32. apply fin_bind; [apply fin_i32|]. intros z _. apply fin_bind; [apply fin_i32|discriminate].
Qed.
Lemma scan_block_fin st ci c w bx by_ s : fin (scan_block st ci c w bx by_ s).
Proof.
  unfold scan_block. apply fin_bind; [apply fin_get|]. intros d _. apply fin_bind; [apply fin_get|]. intros a _. apply fin_bind; [apply fin_get|]. intros p _.
  pose proof (dec_block_fin d a (s_reader s) p) as K. destruct (dec_block d a (s_reader s) p) as [[[cs p'] r]|e| |]; try discriminate; [|contradiction (K eq_refl)].
  apply fin_bind; [apply fin_get|]. intros q _. apply fin_bind; [apply idct_2d_fin|]. intros px _. apply fin_bind; [apply fin_get|]. discriminate.
Qed.
Lemma flow_fold_fin {A} (f : A -> scan_state -> res flow) l : (forall a s, fin (f a s)) -> forall s, fin (flow_fold f l s).
Proof. intros H. induction l as [|a l IH]; intros s; cbn [flow_fold]; [discriminate|]. apply fin_bind; [apply H|]. intros [s'|d] _; [apply IH|discriminate]. Qed.
Lemma decode_scan_fin st data : fin (decode_scan st data).
Proof.
  unfold decode_scan. cbv zeta. apply fin_bind.
  { apply flow_fold_fin. intros k s. unfold scan_mcu. cbv zeta. apply flow_fold_fin. intros [[[ci c] v] h] s'. apply scan_block_fin. }
  intros fl _. assert (forall cs, fin (let* px := ycbcr_to_rgb (match fl with Go s => s_comps s | Stop d => d end) (js_w st) (js_h st) cs (js_maxh st) (js_maxv st) in Ok (mkjimg (js_w st) (js_h st) px Rgb))) as K.
  { intros cs. apply fin_bind; [|discriminate]. unfold ycbcr_to_rgb. repeat (apply fin_bind; [apply fin_get|]; intros ? _). discriminate. }
  destruct (js_comps st) as [|c [|c2 l]]; [apply K| |apply K]. apply fin_bind; [apply fin_get|discriminate].
Qed.
Theorem decode_jpeg_ends data : bytes data -> decode_jpeg data <> NoFuel.
Proof.
  intros HB. destruct (jpeg_header_total data HB) as [(e & ->)|(st & rest & _ & _ & ->)]; [discriminate|apply decode_scan_fin].
Qed.
