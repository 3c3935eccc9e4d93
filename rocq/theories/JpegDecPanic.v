(** Which scans make the JPEG decoder panic. *)
From Verif Require Import Base BitsModel Lz77Model PngFilterModel PngPaletteModel PngFilterProofs JpegBaseModel JpegDecModel JpegDecSpec JpegDecTotal JpegIdctProofs JpegFileSpec.

(** ** Reading bits never panics *)
Definition mrn (r : mr) : Prop := 0 <= mr_n r <= 32.
Lemma mr_next_n k : forall l b n, (length l <= k)%nat -> 0 <= n -> let (x, r') := mr_next l b n in x <> Panic /\ 0 <= mr_n r' <= n.
Proof.
  induction k as [|k IH]; intros [|x l] b n HL Hn; cbn [length] in HL; try (cbn; split; [discriminate|lia]); try lia. cbn [mr_next].
  destruct (x =? 255); [|cbn; split; [discriminate|lia]]. destruct l as [|y l]; [cbn; split; [discriminate|lia]|]. destruct (y =? 0); [cbn; split; [discriminate|lia]|].
  destruct ((208 <=? y) && (y <=? 215)); [|cbn; split; [discriminate|lia]]. specialize (IH l 0 0 ltac:(cbn [length] in HL; lia) ltac:(lia)).
  destruct (mr_next l 0 0) as [z r']. destruct IH. split; [assumption|lia].
Qed.
Lemma mr_fill_n f : forall r n, mrn r -> n <= 25 -> let (x, r') := mr_fill f r n in x <> Panic /\ mrn r' /\ (x = Ok tt -> n <= mr_n r').
Proof.
  induction f as [|f IH]; intros r n H Hn; cbn [mr_fill]; (destruct (Z.ltb_spec (mr_n r) n); [|split; [discriminate|auto]]).
  - split; [discriminate|]. split; [exact H|discriminate].
  - unfold mrn in H. pose proof (mr_next_n _ (mr_rest r) (mr_buf r) (mr_n r) (le_n _) ltac:(lia)) as K.
    destruct (mr_next (mr_rest r) (mr_buf r) (mr_n r)) as [[b|e| |] r']; destruct K as [K1 K2]; unfold mrn; try (split; [discriminate|split; [lia|discriminate]]); [|contradiction].
    apply IH; [|exact Hn]. unfold mrn. cbn [mr_n]. lia.
Qed.
Lemma mr_peek_n r n : mrn r -> 1 <= n <= 25 -> let (x, r') := mr_peek r n in x <> Panic /\ mrn r' /\ forall v, x = Ok v -> n <= mr_n r' /\ 0 <= v < 2 ^ n.
Proof.
  intros H Hn. unfold mr_peek. destruct (Z.gtb_spec n 25); [lia|]. unfold mr_ensure. pose proof (mr_fill_n (S (length (mr_rest r))) r n H ltac:(lia)) as K.
  destruct (mr_fill _ r n) as [[u|e| |] r']; destruct K as (K1 & K2 & K3); try (split; [discriminate|split; [exact K2|discriminate]]); [|contradiction].
  destruct u. specialize (K3 eq_refl). unfold mrn in *. rewrite Z.geb_leb. destruct (Z.leb_spec 32 (mr_n r' - n)); [lia|]. split; [discriminate|]. split; [lia|]. intros v [= <-]. split; [exact K3|].
  rewrite Z.shiftl_1_l. replace (2 ^ n - 1) with (Z.ones n) by (rewrite Z.ones_equiv; lia). rewrite Z.land_ones by lia. apply Z.mod_pos_bound. apply Z.pow_pos_nonneg; lia.
Qed.
Lemma mr_read_n r n : mrn r -> 1 <= n <= 25 -> let (x, r') := mr_read r n in x <> Panic /\ mrn r'.
Proof.
  intros H Hn. unfold mr_read. pose proof (mr_peek_n r n H Hn) as K. destruct (mr_peek r n) as [[v|e| |] r']; destruct K as (K1 & K2 & K3); try (split; assumption || discriminate).
  specialize (K3 v eq_refl). split; [discriminate|]. unfold mrn, mr_consume in *. cbn [mr_n]. lia.
Qed.
Definition np {A} (x : res (A * mr)) : Prop := x <> Panic /\ forall a r, x = Ok (a, r) -> mrn r.
Lemma slow_loop_np k : forall len code t r, mrn r -> np (slow_loop k len code t r).
Proof.
  induction k as [|k IH]; intros len code t r H; cbn [slow_loop]; [split; discriminate|]. pose proof (mr_read_n r 1 H ltac:(lia)) as K.
  destruct (mr_read r 1) as [[b|e| |] r']; destruct K as [K1 K2]; try (split; discriminate); [|contradiction]. cbv zeta.
  destruct (_ <=? _); [|apply IH; exact K2]. destruct (_ && _); [split; [discriminate|intros a q [= <- <-]; exact K2]|split; discriminate].
Qed.
Lemma jdecode_np t r : mrn r -> length (j_lookup t) = 256%nat -> np (jdecode t r).
Proof.
  intros H L. unfold jdecode. pose proof (mr_peek_n r 8 H ltac:(lia)) as K. destruct (mr_peek r 8) as [[p|e| |] r']; destruct K as (K1 & K2 & K3); [|apply slow_loop_np; exact K2|contradiction|split; discriminate].
  destruct (K3 p eq_refl) as [K4 K5]. change (2 ^ 8) with 256 in K5. rewrite (get_ok (j_lookup t) p 0) by (unfold zlen; lia). cbn [rbind]. cbv zeta.
  set (len := Z.shiftr _ 8). destruct (Z.gtb_spec len 0) as [G|G]; cbn [andb]; [|apply slow_loop_np; exact K2].
  destruct (Z.leb_spec len 8) as [E|E]; [|apply slow_loop_np; exact K2]. split; [discriminate|]. intros a q [= <- <-]. unfold mrn, mr_consume in *. cbn [mr_n]. lia.
Qed.
Lemma read_amplitude_np r n : mrn r -> 0 <= n <= 25 -> np (read_amplitude r n).
Proof.
  intros H Hn. unfold read_amplitude. destruct (Z.eqb_spec n 0); [split; [discriminate|intros a q [= <- <-]; exact H]|]. pose proof (mr_read_n r n H ltac:(lia)) as K.
  destruct (mr_read r n) as [[b|e| |] r']; destruct K as [K1 K2]; try (split; discriminate); [|contradiction]. split; [discriminate|intros a q [= <- <-]; exact K2].
Qed.
Lemma dec_ac_np f : forall t r k cs, mrn r -> length (j_lookup t) = 256%nat -> np (dec_ac f t r k cs).
Proof.
  induction f as [|f IH]; intros t r k cs H L; cbn [dec_ac]; (destruct (k <? 64); [|split; [discriminate|intros a q [= <- <-]; exact H]]); [split; discriminate|].
  destruct (jdecode_np t r H L) as [K1 K2]. destruct (jdecode t r) as [[sym r1]|e| |]; cbn [rbind]; try (split; discriminate); [|contradiction].
  specialize (K2 _ _ eq_refl). destruct (sym =? 0); [split; [discriminate|intros a q [= <- <-]; exact K2]|]. cbv zeta.
  destruct (sym =? 240); [apply IH; assumption|]. destruct (_ >=? 64); [split; [discriminate|intros a q [= <- <-]; exact K2]|].
  destruct (_ >? 0); [|apply IH; assumption]. pose proof (nib sym) as N. destruct (read_amplitude_np r1 (Z.land sym 15) K2 ltac:(lia)) as [K3 K4].
  destruct (read_amplitude r1 (Z.land sym 15)) as [[amp r2]|e| |]; cbn [rbind]; try (split; discriminate); [|contradiction]. specialize (K4 _ _ eq_refl). apply IH; assumption.
Qed.

Lemma block_panic dct act q r pred : mrn r -> length (j_lookup dct) = 256%nat -> length (j_lookup act) = 256%nat ->
  bad_block dct act q r pred \/
  np (dec_block dct act r pred) /\ forall coeffs p r3, dec_block dct act r pred = Ok (coeffs, p, r3) -> exists px, idct_2d (dequantize coeffs q) = Ok px.
Proof.
  intros H L1 L2. unfold dec_block, bad_block. destruct (jdecode_np dct r H L1) as [K1 K2].
  destruct (jdecode dct r) as [[cat r1]|e| |]; cbn [rbind]; [|right; split; [split; discriminate|discriminate]|contradiction|right; split; [split; discriminate|discriminate]].
  specialize (K2 _ _ eq_refl). destruct (Z_lt_le_dec 25 cat) as [G|G]; [left; exists cat, r1; split; [reflexivity|left; exact G]|].
  assert (np (if cat >? 0 then read_amplitude r1 cat else Ok (0, r1))) as [K3 K4].
  { destruct (Z.gtb_spec cat 0); [apply read_amplitude_np; [exact K2|lia]|split; [discriminate|intros a qq [= <- <-]; exact K2]]. }
  destruct (if cat >? 0 then _ else _) as [[diff r2]|e| |] eqn:ED; cbn [rbind]; [|right; split; [split; discriminate|discriminate]|contradiction|right; split; [split; discriminate|discriminate]].
  specialize (K4 _ _ eq_refl). unfold i32. destruct ((- 2 ^ 31 <=? pred + diff) && (pred + diff <? 2 ^ 31)) eqn:EI.
  2: { left. exists cat, r1. split; [reflexivity|right]. exists diff, r2. split; [exact ED|left]. intros [A B]. apply Z.leb_le in A. apply Z.ltb_lt in B. rewrite A, B in EI. discriminate. }
  cbn [rbind]. destruct (dec_ac_np 64 act r2 1 (upd (repeat 0 64) 0 (as_i16 (pred + diff))) K4 L2) as [K5 K6].
  destruct (dec_ac 64 act r2 1 _) as [[coeffs r3]|e| |] eqn:EA; cbn [rbind]; [|right; split; [split; discriminate|discriminate]|contradiction|right; split; [split; discriminate|discriminate]].
  specialize (K6 _ _ eq_refl).
  destruct (Forall_Exists_dec (fun n => Z.abs (znth (dequantize coeffs q) n) <= 2047) (fun n => Z_le_dec _ _) (idxs 64)) as [F|E].
  - right. split; [split; [discriminate|intros a qq [= <- <-]; exact K6]|]. intros cs p r4 [= <- <- <-].
    destruct (idct_2d_ok (dequantize coeffs q)) as (px & E & _); [|exists px; exact E]. intros n Hn. rewrite Forall_forall in F. apply F. apply in_idxs. lia.
  - left. exists cat, r1. split; [reflexivity|right]. exists diff, r2. split; [exact ED|right]. apply Exists_exists in E. destruct E as (n & Hn & Bn). apply in_idxs in Hn.
    exists coeffs, r3, n. split; [exact EA|]. lia.
Qed.

(** ** The scan *)
Lemma dec_block_mrn dct act r pred cs p r3 : mrn r -> length (j_lookup dct) = 256%nat -> length (j_lookup act) = 256%nat -> dec_block dct act r pred = Ok (cs, p, r3) -> mrn r3.
Proof.
  intros H L1 L2. unfold dec_block. destruct (jdecode_np dct r H L1) as [_ K2]. destruct (jdecode dct r) as [[cat r1]|e| |]; cbn [rbind]; try discriminate.
  specialize (K2 _ _ eq_refl). assert (forall d r2, (if cat >? 0 then read_amplitude r1 cat else Ok (0, r1)) = Ok (d, r2) -> mrn r2) as K4.
  { intros d r2. destruct (Z.gtb_spec cat 0); [|intros [= _ <-]; exact K2]. destruct (Z_lt_le_dec 25 cat) as [G|G]; [|intros E; apply (proj2 (read_amplitude_np r1 cat K2 ltac:(lia)) _ _ E)].
    unfold read_amplitude. destruct (Z.eqb_spec cat 0); [lia|]. unfold mr_read, mr_peek. destruct (Z.gtb_spec cat 25); [discriminate|lia]. }
  destruct (if cat >? 0 then _ else _) as [[d r2]|e| |]; cbn [rbind]; try discriminate. specialize (K4 _ _ eq_refl).
  destruct (i32 (pred + d)) as [pr| | |]; cbn [rbind]; try discriminate. destruct (dec_ac_np 64 act r2 1 (upd (repeat 0 64) 0 (as_i16 pr)) K4 L2) as [_ K6].
  destruct (dec_ac 64 act r2 1 _) as [[co q]|e| |]; cbn [rbind]; try discriminate. intros [= _ _ <-]. apply (K6 _ _ eq_refl).
Qed.
Definition sinv (n : nat) (s : scan_state) : Prop := mrn (s_reader s) /\ length (s_comps s) = n /\ length (s_preds s) = n.
Definition finv (n : nat) (f : flow) : Prop := match f with Go s => sinv n s | Stop d => length d = n end.
Lemma flow_fold_inv {A} (f : A -> scan_state -> res flow) n l : (forall a s x, In a l -> sinv n s -> f a s = Ok x -> finv n x) ->
  forall s, sinv n s -> (forall x, flow_fold f l s = Ok x -> finv n x) /\
  (flow_fold f l s = Panic -> exists pre a suf s', l = pre ++ a :: suf /\ flow_fold f pre s = Ok (Go s') /\ sinv n s' /\ f a s' = Panic).
Proof.
  induction l as [|a l IH]; intros H s Hs; cbn [flow_fold]; [split; [intros x [= <-]; exact Hs|discriminate]|].
  destruct (f a s) as [[s'|d]|e| |] eqn:E; cbn [rbind]; try (split; discriminate).
  - pose proof (H a s _ (or_introl eq_refl) Hs E) as Hs'. cbn in Hs'. destruct (IH ltac:(intros; eapply H; eauto; right; assumption) s' Hs') as [I1 I2]. split; [exact I1|].
    intros P. destruct (I2 P) as (pre & b & suf & s2 & -> & E1 & E2 & E3). exists (a :: pre), b, suf, s2. split; [reflexivity|]. cbn [flow_fold]. rewrite E. cbn [rbind]. auto.
  - pose proof (H a s _ (or_introl eq_refl) Hs E) as Hs'. cbn in Hs'. split; [intros x [= <-]; exact Hs'|discriminate].
  - split; [discriminate|]. intros _. exists [], a, l, s. auto.
Qed.
Lemma mcu_blocks_in cs ci c v h : In (ci, c, v, h) (mcu_blocks cs) -> 0 <= ci < zlen cs /\ In c cs.
Proof.
  unfold mcu_blocks. intros H. apply in_flat_map in H. destruct H as ([i c'] & H1 & H2). apply in_flat_map in H2. destruct H2 as (v' & _ & H2). apply in_map_iff in H2. destruct H2 as (h' & [= <- <- <- <-] & _).
  split; [apply in_combine_l in H1; apply in_idxs in H1; unfold zlen; lia|eapply in_combine_r; exact H1].
Qed.
Section Scan.
  Variables (st : jstate) (data : list Z).
  Hypothesis W : state_wf st.
  Notation n := (length (js_comps st)).
  Lemma tab_get l i : tabs_wf l -> 0 <= i <= 3 -> exists t, get l i = Ok t /\ length (j_lookup t) = 256%nat.
  Proof.
    intros [L F] Hi. exists (nth (Z.to_nat i) l jtab_default). split; [apply get_ok; unfold zlen; lia|]. apply (Forall_nth_d (fun t => length (j_lookup t) = 256%nat)); [exact F|reflexivity].
  Qed.
  Lemma block_step ci c mw bx by_ s : 0 <= ci < zlen (js_comps st) -> In c (js_comps st) -> sinv n s ->
    (forall x, scan_block st ci c mw bx by_ s = Ok x -> finv n x) /\
    (scan_block st ci c mw bx by_ s = Panic -> exists dct act q, get (js_dc st) (c_dc c) = Ok dct /\ get (js_ac st) (c_ac c) = Ok act /\ get (js_quant st) (c_q c) = Ok q /\
       bad_block dct act q (s_reader s) (znth (s_preds s) ci)).
  Proof.
    intros Hci Hc (S1 & S2 & S3). pose proof (wf_c st W) as FC. rewrite Forall_forall in FC. destruct (FC c Hc) as (_ & _ & Q & D & A). clear FC.
    destruct (tab_get (js_dc st) (c_dc c) (wf_d st W) D) as (dct & Ed & Ld). destruct (tab_get (js_ac st) (c_ac c) (wf_a st W) A) as (act & Ea & La).
    destruct (wf_q st W) as [WQ _]. assert (exists q, get (js_quant st) (c_q c) = Ok q) as (q & Eq) by (eexists; apply (get_ok _ _ []); unfold zlen; lia).
    unfold zlen in Hci. unfold scan_block. rewrite Ed, Ea. cbn [rbind]. rewrite (get_ok (s_preds s) ci 0) by (unfold zlen; lia). cbn [rbind]. change (nth (Z.to_nat ci) (s_preds s) 0) with (znth (s_preds s) ci).
    pose proof (dec_block_mrn dct act (s_reader s) (znth (s_preds s) ci)) as MR. destruct (block_panic dct act q (s_reader s) (znth (s_preds s) ci) S1 Ld La) as [B|[[B1 B2] B3]].
    - split; [|intros _; exists dct, act, q; auto].
      destruct (dec_block _ _ _ _) as [[[cs p] r]|e| |]; try discriminate; [|intros x [= <-]; exact S2]. rewrite Eq. cbn [rbind].
      destruct (idct_2d _) as [px|e| |]; cbn [rbind]; try discriminate. rewrite (get_ok (s_comps s) ci []) by (unfold zlen; lia). cbn [rbind]. intros x [= <-]. unfold finv, sinv. cbn [s_reader s_comps s_preds].
      split; [eapply MR; eauto|]. rewrite !upd_length. auto.
    - destruct (dec_block _ _ _ _) as [[[cs p] r]|e| |]; [|split; [intros x [= <-]; exact S2|discriminate]|contradiction|split; discriminate].
      destruct (B3 cs p r eq_refl) as (px & Epx). rewrite Eq. cbn [rbind]. rewrite Epx. cbn [rbind]. rewrite (get_ok (s_comps s) ci []) by (unfold zlen; lia). cbn [rbind]. split; [|discriminate]. intros x [= <-]. unfold finv, sinv. cbn [s_reader s_comps s_preds].
      split; [eapply MR; eauto|]. rewrite !upd_length. auto.
  Qed.
  Lemma restart_inv k s : sinv n s -> sinv n (at_restart st k s).
  Proof. intros (A & B & C). unfold at_restart. destruct (_ && _); [|split; auto]. split; [exact A|]. split; [exact B|]. cbn [s_preds]. rewrite map_length. exact C. Qed.
  Lemma mcu_step mw k s : sinv n s -> (forall x, scan_mcu st mw k s = Ok x -> finv n x) /\
    (scan_mcu st mw k s = Panic -> exists pre ci c v h suf s' dct act q, mcu_blocks (js_comps st) = pre ++ (ci, c, v, h) :: suf /\ flow_fold (scan_step st mw k) pre (at_restart st k s) = Ok (Go s') /\
       get (js_dc st) (c_dc c) = Ok dct /\ get (js_ac st) (c_ac c) = Ok act /\ get (js_quant st) (c_q c) = Ok q /\ bad_block dct act q (s_reader s') (znth (s_preds s') ci)).
  Proof.
    intros Hs. change (scan_mcu st mw k s) with (flow_fold (scan_step st mw k) (mcu_blocks (js_comps st)) (at_restart st k s)).
    destruct (flow_fold_inv (scan_step st mw k) n (mcu_blocks (js_comps st))) with (s := at_restart st k s) as [I1 I2].
    { intros [[[ci c] v] h] s0 x Hin Hs0. destruct (mcu_blocks_in _ _ _ _ _ Hin) as [H1 H2]. apply block_step; assumption. }
    { apply restart_inv. exact Hs. }
    split; [exact I1|]. intros P. destruct (I2 P) as (pre & [[[ci c] v] h] & suf & s' & E1 & E2 & E3 & E4).
    assert (In (ci, c, v, h) (mcu_blocks (js_comps st))) as Hin by (rewrite E1; apply in_elt). destruct (mcu_blocks_in _ _ _ _ _ Hin) as [H1 H2].
    destruct (proj2 (block_step ci c mw _ _ s' H1 H2 E3) E4) as (dct & act & q & G). exists pre, ci, c, v, h, suf, s', dct, act, q. auto.
  Qed.
  Theorem scan_panic : decode_scan st data = Panic -> js_comps st = [] \/
    exists ci c s dct act q, reached st data ci c s /\ get (js_dc st) (c_dc c) = Ok dct /\ get (js_ac st) (c_ac c) = Ok act /\ get (js_quant st) (c_q c) = Ok q /\
      bad_block dct act q (s_reader s) (znth (s_preds s) ci).
  Proof.
    unfold decode_scan. cbv zeta. set (mw := div_ceil (js_w st) (js_maxh st * 8)). set (mh := div_ceil (js_h st) (js_maxv st * 8)).
    assert (sinv n (scan_init st data)) as S0. { unfold scan_init, sinv. cbn [s_reader s_comps s_preds]. rewrite !map_length. split; [|auto]. unfold mrn, mr_new. cbn. lia. }
    match goal with |- context [flow_fold _ _ ?i] => change i with (scan_init st data) end.
    destruct (flow_fold_inv (scan_mcu st mw) n (idxs (Z.to_nat (mw * mh)))) with (s := scan_init st data) as [I1 I2]; [intros k s x _ Hs; apply mcu_step; exact Hs|exact S0|].
    destruct (flow_fold (scan_mcu st mw) _ _) as [fl|e| |]; cbn [rbind]; try discriminate.
    - specialize (I1 fl eq_refl). intros P. left. assert (length (match fl with Go s => s_comps s | Stop d => d end) = n) as L by (destruct fl; apply I1). clear I1 I2.
      destruct (wf_n st W) as [N|[N|N]]; [exact N| |]; exfalso.
      + destruct (js_comps st) as [|c [|c2 cs]]; try discriminate N. rewrite (get_ok _ 0 []) in P by (unfold zlen; cbn [length] in L; lia). discriminate P.
      + destruct (js_comps st) as [|c [|c2 [|c3 [|]]]]; try discriminate N. unfold ycbcr_to_rgb in P. cbn [length] in L. rewrite !(get_ok (match fl with Go s => s_comps s | Stop d => d end) _ []) in P by (unfold zlen; lia). discriminate P.
    - intros _. right. destruct (I2 eq_refl) as (pre & k & suf & s1 & E1 & E2 & E3 & E4).
      assert (pre = idxs (length pre) /\ k = Z.of_nat (length pre) /\ Z.of_nat (length pre) < mw * mh) as (P1 & P2 & P3).
      { assert (length pre < Z.to_nat (mw * mh))%nat as LP by (rewrite <- (idxs_length (Z.to_nat (mw * mh))), E1, app_length; cbn [length]; lia).
        split; [|split; [|lia]].
        - transitivity (firstn (length pre) (idxs (Z.to_nat (mw * mh)))); [rewrite E1, firstn_app, Nat.sub_diag, firstn_O, app_nil_r, firstn_all; reflexivity|].
          unfold idxs. rewrite firstn_map. f_equal. clear -LP. replace (Z.to_nat (mw * mh)) with (length pre + (Z.to_nat (mw * mh) - length pre))%nat by lia. rewrite seq_app, firstn_app, seq_length, Nat.sub_diag, firstn_O, app_nil_r, firstn_all2 by (rewrite seq_length; lia). reflexivity.
        - rewrite <- (idxs_nth (Z.to_nat (mw * mh)) (length pre) LP). rewrite E1, app_nth2, Nat.sub_diag by lia. reflexivity. }
      destruct (proj2 (mcu_step mw k s1 E3) E4) as (pb & ci & c & v & h & sb & s' & dct & act & q & F1 & F2 & F3). exists ci, c, s', dct, act, q. split; [|exact F3].
      unfold reached. cbv zeta. fold mw mh. exists (length pre), s1, pb, v, h, sb. rewrite <- P2, <- P1. rewrite P2 at 1. auto.
  Qed.
End Scan.
Theorem decode_panic_causes data : bytes data -> decode_jpeg data = Panic ->
  exists st rest, state_wf st /\ bytes rest /\ decode_jpeg data = decode_scan st rest /\
  (js_comps st = [] \/
   exists ci c s dct act q, reached st rest ci c s /\ get (js_dc st) (c_dc c) = Ok dct /\ get (js_ac st) (c_ac c) = Ok act /\ get (js_quant st) (c_q c) = Ok q /\
     bad_block dct act q (s_reader s) (znth (s_preds s) ci)).
Proof.
  intros B P. destruct (jpeg_header_total data B) as [(e & E)|(st & rest & W & R & E)]; [rewrite E in P; discriminate|]. exists st, rest. do 3 (split; [assumption|]).
  rewrite E in P. apply scan_panic; assumption.
Qed.
Definition category_file : list Z := [255; 216] ++ dqt_segment 0 (repeat 1 64) ++ sof_segment 192 8 8 [(1, 1, 1, 0)] ++
    dht_segment 0 0 (1 :: repeat 0 15) [26] ++ dht_segment 1 0 (1 :: repeat 0 15) [0] ++ sos_segment [(1, 0, 0)] ++ [64; 95; 12; 13; 255; 217].
Lemma decode_category : exists data, bytes data /\ decode_jpeg data = Panic /\
  exists comps, data = [255; 216] ++ dqt_segment 0 (repeat 1 64) ++ sof_segment 192 8 8 [(1, 1, 1, 0)] ++
    dht_segment 0 0 (1 :: repeat 0 15) [26] ++ dht_segment 1 0 (1 :: repeat 0 15) [0] ++ sos_segment [(1, 0, 0)] ++ comps.
Proof.
  exists category_file. split; [|split; [vm_compute; reflexivity|exists [64; 95; 12; 13; 255; 217]; reflexivity]].
  assert (forallb (fun b => (0 <=? b) && (b <? 256)) category_file = true) as F by (vm_compute; reflexivity).
  apply Forall_forall. intros x Hx. rewrite forallb_forall in F. specialize (F x Hx). apply andb_prop in F as [F1 F2].
  apply Z.leb_le in F1. apply Z.ltb_lt in F2. unfold is_byte. lia.
Qed.
