(** The decoder reads a coded scan back into the planes it describes. *)
From Verif Require Import Base BitsModel BitsProofs Lz77Model PngFilterModel PngPaletteModel PngFilterProofs JpegBaseModel JpegHuffModel JpegDecModel JpegEncModel JpegBaseProofs MsbSpec MsbProofs JpegSpec JpegSymProofs JpegBlockProofs JpegImgSpec JpegEncProofs JpegCountProofs JpegMcuProofs JpegIdctProofs.

(** ** storing a block *)
Definition in_block (bx by_ x y : Z) : bool := (x / 8 =? bx) && (y / 8 =? by_).
Lemma store_block_ok pw ph bx by_ px : forall data, zlen data = pw * ph -> 0 <= bx -> 8 * bx + 8 <= pw -> 0 <= by_ -> 8 * by_ + 8 <= ph ->
  zlen (store_block data pw (bx * 8) (by_ * 8) px) = pw * ph /\
  forall x y, 0 <= x < pw -> 0 <= y < ph ->
    znth (store_block data pw (bx * 8) (by_ * 8) px) (y * pw + x) =
      if in_block bx by_ x y then znth px (8 * (y mod 8) + x mod 8) else znth data (y * pw + x).
Proof.
  intros data HL Hx1 Hx2 Hy1 Hy2. unfold store_block.
  assert (forall n, (n <= 64)%nat ->
    let d' := fold_left (fun d k => let idx := (by_ * 8 + k / 8) * pw + (bx * 8 + k mod 8) in
                if idx <? zlen d then upd d (Z.to_nat idx) (znth px k) else d) (idxs n) data in
    zlen d' = pw * ph /\ forall x y, 0 <= x < pw -> 0 <= y < ph ->
      znth d' (y * pw + x) = if in_block bx by_ x y && (8 * (y mod 8) + x mod 8 <? Z.of_nat n) then znth px (8 * (y mod 8) + x mod 8) else znth data (y * pw + x)) as K.
  { induction n as [|n IH]; intros Hn; cbv zeta.
    - split; [exact HL|]. intros x y Bx By. pose proof (Z.mod_pos_bound x 8 ltac:(lia)). pose proof (Z.mod_pos_bound y 8 ltac:(lia)).
      destruct (Z.ltb_spec (8 * (y mod 8) + x mod 8) (Z.of_nat 0)); [lia|]. rewrite andb_false_r. reflexivity.
    - rewrite PngFilterProofs.idxs_S, fold_left_app. cbn [fold_left]. specialize (IH ltac:(lia)). cbv zeta in IH.
      set (d := fold_left _ (idxs n) data) in *. clearbody d. destruct IH as [IL IV].
      set (k := Z.of_nat n) in *. assert (0 <= k < 64) as Bk by lia. assert (Z.of_nat (S n) = k + 1) as Kn by lia. rewrite Kn. clearbody k. clear Kn. pose proof (Z.mod_pos_bound k 8 ltac:(lia)) as Bm.
      assert (0 <= k / 8 < 8) as Bd by (split; [apply Z.div_pos; lia|apply Z.div_lt_upper_bound; lia]).
      pose proof (Z.div_mod k 8 ltac:(lia)) as Ek.
      set (Y := by_ * 8 + k / 8) in *. set (X := bx * 8 + k mod 8) in *.
      assert (0 <= X < pw) as BX by lia. assert (0 <= Y < ph) as BY by lia. assert (0 <= Y * pw + X < pw * ph) as BI by nia.
      rewrite IL. destruct (Z.ltb_spec (Y * pw + X) (pw * ph)) as [_|G]; [|lia].
      split; [unfold zlen in *; rewrite upd_length; exact IL|]. intros x y Bx By. specialize (IV x y Bx By).
      unfold in_block in *.
      destruct (Z.eq_dec (y * pw + x) (Y * pw + X)) as [E|N].
      + assert (y = Y /\ x = X) as [-> ->].
        { assert (y = Y); [|split; [assumption|nia]].
          destruct (Z.lt_trichotomy y Y) as [L|[L|L]]; [nia|exact L|nia]. }
        unfold znth at 1. rewrite nth_upd_eq by (unfold zlen in IL; lia).
        assert (X / 8 = bx) as -> by (unfold X; rewrite Z.div_add_l by lia; rewrite (Z.div_small (k mod 8)) by lia; lia).
        assert (Y / 8 = by_) as -> by (unfold Y; rewrite Z.div_add_l by lia; rewrite (Z.div_small (k / 8)) by lia; lia).
        assert (X mod 8 = k mod 8) as -> by (unfold X; rewrite Z.add_comm, Z.mod_add by lia; apply Z.mod_small; lia).
        assert (Y mod 8 = k / 8) as -> by (unfold Y; rewrite Z.add_comm, Z.mod_add by lia; apply Z.mod_small; lia).
        rewrite !Z.eqb_refl. replace (8 * (k / 8) + k mod 8) with k by lia. destruct (Z.ltb_spec k (k + 1)); [reflexivity|lia].
      + unfold znth at 1. rewrite nth_upd_neq by (intros C; apply N; apply Z2Nat.inj in C; nia).
        fold (znth d (y * pw + x)). rewrite IV.
        destruct (Z.eqb_spec (x / 8) bx) as [E1|]; [|reflexivity]. destruct (Z.eqb_spec (y / 8) by_) as [E2|]; [|reflexivity]. cbn [andb].
        assert (8 * (y mod 8) + x mod 8 <> k) as NK.
        { intros C. apply N. pose proof (Z.div_mod x 8 ltac:(lia)). pose proof (Z.div_mod y 8 ltac:(lia)).
          pose proof (Z.mod_pos_bound x 8 ltac:(lia)). pose proof (Z.mod_pos_bound y 8 ltac:(lia)).
          assert (y mod 8 = k / 8) as M1 by lia. assert (x mod 8 = k mod 8) as M2 by lia. assert (y = Y) by (unfold Y; lia). assert (x = X) by (unfold X; lia). congruence. }
        destruct (Z.ltb_spec (8 * (y mod 8) + x mod 8) k), (Z.ltb_spec (8 * (y mod 8) + x mod 8) (k + 1)); reflexivity || lia. }
  specialize (K 64%nat ltac:(lia)). cbv zeta in K. destruct K as [K1 K2]. split; [exact K1|]. intros x y Bx By. rewrite (K2 x y Bx By).
  pose proof (Z.mod_pos_bound x 8 ltac:(lia)). pose proof (Z.mod_pos_bound y 8 ltac:(lia)).
  destruct (Z.ltb_spec (8 * (y mod 8) + x mod 8) (Z.of_nat 64)); [rewrite andb_true_r; reflexivity|lia].
Qed.

Lemma interval_split T a : forall preds b bits, interval_code T preds (zzs (a ++ b)) bits ->
  exists b1 b2, bits = b1 ++ b2 /\ interval_code T preds (zzs a) b1 /\ interval_code T (after preds a) (zzs b) b2.
Proof.
  induction a as [|cb r IH]; intros preds b bits H.
  - exists [], bits. split; [reflexivity|]. split; [constructor|exact H].
  - cbn [zzs map app] in H. inversion H as [|? c zz rr x1 x2 B1 B2]; subst.
    change (znth (zigzag_reorder (snd cb)) 0) with (znth (snd cb) 0) in B2. apply IH in B2 as (b1 & b2 & -> & I1 & I2).
    exists (x1 ++ b1), b2. split; [apply app_assoc|]. split; [|exact I2].
    apply (iv_cons T preds (fst cb) (zigzag_reorder (snd cb)) (zzs r)); [exact B1|exact I1].
Qed.

(** ** the state of the decoder for an image *)
Definition comps_of (o : jopts) : list jcomp :=
  match jo_ct o with
  | Gray => [mkcomp 1 1 0 0 0]
  | _ => [mkcomp (factor o) (factor o) 0 0 0; mkcomp 1 1 1 1 1; mkcomp 1 1 1 1 1]
  end.
Definition sel (c : Z) : Z := if c =? 0 then 0 else 1.
Definition hf (o : jopts) (c : Z) : Z := if c =? 0 then factor o else 1.
Record st_ok (st : jstate) (o : jopts) (t : htables) : Prop := {
  so_w : js_w st = jo_w o; so_h : js_h st = jo_h o; so_comps : js_comps st = comps_of o;
  so_maxh : js_maxh st = factor o; so_maxv : js_maxv st = factor o;
  so_restart : js_restart st = match jo_restart o with Some i => i | None => 0 end;
  so_quant : forall c, 0 <= c <= 2 -> get (js_quant st) (sel c) = Ok (table_zigzag (if c =? 0 then STD_LUMINANCE_TABLE else STD_CHROMINANCE_TABLE) (jo_quality o));
  so_dc : forall c, 0 <= c <= 2 -> get (js_dc st) (sel c) = Ok (jtab_build (ct_dcb (tabs_of t c)) (ct_dcv (tabs_of t c)));
  so_ac : forall c, 0 <= c <= 2 -> get (js_ac st) (sel c) = Ok (jtab_build (ct_acb (tabs_of t c)) (ct_acv (tabs_of t c))) }.
Lemma factor_cases o : factor o = 1 \/ factor o = 2.
Proof. unfold factor. destruct (jo_ct o), (jo_sub o); auto. Qed.

Lemma interval_single T preds c zz bb : interval_code T preds [(c, zz)] bb ->
  block_code (ct_dcb (T c)) (ct_dcv (T c)) (ct_acb (T c)) (ct_acv (T c)) (znth preds c) zz bb.
Proof. intros H. inversion H as [|? ? ? ? b1 b2 BC IN]; subst. inversion IN; subst. rewrite app_nil_r. exact BC. Qed.

Lemma flow_fold_app {A} (f : A -> scan_state -> res flow) a b : forall s,
  flow_fold f (a ++ b) s = (let* x := flow_fold f a s in match x with Go s => flow_fold f b s | Stop d => Ok (Stop d) end).
Proof.
  induction a as [|x r IH]; intros s; [reflexivity|]. cbn [app flow_fold]. destruct (f x s) as [[s'|d]| | |]; cbn [rbind]; [apply IH|reflexivity|reflexivity|reflexivity|reflexivity].
Qed.
Lemma flat_map_single {A B} (f : A -> B) l : flat_map (fun x => [f x]) l = map f l.
Proof. induction l as [|x r IH]; [reflexivity|]. cbn. rewrite IH. reflexivity. Qed.
Lemma flat_map_ext_in {A B} (f g : A -> list B) l : (forall x, In x l -> f x = g x) -> flat_map f l = flat_map g l.
Proof. intros H. induction l as [|x r IH]; [reflexivity|]. cbn. rewrite (H x) by (left; reflexivity). rewrite IH; [reflexivity|]. intros y Hy. apply H. right. exact Hy. Qed.

Section Scan.
  Variables (st : jstate) (o : jopts) (t : htables) (q : list Z -> list Z -> list Z) (data : list Z).
  Hypothesis HV : valid_args data o.
  Hypothesis HQ : dctq_ok q.
  Hypothesis HS : st_ok st o t.
  Hypothesis HT : tabs_ok t.
  Let mw := mcus_across o.
  Let mh := mcus_down o.
  Definition pw (c : Z) : Z := mw * hf o c * 8.
  Definition ph (c : Z) : Z := mh * hf o c * 8.
  Definition the_comp (c : Z) : jcomp := mkcomp (hf o c) (hf o c) (sel c) (sel c) (sel c).
  Definition bcoefs (p : Z * Z * Z) : Z * list Z := let '(c, bx, by_) := p in (c, block_coefs q data o c bx by_).

  Lemma coef_range c bx by_ : 0 <= c <= 2 -> 0 <= bx -> 0 <= by_ -> coef_ok (bcoefs (c, bx, by_)) /\
    forall n, 0 <= n < 64 -> Z.abs (znth (block_coefs q data o c bx by_) n * znth (comp_table o c) n) <= 2047.
  Proof.
    intros Hc Hx Hy. unfold coef_ok, bcoefs. cbn [fst snd]. destruct (block_samples_range data o c bx by_ HV Hx Hy) as [S1 S2].
    destruct (comp_table_ok o c) as [T1 T2]. destruct (HQ _ _ T1 T2 S1 S2) as (Q1 & Q2 & Q3 & Q4). fold (block_coefs q data o c bx by_) in *.
    split; [split; [exact Hc|split; [exact Q1|split; [exact Q2|exact Q3]]]|exact Q4].
  Qed.
  Lemma dequantized c bx by_ :
    dequantize (zigzag_reorder (block_coefs q data o c bx by_)) (table_zigzag (if c =? 0 then STD_LUMINANCE_TABLE else STD_CHROMINANCE_TABLE) (jo_quality o)) =
    map (fun n => znth (block_coefs q data o c bx by_) n * znth (comp_table o c) n) (idxs 64).
  Proof.
    apply (nth_ext _ _ 0 0); [rewrite dequantize_length, map_length; reflexivity|]. intros n Hn. rewrite dequantize_length in Hn.
    pose proof (dequantize_of_quantized (if c =? 0 then STD_LUMINANCE_TABLE else STD_CHROMINANCE_TABLE) (jo_quality o) (block_coefs q data o c bx by_) (Z.of_nat n)
                  ltac:(destruct (c =? 0); reflexivity) ltac:(lia)) as E.
    unfold znth in E at 1. rewrite Nat2Z.id in E. rewrite E.
    pose proof (znth_map_idxs (fun n => znth (block_coefs q data o c bx by_) n * znth (comp_table o c) n) 64 (Z.of_nat n) ltac:(lia)) as E2.
    unfold znth in E2 at 1. rewrite Nat2Z.id in E2. rewrite E2. reflexivity.
  Qed.
  Lemma dec_pixels_ok c bx by_ : 0 <= c <= 2 -> 0 <= bx -> 0 <= by_ ->
    idct_2d (map (fun n => znth (block_coefs q data o c bx by_) n * znth (comp_table o c) n) (idxs 64)) = Ok (dec_pixels q data o c bx by_) /\
    bytes (dec_pixels q data o c bx by_).
  Proof.
    intros Hc Hx Hy. destruct (coef_range c bx by_ Hc Hx Hy) as [_ B].
    destruct (idct_2d_ok (map (fun n => znth (block_coefs q data o c bx by_) n * znth (comp_table o c) n) (idxs 64))) as (px & E & _ & BY).
    { intros n Hn. rewrite znth_map_idxs by lia. apply B. exact Hn. }
    unfold dec_pixels. rewrite E. auto.
  Qed.

  Record sinv (vis : list (Z * Z * Z)) (s : scan_state) (preds : list Z) (bits : list bool) : Prop := {
    si_nc : zlen (s_comps s) = ncomps o; si_np : zlen (s_preds s) = ncomps o;
    si_preds : forall c, 0 <= c < ncomps o -> znth (s_preds s) c = znth preds c;
    si_len : forall c, 0 <= c < ncomps o -> zlen (nth (Z.to_nat c) (s_comps s) []) = pw c * ph c;
    si_vis : forall c bx by_, In (c, bx, by_) vis -> forall x y, 0 <= x < pw c -> 0 <= y < ph c -> x / 8 = bx -> y / 8 = by_ ->
      znth (nth (Z.to_nat c) (s_comps s) []) (y * pw c + x) = dec_plane q data o c x y;
    si_reader : mr_rep (s_reader s) bits }.
  Definition place_ok (p : Z * Z * Z) : Prop := let '(c, bx, by_) := p in 0 <= c < ncomps o /\ 0 <= bx < mw * hf o c /\ 0 <= by_ < mh * hf o c.
  Lemma ncomps_le : 1 <= ncomps o <= 3.
  Proof. unfold ncomps. destruct (jo_ct o); lia. Qed.

  Lemma dec_plane_in c bx by_ x y : x / 8 = bx -> y / 8 = by_ -> znth (dec_pixels q data o c bx by_) (8 * (y mod 8) + x mod 8) = dec_plane q data o c x y.
  Proof. intros <- <-. reflexivity. Qed.
  Lemma sinv_step vis s preds bits c bx by_ v0 r' rest px : place_ok (c, bx, by_) -> preds_ok preds -> Forall place_ok vis -> sinv vis s preds bits ->
    mr_rep r' rest -> (forall x y, x / 8 = bx -> y / 8 = by_ -> znth px (8 * (y mod 8) + x mod 8) = dec_plane q data o c x y) ->
    sinv ((c, bx, by_) :: vis)
      (mkscan (upd (s_comps s) (Z.to_nat c) (store_block (nth (Z.to_nat c) (s_comps s) []) (pw c) (bx * 8) (by_ * 8) px))
              (upd (s_preds s) (Z.to_nat c) v0) r')
      (upd preds (Z.to_nat c) v0) rest.
  Proof.
    intros (Hc & Hx & Hy) HP HVis [NC NP SP SL SV SR] R' HPX. pose proof ncomps_le as NL.
    set (d := nth (Z.to_nat c) (s_comps s) []) in *.
    destruct (store_block_ok (pw c) (ph c) bx by_ px d (SL c Hc) ltac:(lia) ltac:(unfold pw; lia) ltac:(lia) ltac:(unfold ph; lia)) as [L1 V1].
    set (d' := store_block d (pw c) (bx * 8) (by_ * 8) px) in *. clearbody d'.
    unfold zlen in NC, NP.
    constructor; cbn [s_comps s_preds s_reader].
    - unfold zlen. rewrite upd_length. exact NC.
    - unfold zlen. rewrite upd_length. exact NP.
    - intros c' Hc'. specialize (SP c' Hc'). clear - SP NP NL HP Hc Hc'.
      unfold znth in *. destruct (Nat.eq_dec (Z.to_nat c') (Z.to_nat c)) as [Ec|Nc].
      + rewrite Ec, !nth_upd_eq; [reflexivity|destruct HP as [L _]; lia|lia].
      + rewrite !nth_upd_neq by auto. exact SP.
    - intros c' Hc'. destruct (Nat.eq_dec (Z.to_nat c') (Z.to_nat c)) as [Ec|Nc].
      + assert (c' = c) as -> by lia. rewrite nth_upd_eq by lia. exact L1.
      + rewrite nth_upd_neq by auto. apply SL. exact Hc'.
    - intros c' bx' by' Hin x y Bx By Ex Ey.
      destruct (Nat.eq_dec (Z.to_nat c') (Z.to_nat c)) as [Ec|Nc].
      + assert (0 <= c') as C0.
        { destruct Hin as [[= -> -> ->]|Hin]; [lia|]. rewrite Forall_forall in HVis. specialize (HVis _ Hin). cbn [place_ok] in HVis. lia. }
        assert (c' = c) as -> by lia. rewrite nth_upd_eq by lia. rewrite (V1 x y Bx By). unfold in_block.
        destruct (Z.eqb_spec (x / 8) bx) as [E1|N1]; cbn [andb].
        * destruct (Z.eqb_spec (y / 8) by_) as [E2|N2].
          -- apply HPX; assumption.
          -- destruct Hin as [[= Q1 Q2]|Hin]; [congruence|]. apply (SV c bx' by'); auto.
        * destruct Hin as [[= Q1 Q2]|Hin]; [congruence|]. apply (SV c bx' by'); auto.
      + destruct Hin as [[= -> -> ->]|Hin]; [congruence|]. rewrite nth_upd_neq by auto. apply (SV c' bx' by'); auto.
    - exact R'.
  Qed.

  Lemma scan_block_ok vis s preds bb rest c bx by_ :
    place_ok (c, bx, by_) -> preds_ok preds -> Forall place_ok vis -> sinv vis s preds (bb ++ rest) ->
    interval_code (tabs_of t) preds (zzs [bcoefs (c, bx, by_)]) bb ->
    exists s', scan_block st c (the_comp c) mw bx by_ s = Ok (Go s') /\ sinv ((c, bx, by_) :: vis) s' (after preds [bcoefs (c, bx, by_)]) rest.
  Proof.
    intros HPl HP HVis HI HC. pose proof HPl as (Hc & Hx & Hy). pose proof ncomps_le as NL. pose proof HI as [NC NP SP SL SV SR].
    destruct (coef_range c bx by_ ltac:(lia) ltac:(lia) ltac:(lia)) as [CO CB].
    pose proof CO as (_ & _ & CD & _). cbn [bcoefs snd] in CD.
    destruct (dec_pixels_ok c bx by_ ltac:(lia) ltac:(lia) ltac:(lia)) as [EP _].
    assert (znth (zigzag_reorder (block_coefs q data o c bx by_)) 0 = znth (block_coefs q data o c bx by_) 0) as EZ by reflexivity.
    pose proof (dequantized c bx by_) as DQ.
    unfold after. cbn [fold_left bcoefs fst snd]. rewrite <- DQ in EP.
    cbn [zzs map bcoefs fst snd] in HC. clear CO CB DQ. rewrite <- EZ. rewrite <- EZ in CD. clear EZ.
    revert HC EP CD. generalize (zigzag_reorder (block_coefs q data o c bx by_)). intros zz HC EP CD.
    apply interval_single in HC.
    destruct (tabs_enc t c HT) as [[TD _] [TA _]].
    destruct (dec_block_ok _ _ _ _ (znth preds c) zz bb (s_reader s) rest TD TA ltac:(lia) HC SR) as (r' & E & R').
    eexists. split; [|apply (sinv_step vis s preds (bb ++ rest) c bx by_ (znth zz 0) r' rest (dec_pixels q data o c bx by_)); try assumption; apply dec_plane_in].
    unfold scan_block. cbn [the_comp c_dc c_ac c_q c_h].
    rewrite (so_dc _ _ _ HS c ltac:(lia)). cbn [rbind]. rewrite (so_ac _ _ _ HS c ltac:(lia)). cbn [rbind].
    rewrite (get_ok (s_preds s) c 0) by lia. cbn [rbind]. fold (znth (s_preds s) c). rewrite (SP c Hc).
    rewrite E. rewrite (so_quant _ _ _ HS c ltac:(lia)). cbn [rbind]. rewrite EP. cbn [rbind].
    rewrite (get_ok (s_comps s) c []) by lia. cbn [rbind]. reflexivity.
  Qed.

  (** the blocks of a MCU as the decoder walks them *)
  Definition dplace (k : Z) (b : Z * jcomp * Z * Z) : Z * Z * Z := let '(ci, c, v, h) := b in (ci, k mod mw * c_h c + h, k / mw * c_v c + v).
  Lemma mcu_blocks_places k : map (dplace k) (mcu_blocks (js_comps st)) = mcu_places o k /\
    Forall (fun b => let '(ci, c, v, h) := b in c = the_comp ci) (mcu_blocks (js_comps st)).
  Proof.
    rewrite (so_comps _ _ _ HS). unfold comps_of, mcu_places. cbv zeta. fold mw. unfold the_comp, hf, dplace, factor.
    destruct HV as (_ & _ & _ & _ & _ & [HC|HC] & _); rewrite HC.
    - unfold mcu_blocks. change (idxs (length [mkcomp 1 1 0 0 0])) with [0]. cbn [combine flat_map c_v c_h].
      change (idxs (Z.to_nat 1)) with [0]. cbn [flat_map map app c_v c_h]. rewrite !Z.mul_1_r, !Z.add_0_r. split; [reflexivity|]. constructor; [reflexivity|constructor].
    - destruct (jo_sub o).
      + unfold mcu_blocks. cbn [length]. change (idxs 3) with [0; 1; 2]. cbn [combine flat_map c_v c_h].
        change (idxs (Z.to_nat 1)) with [0]. cbn [flat_map map app c_v c_h]. rewrite !Z.mul_1_r, !Z.add_0_r. split; [reflexivity|].
        constructor; [reflexivity|]. constructor; [reflexivity|]. constructor; [reflexivity|constructor].
      + unfold mcu_blocks. cbn [length]. change (idxs 3) with [0; 1; 2]. cbn [combine flat_map c_v c_h].
        change (idxs (Z.to_nat 1)) with [0]. change (idxs (Z.to_nat 2)) with [0; 1]. cbn [flat_map map app c_v c_h].
        rewrite !Z.mul_1_r, !Z.add_0_r, !(Z.mul_comm _ 2). split; [reflexivity|].
        constructor; [reflexivity|]. constructor; [reflexivity|]. constructor; [reflexivity|]. constructor; [reflexivity|].
        constructor; [reflexivity|]. constructor; [reflexivity|constructor].
  Qed.

  Lemma scan_blocks_ok k : forall bs vis s preds bb rest,
    Forall (fun b => let '(ci, c, v, h) := b in c = the_comp ci) bs -> Forall place_ok (map (dplace k) bs) ->
    preds_ok preds -> Forall place_ok vis -> sinv vis s preds (bb ++ rest) ->
    interval_code (tabs_of t) preds (zzs (map bcoefs (map (dplace k) bs))) bb ->
    exists s', flow_fold (fun '(ci, c, v, h) s => scan_block st ci c mw (k mod mw * c_h c + h) (k / mw * c_v c + v) s) bs s = Ok (Go s') /\
      sinv (rev (map (dplace k) bs) ++ vis) s' (after preds (map bcoefs (map (dplace k) bs))) rest.
  Proof.
    induction bs as [|[[[ci c] v] h] r IH]; intros vis s preds bb rest HB HPl HP HVis HI HIv.
    - cbn [map zzs] in HIv. inversion HIv; subst. exists s. split; [reflexivity|exact HI].
    - apply Forall_cons_iff in HB as [Ec HB]. cbv beta iota in Ec. cbn [map] in HPl. apply Forall_cons_iff in HPl as [P1 P2].
      cbn [map] in HIv. set (p := dplace k (ci, c, v, h)) in *.
      change (bcoefs p :: map bcoefs (map (dplace k) r)) with ([bcoefs p] ++ map bcoefs (map (dplace k) r)) in *.
      apply interval_split in HIv as (b1 & b2 & -> & I1 & I2). rewrite <- app_assoc in HI.
      destruct (scan_block_ok vis s preds b1 (b2 ++ rest) ci (k mod mw * c_h c + h) (k / mw * c_v c + v) P1 HP HVis HI I1) as (s1 & E1 & S1). cbn [flow_fold]. rewrite <- Ec in E1. rewrite E1. cbn [rbind].
      assert (coef_ok (bcoefs p)) as CO.
      { destruct p as [[pc px_] py]. destruct P1 as (A & B & C). pose proof ncomps_le. apply (coef_range pc px_ py); lia. }
      destruct (IH (p :: vis) s1 (after preds [bcoefs p]) b2 rest HB P2) as (s' & E2 & S2); auto.
      { apply (preds_after [bcoefs p]); auto. }
      exists s'. split; [exact E2|]. cbn [map rev]. fold p. rewrite <- app_assoc. cbn [app].
      rewrite <- (after_app preds [bcoefs p]) in S2. exact S2.
  Qed.

  Hypothesis HR : match jo_restart o with Some i => mw * mh <= i | None => True end.
  Definition visited (k : Z) : list (Z * Z * Z) := flat_map (mcu_places o) (idxs (Z.to_nat k)).
  Definition mcu_blk (k : Z) : list (Z * list Z) := map bcoefs (mcu_places o k).
  Lemma image_mcus_eq : image_mcus q data o = map mcu_blk (idxs (Z.to_nat (mw * mh))).
  Proof. reflexivity. Qed.
  Lemma places_ok k : 0 <= k < mw * mh -> Forall place_ok (mcu_places o k).
  Proof.
    intros Hk. pose proof HV as (Hw & Hh & _). apply Forall_forall. intros [[c bx] by_] Hin.
    exact (places_range o k c bx by_ ltac:(lia) ltac:(lia) Hk Hin).
  Qed.
  Lemma coefs_ok k : 0 <= k < mw * mh -> Forall coef_ok (mcu_blk k).
  Proof.
    intros Hk. pose proof (places_ok k Hk) as P. unfold mcu_blk. apply Forall_map. eapply Forall_impl; [|exact P]. cbv beta.
    intros [[c bx] by_] (A & B & C). pose proof ncomps_le. apply (coef_range c bx by_); lia.
  Qed.
  Lemma scan_mcu_ok k vis s preds bb rest : 0 <= k < mw * mh -> preds_ok preds -> Forall place_ok vis -> sinv vis s preds (bb ++ rest) ->
    interval_code (tabs_of t) preds (zzs (mcu_blk k)) bb ->
    exists s', scan_mcu st mw k s = Ok (Go s') /\ sinv (rev (mcu_places o k) ++ vis) s' (after preds (mcu_blk k)) rest.
  Proof.
    intros Hk HP HVis HI HC. destruct (mcu_blocks_places k) as [PL CM]. pose proof (places_ok k Hk) as PO.
    unfold scan_mcu. replace ((js_restart st >? 0) && (k >? 0) && (k mod js_restart st =? 0)) with false.
    2:{ rewrite (so_restart _ _ _ HS). destruct (jo_restart o) as [i|]; [|reflexivity].
        destruct (Z.gtb_spec k 0); [|rewrite andb_false_r; reflexivity]. rewrite Z.mod_small by lia.
        destruct (Z.eqb_spec k 0); [lia|]. rewrite andb_false_r. reflexivity. }
    unfold mcu_blk in *. rewrite <- PL in HC, PO |- *.
    exact (scan_blocks_ok k (mcu_blocks (js_comps st)) vis s preds bb rest CM PO HP HVis HI HC).
  Qed.

  Lemma scan_all_ok n : forall s bb rest, Z.of_nat n <= mw * mh -> sinv [] s [0; 0; 0] (bb ++ rest) ->
    interval_code (tabs_of t) [0; 0; 0] (zzs (concat (map mcu_blk (idxs n)))) bb ->
    exists s' vis, flow_fold (scan_mcu st mw) (idxs n) s = Ok (Go s') /\
      (forall k p, 0 <= k < Z.of_nat n -> In p (mcu_places o k) -> In p vis) /\ Forall place_ok vis /\
      preds_ok (after [0; 0; 0] (concat (map mcu_blk (idxs n)))) /\
      sinv vis s' (after [0; 0; 0] (concat (map mcu_blk (idxs n)))) rest.
  Proof.
    induction n as [|n IH]; intros s bb rest Hn HI HC.
    - cbn [idxs seq map concat zzs] in HC. inversion HC; subst. exists s, []. split; [reflexivity|]. split; [intros k p Hk; lia|]. split; [constructor|].
      split; [apply preds0|exact HI].
    - rewrite PngFilterProofs.idxs_S, map_app, concat_app in *. cbn [map concat] in *. rewrite app_nil_r in *.
      apply interval_split in HC as (b1 & b2 & -> & I1 & I2). rewrite <- app_assoc in HI.
      destruct (IH s b1 (b2 ++ rest) ltac:(lia) HI I1) as (s1 & vis & E1 & V1 & P1 & PP & S1).
      destruct (scan_mcu_ok (Z.of_nat n) vis s1 _ b2 rest ltac:(lia) PP P1 S1 I2) as (s2 & E2 & S2).
      exists s2, (rev (mcu_places o (Z.of_nat n)) ++ vis). split.
      { rewrite flow_fold_app, E1. cbn [rbind flow_fold]. rewrite E2. reflexivity. }
      split; [|split; [|split]].
      + intros k p Hk Hin. apply in_or_app. destruct (Z.eq_dec k (Z.of_nat n)) as [->|N]; [left; apply in_rev in Hin; exact Hin|right; apply (V1 k p); [lia|exact Hin]].
      + apply Forall_app. split; [apply Forall_rev, places_ok; lia|exact P1].
      + rewrite after_app. apply preds_after; [exact PP|apply coefs_ok; lia].
      + rewrite after_app. exact S2.
  Qed.

  Lemma place_visited c bx by_ : 0 <= c < ncomps o -> 0 <= bx < mw * hf o c -> 0 <= by_ < mh * hf o c ->
    exists k, 0 <= k < mw * mh /\ In (c, bx, by_) (mcu_places o k).
  Proof.
    intros Hc Hx Hy. pose proof HV as (Hw & Hh & _ & _ & _ & HCT & _).
    pose proof (across_pos o ltac:(lia)) as PA. pose proof (down_pos o ltac:(lia)) as PD. fold mw in PA. fold mh in PD.
    assert (1 <= hf o c) as HF by (unfold hf; pose proof (factor_cases o); destruct (c =? 0); lia).
    set (mx := bx / hf o c). set (my := by_ / hf o c).
    assert (0 <= mx < mw) as Bx by (split; [apply Z.div_pos; lia|apply Z.div_lt_upper_bound; lia]).
    assert (0 <= my < mh) as By by (split; [apply Z.div_pos; lia|apply Z.div_lt_upper_bound; lia]).
    exists (my * mw + mx). split; [nia|]. unfold mcu_places. cbv zeta. fold mw.
    assert ((my * mw + mx) mod mw = mx) as E1 by (rewrite Z.add_comm, Z.mod_add, Z.mod_small by lia; reflexivity).
    assert ((my * mw + mx) / mw = my) as E2 by (rewrite Z.add_comm, Z.div_add, Z.div_small by lia; reflexivity).
    rewrite E1, E2. subst mx my. unfold hf, factor, ncomps in *. destruct HCT as [HCT|HCT]; rewrite HCT in *.
    - assert (c = 0) as -> by lia. cbn [Z.eqb] in *. rewrite !Z.div_1_r. left. reflexivity.
    - destruct (jo_sub o).
      + assert ((if c =? 0 then 1 else 1) = 1) as E by (destruct (c =? 0); reflexivity). rewrite E, !Z.div_1_r. cbn [In].
        assert (c = 0 \/ c = 1 \/ c = 2) as [->|[->| ->]] by lia; auto.
      + destruct (Z.eqb_spec c 0) as [->|N].
        * cbn [In]. pose proof (Z.div_mod bx 2 ltac:(lia)). pose proof (Z.div_mod by_ 2 ltac:(lia)).
          pose proof (Z.mod_pos_bound bx 2 ltac:(lia)). pose proof (Z.mod_pos_bound by_ 2 ltac:(lia)).
          assert (bx = 2 * (bx / 2) \/ bx = 2 * (bx / 2) + 1) as [X|X] by lia; assert (by_ = 2 * (by_ / 2) \/ by_ = 2 * (by_ / 2) + 1) as [Y|Y] by lia;
            rewrite <- X, <- Y; auto 6.
        * rewrite !Z.div_1_r. cbn [In]. assert (c = 1 \/ c = 2) as [->| ->] by lia; auto 8.
  Qed.

  (** what the planes hold in the end *)
  Lemma planes_done seg bits tail : segment seg bits -> find_entropy_end (seg ++ tail) = zlen seg ->
    interval_code (tabs_of t) [0; 0; 0] (zzs (concat (image_mcus q data o))) bits ->
    exists comps, (let entropy := firstn (Z.to_nat (find_entropy_end (seg ++ tail))) (seg ++ tail) in
      exists s, flow_fold (scan_mcu st mw) (idxs (Z.to_nat (mw * mh)))
               (mkscan (map (fun c => repeat 0 (Z.to_nat ((mw * c_h c * 8) * (mh * c_v c * 8)))) (js_comps st)) (map (fun _ => 0) (js_comps st)) (mr_new entropy)) = Ok (Go s) /\ s_comps s = comps) /\
      zlen comps = ncomps o /\
      forall c x y, 0 <= c < ncomps o -> 0 <= x < pw c -> 0 <= y < ph c ->
        zlen (nth (Z.to_nat c) comps []) = pw c * ph c /\ znth (nth (Z.to_nat c) comps []) (y * pw c + x) = dec_plane q data o c x y.
  Proof.
    intros (HB & l & HU & HL) HE HC. cbv zeta. rewrite HE. unfold zlen at 1. rewrite Nat2Z.id, firstn_app, Nat.sub_diag, firstn_all, app_nil_r.
    pose proof HV as (Hw & Hh & _ & _ & _ & HCT & _). pose proof (across_pos o ltac:(lia)) as PA. pose proof (down_pos o ltac:(lia)) as PD. fold mw in PA. fold mh in PD.
    pose proof (mr_rep_new seg l HB HU) as MR. rewrite HL in MR. unfold pad_ones in MR.
    rewrite image_mcus_eq in HC.
    destruct (scan_all_ok (Z.to_nat (mw * mh))
      (mkscan (map (fun c => repeat 0 (Z.to_nat ((mw * c_h c * 8) * (mh * c_v c * 8)))) (js_comps st)) (map (fun _ => 0) (js_comps st)) (mr_new seg))
      bits (repeat true ((8 - length bits mod 8) mod 8)) ltac:(nia)) as (s & vis & E & V & P & _ & S); [|exact HC|].
    { assert (forall c, 0 <= c < ncomps o -> nth (Z.to_nat c) (js_comps st) (mkcomp 0 0 0 0 0) = the_comp c /\ (Z.to_nat c < length (js_comps st))%nat) as NT.
      { intros c Hc. rewrite (so_comps _ _ _ HS). unfold comps_of, the_comp, hf, sel, ncomps, factor in *. destruct HCT as [HCT|HCT]; rewrite HCT in *.
        - assert (c = 0) as -> by lia. cbn. auto.
        - assert (c = 0 \/ c = 1 \/ c = 2) as [->|[->| ->]] by lia; split; try reflexivity; cbn; lia. }
      assert (zlen (js_comps st) = ncomps o) as LC by (rewrite (so_comps _ _ _ HS); unfold comps_of, ncomps; destruct HCT as [-> | ->]; reflexivity).
      constructor; cbn [s_comps s_preds s_reader].
      - unfold zlen in *. rewrite map_length. exact LC.
      - unfold zlen in *. rewrite map_length. exact LC.
      - intros c Hc. assert (c = 0 \/ c = 1 \/ c = 2) as CC by (pose proof ncomps_le; lia).
        destruct (NT c Hc) as [_ NL]. unfold znth. rewrite (map_nth (fun _ : jcomp => 0) (js_comps st) (mkcomp 0 0 0 0 0)).
        destruct CC as [->|[->| ->]]; reflexivity.
      - intros c Hc. destruct (NT c Hc) as [NE NL].
        rewrite (nth_indep _ [] ((fun c => repeat 0 (Z.to_nat ((mw * c_h c * 8) * (mh * c_v c * 8)))) (mkcomp 0 0 0 0 0))) by (rewrite map_length; exact NL).
        rewrite (map_nth (fun c => repeat 0 (Z.to_nat ((mw * c_h c * 8) * (mh * c_v c * 8))))), NE. unfold the_comp. cbn [c_h c_v].
        rewrite zlen_repeat. unfold pw, ph. assert (1 <= hf o c) by (unfold hf; pose proof (factor_cases o); destruct (c =? 0); lia). nia.
      - intros c bx by_ [].
      - exact MR. }
    exists (s_comps s). split; [exists s; split; [exact E|reflexivity]|]. split; [exact (si_nc _ _ _ _ S)|].
    intros c x y Hc Hx Hy. split; [exact (si_len _ _ _ _ S c Hc)|].
    destruct (place_visited c (x / 8) (y / 8) Hc) as (k & Hk & Hin).
    { unfold pw in Hx. split; [apply Z.div_pos; lia|apply Z.div_lt_upper_bound; lia]. }
    { unfold ph in Hy. split; [apply Z.div_pos; lia|apply Z.div_lt_upper_bound; lia]. }
    apply (si_vis _ _ _ _ S c (x / 8) (y / 8)); auto. apply (V k); [lia|exact Hin].
  Qed.

  Lemma dec_plane_byte c x y : 0 <= c <= 2 -> 0 <= x -> 0 <= y -> 0 <= dec_plane q data o c x y <= 255.
  Proof.
    intros Hc Hx Hy. destruct (dec_pixels_ok c (x / 8) (y / 8) Hc ltac:(apply Z.div_pos; lia) ltac:(apply Z.div_pos; lia)) as [_ B].
    unfold dec_plane, znth. assert (is_byte (nth (Z.to_nat (8 * (y mod 8) + x mod 8)) (dec_pixels q data o c (x / 8) (y / 8)) 0)) as K by (apply Forall_nth_d; [exact B|unfold is_byte; lia]).
    unfold is_byte in K. lia.
  Qed.
  Lemma decode_scan_ok seg bits tail : segment seg bits -> find_entropy_end (seg ++ tail) = zlen seg ->
    interval_code (tabs_of t) [0; 0; 0] (zzs (concat (image_mcus q data o))) bits ->
    decode_scan st (seg ++ tail) = Ok (dec_image q data o).
  Proof.
    intros H1 H2 H3. destruct (planes_done seg bits tail H1 H2 H3) as (comps & (s & E & ES) & NC & PX). cbv zeta in E.
    pose proof HV as (Hw & Hh & _ & _ & _ & HCT & _). pose proof (across_pos o ltac:(lia)) as PA. pose proof (down_pos o ltac:(lia)) as PD. fold mw in PA. fold mh in PD.
    unfold decode_scan. rewrite (so_w _ _ _ HS), (so_h _ _ _ HS), (so_maxh _ _ _ HS), (so_maxv _ _ _ HS).
    assert (div_ceil (jo_w o) (factor o * 8) = mw) as EW by (unfold div_ceil, mw, mcus_across; f_equal; lia).
    assert (div_ceil (jo_h o) (factor o * 8) = mh) as EH by (unfold div_ceil, mh, mcus_down; f_equal; lia).
    rewrite EW, EH. cbv zeta. rewrite E. cbn [rbind]. rewrite ES. clear E ES.
    pose proof (factor_cases o) as FC.
    assert (jo_w o <= mw * factor o * 8 /\ jo_h o <= mh * factor o * 8) as [LW LH].
    { unfold mw, mh, mcus_across, mcus_down.
      pose proof (Z.mul_div_le (jo_w o + factor o * 8 - 1) (factor o * 8) ltac:(lia)). pose proof (Z.div_mod (jo_w o + 8 * factor o - 1) (8 * factor o) ltac:(lia)).
      pose proof (Z.mod_pos_bound (jo_w o + 8 * factor o - 1) (8 * factor o) ltac:(lia)).
      pose proof (Z.div_mod (jo_h o + 8 * factor o - 1) (8 * factor o) ltac:(lia)).
      pose proof (Z.mod_pos_bound (jo_h o + 8 * factor o - 1) (8 * factor o) ltac:(lia)). split; nia. }
    unfold dec_image, dec_pixel. rewrite (so_comps _ _ _ HS). unfold comps_of. destruct HCT as [HCT|HCT]; rewrite HCT.
    - assert (ncomps o = 1) as N1 by (unfold ncomps; rewrite HCT; reflexivity).
      assert (factor o = 1) as F1 by (unfold factor; rewrite HCT; reflexivity).
      rewrite (get_ok comps 0 []) by lia. cbn [rbind c_h]. f_equal. f_equal.
      apply flat_map_ext_in. intros y Hy. apply in_idxs in Hy. rewrite flat_map_single. apply map_ext_in. intros x Hx. apply in_idxs in Hx.
      destruct (PX 0 x y ltac:(lia)) as [PL PV]; [unfold pw, hf; cbn [Z.eqb]; lia|unfold ph, hf; cbn [Z.eqb]; lia|].
      change (Z.to_nat 0) with O in *. assert (pw 0 = mw * 1 * 8) as EPW by (unfold pw, hf; cbn [Z.eqb]; lia).
      assert (ph 0 = mh * 8) as EPH by (unfold ph, hf; cbn [Z.eqb]; lia).
      rewrite <- EPW. unfold get_or. rewrite PL. destruct (Z.ltb_spec (y * pw 0 + x) (pw 0 * ph 0)) as [_|G].
      + rewrite PV. unfold clamp. pose proof (dec_plane_byte 0 x y ltac:(lia) ltac:(lia) ltac:(lia)) as DB. revert DB. generalize (dec_plane q data o 0 x y). clear. intros v Bv. destruct (Z.ltb_spec v 0); [lia|]. destruct (Z.gtb_spec v 255); [lia|reflexivity].
      + rewrite EPW, EPH in G. nia.
    - assert (ncomps o = 3) as N3 by (unfold ncomps; rewrite HCT; reflexivity).
      unfold ycbcr_to_rgb. cbn [get Z.to_nat].
      rewrite (get_ok _ 1 (mkcomp 0 0 0 0 0)) by (rewrite !zlen_cons, zlen_nil; lia). rewrite (get_ok _ 2 (mkcomp 0 0 0 0 0)) by (rewrite !zlen_cons, zlen_nil; lia).
      rewrite (get_ok comps 0 []), (get_ok comps 1 []), (get_ok comps 2 []) by lia. cbn [rbind].
      change (nth (Z.to_nat 1) [mkcomp (factor o) (factor o) 0 0 0; mkcomp 1 1 1 1 1; mkcomp 1 1 1 1 1] (mkcomp 0 0 0 0 0)) with (mkcomp 1 1 1 1 1).
      change (nth (Z.to_nat 2) [mkcomp (factor o) (factor o) 0 0 0; mkcomp 1 1 1 1 1; mkcomp 1 1 1 1 1] (mkcomp 0 0 0 0 0)) with (mkcomp 1 1 1 1 1).
      cbn [c_h c_v]. rewrite Z.div_1_r, EW. f_equal. f_equal.
      assert (pw 0 = mw * factor o * 8 /\ ph 0 = mh * factor o * 8) as [EW0 EH0] by (unfold pw, ph, hf; cbn [Z.eqb]; lia).
      assert (pw 1 = mw * 1 * 8 /\ ph 1 = mh * 1 * 8) as [EW1 EH1] by (unfold pw, ph, hf; cbn [Z.eqb]; lia).
      assert (pw 2 = mw * 1 * 8 /\ ph 2 = mh * 1 * 8) as [EW2 EH2] by (unfold pw, ph, hf; cbn [Z.eqb]; lia).
      apply flat_map_ext_in. intros y Hy. apply in_idxs in Hy. apply flat_map_ext_in. intros x Hx. apply in_idxs in Hx.
      assert (0 <= x / factor o < pw 1 /\ 0 <= y / factor o < ph 1) as [BX BY].
      { rewrite EW1, EH1. split; (split; [apply Z.div_pos; lia|apply Z.div_lt_upper_bound; nia]). }
      destruct (PX 0 x y ltac:(lia) ltac:(lia) ltac:(lia)) as [PL0 PV0].
      destruct (PX 1 (x / factor o) (y / factor o) ltac:(lia) BX BY) as [PL1 PV1].
      destruct (PX 2 (x / factor o) (y / factor o) ltac:(lia) ltac:(lia) ltac:(lia)) as [PL2 PV2].
      rewrite <- EW0. rewrite <- EW1 at 1. rewrite <- EW2.
      rewrite <- PV0, <- PV1, <- PV2. clear PV0 PV1 PV2 PX. unfold get_or. rewrite PL0, PL1, PL2.
      destruct (Z.ltb_spec (y * pw 0 + x) (pw 0 * ph 0)) as [_|G]; [|nia].
      destruct (Z.ltb_spec (y / factor o * pw 1 + x / factor o) (pw 1 * ph 1)) as [_|G]; [|nia].
      destruct (Z.ltb_spec (y / factor o * pw 2 + x / factor o) (pw 2 * ph 2)) as [_|G]; [|nia].
      reflexivity.
  Qed.
End Scan.
