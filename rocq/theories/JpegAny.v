(** The decoder on any baseline JPEG file. *)
From Coq Require Import Reals Lra.
From Verif Require Import Base BitsModel BitsProofs CanonSpec CanonProofs Lz77Model PngFilterModel PngPaletteModel PngFilterProofs JpegBaseModel JpegHuffModel JpegDecModel JpegBaseProofs MsbSpec MsbProofs JpegSpec JpegTabProofs JpegSymProofs JpegBlockProofs JpegFileSpec JpegEncProofs JpegIdctProofs JpegScanProofs JpegTop JpegAnySpec.
Open Scope Z_scope.

Definition aft (preds : list Z) (l : list (Z * list Z)) : list Z :=
  fold_left (fun p cb => upd p (Z.to_nat (fst cb)) (znth (snd cb) 0)) l preds.
Lemma aft_app preds a b : aft preds (a ++ b) = aft (aft preds a) b.
Proof. unfold aft. apply fold_left_app. Qed.
Lemma aft_length l : forall preds, length (aft preds l) = length preds.
Proof. induction l as [|a r IH]; intros preds; [reflexivity|]. unfold aft in *. cbn [fold_left]. rewrite IH, upd_length. reflexivity. Qed.
Lemma interval_app T a : forall preds b bits, interval_code T preds (a ++ b) bits ->
  exists b1 b2, bits = b1 ++ b2 /\ interval_code T preds a b1 /\ interval_code T (aft preds a) b b2.
Proof.
  induction a as [|[c zz] r IH]; intros preds b bits H.
  - exists [], bits. split; [reflexivity|]. split; [constructor|exact H].
  - cbn [app] in H. inversion H as [|? ? ? ? x1 x2 B1 B2]; subst. apply IH in B2 as (b1 & b2 & -> & I1 & I2).
    exists (x1 ++ b1), b2. split; [apply app_assoc|]. split; [|exact I2].
    apply (iv_cons T preds c zz r); [exact B1|exact I1].
Qed.

Section Scan.
  Variables (st : jstate) (T : Z -> ctabs) (Q : Z -> list Z) (B P : Z -> Z -> Z -> list Z) (mw mh : Z).
  Let n := zlen (js_comps st).
  Definition comp (c : Z) : jcomp := nth (Z.to_nat c) (js_comps st) (mkcomp 1 1 0 0 0).
  Hypothesis HN : 1 <= n <= 3.
  Hypothesis HF : forall c, 0 <= c < n -> 1 <= c_h (comp c) /\ 1 <= c_v (comp c).
  Hypothesis HW : 1 <= mw.
  Hypothesis HH : 1 <= mh.
  Hypothesis HQ : forall c, 0 <= c < n -> get (js_quant st) (c_q (comp c)) = Ok (Q c).
  Hypothesis HD : forall c, 0 <= c < n -> get (js_dc st) (c_dc (comp c)) = Ok (jtab_build (ct_dcb (T c)) (ct_dcv (T c))).
  Hypothesis HA : forall c, 0 <= c < n -> get (js_ac st) (c_ac (comp c)) = Ok (jtab_build (ct_acb (T c)) (ct_acv (T c))).
  Hypothesis HT : forall c, 0 <= c < n -> tab_ok (ct_dcb (T c)) (ct_dcv (T c)) /\ tab_ok (ct_acb (T c)) (ct_acv (T c)).
  Hypothesis HR : js_restart st = 0 \/ mw * mh <= js_restart st.
  Definition pok (p : Z * Z * Z) : Prop :=
    let '(c, bx, by_) := p in 0 <= c < n /\ 0 <= bx < mw * c_h (comp c) /\ 0 <= by_ < mh * c_v (comp c).
  Hypothesis HB : forall c bx by_, pok (c, bx, by_) -> - 2 ^ 15 <= znth (B c bx by_) 0 < 2 ^ 15 /\
    idct_2d (dequantize (B c bx by_) (Q c)) = Ok (P c bx by_).
  Definition gw (c : Z) : Z := mw * c_h (comp c) * 8.
  Definition gh (c : Z) : Z := mh * c_v (comp c) * 8.
  Definition blk (p : Z * Z * Z) : Z * list Z := let '(c, bx, by_) := p in (c, B c bx by_).
  Definition sample_of (c x y : Z) : Z := znth (P c (x / 8) (y / 8)) (8 * (y mod 8) + x mod 8).

  Record ginv (vis : list (Z * Z * Z)) (s : scan_state) (preds : list Z) (bits : list bool) : Prop := {
    gi_nc : zlen (s_comps s) = n; gi_np : zlen (s_preds s) = n;
    gi_preds : forall c, 0 <= c < n -> znth (s_preds s) c = znth preds c;
    gi_len : forall c, 0 <= c < n -> zlen (nth (Z.to_nat c) (s_comps s) []) = gw c * gh c;
    gi_vis : forall c bx by_, In (c, bx, by_) vis -> forall x y, 0 <= x < gw c -> 0 <= y < gh c -> x / 8 = bx -> y / 8 = by_ ->
      znth (nth (Z.to_nat c) (s_comps s) []) (y * gw c + x) = sample_of c x y;
    gi_reader : mr_rep (s_reader s) bits }.

  Lemma ginv_step vis s preds bits c bx by_ v0 r' rest : pok (c, bx, by_) -> length preds = 3%nat -> Forall pok vis -> ginv vis s preds bits ->
    mr_rep r' rest ->
    ginv ((c, bx, by_) :: vis)
      (mkscan (upd (s_comps s) (Z.to_nat c) (store_block (nth (Z.to_nat c) (s_comps s) []) (gw c) (bx * 8) (by_ * 8) (P c bx by_)))
              (upd (s_preds s) (Z.to_nat c) v0) r')
      (upd preds (Z.to_nat c) v0) rest.
  Proof.
    intros (Hc & Hx & Hy) HP HVis [NC NP SP SL SV SR] R'.
    set (d := nth (Z.to_nat c) (s_comps s) []) in *.
    destruct (store_block_ok (gw c) (gh c) bx by_ (P c bx by_) d (SL c Hc) ltac:(lia) ltac:(unfold gw; lia) ltac:(lia) ltac:(unfold gh; lia)) as [L1 V1].
    set (d' := store_block d (gw c) (bx * 8) (by_ * 8) (P c bx by_)) in *. clearbody d'.
    unfold zlen in NC, NP.
    constructor; cbn [s_comps s_preds s_reader].
    - unfold zlen. rewrite upd_length. exact NC.
    - unfold zlen. rewrite upd_length. exact NP.
    - intros c' Hc'. specialize (SP c' Hc'). clear - SP NP HN HP Hc Hc'.
      unfold znth in *. destruct (Nat.eq_dec (Z.to_nat c') (Z.to_nat c)) as [Ec|Nc].
      + rewrite Ec, !nth_upd_eq; [reflexivity|lia|lia].
      + rewrite !nth_upd_neq by auto. exact SP.
    - intros c' Hc'. destruct (Nat.eq_dec (Z.to_nat c') (Z.to_nat c)) as [Ec|Nc].
      + assert (c' = c) as -> by lia. rewrite nth_upd_eq by lia. exact L1.
      + rewrite nth_upd_neq by auto. apply SL. exact Hc'.
    - intros c' bx' by' Hin x y Bx By Ex Ey.
      destruct (Nat.eq_dec (Z.to_nat c') (Z.to_nat c)) as [Ec|Nc].
      + assert (0 <= c') as C0.
        { destruct Hin as [[= -> -> ->]|Hin]; [lia|]. rewrite Forall_forall in HVis. specialize (HVis _ Hin). cbn [pok] in HVis. lia. }
        assert (c' = c) as -> by lia. rewrite nth_upd_eq by lia. rewrite (V1 x y Bx By). unfold in_block.
        destruct (Z.eqb_spec (x / 8) bx) as [E1|N1]; cbn [andb].
        * destruct (Z.eqb_spec (y / 8) by_) as [E2|N2].
          -- unfold sample_of. rewrite E1, E2. reflexivity.
          -- destruct Hin as [[= Q1 Q2]|Hin]; [congruence|]. apply (SV c bx' by'); auto.
        * destruct Hin as [[= Q1 Q2]|Hin]; [congruence|]. apply (SV c bx' by'); auto.
      + destruct Hin as [[= -> -> ->]|Hin]; [congruence|]. rewrite nth_upd_neq by auto. apply (SV c' bx' by'); auto.
    - exact R'.
  Qed.

  Lemma gblock_ok vis s preds bb rest c bx by_ :
    pok (c, bx, by_) -> length preds = 3%nat -> Forall pok vis -> ginv vis s preds (bb ++ rest) ->
    interval_code T preds [blk (c, bx, by_)] bb ->
    exists s', scan_block st c (comp c) mw bx by_ s = Ok (Go s') /\ ginv ((c, bx, by_) :: vis) s' (aft preds [blk (c, bx, by_)]) rest.
  Proof.
    intros HPl HP HVis HI HC. pose proof HPl as (Hc & Hx & Hy). pose proof HI as [NC NP SP SL SV SR].
    destruct (HB c bx by_ HPl) as [CD EP]. cbn [blk] in HC.
    apply interval_single in HC. destruct (HT c Hc) as [TD TA].
    destruct (dec_block_ok _ _ _ _ (znth preds c) (B c bx by_) bb (s_reader s) rest TD TA CD HC SR) as (r' & E & R').
    eexists. split; [|unfold aft; cbn [fold_left blk fst snd]; apply (ginv_step vis s preds (bb ++ rest) c bx by_ (znth (B c bx by_) 0) r' rest); assumption].
    unfold scan_block.
    rewrite (HD c Hc). cbn [rbind]. rewrite (HA c Hc). cbn [rbind].
    rewrite (get_ok (s_preds s) c 0) by lia. cbn [rbind]. fold (znth (s_preds s) c). rewrite (SP c Hc).
    rewrite E. rewrite (HQ c Hc). cbn [rbind]. rewrite EP. cbn [rbind].
    rewrite (get_ok (s_comps s) c []) by lia. cbn [rbind]. reflexivity.
  Qed.

  Definition gplace (k : Z) (b : Z * jcomp * Z * Z) : Z * Z * Z := let '(ci, c, v, h) := b in (ci, k mod mw * c_h c + h, k / mw * c_v c + v).
  Lemma gblocks_ok k : forall bs vis s preds bb rest,
    Forall (fun b => let '(ci, c, v, h) := b in c = comp ci) bs -> Forall pok (map (gplace k) bs) ->
    length preds = 3%nat -> Forall pok vis -> ginv vis s preds (bb ++ rest) ->
    interval_code T preds (map blk (map (gplace k) bs)) bb ->
    exists s', flow_fold (fun '(ci, c, v, h) s => scan_block st ci c mw (k mod mw * c_h c + h) (k / mw * c_v c + v) s) bs s = Ok (Go s') /\
      ginv (rev (map (gplace k) bs) ++ vis) s' (aft preds (map blk (map (gplace k) bs))) rest.
  Proof.
    induction bs as [|[[[ci c] v] h] r IH]; intros vis s preds bb rest HBs HPl HP HVis HI HIv.
    - cbn [map] in HIv. inversion HIv; subst. exists s. split; [reflexivity|exact HI].
    - apply Forall_cons_iff in HBs as [Ec HBs]. cbv beta iota in Ec. cbn [map] in HPl. apply Forall_cons_iff in HPl as [P1 P2].
      cbn [map] in HIv. set (p := gplace k (ci, c, v, h)) in *.
      change (blk p :: map blk (map (gplace k) r)) with ([blk p] ++ map blk (map (gplace k) r)) in *.
      apply interval_app in HIv as (b1 & b2 & -> & I1 & I2). rewrite <- app_assoc in HI.
      destruct (gblock_ok vis s preds b1 (b2 ++ rest) ci (k mod mw * c_h c + h) (k / mw * c_v c + v) P1 HP HVis HI I1) as (s1 & E1 & S1). cbn [flow_fold]. rewrite <- Ec in E1. rewrite E1. cbn [rbind].
      destruct (IH (p :: vis) s1 (aft preds [blk p]) b2 rest HBs P2) as (s' & E2 & S2); auto.
      { rewrite aft_length. exact HP. }
      exists s'. split; [exact E2|]. cbn [map rev]. fold p. rewrite <- app_assoc. cbn [app].
      change (blk p :: map blk (map (gplace k) r)) with ([blk p] ++ map blk (map (gplace k) r)). rewrite aft_app. exact S2.
  Qed.

  (** the blocks of a MCU as the decoder walks them *)
  Definition order (k : Z) : list (Z * Z * Z) :=
    flat_map (fun c => flat_map (fun v => map (fun h => (c, k mod mw * c_h (comp c) + h, k / mw * c_v (comp c) + v))
      (idxs (Z.to_nat (c_h (comp c))))) (idxs (Z.to_nat (c_v (comp c))))) (idxs (length (js_comps st))).
  Lemma combine_comps : combine (idxs (length (js_comps st))) (js_comps st) = map (fun c => (c, comp c)) (idxs (length (js_comps st))).
  Proof.
    apply (nth_ext _ _ (0, mkcomp 1 1 0 0 0) ((fun c => (c, comp c)) 0)).
    - rewrite combine_length, map_length, idxs_length. lia.
    - intros i Hi. rewrite combine_length, idxs_length, Nat.min_id in Hi. rewrite combine_nth by apply idxs_length.
      rewrite (map_nth (fun c => (c, comp c))). unfold comp. f_equal.
      unfold idxs. rewrite (nth_indep _ 0 (Z.of_nat 0)) by (rewrite map_length, seq_length; exact Hi).
      rewrite (map_nth Z.of_nat), seq_nth by exact Hi. cbn [plus]. rewrite Nat2Z.id. reflexivity.
  Qed.
  Lemma blocks_order k : map (gplace k) (mcu_blocks (js_comps st)) = order k /\
    Forall (fun b => let '(ci, c, v, h) := b in c = comp ci) (mcu_blocks (js_comps st)).
  Proof.
    unfold mcu_blocks, order. rewrite combine_comps. generalize (idxs (length (js_comps st))). intros l. induction l as [|c l [IH1 IH2]].
    - split; [reflexivity|constructor].
    - cbn [map flat_map]. rewrite map_app, IH1. split.
      + f_equal. generalize (idxs (Z.to_nat (c_v (comp c)))). intros lv. induction lv as [|v lv IH]; [reflexivity|].
        cbn [flat_map]. rewrite map_app, IH, map_map. reflexivity.
      + apply Forall_app. split; [|exact IH2]. apply Forall_forall. intros b Hb. apply in_flat_map in Hb as (v & _ & Hb). apply in_map_iff in Hb as (h & <- & _). reflexivity.
  Qed.
  Lemma order_ok k : 0 <= k < mw * mh -> Forall pok (order k).
  Proof.
    intros Hk. apply Forall_forall. intros p Hp. unfold order in Hp. apply in_flat_map in Hp as (c & Hc & Hp).
    apply in_flat_map in Hp as (v & Hv & Hp). apply in_map_iff in Hp as (h & <- & Hh). apply in_idxs in Hc, Hv, Hh.
    assert (0 <= c < n) as Hc' by (unfold n, zlen; lia). destruct (HF c Hc'). cbn [pok]. split; [exact Hc'|].
    pose proof (Z.mod_pos_bound k mw ltac:(lia)). pose proof (Z.div_pos k mw ltac:(lia) ltac:(lia)).
    assert (k / mw < mh) by (apply Z.div_lt_upper_bound; lia). split; nia.
  Qed.
  Lemma order_covers c bx by_ : pok (c, bx, by_) -> exists k, 0 <= k < mw * mh /\ In (c, bx, by_) (order k).
  Proof using HF HW.
    clear - HF HW. intros (Hc & Hx & Hy). destruct (HF c Hc) as [F1 F2].
    set (mx := bx / c_h (comp c)). set (my := by_ / c_v (comp c)).
    assert (0 <= mx < mw) as Bx by (split; [apply Z.div_pos; lia|apply Z.div_lt_upper_bound; lia]).
    assert (0 <= my < mh) as By by (split; [apply Z.div_pos; lia|apply Z.div_lt_upper_bound; lia]).
    exists (my * mw + mx). split; [nia|]. unfold order.
    assert ((my * mw + mx) mod mw = mx) as E1 by (rewrite Z.add_comm, Z.mod_add, Z.mod_small by lia; reflexivity).
    assert ((my * mw + mx) / mw = my) as E2 by (rewrite Z.add_comm, Z.div_add, Z.div_small by lia; reflexivity).
    rewrite E1, E2. apply in_flat_map. exists c. split; [apply in_idxs; unfold n, zlen in Hc; lia|].
    apply in_flat_map. exists (by_ mod c_v (comp c)). split; [apply in_idxs; pose proof (Z.mod_pos_bound by_ (c_v (comp c)) ltac:(lia)); lia|].
    apply in_map_iff. exists (bx mod c_h (comp c)). split; [|apply in_idxs; pose proof (Z.mod_pos_bound bx (c_h (comp c)) ltac:(lia)); lia].
    unfold mx, my. pose proof (Z.div_mod bx (c_h (comp c)) ltac:(lia)). pose proof (Z.div_mod by_ (c_v (comp c)) ltac:(lia)).
    f_equal; [f_equal|]; lia.
  Qed.

  Lemma gmcu_ok k vis s preds bb rest : 0 <= k < mw * mh -> length preds = 3%nat -> Forall pok vis -> ginv vis s preds (bb ++ rest) ->
    interval_code T preds (map blk (order k)) bb ->
    exists s', scan_mcu st mw k s = Ok (Go s') /\ ginv (rev (order k) ++ vis) s' (aft preds (map blk (order k))) rest.
  Proof.
    intros Hk HP HVis HI HC. destruct (blocks_order k) as [PL CM]. pose proof (order_ok k Hk) as PO.
    unfold scan_mcu. replace ((js_restart st >? 0) && (k >? 0) && (k mod js_restart st =? 0)) with false.
    2:{ destruct HR as [->|HR']; [reflexivity|].
        destruct (Z.gtb_spec k 0); [|rewrite andb_false_r; reflexivity]. rewrite Z.mod_small by lia.
        destruct (Z.eqb_spec k 0); [lia|]. rewrite andb_false_r. reflexivity. }
    rewrite <- PL in HC, PO |- *.
    exact (gblocks_ok k (mcu_blocks (js_comps st)) vis s preds bb rest CM PO HP HVis HI HC).
  Qed.
  Lemma gall_ok m : forall s bb rest, Z.of_nat m <= mw * mh -> ginv [] s [0; 0; 0] (bb ++ rest) ->
    interval_code T [0; 0; 0] (map blk (flat_map order (idxs m))) bb ->
    exists s' vis, flow_fold (scan_mcu st mw) (idxs m) s = Ok (Go s') /\
      (forall k p, 0 <= k < Z.of_nat m -> In p (order k) -> In p vis) /\ Forall pok vis /\
      ginv vis s' (aft [0; 0; 0] (map blk (flat_map order (idxs m)))) rest.
  Proof.
    induction m as [|m IH]; intros s bb rest Hn HI HC.
    - cbn [idxs seq map flat_map] in HC. inversion HC; subst. exists s, []. split; [reflexivity|]. split; [intros k p Hk; lia|]. split; [constructor|exact HI].
    - rewrite PngFilterProofs.idxs_S, flat_map_app, map_app in *. cbn [flat_map] in *. rewrite app_nil_r in *.
      apply interval_app in HC as (b1 & b2 & -> & I1 & I2). rewrite <- app_assoc in HI.
      destruct (IH s b1 (b2 ++ rest) ltac:(lia) HI I1) as (s1 & vis & E1 & V1 & P1 & S1).
      destruct (gmcu_ok (Z.of_nat m) vis s1 (aft [0; 0; 0] (map blk (flat_map order (idxs m)))) b2 rest ltac:(lia)) as (s2 & E2 & S2); auto.
      { rewrite aft_length. reflexivity. }
      exists s2, (rev (order (Z.of_nat m)) ++ vis). split.
      { rewrite flow_fold_app, E1. cbn [rbind flow_fold]. rewrite E2. reflexivity. }
      split; [|split].
      + intros k p Hk Hin. apply in_or_app. destruct (Z.eq_dec k (Z.of_nat m)) as [->|N]; [left; apply in_rev in Hin; exact Hin|right; apply (V1 k p); [lia|exact Hin]].
      + apply Forall_app. split; [apply Forall_rev, order_ok; lia|exact P1].
      + rewrite aft_app. exact S2.
  Qed.
  Lemma gplanes seg bits tail : segment seg bits -> find_entropy_end (seg ++ tail) = zlen seg ->
    interval_code T [0; 0; 0] (map blk (flat_map order (idxs (Z.to_nat (mw * mh))))) bits ->
    exists s, flow_fold (scan_mcu st mw) (idxs (Z.to_nat (mw * mh)))
        (mkscan (map (fun c => repeat 0 (Z.to_nat ((mw * c_h c * 8) * (mh * c_v c * 8)))) (js_comps st)) (map (fun _ => 0) (js_comps st))
          (mr_new (firstn (Z.to_nat (find_entropy_end (seg ++ tail))) (seg ++ tail)))) = Ok (Go s) /\
      zlen (s_comps s) = n /\
      forall c, 0 <= c < n -> zlen (nth (Z.to_nat c) (s_comps s) []) = gw c * gh c /\
        forall x y, 0 <= x < gw c -> 0 <= y < gh c -> znth (nth (Z.to_nat c) (s_comps s) []) (y * gw c + x) = sample_of c x y.
  Proof.
    intros (HBy & l & HU & HL) HE HC. rewrite HE. unfold zlen at 1. rewrite Nat2Z.id, firstn_app, Nat.sub_diag, firstn_all, app_nil_r.
    pose proof (mr_rep_new seg l HBy HU) as MR. rewrite HL in MR. unfold pad_ones in MR.
    destruct (gall_ok (Z.to_nat (mw * mh))
      (mkscan (map (fun c => repeat 0 (Z.to_nat ((mw * c_h c * 8) * (mh * c_v c * 8)))) (js_comps st)) (map (fun _ => 0) (js_comps st)) (mr_new seg))
      bits (repeat true ((8 - length bits mod 8) mod 8)) ltac:(nia)) as (s & vis & E & V & PV & S); [|exact HC|].
    { constructor; cbn [s_comps s_preds s_reader].
      - unfold zlen. rewrite map_length. reflexivity.
      - unfold zlen. rewrite map_length. reflexivity.
      - intros c Hc. assert (c = 0 \/ c = 1 \/ c = 2) as CC by lia.
        unfold znth. rewrite (map_nth (fun _ : jcomp => 0) (js_comps st) (mkcomp 0 0 0 0 0)). destruct CC as [->|[->| ->]]; reflexivity.
      - intros c Hc. assert (Z.to_nat c < length (js_comps st))%nat as NL by (unfold n, zlen in Hc; lia).
        rewrite (nth_indep _ [] ((fun c => repeat 0 (Z.to_nat ((mw * c_h c * 8) * (mh * c_v c * 8)))) (mkcomp 1 1 0 0 0))) by (rewrite map_length; exact NL).
        rewrite (map_nth (fun c => repeat 0 (Z.to_nat ((mw * c_h c * 8) * (mh * c_v c * 8))))). fold (comp c).
        rewrite zlen_repeat. unfold gw, gh. destruct (HF c Hc). nia.
      - intros c bx by_ [].
      - exact MR. }
    exists s. split; [exact E|]. split; [exact (gi_nc _ _ _ _ S)|].
    intros c Hc. split; [exact (gi_len _ _ _ _ S c Hc)|]. intros x y Hx Hy.
    assert (pok (c, x / 8, y / 8)) as PK.
    { cbn [pok]. split; [exact Hc|]. unfold gw in Hx. unfold gh in Hy. split; (split; [apply Z.div_pos; lia|apply Z.div_lt_upper_bound; lia]). }
    destruct (order_covers c (x / 8) (y / 8) PK) as (k & Hk & Hin).
    apply (gi_vis _ _ _ _ S c (x / 8) (y / 8)); auto. apply (V k); [lia|exact Hin].
  Qed.

  Hypothesis HSW : 1 <= js_w st.
  Hypothesis HSH : 1 <= js_h st.
  Hypothesis HMW : mw = div_ceil (js_w st) (js_maxh st * 8).
  Hypothesis HMH : mh = div_ceil (js_h st) (js_maxv st * 8).
  Hypothesis HC0 : c_h (comp 0) = js_maxh st /\ c_v (comp 0) = js_maxv st.
  Hypothesis HCD : forall c, 0 <= c < n -> (c_h (comp c) | js_maxh st) /\ (c_v (comp c) | js_maxv st).
  Hypothesis HNN : n = 1 \/ n = 3.
  Hypothesis HPB : forall c bx by_, pok (c, bx, by_) -> bytes (P c bx by_).
  Definition gpix (x y : Z) : list Z :=
    if n =? 1 then [sample_of 0 x y]
    else ycbcr_pixel (sample_of 0 x y) (sample_of 1 (x * c_h (comp 1) / js_maxh st) (y * c_v (comp 1) / js_maxv st))
           (sample_of 2 (x * c_h (comp 2) / js_maxh st) (y * c_v (comp 2) / js_maxv st)).
  Lemma sample_byte c x y : 0 <= c < n -> 0 <= x < gw c -> 0 <= y < gh c -> 0 <= sample_of c x y <= 255.
  Proof.
    intros Hc Hx Hy. assert (pok (c, x / 8, y / 8)) as PK.
    { cbn [pok]. split; [exact Hc|]. unfold gw in Hx. unfold gh in Hy. split; (split; [apply Z.div_pos; lia|apply Z.div_lt_upper_bound; lia]). }
    pose proof (HPB _ _ _ PK) as BY. unfold sample_of, znth.
    assert (is_byte (nth (Z.to_nat (8 * (y mod 8) + x mod 8)) (P c (x / 8) (y / 8)) 0)) as K by (apply Forall_nth_d; [exact BY|unfold is_byte; lia]).
    unfold is_byte in K. lia.
  Qed.
  Lemma covers_w : js_w st <= mw * js_maxh st * 8 /\ js_h st <= mh * js_maxv st * 8.
  Proof.
    destruct (HF 0 ltac:(lia)) as [F1 F2]. destruct HC0 as [E1 E2]. rewrite E1 in F1. rewrite E2 in F2. rewrite HMW, HMH. unfold div_ceil.
    pose proof (Z.div_mod (js_w st + js_maxh st * 8 - 1) (js_maxh st * 8) ltac:(lia)). pose proof (Z.mod_pos_bound (js_w st + js_maxh st * 8 - 1) (js_maxh st * 8) ltac:(lia)).
    pose proof (Z.div_mod (js_h st + js_maxv st * 8 - 1) (js_maxv st * 8) ltac:(lia)). pose proof (Z.mod_pos_bound (js_h st + js_maxv st * 8 - 1) (js_maxv st * 8) ltac:(lia)).
    split; nia.
  Qed.
  Lemma scaled a m t : 0 <= a -> 1 <= m -> (m | t) -> 1 <= t -> a / (t / m) = a * m / t.
  Proof.
    intros Ha Hm [q ->] Ht. rewrite Z.div_mul by lia. assert (1 <= q) by nia. rewrite Z.div_mul_cancel_r by lia. reflexivity.
  Qed.
  Lemma in_plane c x y : 0 <= c < n -> 0 <= x < js_w st -> 0 <= y < js_h st ->
    0 <= x * c_h (comp c) / js_maxh st < gw c /\ 0 <= y * c_v (comp c) / js_maxv st < gh c.
  Proof.
    intros Hc Hx Hy. pose proof covers_w as [CW CH]. destruct (HF c Hc) as [F1 F2]. destruct (HF 0 ltac:(lia)) as [G1 G2]. destruct HC0 as [E1 E2]. rewrite E1 in G1. rewrite E2 in G2.
    unfold gw, gh. split; (split; [apply Z.div_pos; nia|apply Z.div_lt_upper_bound; nia]).
  Qed.
  Lemma gdecode seg bits tail : segment seg bits -> find_entropy_end (seg ++ tail) = zlen seg ->
    interval_code T [0; 0; 0] (map blk (flat_map order (idxs (Z.to_nat (mw * mh))))) bits ->
    decode_scan st (seg ++ tail) = Ok (mkjimg (js_w st) (js_h st)
      (flat_map (fun y => flat_map (fun x => gpix x y) (idxs (Z.to_nat (js_w st)))) (idxs (Z.to_nat (js_h st)))) (if n =? 1 then Gray else Rgb)).
  Proof.
    intros H1 H2 H3. destruct (gplanes seg bits tail H1 H2 H3) as (s & E & NC & PX).
    pose proof covers_w as [CW CH]. destruct (HF 0 ltac:(lia)) as [G1 G2]. destruct HC0 as [E1 E2]. rewrite E1 in G1. rewrite E2 in G2.
    unfold decode_scan. rewrite <- HMW, <- HMH. cbv zeta. rewrite E. cbn [rbind]. clear E.
    assert (forall c x y, 0 <= c < n -> 0 <= x < gw c -> 0 <= y < gh c -> forall d, get_or (nth (Z.to_nat c) (s_comps s) []) (y * gw c + x) d = sample_of c x y) as GO.
    { intros c x y Hc Hx Hy d. destruct (PX c Hc) as [PL PV]. unfold get_or. rewrite PL.
      destruct (Z.ltb_spec (y * gw c + x) (gw c * gh c)) as [_|G]; [apply PV; assumption|nia]. }
    destruct HNN as [N1|N3].
    - unfold gpix. rewrite N1. change (1 =? 1) with true. cbv iota.
      assert (exists c0, js_comps st = [c0]) as (c0 & EC).
      { unfold n in N1. revert N1. clear. destruct (js_comps st) as [|c0 [|c1 l]]; rewrite ?zlen_cons, ?zlen_nil; intros H; [lia|eauto|pose proof (zlen_nonneg l); lia]. }
      rewrite EC at 1.
      rewrite (get_ok (s_comps s) 0 []) by lia. cbn [rbind].
      assert (comp 0 = c0) as C0 by (unfold comp; rewrite EC; reflexivity).
      assert (mw * c_h c0 * 8 = gw 0) as -> by (unfold gw; rewrite C0; reflexivity).
      f_equal. f_equal. apply flat_map_ext_in. intros y Hy. apply in_idxs in Hy. rewrite flat_map_single. apply map_ext_in. intros x Hx. apply in_idxs in Hx.
      assert (0 <= x < gw 0 /\ 0 <= y < gh 0) as [BX BY] by (unfold gw, gh; rewrite E1, E2; lia).
      rewrite GO by (try assumption; lia). pose proof (sample_byte 0 x y ltac:(lia) BX BY) as DB. revert DB. generalize (sample_of 0 x y). clear. intros v Bv.
      unfold clamp. destruct (Z.ltb_spec v 0); [lia|]. destruct (Z.gtb_spec v 255); [lia|reflexivity].
    - unfold gpix. rewrite N3. change (3 =? 1) with false. cbv iota.
      assert (exists c0 c1 c2, js_comps st = [c0; c1; c2]) as (c0 & c1 & c2 & EC).
      { unfold n in N3. revert N3. clear. destruct (js_comps st) as [|c0 [|c1 [|c2 [|c3 l]]]]; rewrite ?zlen_cons, ?zlen_nil; intros H; [lia|lia|lia|eauto|pose proof (zlen_nonneg l); lia]. }
      rewrite EC.
      assert (comp 1 = c1 /\ comp 2 = c2) as [C1 C2] by (unfold comp; rewrite EC; split; reflexivity).
      unfold ycbcr_to_rgb. rewrite (get_ok _ 1 (mkcomp 0 0 0 0 0)), (get_ok _ 2 (mkcomp 0 0 0 0 0)) by (rewrite !zlen_cons, zlen_nil; lia).
      rewrite (get_ok (s_comps s) 0 []), (get_ok (s_comps s) 1 []), (get_ok (s_comps s) 2 []) by lia. cbn [rbind].
      change (nth (Z.to_nat 1) [c0; c1; c2] (mkcomp 0 0 0 0 0)) with c1. change (nth (Z.to_nat 2) [c0; c1; c2] (mkcomp 0 0 0 0 0)) with c2.
      rewrite <- HMW. rewrite <- C1, <- C2, <- E1. change (mw * c_h (comp 0) * 8) with (gw 0). change (mw * c_h (comp 1) * 8) with (gw 1). change (mw * c_h (comp 2) * 8) with (gw 2).
      rewrite E1. f_equal. f_equal.
      apply flat_map_ext_in. intros y Hy. apply in_idxs in Hy. apply flat_map_ext_in. intros x Hx. apply in_idxs in Hx.
      destruct (HCD 1 ltac:(lia)) as [D1 D1']. destruct (HCD 2 ltac:(lia)) as [D2 D2'].
      destruct (HF 1 ltac:(lia)) as [F1 F1']. destruct (HF 2 ltac:(lia)) as [F2 F2'].
      rewrite !scaled by (assumption || lia).
      destruct (in_plane 1 x y ltac:(lia) ltac:(lia) ltac:(lia)) as [X1 Y1]. destruct (in_plane 2 x y ltac:(lia) ltac:(lia) ltac:(lia)) as [X2 Y2].
      assert (0 <= x < gw 0 /\ 0 <= y < gh 0) as [BX BY] by (unfold gw, gh; rewrite E1, E2; lia).
      rewrite (GO 0), (GO 1), (GO 2) by (assumption || lia). reflexivity.
  Qed.
End Scan.

(** ** header segments *)
Lemma nibbles h v : 0 <= h <= 15 -> 0 <= v <= 15 -> Z.land (Z.shiftr (16 * h + v) 4) 15 = h /\ Z.land (16 * h + v) 15 = v.
Proof.
  intros Hh Hv. change 15 with (Z.ones 4). rewrite !Z.land_ones by lia. rewrite Z.shiftr_div_pow2 by lia. change (2 ^ 4) with 16.
  rewrite (Z.mul_comm 16), Z.div_add_l, (Z.div_small v), Z.add_0_r, Z.mod_small by lia. split; [reflexivity|].
  rewrite Z.add_comm, Z.mod_add, Z.mod_small by lia. reflexivity.
Qed.
Lemma fill_marker n m p rest : read_marker ((repeat 255 n ++ marker_segment m p) ++ rest) = read_marker (marker_segment m p ++ rest).
Proof.
  unfold read_marker, marker_segment. rewrite <- app_assoc. cbn [app].
  assert (forall t, skip_ff (skip_to_ff (repeat 255 n ++ 255 :: t)) = skip_ff t) as K.
  { intros t. destruct n as [|n]; [reflexivity|]. cbn [repeat app skip_to_ff]. change (255 =? 255) with true. cbv iota. cbn [skip_ff]. change (255 =? 255) with true. cbv iota.
    induction n as [|n IH]; [reflexivity|]. cbn [repeat app skip_ff]. change (255 =? 255) with true. cbv iota. exact IH. }
  rewrite K. reflexivity.
Qed.

Definition set_slots {A B} (g : A -> B) (defs : list (Z * A)) (l : list B) : list B :=
  fold_left (fun q d => upd q (Z.to_nat (fst d)) (g (snd d))) defs l.
Definition build (bv : list Z * list Z) : jtab := jtab_build (fst bv) (snd bv).
Definition run_segs (st : jstate) (l : list (nat * hseg)) : jstate :=
  mkjs (js_w st) (js_h st) (js_comps st) (set_slots (fun t => t) (quants l) (js_quant st)) (set_slots build (huffs 0 l) (js_dc st))
       (set_slots build (huffs 1 l) (js_ac st)) (last (intervals_set l) (js_restart st)) (js_maxh st) (js_maxv st).
Lemma set_slots_app {A B} (g : A -> B) a b l : set_slots g (a ++ b) l = set_slots g b (set_slots g a l).
Proof. apply fold_left_app. Qed.
Lemma last_app (a b : list Z) d : last (a ++ b) d = last b (last a d).
Proof.
  revert d. induction a as [|x [|y a] IH]; intros d; [reflexivity| |exact (IH d)].
  cbn [app last]. destruct b as [|z b]; [reflexivity|]. cbn [last]. clear. revert z. induction b as [|y b IH]; intros z; [reflexivity|]. cbn [last]. apply IH.
Qed.
Lemma run_segs_app st a b : run_segs st (a ++ b) = run_segs (run_segs st a) b.
Proof.
  unfold run_segs, quants, huffs, intervals_set. cbn [js_w js_h js_comps js_quant js_dc js_ac js_restart js_maxh js_maxv].
  rewrite !flat_map_app, !set_slots_app, last_app. reflexivity.
Qed.
Lemma set_slots_length {A B} (g : A -> B) defs : forall l, length (set_slots g defs l) = length l.
Proof. induction defs as [|d r IH]; intros l; [reflexivity|]. unfold set_slots in *. cbn [fold_left]. rewrite IH, upd_length. reflexivity. Qed.
Lemma set_slots_get {A B} (g : A -> B) defs id t l : in_force defs id t -> 0 <= id < zlen l -> Forall (fun d => 0 <= fst d) defs ->
  get (set_slots g defs l) id = Ok (g t).
Proof.
  intros (a & b & -> & HI) Hid HD. rewrite set_slots_app. change ((id, t) :: b) with ([(id, t)] ++ b). rewrite set_slots_app.
  apply Forall_app in HD as [_ HD]. apply Forall_cons_iff in HD as [_ HD].
  set (l1 := set_slots g [(id, t)] (set_slots g a l)).
  assert (zlen l1 = zlen l /\ forall d, nth (Z.to_nat id) l1 d = g t) as [L1 G1].
  { split; [unfold l1, zlen; rewrite !set_slots_length; reflexivity|]. intros d. unfold l1. change (set_slots g [(id, t)] (set_slots g a l)) with (upd (set_slots g a l) (Z.to_nat id) (g t)).
    apply nth_upd_eq. rewrite set_slots_length. unfold zlen in Hid. lia. }
  clearbody l1. revert l1 L1 G1. induction b as [|[i x] b IH]; intros l1 L1 G1.
  - cbn. rewrite (get_ok l1 id (g t)) by lia. rewrite G1. reflexivity.
  - apply Forall_cons_iff in HD as [D0 HD]. cbn [fst] in D0. cbn [map fst In] in HI.
    change (set_slots g ((i, x) :: b) l1) with (set_slots g b (upd l1 (Z.to_nat i) (g x))).
    apply IH; [intros C; apply HI; right; exact C|exact HD|unfold zlen in *; rewrite upd_length; exact L1|].
    intros d. rewrite nth_upd_neq; [apply G1|]. intros E. apply HI. left. lia.
Qed.

Lemma hi_lo_len (l : list Z) : length (flat_map hi_lo l) = (2 * length l)%nat.
Proof. induction l as [|x r IH]; [reflexivity|]. cbn [flat_map hi_lo app length]. rewrite IH. lia. Qed.
Lemma be16_pairs (l : list Z) : forall rest, map (fun i => be16 (znth (flat_map hi_lo l ++ rest) (2 * i)) (znth (flat_map hi_lo l ++ rest) (2 * i + 1))) (idxs (length l)) = l.
Proof.
  intros rest. induction l as [|x r IH]; [reflexivity|].
  assert (idxs (length (x :: r)) = 0 :: map Z.succ (idxs (length r))) as ->.
  { unfold idxs. cbn [length seq map]. rewrite <- seq_shift, !map_map. f_equal. apply map_ext. intros a. lia. }
  cbn [map]. f_equal.
  - change (2 * 0) with 0. change (0 + 1) with 1. cbn [flat_map hi_lo app]. apply be16_of_hi_lo.
  - rewrite map_map. etransitivity; [|exact IH]. apply map_ext_in. intros i Hi. apply in_idxs in Hi. cbn [flat_map hi_lo app].
    unfold znth. replace (Z.to_nat (2 * Z.succ i)) with (S (S (Z.to_nat (2 * i)))) by lia. replace (Z.to_nat (2 * Z.succ i + 1)) with (S (S (Z.to_nat (2 * i + 1)))) by lia. reflexivity.
Qed.
Lemma parse_dqt_ok ts : Forall (fun '(p, id, l) => (p = 0 \/ p = 1) /\ 0 <= id <= 3 /\ length l = 64%nat /\ Forall (fun v => 1 <= v < 256 ^ (p + 1)) l) ts ->
  forall fuel st, (length ts <= fuel)%nat -> parse_dqt fuel st (flat_map quant_bytes ts) = Ok (run_segs st [(O, Quant ts)]).
Proof.
  induction 1 as [|[[p id] l] ts (Hp & Hi & Hl & _) _ IH]; intros fuel st Hf.
  - destruct st, fuel; reflexivity.
  - destruct fuel as [|fuel]; [cbn in Hf; lia|]. cbn [length] in Hf. cbn [flat_map quant_bytes app parse_dqt].
    destruct (nibbles p id ltac:(lia) ltac:(lia)) as [-> ->]. cbv zeta. destruct (Z.gtb_spec id 3); [lia|].
    assert (forall st', st' = mkjs (js_w st) (js_h st) (js_comps st) (upd (js_quant st) (Z.to_nat id) l) (js_dc st) (js_ac st) (js_restart st) (js_maxh st) (js_maxv st) ->
      parse_dqt fuel st' (flat_map quant_bytes ts) = Ok (run_segs st [(O, Quant ((p, id, l) :: ts))])) as K.
    { intros st' ->. rewrite IH by lia. unfold run_segs, quants, huffs, intervals_set, set_slots. cbn [flat_map snd app map fold_left fst js_w js_h js_comps js_quant js_dc js_ac js_restart js_maxh js_maxv last]. reflexivity. }
    destruct Hp as [->| ->].
    + change (0 =? 0) with true. cbv iota. rewrite zlen_app. pose proof (zlen_nonneg (flat_map quant_bytes ts)).
      destruct (Z.gtb_spec 64 (zlen l + zlen (flat_map quant_bytes ts))) as [G|_]; [unfold zlen in G at 1; lia|].
      rewrite firstn_app, skipn_app, Hl, Nat.sub_diag. rewrite firstn_all2, skipn_all2 by lia. cbn [firstn skipn app]. rewrite app_nil_r. apply K. reflexivity.
    + change (1 =? 0) with false. cbv iota. pose proof (hi_lo_len l) as HL. rewrite Hl in HL. rewrite zlen_app. pose proof (zlen_nonneg (flat_map quant_bytes ts)).
      destruct (Z.gtb_spec 128 (zlen (flat_map hi_lo l) + zlen (flat_map quant_bytes ts))) as [G|_]; [unfold zlen in G at 1; lia|].
      rewrite skipn_app, HL. change (128 - 2 * 64)%nat with O. rewrite skipn_all2 by lia. cbn [skipn app]. change 64%nat with (64)%nat. rewrite <- Hl at 1. rewrite be16_pairs. apply K. reflexivity.
Qed.
Lemma huff_legal_ok bits vals : huff_legal bits vals -> tab_ok bits vals.
Proof.
  intros (H1 & H2 & H3 & H4 & H5 & H6). rewrite spec_sizes_eq in H3, H6 by exact H1. unfold tab_ok. auto 10.
Qed.
Lemma parse_dht_ok ts : Forall (fun '(cls, id, bits, vals) => (cls = 0 \/ cls = 1) /\ 0 <= id <= 3 /\ huff_legal bits vals) ts ->
  forall fuel st, (length ts <= fuel)%nat -> parse_dht fuel st (flat_map huff_bytes ts) = Ok (run_segs st [(O, Huff ts)]).
Proof.
  induction 1 as [|[[[cls id] bits] vals] ts (Hp & Hi & Hl) _ IH]; intros fuel st Hf.
  - destruct st, fuel; reflexivity.
  - destruct fuel as [|fuel]; [cbn in Hf; lia|]. cbn [length] in Hf. cbn [flat_map huff_bytes app parse_dht].
    destruct (tab_ok_len _ _ (huff_legal_ok _ _ Hl)) as (L & S & BN). pose proof (zlen_nonneg vals).
    destruct (nibbles cls id ltac:(lia) ltac:(lia)) as [-> ->]. cbv zeta. destruct (Z.gtb_spec id 3); [lia|].
    rewrite <- !app_assoc. set (tl := flat_map huff_bytes ts) in *. pose proof (zlen_nonneg tl).
    rewrite !zlen_app. destruct (Z.gtb_spec 16 (zlen bits + (zlen vals + zlen tl))) as [G|_]; [unfold zlen in G at 1; lia|].
    rewrite firstn_app, skipn_app, L, Nat.sub_diag. rewrite firstn_all2, skipn_all2 by lia. cbn [firstn skipn app]. rewrite app_nil_r, S.
    rewrite zlen_app. destruct (Z.gtb_spec (zlen vals) (zlen vals + zlen tl)); [lia|].
    replace (Z.to_nat (zlen vals)) with (length vals) by (unfold zlen; lia).
    rewrite firstn_app, skipn_app, Nat.sub_diag, firstn_all, skipn_all. cbn [firstn skipn app]. rewrite app_nil_r.
    unfold tl. rewrite IH by lia. unfold run_segs, quants, huffs, intervals_set, set_slots.
    destruct Hp as [->| ->]; cbn [flat_map snd app map fold_left fst js_w js_h js_comps js_quant js_dc js_ac js_restart js_maxh js_maxv last Z.eqb Pos.eqb]; reflexivity.
Qed.
Lemma flat_map_len_ge {A} (g : A -> list Z) l : (forall x, (1 <= length (g x))%nat) -> (length l <= length (flat_map g l))%nat.
Proof. intros H. induction l as [|x r IH]; [cbn; lia|]. cbn [flat_map length]. rewrite app_length. specialize (H x). lia. Qed.
Lemma seg_step f st s rest : seg_legal s -> marker_loop (S f) st (seg_bytes s ++ rest) = marker_loop f (run_segs st [s]) rest.
Proof.
  destruct s as [n [ts|ts|i|m p]]; unfold seg_legal, seg_bytes; cbn [fst snd]; intros HL; rewrite marker_loop_S; [| |unfold dri_segment|]; rewrite fill_marker.
  - destruct HL as [HZ HF]. rewrite read_segment by lia. cbn [rbind].
    change (219 =? 192) with false. change (219 =? 194) with false. change (219 =? 196) with false. change (219 =? 219) with true. cbv iota.
    rewrite (parse_dqt_ok ts HF) by (apply flat_map_len_ge; intros [[p id] l]; cbn; lia). reflexivity.
  - destruct HL as [HZ HF]. rewrite read_segment by lia. cbn [rbind].
    change (196 =? 192) with false. change (196 =? 194) with false. change (196 =? 196) with true. cbv iota.
    rewrite (parse_dht_ok ts HF) by (apply flat_map_len_ge; intros [[[k id] bits] vals]; cbn; lia). reflexivity.
  - rewrite read_segment by (try lia; unfold hi_lo; rewrite !zlen_cons, zlen_nil; lia).
    cbn [rbind]. change (221 =? 192) with false. change (221 =? 194) with false. change (221 =? 196) with false. change (221 =? 219) with false. change (221 =? 221) with true. cbv iota.
    unfold parse_dri. unfold hi_lo at 1. rewrite !zlen_cons, zlen_nil. change (negb (1 + (1 + 0) =? 2)) with false. cbv iota.
    change (znth (hi_lo i) 0) with (i / 256). change (znth (hi_lo i) 1) with (i mod 256). rewrite be16_of_hi_lo. reflexivity.
  - destruct HL as (HM & _ & HZ). rewrite read_segment by lia. cbn [rbind].
    destruct (Z.eqb_spec m 192); [lia|]. destruct (Z.eqb_spec m 194); [lia|]. destruct (Z.eqb_spec m 196); [lia|]. destruct (Z.eqb_spec m 219); [lia|].
    destruct (Z.eqb_spec m 221); [lia|]. destruct (Z.eqb_spec m 218); [lia|]. destruct (Z.eqb_spec m 217); [lia|].
    destruct st. reflexivity.
Qed.
Lemma segs_step l : Forall seg_legal l -> forall f st rest, marker_loop (length l + f) st (flat_map seg_bytes l ++ rest) = marker_loop f (run_segs st l) rest.
Proof.
  induction 1 as [|s l Hs _ IH]; intros f st rest; [destruct st; reflexivity|].
  cbn [flat_map length plus]. rewrite <- app_assoc, seg_step by exact Hs. rewrite IH, <- (run_segs_app st [s] l). reflexivity.
Qed.
Lemma seg_bytes_len s : (1 <= length (seg_bytes s))%nat.
Proof. unfold seg_bytes. rewrite app_length. destruct s as [n [ts|ts|i|m p]]; cbn [snd]; unfold dri_segment, marker_segment; cbn [app length]; lia. Qed.

(** ** frame and scan headers *)
Definition raw (c : acomp) : jcomp := mkcomp (a_h c) (a_v c) (a_tq c) 0 0.
Definition cooked (c : acomp) : jcomp := mkcomp (a_h c) (a_v c) (a_tq c) (a_td c) (a_ta c).
Definition comp_legal (c : acomp) : Prop := 0 <= a_id c < 256 /\ 1 <= a_h c <= 4 /\ 1 <= a_v c <= 4 /\ 0 <= a_tq c <= 3 /\ 0 <= a_td c <= 3 /\ 0 <= a_ta c <= 3.
Lemma sof_comps_ok cs : Forall comp_legal cs -> forall mh mv, 1 <= mh -> 1 <= mv ->
  sof_comps (length cs) (flat_map (fun '(id, hs, vs, tq) => [id; 16 * hs + vs; tq]) (map (fun c => (a_id c, a_h c, a_v c, a_tq c)) cs)) mh mv =
  Ok (map raw cs, Z.max mh (fold_right Z.max 1 (map a_h cs)), Z.max mv (fold_right Z.max 1 (map a_v cs))).
Proof.
  induction 1 as [|c cs (_ & H1 & H2 & H3 & _) _ IH]; intros mh mv Hm Hv.
  - cbn. rewrite !Z.max_l by lia. reflexivity.
  - cbn [map flat_map length app sof_comps].
    cbn [skipn].
    match goal with |- (let* _ := get (?a :: ?b :: ?d :: ?l) 1 in _) = _ => change (get (a :: b :: d :: l) 1) with (Ok b); change (get (a :: b :: d :: l) 2) with (Ok d) end.
    cbn [rbind]. destruct (nibbles (a_h c) (a_v c) ltac:(lia) ltac:(lia)) as [-> ->]. cbv zeta.
    destruct (Z.eqb_spec (a_h c) 0); [lia|]. destruct (Z.eqb_spec (a_v c) 0); [lia|]. cbn [orb]. destruct (Z.gtb_spec (a_tq c) 3); [lia|].
    rewrite IH by lia. cbn [rbind map fold_right]. rewrite !Z.max_assoc. reflexivity.
Qed.
Lemma comps_len3 (cs : list acomp) : length (flat_map (fun '(id, hs, vs, tq) => [id; 16 * hs + vs; tq]) (map (fun c => (a_id c, a_h c, a_v c, a_tq c)) cs)) = (3 * length cs)%nat.
Proof. induction cs as [|c cs IH]; [reflexivity|]. cbn [map flat_map app length]. rewrite IH. lia. Qed.
Lemma sof_any f st w h cs rest : 0 <= w < 65536 -> 0 <= h < 65536 -> Forall comp_legal cs -> zlen cs = 1 \/ zlen cs = 3 -> js_maxh st = 1 -> js_maxv st = 1 ->
  marker_loop (S f) st (sof_segment 192 w h (map (fun c => (a_id c, a_h c, a_v c, a_tq c)) cs) ++ rest) =
  marker_loop f (mkjs w h (map raw cs) (js_quant st) (js_dc st) (js_ac st) (js_restart st) (fold_right Z.max 1 (map a_h cs)) (fold_right Z.max 1 (map a_v cs))) rest.
Proof.
  intros Hw Hh HC HN M1 M2. rewrite marker_loop_S. unfold sof_segment.
  pose proof (comps_len3 cs) as L3. assert (zlen (map (fun c => (a_id c, a_h c, a_v c, a_tq c)) cs) = zlen cs) as LM by (unfold zlen; rewrite map_length; reflexivity).
  pose proof (sof_comps_ok cs HC 1 1 ltac:(lia) ltac:(lia)) as SC.
  rewrite LM. set (body := flat_map _ _) in *. unfold hi_lo. cbn [app].
  assert (zlen (8 :: h / 256 :: h mod 256 :: w / 256 :: w mod 256 :: zlen cs :: body) = 6 + 3 * zlen cs) as LZ by (rewrite !zlen_cons; unfold zlen in *; lia).
  rewrite read_segment by (try lia). cbn [rbind]. change (192 =? 192) with true. cbv iota. unfold parse_sof0.
  match goal with |- context[znth (?a :: ?b :: ?c :: ?d :: ?e :: ?g :: ?l) 0] => set (seg := a :: b :: c :: d :: e :: g :: l) in * end.
  rewrite LZ. change (znth seg 0) with 8. change (znth seg 1) with (h / 256). change (znth seg 2) with (h mod 256). change (znth seg 3) with (w / 256). change (znth seg 4) with (w mod 256).
  change (znth seg 5) with (zlen cs). change (skipn 6 seg) with body. destruct (Z.ltb_spec (6 + 3 * zlen cs) 8); [lia|]. change (negb (8 =? 8)) with false. cbv iota zeta.
  rewrite !be16_of_hi_lo. assert (negb (zlen cs =? 1) && negb (zlen cs =? 3) = false) as -> by (destruct HN as [-> | ->]; reflexivity).
  destruct (Z.ltb_spec (6 + 3 * zlen cs) (6 + zlen cs * 3)); [lia|]. replace (Z.to_nat (zlen cs)) with (length cs) by (unfold zlen; lia).
  rewrite M1, M2, SC. cbn [rbind].
  assert (forall l, 1 <= fold_right Z.max 1 l) as G by (intros l; induction l; cbn; lia). rewrite !Z.max_r by apply G. reflexivity.
Qed.
Lemma sos_comps_ok cs tail : Forall comp_legal cs ->
  sos_comps (map raw cs) (flat_map (fun '(id, td, ta) => [id; 16 * td + ta]) (map (fun c => (a_id c, a_td c, a_ta c)) cs) ++ tail) = Ok (map cooked cs).
Proof.
  induction 1 as [|c cs (_ & _ & _ & _ & H1 & H2) _ IH]; [reflexivity|].
  cbn [map flat_map app sos_comps]. destruct (nibbles (a_td c) (a_ta c) ltac:(lia) ltac:(lia)) as [-> ->]. cbv zeta.
  destruct (Z.gtb_spec (a_td c) 3); [lia|]. destruct (Z.gtb_spec (a_ta c) 3); [lia|]. rewrite IH. reflexivity.
Qed.
Lemma comps_len2 (cs : list acomp) : length (flat_map (fun '(id, td, ta) => [id; 16 * td + ta]) (map (fun c => (a_id c, a_td c, a_ta c)) cs)) = (2 * length cs)%nat.
Proof. induction cs as [|c cs IH]; [reflexivity|]. cbn [map flat_map app length]. rewrite IH. lia. Qed.
Lemma sos_any f st cs rest : js_comps st = map raw cs -> Forall comp_legal cs -> zlen cs = 1 \/ zlen cs = 3 ->
  marker_loop (S f) st (sos_segment (map (fun c => (a_id c, a_td c, a_ta c)) cs) ++ rest) =
  decode_scan (mkjs (js_w st) (js_h st) (map cooked cs) (js_quant st) (js_dc st) (js_ac st) (js_restart st) (js_maxh st) (js_maxv st)) rest.
Proof.
  intros HE HC HN. rewrite marker_loop_S. unfold sos_segment.
  pose proof (comps_len2 cs) as L2. assert (zlen (map (fun c => (a_id c, a_td c, a_ta c)) cs) = zlen cs) as LM by (unfold zlen; rewrite map_length; reflexivity).
  pose proof (sos_comps_ok cs [0; 63; 0] HC) as SC. rewrite LM. set (body := flat_map _ _) in *. cbn [app].
  rewrite read_segment by (try lia; rewrite zlen_cons, zlen_app; unfold zlen in *; cbn [length]; lia).
  cbn [rbind]. change (218 =? 192) with false. change (218 =? 194) with false. change (218 =? 196) with false. change (218 =? 219) with false.
  change (218 =? 221) with false. change (218 =? 218) with true. cbv iota. unfold parse_sos. rewrite HE.
  assert (zlen (map raw cs) = zlen cs) as -> by (unfold zlen; rewrite map_length; reflexivity). rewrite Z.eqb_refl. cbn [negb]. cbv iota. rewrite SC. reflexivity.
Qed.
