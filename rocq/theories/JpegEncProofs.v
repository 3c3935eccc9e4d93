(** The JPEG encoder writes a scan coded as in the standard. *)
From Verif Require Import Base BitsModel BitsProofs CanonSpec CanonProofs HuffModel HuffProofs Lz77Model PngFilterModel PngPaletteModel JpegBaseModel JpegHuffModel JpegDecModel JpegEncModel JpegBaseProofs MsbSpec MsbProofs JpegSpec JpegTabProofs JpegSymProofs JpegBlockProofs JpegOptProofs.
From Coq Require Import Permutation.

(** ** tables *)
Definition tabs_ok (t : htables) : Prop :=
  enc_ok (dc_lum_bits t) (dc_lum_vals t) (dc_lum_codes t) /\ enc_ok (dc_chrom_bits t) (dc_chrom_vals t) (dc_chrom_codes t) /\
  enc_ok (ac_lum_bits t) (ac_lum_vals t) (ac_lum_codes t) /\ enc_ok (ac_chrom_bits t) (ac_chrom_vals t) (ac_chrom_codes t).
(** the specifications written to the file, by component *)
Definition tabs_of (t : htables) (c : Z) : ctabs :=
  if c =? 0 then mkct (dc_lum_bits t) (dc_lum_vals t) (ac_lum_bits t) (ac_lum_vals t)
  else mkct (dc_chrom_bits t) (dc_chrom_vals t) (ac_chrom_bits t) (ac_chrom_vals t).

Definition tab_okb (bits vals : list Z) : bool :=
  (length bits =? 16)%nat && forallb (fun c => (0 <=? c) && (c <=? 255)) bits && (length vals =? length (huff_sizes bits))%nat &&
  forallb (fun v => (0 <=? v) && (v <? 256)) vals && nodupb vals && (kraft 16 (huff_sizes bits) <? 2 ^ 16).
Lemma tab_okb_ok bits vals : tab_okb bits vals = true -> tab_ok bits vals.
Proof.
  unfold tab_okb. rewrite !andb_true_iff. intros [[[[[H1 H2] H3] H4] H5] H6]. unfold tab_ok.
  split; [apply Nat.eqb_eq; exact H1|]. split; [apply Forall_forall; intros x Hx; rewrite forallb_forall in H2; specialize (H2 x Hx); lia|].
  split; [apply Nat.eqb_eq; exact H3|]. split; [apply Forall_forall; intros x Hx; rewrite forallb_forall in H4; specialize (H4 x Hx); unfold is_byte; lia|].
  split; [apply nodupb_ok; exact H5|]. apply Z.ltb_lt. exact H6.
Qed.
Lemma tab_ok_codes N bits vals : tab_ok bits vals -> 0 <= N <= 256 -> Forall (fun v => 0 <= v < N) vals ->
  (exists codes, build_code_table N bits vals = Ok (Some codes) /\ enc_ok bits vals codes) /\
  (exists codes, build_codes_n N bits vals = Ok codes /\ enc_ok bits vals codes).
Proof.
  intros HT HN HV. pose proof HT as (T1 & T2 & T3 & T4 & T5 & T6).
  assert (Forall (fun c => 0 <= c) bits) as Hnn by (eapply Forall_impl; [|exact T2]; intros c Hc; cbv beta in Hc; lia).
  split.
  - destruct (bct_ok bits T1 Hnn T6 N vals T3 HV T5) as (codes & E & TB). exists codes. split; [exact E|].
    split; [exact HT|]. exists N. split; [lia|]. split; [exact HV|exact TB].
  - destruct (bc_ok bits T1 Hnn T6 N vals T3 HV T5) as (codes & E & TB). exists codes. split; [exact E|].
    split; [exact HT|]. exists N. split; [lia|]. split; [exact HV|exact TB].
Qed.

Lemma std_tab_ok : tab_ok DC_LUM_BITS DC_LUM_VALS /\ tab_ok DC_CHROM_BITS DC_CHROM_VALS /\
  tab_ok AC_LUM_BITS AC_LUM_VALS /\ tab_ok AC_CHROM_BITS AC_CHROM_VALS.
Proof. split; [|split; [|split]]; apply tab_okb_ok; vm_compute; reflexivity. Qed.
Lemma forall_lt l N : forallb (fun v => (0 <=? v) && (v <? N)) l = true -> Forall (fun v => 0 <= v < N) l.
Proof. intros H. apply Forall_forall. intros x Hx. rewrite forallb_forall in H. specialize (H x Hx). lia. Qed.
Lemma std_ranges : Forall (fun v => 0 <= v < 12) DC_LUM_VALS /\ Forall (fun v => 0 <= v < 12) DC_CHROM_VALS /\
  Forall (fun v => 0 <= v < 256) AC_LUM_VALS /\ Forall (fun v => 0 <= v < 256) AC_CHROM_VALS.
Proof. split; [|split; [|split]]; apply forall_lt; vm_compute; reflexivity. Qed.
Lemma chain4 {A B} (f1 f2 f3 f4 : res A) (k : A -> A -> A -> A -> B) a b c d : f1 = Ok a -> f2 = Ok b -> f3 = Ok c -> f4 = Ok d ->
  (let* x := f1 in let* y := f2 in let* z := f3 in let* w := f4 in Ok (k x y z w)) = Ok (k a b c d).
Proof. intros -> -> -> ->. reflexivity. Qed.
Lemma std_tables_ok : exists t, std_tables = Ok t /\ tabs_ok t /\
  dc_lum_vals t = DC_LUM_VALS /\ dc_chrom_vals t = DC_CHROM_VALS /\ ac_lum_vals t = AC_LUM_VALS /\ ac_chrom_vals t = AC_CHROM_VALS /\
  zlen DC_LUM_VALS = 12.
Proof.
  destruct std_tab_ok as (S1 & S2 & S3 & S4). destruct std_ranges as (R1 & R2 & R3 & R4).
  destruct (tab_ok_codes 12 _ _ S1 ltac:(lia) R1) as [_ (c1 & E1 & O1)].
  destruct (tab_ok_codes 12 _ _ S2 ltac:(lia) R2) as [_ (c2 & E2 & O2)].
  destruct (tab_ok_codes 256 _ _ S3 ltac:(lia) R3) as [_ (c3 & E3 & O3)].
  destruct (tab_ok_codes 256 _ _ S4 ltac:(lia) R4) as [_ (c4 & E4 & O4)].
  eexists. split.
  { exact (chain4 _ _ _ _ (mkht DC_LUM_BITS DC_LUM_VALS DC_CHROM_BITS DC_CHROM_VALS AC_LUM_BITS AC_LUM_VALS AC_CHROM_BITS AC_CHROM_VALS) _ _ _ _ E1 E2 E3 E4). } split; [split; [exact O1|split; [exact O2|split; [exact O3|exact O4]]]|].
  split; [reflexivity|]. split; [reflexivity|]. split; [reflexivity|]. split; reflexivity.
Qed.

(** ** legal coefficients and the symbols they need *)
Definition coef_ok (cb : Z * list Z) : Prop :=
  0 <= fst cb <= 2 /\ length (snd cb) = 64%nat /\ -1024 <= znth (snd cb) 0 <= 1023 /\ Forall (fun a => Z.abs a <= 1023) (skipn 1 (snd cb)).
Definition legal_ac (s : Z) : Prop := s = 0 \/ s = 240 \/ exists r n, 0 <= r < 16 /\ 1 <= n <= 10 /\ s = 16 * r + n.
Lemma legal_range s : legal_ac s -> 0 <= s < 256 /\ s <> 15.
Proof. intros [->|[->|(r & n & Hr & Hn & ->)]]; lia. Qed.
Lemma cat10 a : a <> 0 -> Z.abs a <= 1023 -> 1 <= category a <= 10.
Proof. intros N H. pose proof (category_le a 10 ltac:(lia) ltac:(change (2 ^ 10) with 1024; lia)). pose proof (proj2 (category_pos a) N). lia. Qed.
Lemma cat11 d : Z.abs d <= 2047 -> 0 <= category d <= 11.
Proof. intros H. pose proof (category_le d 11 ltac:(lia) ltac:(change (2 ^ 11) with 2048; lia)). lia. Qed.
Lemma ac_syms_legal l : forall z, 0 <= z -> Forall (fun a => Z.abs a <= 1023) l -> Forall legal_ac (ac_syms l z).
Proof.
  induction l as [|a t IH]; intros z Hz H; cbn [ac_syms].
  - destruct (z >? 0); constructor; [left; reflexivity|constructor].
  - apply Forall_cons_iff in H as [Ha Ht]. destruct (Z.eqb_spec a 0) as [->|N]; [apply IH; auto; lia|].
    apply Forall_app. split.
    + apply Forall_forall. intros s Hs. apply repeat_spec in Hs. right. left. exact Hs.
    + constructor; [|apply IH; auto; lia]. right. right. exists (z mod 16), (category a).
      pose proof (Z.mod_pos_bound z 16 ltac:(lia)). pose proof (cat10 a N Ha). auto.
Qed.
Lemma zigzag_ac b : length b = 64%nat -> Forall (fun a => Z.abs a <= 1023) (skipn 1 b) ->
  Forall (fun a => Z.abs a <= 1023) (skipn 1 (zigzag_reorder b)).
Proof.
  intros HL H. change (skipn 1 (zigzag_reorder b)) with (map (znth b) (skipn 1 ZIGZAG)). apply Forall_map. apply Forall_forall. intros i Hi.
  assert (1 <= i < 64) as Ri.
  { assert (forallb (fun i => (1 <=? i) && (i <? 64)) (skipn 1 ZIGZAG) = true) as C by (vm_compute; reflexivity).
    rewrite forallb_forall in C. specialize (C i Hi). lia. }
  destruct b as [|x b]; [discriminate|]. cbn [skipn] in H. unfold znth. replace (Z.to_nat i) with (S (Z.to_nat (i - 1))) by lia. cbn [nth].
  apply (Forall_nth_d (fun a => Z.abs a <= 1023)); [exact H|lia].
Qed.
Lemma coef_block_ok cb : coef_ok cb -> block_ok (snd cb).
Proof.
  intros (_ & HL & HD & HA). destruct (snd cb) as [|x b]; [discriminate|]. change (znth (x :: b) 0) with x in HD. cbn [skipn] in HA.
  constructor; [lia|]. eapply Forall_impl; [|exact HA]. intros a Ha. cbv beta in Ha. lia.
Qed.
Definition blk_ac_syms (cb : Z * list Z) : list Z := ac_syms (skipn 1 (zigzag_reorder (snd cb))) 0.
Lemma blk_ac_legal cb : coef_ok cb -> Forall legal_ac (blk_ac_syms cb).
Proof. intros (_ & HL & _ & HA). apply ac_syms_legal; [lia|]. apply zigzag_ac; auto. Qed.

Definition after (preds : list Z) (blocks : list (Z * list Z)) : list Z :=
  fold_left (fun p cb => upd p (Z.to_nat (fst cb)) (znth (snd cb) 0)) blocks preds.
Definition preds_ok (preds : list Z) : Prop := length preds = 3%nat /\ Forall (fun p => -1024 <= p <= 1023) preds.
Lemma preds0 : preds_ok [0; 0; 0].
Proof. split; [reflexivity|]. constructor; [lia|]. constructor; [lia|]. constructor; [lia|constructor]. Qed.
Lemma preds_upd preds cb : preds_ok preds -> coef_ok cb -> preds_ok (upd preds (Z.to_nat (fst cb)) (znth (snd cb) 0)).
Proof. intros [L F] (_ & _ & H & _). split; [rewrite upd_length; exact L|]. apply Forall_upd; auto. Qed.
Lemma preds_get preds c : preds_ok preds -> 0 <= c <= 2 -> get preds c = Ok (znth preds c) /\ -1024 <= znth preds c <= 1023.
Proof.
  intros [L F] Hc. split; [apply get_ok; unfold zlen; lia|]. unfold znth. apply (Forall_nth_d (fun p => -1024 <= p <= 1023)); auto. lia.
Qed.
Lemma preds_after blocks : forall preds, preds_ok preds -> Forall coef_ok blocks -> preds_ok (after preds blocks).
Proof.
  induction blocks as [|cb r IH]; intros preds HP HF; [exact HP|]. apply Forall_cons_iff in HF as [H1 H2].
  apply (IH (upd preds (Z.to_nat (fst cb)) (znth (snd cb) 0))); auto. apply preds_upd; auto.
Qed.
Lemma after_app preds a b : after preds (a ++ b) = after (after preds a) b.
Proof. apply fold_left_app. Qed.

(** DC symbols of the blocks of luminance ([lum = true]) or chrominance *)
Fixpoint dc_syms (lum : bool) (preds : list Z) (blocks : list (Z * list Z)) : list Z :=
  match blocks with
  | [] => []
  | (c, b) :: r =>
      (if Bool.eqb (c =? 0) lum then [category (znth b 0 - znth preds c)] else []) ++
      dc_syms lum (upd preds (Z.to_nat c) (znth b 0)) r
  end.
Definition all_ac_syms (lum : bool) (blocks : list (Z * list Z)) : list Z :=
  flat_map blk_ac_syms (filter (fun cb => Bool.eqb (fst cb =? 0) lum) blocks).
Lemma dc_syms_app lum a : forall preds b, dc_syms lum preds (a ++ b) = dc_syms lum preds a ++ dc_syms lum (after preds a) b.
Proof.
  induction a as [|[c bl] r IH]; intros preds b; [reflexivity|]. cbn [app dc_syms after fold_left fst snd].
  rewrite IH, <- app_assoc. reflexivity.
Qed.
Lemma ac_syms_app lum a b : all_ac_syms lum (a ++ b) = all_ac_syms lum a ++ all_ac_syms lum b.
Proof. unfold all_ac_syms. rewrite filter_app. apply flat_map_app. Qed.
Lemma dc_syms_range lum blocks : forall preds, preds_ok preds -> Forall coef_ok blocks -> Forall (fun s => 0 <= s <= 11) (dc_syms lum preds blocks).
Proof.
  induction blocks as [|[c b] r IH]; intros preds HP HF; cbn [dc_syms]; [constructor|]. apply Forall_cons_iff in HF as [H1 H2].
  apply Forall_app. split; [|apply IH; auto; apply (preds_upd preds (c, b) HP H1)].
  destruct (Bool.eqb (c =? 0) lum); [|constructor]. constructor; [|constructor].
  destruct H1 as (Hc & _ & Hd & _). cbn [fst snd] in *. destruct (preds_get preds c HP Hc) as [_ Hp]. apply cat11. lia.
Qed.
Lemma all_ac_legal lum blocks : Forall coef_ok blocks -> Forall legal_ac (all_ac_syms lum blocks).
Proof.
  intros H. apply Forall_forall. intros s Hs. apply in_flat_map in Hs as (cb & Hcb & Hs). apply filter_In in Hcb as [Hcb _].
  rewrite Forall_forall in H. pose proof (blk_ac_legal cb (H cb Hcb)) as L. rewrite Forall_forall in L. auto.
Qed.

(** tables that have a code for every symbol of an interval *)
Definition covers (t : htables) (preds : list Z) (blocks : list (Z * list Z)) : Prop :=
  incl (dc_syms true preds blocks) (dc_lum_vals t) /\ incl (dc_syms false preds blocks) (dc_chrom_vals t) /\
  incl (all_ac_syms true blocks) (ac_lum_vals t) /\ incl (all_ac_syms false blocks) (ac_chrom_vals t).

Lemma blk_ac_eq c b : blk_ac_syms (c, b) = ac_syms (skipn 1 (zigzag_reorder b)) 0.
Proof. reflexivity. Qed.
(** ** encoding a run of blocks *)
Lemma flat_filter_one {A B} (f : A -> list B) p x : flat_map f (filter p [x]) = if p x then f x else [].
Proof. cbn [filter]. destruct (p x); cbn [flat_map]; rewrite ?app_nil_r; reflexivity. Qed.
Lemma all_ac_one lum cb : all_ac_syms lum [cb] = if Bool.eqb (fst cb =? 0) lum then blk_ac_syms cb else [].
Proof. exact (flat_filter_one blk_ac_syms (fun cb => Bool.eqb (fst cb =? 0) lum) cb). Qed.
Lemma covers_one t preds c b : covers t preds [(c, b)] ->
  In (category (znth b 0 - znth preds c)) (ct_dcv (tabs_of t c)) /\ incl (blk_ac_syms (c, b)) (ct_acv (tabs_of t c)).
Proof.
  unfold covers. rewrite !all_ac_one. generalize (blk_ac_syms (c, b)). intros l (C1 & C2 & C3 & C4). cbn [dc_syms fst] in *. unfold tabs_of.
  destruct (c =? 0); cbn [Bool.eqb] in *; rewrite app_nil_r in *; cbn [ct_dcv ct_acv].
  - split; [apply (C1 _ (or_introl eq_refl))|exact C3].
  - split; [apply (C2 _ (or_introl eq_refl))|exact C4].
Qed.
Lemma tabs_enc t c : tabs_ok t -> enc_ok (ct_dcb (tabs_of t c)) (ct_dcv (tabs_of t c)) (dc_codes t (c =? 0)) /\
  enc_ok (ct_acb (tabs_of t c)) (ct_acv (tabs_of t c)) (ac_codes t (c =? 0)).
Proof.
  intros (T1 & T2 & T3 & T4). unfold tabs_of, dc_codes, ac_codes. destruct (c =? 0); cbn [ct_dcb ct_dcv ct_acb ct_acv].
  - split; [exact T1|exact T3].
  - split; [exact T2|exact T4].
Qed.
Lemma encode_comp_ok t pre w b0 preds cb : tabs_ok t -> preds_ok preds -> coef_ok cb -> covers t preds [cb] -> m_rep pre w b0 ->
  exists w' bb, encode_comp t (w, preds) cb = Ok (w', upd preds (Z.to_nat (fst cb)) (znth (snd cb) 0)) /\ m_rep pre w' (b0 ++ bb) /\
    block_code (ct_dcb (tabs_of t (fst cb))) (ct_dcv (tabs_of t (fst cb))) (ct_acb (tabs_of t (fst cb))) (ct_acv (tabs_of t (fst cb)))
      (znth preds (fst cb)) (zigzag_reorder (snd cb)) bb.
Proof.
  intros HT HP HC HV Hw. destruct cb as [c b]. assert (block_ok b) as HB by exact (coef_block_ok (c, b) HC).
  destruct HC as (Hc & _ & Hd & _). cbn [fst snd] in *. destruct (preds_get preds c HP Hc) as [Eg Hp].
  apply covers_one in HV as (V1 & V2). destruct (tabs_enc t c HT) as [T1 T2].
  unfold encode_comp. rewrite Eg. cbn [rbind].
  assert (blk_syms_ok b (znth preds c) (ct_dcv (tabs_of t c)) (ct_acv (tabs_of t c))) as HS.
  { split; [lia|]. split; [exact V1|]. rewrite <- (blk_ac_eq c). exact V2. }
  destruct (encode_block_ok t (c =? 0) _ _ _ _ pre w b0 b (znth preds c) T1 T2 HB HS ltac:(lia) Hw) as (w' & bb & E & R & D).
  exists w', bb. rewrite E. split; [reflexivity|]. split; [exact R|exact D].
Qed.
Lemma covers_app t preds a b : covers t preds (a ++ b) <-> covers t preds a /\ covers t (after preds a) b.
Proof.
  unfold covers. rewrite !dc_syms_app, !ac_syms_app.
  assert (forall (x y z : list Z), incl (x ++ y) z <-> incl x z /\ incl y z) as K.
  { intros x y z. split; [intros H; apply incl_app_inv; exact H|intros [A B]; apply incl_app; auto]. }
  rewrite !K. tauto.
Qed.
Definition zzs (blocks : list (Z * list Z)) : list (Z * list Z) := map (fun cb => (fst cb, zigzag_reorder (snd cb))) blocks.
Lemma encode_blocks_ok t blocks : forall pre w b0 preds, tabs_ok t -> preds_ok preds -> Forall coef_ok blocks -> covers t preds blocks -> m_rep pre w b0 ->
  exists w' bb, fold_res (encode_comp t) blocks (w, preds) = Ok (w', after preds blocks) /\ m_rep pre w' (b0 ++ bb) /\
    interval_code (tabs_of t) preds (zzs blocks) bb.
Proof.
  induction blocks as [|cb r IH]; intros pre w b0 preds HT HP HF HC Hw.
  - exists w, []. rewrite app_nil_r. split; [reflexivity|]. split; [exact Hw|constructor].
  - apply Forall_cons_iff in HF as [H1 H2]. apply (covers_app t preds [cb] r) in HC as [C1 C2].
    destruct (encode_comp_ok t pre w b0 preds cb HT HP H1 C1 Hw) as (w1 & b1 & E1 & R1 & D1).
    cbn [fold_res]. rewrite E1. cbn [rbind].
    destruct (IH pre w1 _ _ HT (preds_upd preds cb HP H1) H2 C2 R1) as (w2 & b2 & E2 & R2 & D2).
    exists w2, (b1 ++ b2). split; [exact E2|]. split; [rewrite app_assoc; exact R2|].
    apply (iv_cons (tabs_of t) preds (fst cb) (zigzag_reorder (snd cb)) (zzs r) b1 b2); [exact D1|exact D2].
Qed.
Lemma interval_app T a : forall preds b b1 b2, interval_code T preds (zzs a) b1 -> interval_code T (after preds a) (zzs b) b2 ->
  interval_code T preds (zzs (a ++ b)) (b1 ++ b2).
Proof.
  induction a as [|cb r IH]; intros preds b b1 b2 H1 H2.
  - inversion H1; subst. exact H2.
  - cbn [zzs map app] in *. inversion H1 as [|? c zz rr x1 x2 B1 B2]; subst. rewrite <- app_assoc. apply iv_cons; [exact B1|].
    change (znth (zigzag_reorder (snd cb)) 0) with (znth (snd cb) 0) in *. apply IH; [exact B2|exact H2].
Qed.

(** ** restart intervals *)
Fixpoint groups {A} (i j : Z) (cur l : list A) : list (list A) :=
  match l with
  | [] => [cur]
  | m :: r => if (j + 1 =? i) && (0 <? zlen r) then (cur ++ [m]) :: groups i 0 [] r else groups i (j + 1) (cur ++ [m]) r
  end.
Lemma groups_0 {A} (l cur : list A) j : 0 <= j -> groups 0 j cur l = [cur ++ l].
Proof.
  revert cur j. induction l as [|m r IH]; intros cur j Hj; cbn [groups]; [rewrite app_nil_r; reflexivity|].
  destruct (Z.eqb_spec (j + 1) 0); [lia|]. cbn [andb]. rewrite IH by lia. rewrite <- app_assoc. reflexivity.
Qed.
Lemma groups_chunks {A} (i : Z) (l : list A) : forall cur, 0 < i -> zlen cur < i -> cur ++ l <> [] -> groups i (zlen cur) cur l = chunks (Z.to_nat i) (cur ++ l).
Proof.
  intros cur Hi. assert (0 < Z.to_nat i)%nat as Hi' by lia.
  assert (forall a : list A, a <> [] -> zlen a <= i -> chunks (Z.to_nat i) a = [a]) as One.
  { intros a Ha La. unfold chunks. destruct a as [|x t]; [congruence|]. cbn [length chunks_fuel].
    rewrite firstn_all2, skipn_all2 by (unfold zlen in La; cbn [length] in *; lia). destruct (length t); reflexivity. }
  revert cur. induction l as [|m r IH]; intros cur HL HN; cbn [groups].
  - rewrite app_nil_r in *. rewrite One by (auto; lia). reflexivity.
  - destruct (Z.eqb_spec (zlen cur + 1) i) as [E|N]; cbn [andb].
    + destruct (Z.ltb_spec 0 (zlen r)) as [P|P].
      * change (groups i 0 [] r) with (groups i (zlen (@nil A)) [] r).
        rewrite (IH []); [|rewrite zlen_nil; lia|destruct r; [rewrite zlen_nil in P; lia|discriminate]]. cbn [app].
        rewrite (chunks_cons (Z.to_nat i) (cur ++ m :: r)) by (auto; destruct cur; discriminate).
        replace (cur ++ m :: r) with ((cur ++ [m]) ++ r) by (rewrite <- app_assoc; reflexivity).
        assert (Z.to_nat i = length (cur ++ [m])) as Eln by (rewrite app_length; unfold zlen in *; cbn [length]; lia).
        assert (firstn (Z.to_nat i) ((cur ++ [m]) ++ r) = cur ++ [m]) as -> by (rewrite Eln, firstn_app, firstn_all, Nat.sub_diag, firstn_O, app_nil_r; reflexivity).
        assert (skipn (Z.to_nat i) ((cur ++ [m]) ++ r) = r) as -> by (rewrite Eln, skipn_app, skipn_all, Nat.sub_diag; reflexivity).
        reflexivity.
      * assert (r = []) as -> by (destruct r; auto; rewrite zlen_cons in P; pose proof (zlen_nonneg r); lia).
        cbn [groups]. rewrite One; [reflexivity|destruct cur; discriminate|rewrite zlen_app; change (zlen [m]) with 1; lia].
    + rewrite <- (app_assoc cur [m] r) || idtac. replace (cur ++ m :: r) with ((cur ++ [m]) ++ r) by (rewrite <- app_assoc; reflexivity).
      replace (zlen cur + 1) with (zlen (cur ++ [m])) by (rewrite zlen_app; reflexivity).
      apply IH; [rewrite zlen_app; change (zlen [m]) with 1; lia|destruct cur; discriminate].
Qed.
Definition ri_val (ri : option Z) : Z := match ri with Some i => i | None => 0 end.
Lemma groups_intervals {A} ri (l : list A) : match ri with Some i => 0 < i | None => True end -> l <> [] -> groups (ri_val ri) 0 [] l = intervals ri l.
Proof.
  intros H HN. destruct ri as [i|]; cbn [ri_val intervals].
  - change (groups i 0 [] l) with (groups i (zlen (@nil A)) [] l). apply (groups_chunks i l []); auto.
  - rewrite groups_0 by lia. reflexivity.
Qed.
Lemma restart_cond ri k j {A} (r : list A) : match ri with Some i => 0 < i /\ k mod i = j | None => 0 <= j end ->
  is_restart ri (k + 1) (k + 1 + zlen r) = (j + 1 =? ri_val ri) && (0 <? zlen r).
Proof.
  intros H. unfold is_restart, ri_val. destruct ri as [i|].
  - destruct H as [Hi Hk]. destruct (Z.gtb_spec i 0); [|lia]. cbn [andb].
    replace (k + 1 <? k + 1 + zlen r) with (0 <? zlen r) by (destruct (Z.ltb_spec 0 (zlen r)), (Z.ltb_spec (k + 1) (k + 1 + zlen r)); lia).
    f_equal. pose proof (Z.mod_pos_bound k i Hi) as B. rewrite Z.add_mod, Hk by lia.
    destruct (Z.eq_dec i 1) as [->|N1]; [rewrite Z.mod_1_r; assert (j = 0) as -> by lia; reflexivity|].
    rewrite (Z.mod_small 1) by lia. destruct (Z.eqb_spec (j + 1) i) as [->|N]; [rewrite Z.mod_same by lia; reflexivity|].
    rewrite Z.mod_small by lia. destruct (Z.eqb_spec (j + 1) 0); [lia|reflexivity].
  - destruct (Z.eqb_spec (j + 1) 0); [lia|reflexivity].
Qed.
Lemma restart_step ri k j : match ri with Some i => 0 < i /\ k mod i = j | None => 0 <= j end ->
  (j + 1 =? ri_val ri = false -> match ri with Some i => 0 < i /\ (k + 1) mod i = j + 1 | None => 0 <= j + 1 end) /\
  (j + 1 =? ri_val ri = true -> match ri with Some i => 0 < i /\ (k + 1) mod i = 0 | None => 0 <= 0 end).
Proof.
  unfold ri_val. destruct ri as [i|]; [|lia]. intros [Hi Hk]. pose proof (Z.mod_pos_bound k i Hi) as B.
  destruct (Z.eqb_spec (j + 1) i) as [E|N]; (split; [intros; try discriminate|intros; try discriminate]).
  - split; [exact Hi|]. rewrite <- Zplus_mod_idemp_l, Hk, E. apply Z.mod_same. lia.
  - split; [exact Hi|]. rewrite <- Zplus_mod_idemp_l, Hk. apply Z.mod_small. lia.
Qed.

Lemma m_rep_segment pre w bits : m_rep pre w bits -> exists seg, m_buf (m_flush w) = pre ++ seg /\ m_finish w = pre ++ seg /\ segment seg bits /\
  forall mk, m_rep (pre ++ seg ++ mk) (m_write_bytes (m_flush w) mk) [].
Proof.
  intros Hw. destruct (m_finish_spec pre w bits Hw) as (seg & l & E & Hb & Hu & Hl). exists seg.
  split; [exact E|]. split; [exact E|]. split; [split; [exact Hb|exists l; auto]|]. intros mk.
  assert (m_pos (m_flush w) = 8 /\ m_cur (m_flush w) = 0) as [P8 C0].
  { unfold m_flush. destruct (Z.ltb_spec (m_pos w) 8) as [L|G]; [cbn; auto|].
    destruct Hw as (s & x & _ & _ & _ & Hp & Hc & Hm & _). assert (m_pos w = 8) as E8 by lia. split; [exact E8|]. rewrite E8 in Hm.
    change (2 ^ 8) with 256 in Hm. rewrite Z.mod_small in Hm by lia. exact Hm. }
  exists [], []. unfold m_write_bytes. cbn [m_buf m_pos m_cur]. rewrite P8, C0. unfold m_finish in E. rewrite E, <- !app_assoc, app_nil_r.
  split; [reflexivity|]. split; [reflexivity|]. split; [constructor|]. split; [lia|]. split; [lia|]. split; [reflexivity|reflexivity].
Qed.

Definition flat (mcus : list (list (Z * list Z))) : list (Z * list Z) := concat mcus.
Lemma concat_snoc {A} (l : list (list A)) x : concat (l ++ [x]) = concat l ++ x.
Proof. rewrite concat_app. cbn. rewrite app_nil_r. reflexivity. Qed.

Lemma scan_mcus_ok t ri mcus : tabs_ok t -> forall k j idx pre w bits cur,
  match ri with Some i => 0 < i /\ k mod i = j | None => 0 <= j end -> 0 <= idx < 8 ->
  Forall (Forall coef_ok) cur -> Forall (Forall coef_ok) mcus ->
  Forall (fun iv => covers t [0; 0; 0] (concat iv)) (groups (ri_val ri) j cur mcus) ->
  m_rep pre w bits -> interval_code (tabs_of t) [0; 0; 0] (zzs (concat cur)) bits ->
  exists w' out, scan_mcus t ri (k + zlen mcus) k mcus (mkss w (after [0; 0; 0] (concat cur)) idx) = Ok w' /\
    m_finish w' = pre ++ out /\
    scan_code (tabs_of t) idx (map (fun iv => zzs (concat iv)) (groups (ri_val ri) j cur mcus)) out.
Proof.
  intros HT. induction mcus as [|m r IH]; intros k j idx pre w bits cur HK HI HCur HM HC Hw HV.
  - cbn [scan_mcus groups map ss_w] in *. destruct (m_rep_segment pre w bits Hw) as (seg & _ & E & S & _).
    exists w, seg. split; [reflexivity|]. split; [exact E|]. apply (sc_last _ idx _ bits); auto.
  - cbn [scan_mcus ss_w ss_preds ss_rst]. apply Forall_cons_iff in HM as [Hm Hr].
    assert (Forall coef_ok (concat cur)) as HCC.
    { apply Forall_concat. exact HCur. }
    assert (covers t [0; 0; 0] (concat (cur ++ [m]))) as HCm.
    { cbn [groups] in HC. destruct ((j + 1 =? ri_val ri) && (0 <? zlen r)) eqn:Eg.
      - apply Forall_cons_iff in HC as [H1 _]. exact H1.
      - assert (forall l j cur, Forall (fun iv => covers t [0; 0; 0] (concat iv)) (groups (ri_val ri) j cur l) -> covers t [0; 0; 0] (concat cur)) as K.
        { induction l as [|x l IHl]; intros j0 cur0 H0; cbn [groups] in H0.
          - apply Forall_cons_iff in H0 as [H1 _]. exact H1.
          - assert (covers t [0; 0; 0] (concat (cur0 ++ [x]))) as H1.
            { destruct ((j0 + 1 =? ri_val ri) && (0 <? zlen l)); [apply Forall_cons_iff in H0 as [H1 _]; exact H1|apply (IHl _ _ H0)]. }
            rewrite concat_snoc in H1. apply covers_app in H1 as [H1 _]. exact H1. }
        apply (K _ _ _ HC). }
    rewrite concat_snoc in HCm. pose proof HCm as HCm'. apply covers_app in HCm as [_ HCm2].
    destruct (encode_blocks_ok t m pre w bits (after [0; 0; 0] (concat cur)) HT (preds_after _ _ preds0 HCC) Hm HCm2 Hw) as (w1 & b1 & E1 & R1 & D1).
    rewrite E1. cbn [rbind]. pose proof (interval_app _ _ _ _ _ _ HV D1) as HV1. rewrite <- concat_snoc in HV1.
    unfold handle_restart. rewrite zlen_cons, Z.add_assoc, (restart_cond ri k j r HK).
    destruct (restart_step ri k j HK) as [RS1 RS2]. cbn [groups] in HC |- *.
    destruct ((j + 1 =? ri_val ri) && (0 <? zlen r)) eqn:Eg; cbn [ss_w ss_preds ss_rst].
    + apply andb_prop in Eg as [Eg1 Eg2]. destruct (m_rep_segment pre w1 _ R1) as (seg & _ & _ & S & MK).
      apply Forall_cons_iff in HC as [_ HC].
      assert (Z.land idx 7 = idx) as El by (change 7 with (2 ^ 3 - 1); rewrite land_mask by lia; apply Z.mod_small; change (2 ^ 3) with 8; lia).
      assert (Z.land (idx + 1) 7 = (idx + 1) mod 8) as El1 by (change 7 with (2 ^ 3 - 1); rewrite land_mask by lia; reflexivity).
      rewrite El, El1. pose proof (Z.mod_pos_bound (idx + 1) 8 ltac:(lia)) as BI.
      destruct (IH (k + 1) 0 ((idx + 1) mod 8) _ _ [] [] (RS2 Eg1) BI ltac:(constructor) Hr HC (MK [255; 208 + idx]) ltac:(constructor)) as (w' & out & E' & F' & S').
      exists w', (seg ++ [255; 208 + idx] ++ out). split; [exact E'|]. split; [rewrite F', <- !app_assoc; reflexivity|].
      cbn [map]. apply (sc_more _ idx _ (bits ++ b1)); auto.
    + rewrite <- after_app. rewrite <- concat_snoc.
      assert (match ri with Some i => 0 < i /\ (k + 1) mod i = (if j + 1 =? ri_val ri then 0 else j + 1) | None => 0 <= j + 1 end) as HK1.
      { destruct (j + 1 =? ri_val ri) eqn:Ej; [|apply RS1; reflexivity]. destruct ri; [apply RS2; reflexivity|lia]. }
      destruct (j + 1 =? ri_val ri) eqn:Ej.
      * cbn [andb] in Eg. assert (r = []) as -> by (destruct r; auto; rewrite zlen_cons in Eg; pose proof (zlen_nonneg r); destruct (Z.ltb_spec 0 (1 + zlen r)); [discriminate|lia]).
        cbn [scan_mcus groups map ss_w] in *. destruct (m_rep_segment pre w1 _ R1) as (seg & _ & E & S & _).
        exists w1, seg. split; [reflexivity|]. split; [exact E|]. apply (sc_last _ idx _ (bits ++ b1)); auto.
      * destruct (IH (k + 1) (j + 1) idx pre w1 (bits ++ b1) (cur ++ [m]) HK1 HI) as (w' & out & E' & F' & S'); auto.
        { apply Forall_app. split; [exact HCur|]. constructor; [exact Hm|constructor]. }
        exists w', out. auto.
Qed.

Theorem encode_scan_ok t ri mcus : tabs_ok t -> match ri with Some i => 0 < i | None => True end -> mcus <> [] ->
  Forall (Forall coef_ok) mcus -> Forall (fun iv => covers t [0; 0; 0] (concat iv)) (intervals ri mcus) ->
  exists out, encode_scan t ri mcus = Ok out /\ scan_code (tabs_of t) 0 (map (fun iv => zzs (concat iv)) (intervals ri mcus)) out.
Proof.
  intros HT HR HN HF HC. rewrite <- groups_intervals in * by auto.
  destruct (scan_mcus_ok t ri mcus HT 0 0 0 [] m_new [] []) as (w' & out & E & F & S); auto.
  - destruct ri as [i|]; [split; [exact HR|apply Z.mod_0_l; lia]|lia].
  - lia.
  - apply m_rep_new.
  - constructor.
  - exists out. unfold encode_scan. cbn [concat after fold_left] in E. rewrite Z.add_0_l in E. rewrite E. cbn [rbind]. cbn [app] in F. rewrite F. auto.
Qed.
