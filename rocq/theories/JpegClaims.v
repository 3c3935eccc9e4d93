(** Lemmas for the property theorems about JPEG that need more than one part
    of the model. *)
From Verif Require Import Base BitsModel BitsProofs CanonSpec CanonProofs HuffProofs PngFilterModel PngPaletteModel PngFilterProofs MsbSpec MsbProofs JpegBaseModel JpegBaseProofs JpegHuffModel JpegDecModel JpegSpec JpegTabProofs JpegSymProofs JpegBlockProofs JpegOptProofs JpegEncModel JpegEncProofs JpegCountProofs JpegImgSpec JpegMcuProofs JpegScanProofs JpegFileSpec JpegTop JpegProgSpec JpegProgProofs JpegApi.

(** ** C33: a sequence of blocks *)
(** the decoder's block reader, called for the components [cs] in turn *)
Fixpoint read_blocks (T : Z -> ctabs) (cs : list Z) (preds : list Z) (r : mr) : res (list (list Z)) :=
  match cs with
  | [] => Ok []
  | c :: l =>
      let* (blk, pred, r) := dec_block (jtab_build (ct_dcb (T c)) (ct_dcv (T c))) (jtab_build (ct_acb (T c)) (ct_acv (T c))) r (znth preds c) in
      let* rest := read_blocks T l (upd preds (Z.to_nat c) pred) r in Ok (blk :: rest)
  end.
Lemma read_blocks_ok t blocks : tabs_ok t -> Forall coef_ok blocks -> forall preds bits r rest,
  interval_code (tabs_of t) preds (zzs blocks) bits -> mr_rep r (bits ++ rest) ->
  read_blocks (tabs_of t) (map fst blocks) preds r = Ok (map (fun cb => zigzag_reorder (snd cb)) blocks).
Proof.
  intros HT HF. induction blocks as [|[c b] l IH]; intros preds bits r rest HI Hr; [reflexivity|].
  apply Forall_cons_iff in HF as [Hb HF]. cbn [zzs map fst snd] in HI. inversion HI as [|? ? ? ? b1 b2 HB1 HI2]; subst.
  rewrite <- app_assoc in Hr. destruct (tabs_enc t c HT) as [[TD _] [TA _]].
  assert (- 2 ^ 15 <= znth (zigzag_reorder b) 0 < 2 ^ 15) as HZ.
  { destruct Hb as (_ & _ & Hd & _). cbn [snd] in Hd. change (znth (zigzag_reorder b) 0) with (znth b 0). change (2 ^ 15) with 32768. lia. }
  destruct (dec_block_ok _ _ _ _ _ _ _ _ _ TD TA HZ HB1 Hr) as (r' & E & R').
  cbn [map read_blocks fst snd]. rewrite E. cbn [rbind]. rewrite (IH HF _ _ _ _ HI2 R'). reflexivity.
Qed.
Theorem blocks_roundtrip t blocks : tabs_ok t -> Forall coef_ok blocks -> covers t [0; 0; 0] blocks ->
  exists w preds, fold_res (encode_comp t) blocks (m_new, [0; 0; 0]) = Ok (w, preds) /\
    read_blocks (tabs_of t) (map fst blocks) [0; 0; 0] (mr_new (m_finish w)) = Ok (map (fun cb => zigzag_reorder (snd cb)) blocks).
Proof.
  intros HT HF HC. destruct (encode_blocks_ok t blocks [] m_new [] [0; 0; 0] HT preds0 HF HC m_rep_new) as (w & bb & E & R & I).
  cbn [app] in R. destruct (m_finish_spec [] w bb R) as (seg & l & EF & HB & HU & HL). exists w, (after [0; 0; 0] blocks). split; [exact E|].
  rewrite EF. cbn [app]. pose proof (mr_rep_new seg l HB HU) as MR. rewrite HL in MR. unfold pad_ones in MR.
  exact (read_blocks_ok t blocks HT HF _ bb _ _ I MR).
Qed.
Theorem blocks_roundtrip_std blocks : Forall coef_ok blocks ->
  exists t w preds, std_tables = Ok t /\ fold_res (encode_comp t) blocks (m_new, [0; 0; 0]) = Ok (w, preds) /\
    read_blocks (tabs_of t) (map fst blocks) [0; 0; 0] (mr_new (m_finish w)) = Ok (map (fun cb => zigzag_reorder (snd cb)) blocks).
Proof.
  intros HF. destruct std_tables_ok as (t & Es & Ts & V1 & V2 & V3 & V4 & _).
  assert (Forall (Forall (Forall coef_ok)) [[blocks]]) as HI by (constructor; [constructor; [exact HF|constructor]|constructor]).
  pose proof (std_covers _ HI t V1 V2 V3 V4) as HC. apply Forall_cons_iff in HC as [HC _]. cbn [concat] in HC. rewrite app_nil_r in HC.
  destruct (blocks_roundtrip t blocks Ts HF HC) as (w & preds & E & R). exists t, w, preds. auto.
Qed.
(** zigzag order loses nothing *)
Lemma zigzag_reorder_inj a b : length a = 64%nat -> length b = 64%nat -> zigzag_reorder a = zigzag_reorder b -> a = b.
Proof.
  intros Ha Hb E. apply (nth_ext a b 0 0); [congruence|]. intros n Hn. rewrite Ha in Hn.
  assert (exists k, 0 <= k < 64 /\ znth ZIGZAG k = Z.of_nat n) as (k & Hk & Ek).
  { assert (In (Z.of_nat n) ZIGZAG) as Hin by (eapply Permutation.Permutation_in; [symmetry; exact zigzag_perm|apply PngFilterProofs.in_idxs; lia]).
    apply (In_nth _ _ 0) in Hin as (k & Hk & Ek). exists (Z.of_nat k). change (length ZIGZAG) with 64%nat in Hk. split; [lia|]. unfold znth. rewrite Nat2Z.id. exact Ek. }
  assert (forall l, znth (zigzag_reorder l) k = nth n l 0) as G.
  { intros l. unfold zigzag_reorder, znth at 1. rewrite (nth_indep _ 0 (znth l 0)) by (rewrite map_length; change (length ZIGZAG) with 64%nat; lia).
    rewrite (map_nth (fun z => znth l z) ZIGZAG 0). fold (znth ZIGZAG k). unfold znth in Ek. unfold znth. rewrite Ek, Nat2Z.id. reflexivity. }
  rewrite <- (G a), <- (G b), E. reflexivity.
Qed.

(** ** C34: what a legal table gives *)
Definition valid_code (bits vals : list Z) (counted : Z -> Prop) : Prop :=
  (forall s, counted s -> exists w, sym_code bits vals s w) /\
  (forall s w, sym_code bits vals s w -> counted s /\ (1 <= length w <= 16)%nat /\ In false w) /\
  (forall s1 s2 w1 w2 r, sym_code bits vals s1 w1 -> sym_code bits vals s2 w2 -> w2 = w1 ++ r -> s1 = s2 /\ r = []).
Lemma bits_of_ones k : bits_of k (2 ^ Z.of_nat k - 1) = repeat true k.
Proof.
  induction k as [|k IH]; [reflexivity|]. cbn [bits_of repeat]. rewrite Nat2Z.inj_succ, Z.pow_succ_r by lia.
  replace (2 * 2 ^ Z.of_nat k - 1) with (1 + 2 * (2 ^ Z.of_nat k - 1)) by lia. rewrite Z.odd_add_mul_2. f_equal.
  replace ((1 + 2 * (2 ^ Z.of_nat k - 1)) / 2) with (2 ^ Z.of_nat k - 1); [exact IH|].
  symmetry. rewrite Z.mul_comm, Z.div_add by lia. reflexivity.
Qed.
Lemma all_true_msb n x : 0 <= n -> 0 <= x -> x + 1 < 2 ^ n -> In false (msb n x).
Proof.
  intros Hn H0 H. destruct (in_dec Bool.bool_dec false (msb n x)) as [I|N]; [exact I|]. exfalso.
  assert (msb n x = msb n (2 ^ n - 1)) as E.
  { assert (forall l, ~ In false l -> l = repeat true (length l)) as A.
    { intros l; induction l as [|b l IH]; intros K; [reflexivity|]. cbn [repeat length]. destruct b; [f_equal; apply IH; intros X; apply K; right; exact X|exfalso; apply K; left; reflexivity]. }
    rewrite (A _ N). rewrite (A (msb n (2 ^ n - 1))); [rewrite !msb_length; reflexivity|].
    unfold msb. rewrite <- in_rev. intros K. pose proof (bits_of_ones (Z.to_nat n)) as O. rewrite Z2Nat.id in O by lia. rewrite O in K.
    apply repeat_spec in K. discriminate K. }
  unfold msb in E. apply (f_equal (@rev bool)) in E. rewrite !rev_involutive in E. apply bits_of_inj in E; rewrite ?Z2Nat.id by lia; lia.
Qed.
Lemma tab_valid bits vals : tab_ok bits vals -> valid_code bits vals (fun s => In s vals).
Proof.
  intros T. pose proof (t_len bits vals T) as HL. pose proof (t_vlen bits vals T) as HV. split; [|split].
  - intros s Hs. apply (In_nth _ _ 0) in Hs as (k & Hk & E). exists (code_word (spec_sizes bits) k), k. auto.
  - intros s w (k & Hk & E & ->). split; [rewrite <- E; apply nth_In; exact Hk|]. rewrite (spec_sizes_eq bits HL). rewrite HV in Hk.
    pose proof (t_size bits vals T k Hk) as S. pose proof (t_canon bits vals T k Hk) as [C1 C2]. rewrite code_word_length.
    split; [lia|]. rewrite code_word_msb. apply all_true_msb; lia.
  - intros s1 s2 w1 w2 r (k1 & H1 & E1 & ->) (k2 & H2 & E2 & ->) E. rewrite (spec_sizes_eq bits HL) in E. rewrite HV in H1, H2.
    pose proof (t_nn bits vals T) as NN. pose proof (t_kraft bits vals T) as HK.
    destruct (canon_unique 16 (huff_sizes bits) k2 k1 [] r ltac:(lia) (code_ok16 bits HL NN HK)) as [-> <-]; auto.
    + exact (has_code_all bits HL NN k2 H2).
    + exact (has_code_all bits HL NN k1 H1).
    + rewrite app_nil_r. exact E.
    + rewrite <- E1, <- E2. auto.
Qed.
Theorem optimised_table counts : Forall (fun c => 0 <= c) counts -> fold_right Z.add 0 counts < 2 ^ 64 -> zlen counts <= 256 ->
  zlen (filter (fun c => c >? 0) counts) <= 255 ->
  exists x, build_bits_vals counts = Ok x /\
    forall bits vals, x = Some (bits, vals) -> valid_code bits vals (fun s => 0 <= s < zlen counts /\ 0 < znth counts s).
Proof.
  intros HP HS HN H255. destruct (build_bits_vals_ok counts HP HS HN H255) as (x & E & HX). exists x. split; [exact E|].
  intros bits vals ->. destruct HX as (T & _ & HI). destruct (tab_valid bits vals T) as (A & B & C). split; [|split; [|exact C]].
  - intros s Hs. apply A, HI, Hs.
  - intros s w Hw. destruct (B s w Hw) as [Hin R]. split; [apply HI, Hin|exact R].
Qed.
