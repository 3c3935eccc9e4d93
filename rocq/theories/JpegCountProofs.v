(** The statistics gathered for the optimised Huffman tables, and the tables
    chosen by the encoder: they have a code for every symbol of the scan. *)
From Verif Require Import Base BitsModel BitsProofs CanonSpec CanonProofs HuffModel HuffProofs DeflateProofs Lz77Model PngFilterModel PngPaletteModel JpegBaseModel JpegHuffModel JpegDecModel JpegEncModel JpegBaseProofs MsbSpec MsbProofs JpegSpec JpegTabProofs JpegSymProofs JpegBlockProofs JpegOptProofs JpegEncProofs.
From Coq Require Import Permutation.

Definition bumps (c syms : list Z) : list Z := fold_left (fun c s => upd c (Z.to_nat s) (znth c s + 1)) syms c.
Lemma bumps_app c a b : bumps c (a ++ b) = bumps (bumps c a) b.
Proof. apply fold_left_app. Qed.
Lemma bumps_len l : forall c, length (bumps c l) = length c.
Proof. induction l as [|s r IH]; intros c; [reflexivity|]. cbn [bumps fold_left]. fold (bumps (upd c (Z.to_nat s) (znth c s + 1)) r). rewrite IH, upd_length. reflexivity. Qed.
Lemma bumps_cons c s l : bumps c (s :: l) = bumps (upd c (Z.to_nat s) (znth c s + 1)) l.
Proof. reflexivity. Qed.
Lemma znth_nonneg c s : Forall (fun x => 0 <= x) c -> 0 <= znth c s.
Proof.
  intros H. unfold znth. apply (Forall_nth_d (fun x => 0 <= x)); [exact H|lia].
Qed.
Lemma bumps_nonneg l : forall c, Forall (fun x => 0 <= x) c -> Forall (fun x => 0 <= x) (bumps c l).
Proof. induction l as [|s r IH]; intros c H; [exact H|]. rewrite bumps_cons. apply IH. apply Forall_upd; auto. pose proof (znth_nonneg c s H). lia. Qed.
Lemma bumps_sum l : forall c, Forall (fun s => 0 <= s < zlen c) l -> lsum (bumps c l) = lsum c + zlen l.
Proof.
  induction l as [|s r IH]; intros c H; [cbn [bumps fold_left]; rewrite zlen_nil; lia|]. apply Forall_cons_iff in H as [Hs Hr].
  rewrite bumps_cons, IH by (unfold zlen in *; rewrite upd_length; exact Hr).
  rewrite lsum_upd by (unfold zlen in Hs; lia). rewrite zlen_cons. unfold znth. lia.
Qed.
Lemma bump_znth c s i : 0 <= s < zlen c -> 0 <= i -> znth (upd c (Z.to_nat s) (znth c s + 1)) i = znth c i + (if s =? i then 1 else 0).
Proof.
  intros Hs Hi. unfold znth at 1. destruct (Z.eqb_spec s i) as [->|N].
  - rewrite nth_upd_eq by (unfold zlen in Hs; lia). reflexivity.
  - rewrite nth_upd_neq by lia. unfold znth. lia.
Qed.
Lemma bumps_mono l i : 0 <= i -> forall c, Forall (fun s => 0 <= s < zlen c) l -> znth c i <= znth (bumps c l) i.
Proof.
  intros Hi. induction l as [|s r IH]; intros c H; [change (bumps c []) with c; lia|]. apply Forall_cons_iff in H as [Hs Hr]. rewrite bumps_cons.
  specialize (IH (upd c (Z.to_nat s) (znth c s + 1))). rewrite bump_znth in IH by auto.
  unfold zlen in IH. rewrite upd_length in IH. specialize (IH Hr). destruct (s =? i); lia.
Qed.
Lemma bumps_pos l i : forall c, Forall (fun x => 0 <= x) c -> Forall (fun s => 0 <= s < zlen c) l -> In i l -> 0 < znth (bumps c l) i.
Proof.
  induction l as [|s r IH]; intros c H0 H HI; [destruct HI|]. apply Forall_cons_iff in H as [Hs Hr]. rewrite bumps_cons.
  assert (Forall (fun s0 => 0 <= s0 < zlen (upd c (Z.to_nat s) (znth c s + 1))) r) as Hr' by (unfold zlen; rewrite upd_length; exact Hr).
  assert (Forall (fun x => 0 <= x) (upd c (Z.to_nat s) (znth c s + 1))) as H0' by (apply Forall_upd; auto; pose proof (znth_nonneg c s H0); lia).
  destruct HI as [->|HI]; [|apply IH; auto].
  pose proof (bumps_mono r i ltac:(lia) _ Hr') as M. rewrite bump_znth, Z.eqb_refl in M by (auto; lia). pose proof (znth_nonneg c i H0). lia.
Qed.
Lemma bumps_none l i : 0 <= i -> forall c, Forall (fun s => 0 <= s < zlen c) l -> ~ In i l -> znth (bumps c l) i = znth c i.
Proof.
  intros Hi. induction l as [|s r IH]; intros c H HI; [reflexivity|]. apply Forall_cons_iff in H as [Hs Hr]. rewrite bumps_cons.
  rewrite IH; [|unfold zlen; rewrite upd_length; exact Hr|intros X; apply HI; right; exact X].
  rewrite bump_znth by auto. destruct (Z.eqb_spec s i) as [->|]; [exfalso; apply HI; left; reflexivity|lia].
Qed.
Lemma nsyms_le l : nsyms l <= zlen l.
Proof. unfold nsyms. induction l as [|x r IH]; [reflexivity|]. cbn [filter]. destruct (x >? 0); rewrite !zlen_cons; lia. Qed.
Lemma nsyms_lt l : forall i, (i < length l)%nat -> nth i l 0 <= 0 -> nsyms l < zlen l.
Proof.
  induction l as [|x r IH]; intros i Hi H0; cbn [length] in Hi; [lia|]. unfold nsyms in *. cbn [filter]. destruct i as [|i]; cbn [nth] in H0.
  - destruct (Z.gtb_spec x 0); [lia|]. rewrite zlen_cons. pose proof (nsyms_le r). unfold nsyms in *. lia.
  - specialize (IH i ltac:(lia) H0). destruct (x >? 0); rewrite ?zlen_cons; lia.
Qed.

(** ** counting follows the coding *)
Lemma bump_ok c s : 0 <= s < zlen c -> bump c s = Ok (bumps c [s]).
Proof. intros H. unfold bump. rewrite (get_ok c s 0) by exact H. reflexivity. Qed.
Lemma count_zrl_ok f : forall ac z, zlen ac = 256 -> 0 <= z < 16 * (Z.of_nat f + 1) ->
  count_zrl f ac z = Ok (bumps ac (repeat 240 (Z.to_nat (z / 16))), z mod 16).
Proof.
  induction f as [|f IH]; intros ac z HL Hz.
  - unfold count_zrl. destruct (Z.geb_spec z 16); [lia|]. rewrite Z.div_small, Z.mod_small by lia. reflexivity.
  - cbn [count_zrl]. destruct (Z.geb_spec z 16) as [G|L].
    + rewrite bump_ok by lia. cbn [rbind]. rewrite IH; [|unfold zlen; rewrite bumps_len; exact HL|lia].
      replace (z / 16) with ((z - 16) / 16 + 1) by (replace z with (z - 16 + 1 * 16) at 2 by lia; rewrite Z.div_add by lia; reflexivity).
      replace (z mod 16) with ((z - 16) mod 16) by (replace z with (z - 16 + 1 * 16) at 2 by lia; rewrite Z.mod_add by lia; reflexivity).
      pose proof (Z.div_pos (z - 16) 16 ltac:(lia) ltac:(lia)).
      replace (Z.to_nat ((z - 16) / 16 + 1)) with (S (Z.to_nat ((z - 16) / 16))) by lia. reflexivity.
    + rewrite Z.div_small, Z.mod_small by lia. reflexivity.
Qed.
Lemma count_ac_ok l : forall ac z, zlen ac = 256 -> 0 <= z -> z + zlen l <= 63 -> Forall (fun a => Z.abs a <= 1023) l ->
  count_ac ac l z = Ok (bumps ac (ac_syms l z)).
Proof.
  induction l as [|a r IH]; intros ac z HL Hz HB H; cbn [count_ac ac_syms].
  - destruct (z >? 0); [apply bump_ok; lia|reflexivity].
  - rewrite zlen_cons in HB. pose proof (zlen_nonneg r). apply Forall_cons_iff in H as [Ha Hr].
    destruct (Z.eqb_spec a 0) as [->|N]; [apply IH; auto; lia|].
    rewrite count_zrl_ok by (auto; lia). cbn [rbind]. pose proof (Z.mod_pos_bound z 16 ltac:(lia)). pose proof (cat10 a N Ha).
    rewrite rs_sym by lia.
    rewrite bump_ok by (unfold zlen in *; rewrite bumps_len; lia). cbn [rbind].
    rewrite IH; auto; [|unfold zlen in *; rewrite !bumps_len; exact HL|lia|lia].
    rewrite <- !bumps_app. reflexivity.
Qed.
Lemma count_block_ok cb prev dc ac : coef_ok cb -> -1024 <= prev <= 1023 -> zlen dc = 12 -> zlen ac = 256 ->
  count_block (snd cb) prev dc ac = Ok (znth (snd cb) 0, bumps dc [category (znth (snd cb) 0 - prev)], bumps ac (blk_ac_syms cb)).
Proof.
  intros (_ & HL & HD & HA) Hp Hd Ha. unfold count_block. change (znth (zigzag_reorder (snd cb)) 0) with (znth (snd cb) 0).
  unfold i16. replace ((-2 ^ 15 <=? znth (snd cb) 0 - prev) && (znth (snd cb) 0 - prev <? 2 ^ 15)) with true.
  2: { symmetry. apply andb_true_iff. change (2 ^ 15) with 32768. split; lia. }
  cbn [rbind]. rewrite bump_ok by (pose proof (cat11 (znth (snd cb) 0 - prev) ltac:(lia)); lia). cbn [rbind].
  assert (blk_ac_syms cb = ac_syms (skipn 1 (zigzag_reorder (snd cb))) 0) as -> by (destruct cb; apply blk_ac_eq).
  rewrite count_ac_ok; [generalize (ac_syms (skipn 1 (zigzag_reorder (snd cb))) 0); intros l; reflexivity|exact Ha|lia|rewrite zigzag_skip; lia|apply zigzag_ac; auto].
Qed.

Definition addn (n : counts) (preds : list Z) (blocks : list (Z * list Z)) : counts :=
  mkcounts (bumps (n_dcl n) (dc_syms true preds blocks)) (bumps (n_dcc n) (dc_syms false preds blocks))
           (bumps (n_acl n) (all_ac_syms true blocks)) (bumps (n_acc n) (all_ac_syms false blocks)).
Definition counts_ok (n : counts) : Prop := zlen (n_dcl n) = 12 /\ zlen (n_dcc n) = 12 /\ zlen (n_acl n) = 256 /\ zlen (n_acc n) = 256.
Lemma addn_ok n preds blocks : counts_ok n -> counts_ok (addn n preds blocks).
Proof. intros (A & B & C & D). unfold counts_ok, addn, zlen in *. cbn [n_dcl n_dcc n_acl n_acc]. rewrite !bumps_len. auto. Qed.
Lemma addn_app n preds a b : addn (addn n preds a) (after preds a) b = addn n preds (a ++ b).
Proof. unfold addn. cbn [n_dcl n_dcc n_acl n_acc]. rewrite <- !bumps_app, <- !dc_syms_app, <- !ac_syms_app. reflexivity. Qed.
Lemma addn_nil n preds : addn n preds [] = n.
Proof. destruct n. reflexivity. Qed.
Lemma count_comp_ok preds n cb : preds_ok preds -> coef_ok cb -> counts_ok n ->
  count_comp (preds, n) cb = Ok (after preds [cb], addn n preds [cb]).
Proof.
  intros HP HC (N1 & N2 & N3 & N4). destruct cb as [c b]. pose proof HC as (Hc & _). cbn [fst] in Hc. destruct (preds_get preds c HP Hc) as [Eg Hp].
  unfold count_comp. rewrite Eg. cbn [rbind]. unfold addn. rewrite !all_ac_one. cbn [after fold_left fst snd dc_syms].
  destruct (c =? 0); cbn [Bool.eqb].
  - pose proof (count_block_ok (c, b) (znth preds c) _ _ HC Hp N1 N3) as E. cbn [snd] in E. rewrite E. cbn [rbind]. rewrite !app_nil_r. reflexivity.
  - pose proof (count_block_ok (c, b) (znth preds c) _ _ HC Hp N2 N4) as E. cbn [snd] in E. rewrite E. cbn [rbind]. rewrite !app_nil_r. reflexivity.
Qed.
Lemma count_blocks_ok blocks : forall preds n, preds_ok preds -> Forall coef_ok blocks -> counts_ok n ->
  fold_res count_comp blocks (preds, n) = Ok (after preds blocks, addn n preds blocks).
Proof.
  induction blocks as [|cb r IH]; intros preds n HP HF HN; [rewrite addn_nil; reflexivity|]. apply Forall_cons_iff in HF as [H1 H2].
  cbn [fold_res]. rewrite count_comp_ok by auto. cbn [rbind]. rewrite IH; auto; [|apply (preds_upd preds cb HP H1)|apply addn_ok; auto].
  rewrite addn_app, <- after_app. reflexivity.
Qed.
Definition count_ivs (n : counts) (ivs : list (list (list (Z * list Z)))) : counts :=
  fold_left (fun n iv => addn n [0; 0; 0] (concat iv)) ivs n.
Lemma count_mcus_ok ri mcus : forall k j n cur,
  match ri with Some i => 0 < i /\ k mod i = j | None => 0 <= j end ->
  Forall (Forall coef_ok) cur -> Forall (Forall coef_ok) mcus -> counts_ok n ->
  count_mcus ri (k + zlen mcus) k mcus (after [0; 0; 0] (concat cur)) (addn n [0; 0; 0] (concat cur)) =
    Ok (count_ivs n (groups (ri_val ri) j cur mcus)).
Proof.
  induction mcus as [|m r IH]; intros k j n cur HK HCur HM HN; [reflexivity|].
  apply Forall_cons_iff in HM as [Hm Hr]. cbn [count_mcus groups].
  assert (Forall coef_ok (concat cur)) as HCC by (apply Forall_concat; exact HCur).
  rewrite count_blocks_ok; [|apply preds_after; [exact preds0|exact HCC]|exact Hm|apply addn_ok; exact HN]. cbn [rbind].
  rewrite addn_app, <- after_app, <- concat_snoc.
  rewrite zlen_cons, Z.add_assoc, (restart_cond ri k j r HK). destruct (restart_step ri k j HK) as [RS1 RS2].
  assert (Forall (Forall coef_ok) (cur ++ [m])) as HCm by (apply Forall_app; split; [exact HCur|]; constructor; [exact Hm|constructor]).
  destruct (j + 1 =? ri_val ri) eqn:Ej; cbn [andb].
  - destruct (Z.ltb_spec 0 (zlen r)) as [P|P].
    + cbn [count_ivs fold_left]. fold (count_ivs (addn n [0; 0; 0] (concat (cur ++ [m]))) (groups (ri_val ri) 0 [] r)).
      rewrite <- (IH (k + 1) 0 (addn n [0; 0; 0] (concat (cur ++ [m]))) []); [|apply RS2; reflexivity|constructor|exact Hr|apply addn_ok; exact HN].
      change (concat (@nil (list (Z * list Z)))) with (@nil (Z * list Z)). rewrite addn_nil. reflexivity.
    + assert (r = []) as -> by (destruct r; auto; rewrite zlen_cons in P; pose proof (zlen_nonneg r); lia). reflexivity.
  - apply IH; [apply RS1; reflexivity|exact HCm|exact Hr|exact HN].
Qed.
Lemma count_ivs_dcl ivs : forall n, n_dcl (count_ivs n ivs) = bumps (n_dcl n) (flat_map (fun iv => dc_syms true [0; 0; 0] (concat iv)) ivs).
Proof. induction ivs as [|iv r IH]; intros n; [reflexivity|]. cbn [flat_map]. rewrite bumps_app. apply (IH (addn n [0; 0; 0] (concat iv))). Qed.
Lemma count_ivs_dcc ivs : forall n, n_dcc (count_ivs n ivs) = bumps (n_dcc n) (flat_map (fun iv => dc_syms false [0; 0; 0] (concat iv)) ivs).
Proof. induction ivs as [|iv r IH]; intros n; [reflexivity|]. cbn [flat_map]. rewrite bumps_app. apply (IH (addn n [0; 0; 0] (concat iv))). Qed.
Lemma count_ivs_acl ivs : forall n, n_acl (count_ivs n ivs) = bumps (n_acl n) (flat_map (fun iv => all_ac_syms true (concat iv)) ivs).
Proof. induction ivs as [|iv r IH]; intros n; [reflexivity|]. cbn [flat_map]. rewrite bumps_app. apply (IH (addn n [0; 0; 0] (concat iv))). Qed.
Lemma count_ivs_acc ivs : forall n, n_acc (count_ivs n ivs) = bumps (n_acc n) (flat_map (fun iv => all_ac_syms false (concat iv)) ivs).
Proof. induction ivs as [|iv r IH]; intros n; [reflexivity|]. cbn [flat_map]. rewrite bumps_app. apply (IH (addn n [0; 0; 0] (concat iv))). Qed.

(** ** how many symbols there are *)
Lemma zlen_repeat {A} (x : A) n : zlen (repeat x n) = Z.of_nat n.
Proof. unfold zlen. rewrite repeat_length. reflexivity. Qed.
Lemma ac_syms_len l : forall z, 0 <= z -> zlen (ac_syms l z) <= zlen l + z + 1.
Proof.
  induction l as [|a r IH]; intros z Hz; cbn [ac_syms].
  - rewrite zlen_nil. destruct (z >? 0); [change (zlen [0]) with 1; lia|rewrite zlen_nil; lia].
  - rewrite zlen_cons. destruct (Z.eqb_spec a 0) as [->|N]; [specialize (IH (z + 1) ltac:(lia)); lia|].
    rewrite zlen_app, zlen_cons, zlen_repeat. specialize (IH 0 ltac:(lia)). pose proof (Z.div_pos z 16 Hz ltac:(lia)).
    assert (z / 16 <= z) by (apply Z.div_le_upper_bound; lia). lia.
Qed.
Lemma blk_ac_len cb : zlen (blk_ac_syms cb) <= 64.
Proof. unfold blk_ac_syms. pose proof (ac_syms_len (skipn 1 (zigzag_reorder (snd cb))) 0 ltac:(lia)). rewrite zigzag_skip in H. lia. Qed.
Lemma all_ac_len lum blocks : zlen (all_ac_syms lum blocks) <= 64 * zlen blocks.
Proof.
  induction blocks as [|cb r IH]; [reflexivity|]. change (cb :: r) with ([cb] ++ r). rewrite ac_syms_app, !zlen_app, all_ac_one.
  change (zlen [cb]) with 1.
  pose proof (blk_ac_len cb). destruct (Bool.eqb (fst cb =? 0) lum); rewrite ?zlen_nil; lia.
Qed.
Lemma dc_syms_len lum blocks : forall preds, zlen (dc_syms lum preds blocks) <= zlen blocks.
Proof.
  induction blocks as [|[c b] r IH]; intros preds; [reflexivity|]. cbn [dc_syms]. rewrite zlen_app, zlen_cons.
  specialize (IH (upd preds (Z.to_nat c) (znth b 0))). destruct (Bool.eqb (c =? 0) lum); [change (zlen [_]) with 1; lia|rewrite zlen_nil; lia].
Qed.
Lemma flat_len {A B} (f : A -> list B) (g : A -> Z) l : (forall x, zlen (f x) <= g x) -> zlen (flat_map f l) <= fold_right (fun x s => g x + s) 0 l.
Proof. intros H. induction l as [|x r IH]; [reflexivity|]. cbn [flat_map fold_right]. rewrite zlen_app. specialize (H x). lia. Qed.
Definition nblocks (ivs : list (list (list (Z * list Z)))) : Z := fold_right (fun iv s => zlen (concat iv) + s) 0 ivs.
Lemma nblocks_concat ivs : nblocks ivs = zlen (concat (concat ivs)).
Proof. induction ivs as [|iv r IH]; [reflexivity|]. cbn [nblocks fold_right concat]. fold (nblocks r). rewrite IH, concat_app, zlen_app. reflexivity. Qed.
Lemma scale_sum ivs : fold_right (fun iv s => 64 * zlen (concat (A:=Z * list Z) iv) + s) 0 ivs = 64 * nblocks ivs.
Proof. induction ivs as [|iv r IH]; [reflexivity|]. cbn [fold_right nblocks]. fold (nblocks r). rewrite IH. lia. Qed.
Lemma intervals_concat {A} ri (l : list A) : match ri with Some i => 0 < i | None => True end -> concat (intervals ri l) = l.
Proof. intros H. destruct ri as [i|]; cbn [intervals]; [apply chunks_concat; lia|cbn [concat]; apply app_nil_r]. Qed.

(** ** the chosen tables cover the scan *)
Lemma legal_std s : legal_ac s -> In s AC_LUM_VALS /\ In s AC_CHROM_VALS.
Proof.
  assert (forallb (fun s => existsb (Z.eqb s) AC_LUM_VALS && existsb (Z.eqb s) AC_CHROM_VALS)
            (0 :: 240 :: flat_map (fun r => map (fun n => 16 * r + n + 1) (idxs 10)) (idxs 16)) = true) as C by (vm_compute; reflexivity).
  intros H. rewrite forallb_forall in C.
  assert (In s (0 :: 240 :: flat_map (fun r => map (fun n => 16 * r + n + 1) (idxs 10)) (idxs 16))) as HI.
  { destruct H as [->|[->|(r & n & Hr & Hn & ->)]]; [left; reflexivity|right; left; reflexivity|]. right. right. apply in_flat_map. exists r.
    split; [apply in_idxs; lia|]. apply in_map_iff. exists (n - 1). split; [lia|]. apply in_idxs. lia. }
  specialize (C s HI). apply andb_prop in C as [C1 C2]. apply existsb_exists in C1 as (x & Hx & Ex). apply existsb_exists in C2 as (y & Hy & Ey).
  apply Z.eqb_eq in Ex, Ey. subst. auto.
Qed.
Lemma dc_std s : 0 <= s <= 11 -> In s DC_LUM_VALS /\ In s DC_CHROM_VALS.
Proof.
  intros H. assert (forallb (fun s => existsb (Z.eqb s) DC_LUM_VALS && existsb (Z.eqb s) DC_CHROM_VALS) (idxs 12) = true) as C by (vm_compute; reflexivity).
  rewrite forallb_forall in C. specialize (C s ltac:(apply in_idxs; lia)).
  apply andb_prop in C as [C1 C2]. apply existsb_exists in C1 as (x & Hx & Ex). apply existsb_exists in C2 as (y & Hy & Ey).
  apply Z.eqb_eq in Ex, Ey. subst. auto.
Qed.
(** what a table specification must offer for a list of symbols *)
Definition covers_all (t : htables) (ivs : list (list (list (Z * list Z)))) : Prop := Forall (fun iv => covers t [0; 0; 0] (concat iv)) ivs.
Lemma covers_all_intro t ivs :
  incl (flat_map (fun iv => dc_syms true [0; 0; 0] (concat iv)) ivs) (dc_lum_vals t) ->
  incl (flat_map (fun iv => dc_syms false [0; 0; 0] (concat iv)) ivs) (dc_chrom_vals t) ->
  incl (flat_map (fun iv => all_ac_syms true (concat iv)) ivs) (ac_lum_vals t) ->
  incl (flat_map (fun iv => all_ac_syms false (concat iv)) ivs) (ac_chrom_vals t) -> covers_all t ivs.
Proof.
  intros H1 H2 H3 H4. apply Forall_forall. intros iv Hiv.
  assert (forall (f : list (list (Z * list Z)) -> list Z) vals, incl (flat_map f ivs) vals -> incl (f iv) vals) as K.
  { intros f vals H s Hs. apply H. apply in_flat_map. exists iv. auto. }
  split; [apply (K _ _ H1)|]. split; [apply (K _ _ H2)|]. split; [apply (K _ _ H3)|apply (K _ _ H4)].
Qed.
Section Ivs.
  Variable ivs : list (list (list (Z * list Z))).
  Hypothesis Hc : Forall (Forall (Forall coef_ok)) ivs.
  Hypothesis Hn : nblocks ivs < 2 ^ 40.
  Let D lum := flat_map (fun iv => dc_syms lum [0; 0; 0] (concat iv)) ivs.
  Let A lum := flat_map (fun iv => all_ac_syms lum (concat iv)) ivs.
  Lemma iv_coefs iv : In iv ivs -> Forall coef_ok (concat iv).
  Proof. intros H. rewrite Forall_forall in Hc. apply Forall_concat. apply Hc. exact H. Qed.
  Lemma D_range lum : Forall (fun s => 0 <= s <= 11) (D lum).
  Proof.
    apply Forall_forall. intros s Hs. apply in_flat_map in Hs as (iv & Hi & Hs).
    pose proof (dc_syms_range lum (concat iv) [0; 0; 0] preds0 (iv_coefs iv Hi)) as R. rewrite Forall_forall in R. apply R. exact Hs.
  Qed.
  Lemma A_legal lum : Forall legal_ac (A lum).
  Proof.
    apply Forall_forall. intros s Hs. apply in_flat_map in Hs as (iv & Hi & Hs).
    pose proof (all_ac_legal lum (concat iv) (iv_coefs iv Hi)) as R. rewrite Forall_forall in R. apply R. exact Hs.
  Qed.
  Lemma std_covers t : dc_lum_vals t = DC_LUM_VALS -> dc_chrom_vals t = DC_CHROM_VALS -> ac_lum_vals t = AC_LUM_VALS -> ac_chrom_vals t = AC_CHROM_VALS ->
    covers_all t ivs.
  Proof.
    intros E1 E2 E3 E4. apply covers_all_intro; [rewrite E1|rewrite E2|rewrite E3|rewrite E4]; intros s Hs.
    - pose proof (D_range true) as R. rewrite Forall_forall in R. apply dc_std. apply R. exact Hs.
    - pose proof (D_range false) as R. rewrite Forall_forall in R. apply dc_std. apply R. exact Hs.
    - pose proof (A_legal true) as R. rewrite Forall_forall in R. apply legal_std. apply R. exact Hs.
    - pose proof (A_legal false) as R. rewrite Forall_forall in R. apply legal_std. apply R. exact Hs.
  Qed.
  Lemma opt_dc lum : exists x, build_bits_vals (bumps (repeat 0 12) (D lum)) = Ok x /\
    forall bits vals, x = Some (bits, vals) -> tab_ok bits vals /\ Forall (fun v => 0 <= v < 12) vals /\ incl (D lum) vals.
  Proof.
    pose proof (D_range lum) as R. assert (Forall (fun s => 0 <= s < zlen (repeat 0 12)) (D lum)) as R'.
    { rewrite zlen_repeat. eapply Forall_impl; [|exact R]. intros s Hs. cbv beta in Hs. lia. }
    assert (Forall (fun x => 0 <= x) (repeat 0 12)) as N0 by (apply Forall_forall; intros x Hx; apply repeat_spec in Hx; lia).
    assert (zlen (bumps (repeat 0 12) (D lum)) = 12) as HL by (unfold zlen; rewrite bumps_len; reflexivity).
    destruct (build_bits_vals_ok (bumps (repeat 0 12) (D lum))) as (x & E & S).
    - apply bumps_nonneg. exact N0.
    - rewrite bumps_sum by exact R'. change (lsum (repeat 0 12)) with 0. unfold U64.
      assert (zlen (D lum) <= nblocks ivs) by (apply (flat_len _ (fun iv => zlen (concat iv))); intros iv; apply dc_syms_len).
      change (2 ^ 64) with 18446744073709551616. change (2 ^ 40) with 1099511627776 in Hn. lia.
    - lia.
    - pose proof (nsyms_le (bumps (repeat 0 12) (D lum))). lia.
    - exists x. split; [exact E|]. intros bits vals ->. rewrite HL in S. destruct S as (S1 & S2 & S3).
      split; [exact S1|]. split; [exact S2|]. intros s Hs. apply S3. rewrite Forall_forall in R. specialize (R s Hs).
      split; [lia|]. apply bumps_pos; auto.
  Qed.
  Lemma opt_ac lum : exists x, build_bits_vals (bumps (repeat 0 256) (A lum)) = Ok x /\
    forall bits vals, x = Some (bits, vals) -> tab_ok bits vals /\ Forall (fun v => 0 <= v < 256) vals /\ incl (A lum) vals.
  Proof.
    pose proof (A_legal lum) as R. assert (Forall (fun s => 0 <= s < zlen (repeat 0 256)) (A lum)) as R'.
    { rewrite zlen_repeat. eapply Forall_impl; [|exact R]. intros s Hs. apply legal_range in Hs. lia. }
    assert (Forall (fun x => 0 <= x) (repeat 0 256)) as N0 by (apply Forall_forall; intros x Hx; apply repeat_spec in Hx; lia).
    assert (zlen (bumps (repeat 0 256) (A lum)) = 256) as HL by (unfold zlen; rewrite bumps_len, repeat_length; reflexivity).
    destruct (build_bits_vals_ok (bumps (repeat 0 256) (A lum))) as (x & E & S).
    - apply bumps_nonneg. exact N0.
    - rewrite bumps_sum by exact R'. assert (lsum (repeat 0 256) = 0) as -> by (vm_compute; reflexivity). unfold U64.
      assert (zlen (A lum) <= 64 * nblocks ivs).
      { rewrite <- scale_sum. apply (flat_len _ (fun iv => 64 * zlen (concat iv))). intros iv. apply all_ac_len. }
      change (2 ^ 64) with 18446744073709551616. change (2 ^ 40) with 1099511627776 in Hn. lia.
    - lia.
    - assert (nsyms (bumps (repeat 0 256) (A lum)) < zlen (bumps (repeat 0 256) (A lum))); [|lia].
      apply (nsyms_lt _ 15); [unfold zlen in HL; lia|].
      change (nth 15 (bumps (repeat 0 256) (A lum)) 0) with (znth (bumps (repeat 0 256) (A lum)) 15).
      rewrite bumps_none; [reflexivity|lia|exact R'|]. intros H15. rewrite Forall_forall in R. specialize (R 15 H15). apply legal_range in R. lia.
    - exists x. split; [exact E|]. intros bits vals ->. rewrite HL in S. destruct S as (S1 & S2 & S3).
      split; [exact S1|]. split; [exact S2|]. intros s Hs. apply S3. rewrite Forall_forall in R. pose proof (legal_range s (R s Hs)).
      split; [lia|]. apply bumps_pos; auto.
  Qed.
  Lemma from_specs_ok dl dc al ac : tab_ok (fst dl) (snd dl) -> tab_ok (fst dc) (snd dc) -> tab_ok (fst al) (snd al) -> tab_ok (fst ac) (snd ac) ->
    Forall (fun v => 0 <= v < 12) (snd dl) -> Forall (fun v => 0 <= v < 12) (snd dc) ->
    Forall (fun v => 0 <= v < 256) (snd al) -> Forall (fun v => 0 <= v < 256) (snd ac) ->
    exists t, from_specs dl dc al ac = Ok (Some t) /\ tabs_ok t /\
      dc_lum_vals t = snd dl /\ dc_chrom_vals t = snd dc /\ ac_lum_vals t = snd al /\ ac_chrom_vals t = snd ac.
  Proof.
    intros T1 T2 T3 T4 R1 R2 R3 R4.
    destruct (tab_ok_codes 12 _ _ T1 ltac:(lia) R1) as [(c1 & E1 & O1) _]. destruct (tab_ok_codes 12 _ _ T2 ltac:(lia) R2) as [(c2 & E2 & O2) _].
    destruct (tab_ok_codes 256 _ _ T3 ltac:(lia) R3) as [(c3 & E3 & O3) _]. destruct (tab_ok_codes 256 _ _ T4 ltac:(lia) R4) as [(c4 & E4 & O4) _].
    unfold from_specs. rewrite E1. cbn [rbind]. rewrite E2. cbn [rbind]. rewrite E3. cbn [rbind]. rewrite E4. cbn [rbind].
    eexists. split; [reflexivity|]. split; [split; [exact O1|split; [exact O2|split; [exact O3|exact O4]]]|].
    split; [reflexivity|]. split; [reflexivity|]. split; reflexivity.
  Qed.
  Lemma or_default_dc c : (c = None \/ c = Some (bumps (repeat 0 12) (D false))) ->
    exists y, or_default c (DC_CHROM_BITS, DC_CHROM_VALS) = Ok y /\ tab_ok (fst y) (snd y) /\ Forall (fun v => 0 <= v < 12) (snd y) /\ incl (D false) (snd y).
  Proof.
    destruct std_tab_ok as (_ & S & _). destruct std_ranges as (_ & R & _).
    assert (incl (D false) DC_CHROM_VALS) as I.
    { intros s Hs. pose proof (D_range false) as X. rewrite Forall_forall in X. apply dc_std. apply X. exact Hs. }
    intros [->| ->]; unfold or_default.
    - exists (DC_CHROM_BITS, DC_CHROM_VALS). auto.
    - destruct (opt_dc false) as (x & E & K). rewrite E. cbn [rbind]. destruct x as [[b v]|].
      + exists (b, v). split; [reflexivity|]. apply (K b v eq_refl).
      + exists (DC_CHROM_BITS, DC_CHROM_VALS). auto.
  Qed.
  Lemma or_default_ac c : (c = None \/ c = Some (bumps (repeat 0 256) (A false))) ->
    exists y, or_default c (AC_CHROM_BITS, AC_CHROM_VALS) = Ok y /\ tab_ok (fst y) (snd y) /\ Forall (fun v => 0 <= v < 256) (snd y) /\ incl (A false) (snd y).
  Proof.
    destruct std_tab_ok as (_ & _ & _ & S). destruct std_ranges as (_ & _ & _ & R).
    assert (incl (A false) AC_CHROM_VALS) as I.
    { intros s Hs. pose proof (A_legal false) as X. rewrite Forall_forall in X. apply legal_std. apply X. exact Hs. }
    intros [->| ->]; unfold or_default.
    - exists (AC_CHROM_BITS, AC_CHROM_VALS). auto.
    - destruct (opt_ac false) as (x & E & K). rewrite E. cbn [rbind]. destruct x as [[b v]|].
      + exists (b, v). split; [reflexivity|]. apply (K b v eq_refl).
      + exists (AC_CHROM_BITS, AC_CHROM_VALS). auto.
  Qed.
  Lemma optimized_ok dcc acc : (dcc = None \/ dcc = Some (bumps (repeat 0 12) (D false))) -> (acc = None \/ acc = Some (bumps (repeat 0 256) (A false))) ->
    exists x, optimized_from_counts (bumps (repeat 0 12) (D true)) dcc (bumps (repeat 0 256) (A true)) acc = Ok x /\
      forall t, x = Some t -> tabs_ok t /\ covers_all t ivs.
  Proof.
    intros Hd Ha. unfold optimized_from_counts.
    destruct (opt_dc true) as (x1 & E1 & K1). rewrite E1. cbn [rbind]. destruct x1 as [[b1 v1]|]; [|exists None; split; [reflexivity|discriminate]].
    destruct (opt_ac true) as (x2 & E2 & K2). rewrite E2. cbn [rbind]. destruct x2 as [[b2 v2]|]; [|exists None; split; [reflexivity|discriminate]].
    destruct (or_default_dc dcc Hd) as (y1 & Ey1 & T3 & R3 & I3). rewrite Ey1. cbn [rbind].
    destruct (or_default_ac acc Ha) as (y2 & Ey2 & T4 & R4 & I4). rewrite Ey2. cbn [rbind].
    destruct (K1 b1 v1 eq_refl) as (T1 & R1 & I1). destruct (K2 b2 v2 eq_refl) as (T2 & R2 & I2).
    destruct (from_specs_ok (b1, v1) y1 (b2, v2) y2) as (t & Et & HT & V1 & V2 & V3 & V4); auto.
    exists (Some t). split; [exact Et|]. intros t' [= <-]. split; [exact HT|].
    apply covers_all_intro; [rewrite V1|rewrite V2|rewrite V3|rewrite V4]; assumption.
  Qed.
End Ivs.

Theorem choose_tables_ok e data o mcus : all_mcus (je_dctq e) data o = Ok mcus -> mcus <> [] -> Forall (Forall coef_ok) mcus ->
  match jo_restart o with Some i => 0 < i | None => True end -> zlen (concat mcus) < 2 ^ 40 ->
  exists t, choose_tables e data o = Ok t /\ tabs_ok t /\ covers_all t (intervals (jo_restart o) mcus).
Proof.
  intros EM HN HF HR HB. pose proof (intervals_concat (jo_restart o) mcus HR) as EC.
  assert (Forall (Forall (Forall coef_ok)) (intervals (jo_restart o) mcus)) as HI.
  { apply Forall_forall. intros iv Hiv. apply Forall_forall. intros m Hm. rewrite Forall_forall in HF. apply HF. rewrite <- EC. apply in_concat. exists iv. auto. }
  destruct std_tables_ok as (ts & Es & Ts & V1 & V2 & V3 & V4 & _). pose proof (std_covers _ HI ts V1 V2 V3 V4) as Cs.
  unfold choose_tables. destruct (jo_opt o); [|exists ts; auto].
  unfold build_optimized. rewrite EM. cbn [rbind].
  pose proof (count_mcus_ok (jo_restart o) mcus 0 0 counts0 []) as EK. cbn [concat] in EK. rewrite addn_nil, Z.add_0_l in EK.
  cbn [after fold_left] in EK. rewrite EK; [|destruct (jo_restart o); [split; [exact HR|apply Z.mod_0_l; lia]|lia]|constructor|exact HF|repeat (split; [reflexivity|]); reflexivity].
  cbn [rbind]. rewrite groups_intervals by auto. rewrite count_ivs_dcl, count_ivs_dcc, count_ivs_acl, count_ivs_acc.
  assert (nblocks (intervals (jo_restart o) mcus) < 2 ^ 40) as HNB by (rewrite nblocks_concat, EC; exact HB).
  destruct (optimized_ok _ HI HNB None None (or_introl eq_refl) (or_introl eq_refl)) as (x1 & E1 & K1).
  destruct (optimized_ok _ HI HNB _ _ (or_intror eq_refl) (or_intror eq_refl)) as (x2 & E2 & K2).
  unfold counts0. cbn [n_dcl n_dcc n_acl n_acc].
  destruct (jo_ct o); [rewrite E1|rewrite E2|rewrite E2|rewrite E2]; cbn [rbind].
  - destruct x1 as [t|]; [exists t; split; [reflexivity|]; apply K1; reflexivity|exists ts; auto].
  - destruct x2 as [t|]; [exists t; split; [reflexivity|]; apply K2; reflexivity|exists ts; auto].
  - destruct x2 as [t|]; [exists t; split; [reflexivity|]; apply K2; reflexivity|exists ts; auto].
  - destruct x2 as [t|]; [exists t; split; [reflexivity|]; apply K2; reflexivity|exists ts; auto].
Qed.
