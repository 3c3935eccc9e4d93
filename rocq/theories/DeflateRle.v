(** The run-length encoding of code lengths decodes to them. *)
From Verif Require Import Base DeflateSpec HuffModel HuffProofs Lz77Model DeflateModel DeflateProofs.

(** the RFC 1951 instruction an item stands for *)
Definition instr_of (it : rle_item) : cl_instr :=
  let '(s, v, n) := it in
  if s =? 16 then CRep (v + 3) else if s =? 17 then CZero3 (v + 3) else if s =? 18 then CZero7 (v + 11) else CLen s.
(** its extra bits have the right width and fit *)
Definition item_wf (it : rle_item) : Prop :=
  let '(s, v, n) := it in
  0 <= s <= 18 /\ n = (if s =? 16 then 2 else if s =? 17 then 3 else if s =? 18 then 7 else 0) /\ 0 <= v < 2 ^ n.
Definition rinv (acc : list rle_item) (cf pre : list Z) : Prop :=
  cl_run [] (map instr_of acc) = Some pre /\ Forall item_wf acc /\ nn cf /\ length cf = 19%nat /\
  Forall (fun it : rle_item => 0 < znth cf (fst (fst it))) acc /\ lsum cf = zlen acc /\ zlen acc <= zlen pre.

Lemma cl_run_app a : forall acc b, cl_run acc (a ++ b) = match cl_run acc a with Some x => cl_run x b | None => None end.
Proof. induction a as [|i a IH]; intros acc b; cbn [app cl_run]; auto. destruct (cl_run1 acc i); auto. Qed.
Lemma rinv_push acc cf pre s v n pre' : rinv acc cf pre -> item_wf (s, v, n) ->
  cl_run1 pre (instr_of (s, v, n)) = Some pre' -> zlen pre < zlen pre' -> zlen pre' < U32 ->
  exists cf', inc32 cf s = Ok cf' /\ rinv (acc ++ [(s, v, n)]) cf' pre'.
Proof.
  intros (R1 & R2 & R3 & R4 & R5 & R6 & R7) W E L U.
  assert (0 <= s <= 18) by apply W.
  destruct (inc32_ok cf s R3) as (cf' & E' & A1 & A2 & A3 & A4 & A5); [unfold zlen; lia|lia|].
  exists cf'. split; auto. split; [|split; [|split; [|split; [|split; [|split]]]]]; auto.
  - rewrite map_app, cl_run_app, R1. cbn [map cl_run]. rewrite E. reflexivity.
  - apply Forall_app; auto.
  - lia.
  - apply Forall_app; split; [|constructor; auto].
    eapply Forall_impl; [|exact R5]. intros it Hi; cbv beta in *. specialize (A5 (fst (fst it))). lia.
  - rewrite zlen_app, zlen_cons, zlen_nil. lia.
  - rewrite zlen_app, zlen_cons, zlen_nil. lia.
Qed.

Lemma zlen_repeat {A} (x : A) n : zlen (repeat x (Z.to_nat n)) = Z.max 0 n.
Proof. unfold zlen. rewrite repeat_length. lia. Qed.
Lemma repeat_plus {A} (x : A) a b : 0 <= a -> 0 <= b -> repeat x (Z.to_nat (a + b)) = repeat x (Z.to_nat a) ++ repeat x (Z.to_nat b).
Proof. intros. rewrite <- repeat_app. f_equal. lia. Qed.

Lemma rle_zeros_ok fuel : forall rem acc cf pre, 0 <= rem <= Z.of_nat fuel -> rinv acc cf pre -> zlen pre + rem < U32 ->
  exists acc' cf', rle_zeros fuel rem acc cf = Ok (acc', cf') /\ rinv acc' cf' (pre ++ repeat 0 (Z.to_nat rem)).
Proof.
  induction fuel as [|f IH]; intros rem acc cf pre Hr HR HU.
  - assert (rem = 0) as -> by lia. cbn. rewrite app_nil_r. eauto.
  - cbn [rle_zeros]. destruct (Z.ltb_spec 0 rem); cbn [negb].
    2:{ assert (rem = 0) as -> by lia. cbn. rewrite app_nil_r. eauto. }
    destruct (Z.leb_spec 11 rem); [|destruct (Z.leb_spec 3 rem)].
    + set (take := Z.min rem 138). assert (11 <= take <= 138 /\ take <= rem) by lia.
      rewrite wrap_id by (change (2 ^ 8) with 256; lia).
      destruct (rinv_push acc cf pre 18 (take - 11) 7 (pre ++ repeat 0 (Z.to_nat take)) HR) as (cf' & E & R').
      * cbn. change (2 ^ 7) with 128. lia.
      * cbn [instr_of Z.eqb Pos.eqb cl_run1]. rewrite Z.sub_add.
        destruct (Z.leb_spec 11 take), (Z.leb_spec take 138); try lia. reflexivity.
      * rewrite zlen_app, zlen_repeat. lia.
      * rewrite zlen_app, zlen_repeat. lia.
      * rewrite E; cbn [rbind]. destruct (IH (rem - take) _ _ _ ltac:(lia) R') as (acc2 & cf2 & E2 & R2).
        { rewrite zlen_app, zlen_repeat. lia. }
        exists acc2, cf2. split; auto. rewrite <- app_assoc, <- repeat_plus in R2 by lia.
        rewrite Z.add_sub_assoc, Z.add_simpl_l in R2. exact R2.
    + set (take := Z.min rem 10). assert (3 <= take <= 10 /\ take <= rem) by lia.
      rewrite wrap_id by (change (2 ^ 8) with 256; lia).
      destruct (rinv_push acc cf pre 17 (take - 3) 3 (pre ++ repeat 0 (Z.to_nat take)) HR) as (cf' & E & R').
      * cbn. change (2 ^ 3) with 8. lia.
      * cbn [instr_of Z.eqb Pos.eqb cl_run1]. rewrite Z.sub_add.
        destruct (Z.leb_spec 3 take), (Z.leb_spec take 10); try lia. reflexivity.
      * rewrite zlen_app, zlen_repeat. lia.
      * rewrite zlen_app, zlen_repeat. lia.
      * rewrite E; cbn [rbind]. destruct (IH (rem - take) _ _ _ ltac:(lia) R') as (acc2 & cf2 & E2 & R2).
        { rewrite zlen_app, zlen_repeat. lia. }
        exists acc2, cf2. split; auto. rewrite <- app_assoc, <- repeat_plus in R2 by lia.
        rewrite Z.add_sub_assoc, Z.add_simpl_l in R2. exact R2.
    + destruct (rinv_push acc cf pre 0 0 0 (pre ++ [0]) HR) as (cf' & E & R').
      * cbn. change (2 ^ 0) with 1. lia.
      * reflexivity.
      * rewrite zlen_app, zlen_cons, zlen_nil. lia.
      * rewrite zlen_app, zlen_cons, zlen_nil. lia.
      * rewrite E; cbn [rbind]. destruct (IH (rem - 1) _ _ _ ltac:(lia) R') as (acc2 & cf2 & E2 & R2).
        { rewrite zlen_app, zlen_cons, zlen_nil. lia. }
        exists acc2, cf2. split; auto. rewrite <- app_assoc in R2.
        replace (repeat 0 (Z.to_nat rem)) with ([0] ++ repeat 0 (Z.to_nat (rem - 1))); auto.
        replace (Z.to_nat rem) with (S (Z.to_nat (rem - 1))) by lia. reflexivity.
Qed.

Lemma last_app_repeat (x : Z) l n : last l 0 = x -> last (l ++ repeat x n) 0 = x.
Proof.
  intros H. destruct n as [|n]; [cbn; rewrite app_nil_r; auto|].
  replace (S n) with (n + 1)%nat by lia. rewrite repeat_app, app_assoc. cbn [repeat]. apply last_last.
Qed.
Lemma rle_reps_ok fuel c : forall rem acc cf pre, 0 <= rem <= Z.of_nat fuel -> rinv acc cf pre -> zlen pre + rem < U32 ->
  pre <> [] -> last pre 0 = c ->
  exists rem' acc' cf', rle_reps fuel rem acc cf = Ok (rem', acc', cf') /\ 0 <= rem' <= rem /\ rem' < 3 /\
    rinv acc' cf' (pre ++ repeat c (Z.to_nat (rem - rem'))).
Proof.
  induction fuel as [|f IH]; intros rem acc cf pre Hr HR HU HN HC.
  - assert (rem = 0) as -> by lia. cbn. exists 0, acc, cf. rewrite app_nil_r. split; auto. split; [lia|]. split; [lia|]. auto.
  - cbn [rle_reps]. destruct (Z.leb_spec 3 rem); cbn [negb].
    2:{ exists rem, acc, cf. rewrite Z.sub_diag. cbn. rewrite app_nil_r. split; auto. split; [lia|]. split; [lia|]. auto. }
    set (take := Z.min rem 6). assert (3 <= take <= 6 /\ take <= rem) by lia.
    rewrite wrap_id by (change (2 ^ 8) with 256; lia).
    destruct (rinv_push acc cf pre 16 (take - 3) 2 (pre ++ repeat c (Z.to_nat take)) HR) as (cf' & E & R').
    * cbn. change (2 ^ 2) with 4. lia.
    * cbn [instr_of Z.eqb Pos.eqb cl_run1]. rewrite Z.sub_add. destruct pre; [congruence|].
      destruct (Z.leb_spec 3 take), (Z.leb_spec take 6); try lia. cbn [andb]. rewrite HC. reflexivity.
    * rewrite zlen_app, zlen_repeat. lia.
    * rewrite zlen_app, zlen_repeat. lia.
    * rewrite E; cbn [rbind]. destruct (IH (rem - take) _ _ _ ltac:(lia) R') as (rem2 & acc2 & cf2 & E2 & B1 & B2 & R2).
      { rewrite zlen_app, zlen_repeat. lia. }
      { destruct pre; [congruence|discriminate]. }
      { apply last_app_repeat; auto. }
      exists rem2, acc2, cf2. split; auto. split; [lia|]. split; auto.
      rewrite <- app_assoc, <- repeat_plus in R2 by lia.
      replace (take + (rem - take - rem2)) with (rem - rem2) in R2 by lia. exact R2.
Qed.
Lemma push_len acc cf pre c : rinv acc cf pre -> 0 <= c <= 15 -> zlen pre + 1 < U32 ->
  exists cf', inc32 cf c = Ok cf' /\ rinv (acc ++ [(c, 0, 0)]) cf' (pre ++ [c]).
Proof.
  intros HR Hc HU. apply (rinv_push acc cf pre c 0 0 (pre ++ [c])); auto.
  - cbn. destruct (Z.eqb_spec c 16), (Z.eqb_spec c 17), (Z.eqb_spec c 18); lia.
  - cbn [instr_of]. destruct (Z.eqb_spec c 16), (Z.eqb_spec c 17), (Z.eqb_spec c 18); try lia. cbn [cl_run1].
    destruct (Z.leb_spec 0 c), (Z.leb_spec c 15); try lia. reflexivity.
  - rewrite zlen_app, zlen_cons, zlen_nil. lia.
  - rewrite zlen_app, zlen_cons, zlen_nil. lia.
Qed.
Lemma rle_singles_ok fuel c : 0 <= c <= 15 -> forall rem acc cf pre, 0 <= rem <= Z.of_nat fuel -> rinv acc cf pre -> zlen pre + rem < U32 ->
  exists acc' cf', rle_singles fuel c rem acc cf = Ok (acc', cf') /\ rinv acc' cf' (pre ++ repeat c (Z.to_nat rem)).
Proof.
  intros Hc. induction fuel as [|f IH]; intros rem acc cf pre Hr HR HU.
  - assert (rem = 0) as -> by lia. cbn. rewrite app_nil_r. eauto.
  - cbn [rle_singles]. destruct (Z.ltb_spec 0 rem); cbn [negb].
    2:{ assert (rem = 0) as -> by lia. cbn. rewrite app_nil_r. eauto. }
    destruct (push_len acc cf pre c HR Hc ltac:(lia)) as (cf' & E & R'). rewrite E; cbn [rbind].
    destruct (IH (rem - 1) _ _ _ ltac:(lia) R') as (acc2 & cf2 & E2 & R2).
    { rewrite zlen_app, zlen_cons, zlen_nil. lia. }
    exists acc2, cf2. split; auto. rewrite <- app_assoc in R2.
    replace (repeat c (Z.to_nat rem)) with ([c] ++ repeat c (Z.to_nat (rem - 1))); auto.
    replace (Z.to_nat rem) with (S (Z.to_nat (rem - 1))) by lia. reflexivity.
Qed.
Lemma run_of_spec c l : 0 <= run_of c l <= zlen l /\ firstn (Z.to_nat (run_of c l)) l = repeat c (Z.to_nat (run_of c l)).
Proof.
  induction l as [|x l IH]; cbn [run_of]; [rewrite zlen_nil; split; [lia|reflexivity]|].
  rewrite zlen_cons. destruct (Z.eqb_spec x c) as [->|]; [|pose proof (zlen_nonneg l); split; [lia|reflexivity]].
  destruct IH as [A B]. split; [lia|]. replace (Z.to_nat (1 + run_of c l)) with (S (Z.to_nat (run_of c l))) by lia.
  cbn [firstn repeat]. congruence.
Qed.
Lemma rle_loop_ok fuel : forall s acc cf pre, (length s <= fuel)%nat -> Forall (fun l => 0 <= l <= 15) s -> rinv acc cf pre ->
  zlen pre + zlen s < U32 ->
  exists acc' cf', rle_loop fuel s acc cf = Ok (acc', cf') /\ rinv acc' cf' (pre ++ s).
Proof.
  induction fuel as [|f IH]; intros s acc cf pre HL HS HR HU.
  - destruct s; [|cbn in HL; lia]. cbn. rewrite app_nil_r. eauto.
  - destruct s as [|c tl]; cbn [rle_loop]; [rewrite app_nil_r; eauto|].
    inversion HS as [|? ? Hc Htl]; subst. rewrite zlen_cons in HU.
    pose proof (run_of_spec c tl) as [R1 R2]. set (r := run_of c tl) in *.
    assert (forall acc' cf', rinv acc' cf' (pre ++ repeat c (Z.to_nat (1 + r))) ->
      exists a2 c2, rle_loop f (skipn (Z.to_nat (1 + r)) (c :: tl)) acc' cf' = Ok (a2, c2) /\ rinv a2 c2 (pre ++ c :: tl)) as K.
    { intros acc' cf' H'. replace (Z.to_nat (1 + r)) with (S (Z.to_nat r)) in * by lia. cbn [skipn repeat] in *.
      destruct (IH (skipn (Z.to_nat r) tl) acc' cf' _ ltac:(rewrite skipn_length; cbn [length] in HL; lia) (Forall_skipn _ _ _ Htl) H') as (a2 & c2 & E2 & H2).
      - rewrite zlen_app. unfold zlen. cbn [length]. rewrite repeat_length, skipn_length. unfold zlen in *. lia.
      - exists a2, c2. split; auto. rewrite <- app_assoc in H2. cbn [app] in H2. rewrite <- R2, firstn_skipn in H2. exact H2. }
    destruct (Z.eqb_spec c 0) as [->|].
    + destruct (rle_zeros_ok (Z.to_nat (1 + r)) (1 + r) acc cf pre ltac:(lia) HR ltac:(lia)) as (a1 & c1 & E1 & H1).
      rewrite E1; cbn [rbind]. apply K; auto.
    + destruct (push_len acc cf pre c HR Hc ltac:(lia)) as (cf1 & E1 & H1). rewrite E1; cbn [rbind].
      destruct (rle_reps_ok (Z.to_nat (1 + r)) c (1 + r - 1) _ _ _ ltac:(lia) H1) as (rem & a2 & c2 & E2 & B1 & B2 & H2).
      { rewrite zlen_app, zlen_cons, zlen_nil. lia. } { destruct pre; discriminate. } { apply last_last. }
      rewrite E2; cbn [rbind].
      destruct (rle_singles_ok (Z.to_nat (1 + r)) c Hc rem _ _ _ ltac:(lia) H2) as (a3 & c3 & E3 & H3).
      { rewrite !zlen_app, zlen_cons, zlen_nil, zlen_repeat. lia. }
      rewrite E3; cbn [rbind]. apply K.
      rewrite <- app_assoc, <- repeat_plus, <- app_assoc in H3 by lia.
      replace (1 + r - 1 - rem + rem) with r in H3 by lia.
      replace (Z.to_nat (1 + r)) with (S (Z.to_nat r)) by lia. exact H3.
Qed.
Lemma rle_ok ll dl : Forall (fun l => 0 <= l <= 15) (ll ++ dl) -> zlen (ll ++ dl) < U32 ->
  exists items cf, rle_code_lengths ll dl = Ok (items, cf) /\ rinv items cf (ll ++ dl).
Proof.
  intros H HU. unfold rle_code_lengths.
  apply (rle_loop_ok (length (ll ++ dl)) (ll ++ dl) [] (repeat 0 19) []); auto.
  split; [reflexivity|]. split; [constructor|]. split; [apply nn_repeat|]. split; [reflexivity|]. split; [constructor|]. split; [reflexivity|rewrite !zlen_nil; lia].
Qed.
