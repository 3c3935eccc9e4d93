(** Proofs for C98, continued: any competing code, and a picture that grows. *)
From Coq Require Import Permutation Sorting.Sorted.
From Verif Require Import Base BitsModel BitsProofs InflateModel CanonSpec CanonProofs HuffModel HuffProofs HuffOptSpec HuffOpt Lz77Model PngFilterModel PngFilterProofs PngPaletteModel JpegBaseModel JpegHuffModel JpegDecModel JpegBaseProofs
  JpegTabProofs JpegSymProofs JpegOptProofs JpegHuffOptSpec JpegHuffOpt JpegEncModel JpegImgSpec JpegMcuProofs JpegApi JpegDctModel JpegDctTop JpegTrellisModel JpegTrellisTop.

Lemma occ_nsyms counts : nsyms counts = Z.of_nat (occurring counts).
Proof. unfold nsyms, occurring, zlen. f_equal. f_equal. apply filter_ext. intros c. lia. Qed.
Lemma one_each fs lens' : Forall (fun f => 0 <= f) fs -> length lens' = length fs -> (forall s, 0 < nth s fs 0 -> 1 <= nth s lens' 0) -> lsum fs <= coded_bits fs lens'.
Proof.
  intros H. revert lens'. unfold lsum, coded_bits. induction H as [|f fs Hf H IH]; intros [|l lens'] L A; cbn [length] in L; try discriminate; try reflexivity. cbn [combine map fold_right fst snd].
  specialize (IH lens' ltac:(lia) ltac:(intros s; apply (A (S s)))). destruct (Z.eq_dec f 0) as [->|]; [lia|]. specialize (A 0%nat). cbn [nth] in A. nia.
Qed.
Lemma word_one fs word : prefix_code fs word -> forall s, 0 < nth s fs 0 -> 1 <= nth s (word_lengths fs word) 0.
Proof.
  intros W s Hs. assert (s < length fs)%nat by (destruct (Nat.le_gt_cases (length fs) s); [rewrite nth_overflow in Hs by assumption; lia|assumption]). fold (ln (word_lengths fs word) s). rewrite word_len by assumption.
  destruct (W s Hs) as (N & _). destruct (word s) as [|b w]; [congruence|]. rewrite zlen_cons. pose proof (zlen_nonneg w). lia.
Qed.
Lemma words_fit fs word : prefix_code fs word -> exists L, (forall s, 0 < nth s fs 0 -> 0 <= ln (word_lengths fs word) s <= L) /\ wkraft L (pairs_of fs (word_lengths fs word)) <= 2 ^ L.
Proof.
  intros W. set (L := fold_right Nat.max 0%nat (map (fun i => length (word i)) (seq 0 (length fs)))). exists (Z.of_nat L).
  assert (forall s, 0 < nth s fs 0 -> (s < length fs)%nat) as IL. { intros s Hs. destruct (Nat.le_gt_cases (length fs) s); [rewrite nth_overflow in Hs by assumption; lia|assumption]. }
  assert (forall k, (k < length fs)%nat -> (length (word k) <= L)%nat) as HL.
  { intros k Hk. unfold L. assert (In (length (word k)) (map (fun i => length (word i)) (seq 0 (length fs)))) as I by (apply in_map_iff; exists k; split; [reflexivity|apply in_seq; lia]).
    clear - I. induction (map _ _) as [|x l IH]; cbn [fold_right]; [contradiction|]. destruct I as [->|I]; [lia|]. specialize (IH I). lia. }
  split.
  - intros k Hk. rewrite word_len by auto. specialize (HL k (IL k Hk)). unfold zlen. lia.
  - unfold word_lengths. rewrite <- (occ_kraft fs word L 0). apply kraft_words.
    + apply occ_no_prefix. intros i Hi j t Hj D. cbn [Nat.add]. apply (proj2 (W i Hi)); assumption.
    + apply Forall_forall. intros w Hw. apply occ_in in Hw as (i & Hi & ->). cbn [Nat.add]. apply HL, IL, Hi.
Qed.
(** one symbol: one bit for each occurrence *)
Lemma single_cost counts lens : Forall (fun c => 0 <= c) counts -> lsum counts < U64 -> zlen counts <= 2 ^ 16 -> (occurring counts < 2)%nat ->
  build_code_lengths counts = Ok (Some lens) -> coded_bits counts lens = lsum counts.
Proof.
  intros HP HS HN H2 E. assert (0 + zlen counts <= 2 ^ 16) as HN16 by lia. rewrite <- (occ_nz counts 0) in H2.
  pose proof (jleaves_nz counts 0 0 HP ltac:(lia) HN16) as EL. unfold build_code_lengths in E.
  destruct (non_zero 0 counts) as [|(s, f) [|]] eqn:EN; cbn [length] in H2; try lia; cbn [map] in EL.
  - destruct (jleaves 0 0 counts); [discriminate E|discriminate EL].
  - destruct (jleaves 0 0 counts) as [|((f1 & i1) & t1) [|]]; cbn [map snd] in EL; try discriminate EL. assert (t1 = Leaf f s) as -> by congruence. injection E as <-.
    assert (In (s, f) (non_zero 0 counts)) as I by (rewrite EN; left; reflexivity). apply non_zero_in in I; [|lia|exact HN16]. rewrite Z.sub_0_r in I. unfold zlen in I.
    rewrite coded_upd, coded_nil; [|apply repeat_length|lia|apply nth_repeat0]. rewrite <- (non_zero_sum counts 0 HP), EN. unfold lsum. cbn [map snd fold_right]. lia.
Qed.
Theorem one_bit_more counts bits vals word : Forall (fun c => 0 <= c) counts -> fold_right Z.add 0 counts < 2 ^ 64 -> zlen counts <= 256 -> (occurring counts <= 255)%nat ->
  build_bits_vals counts = Ok (Some (bits, vals)) -> prefix_code counts word ->
  table_cost counts bits vals <= coded_bits counts (word_lengths counts word) + (if (2 <=? occurring counts)%nat then fold_right Z.add 0 counts else 0).
Proof.
  intros HP HS HN H255 E W. fold (lsum counts) in *. change (2 ^ 64) with U64 in HS.
  destruct (table_lengths counts bits vals HP HS HN ltac:(rewrite occ_nsyms; lia) E) as (lens & EL & LL & ->).
  destruct (Nat.leb_spec 2 (occurring counts)) as [H2|H2].
  - destruct (jlengths_cost counts lens HP HS ltac:(lia) H2 EL) as (_ & c & -> & O). destruct (words_fit counts word W) as (L & R & K).
    specialize (O L (word_lengths counts word) ltac:(unfold word_lengths; rewrite map_length, seq_length; reflexivity) R K). lia.
  - rewrite (single_cost counts lens HP HS ltac:(lia) H2 EL). rewrite Z.add_0_r. apply one_each; [exact HP|unfold word_lengths; rewrite map_length, seq_length; reflexivity|apply word_one, W].
Qed.

(** ** One bit can be taken off every code *)
Definition shorter (lens : list Z) : list Z := map (fun l => if l =? 0 then 0 else l - 1) lens.
Lemma kraft_shorter lens : (forall s, ln lens s = 0 \/ 2 <= ln lens s) -> kraft 15 (shorter lens) = kraft 16 lens.
Proof.
  unfold shorter. induction lens as [|l lens IH]; intros H; [reflexivity|]. cbn [map]. rewrite !kraft_cons, IH by (intros s; apply (H (S s))). f_equal. specialize (H 0%nat). unfold ln in H. cbn [nth] in H. unfold kc.
  destruct (Z.eqb_spec l 0); [subst; reflexivity|]. destruct (Z.ltb_spec 0 (l - 1)), (Z.ltb_spec 0 l); try lia. f_equal. lia.
Qed.
Lemma coded_shorter counts : forall lens, length lens = length counts -> Forall (fun c => 0 <= c) counts -> (forall s, 0 < ln lens s <-> 0 < ln counts s) -> lens_ok 16 lens ->
  coded_bits counts (shorter lens) + lsum counts = coded_bits counts lens.
Proof.
  unfold shorter, coded_bits, lsum. induction counts as [|c counts IH]; intros [|l lens] L H S O; cbn [length] in L; try discriminate; try reflexivity. cbn [map combine fold_right fst snd].
  apply Forall_cons_iff in H as (Hc & H). apply Forall_cons_iff in O as (Ol & O). specialize (IH lens ltac:(lia) H ltac:(intros s; apply (S (Datatypes.S s))) O).
  specialize (S 0%nat). unfold ln in S. cbn [nth] in S. destruct (Z.eqb_spec l 0); [|lia]. assert (c = 0) by lia. subst. lia.
Qed.
Theorem one_bit_wasted counts bits vals : Forall (fun c => 0 <= c) counts -> fold_right Z.add 0 counts < 2 ^ 64 -> zlen counts <= 256 -> (2 <= occurring counts <= 255)%nat ->
  build_bits_vals counts = Ok (Some (bits, vals)) -> exists word, prefix_code counts word /\ (forall s, zlen (word s) <= 15) /\ coded_bits counts (word_lengths counts word) = table_cost counts bits vals - fold_right Z.add 0 counts.
Proof.
  intros HP HS HN H255 E. fold (lsum counts) in *. change (2 ^ 64) with U64 in HS.
  destruct (table_lengths counts bits vals HP HS HN ltac:(rewrite occ_nsyms; lia) E) as (lens & EL & LL & ->).
  destruct (build_code_lengths_ok counts HP HS ltac:(lia)) as (x & EL' & HX). assert (x = Some lens) as -> by congruence. destruct HX as (_ & L2 & L3 & L4).
  destruct (jlengths_cost counts lens HP HS ltac:(lia) ltac:(lia) EL) as (G2 & _).
  assert (forall s, ln (shorter lens) s = if ln lens s =? 0 then 0 else ln lens s - 1) as LS.
  { intros s. unfold ln, shorter. apply (map_nth (fun l => if l =? 0 then 0 else l - 1) lens 0 s). }
  assert (forall s, 0 <= ln lens s <= 16) as R. { intros s. unfold ln. apply (Forall_nth_d (fun l => 0 <= l <= 16)); [exact L2|lia]. }
  assert (code_ok 15 (shorter lens)) as C.
  { split; [|rewrite kraft_shorter by exact G2; rewrite L3; lia]. apply Forall_forall. intros l Hl. apply (In_nth _ _ 0) in Hl as (s & Hs & <-). fold (ln (shorter lens) s). rewrite LS. specialize (R s). destruct (Z.eqb_spec (ln lens s) 0); lia. }
  assert (forall s, zlen (code_word (shorter lens) s) = ln (shorter lens) s) as LW.
  { intros s. unfold code_word, zlen. rewrite rev_length, bits_of_length, Z2Nat.id; [reflexivity|]. rewrite LS. specialize (R s). destruct (Z.eqb_spec (ln lens s) 0); lia. }
  assert (length (shorter lens) = length counts) as LSh by (unfold shorter; rewrite map_length; exact LL).
  assert (forall i, 0 < nth i counts 0 -> has_code (shorter lens) i) as HC.
  { intros i Hi. split; [rewrite LSh; destruct (Nat.le_gt_cases (length counts) i); [rewrite nth_overflow in Hi by assumption; lia|assumption]|]. rewrite LS. apply L4 in Hi. specialize (G2 i). destruct (Z.eqb_spec (ln lens i) 0); lia. }
  exists (code_word (shorter lens)). split; [|split].
  - intros i Hi. split.
    + intros E0. apply (f_equal zlen) in E0. rewrite LW in E0. destruct (HC i Hi) as (_ & P). change (zlen []) with 0 in E0. lia.
    + intros j t Hj D E0. apply D. symmetry. refine (proj1 (canon_unique 15 (shorter lens) j i [] t ltac:(lia) C (HC j Hj) (HC i Hi) _)). rewrite app_nil_r. exact E0.
  - intros s. rewrite LW, LS. specialize (R s). destruct (Z.eqb_spec (ln lens s) 0); lia.
  - assert (word_lengths counts (code_word (shorter lens)) = shorter lens) as ->.
    { unfold word_lengths. rewrite (map_ext _ (ln (shorter lens))) by exact LW. rewrite <- LSh. clear. unfold ln. apply (nth_ext _ _ 0 0); [rewrite map_length, seq_length; reflexivity|]. intros n Hn. rewrite map_length, seq_length in Hn.
      rewrite (nth_indep _ 0 (nth 0 (shorter lens) 0)) by (rewrite map_length, seq_length; exact Hn). rewrite (map_nth (fun s => nth s (shorter lens) 0)), seq_nth by exact Hn. reflexivity. }
    rewrite <- (coded_shorter counts lens LL HP L4 L2). lia.
Qed.

(** ** A column of equal blocks *)
Definition column (block : list Z) (n : nat) : list Z := concat (repeat block n).
Definition column_opts (n : nat) (q : Z) (opt : bool) : jopts := mkjo 8 (8 * Z.of_nat n) Gray q S444 None opt false false.
Lemma column_len block n : length block = 64%nat -> zlen (column block n) = 64 * Z.of_nat n.
Proof. intros L. unfold column, zlen. induction n as [|n IH]; cbn [repeat concat]; [reflexivity|]. rewrite app_length, L. lia. Qed.
Lemma column_get block n : length block = 64%nat -> forall j i, 0 <= j < Z.of_nat n -> 0 <= i < 64 -> get (column block n) (64 * j + i) = Ok (nth (Z.to_nat i) block 0).
Proof.
  intros L. induction n as [|n IH]; intros j i Hj Hi; [lia|]. pose proof (column_len block n L) as LC. unfold column in *. cbn [repeat concat].
  assert (zlen (block ++ concat (repeat block n)) = 64 + 64 * Z.of_nat n) as LA by (unfold zlen in *; rewrite app_length, L; lia).
  rewrite (get_ok _ _ 0) by lia. f_equal. destruct (Z.eq_dec j 0) as [->|N].
  - rewrite app_nth1 by lia. do 2 f_equal.
  - specialize (IH (j - 1) i ltac:(lia) Hi). rewrite (get_ok _ _ 0) in IH by lia. rewrite app_nth2 by lia. rewrite L. replace (Z.to_nat (64 * j + i) - 64)%nat with (Z.to_nat (64 * (j - 1) + i)) by lia. congruence.
Qed.
Lemma column_block block n j : length block = 64%nat -> 0 <= j < Z.of_nat n ->
  extract_block (column block n) 8 (8 * Z.of_nat n) 0 (j * 8) Gray = Ok (map (fun g => 4 * (g - 128)) block, repeat 0 64, repeat 0 64).
Proof.
  intros L Hj. unfold extract_block. rewrite (map_res_ok _ (fun i => (4 * (nth (Z.to_nat i) block 0 - 128), 0, 0))).
  - cbn [rbind]. rewrite !map_map. cbn [fst snd]. unfold idxs. rewrite !map_map.
    assert (map (fun x : nat => 4 * (nth (Z.to_nat (Z.of_nat x)) block 0 - 128)) (seq 0 64) = map (fun g => 4 * (g - 128)) block) as ->; [|reflexivity].
    apply (nth_ext _ _ (4 * (0 - 128)) (4 * (0 - 128))); [rewrite !map_length, seq_length; congruence|]. intros k Hk. rewrite map_length, seq_length in Hk.
    rewrite (nth_indep _ (4 * (0 - 128)) (4 * (nth (Z.to_nat (Z.of_nat 0)) block 0 - 128))) by (rewrite map_length, seq_length; exact Hk).
    rewrite (map_nth (fun x => 4 * (nth (Z.to_nat (Z.of_nat x)) block 0 - 128))), seq_nth by exact Hk. rewrite (map_nth (fun g => 4 * (g - 128))). cbn [Nat.add]. rewrite Nat2Z.id. reflexivity.
  - intros i Hi. unfold idxs in Hi. apply in_map_iff in Hi as (k & <- & Hk). apply in_seq in Hk. unfold sample_at.
    pose proof (Z.mod_pos_bound (Z.of_nat k) 8 ltac:(lia)). pose proof (Z.div_mod (Z.of_nat k) 8 ltac:(lia)).
    assert (0 <= Z.of_nat k / 8 < 8) by (split; [apply Z.div_pos; lia|apply Z.div_lt_upper_bound; lia]).
    rewrite !Z.min_l by lia. replace ((j * 8 + Z.of_nat k / 8) * 8 + (0 + Z.of_nat k mod 8)) with (64 * j + Z.of_nat k) by lia.
    rewrite column_get by (try assumption; lia). reflexivity.
Qed.
Lemma map_res_const {A B} (f : A -> res B) b l : (forall x, In x l -> f x = Ok b) -> map_res f l = Ok (repeat b (length l)).
Proof. induction l as [|x l IH]; intros H; [reflexivity|]. cbn [map_res length repeat]. rewrite (H x (or_introl eq_refl)). cbn [rbind]. rewrite IH by (intros y Hy; apply H; right; exact Hy). reflexivity. Qed.
Lemma column_mcus q block n quality opt : length block = 64%nat -> corners 8 (8 * Z.of_nat n) 8 = map (fun j => (0, j * 8)) (idxs n) ->
  all_mcus q (column block n) (column_opts n quality opt) = Ok (repeat [(0, q (table_natural STD_LUMINANCE_TABLE quality) (map (fun g => 4 * (g - 128)) block))] n).
Proof.
  intros L C. unfold all_mcus, column_opts, mcu_step. cbn [jo_w jo_h jo_ct jo_sub]. rewrite C. rewrite (map_res_const _ [(0, q (table_natural STD_LUMINANCE_TABLE quality) (map (fun g => 4 * (g - 128)) block))]).
  - f_equal. f_equal. unfold idxs. rewrite !map_length, seq_length. reflexivity.
  - intros xy H. apply in_map_iff in H as (j & <- & H). apply in_idxs in H. unfold mcu_coefs. cbn [jo_ct jo_w jo_h]. rewrite column_block by assumption. reflexivity.
Qed.

(** ** Fifty blocks whose file grows by 57 bytes *)
Definition busy : list Z :=
  [134; 131; 127; 131; 154; 117; 119; 139; 105; 136; 114; 130; 111; 150; 150; 127;
   148; 161; 126; 151; 87; 77; 156; 178; 145; 127; 155; 114; 121; 121; 144; 151;
   156; 162; 149; 107; 147; 90; 143; 101; 109; 169; 118; 88; 106; 102; 109; 90;
   131; 119; 163; 110; 119; 121; 143; 127; 117; 130; 131; 116; 152; 141; 76; 111].
Definition busy_coefs : list Z :=
  [0; 16; 16; -8; -4; -2; -2; 2; 16; -16; 8; -4; 4; 2; -2; -2; -4; -8; -16; 4;
   2; -2; 2; -2; -8; 8; -4; 4; -2; -1; -1; 2; 4; 4; -4; 2; 2; -1; 1; 2; 4; -2;
   2; -2; 1; 1; 1; 1; -2; 2; 1; -1; 1; -1; -1; -1; 2; 1; 1; -1; 1; 1; -1; 1].
Lemma busy_dct : dctq (table_natural STD_LUMINANCE_TABLE 90) (map (fun g => 4 * (g - 128)) busy) = busy_coefs.
Proof. vm_compute. reflexivity. Qed.
Lemma busy_corners : corners 8 (8 * Z.of_nat 50) 8 = map (fun j => (0, j * 8)) (idxs 50).
Proof. vm_compute. reflexivity. Qed.
Lemma busy_mcus opt : all_mcus dctq (column busy 50) (column_opts 50 90 opt) = Ok (repeat [(0, busy_coefs)] 50).
Proof. rewrite column_mcus; [rewrite busy_dct; reflexivity|reflexivity|exact busy_corners]. Qed.
Lemma busy_valid opt : valid_args (column busy 50) (column_opts 50 90 opt).
Proof.
  unfold valid_args, column_opts. cbn [jo_w jo_h jo_quality jo_ct jo_restart]. split; [lia|]. split; [lia|]. split; [lia|]. split; [|split; [rewrite column_len by reflexivity; reflexivity|split; [left; reflexivity|exact I]]].
  unfold column. apply Forall_forall. intros x Hx. apply in_concat in Hx as (l & Hl & Hx). apply repeat_spec in Hl. subst l. revert x Hx. apply Forall_forall. unfold is_byte, busy. repeat constructor; lia.
Qed.
Definition gray_tables (opt : bool) (mcus : list (list (Z * list Z))) : res htables :=
  if opt then
    match count_mcus None (zlen mcus) 0 mcus [0; 0; 0] counts0 with
    | Ok k => match optimized_from_counts (n_dcl k) None (n_acl k) None with Ok (Some t) => Ok t | Ok None => std_tables | _ => Panic end
    | _ => Panic
    end
  else std_tables.
Definition gray_size (n : nat) (q : Z) (opt : bool) (mcus : list (list (Z * list Z))) : Z :=
  match gray_tables opt mcus with
  | Ok t => match encode_scan t None mcus with Ok scan => zlen (write_soi ++ write_app0 ++ write_dqt q ++ write_sof 192 8 (8 * Z.of_nat n) Gray S444 ++ write_dht t ++ [] ++ write_sos Gray ++ scan ++ write_eoi) | _ => -1 end
  | _ => -1
  end.
Lemma column_file block n q opt mcus size : valid_args (column block n) (column_opts n q opt) -> all_mcus dctq (column block n) (column_opts n q opt) = Ok mcus ->
  gray_size n q opt mcus = size -> 0 <= size -> exists file, jencode pixo_env (column block n) (column_opts n q opt) = Ok file /\ zlen file = size.
Proof.
  intros V M E P. unfold jencode. rewrite jencode_into_valid by exact V. unfold jpeg_body.
  assert (forall t, gray_tables opt mcus = Ok t -> choose_tables pixo_env (column block n) (column_opts n q opt) = Ok t) as ET.
  { intros t H. unfold choose_tables, build_optimized, gray_tables in *. change (je_dctq pixo_env) with dctq. rewrite M. cbn [rbind].
    unfold column_opts. cbn [jo_opt jo_restart jo_ct]. destruct opt; [|exact H].
    destruct (count_mcus None (zlen mcus) 0 mcus [0; 0; 0] counts0) as [k| | |]; try discriminate H. cbn [rbind]. destruct (optimized_from_counts (n_dcl k) None (n_acl k) None) as [[t'|]| | |]; [exact H|exact H|discriminate H|discriminate H|discriminate H]. }
  unfold gray_size in E. destruct (gray_tables opt mcus) as [t| | |]; try lia. rewrite (ET t eq_refl). cbn [rbind]. change (je_dctq pixo_env) with dctq. rewrite M. cbn [rbind].
  unfold column_opts. cbn [jo_restart jo_prog jo_ct jo_quality jo_w jo_h jo_sub].
  destruct (encode_scan t None mcus) as [scan| | |]; try lia. cbn [rbind].
  eexists. split; [reflexivity|exact E].
Qed.
Theorem optimised_larger : exists data o o', valid_args data o /\ jo_opt o = false /\ o' = mkjo (jo_w o) (jo_h o) (jo_ct o) (jo_quality o) (jo_sub o) (jo_restart o) true (jo_prog o) (jo_trellis o) /\
  exists file file', jencode pixo_env data o = Ok file /\ jencode pixo_env data o' = Ok file' /\ zlen file = 2522 /\ zlen file' = 2579.
Proof.
  exists (column busy 50), (column_opts 50 90 false), (column_opts 50 90 true). split; [apply busy_valid|]. split; [reflexivity|]. split; [reflexivity|].
  destruct (column_file busy 50 90 false _ 2522 (busy_valid false) (busy_mcus false)) as (file & E & L); [vm_compute; reflexivity|lia|]. destruct (column_file busy 50 90 true _ 2579 (busy_valid true) (busy_mcus true)) as (file' & E' & L'); [vm_compute; reflexivity|lia|].
  exists file, file'. auto.
Qed.
