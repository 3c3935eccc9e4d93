(** Blocks: every block the encoder writes is a block of the format. *)
From Verif Require Import Base BitsModel BitsProofs CanonSpec CanonProofs
  DeflateSpec InflateProofs HuffModel HuffProofs Lz77Model Lz77Spec Lz77Proofs DeflateModel DeflateSyms DeflateProofs DeflateRle.

Lemma toks_bits_same a a' b b' ts bs : (forall s, ln a s = ln a' s) -> (forall s, ln b s = ln b' s) ->
  toks_bits a b ts bs -> toks_bits a' b' ts bs.
Proof.
  intros HA HB H. induction H as [|t ts x xs Ht Hts IH]; constructor; auto.
  destruct Ht as [c Hc HC|li lb le x di db de y N1 X1 C1 N2 X2 C2].
  - rewrite (same_code_word a a' HA). constructor; auto. apply (same_has_code a a'); auto.
  - rewrite (same_code_word a a' HA), (same_code_word b b' HB). econstructor; eauto.
    + apply (same_has_code a a'); auto.
    + apply (same_has_code b b'); auto.
Qed.
Lemma body_bits_same a a' b b' ts bs : (forall s, ln a s = ln a' s) -> (forall s, ln b s = ln b' s) ->
  body_bits a b ts bs -> body_bits a' b' ts bs.
Proof.
  intros HA HB [ts' bs' H HC]. rewrite (same_code_word a a' HA). constructor.
  - apply (toks_bits_same a a' b b'); auto.
  - apply (same_has_code a a'); auto.
Qed.

Lemma nth_skipn_add {A} n i (l : list A) d : nth i (skipn n l) d = nth (n + i) l d.
Proof. revert l; induction n as [|n IH]; intros [|x l]; cbn [skipn Nat.add nth]; auto. destruct i; reflexivity. Qed.
Lemma firstn_plus {A} n m (l : list A) : firstn (n + m) l = firstn n l ++ firstn m (skipn n l).
Proof. revert l; induction n as [|n IH]; intros [|x l]; cbn [Nat.add firstn skipn app]; auto; [rewrite firstn_nil; auto|rewrite IH; auto]. Qed.
Lemma skipn_plus {A} n m (l : list A) : skipn m (skipn n l) = skipn (n + m) l.
Proof. revert l; induction n as [|n IH]; intros [|x l]; cbn [Nat.add skipn]; auto; rewrite ?skipn_nil; auto. Qed.
(** hclen *)
Lemma find_hclen_ok cc : length cc = 19%nat -> forall order i best, Forall (fun o => 0 <= o < 19) order ->
  0 <= i -> 0 <= best <= Z.min i 15 ->
  exists h, find_hclen order i cc best = Ok h /\ best <= h <= 15 /\
    forall k, (k < length order)%nat -> 0 < snd (nth (Z.to_nat (nth k order 0)) cc (0, 0)) -> Z.min (i + Z.of_nat k) 15 <= h.
Proof.
  intros HL. induction order as [|o order IH]; intros i best HO Hi Hb; cbn [find_hclen].
  - exists best. split; auto. split; [lia|]. cbn; intros; lia.
  - inversion HO; subst. rewrite (get_ok cc o (0, 0)) by (unfold zlen; lia).
    destruct (nth (Z.to_nat o) cc (0, 0)) as [c l] eqn:E. cbn [rbind].
    destruct (IH (i + 1) (if 0 <? l then Z.min i 15 else best) ltac:(auto) ltac:(lia)) as (h & E' & B & K).
    { destruct (0 <? l); lia. }
    exists h. split; auto. split; [destruct (0 <? l); lia|].
    intros [|k] Hk Hp; cbn [nth length] in *.
    + rewrite E in Hp. cbn [snd] in Hp. destruct (Z.ltb_spec 0 l); lia.
    + specialize (K k ltac:(lia) Hp). lia.
Qed.
Lemma write_cl_ok cl cc : length cc = 19%nat -> map snd cc = cl -> forall order w, b64_inv w -> Forall (fun o => (o < 19)%nat) order ->
  exists w', write_cl cc w (map Z.of_nat order) = Ok w' /\
             wrote w (flat_map (fun o => bits_of 3 (nth o cl 0)) order) w'.
Proof.
  intros HL HC. induction order as [|o order IH]; intros w Hw HO; cbn [write_cl map flat_map].
  - exists w. split; auto. apply wrote_refl; auto.
  - inversion HO; subst. rewrite (get_ok cc _ (0, 0)) by (unfold zlen; lia). rewrite Nat2Z.id.
    assert (snd (nth o cc (0, 0)) = nth o (map snd cc) 0) as S by apply snd_nth.
    destruct (nth o cc (0, 0)) as [c l]. cbn [rbind snd] in *. subst l.
    pose proof (write_wrote w (nth o (map snd cc) 0) 3 Hw ltac:(lia)) as W.
    destruct (IH _ (proj1 W) ltac:(auto)) as (w' & E & W'). exists w'. split; auto. eapply wrote_trans; eauto.
Qed.
Lemma write_rle_ok cl cr : table_for cl cr -> forall items w, b64_inv w -> Forall item_wf items ->
  Forall (fun i => has_code cl (cl_sym i)) (map instr_of items) ->
  exists w', write_rle cr w items = Ok w' /\ wrote w (cl_bits cl (map instr_of items)) w'.
Proof.
  intros HT. induction items as [|[[s v] n] items IH]; intros w Hw HW HC; cbn [write_rle map].
  - exists w. split; auto. apply wrote_refl; auto.
  - inversion HW as [|? ? W1 W2]; subst. cbn [map] in HC. apply Forall_cons_iff in HC as [C1 C2].
    assert (cl_sym (instr_of (s, v, n)) = Z.to_nat s /\ cl_extra (instr_of (s, v, n)) = bits_of (Z.to_nat n) v) as [E1 E2].
    { destruct W1 as (A & -> & B). unfold instr_of.
      destruct (Z.eqb_spec s 16) as [->|]; [cbn; split; auto; rewrite Z.add_simpl_r; auto|].
      destruct (Z.eqb_spec s 17) as [->|]; [cbn; split; auto; rewrite Z.add_simpl_r; auto|].
      destruct (Z.eqb_spec s 18) as [->|]; [cbn; split; auto; rewrite Z.add_simpl_r; auto|]. split; reflexivity. }
    rewrite E1 in C1. destruct (emit_ok w cl cr (Z.to_nat s) Hw HT C1) as (w1 & M1 & X1).
    assert (0 <= s <= 18 /\ 0 <= n <= 31) as [Hs Hn].
    { destruct W1 as (A & -> & B). split; auto. destruct (s =? 16), (s =? 17), (s =? 18); lia. }
    rewrite Z2Nat.id in M1 by lia. rewrite M1; cbn [rbind].
    pose proof (emit_extra_ok w1 v n (proj1 X1) Hn) as X2.
    destruct (IH _ (proj1 X2) W2 C2) as (w3 & M3 & X3). exists w3. split; auto.
    unfold cl_bits. cbn [flat_map]. rewrite E1, E2. rewrite <- app_assoc.
    eapply wrote_trans; [exact X1|]. eapply wrote_trans; [exact X2|]. exact X3.
Qed.

Lemma CL_ORDER_nat : CL_ORDER = map Z.of_nat rfc_cl_order.
Proof. reflexivity. Qed.

Lemma covered_of ts lf df M lc ll dc dl : codes_for lf M lc ll -> codes_for df M dc dl -> Forall legal_token ts ->
  Forall (counted lf df) ts -> Forall (covered ll dl) ts.
Proof.
  intros (_ & _ & _ & S1 & _) (_ & _ & _ & S2 & _) HL HC. rewrite Forall_forall in *. intros t Ht.
  specialize (HL t Ht). specialize (HC t Ht). destruct t as [b|l d]; cbn [covered counted legal_token] in *.
  - apply S1. exact HC.
  - destruct HC as [A B]. split; intros s e v E.
    + apply S1. apply (A s e v E).
    + apply S2. apply (B s e v E).
Qed.

Lemma lens15 M lens : 1 <= M <= 15 -> code_ok M lens -> Forall (fun l => 0 <= l <= 15) lens.
Proof. intros HM HK. exact (code_ok_15 M lens HM HK). Qed.

Lemma dyn_header_ok H w final ts lf df : b64_inv w -> freqs_ok ts lf df -> Forall legal_token ts ->
  exists w' lr dr hb ll dl ll0 dl0, write_dyn_header H w final (lf, df) = Ok (w', lr, dr) /\
    wrote w (final :: [false; true] ++ hb) w' /\ dyn_header code_ok hb ll dl /\ code_ok 15 ll /\ code_ok 15 dl /\
    table_for ll0 lr /\ table_for dl0 dr /\ (forall s, ln ll0 s = ln ll s) /\ (forall s, ln dl0 s = ln dl s) /\
    Forall (covered ll0 dl0) ts /\ has_code ll0 256.
Proof.
  intros Hw (N1 & N2 & L1 & L2 & S1 & S2 & P256 & HC & (di & Hdi & Hdp)) HL. unfold write_dyn_header.
  destruct (build_codes_ok H lf 15) as (lc & ll & E1 & CF1);
    [lia|exact N1|exact S1|unfold zlen; rewrite L1; vm_compute; congruence|unfold zlen; rewrite L1; vm_compute; congruence|].
  destruct (build_codes_ok H df 15) as (dc & dl & E2 & CF2);
    [lia|exact N2|exact S2|unfold zlen; rewrite L2; vm_compute; congruence|unfold zlen; rewrite L2; vm_compute; congruence|].
  rewrite E1; cbn [rbind]. rewrite E2; cbn [rbind].
  pose proof (covered_of ts lf df 15 lc ll dc dl CF1 CF2 HL HC) as COV.
  destruct CF1 as (CA1 & K1 & LL1 & SP1 & _). destruct CF2 as (CA2 & K2 & LL2 & SP2 & _).
  destruct (reversed_table 15 ll lc ltac:(lia) CA1 K1) as (lr & R1 & T1).
  destruct (reversed_table 15 dl dc ltac:(lia) CA2 K2) as (dr & R2 & T2).
  rewrite R1; cbn [rbind]. rewrite R2; cbn [rbind].
  rewrite (proj1 CA1), (proj1 CA2).
  pose proof (last_nonzero_spec ll) as (NA1 & NB1 & NC1). pose proof (last_nonzero_spec dl) as (NA2 & NB2 & NC2).
  assert (has_code ll 256) as H256 by (apply SP1; exact P256).
  assert (256 < last_nonzero ll) by (apply (NC1 256%nat); apply H256).
  assert (zlen ll = 286) by (unfold zlen; rewrite LL1, L1; reflexivity).
  assert (zlen dl = 30) by (unfold zlen; rewrite LL2, L2; reflexivity).
  set (hlit := Z.min (Z.max 0 (last_nonzero ll - 257)) 29).
  set (hdist := Z.min (Z.max 0 (last_nonzero dl - 1)) 29).
  assert (0 <= hlit <= 29 /\ 257 + hlit = last_nonzero ll) as [HH1 HH2] by lia.
  assert (0 <= hdist <= 29 /\ 1 + hdist = last_nonzero dl) as [HD1 HD2] by lia.
  rewrite HH2, HD2.
  set (ll' := firstn (Z.to_nat (last_nonzero ll)) ll). set (dl' := firstn (Z.to_nat (last_nonzero dl)) dl).
  assert (forall s, ln ll' s = ln ll s) as SL by (intros; apply ln_firstn; auto).
  assert (forall s, ln dl' s = ln dl s) as SD by (intros; apply ln_firstn; auto).
  assert (code_ok 15 ll') as KL by (apply trunc_code_ok; auto).
  assert (code_ok 15 dl') as KD by (apply trunc_code_ok; auto).
  assert (zlen ll' = hlit + 257) as ZL by (unfold ll', zlen; rewrite firstn_length; unfold zlen in *; lia).
  assert (zlen dl' = hdist + 1) as ZD by (unfold dl', zlen; rewrite firstn_length; unfold zlen in *; lia).
  destruct (rle_ok ll' dl') as (items & cf & E3 & (RI1 & RI2 & RI3 & RI4 & RI5 & RI6 & RI7)).
  { apply Forall_app; split; [apply (lens15 15)|apply (lens15 15)]; auto; lia. }
  { rewrite zlen_app. unfold U32. lia. }
  rewrite E3; cbn [rbind].
  destruct (build_codes_ok H cf 7) as (cc & cl & E4 & (CA3 & K3 & LL3 & SP3 & _));
    [lia|exact RI3|rewrite zlen_app in RI7; unfold U32; lia|unfold zlen; rewrite RI4; vm_compute; congruence|unfold zlen; rewrite RI4; vm_compute; congruence|].
  rewrite E4; cbn [rbind].
  destruct (reversed_table 7 cl cc ltac:(lia) CA3 K3) as (cr & R3 & T3). rewrite R3; cbn [rbind].
  assert (length cl = 19%nat) as L19 by (rewrite LL3; exact RI4).
  assert (length cc = 19%nat) as LC19 by (rewrite <- L19, <- (proj1 CA3), map_length; reflexivity).
  destruct (find_hclen_ok cc LC19 CL_ORDER 0 0) as (hc & E5 & B5 & C5);
    [unfold CL_ORDER; repeat (constructor; [lia|]); constructor|lia|lia|].
  rewrite E5; cbn [rbind].
  pose proof (write_wrote w (if final then 1 else 0) 1 Hw ltac:(lia)) as W1.
  pose proof (write_wrote _ 2 2 (proj1 W1) ltac:(lia)) as W2.
  pose proof (write_wrote _ hlit 5 (proj1 W2) ltac:(lia)) as W3.
  pose proof (write_wrote _ hdist 5 (proj1 W3) ltac:(lia)) as W4.
  pose proof (write_wrote _ hc 4 (proj1 W4) ltac:(lia)) as W5.
  destruct (write_cl_ok cl cc LC19 (proj1 CA3) (firstn (Z.to_nat (hc + 4)) rfc_cl_order) _ (proj1 W5)) as (w6 & E6 & W6).
  { apply Forall_firstn. unfold rfc_cl_order. repeat (constructor; [lia|]). constructor. }
  rewrite CL_ORDER_nat, firstn_map, E6; cbn [rbind].
  assert (Forall (fun i => has_code cl (cl_sym i)) (map instr_of items)) as HIC.
  { apply Forall_map. rewrite Forall_forall in *. intros [[s v] n] Hi. specialize (RI2 _ Hi). specialize (RI5 _ Hi). cbn [fst] in RI5.
    assert (cl_sym (instr_of (s, v, n)) = Z.to_nat s) as ->.
    { unfold instr_of. destruct (Z.eqb_spec s 16) as [->|]; [auto|]. destruct (Z.eqb_spec s 17) as [->|]; [auto|].
      destruct (Z.eqb_spec s 18) as [->|]; auto. }
    apply SP3. exact RI5. }
  destruct (write_rle_ok cl cr T3 items w6 (proj1 W6) RI2 HIC) as (w7 & E7 & W7). rewrite E7; cbn [rbind].
  exists w7, lr, dr, (bits_of 5 hlit ++ bits_of 5 hdist ++ bits_of 4 hc ++ cl_header (Z.to_nat (hc + 4)) cl ++ cl_bits cl (map instr_of items)),
    ll', dl', ll, dl.
  split; [reflexivity|]. split.
  { replace (final :: [false; true] ++ _) with ([final] ++ bits_of 2 2 ++ bits_of 5 hlit ++ bits_of 5 hdist ++ bits_of 4 hc ++ cl_header (Z.to_nat (hc + 4)) cl ++ cl_bits cl (map instr_of items)) by reflexivity.
    assert (bits_of (Z.to_nat 1) (if final then 1 else 0) = [final]) as EF by (destruct final; reflexivity). rewrite EF in W1.
    eapply wrote_trans; [exact W1|].
    eapply wrote_trans; [exact W2|]. eapply wrote_trans; [exact W3|]. eapply wrote_trans; [exact W4|].
    eapply wrote_trans; [exact W5|]. eapply wrote_trans; [exact W6|]. exact W7. }
  split.
  { constructor; auto; try lia. apply (Forall_of_nth _ O). intros i Hi.
    rewrite skipn_length in Hi. change (length rfc_cl_order) with 19%nat in Hi.
    rewrite nth_skipn_add. set (k := (Z.to_nat (hc + 4) + i)%nat) in *. assert (k < 19)%nat as Hk by lia.
    pose proof (C5 k ltac:(exact Hk)) as C. rewrite CL_ORDER_nat in C.
    assert (nth k (map Z.of_nat rfc_cl_order) 0 = Z.of_nat (nth k rfc_cl_order 0%nat)) as EN by exact (map_nth Z.of_nat rfc_cl_order 0%nat k).
    rewrite EN, Nat2Z.id, snd_nth, (proj1 CA3) in C.
    pose proof (lens15 7 cl ltac:(lia) K3) as F15.
    assert (0 <= nth (nth k rfc_cl_order 0%nat) cl 0) by (apply (Forall_nth_d (fun l => 0 <= l <= 15) cl); auto; lia).
    destruct (Z.eq_dec (nth (nth k rfc_cl_order 0%nat) cl 0) 0); auto. specialize (C ltac:(lia)). lia. }
  split; [exact KL|]. split; [exact KD|]. split; [exact T1|]. split; [exact T2|].
  split; [intros; symmetry; apply SL|]. split; [intros; symmetry; apply SD|]. split; [exact COV|exact H256].
Qed.

(** A dynamic block *)
Definition dyn_block_bits (final : bool) (ts : list token) (bs : list bool) : Prop :=
  exists hb ll dl body, bs = final :: [false; true] ++ hb ++ body /\ dyn_header code_ok hb ll dl /\
    code_ok 15 ll /\ code_ok 15 dl /\ body_bits ll dl ts body.
Lemma dyn_block_ok H w ts final : b64_inv w -> Forall legal_token ts -> zlen ts + 1 < U32 ->
  exists w' bs, write_dynamic_huffman_block H w ts final = Ok w' /\ wrote w bs w' /\ dyn_block_bits final ts bs.
Proof.
  intros Hw HL HS. unfold write_dynamic_huffman_block.
  destruct (count_symbols_ok ts HL HS) as (lf & df & E & F). rewrite E; cbn [rbind].
  destruct (dyn_header_ok H w final ts lf df Hw F HL) as (w1 & lr & dr & hb & ll & dl & ll0 & dl0 & E1 & W1 & D1 & D2 & D3 & T1 & T2 & S1 & S2 & COV & H256).
  rewrite E1; cbn [rbind].
  destruct (body_ok ll0 dl0 lr dr ts w1 T1 T2 (proj1 W1) HL COV H256) as (w2 & bs & E2 & W2 & B2).
  exists w2, ((final :: [false; true] ++ hb) ++ bs). split; [exact E2|]. split; [eapply wrote_trans; eauto|].
  exists hb, ll, dl, bs. split; [cbn [app]; rewrite <- ?app_assoc; reflexivity|]. split; auto. split; auto. split; auto.
  apply (body_bits_same ll0 ll dl0 dl); auto.
Qed.
Lemma dyn_block_denotes final ts bs out out' rest : dyn_block_bits final ts bs -> expand out ts = Some out' ->
  exists bits, bs ++ rest = final :: bits /\ block code_ok out bits out' rest.
Proof.
  intros (hb & ll & dl & body & -> & D1 & D2 & D3 & B) HE.
  exists ([false; true] ++ hb ++ body ++ rest). split; [cbn [app]; rewrite <- ?app_assoc; reflexivity|].
  econstructor; eauto.
Qed.

(** fixed codes *)
Lemma fixed_tables : exists lr dr, fixed_literal_codes_rev = Ok lr /\ fixed_distance_codes_rev = Ok dr /\
  table_for rfc_fixed_lit lr /\ table_for rfc_fixed_dist dr.
Proof.
  destruct (generate_ok 15 rfc_fixed_lit ltac:(lia) fixed_lit_ok ltac:(vm_compute; congruence)) as (lc & E1 & C1 & D1).
  destruct (generate_ok 15 rfc_fixed_dist ltac:(lia) fixed_dist_ok ltac:(vm_compute; congruence)) as (dc & E2 & C2 & D2).
  destruct (reversed_table 15 rfc_fixed_lit lc ltac:(lia) (conj C1 D1) fixed_lit_ok) as (lr & R1 & T1).
  destruct (reversed_table 15 rfc_fixed_dist dc ltac:(lia) (conj C2 D2) fixed_dist_ok) as (dr & R2 & T2).
  exists lr, dr. unfold fixed_literal_codes_rev, fixed_distance_codes_rev, fixed_literal_codes, fixed_distance_codes.
  fold rfc_fixed_lit. fold rfc_fixed_dist. rewrite E1, E2. cbn [rbind]. auto.
Qed.
Lemma fixed_lit_pos s : (s < 288)%nat -> has_code rfc_fixed_lit s.
Proof.
  intros H. split; [exact H|].
  assert (forallb (fun s => 0 <? ln rfc_fixed_lit s) (seq 0 288) = true) as K by (vm_compute; reflexivity).
  rewrite forallb_forall in K. specialize (K s ltac:(apply in_seq; lia)). lia.
Qed.
Lemma fixed_dist_pos s : (s < 32)%nat -> has_code rfc_fixed_dist s.
Proof.
  intros H. split; [exact H|].
  assert (forallb (fun s => 0 <? ln rfc_fixed_dist s) (seq 0 32) = true) as K by (vm_compute; reflexivity).
  rewrite forallb_forall in K. specialize (K s ltac:(apply in_seq; lia)). lia.
Qed.
Lemma fixed_covered ts : Forall legal_token ts -> Forall (covered rfc_fixed_lit rfc_fixed_dist) ts.
Proof.
  intros H. eapply Forall_impl; [|exact H]. intros [b|l d]; cbn [legal_token covered].
  - unfold is_byte. intros. apply fixed_lit_pos. lia.
  - intros (A & B). split; intros s e v E.
    + destruct (length_code_ok l A) as (li & lb & le & x & N1 & R1 & X1 & _ & E1). rewrite E1 in E; inversion E; subst.
      assert (li < 29)%nat by (change 29%nat with (length rfc_length); apply nth_error_Some; congruence).
      apply fixed_lit_pos. lia.
    + destruct (distance_code_ok d B) as (li & lb & le & x & N1 & R1 & X1 & _ & E1). rewrite E1 in E; inversion E; subst.
      assert (li < 30)%nat by (change 30%nat with (length rfc_distance); apply nth_error_Some; congruence).
      apply fixed_dist_pos. lia.
Qed.

(** ** Streams *)
(** finishing the writer: the bits, then fewer than 8 zero bits *)
Lemma finish_stream w bs out : wrote b64_new bs w ->
  (forall pad, exists rest, blocks code_ok [] (bs ++ pad) out rest /\ rest = pad) ->
  bytes (b64_finish w) /\ deflate_stream (b64_finish w) out.
Proof.
  intros [W1 W2] HB. destruct (b64_finish_spec w W1) as [F1 F2]. split; auto.
  rewrite W2 in F2. cbn [app] in F2. 
  assert (b64_bits b64_new = []) as E0 by reflexivity. rewrite E0 in F2. cbn [app] in F2.
  set (pd := repeat false (Z.to_nat ((- b64_n w) mod 8))) in *.
  destruct (HB pd) as (rest & B & ->). exists pd. split; [rewrite F2; exact B|].
  unfold pd. rewrite repeat_length. lia.
Qed.
Theorem encode_dynamic_ok H ts out : Forall legal_token ts -> zlen ts + 1 < U32 -> expand [] ts = Some out ->
  exists o, encode_dynamic_huffman H ts = Ok o /\ bytes o /\ deflate_stream o out.
Proof.
  intros HL HS HE. unfold encode_dynamic_huffman.
  destruct (dyn_block_ok H b64_new ts true b64_new_inv HL HS) as (w & bs & E & W & D). rewrite E; cbn [rbind].
  eexists; split; [reflexivity|]. apply (finish_stream w bs out W). intros pad. exists pad. split; auto.
  destruct (dyn_block_denotes true ts bs [] out pad D HE) as (bits & -> & B). constructor; auto.
Qed.
Theorem encode_fixed_ok ts out : Forall legal_token ts -> expand [] ts = Some out ->
  exists o, encode_fixed_huffman ts = Ok o /\ bytes o /\ deflate_stream o out.
Proof.
  intros HL HE. unfold encode_fixed_huffman. destruct fixed_tables as (lr & dr & -> & -> & T1 & T2). cbn [rbind].
  pose proof (write_wrote b64_new 1 1 b64_new_inv ltac:(lia)) as W1.
  pose proof (write_wrote _ 1 2 (proj1 W1) ltac:(lia)) as W2.
  destruct (body_ok _ _ lr dr ts _ T1 T2 (proj1 W2) HL (fixed_covered ts HL) (fixed_lit_pos 256 ltac:(lia))) as (w3 & bs & E & W3 & B).
  destruct (write_tokens lr dr _ ts) as [w'| | |]; cbn [rbind] in *; try discriminate. rewrite E; cbn [rbind].
  eexists; split; [reflexivity|].
  apply (finish_stream w3 (bits_of 1 1 ++ bits_of 2 1 ++ bs) out).
  { eapply wrote_trans; [exact W1|]. eapply wrote_trans; [exact W2|]. exact W3. }
  intros pad. exists pad. split; auto.
  change ((bits_of 1 1 ++ bits_of 2 1 ++ bs) ++ pad) with (true :: ([true; false] ++ bs) ++ pad).
  constructor. rewrite <- app_assoc. econstructor; eauto.
Qed.
Theorem empty_block_ok : exists o, empty_deflate_fixed_block = Ok o /\ bytes o /\ deflate_stream o [].
Proof.
  destruct (encode_fixed_ok [] [] (Forall_nil _) eq_refl) as (o & E & R). exists o. split; [|exact R].
  rewrite <- E. unfold empty_deflate_fixed_block, encode_fixed_huffman.
  destruct fixed_tables as (lr & dr & -> & -> & _). reflexivity.
Qed.
Theorem encode_best_ok H ts out : Forall legal_token ts -> zlen ts + 1 < U32 -> expand [] ts = Some out ->
  exists o, encode_best_huffman H ts = Ok o /\ bytes o /\ deflate_stream o out.
Proof.
  intros HL HS HE. unfold encode_best_huffman.
  destruct (encode_dynamic_ok H ts out HL HS HE) as (d & -> & D). destruct (encode_fixed_ok ts out HL HE) as (f & -> & F).
  cbn [rbind]. destruct (zlen ts <=? 128); [eauto|]. destruct (128 <=? zlen ts); [eauto|]. destruct (zlen d <? zlen f); eauto.
Qed.

(** ** Several blocks *)
(** non-decreasing boundaries within the token list *)
Fixpoint bounds_ok (lo : Z) (bs : list Z) (hi : Z) : Prop :=
  match bs with [] => lo <= hi | b :: r => lo <= b /\ bounds_ok b r hi end.
Lemma bounds_ok_le lo bs hi : bounds_ok lo bs hi -> lo <= hi.
Proof. revert lo; induction bs as [|b r IH]; cbn; intros lo H; auto. destruct H as [A B]. apply IH in B. lia. Qed.
Lemma slice_app {A} (l : list A) a b c : 0 <= a <= b -> b <= c -> slice l a c = slice l a b ++ slice l b c.
Proof.
  intros H1 H2. unfold slice. replace (Z.to_nat (c - a)) with (Z.to_nat (b - a) + Z.to_nat (c - b))%nat by lia.
  replace (Z.to_nat b) with (Z.to_nat a + Z.to_nat (b - a))%nat by lia.
  rewrite firstn_plus, <- skipn_plus. reflexivity.
Qed.
Lemma slice_all {A} (l : list A) : slice l 0 (zlen l) = l.
Proof. unfold slice, zlen. rewrite Z.sub_0_r, Nat2Z.id. cbn [Z.to_nat skipn]. apply firstn_all. Qed.
Lemma expand_split out a b o : expand out (a ++ b) = Some o -> exists m, expand out a = Some m /\ expand m b = Some o.
Proof. rewrite expand_app. destruct (expand out a) as [m|]; [eauto|discriminate]. Qed.
Lemma Forall_slice {A} (P : A -> Prop) l a b : Forall P l -> Forall P (slice l a b).
Proof. intros; unfold slice; apply Forall_firstn, Forall_skipn; auto. Qed.
Lemma write_blocks_ok H ts : Forall legal_token ts -> zlen ts + 1 < U32 -> forall bs lo w out out', b64_inv w -> 0 <= lo ->
  bounds_ok lo bs (zlen ts) -> expand out (slice ts lo (zlen ts)) = Some out' ->
  exists w' xs, write_blocks H w ts (lo :: bs ++ [zlen ts]) = Ok w' /\ wrote w xs w' /\
    forall pad, blocks code_ok out (xs ++ pad) out' pad.
Proof.
  intros HL HS. assert (forall a b, 0 <= a -> a <= b <= zlen ts -> zlen (slice ts a b) + 1 < U32) as SZ.
  { intros a b Ha Hb. unfold slice, zlen in *. rewrite firstn_length, skipn_length. lia. }
  assert (forall a b, 0 <= a -> a <= b <= zlen ts -> slice_r ts a b = Ok (slice ts a b)) as SR.
  { intros a b Ha Hb. apply slice_r_ok; lia. }
  induction bs as [|b bs IH]; intros lo w out out' Hw Hlo HB HE; cbn [bounds_ok] in HB.
  - cbn [app write_blocks]. rewrite SR by lia. cbn [rbind].
    destruct (dyn_block_ok H w (slice ts lo (zlen ts)) true Hw (Forall_slice _ _ _ _ HL) (SZ lo (zlen ts) ltac:(lia) ltac:(lia))) as (w' & xs & E & W & D).
    rewrite E; cbn [rbind]. exists w', xs. split; auto. split; auto. intros pad.
    destruct (dyn_block_denotes true _ _ _ _ pad D HE) as (bits & -> & B). constructor; auto.
  - destruct HB as [B1 B2]. pose proof (bounds_ok_le _ _ _ B2) as B3.
    cbn [app write_blocks]. rewrite SR by lia. cbn [rbind].
    rewrite (slice_app ts lo b (zlen ts)) in HE by lia. destruct (expand_split _ _ _ _ HE) as (m & M1 & M2).
    destruct (dyn_block_ok H w (slice ts lo b) false Hw (Forall_slice _ _ _ _ HL) (SZ lo b ltac:(lia) ltac:(lia))) as (w1 & xs & E & W & D).
    destruct (IH b w1 m out' (proj1 W) ltac:(lia) B2 M2) as (w2 & ys & E2 & W2 & K2).
    exists w2, (xs ++ ys). split; [|split].
    + destruct (bs ++ [zlen ts]) eqn:Eb; [destruct bs; discriminate|]. rewrite E; cbn [rbind]. exact E2.
    + eapply wrote_trans; eauto.
    + intros pad. rewrite <- app_assoc.
      destruct (dyn_block_denotes false _ _ _ _ (ys ++ pad) D M1) as (bits & -> & B). econstructor; eauto.
Qed.
Theorem split_blocks_ok H ts splits out : Forall legal_token ts -> zlen ts + 1 < U32 -> bounds_ok 0 splits (zlen ts) ->
  expand [] ts = Some out ->
  exists w, write_blocks H b64_new ts (0 :: splits ++ [zlen ts]) = Ok w /\ bytes (b64_finish w) /\ deflate_stream (b64_finish w) out.
Proof.
  intros HL HS HB HE. rewrite <- (slice_all ts) in HE.
  destruct (write_blocks_ok H ts HL HS splits 0 b64_new [] out b64_new_inv ltac:(lia) HB HE) as (w & xs & E & W & K).
  exists w. split; auto. apply (finish_stream w xs out W). intros pad. exists pad. auto.
Qed.
