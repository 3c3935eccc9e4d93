(** Proofs for C84 and C85: cut-off data. *)
From Verif Require Import Base CanonSpec CanonProofs DeflateSpec ChecksumModel ChecksumSpec InflateModel InflateProofs Lz77Model Lz77Proofs PngFilterModel PngPaletteModel PngFilterProofs PngDecModel PngModel PngSpec PngDecProofs PngEncSpec PngFileProofs PngTop PngQuantProofs PngApi.

(** ** A DEFLATE stream is read in one way: if one reading keeps to the RFC, every other
    reading, however lenient, is the same *)
Lemma app_split {A} (a b c d : list A) : length a = length c -> a ++ b = c ++ d -> a = c /\ b = d.
Proof. revert c. induction a as [|x a IH]; intros [|y c] L E; cbn in *; try discriminate; auto. injection L as L. injection E as -> E. destruct (IH c L E) as (-> & ->). auto. Qed.
Lemma fixed_inv n a b (x y : list bool) : 0 <= a < 2 ^ Z.of_nat n -> 0 <= b < 2 ^ Z.of_nat n -> bits_of n a ++ x = bits_of n b ++ y -> a = b /\ x = y.
Proof.
  intros A B E. apply app_split in E; [|rewrite !bits_of_length; reflexivity]. destruct E as (E1 & E2).
  split; [|exact E2]. exact (bits_of_inj n a b A B E1).
Qed.
Lemma tok_head ll dl t b : tok_bits ll dl t b -> exists s r, has_code ll s /\ b = code_word ll s ++ r /\ s <> 256%nat.
Proof.
  destruct 1 as [b B H|li lb le x di db de y L X H D Y H'].
  - exists (Z.to_nat b), []. split; [exact H|]. split; [rewrite app_nil_r; reflexivity|lia].
  - eexists (257 + li)%nat, _. split; [exact H|]. split; [reflexivity|lia].
Qed.
Lemma pow_nat le : 0 <= le -> 2 ^ Z.of_nat (Z.to_nat le) = 2 ^ le.
Proof. intros H. rewrite Z2Nat.id by exact H. reflexivity. Qed.
Lemma rfc_length_extra li lb le : nth_error rfc_length li = Some (lb, le) -> 0 <= le.
Proof. intros H. do 29 (destruct li as [|li]; [cbn in H; injection H as <- <-; lia|]). destruct li; discriminate. Qed.
Lemma rfc_distance_extra li lb le : nth_error rfc_distance li = Some (lb, le) -> 0 <= le.
Proof. intros H. do 30 (destruct li as [|li]; [cbn in H; injection H as <- <-; lia|]). destruct li; discriminate. Qed.
Lemma tok_inv ll dl t t' b b' x x' : code_ok 15 ll -> code_ok 15 dl -> tok_bits ll dl t b -> tok_bits ll dl t' b' -> b ++ x = b' ++ x' -> t = t' /\ x = x'.
Proof.
  intros K1 K2 H H' E. destruct H as [b B H|li lb le u di db de y L X H D Y H2]; destruct H' as [b' B' H'|li' lb' le' u' di' db' de' y' L' X' H' D' Y' H2'].
  - destruct (canon_unique 15 ll _ _ _ _ ltac:(lia) K1 H H' E) as (S & R). split; [f_equal; lia|exact R].
  - rewrite <- app_assoc in E. destruct (canon_unique 15 ll _ _ _ _ ltac:(lia) K1 H H' E) as (S & _). lia.
  - rewrite <- app_assoc in E. destruct (canon_unique 15 ll _ _ _ _ ltac:(lia) K1 H H' E) as (S & _). lia.
  - rewrite <- !app_assoc in E. destruct (canon_unique 15 ll _ _ _ _ ltac:(lia) K1 H H' E) as (S & E1). assert (li' = li) as -> by lia.
    rewrite L in L'. injection L' as <- <-. pose proof (rfc_length_extra _ _ _ L). pose proof (rfc_distance_extra _ _ _ D).
    apply fixed_inv in E1; [|rewrite pow_nat; lia|rewrite pow_nat; lia]. destruct E1 as (<- & E2).
    destruct (canon_unique 15 dl _ _ _ _ ltac:(lia) K2 H2 H2' E2) as (<- & E3). rewrite D in D'. injection D' as <- <-.
    apply fixed_inv in E3; [|rewrite pow_nat; lia|rewrite pow_nat; lia]. destruct E3 as (<- & E4). auto.
Qed.
Lemma body_inv ll dl ts ts' bs bs' x x' : code_ok 15 ll -> code_ok 15 dl -> body_bits ll dl ts bs -> body_bits ll dl ts' bs' -> bs ++ x = bs' ++ x' -> ts = ts' /\ x = x'.
Proof.
  intros K1 K2 X X' E. destruct X as [us b0 T H]. destruct X' as [ts1 b1 T' H0]. clear H0. rewrite <- !app_assoc in E. revert ts1 b1 T' x x' E. induction T as [|t us b bb Ht T IH]; intros ts1 b1 T' x x' E.
  - destruct T' as [|t' ts' b' bs' Ht' T']; [cbn [app] in E; apply app_inv_head in E; auto|]. cbn [app] in E. destruct (tok_head _ _ _ _ Ht') as (s & r & S & -> & N). rewrite <- !app_assoc in E.
    destruct (canon_unique 15 ll _ _ _ _ ltac:(lia) K1 H S E) as (Q & _). congruence.
  - destruct T' as [|t' ts' b' bs' Ht' T'].
    + cbn [app] in E. destruct (tok_head _ _ _ _ Ht) as (s & r & S & -> & N). rewrite <- !app_assoc in E. destruct (canon_unique 15 ll _ _ _ _ ltac:(lia) K1 S H E) as (Q & _). congruence.
    + rewrite <- !app_assoc in E. destruct (tok_inv _ _ _ _ _ _ _ _ K1 K2 Ht Ht' E) as (<- & E'). destruct (IH _ _ T' _ _ E') as (<- & <-). auto.
Qed.
(** the lengths of a dynamic block *)
Lemma run1_longer acc i l : cl_run1 acc i = Some l -> zlen acc < zlen l.
Proof.
  destruct i as [v|n|n|n]; cbn [cl_run1].
  - destruct (_ && _); [|discriminate]. intros [= <-]. rewrite zlen_app, zlen_cons, zlen_nil. lia.
  - destruct acc as [|a acc]; [discriminate|]. destruct (_ && _) eqn:Q; [|discriminate]. intros [= <-]. change (a :: acc ++ ?r) with ((a :: acc) ++ r). rewrite zlen_app. unfold zlen at 3. rewrite repeat_length. lia.
  - destruct (_ && _) eqn:Q; [|discriminate]. intros [= <-]. rewrite zlen_app. unfold zlen at 3. rewrite repeat_length. lia.
  - destruct (_ && _) eqn:Q; [|discriminate]. intros [= <-]. rewrite zlen_app. unfold zlen at 3. rewrite repeat_length. lia.
Qed.
Lemma run_longer is : forall acc l, cl_run acc is = Some l -> zlen acc <= zlen l.
Proof. induction is as [|i is IH]; intros acc l; cbn [cl_run]; [intros [= <-]; lia|]. destruct (cl_run1 acc i) as [a|] eqn:R; [|discriminate]. intros H. apply IH in H. apply run1_longer in R. lia. Qed.
Lemma instr_inv acc i i' a a' x x' : cl_run1 acc i = Some a -> cl_run1 acc i' = Some a' -> cl_sym i = cl_sym i' -> cl_extra i ++ x = cl_extra i' ++ x' -> i = i' /\ x = x'.
Proof.
  intros R R' S E. destruct i as [v|n|n|n], i' as [v'|n'|n'|n']; cbn [cl_sym cl_run1 cl_extra] in *; try discriminate;
    repeat match goal with H : match acc with [] => None | _ => _ end = Some _ |- _ => destruct acc; [discriminate|] end;
    destruct (_ && _) eqn:Q in R; try discriminate; destruct (_ && _) eqn:Q' in R'; try discriminate; try lia.
  - split; [f_equal; lia|exact E].
  - apply (fixed_inv 2) in E; [|change (2 ^ Z.of_nat 2) with 4; lia|change (2 ^ Z.of_nat 2) with 4; lia]. destruct E as (F & G). split; [f_equal; lia|exact G].
  - apply (fixed_inv 3) in E; [|change (2 ^ Z.of_nat 3) with 8; lia|change (2 ^ Z.of_nat 3) with 8; lia]. destruct E as (F & G). split; [f_equal; lia|exact G].
  - apply (fixed_inv 7) in E; [|change (2 ^ Z.of_nat 7) with 128; lia|change (2 ^ Z.of_nat 7) with 128; lia]. destruct E as (F & G). split; [f_equal; lia|exact G].
Qed.
Lemma instrs_inv cl : code_ok 7 cl -> forall is is' acc l l' x x', Forall (fun i => has_code cl (cl_sym i)) is -> Forall (fun i => has_code cl (cl_sym i)) is' ->
  cl_run acc is = Some l -> cl_run acc is' = Some l' -> zlen l = zlen l' -> cl_bits cl is ++ x = cl_bits cl is' ++ x' -> l = l' /\ x = x'.
Proof.
  intros K. induction is as [|i is IH]; intros is' acc l l' x x' F F' R R' L E; destruct is' as [|i' is'].
  - cbn in R, R', E. split; congruence.
  - cbn [cl_run] in R, R'. injection R as <-. destruct (cl_run1 acc i') as [a|] eqn:Q; [|discriminate]. apply run1_longer in Q. apply run_longer in R'. lia.
  - cbn [cl_run] in R, R'. injection R' as <-. destruct (cl_run1 acc i) as [a|] eqn:Q; [|discriminate]. apply run1_longer in Q. apply run_longer in R. lia.
  - inversion F as [|? ? F1 F2]. inversion F' as [|? ? F1' F2']. subst. cbn [cl_run] in R, R'. destruct (cl_run1 acc i) as [a|] eqn:Q; [|discriminate]. destruct (cl_run1 acc i') as [a'|] eqn:Q'; [|discriminate].
    unfold cl_bits in E. cbn [flat_map] in E. rewrite <- !app_assoc in E. destruct (canon_unique 7 cl _ _ _ _ ltac:(lia) K F1 F1' E) as (S & E1).
    destruct (instr_inv _ _ _ _ _ _ _ Q Q' S E1) as (<- & E2). rewrite Q in Q'. injection Q' as <-. exact (IH _ _ _ _ _ _ F2 F2' R R' L E2).
Qed.
Lemma order_inv (cl cl' : list Z) os x x' : lens_ok 7 cl -> lens_ok 7 cl' ->
  flat_map (fun o => bits_of 3 (nth o cl 0)) os ++ x = flat_map (fun o => bits_of 3 (nth o cl' 0)) os ++ x' -> Forall (fun o => nth o cl 0 = nth o cl' 0) os /\ x = x'.
Proof.
  intros H H'. induction os as [|o os IH]; cbn [flat_map app]; intros E; [split; [constructor|exact E]|]. rewrite <- !app_assoc in E.
  pose proof (ln_range 7 cl o ltac:(lia) H) as R. pose proof (ln_range 7 cl' o ltac:(lia) H') as R'. unfold ln in R, R'.
  apply (fixed_inv 3) in E; [|change (2 ^ Z.of_nat 3) with 8; lia|change (2 ^ Z.of_nat 3) with 8; lia]. destruct E as (F & G). destruct (IH G) as (I & J). split; [constructor; assumption|exact J].
Qed.
Lemma dyn_inv h h' ll dl ll' dl' x x' : dyn_header code_ok h ll dl -> dyn_header lens_ok h' ll' dl' -> h ++ x = h' ++ x' -> ll = ll' /\ dl = dl' /\ x = x'.
Proof.
  intros [hlit hdist hclen cl is l1 d1 A1 A2 A3 A4 A5 A6 A7 A8 A9 A10] [hlit' hdist' hclen' cl' is' l2 d2 B1 B2 B3 B4 B5 B6 B7 B8 B9 B10] E. rewrite <- !app_assoc in E.
  apply (fixed_inv 5) in E; [|change (2 ^ Z.of_nat 5) with 32; lia|change (2 ^ Z.of_nat 5) with 32; lia]. destruct E as (<- & E1).
  apply (fixed_inv 5) in E1; [|change (2 ^ Z.of_nat 5) with 32; lia|change (2 ^ Z.of_nat 5) with 32; lia]. destruct E1 as (<- & E2).
  apply (fixed_inv 4) in E2; [|change (2 ^ Z.of_nat 4) with 16; lia|change (2 ^ Z.of_nat 4) with 16; lia]. destruct E2 as (<- & E3).
  unfold cl_header in E3. destruct (order_inv cl cl' _ _ _ (proj1 A5) B5 E3) as (O & E4).
  assert (cl = cl') as <-.
  { apply (nth_ext cl cl' 0 0); [congruence|]. intros o Ho. assert (In o rfc_cl_order) as I by (apply order_all; lia). rewrite <- (firstn_skipn (Z.to_nat (hclen + 4)) rfc_cl_order) in I.
    apply in_app_or in I. destruct I as [I|I]; [exact (proj1 (Forall_forall _ _) O o I)|].
    rewrite (proj1 (Forall_forall _ _) A6 o I), (proj1 (Forall_forall _ _) B6 o I). reflexivity. }
  destruct (instrs_inv cl A5 is is' [] _ _ _ _ A7 B7 A8 B8 ltac:(rewrite !zlen_app; lia) E4) as (L & X).
  apply app_split in L; [|unfold zlen in *; lia]. destruct L as (-> & ->). auto.
Qed.
Lemma pad_inv (pad pad' : list bool) x x' : (length pad < 8)%nat -> (length pad' < 8)%nat -> Nat.modulo (length x) 8 = 0%nat -> Nat.modulo (length x') 8 = 0%nat -> pad ++ x = pad' ++ x' -> x = x'.
Proof.
  intros L L' M M' E. assert (length pad = length pad') as Q.
  { pose proof (f_equal (@length bool) E) as K. rewrite !app_length in K.
    rewrite (Nat.div_mod_eq (length x) 8), (Nat.div_mod_eq (length x') 8), M, M' in K. lia. }
  exact (proj2 (app_split _ _ _ _ Q E)).
Qed.
Lemma block_inv0 out b1 b2 o1 r1 o2 r2 out2 : block code_ok out b1 o1 r1 -> block lens_ok out2 b2 o2 r2 -> out = out2 -> b1 = b2 -> o1 = o2 /\ r1 = r2.
Proof.
  intros H H' Eo E2. destruct H as [out pad data rest A B C D|out ts bs o' rest A B|out hb ll dl ts bs o' rest A B C D E];
    destruct H' as [q1 pad' data' r2 A' B' C' D'|q1 ts' bs' q2 r2 A' B'|q1 hb' ll' dl' ts' bs' q2 r2 A' B' C' D' F']; subst q1; try (cbn [app] in E2; discriminate E2); cbn [app] in E2; injection E2 as E2; symmetry in E2.
  - pose proof (zlen_nonneg data). pose proof (zlen_nonneg data').
    assert (forall l : list bool, Nat.modulo (length l) 8 = 0%nat -> forall d, Nat.modulo (length (bits_of 16 (zlen d) ++ bits_of 16 (65535 - zlen d) ++ bytes_bits d ++ l)) 8 = 0%nat) as M.
    { intros l Hl d. rewrite !app_length, !bits_of_length, bytes_bits_length. rewrite (Nat.div_mod_eq (length l) 8), Hl. replace (16 + (16 + (8 * length d + (8 * (length l / 8) + 0))))%nat with ((4 + length d + length l / 8) * 8)%nat by lia. apply Nat.mod_mul. discriminate. }
    apply pad_inv in E2; [|exact A'|exact A|apply M; exact D'|apply M; exact D]. assert (zlen data' = zlen data /\ bits_of 16 (65535 - zlen data') ++ bytes_bits data' ++ r2 = bits_of 16 (65535 - zlen data) ++ bytes_bits data ++ rest) as (L & E3).
    { apply (fixed_inv 16) in E2; [exact E2| |]; change (2 ^ Z.of_nat 16) with 65536; lia. }
    rewrite L in E3. apply app_inv_head in E3. apply app_split in E3; [|rewrite !bytes_bits_length; unfold zlen in L; lia]. destruct E3 as (E3 & ->).
    apply bytes_bits_inj in E3; auto. subst. auto.
  - destruct (body_inv _ _ _ _ _ _ _ _ fixed_lit_ok fixed_dist_ok A A' (eq_sym E2)) as (<- & <-). rewrite B in B'. injection B' as <-. auto.
  - destruct (dyn_inv _ _ _ _ _ _ _ _ A A' (eq_sym E2)) as (<- & <- & E3).
    destruct (body_inv _ _ _ _ _ _ _ _ B C D D' E3) as (<- & <-). rewrite E in F'. injection F' as <-. auto.
Qed.
Lemma block_inv out bits o1 r1 o2 r2 : block code_ok out bits o1 r1 -> block lens_ok out bits o2 r2 -> o1 = o2 /\ r1 = r2.
Proof. intros H H'. exact (block_inv0 _ _ _ _ _ _ _ _ H H' eq_refl eq_refl). Qed.
Lemma blocks_inv out bits o1 r1 : blocks code_ok out bits o1 r1 -> forall o2 r2, blocks lens_ok out bits o2 r2 -> o1 = o2 /\ r1 = r2.
Proof.
  induction 1 as [out bits o1 r1 B|out bits om mid o1 r1 B Bs IH]; intros o2 r2 H; inversion H; subst.
  - eapply block_inv; eassumption.
  - destruct (block_inv _ _ _ _ _ _ B ltac:(eassumption)) as (<- & <-). apply IH. assumption.
Qed.
(** more data does not change what was read *)
Lemma mod_app (a b : list bool) : Nat.modulo (length a) 8 = 0%nat -> Nat.modulo (length b) 8 = 0%nat -> Nat.modulo (length (a ++ b)) 8 = 0%nat.
Proof. intros A B. rewrite app_length. rewrite (Nat.div_mod_eq (length a) 8), (Nat.div_mod_eq (length b) 8), A, B. replace (8 * (length a / 8) + 0 + (8 * (length b / 8) + 0))%nat with ((length a / 8 + length b / 8) * 8)%nat by lia. apply Nat.mod_mul. discriminate. Qed.
Lemma block_more K out bits o r x : Nat.modulo (length x) 8 = 0%nat -> block K out bits o r -> block K out (bits ++ x) o (r ++ x).
Proof.
  intros M H. destruct H; rewrite <- !app_assoc.
  - apply blk_stored; auto. apply mod_app; auto.
  - eapply blk_fixed; eassumption.
  - eapply blk_dynamic; eassumption.
Qed.
Lemma blocks_more K out bits o r x : Nat.modulo (length x) 8 = 0%nat -> blocks K out bits o r -> blocks K out (bits ++ x) o (r ++ x).
Proof. intros M. induction 1; cbn [app]; [apply bks_last; apply block_more; assumption|eapply bks_more; [apply block_more; eassumption|assumption]]. Qed.

(** ** Cut-off streams *)
Lemma deflate_cut p x out : x <> [] -> bytes (p ++ x) -> deflate_stream (p ++ x) out -> inflate p = Err EInvalidDecode.
Proof.
  intros N B (rest & S & L). assert (bytes p) as Bp by (apply Forall_app in B; apply B). destruct (inflate_total p Bp) as [(o & E)|E]; [exfalso|exact E].
  destruct (inflate_sound _ _ Bp E) as (r & S'). rewrite bytes_bits_app in S.
  apply (blocks_more _ _ _ _ _ (bytes_bits x)) in S'; [|rewrite bytes_bits_length, Nat.mul_comm; apply Nat.mod_mul; discriminate].
  destruct (blocks_inv _ _ _ _ S _ _ S') as (_ & ->). rewrite app_length, bytes_bits_length in L. destruct x; [congruence|cbn [length] in L; lia].
Qed.
Lemma zlib_cut p x out expected : x <> [] -> bytes (p ++ x) -> zlib_stream (p ++ x) out -> exists er, inflate_zlib p expected = Err er.
Proof.
  intros N B S. assert (bytes p) as Bp by (apply Forall_app in B; apply B). destruct (inflate_zlib_total p expected Bp) as [(o & E)|[E|E]]; [exfalso|eexists; exact E|eexists; exact E].
  destruct (inflate_zlib_sound _ _ _ Bp E) as ((cmf & flg & body & a & b & c & d & rest & -> & _ & _ & _ & H & _) & _).
  destruct S as (cmf' & flg' & body' & a' & b' & c' & d' & Q & _ & _ & _ & _ & _ & _ & _ & (rest' & H' & L) & _).
  rewrite <- app_assoc in Q. cbn [app] in Q. injection Q as <- <- Q.
  (* body' = body ++ y with y nonempty *)
  assert (exists y, body' = body ++ y /\ y <> []) as (y & -> & Ny).
  { exists (skipn (length body) body'). assert (length body < length body')%nat as Lt.
    { pose proof (f_equal (@length Z) Q) as K. rewrite !app_length in K. destruct x; [congruence|cbn [length] in K; lia]. }
    split; [|intros Z0; apply (f_equal (@length Z)) in Z0; rewrite skipn_length in Z0; cbn in Z0; lia].
    rewrite <- (firstn_skipn (length body) body') at 1. f_equal.
    apply (f_equal (firstn (length body))) in Q. rewrite !firstn_app in Q. replace (length body - length body)%nat with 0%nat in Q by lia. replace (length body - length body')%nat with 0%nat in Q by lia.
    replace (length body - length (body ++ [a; b; c; d]))%nat with 0%nat in Q by (rewrite app_length; lia). cbn [firstn] in Q. rewrite !app_nil_r, firstn_all in Q. symmetry. exact Q. }
  rewrite bytes_bits_app in H'. apply (blocks_more _ _ _ _ _ (bytes_bits y)) in H; [|rewrite bytes_bits_length, Nat.mul_comm; apply Nat.mod_mul; discriminate].
  destruct (blocks_inv _ _ _ _ H' _ _ H) as (_ & ->). rewrite app_length, bytes_bits_length in L. destruct y; [congruence|cbn [length] in L; lia].
Qed.

(** ** PNG files: what follows the IEND chunk does not matter, and what ends before is refused *)
Lemma get_prefix (p z : list Z) i : 0 <= i < zlen p -> get (p ++ z) i = get p i.
Proof. intros H. exact (get_app_l p z i 0 H). Qed.
Lemma slice_prefix (p z : list Z) a b : 0 <= a <= b -> b <= zlen p -> slice_r (p ++ z) a b = slice_r p a b.
Proof.
  intros H L. rewrite !slice_r_ok by (rewrite ?zlen_app; pose proof (zlen_nonneg z); lia). f_equal. unfold slice. rewrite skipn_app, firstn_app.
  replace (Z.to_nat (b - a) - length (skipn (Z.to_nat a) p))%nat with 0%nat by (rewrite skipn_length; unfold zlen in L; lia). cbn [firstn]. apply app_nil_r.
Qed.
Lemma be32_prefix (p z : list Z) i : 0 <= i -> i + 4 <= zlen p -> get_be32 (p ++ z) i = get_be32 p i.
Proof. intros H L. unfold get_be32. rewrite !get_prefix by lia. reflexivity. Qed.
(** [c] is a chunk with the effect of [st] to [st'] *)
Definition is_chunk (c : list Z) (st st' : cstate) : Prop := exists len ty d crc, get_be32 c 0 = Ok len /\ slice_r c 4 8 = Ok ty /\ zlen c = 12 + len /\ 0 <= len /\
  slice_r c 8 (8 + len) = Ok d /\ get_be32 c (8 + len) = Ok crc /\ crc = crc32 (ty ++ d) /\ chunk_effect ty d st = Ok st'.
Lemma chunk_step c st st' z f : is_chunk c st st' -> parse_chunks (S f) (c ++ z) st = if c_end st' then Ok st' else parse_chunks f z st'.
Proof.
  intros (len & ty & d & crc & A & B & L & N & C & D & E & F). cbn [parse_chunks]. rewrite zlen_app. pose proof (zlen_nonneg z).
  replace (negb (12 <=? zlen c + zlen z)) with false by lia. rewrite be32_prefix, A by lia. cbn [rbind]. rewrite slice_prefix, B by lia. cbn [rbind].
  replace (zlen c + zlen z <? 8 + len + 4) with false by lia. rewrite slice_prefix, C by lia. cbn [rbind]. rewrite be32_prefix, D by lia. cbn [rbind].
  rewrite E, Z.eqb_refl. cbn [negb]. rewrite F. cbn [rbind]. destruct (c_end st'); [reflexivity|]. f_equal.
  rewrite skipn_app, skipn_all2 by (unfold zlen in L; lia). replace (Z.to_nat (8 + len + 4) - length c)%nat with 0%nat by (unfold zlen in L; lia). reflexivity.
Qed.
Lemma chunk_split rest st f st' : bytes rest -> parse_chunks f rest st = Ok st' -> c_end st = false -> c_end st' = true ->
  exists c z st1 f1, f = S f1 /\ rest = c ++ z /\ is_chunk c st st1 /\ (if c_end st1 then st' = st1 else parse_chunks f1 z st1 = Ok st').
Proof.
  intros B E S S'. destruct f as [|f]; cbn [parse_chunks] in E; destruct (negb (12 <=? zlen rest)) eqn:Q; try discriminate E; try congruence.
  destruct (get_be32 rest 0) as [len| | |] eqn:G; cbn [rbind] in E; try discriminate. destruct (slice_r rest 4 8) as [ty| | |] eqn:T; cbn [rbind] in E; try discriminate.
  destruct (Z.ltb_spec (zlen rest) (8 + len + 4)) as [|L]; [discriminate|]. destruct (slice_r rest 8 (8 + len)) as [d| | |] eqn:D; cbn [rbind] in E; try discriminate.
  destruct (get_be32 rest (8 + len)) as [crc| | |] eqn:C; cbn [rbind] in E; try discriminate. destruct (Z.eqb_spec crc (crc32 (ty ++ d))) as [X|]; [|discriminate]. cbn [negb] in E.
  destruct (chunk_effect ty d st) as [st1| | |] eqn:F; cbn [rbind] in E; try discriminate.
  assert (0 <= len) as N by (unfold slice_r in D; destruct (Z.leb_spec 8 (8 + len)); [lia|rewrite Bool.andb_false_r in D; cbn in D; discriminate]).
  exists (firstn (Z.to_nat (8 + len + 4)) rest), (skipn (Z.to_nat (8 + len + 4)) rest), st1, f. split; [reflexivity|]. split; [symmetry; apply firstn_skipn|].
  assert (zlen (firstn (Z.to_nat (8 + len + 4)) rest) = 12 + len) as Lc by (unfold zlen in *; rewrite firstn_length; lia).
  split.
  - set (c := firstn _ rest) in *. rewrite <- (firstn_skipn (Z.to_nat (8 + len + 4)) rest) in G, T, D, C. fold c in G, T, D, C. rewrite be32_prefix in G, C by lia. rewrite slice_prefix in T, D by lia.
    exists len, ty, d, crc. repeat (split; [assumption|]). assumption.
  - destruct (c_end st1); [congruence|exact E].
Qed.
Lemma chunk_cut c st st' q y f : is_chunk c st st' -> q ++ y = c -> y <> [] -> (length q <= f)%nat ->
  parse_chunks f q st = Ok st \/ parse_chunks f q st = Err EInvalidDecode.
Proof.
  intros (len & ty & d & crc & A & B & L & N & _) <- Ny Lf. assert (zlen q < 12 + len) as Lq by (rewrite zlen_app in L; destruct y; [congruence|rewrite zlen_cons in L; pose proof (zlen_nonneg y); lia]).
  destruct (12 <=? zlen q) eqn:Q; [right|left; destruct f; cbn [parse_chunks]; rewrite Q; reflexivity].
  destruct f as [|f]; [unfold zlen in Q; lia|]. cbn [parse_chunks]. rewrite Q. cbn [negb]. rewrite be32_prefix in A by lia. rewrite slice_prefix in B by lia. rewrite A. cbn [rbind]. rewrite B. cbn [rbind].
  replace (zlen q <? 8 + len + 4) with true by lia. reflexivity.
Qed.
Lemma prefix_cases {A} (q y c p : list A) : q ++ y = c ++ p -> (exists t, q = c ++ t /\ t ++ y = p) \/ (exists t, t <> [] /\ q ++ t = c).
Proof.
  revert q. induction c as [|a c IH]; intros q E; [left; exists q; auto|]. destruct q as [|b q]; [right; exists (a :: c); split; [discriminate|reflexivity]|].
  cbn [app] in E. injection E as -> E. destruct (IH q E) as [(t & -> & H)|(t & N & <-)]; [left; exists t; auto|right; exists t; auto].
Qed.
Lemma parse_cut f : forall rest st st', bytes rest -> parse_chunks f rest st = Ok st' -> c_end st = false -> c_end st' = true ->
  exists p x, rest = p ++ x /\ (forall y f', (length p <= f')%nat -> parse_chunks f' (p ++ y) st = Ok st') /\
    forall q y f', q ++ y = p -> y <> [] -> (length q <= f')%nat -> parse_chunks f' q st = Err EInvalidDecode \/ exists s, parse_chunks f' q st = Ok s /\ c_end s = false.
Proof.
  induction f as [|f IH]; intros rest st st' B E S S'; destruct (chunk_split _ _ _ _ B E S S') as (c & z & st1 & f1 & Ef & -> & C & R); [discriminate|]. injection Ef as <-.
  assert (12 <= length c)%nat as Lc by (destruct C as (len & ty & d & crc & _ & _ & L & N & _); unfold zlen in L; lia).
  destruct (c_end st1) eqn:S1.
  - subst st1. exists c, z. split; [reflexivity|]. split.
    + intros y [|f'] L; [lia|]. rewrite (chunk_step _ _ _ _ _ C), S1. reflexivity.
    + intros q y f' Eq Ny L. destruct (chunk_cut _ _ _ _ _ _ C Eq Ny L) as [H|H]; [right; exists st; auto|left; exact H].
  - destruct (IH z st1 st' (proj2 (proj1 (Forall_app _ _ _) B)) R S1 S') as (p & x & -> & H1 & H2). exists (c ++ p), x. split; [apply app_assoc|]. split.
    + intros y [|f'] L; rewrite app_length in L; [lia|]. rewrite <- app_assoc, (chunk_step _ _ _ _ _ C), S1. apply H1. lia.
    + intros q y f' Eq Ny L. destruct (prefix_cases _ _ _ _ Eq) as [(t & -> & T)|(t & Nt & T)].
      * rewrite app_length in L. destruct f' as [|f']; [lia|]. rewrite (chunk_step _ _ _ _ _ C), S1. apply (H2 t y f' T Ny). lia.
      * destruct (chunk_cut _ _ _ _ _ _ C T Nt L) as [H|H]; [right; exists st; auto|left; exact H].
Qed.
Lemma png_cut file im : bytes file -> decode_png file = Ok im ->
  exists p x, file = p ++ x /\ (forall y, decode_png (p ++ y) = Ok im) /\ forall q y, q ++ y = p -> y <> [] -> decode_png q = Err EInvalidDecode.
Proof.
  intros B E. unfold decode_png in E. destruct (_ || _) eqn:G in E; [discriminate|]. destruct (parse_chunks _ _ _) as [st| | |] eqn:P; cbn [rbind] in E; try discriminate.
  assert (c_end st = true) as Es by (unfold finish_decode in E; destruct (c_end st); [reflexivity|discriminate]).
  destruct (parse_cut _ _ _ _ (Forall_skipn _ 8 _ B) P eq_refl Es) as (p & x & R & H1 & H2).
  assert (8 <= zlen file) as L8 by (destruct (Z.ltb_spec (zlen file) 8); [discriminate|lia]).
  set (sg := firstn 8 file) in *. assert (length sg = 8%nat) as Lsg by (unfold sg; rewrite firstn_length; unfold zlen in L8; lia).
  assert (file = (sg ++ p) ++ x) as EF by (rewrite <- app_assoc, <- R; symmetry; apply firstn_skipn).
  exists (sg ++ p), x. split; [exact EF|].
  assert (forall z, decode_png (sg ++ z) = let* st := parse_chunks (length z) z c_init in finish_decode st) as D.
  { intros z. unfold decode_png. replace (firstn 8 (sg ++ z)) with sg by (rewrite firstn_app, Lsg, Nat.sub_diag, firstn_all2 by lia; cbn [firstn]; rewrite app_nil_r; reflexivity).
    replace (skipn 8 (sg ++ z)) with z by (rewrite skipn_app, Lsg, Nat.sub_diag, skipn_all2 by lia; reflexivity).
    replace ((zlen (sg ++ z) <? 8) || negb (zs_eqb sg PNG_SIGNATURE)) with false; [reflexivity|]. symmetry. apply Bool.orb_false_iff. apply Bool.orb_false_iff in G. split; [|apply G].
    rewrite zlen_app. pose proof (zlen_nonneg z). unfold zlen at 1. lia. }
  split.
  - intros y. rewrite <- app_assoc, D, H1 by (rewrite app_length; lia). exact E.
  - intros q y Q Ny. destruct (prefix_cases _ _ _ _ Q) as [(t & -> & T)|(t & Nt & T)].
    + rewrite D. destruct (H2 t y (length t) T Ny (le_n _)) as [->|(s & -> & Cs)]; [reflexivity|]. cbn [rbind]. unfold finish_decode. rewrite Cs. reflexivity.
    + unfold decode_png. replace (zlen q <? 8) with true; [reflexivity|]. symmetry. apply Z.ltb_lt. apply (f_equal (@length Z)) in T. rewrite app_length in T. destruct t; [congruence|]. unfold zlen. cbn [length] in T. lia.
Qed.
(** ** A file of whole chunks *)
Lemma chunk_of_len t d : length t = 4%nat -> zlen (chunk_of t d) = 12 + zlen d.
Proof. intros H. unfold chunk_of. rewrite !zlen_app. change (zlen (be4 (zlen d))) with 4. change (zlen (be4 (crc_spec (t ++ d)))) with 4. unfold zlen at 1. rewrite H. lia. Qed.
Lemma be32_head a b c d l : get_be32 (a :: b :: c :: d :: l) 0 = Ok (InflateModel.be32 a b c d).
Proof. reflexivity. Qed.
Lemma chunk_of_cut t d q y f st : wf_chunk (t, d) -> q ++ y = chunk_of t d -> y <> [] -> (length q <= f)%nat ->
  parse_chunks f q st = Ok st \/ parse_chunks f q st = Err EInvalidDecode.
Proof.
  intros (H1 & H2 & H3 & H4) E Ny Lf. cbn [fst snd] in *. pose proof (zlen_nonneg d) as Nd. pose proof (chunk_of_len t d H1) as L.
  assert (zlen q < 12 + zlen d) as Lq by (rewrite <- L, <- E, zlen_app; destruct y; [congruence|rewrite zlen_cons; pose proof (zlen_nonneg y); lia]).
  destruct (12 <=? zlen q) eqn:Q; [right|left; destruct f; cbn [parse_chunks]; rewrite Q; reflexivity].
  destruct f as [|f]; [unfold zlen in Q; lia|]. cbn [parse_chunks]. rewrite Q. cbn [negb].
  assert (get_be32 q 0 = Ok (zlen d)) as ->.
  { rewrite <- (be32_prefix q y) by lia. rewrite E. unfold chunk_of, be4 at 1. cbn [app]. rewrite be32_head. f_equal. apply be4_val. lia. }
  cbn [rbind]. destruct (slice_r q 4 8) as [ty| | |] eqn:T.
  - cbn [rbind]. replace (zlen q <? 8 + zlen d + 4) with true by lia. reflexivity.
  - unfold slice_r in T. destruct (_ : bool) in T; discriminate.
  - exfalso. unfold slice_r in T. destruct (_ : bool) eqn:X in T; [discriminate|]. lia.
  - unfold slice_r in T. destruct (_ : bool) in T; discriminate.
Qed.
Lemma run_cut d pre : forall q y f st s, Forall wf_chunk (pre ++ [(T_IEND, d)]) -> Forall (fun c => fst c <> T_IEND) pre -> q ++ y = chunk_file (pre ++ [(T_IEND, d)]) -> y <> [] ->
  (length q <= f)%nat -> c_end st = false -> parse_chunks f q st = Ok s -> c_end s = false.
Proof.
  induction pre as [|(t, e) pre IH]; intros q y f st s W N E Ny Lf C P.
  - apply Forall_cons_iff in W as (W & _). cbn [app chunk_file flat_map] in E. rewrite app_nil_r in E. destruct (chunk_of_cut _ _ _ _ f st W E Ny Lf) as [K|K]; rewrite K in P; congruence.
  - cbn [app] in W. apply Forall_cons_iff in W as (W & Ws). apply Forall_cons_iff in N as (N & Ns). cbn [app chunk_file flat_map] in E. fold (chunk_file (pre ++ [(T_IEND, d)])) in E.
    destruct (prefix_cases _ _ _ _ E) as [(u & -> & U)|(u & Nu & U)].
    + pose proof (chunk_of_len t e (proj1 W)) as L. pose proof (zlen_nonneg e). rewrite app_length in Lf. unfold zlen in *. destruct f as [|f]; [lia|]. rewrite parse_one in P by exact W.
      destruct (chunk_effect t e st) as [st1| | |] eqn:X; cbn [rbind] in P; try discriminate.
      assert (c_end st1 = false) as C1. { apply (run_chunks_noend [(t, e)] st st1); [constructor; auto|exact C|]. cbn [run_chunks]. rewrite X. cbn [rbind]. destruct (c_end st1); reflexivity. }
      rewrite C1 in P. apply (IH u y f st1 s Ws Ns U Ny ltac:(lia) C1 P).
    + destruct (chunk_of_cut _ _ _ _ f st W U Nu Lf) as [K|K]; rewrite K in P; congruence.
Qed.
Lemma png_file_cut pre d q y : Forall wf_chunk (pre ++ [(T_IEND, d)]) -> Forall (fun c => fst c <> T_IEND) pre -> q ++ y = png_file (pre ++ [(T_IEND, d)]) -> y <> [] ->
  forall im, decode_png q <> Ok im.
Proof.
  intros W N E Ny im D. unfold decode_png in D. destruct (_ || _) eqn:G in D; [discriminate|]. destruct (parse_chunks _ _ _) as [st| | |] eqn:P; cbn [rbind] in D; try discriminate.
  assert (c_end st = true) as Es by (unfold finish_decode in D; destruct (c_end st); [reflexivity|discriminate]).
  unfold png_file in E. fold (chunk_file (pre ++ [(T_IEND, d)])) in E. destruct (prefix_cases _ _ _ _ E) as [(t & -> & T)|(t & Nt & T)].
  - cbn [app skipn] in P. pose proof (run_cut d pre t y _ c_init st W N T Ny (le_n _) eq_refl P). congruence.
  - apply Bool.orb_false_iff in G as (G & _). apply (f_equal (@length Z)) in T. rewrite app_length in T. cbn [length] in T. destruct t; [congruence|]. unfold zlen in G. cbn [length] in T. lia.
Qed.
Lemma png_file_cut_err pre d q y : Forall wf_chunk (pre ++ [(T_IEND, d)]) -> Forall (fun c => fst c <> T_IEND) pre -> png_file (pre ++ [(T_IEND, d)]) = q ++ y -> y <> [] ->
  exists er, decode_png q = Err er.
Proof.
  intros W N E Ny. assert (bytes q) as B.
  { assert (bytes (q ++ y)) as B; [rewrite <- E; apply png_file_bytes; exact W|]. apply Forall_app in B. apply B. }
  destruct (decode_png_total q B) as [(im & K & _)|K]; [|exact K]. exfalso. exact (png_file_cut pre d q y W N (eq_sym E) Ny im K).
Qed.
Lemma encoded_cut e data o f q y : accepted o data -> env_ok e o -> small o -> 0 <= o_max_colors o -> encode e data o = Ok f -> f = q ++ y -> y <> [] -> exists er, decode_png q = Err er.
Proof.
  intros A V S M E Eq Ny. destruct (encode_structure_l e [] data o A V S M) as (depth & ctb & cs & im & _ & E' & [_ W C] & _).
  assert (f = png_file cs) as -> by congruence. destruct C as (pal & trns & idats & sl & -> & _).
  set (pre := (T_IHDR, be4 (o_width o) ++ be4 (o_height o) ++ [depth; ctb; 0; 0; 0]) :: map (pair T_PLTE) (opt_to_list pal) ++ map (pair T_tRNS) (opt_to_list trns) ++ map (pair T_IDAT) idats).
  match type of W with Forall _ ?l => assert (l = pre ++ [(T_IEND, [])]) as R by (unfold pre; cbn [app]; rewrite <- !app_assoc; reflexivity) end.
  rewrite R in *. apply (png_file_cut_err pre [] q y W); [|exact Eq|exact Ny].
  unfold pre. constructor; [discriminate|]. rewrite !Forall_app, !Forall_map. repeat split; apply Forall_forall; intros; cbn [fst]; discriminate.
Qed.
