(** The decoder against the DEFLATE format. *)
From Verif Require Import Base BitsModel BitsProofs CanonSpec ChecksumSpec ChecksumModel ChecksumProofs
  DeflateSpec InflateModel CanonProofs HtProofs.

(** ** reading *)
Lemma br_read_app r n v rest : br_inv r -> 0 <= n <= 32 -> 0 <= v < 2 ^ n ->
  br_bits r = bits_of (Z.to_nat n) v ++ rest ->
  exists r', br_read r n = Ok (v, r') /\ br_inv r' /\ br_bits r' = rest.
Proof.
  intros Hi Hn Hv E. pose proof (br_read_spec r n Hi Hn) as S. rewrite E in S.
  rewrite app_length, bits_of_length in S. destruct (Z.leb_spec n (Z.of_nat (Z.to_nat n + length rest))); [|lia].
  destruct S as (r' & S1 & S2 & S3). exists r'.
  rewrite firstn_app, bits_of_length, Nat.sub_diag in S1. cbn [firstn] in S1. rewrite app_nil_r in S1.
  rewrite firstn_all2 in S1 by (rewrite bits_of_length; lia).
  rewrite val_bits_small in S1 by (rewrite Z2Nat.id by lia; lia).
  rewrite skipn_app, bits_of_length, Nat.sub_diag in S3. rewrite skipn_all2 in S3 by (rewrite bits_of_length; lia).
  auto.
Qed.
Lemma br_read_cases r n : br_inv r -> 0 <= n <= 32 ->
  (exists v r', br_read r n = Ok (v, r') /\ br_inv r' /\ 0 <= v < 2 ^ n /\
      br_bits r = bits_of (Z.to_nat n) v ++ br_bits r') \/ br_read r n = Err EInvalidDecode.
Proof.
  intros Hi Hn. pose proof (br_read_spec r n Hi Hn) as S.
  destruct (Z.leb_spec n (Z.of_nat (length (br_bits r)))) as [L|L]; [left|right; auto].
  destruct S as (r' & S1 & S2 & S3). do 2 eexists. split; [exact S1|split; [auto|]].
  set (p := firstn (Z.to_nat n) (br_bits r)).
  assert (length p = Z.to_nat n) as HL by (unfold p; rewrite firstn_length; lia).
  split.
  - pose proof (val_of_range p) as R. unfold zlen in R. rewrite HL, Z2Nat.id in R by lia. exact R.
  - rewrite S3. rewrite <- HL at 1. rewrite bits_of_val_of. unfold p. symmetry. apply firstn_skipn.
Qed.
Lemma bits_left_spec r : br_inv r -> bits_left r = length (br_bits r).
Proof. intros Hi. unfold bits_left. rewrite <- br_bits_length by auto. lia. Qed.

(** ** copying *)
Lemma nth_snoc (l : list Z) x i d : nth i (l ++ [x]) d = if (i =? length l)%nat then x else nth i l d.
Proof.
  destruct (Nat.eqb_spec i (length l)) as [->|N].
  - rewrite app_nth2, Nat.sub_diag by lia. reflexivity.
  - destruct (Nat.lt_ge_cases i (length l)).
    + apply app_nth1. lia.
    + rewrite !nth_overflow; auto; rewrite ?app_length; cbn [length]; lia.
Qed.
Lemma periodic_mod (f : nat -> Z) (s d n : nat) : (0 < d)%nat ->
  (forall j, (s <= j)%nat -> (j + d < s + d + n)%nat -> f (j + d)%nat = f j) ->
  f (s + n mod d)%nat = f (s + n)%nat.
Proof.
  intros Hd P. rewrite (Nat.div_mod n d) at 2 by lia.
  assert (forall q, (d * q + n mod d <= n)%nat -> f (s + (d * q + n mod d))%nat = f (s + n mod d)%nat) as H.
  { induction q as [|q IH]; intros Hq.
    - f_equal. lia.
    - replace (s + (d * S q + n mod d))%nat with (s + (d * q + n mod d) + d)%nat by lia.
      rewrite P by lia. apply IH. lia. }
  symmetry. apply H. rewrite <- Nat.div_mod by lia. lia.
Qed.
Lemma copy_loop_gen k : forall i d s out,
  (0 < d)%nat -> length out = (s + d + i)%nat ->
  (forall j, (s <= j)%nat -> (j + d < s + d + i)%nat -> nth (j + d) out 0 = nth j out 0) ->
  copy_loop k (Z.of_nat i) (Z.of_nat s) (Z.of_nat d) out = Ok (copy_back k d out).
Proof.
  induction k as [|k IH]; intros i d s out Hd HL HP; [reflexivity|]. cbn [copy_loop copy_back].
  rewrite <- Nat2Z.inj_mod, <- Nat2Z.inj_add.
  pose proof (Nat.mod_upper_bound i d ltac:(lia)) as Hm.
  rewrite (get_ok out _ 0) by (unfold zlen; lia). cbn [rbind]. rewrite Nat2Z.id.
  rewrite (periodic_mod (fun j => nth j out 0) s d i Hd HP).
  replace (length out - d)%nat with (s + i)%nat by lia.
  replace (Z.of_nat i + 1) with (Z.of_nat (S i)) by lia. apply IH; auto.
  - rewrite app_length. cbn [length]. lia.
  - intros j H1 H2. rewrite !nth_snoc.
    destruct (Nat.eqb_spec j (length out)); [lia|].
    destruct (Nat.eqb_spec (j + d) (length out)) as [E|E].
    + f_equal. lia.
    + apply HP; lia.
Qed.
Lemma copy_loop_spec k d out : 1 <= d <= zlen out ->
  copy_loop k 0 (zlen out - d) d out = Ok (copy_back k (Z.to_nat d) out).
Proof.
  intros H. unfold zlen in *.
  pose proof (copy_loop_gen k 0 (Z.to_nat d) (length out - Z.to_nat d) out) as G.
  replace (Z.of_nat (length out - Z.to_nat d)) with (Z.of_nat (length out) - d) in G by lia.
  rewrite Z2Nat.id in G by lia. apply G; intros; lia.
Qed.
Lemma copy_back_length k d out : length (copy_back k d out) = (length out + k)%nat.
Proof. revert out; induction k as [|k IH]; intros out; cbn [copy_back]; [lia|]. rewrite IH, app_length. cbn [length]. lia. Qed.

(** ** the length and distance tables are the RFC's *)
Lemma len_tab i : (i < 29)%nat ->
  nth_error rfc_length i = Some (nth i LENGTH_BASE 0, nth i LENGTH_EXTRA 0).
Proof. intros H. do 29 (destruct i as [|i]; [reflexivity|]). lia. Qed.
Lemma dist_tab i : (i < 30)%nat ->
  nth_error rfc_distance i = Some (nth i DISTANCE_BASE 0, nth i DISTANCE_EXTRA 0).
Proof. intros H. do 30 (destruct i as [|i]; [reflexivity|]). lia. Qed.
Lemma len_tab_inv i b e : nth_error rfc_length i = Some (b, e) ->
  (i < 29)%nat /\ b = nth i LENGTH_BASE 0 /\ e = nth i LENGTH_EXTRA 0.
Proof.
  intros H. assert (i < 29)%nat as L. { change 29%nat with (length rfc_length). apply nth_error_Some. congruence. }
  rewrite len_tab in H by auto. injection H as <- <-. auto.
Qed.
Lemma dist_tab_inv i b e : nth_error rfc_distance i = Some (b, e) ->
  (i < 30)%nat /\ b = nth i DISTANCE_BASE 0 /\ e = nth i DISTANCE_EXTRA 0.
Proof.
  intros H. assert (i < 30)%nat as L. { change 30%nat with (length rfc_distance). apply nth_error_Some. congruence. }
  rewrite dist_tab in H by auto. injection H as <- <-. auto.
Qed.
Lemma len_vals i : (i < 29)%nat -> 0 <= nth i LENGTH_EXTRA 0 <= 5 /\
  3 <= nth i LENGTH_BASE 0 /\ nth i LENGTH_BASE 0 + 2 ^ nth i LENGTH_EXTRA 0 - 1 <= 258.
Proof. intros H. do 29 (destruct i as [|i]; [cbn -[Z.pow]; change (2^0) with 1; change (2^1) with 2; change (2^2) with 4; change (2^3) with 8; change (2^4) with 16; change (2^5) with 32; lia|]). lia. Qed.
Lemma dist_vals i : (i < 30)%nat -> 0 <= nth i DISTANCE_EXTRA 0 <= 13 /\
  1 <= nth i DISTANCE_BASE 0 /\ nth i DISTANCE_BASE 0 + 2 ^ nth i DISTANCE_EXTRA 0 - 1 <= 32768.
Proof.
  intros H. assert (forallb (fun i => (0 <=? nth i DISTANCE_EXTRA 0) && (nth i DISTANCE_EXTRA 0 <=? 13) &&
    (1 <=? nth i DISTANCE_BASE 0) && (nth i DISTANCE_BASE 0 + 2 ^ nth i DISTANCE_EXTRA 0 - 1 <=? 32768)) (seq 0 30) = true)
    as F by (vm_compute; reflexivity).
  rewrite forallb_forall in F. specialize (F i ltac:(apply in_seq; lia)). lia.
Qed.

(** ** one match *)
Lemma inflate_match_sound li dl dt r out : ht_for dl dt -> br_inv r -> (li < 29)%nat ->
  match inflate_match (Z.of_nat (257 + li)) dt r out with
  | Ok (out', r') => exists x di y,
      0 <= x < 2 ^ nth li LENGTH_EXTRA 0 /\ (di < 30)%nat /\ 0 <= y < 2 ^ nth di DISTANCE_EXTRA 0 /\
      has_code dl di /\ br_inv r' /\
      br_bits r = bits_of (Z.to_nat (nth li LENGTH_EXTRA 0)) x ++ code_word dl di ++
                  bits_of (Z.to_nat (nth di DISTANCE_EXTRA 0)) y ++ br_bits r' /\
      expand1 out (TMatch (nth li LENGTH_BASE 0 + x) (nth di DISTANCE_BASE 0 + y)) = Some out'
  | Err e => e = EInvalidDecode
  | _ => False
  end.
Proof.
  intros HT Hi Hli. unfold inflate_match.
  replace (Z.of_nat (257 + li) - 257) with (Z.of_nat li) by lia.
  rewrite (get_ok LENGTH_BASE _ 0) by (change (zlen LENGTH_BASE) with 29; lia). rewrite (get_ok LENGTH_EXTRA _ 0) by (change (zlen LENGTH_EXTRA) with 29; lia).
  cbn [rbind]. rewrite Nat2Z.id. pose proof (len_vals li Hli) as (V1 & V2 & V3).
  destruct (br_read_cases r (nth li LENGTH_EXTRA 0) Hi ltac:(lia)) as [(x & r1 & R1 & R2 & R3 & R4)|R]; [|rewrite R; reflexivity].
  rewrite R1. cbn [rbind]. pose proof (ht_decode_sound dl dt r1 HT R2) as S.
  destruct (ht_decode dt r1) as [[ds r2]| | |]; cbn [rbind]; auto. destruct S as (di & -> & S2 & S3 & S4 & _).
  destruct (Z.geb_spec (Z.of_nat di) 30) as [G|G]; [reflexivity|].
  rewrite (get_ok DISTANCE_BASE _ 0) by (change (zlen DISTANCE_BASE) with 30; lia). rewrite (get_ok DISTANCE_EXTRA _ 0) by (change (zlen DISTANCE_EXTRA) with 30; lia).
  cbn [rbind]. rewrite Nat2Z.id. pose proof (dist_vals di ltac:(lia)) as (W1 & W2 & W3).
  destruct (br_read_cases r2 (nth di DISTANCE_EXTRA 0) S3 ltac:(lia)) as [(y & r3 & Y1 & Y2 & Y3 & Y4)|R]; [|rewrite R; reflexivity].
  rewrite Y1. cbn [rbind]. destruct (Z.gtb_spec (nth di DISTANCE_BASE 0 + y) (zlen out)) as [D|D]; [reflexivity|].
  rewrite copy_loop_spec by lia. cbn [rbind]. exists x, di, y.
  repeat match goal with |- _ /\ _ => split end; auto; try lia; try apply S2.
  - rewrite R4, S4, Y4. rewrite <- ?app_assoc. reflexivity.
  - unfold expand1.
    destruct (Z.leb_spec 3 (nth li LENGTH_BASE 0 + x)); [|lia].
    destruct (Z.leb_spec (nth li LENGTH_BASE 0 + x) 258); [|lia].
    destruct (Z.leb_spec 1 (nth di DISTANCE_BASE 0 + y)); [|lia].
    destruct (Z.leb_spec (nth di DISTANCE_BASE 0 + y) 32768); [|lia].
    destruct (Z.leb_spec (nth di DISTANCE_BASE 0 + y) (zlen out)); [|lia]. reflexivity.
Qed.

Lemma inflate_match_complete li x di y dl dt r out out' rest : ht_for dl dt -> kraft 15 dl <= 2 ^ 15 ->
  br_inv r -> (li < 29)%nat -> 0 <= x < 2 ^ nth li LENGTH_EXTRA 0 -> (di < 30)%nat ->
  0 <= y < 2 ^ nth di DISTANCE_EXTRA 0 -> has_code dl di ->
  br_bits r = bits_of (Z.to_nat (nth li LENGTH_EXTRA 0)) x ++ code_word dl di ++
              bits_of (Z.to_nat (nth di DISTANCE_EXTRA 0)) y ++ rest ->
  expand1 out (TMatch (nth li LENGTH_BASE 0 + x) (nth di DISTANCE_BASE 0 + y)) = Some out' ->
  exists r', inflate_match (Z.of_nat (257 + li)) dt r out = Ok (out', r') /\ br_inv r' /\ br_bits r' = rest.
Proof.
  intros HT HK Hi Hli Hx Hdi Hy HC HB HE. unfold inflate_match.
  replace (Z.of_nat (257 + li) - 257) with (Z.of_nat li) by lia.
  rewrite (get_ok LENGTH_BASE _ 0) by (change (zlen LENGTH_BASE) with 29; lia). rewrite (get_ok LENGTH_EXTRA _ 0) by (change (zlen LENGTH_EXTRA) with 29; lia).
  cbn [rbind]. rewrite Nat2Z.id. pose proof (len_vals li Hli) as (V1 & V2 & V3).
  destruct (br_read_app r (nth li LENGTH_EXTRA 0) x _ Hi ltac:(lia) Hx HB) as (r1 & R1 & R2 & R3). rewrite R1. cbn [rbind].
  destruct (ht_decode_complete dl dt r1 di _ HT HK R2 HC R3) as (r2 & S1 & S2 & S3). rewrite S1. cbn [rbind].
  destruct (Z.geb_spec (Z.of_nat di) 30) as [G|G]; [lia|].
  rewrite (get_ok DISTANCE_BASE _ 0) by (change (zlen DISTANCE_BASE) with 30; lia). rewrite (get_ok DISTANCE_EXTRA _ 0) by (change (zlen DISTANCE_EXTRA) with 30; lia).
  cbn [rbind]. rewrite Nat2Z.id. pose proof (dist_vals di ltac:(lia)) as (W1 & W2 & W3).
  destruct (br_read_app r2 (nth di DISTANCE_EXTRA 0) y _ S2 ltac:(lia) Hy S3) as (r3 & Y1 & Y2 & Y3). rewrite Y1. cbn [rbind].
  unfold expand1 in HE. destruct (_ && _) eqn:EC in HE; [|discriminate]. injection HE as <-.
  assert (nth di DISTANCE_BASE 0 + y <= zlen out) by lia.
  destruct (Z.gtb_spec (nth di DISTANCE_BASE 0 + y) (zlen out)) as [D|D]; [lia|].
  rewrite copy_loop_spec by lia. cbn [rbind]. eauto.
Qed.

(** ** a block body *)
Lemma inflate_block_sound fuel : forall ll dl lt dt r out, ht_for ll lt -> ht_for dl dt -> br_inv r ->
  (length (br_bits r) < fuel)%nat ->
  match inflate_block fuel lt dt r out with
  | Ok (out', r') => exists ts bs, body_bits ll dl ts bs /\ br_inv r' /\
      br_bits r = bs ++ br_bits r' /\ expand out ts = Some out'
  | Err e => e = EInvalidDecode
  | _ => False
  end.
Proof.
  induction fuel as [|f IH]; intros ll dl lt dt r out HT HD Hi HF; [lia|]. cbn [inflate_block].
  pose proof (ht_decode_sound ll lt r HT Hi) as S.
  destruct (ht_decode lt r) as [[x r1]| | |]; cbn [rbind]; auto. destruct S as (s & -> & S2 & S3 & S4 & S5).
  destruct (Z.leb_spec (Z.of_nat s) 255) as [L|L].
  - specialize (IH ll dl lt dt r1 (out ++ [wrap 8 (Z.of_nat s)]) HT HD S3 ltac:(lia)).
    destruct (inflate_block f lt dt r1 _) as [[out' r']| | |]; auto.
    destruct IH as (ts & bs & I1 & I2 & I3 & I4). inversion I1 as [ts0 bs0 J1 J2]; subst.
    exists (TLit (Z.of_nat s) :: ts), ((code_word ll s ++ bs0) ++ code_word ll 256).
    split; [|split; [auto|split]].
    + constructor; auto. constructor; auto. replace (code_word ll s) with (code_word ll (Z.to_nat (Z.of_nat s))) by (rewrite Nat2Z.id; auto).
      constructor; [lia|]. rewrite Nat2Z.id. auto.
    + rewrite S4, I3. rewrite <- !app_assoc. reflexivity.
    + cbn [expand expand1]. destruct (Z.leb_spec 0 (Z.of_nat s)); [|lia]. destruct (Z.ltb_spec (Z.of_nat s) 256); [|lia].
      cbn [andb]. rewrite <- I4. do 3 f_equal. symmetry. apply wrap_id. change (2 ^ 8) with 256. lia.
  - destruct (Z.eqb_spec (Z.of_nat s) 256) as [E|E].
    + assert (s = 256%nat) as -> by lia. exists [], (code_word ll 256).
      split; [|split; [auto|split; auto]]. change (code_word ll 256) with ([] ++ code_word ll 256). constructor; auto. constructor.
    + destruct (Z.leb_spec (Z.of_nat s) 285) as [G|G]; [|reflexivity].
      replace s with (257 + (s - 257))%nat in * by lia. set (li := (s - 257)%nat) in *.
      assert (li < 29)%nat as Hli by lia.
      pose proof (inflate_match_sound li dl dt r1 out HD S3 Hli) as M.
      destruct (inflate_match _ dt r1 out) as [[out1 r2]| | |]; cbn [rbind]; auto.
      destruct M as (x & di & y & M1 & M2 & M3 & M4 & M5 & M6 & M7).
      assert (length (br_bits r2) <= length (br_bits r1))%nat as LL.
      { rewrite M6, !app_length. lia. }
      specialize (IH ll dl lt dt r2 out1 HT HD M5 ltac:(lia)).
      destruct (inflate_block f lt dt r2 _) as [[out' r']| | |]; auto.
      destruct IH as (ts & bs & I1 & I2 & I3 & I4). inversion I1 as [ts0 bs0 J1 J2]; subst.
      exists (TMatch (nth li LENGTH_BASE 0 + x) (nth di DISTANCE_BASE 0 + y) :: ts),
        (((code_word ll (257 + li) ++ bits_of (Z.to_nat (nth li LENGTH_EXTRA 0)) x ++ code_word dl di ++
           bits_of (Z.to_nat (nth di DISTANCE_EXTRA 0)) y) ++ bs0) ++ code_word ll 256).
      split; [|split; [auto|split]].
      * constructor; auto. constructor; auto. eapply tb_match; eauto using len_tab, dist_tab.
      * rewrite S4, M6, I3. rewrite <- !app_assoc. reflexivity.
      * cbn [expand]. rewrite M7. exact I4.
Qed.

Lemma code_word_nonempty lens s : has_code lens s -> (1 <= length (code_word lens s))%nat.
Proof. intros (_ & H). rewrite code_word_length. lia. Qed.

Lemma inflate_block_complete fuel : forall ll dl lt dt r out ts bs out' rest,
  ht_for ll lt -> ht_for dl dt -> kraft 15 ll <= 2 ^ 15 -> kraft 15 dl <= 2 ^ 15 -> br_inv r ->
  body_bits ll dl ts bs -> br_bits r = bs ++ rest -> expand out ts = Some out' ->
  (length (br_bits r) < fuel)%nat ->
  exists r', inflate_block fuel lt dt r out = Ok (out', r') /\ br_inv r' /\ br_bits r' = rest.
Proof.
  induction fuel as [|f IH]; intros ll dl lt dt r out ts bs out' rest HT HD KL KD Hi HBo HB HE HF; [lia|].
  inversion HBo as [ts0 bs0 HTs H256]; subst. cbn [inflate_block].
  destruct HTs as [|t ts b bs1 Ht HTs].
  - cbn [app] in HB. cbn in HE. injection HE as <-.
    destruct (ht_decode_complete ll lt r _ _ HT KL Hi H256 HB) as (r1 & S1 & S2 & S3). rewrite S1. cbn [rbind].
    change (Z.of_nat 256) with 256. cbn. eauto.
  - cbn [expand] in HE. destruct (expand1 out t) as [out1|] eqn:E1; [|discriminate].
    destruct Ht as [c Hc HC|li lb le x di db de y L1 L2 L3 D1 D2 D3].
    + rewrite <- !app_assoc in HB.
      destruct (ht_decode_complete ll lt r _ _ HT KL Hi HC HB) as (r1 & S1 & S2 & S3). rewrite S1. cbn [rbind].
      rewrite Z2Nat.id by lia. destruct (Z.leb_spec c 255); [|lia].
      cbn [expand1] in E1. destruct (_ && _) in E1; [|discriminate]. injection E1 as <-.
      rewrite wrap_id by (change (2 ^ 8) with 256; lia).
      eapply (IH ll dl lt dt r1 _ ts (bs1 ++ code_word ll 256)); eauto.
      * constructor; auto.
      * rewrite S3, <- app_assoc. reflexivity.
      * rewrite HB in HF. rewrite app_length in HF. pose proof (code_word_nonempty _ _ HC). rewrite S3. lia.
    + apply len_tab_inv in L1. destruct L1 as (L1 & -> & ->). apply dist_tab_inv in D1. destruct D1 as (D1 & -> & ->).
      rewrite <- !app_assoc in HB.
      destruct (ht_decode_complete ll lt r _ _ HT KL Hi L3 HB) as (r1 & S1 & S2 & S3). rewrite S1. cbn [rbind].
      destruct (Z.leb_spec (Z.of_nat (257 + li)) 255); [lia|].
      destruct (Z.eqb_spec (Z.of_nat (257 + li)) 256); [lia|].
      destruct (Z.leb_spec (Z.of_nat (257 + li)) 285); [|lia].
      destruct (inflate_match_complete li x di y dl dt r1 out out1 _ HD KD S2 L1 L2 D1 D2 D3 S3 E1) as (r2 & M1 & M2 & M3).
      rewrite M1. cbn [rbind].
      eapply (IH ll dl lt dt r2 _ ts (bs1 ++ code_word ll 256)); eauto.
      * constructor; auto.
      * rewrite M3, <- app_assoc. reflexivity.
      * rewrite HB in HF. rewrite !app_length in HF. pose proof (code_word_nonempty _ _ L3). rewrite M3, !app_length. lia.
Qed.

(** ** stored blocks *)
Lemma mod8_app (a b : list bool) : Nat.modulo (length a) 8 = 0%nat -> Nat.modulo (length (a ++ b)) 8 = Nat.modulo (length b) 8.
Proof. intros H. rewrite app_length. lia. Qed.
Lemma stored_mod8 len (rest : list bool) data : Nat.modulo (length rest) 8 = 0%nat ->
  Nat.modulo (length (bits_of 16 len ++ bits_of 16 (65535 - len) ++ bytes_bits data ++ rest)) 8 = 0%nat.
Proof. intros H. rewrite !app_length, !bits_of_length, bytes_bits_length. lia. Qed.

Lemma br_read_n8 r n r' v : br_inv r -> br_read r n = Ok (v, r') -> 0 <= n -> n mod 8 = 0 -> br_n r mod 8 = 0 -> br_n r' mod 8 = 0.
Proof.
  intros Hi E Hn N8 R8. unfold br_read in E. destruct (br_peek r n) as [[v1 r1]| | |] eqn:P; cbn [rbind] in E; try discriminate.
  unfold br_peek, br_ensure in P. destruct (br_fill (br_rest r) (br_buf r) (br_n r) n) as [r2| | |] eqn:F; cbn [rbind] in P; try discriminate.
  injection P as <- <-. unfold br_consume in E. destruct (n <=? br_n r2); cbn [rbind] in E; try discriminate.
  injection E as _ <-. cbn [br_n].
  assert (br_n r2 mod 8 = 0); [|lia].
  clear - F R8. revert F R8. generalize (br_buf r), (br_n r). induction (br_rest r) as [|b l IH]; intros buf cnt F R8; cbn [br_fill] in F.
  - destruct (cnt <? n); [discriminate|]. injection F as <-. exact R8.
  - destruct (cnt <? n); [|injection F as <-; exact R8]. eapply IH; [exact F|]. lia.
Qed.

Lemma inflate_stored_sound r out : br_inv r ->
  match inflate_stored r out with
  | Ok (out', r') => br_inv r' /\ exists pad data, br_bits r = pad ++ bits_of 16 (zlen data) ++
        bits_of 16 (65535 - zlen data) ++ bytes_bits data ++ br_bits r' /\ (length pad < 8)%nat /\
        bytes data /\ zlen data <= 65535 /\ Nat.modulo (length (br_bits r')) 8 = 0%nat /\ out' = out ++ data
  | Err e => e = EInvalidDecode
  | _ => False
  end.
Proof.
  intros Hi. unfold inflate_stored. destruct (br_align_spec r Hi) as (A1 & A2 & A3).
  assert (Nat.modulo (length (br_bits (br_align r))) 8 = 0%nat) as A4.
  { pose proof (br_bits_length _ A1) as L. lia. }
  destruct (br_read_cases (br_align r) 16 A1 ltac:(lia)) as [(v & r1 & R1 & R2 & R3 & R4)|R]; [|rewrite R; reflexivity].
  rewrite R1. cbn [rbind]. pose proof (br_read_n8 _ _ _ _ A1 R1 ltac:(lia) eq_refl A2) as N1.
  destruct (br_read_cases r1 16 R2 ltac:(lia)) as [(w & r2 & W1 & W2 & W3 & W4)|R]; [|rewrite R; reflexivity].
  rewrite W1. cbn [rbind]. pose proof (br_read_n8 _ _ _ _ R2 W1 ltac:(lia) eq_refl N1) as N2.
  rewrite !wrap_id by lia. destruct (Z.eqb_spec v (65535 - w)) as [E|E]; cbn [negb]; [|reflexivity].
  change (2 ^ 16) with 65536 in *.
  pose proof (br_read_bytes_spec r2 v W2 N2 ltac:(lia)) as B.
  destruct (8 * v <=? Z.of_nat (length (br_bits r2))).
  - destruct B as (l & r3 & B1 & B2 & B3 & B4 & B5). rewrite B1. cbn [rbind]. split; [auto|].
    change (Z.to_nat 16) with 16%nat in *.
    exists (firstn (length (br_bits r) mod 8) (br_bits r)), l.
    rewrite <- (firstn_skipn (length (br_bits r) mod 8) (br_bits r)) at 1. rewrite <- A3, R4, W4, B5, B4.
    replace w with (65535 - v) by lia. split; [reflexivity|]. split.
    { rewrite firstn_length. pose proof (Nat.mod_upper_bound (length (br_bits r)) 8). lia. }
    split; [auto|split; [lia|split; [|auto]]].
    rewrite R4, W4, B5 in A4. rewrite !app_length, !bits_of_length, bytes_bits_length in A4. lia.
  - rewrite B. reflexivity.
Qed.

Lemma inflate_stored_complete r out pad data rest : br_inv r -> (length pad < 8)%nat -> bytes data -> zlen data <= 65535 ->
  Nat.modulo (length rest) 8 = 0%nat ->
  br_bits r = pad ++ bits_of 16 (zlen data) ++ bits_of 16 (65535 - zlen data) ++ bytes_bits data ++ rest ->
  exists r', inflate_stored r out = Ok (out ++ data, r') /\ br_inv r' /\ br_bits r' = rest.
Proof.
  intros Hi Hp Hd HL Hr HB. unfold inflate_stored. destruct (br_align_spec r Hi) as (A1 & A2 & A3).
  pose proof (zlen_nonneg data) as Hz.
  assert (length (br_bits r) mod 8 = length pad)%nat as EM.
  { rewrite HB, app_length. pose proof (stored_mod8 (zlen data) rest data Hr). lia. }
  rewrite EM, HB, skipn_app, skipn_all, Nat.sub_diag in A3. cbn [app skipn] in A3.
  destruct (br_read_app _ 16 (zlen data) _ A1 ltac:(lia) ltac:(change (2 ^ 16) with 65536; lia) A3) as (r1 & R1 & R2 & R3).
  rewrite R1. cbn [rbind]. pose proof (br_read_n8 _ _ _ _ A1 R1 ltac:(lia) eq_refl A2) as N1.
  destruct (br_read_app r1 16 (65535 - zlen data) _ R2 ltac:(lia) ltac:(change (2 ^ 16) with 65536; lia) R3) as (r2 & W1 & W2 & W3).
  rewrite W1. cbn [rbind]. pose proof (br_read_n8 _ _ _ _ R2 W1 ltac:(lia) eq_refl N1) as N2.
  rewrite !wrap_id by (change (2 ^ 16) with 65536; lia). destruct (Z.eqb_spec (zlen data) (65535 - (65535 - zlen data))) as [E|E]; [|lia].
  cbn [negb]. pose proof (br_read_bytes_spec r2 (zlen data) W2 N2 Hz) as B.
  destruct (Z.leb_spec (8 * zlen data) (Z.of_nat (length (br_bits r2)))) as [L|L].
  - destruct B as (l & r3 & B1 & B2 & B3 & B4 & B5). rewrite B1. cbn [rbind]. rewrite W3 in B5.
    assert (l = data /\ br_bits r3 = rest) as [-> E3].
    { pose proof (app_inv_firstn _ _ _ _ B5) as F. rewrite !bytes_bits_length in F. unfold zlen in B4.
      rewrite firstn_all2 in F by (rewrite bytes_bits_length; lia). specialize (F ltac:(lia)).
      apply bytes_bits_inj in F; auto. subst. split; auto. apply app_inv_head in B5. auto. }
    eauto.
  - rewrite W3, app_length, bytes_bits_length in L. unfold zlen in L. lia.
Qed.

(** ** the fixed codes *)
Lemma lens_ok_nonneg M lens : lens_ok M lens -> Forall (fun l => 0 <= l) lens.
Proof. intros H. eapply Forall_impl; [|exact H]. cbn; lia. Qed.
Lemma fixed_lit_ok : code_ok 15 rfc_fixed_lit.
Proof.
  split; [|apply Z.leb_le; vm_compute; reflexivity].
  apply Forall_forall. intros x Hx.
  assert (forallb (fun x => (0 <=? x) && (x <=? 15)) rfc_fixed_lit = true) as F by (vm_compute; reflexivity).
  rewrite forallb_forall in F. specialize (F x Hx). lia.
Qed.
Lemma fixed_dist_ok : code_ok 15 rfc_fixed_dist.
Proof.
  split; [|apply Z.leb_le; vm_compute; reflexivity].
  apply Forall_forall. intros x Hx.
  assert (forallb (fun x => (0 <=? x) && (x <=? 15)) rfc_fixed_dist = true) as F by (vm_compute; reflexivity).
  rewrite forallb_forall in F. specialize (F x Hx). lia.
Qed.
Lemma ht_exists lens : lens_ok 15 lens -> zlen lens <= 4096 -> exists t, from_lengths lens = Ok t /\ ht_for lens t.
Proof.
  intros HL Hn. destruct (from_lengths_cases lens (lens_ok_nonneg _ _ HL) Hn) as [[_ N]|(t & H & _)]; [contradiction|].
  exists t. split; [apply H|auto].
Qed.
Lemma fixed_tables : exists lt dt, fixed_literal_table = Ok lt /\ fixed_distance_table = Ok dt /\
  ht_for rfc_fixed_lit lt /\ ht_for rfc_fixed_dist dt.
Proof.
  destruct (ht_exists rfc_fixed_lit (proj1 fixed_lit_ok)) as (lt & L1 & L2); [cbv; discriminate|].
  destruct (ht_exists rfc_fixed_dist (proj1 fixed_dist_ok)) as (dt & D1 & D2); [cbv; discriminate|].
  exists lt, dt. auto.
Qed.

(** ** code length code lengths *)
Lemma order_nodup : NoDup rfc_cl_order.
Proof. repeat constructor; cbn; intuition discriminate. Qed.
Lemma order_lt o : In o rfc_cl_order -> (o < 19)%nat.
Proof. cbn. intuition lia. Qed.
Lemma order_get i o t : skipn i rfc_cl_order = o :: t -> get CODE_LENGTH_ORDER (Z.of_nat i) = Ok (Z.of_nat o).
Proof.
  intros E. unfold get. destruct (Z.ltb_spec (Z.of_nat i) 0); [lia|]. rewrite Nat2Z.id.
  change CODE_LENGTH_ORDER with (map Z.of_nat rfc_cl_order). rewrite nth_error_map.
  assert (nth_error rfc_cl_order i = Some o) as ->; [|reflexivity].
  rewrite <- (firstn_skipn i rfc_cl_order), E. rewrite nth_error_app2; rewrite firstn_length;
    assert (i < length rfc_cl_order)%nat by (apply (f_equal (@length nat)) in E; rewrite skipn_length in E; cbn [length] in *; lia);
    [|lia]. rewrite Nat.min_l by lia. rewrite Nat.sub_diag. reflexivity.
Qed.
Lemma skipn_S {A} i (l : list A) x t : skipn i l = x :: t -> skipn (S i) l = t.
Proof.
  revert l; induction i as [|i IH]; intros l E; cbn [skipn] in *.
  - subst. reflexivity.
  - destruct l; [discriminate|]. apply IH in E. exact E.
Qed.
Lemma skipn_in {A} i (l : list A) x t : skipn i l = x :: t -> In x l.
Proof. intros E. rewrite <- (firstn_skipn i l), E. apply in_or_app. right. left. auto. Qed.
Lemma NoDup_skipn {A} i (l : list A) : NoDup l -> NoDup (skipn i l).
Proof. revert l; induction i as [|i IH]; intros l H; cbn; auto. destruct l; auto. inversion H; auto. Qed.
Lemma firstn_in {A} k (l : list A) x : In x (firstn k l) -> In x l.
Proof. intros H. rewrite <- (firstn_skipn k l). apply in_or_app. auto. Qed.

Definition hdr (cl : list Z) (os : list nat) : list bool := flat_map (fun o => bits_of 3 (nth o cl 0)) os.
Lemma hdr_ext cl cl' os : (forall o, In o os -> nth o cl 0 = nth o cl' 0) -> hdr cl os = hdr cl' os.
Proof. induction os as [|o t IH]; intros H; [reflexivity|]. unfold hdr in *. cbn [flat_map]. rewrite H by (left; auto). f_equal. apply IH. intros; apply H; right; auto. Qed.

Lemma read_cl_sound k : forall i cl r, br_inv r -> length cl = 19%nat -> (i + k <= 19)%nat ->
  Forall (fun v => 0 <= v <= 7) cl ->
  match read_cl k (Z.of_nat i) cl r with
  | Ok (cl', r') => br_inv r' /\ length cl' = 19%nat /\ Forall (fun v => 0 <= v <= 7) cl' /\
      br_bits r = hdr cl' (firstn k (skipn i rfc_cl_order)) ++ br_bits r' /\
      (forall o, ~ In o (firstn k (skipn i rfc_cl_order)) -> nth o cl' 0 = nth o cl 0)
  | Err e => e = EInvalidDecode
  | _ => False
  end.
Proof.
  induction k as [|k IH]; intros i cl r Hi HL Hk HV; cbn [read_cl].
  - split; [auto|split; [auto|split; [auto|split; auto]]].
  - destruct (skipn i rfc_cl_order) as [|o t] eqn:EO.
    { exfalso. apply (f_equal (@length nat)) in EO. rewrite skipn_length in EO. cbn [length rfc_cl_order] in EO. lia. }
    rewrite (order_get i o t EO). cbn [rbind].
    destruct (br_read_cases r 3 Hi ltac:(lia)) as [(v & r1 & R1 & R2 & R3 & R4)|R]; [|rewrite R; reflexivity].
    rewrite R1. cbn [rbind]. pose proof (order_lt o (skipn_in _ _ _ _ EO)) as Ho.
    rewrite (get_ok cl _ 0) by (unfold zlen; lia). cbn [rbind]. rewrite Nat2Z.id.
    replace (Z.of_nat i + 1) with (Z.of_nat (S i)) by lia.
    specialize (IH (S i) (upd cl o v) r1 R2). rewrite upd_length in IH. change (2 ^ 3) with 8 in *.
    specialize (IH HL ltac:(lia) ltac:(apply Forall_upd; auto; lia)).
    destruct (read_cl k (Z.of_nat (S i)) (upd cl o v) r1) as [[cl' r']| | |]; auto.
    destruct IH as (I1 & I2 & I3 & I4 & I5). rewrite (skipn_S _ _ _ _ EO) in *. cbn [firstn].
    pose proof (NoDup_skipn i _ order_nodup) as ND. rewrite EO in ND. inversion ND as [|? ? N1 N2]; subst.
    assert (nth o cl' 0 = v) as EV.
    { rewrite I5; [apply nth_upd_eq; lia|]. intros H. apply N1. eapply firstn_in; eauto. }
    split; [auto|split; [auto|split; [auto|split]]].
    + rewrite R4, I4. cbn [hdr flat_map]. rewrite EV, <- app_assoc. reflexivity.
    + intros o' No. rewrite I5; [apply nth_upd_neq|]; cbn in No; intuition.
Qed.
Lemma read_cl_complete k : forall i cl tgt r rest, br_inv r -> length cl = 19%nat -> (i + k <= 19)%nat ->
  Forall (fun v => 0 <= v <= 7) tgt ->
  br_bits r = hdr tgt (firstn k (skipn i rfc_cl_order)) ++ rest ->
  exists cl' r', read_cl k (Z.of_nat i) cl r = Ok (cl', r') /\ br_inv r' /\ length cl' = 19%nat /\ br_bits r' = rest /\
      (forall o, In o (firstn k (skipn i rfc_cl_order)) -> nth o cl' 0 = nth o tgt 0) /\
      (forall o, ~ In o (firstn k (skipn i rfc_cl_order)) -> nth o cl' 0 = nth o cl 0).
Proof.
  induction k as [|k IH]; intros i cl tgt r rest Hi HL Hk HV HB; cbn [read_cl].
  - exists cl, r. split; [auto|split; [auto|split; [auto|split; [auto|split]]]]; auto. cbn. intuition.
  - destruct (skipn i rfc_cl_order) as [|o t] eqn:EO.
    { exfalso. apply (f_equal (@length nat)) in EO. rewrite skipn_length in EO. cbn [length rfc_cl_order] in EO. lia. }
    rewrite (order_get i o t EO). cbn [rbind]. cbn [firstn hdr flat_map] in HB. rewrite <- app_assoc in HB.
    assert (0 <= nth o tgt 0 <= 7) as Hv by (apply (Forall_nth_d (fun v => 0 <= v <= 7)); auto; lia).
    destruct (br_read_app r 3 (nth o tgt 0) _ Hi ltac:(lia) ltac:(change (2 ^ 3) with 8; lia) HB) as (r1 & R1 & R2 & R3).
    rewrite R1. cbn [rbind]. pose proof (order_lt o (skipn_in _ _ _ _ EO)) as Ho.
    rewrite (get_ok cl _ 0) by (unfold zlen; lia). cbn [rbind]. rewrite Nat2Z.id.
    replace (Z.of_nat i + 1) with (Z.of_nat (S i)) by lia.
    destruct (IH (S i) (upd cl o (nth o tgt 0)) tgt r1 rest R2) as (cl' & r' & I1 & I2 & I3 & I4 & I5 & I6); auto.
    { rewrite upd_length; auto. } { lia. } { rewrite (skipn_S _ _ _ _ EO). exact R3. }
    rewrite (skipn_S _ _ _ _ EO) in *. pose proof (NoDup_skipn i _ order_nodup) as ND. rewrite EO in ND. inversion ND as [|? ? N1 N2]; subst.
    exists cl', r'. split; [auto|split; [auto|split; [auto|split; [auto|split]]]].
    + intros o' [<-|H]; auto. rewrite I6; [apply nth_upd_eq; lia|]. intros H. apply N1. eapply firstn_in; eauto.
    + intros o' No. rewrite I6; [apply nth_upd_neq|]; cbn in No; intuition.
Qed.

(** ** code lengths *)
Lemma cl_run1_grow acc i a : cl_run1 acc i = Some a -> zlen acc < zlen a.
Proof.
  destruct i; cbn [cl_run1]; intros H.
  - destruct (_ && _); [|discriminate]. injection H as <-. unfold zlen. rewrite app_length. cbn [length]. lia.
  - destruct acc as [|z acc]; [discriminate|]. destruct ((3 <=? n) && (n <=? 6)) eqn:E; [|discriminate]. injection H as <-.
    unfold zlen. cbn [length app]. rewrite ?app_length. cbn [length]. rewrite ?app_length, repeat_length. lia.
  - destruct ((3 <=? n) && (n <=? 10)) eqn:E; [|discriminate]. injection H as <-.
    unfold zlen. cbn [length app]. rewrite ?app_length. cbn [length]. rewrite ?app_length, repeat_length. lia.
  - destruct ((11 <=? n) && (n <=? 138)) eqn:E; [|discriminate]. injection H as <-.
    unfold zlen. cbn [length app]. rewrite ?app_length. cbn [length]. rewrite ?app_length, repeat_length. lia.
Qed.
Lemma cl_run_grow is : forall acc a, cl_run acc is = Some a -> zlen acc <= zlen a.
Proof.
  induction is as [|i t IH]; intros acc a H; cbn [cl_run] in H; [injection H as ->; lia|].
  destruct (cl_run1 acc i) as [b|] eqn:E; [|discriminate]. apply cl_run1_grow in E. apply IH in H. lia.
Qed.
Definition len15 (l : list Z) : Prop := Forall (fun v => 0 <= v <= 15) l.
Lemma Forall_repeat {A} (P : A -> Prop) x n : P x -> Forall P (repeat x n).
Proof. intros H. induction n; cbn; constructor; auto. Qed.
Lemma last_in15 acc : len15 acc -> 0 <= last acc 0 <= 15.
Proof. intros H. induction H as [|x l Hx Hl IH]; cbn; [lia|]. destruct l; auto. Qed.

Lemma read_lens_sound fuel : forall n cl t acc r, ht_for cl t -> br_inv r -> zlen acc <= n -> n - zlen acc <= Z.of_nat fuel ->
  len15 acc ->
  match read_lens fuel n t acc r with
  | Ok (lens, r') => exists is, cl_run acc is = Some lens /\ zlen lens = n /\ len15 lens /\
      Forall (fun i => has_code cl (cl_sym i)) is /\ br_inv r' /\ br_bits r = cl_bits cl is ++ br_bits r'
  | Err e => e = EInvalidDecode
  | _ => False
  end.
Proof.
  induction fuel as [|f IH]; intros n cl t acc r HT Hi Hn HF H15; cbn [read_lens];
    (destruct (Z.geb_spec (zlen acc) n) as [G|G];
      [exists []; cbn [cl_run cl_bits flat_map app]; split; [auto|split; [lia|split; [auto|split; auto]]]|]).
  { lia. }
  pose proof (ht_decode_sound cl t r HT Hi) as S.
  destruct (ht_decode t r) as [[x r1]| | |]; cbn [rbind]; auto. destruct S as (s & -> & S2 & S3 & S4 & S5).
  assert (forall i acc' r2, cl_run1 acc i = Some acc' -> cl_sym i = s -> br_inv r2 -> zlen acc' <= n -> len15 acc' ->
     br_bits r1 = cl_extra i ++ br_bits r2 ->
     match read_lens f n t acc' r2 with
      | Ok (lens, r') => exists is, cl_run acc is = Some lens /\ zlen lens = n /\ len15 lens /\
          Forall (fun i => has_code cl (cl_sym i)) is /\ br_inv r' /\ br_bits r = cl_bits cl is ++ br_bits r'
      | Err e => e = EInvalidDecode
      | _ => False
      end) as STEP.
  { intros i acc' r2 E1 E2 E3 E4 E5 E6. pose proof (cl_run1_grow _ _ _ E1).
    specialize (IH n cl t acc' r2 HT E3 E4 ltac:(lia) E5).
    destruct (read_lens f n t acc' r2) as [[lens r']| | |]; auto.
    destruct IH as (is & I1 & I2 & I3 & I4 & I5 & I6). exists (i :: is). cbn [cl_run]. rewrite E1.
    split; [auto|split; [auto|split; [auto|split; [|split; [auto|]]]]].
    - constructor; auto. rewrite E2. auto.
    - cbn [cl_bits flat_map]. rewrite E2, S4, E6, I6. rewrite <- !app_assoc. reflexivity. }
  destruct (Z.leb_spec (Z.of_nat s) 15) as [L|L].
  { apply (STEP (CLen (Z.of_nat s))); auto.
    - cbn [cl_run1]. destruct (Z.leb_spec 0 (Z.of_nat s)); [|lia]. destruct (Z.leb_spec (Z.of_nat s) 15); [|lia]. reflexivity.
    - cbn. lia.
    - rewrite zlen_app. change (zlen [Z.of_nat s]) with 1. lia.
    - apply Forall_app. split; auto. constructor; [lia|constructor]. }
  destruct (Z.eqb_spec (Z.of_nat s) 16) as [E16|N16].
  { destruct acc as [|a0 acc0] eqn:EA; [reflexivity|]. rewrite <- EA in *.
    destruct (br_read_cases r1 2 S3 ltac:(lia)) as [(x & r2 & R1 & R2 & R3 & R4)|R]; [|rewrite R; reflexivity].
    rewrite R1. cbn [rbind]. change (2 ^ 2) with 4 in *. destruct (Z.gtb_spec (zlen acc + (x + 3)) n) as [O|O]; [reflexivity|].
    apply (STEP (CRep (x + 3))); auto.
    - cbn [cl_run1]. rewrite EA. destruct (Z.leb_spec 3 (x + 3)); [|lia]. destruct (Z.leb_spec (x + 3) 6); [|lia]. reflexivity.
    - cbn. lia.
    - rewrite zlen_app. unfold zlen at 2. rewrite repeat_length. lia.
    - apply Forall_app. split; auto. apply Forall_repeat. apply last_in15. auto.
    - cbn [cl_extra]. replace (x + 3 - 3) with x by lia. exact R4. }
  destruct (Z.eqb_spec (Z.of_nat s) 17) as [E17|N17].
  { destruct (br_read_cases r1 3 S3 ltac:(lia)) as [(x & r2 & R1 & R2 & R3 & R4)|R]; [|rewrite R; reflexivity].
    rewrite R1. cbn [rbind]. change (2 ^ 3) with 8 in *. destruct (Z.gtb_spec (zlen acc + (x + 3)) n) as [O|O]; [reflexivity|].
    apply (STEP (CZero3 (x + 3))); auto.
    - cbn [cl_run1]. destruct (Z.leb_spec 3 (x + 3)); [|lia]. destruct (Z.leb_spec (x + 3) 10); [|lia]. reflexivity.
    - cbn. lia.
    - rewrite zlen_app. unfold zlen at 2. rewrite repeat_length. lia.
    - apply Forall_app. split; auto. apply Forall_repeat. lia.
    - cbn [cl_extra]. replace (x + 3 - 3) with x by lia. exact R4. }
  destruct (Z.eqb_spec (Z.of_nat s) 18) as [E18|N18]; [|reflexivity].
  destruct (br_read_cases r1 7 S3 ltac:(lia)) as [(x & r2 & R1 & R2 & R3 & R4)|R]; [|rewrite R; reflexivity].
  rewrite R1. cbn [rbind]. change (2 ^ 7) with 128 in *. destruct (Z.gtb_spec (zlen acc + (x + 11)) n) as [O|O]; [reflexivity|].
  apply (STEP (CZero7 (x + 11))); auto.
  - cbn [cl_run1]. destruct (Z.leb_spec 11 (x + 11)); [|lia]. destruct (Z.leb_spec (x + 11) 138); [|lia]. reflexivity.
  - cbn. lia.
  - rewrite zlen_app. unfold zlen at 2. rewrite repeat_length. lia.
  - apply Forall_app. split; auto. apply Forall_repeat. lia.
  - cbn [cl_extra]. replace (x + 11 - 11) with x by lia. exact R4.
Qed.

Lemma read_lens_complete fuel : forall n cl t acc r is lens rest, ht_for cl t -> kraft 15 cl <= 2 ^ 15 -> br_inv r ->
  n - zlen acc <= Z.of_nat fuel ->
  cl_run acc is = Some lens -> zlen lens = n -> Forall (fun i => has_code cl (cl_sym i)) is ->
  br_bits r = cl_bits cl is ++ rest ->
  exists r', read_lens fuel n t acc r = Ok (lens, r') /\ br_inv r' /\ br_bits r' = rest.
Proof.
  induction fuel as [|f IH]; intros n cl t acc r is lens rest HT HK Hi HF HR HN HC HB; cbn [read_lens].
  - destruct (Z.geb_spec (zlen acc) n) as [G|G]; [|lia]. destruct is as [|i is].
    + cbn in HR. injection HR as <-. eauto.
    + cbn [cl_run] in HR. destruct (cl_run1 acc i) eqn:E; [|discriminate]. apply cl_run1_grow in E. apply cl_run_grow in HR. lia.
  - destruct is as [|i is].
    { cbn in HR. injection HR as <-. destruct (Z.geb_spec (zlen acc) n); [|lia]. eauto. }
    cbn [cl_run] in HR. destruct (cl_run1 acc i) as [acc'|] eqn:E; [|discriminate].
    pose proof (cl_run1_grow _ _ _ E) as G1. pose proof (cl_run_grow _ _ _ HR) as G2.
    destruct (Z.geb_spec (zlen acc) n) as [G|G]; [lia|].
    inversion HC as [|? ? HC1 HC2]; subst. cbn [cl_bits flat_map] in HB. rewrite <- !app_assoc in HB.
    destruct (ht_decode_complete cl t r _ _ HT HK Hi HC1 HB) as (r1 & S1 & S2 & S3). rewrite S1. cbn [rbind].
    destruct i as [v|m|m|m]; cbn [cl_run1 cl_sym cl_extra] in *.
    + destruct ((0 <=? v) && (v <=? 15)) eqn:EV; [|discriminate]. injection E as <-.
      rewrite Z2Nat.id by lia. destruct (Z.leb_spec v 15); [|lia].
      eapply IH; eauto. lia.
    + destruct acc as [|a0 acc0] eqn:EA; [discriminate|]. rewrite <- EA in *.
      destruct ((3 <=? m) && (m <=? 6)) eqn:EV; [|discriminate]. injection E as <-.
      destruct (br_read_app r1 2 (m - 3) _ S2 ltac:(lia) ltac:(change (2 ^ 2) with 4; lia) S3) as (r2 & R1 & R2 & R3).
      change (Z.of_nat 16) with 16. cbn [Z.leb Z.eqb Z.compare Pos.compare Pos.compare_cont Pos.eqb]. rewrite R1. cbn [rbind].
      replace (m - 3 + 3) with m by lia. rewrite zlen_app in G1, G2. unfold zlen in G2 at 2. rewrite repeat_length in G2.
      destruct (Z.gtb_spec (zlen acc + m) (zlen lens)); [lia|].
      eapply IH; eauto. rewrite zlen_app. unfold zlen at 3. rewrite repeat_length. lia.
    + destruct ((3 <=? m) && (m <=? 10)) eqn:EV; [|discriminate]. injection E as <-.
      destruct (br_read_app r1 3 (m - 3) _ S2 ltac:(lia) ltac:(change (2 ^ 3) with 8; lia) S3) as (r2 & R1 & R2 & R3).
      change (Z.of_nat 17) with 17. cbn [Z.leb Z.eqb Z.compare Pos.compare Pos.compare_cont Pos.eqb]. rewrite R1. cbn [rbind].
      replace (m - 3 + 3) with m by lia. rewrite zlen_app in G1, G2. unfold zlen in G2 at 2. rewrite repeat_length in G2.
      destruct (Z.gtb_spec (zlen acc + m) (zlen lens)); [lia|].
      eapply IH; eauto. rewrite zlen_app. unfold zlen at 3. rewrite repeat_length. lia.
    + destruct ((11 <=? m) && (m <=? 138)) eqn:EV; [|discriminate]. injection E as <-.
      destruct (br_read_app r1 7 (m - 11) _ S2 ltac:(lia) ltac:(change (2 ^ 7) with 128; lia) S3) as (r2 & R1 & R2 & R3).
      change (Z.of_nat 18) with 18. cbn [Z.leb Z.eqb Z.compare Pos.compare Pos.compare_cont Pos.eqb]. rewrite R1. cbn [rbind].
      replace (m - 11 + 11) with m by lia. rewrite zlen_app in G1, G2. unfold zlen in G2 at 2. rewrite repeat_length in G2.
      destruct (Z.gtb_spec (zlen acc + m) (zlen lens)); [lia|].
      eapply IH; eauto. rewrite zlen_app. unfold zlen at 3. rewrite repeat_length. lia.
Qed.

(** ** dynamic blocks *)
Lemma NoDup_app_disj {A} (l m : list A) x : NoDup (l ++ m) -> In x l -> ~ In x m.
Proof.
  induction l as [|a l IH]; intros H Hi; [destruct Hi|]. cbn in H. inversion H as [|? ? N1 N2]; subst.
  destruct Hi as [->|Hi]; [|auto]. intros Hm. apply N1. apply in_or_app. auto.
Qed.
Lemma kraft_scale M N lens : 0 <= M <= N -> lens_ok M lens -> kraft N lens = 2 ^ (N - M) * kraft M lens.
Proof.
  intros HM HL. unfold kraft. rewrite Z.mul_comm, <- psum_mul. apply psum_ext. intros i Hi.
  pose proof (ln_range M lens i ltac:(lia) HL). destruct (Z.ltb_spec 0 (ln lens i)); [|lia].
  rewrite <- Z.pow_add_r by lia. f_equal. lia.
Qed.

Lemma hdr_header n cl : hdr cl (firstn n (skipn 0 rfc_cl_order)) = cl_header n cl.
Proof. reflexivity. Qed.
Lemma order_all o : (o < 19)%nat -> In o rfc_cl_order.
Proof. intros H. do 19 (destruct o as [|o]; [cbn; tauto|]). lia. Qed.

Lemma len15_ok l : len15 l -> lens_ok 15 l.
Proof. exact (fun H => H). Qed.
Lemma lens_ok_7_15 l : lens_ok 7 l -> lens_ok 15 l.
Proof. intros H. eapply Forall_impl; [|exact H]. cbn; lia. Qed.

Lemma inflate_dynamic_sound r out : br_inv r ->
  match inflate_dynamic r out with
  | Ok (out', r') => br_inv r' /\ exists hb ll dl ts bs, dyn_header lens_ok hb ll dl /\ lens_ok 15 ll /\ lens_ok 15 dl /\
        body_bits ll dl ts bs /\ expand out ts = Some out' /\ br_bits r = hb ++ bs ++ br_bits r'
  | Err e => e = EInvalidDecode
  | _ => False
  end.
Proof.
  intros Hi. unfold inflate_dynamic.
  destruct (br_read_cases r 5 Hi ltac:(lia)) as [(hl & r1 & R1 & R2 & R3 & R4)|R]; [|rewrite R; reflexivity].
  rewrite R1. cbn [rbind].
  destruct (br_read_cases r1 5 R2 ltac:(lia)) as [(hd & r2 & S1 & S2 & S3 & S4)|R]; [|rewrite R; reflexivity].
  rewrite S1. cbn [rbind].
  destruct (br_read_cases r2 4 S2 ltac:(lia)) as [(hc & r3 & T1 & T2 & T3 & T4)|R]; [|rewrite R; reflexivity].
  rewrite T1. cbn [rbind]. change (2 ^ 5) with 32 in *. change (2 ^ 4) with 16 in *.
  pose proof (read_cl_sound (Z.to_nat (hc + 4)) 0 (repeat 0 19) r3 T2 eq_refl ltac:(lia)
    ltac:(apply Forall_repeat; lia)) as C. change (Z.of_nat 0) with 0 in C.
  destruct (read_cl (Z.to_nat (hc + 4)) 0 (repeat 0 19) r3) as [[cl r4]| | |]; cbn [rbind]; auto.
  destruct C as (C1 & C2 & C3 & C4 & C5).
  assert (lens_ok 7 cl) as C7 by exact C3.
  destruct (ht_exists cl (lens_ok_7_15 _ C7) ltac:(unfold zlen; lia)) as (ct & F1 & F2). rewrite F1. cbn [rbind].
  set (n := hl + 257 + (hd + 1)).
  pose proof (read_lens_sound (Z.to_nat n) n cl ct [] r4 F2 C1 ltac:(unfold zlen; cbn [length]; lia)
     ltac:(unfold zlen; cbn [length]; lia) ltac:(constructor)) as L.
  destruct (read_lens (Z.to_nat n) n ct [] r4) as [[lens r5]| | |]; cbn [rbind]; auto.
  destruct L as (is & L1 & L2 & L3 & L4 & L5 & L6).
  set (k := Z.to_nat (hl + 257)).
  assert (zlen (firstn k lens) = hl + 257) as Z1 by (unfold zlen in *; rewrite firstn_length; lia).
  assert (zlen (skipn k lens) = hd + 1) as Z2 by (unfold zlen in *; rewrite skipn_length; lia).
  pose proof (Forall_firstn _ k lens L3) as O1. pose proof (Forall_skipn _ k lens L3) as O2.
  destruct (ht_exists (firstn k lens) O1 ltac:(lia)) as (lt & G1 & G2). rewrite G1. cbn [rbind].
  destruct (ht_exists (skipn k lens) O2 ltac:(lia)) as (dt & D1 & D2). rewrite D1. cbn [rbind].
  pose proof (inflate_block_sound (S (bits_left r5)) (firstn k lens) (skipn k lens) lt dt r5 out G2 D2 L5) as B.
  rewrite bits_left_spec in * by auto. specialize (B ltac:(lia)).
  destruct (inflate_block (S (length (br_bits r5))) lt dt r5 out) as [[out' r']| | |]; auto.
  destruct B as (ts & bs & B2 & B1 & B4 & B3). split; [auto|].
  exists (bits_of 5 hl ++ bits_of 5 hd ++ bits_of 4 hc ++ cl_header (Z.to_nat (hc + 4)) cl ++ cl_bits cl is), (firstn k lens), (skipn k lens), ts, bs.
  split; [|split; [auto|split; [auto|split; [auto|split; [auto|]]]]].
  - constructor; auto.
    + apply Forall_forall. intros o Ho. rewrite C5.
      * assert (forall m, nth m (repeat 0 19) 0 = 0) as Hrep; [|apply Hrep]. intros m. do 19 (destruct m as [|m]; [reflexivity|]). destruct m; reflexivity.
      * cbn [skipn]. intros Hin. pose proof order_nodup as ND. rewrite <- (firstn_skipn (Z.to_nat (hc + 4)) rfc_cl_order) in ND.
        apply NoDup_app_disj with (2 := Hin) in ND; auto.
    + rewrite firstn_skipn. auto.
  - rewrite R4, S4, T4, C4, L6, B4, hdr_header. rewrite <- !app_assoc. reflexivity.
Qed.

Lemma inflate_dynamic_complete r out hb ll dl ts bs out' rest : br_inv r ->
  dyn_header code_ok hb ll dl -> code_ok 15 ll -> code_ok 15 dl -> body_bits ll dl ts bs ->
  expand out ts = Some out' -> br_bits r = hb ++ bs ++ rest ->
  exists r', inflate_dynamic r out = Ok (out', r') /\ br_inv r' /\ br_bits r' = rest.
Proof.
  intros Hi HD KL KD HBody HE HB. inversion HD as [hl hd hc cl is ll' dl' H1 H2 H3 H4 H5 H6 H7 H8 H9 H10]; subst.
  rewrite <- !app_assoc in HB. unfold inflate_dynamic.
  destruct (br_read_app r 5 hl _ Hi ltac:(lia) ltac:(change (2 ^ 5) with 32; lia) HB) as (r1 & R1 & R2 & R3). rewrite R1. cbn [rbind].
  destruct (br_read_app r1 5 hd _ R2 ltac:(lia) ltac:(change (2 ^ 5) with 32; lia) R3) as (r2 & S1 & S2 & S3). rewrite S1. cbn [rbind].
  destruct (br_read_app r2 4 hc _ S2 ltac:(lia) ltac:(change (2 ^ 4) with 16; lia) S3) as (r3 & T1 & T2 & T3). rewrite T1. cbn [rbind].
  rewrite <- hdr_header in T3. destruct H5 as [H5 H5k].
  destruct (read_cl_complete (Z.to_nat (hc + 4)) 0 (repeat 0 19) cl r3 _ T2 eq_refl ltac:(lia) H5 T3)
    as (cl' & r4 & C1 & C2 & C3 & C4 & C5 & C6).
  change (Z.of_nat 0) with 0 in C1. rewrite C1. cbn [rbind]. cbn [skipn] in *.
  assert (cl' = cl) as ->.
  { apply nth_ext with (d := 0) (d' := 0); [lia|]. intros o Ho. rewrite C3 in Ho. pose proof (order_all o Ho) as Hin.
    rewrite <- (firstn_skipn (Z.to_nat (hc + 4)) rfc_cl_order) in Hin. apply in_app_or in Hin. destruct Hin as [Hin|Hin]; [auto|].
    rewrite C6.
    - rewrite Forall_forall in H6. rewrite H6 by auto. do 19 (destruct o as [|o]; [reflexivity|]). destruct o; reflexivity.
    - intros Hin2. pose proof order_nodup as ND. rewrite <- (firstn_skipn (Z.to_nat (hc + 4)) rfc_cl_order) in ND.
      apply NoDup_app_disj with (2 := Hin2) in ND; auto. }
  destruct (ht_exists cl (lens_ok_7_15 _ H5) ltac:(unfold zlen; lia)) as (ct & F1 & F2). rewrite F1. cbn [rbind].
  assert (kraft 15 cl <= 2 ^ 15) as K15.
  { rewrite (kraft_scale 7 15 cl) by (auto; lia). change (2 ^ 15) with (2 ^ (15 - 7) * 2 ^ 7). apply Z.mul_le_mono_nonneg_l; auto. lia. }
  destruct (read_lens_complete (Z.to_nat (hl + 257 + (hd + 1))) (hl + 257 + (hd + 1)) cl ct [] r4 is (ll ++ dl) (bs ++ rest) F2 K15 C2
    ltac:(unfold zlen; cbn [length]; lia) H8 ltac:(rewrite zlen_app; lia) H7 C4) as (r5 & L1 & L2 & L3).
  rewrite L1. cbn [rbind].
  replace (Z.to_nat (hl + 257)) with (length ll) by (unfold zlen in *; lia).
  rewrite firstn_app, skipn_app, Nat.sub_diag, firstn_all, skipn_all. cbn [firstn skipn]. rewrite app_nil_r, app_nil_l.
  destruct (ht_exists ll (proj1 KL) ltac:(lia)) as (lt & G1 & G2). rewrite G1. cbn [rbind].
  destruct (ht_exists dl (proj1 KD) ltac:(lia)) as (dt & D1 & D2). rewrite D1. cbn [rbind].
  destruct KL, KD. eapply (inflate_block_complete (S (bits_left r5)) ll dl lt dt r5 out ts bs out' rest); eauto.
  rewrite bits_left_spec by auto. lia.
Qed.

(** ** the block loop *)
Lemma read_hdr r : br_inv r ->
  (exists f b0 b1 r1 r2 v, br_read r 1 = Ok (Z.b2z f, r1) /\ br_read r1 2 = Ok (v, r2) /\ br_inv r2 /\
     v = Z.b2z b0 + 2 * Z.b2z b1 /\ br_bits r = f :: b0 :: b1 :: br_bits r2) \/
  (br_read r 1 = Err EInvalidDecode \/ exists v r1, br_read r 1 = Ok (v, r1) /\ br_read r1 2 = Err EInvalidDecode).
Proof.
  intros Hi. destruct (br_read_cases r 1 Hi ltac:(lia)) as [(v & r1 & R1 & R2 & R3 & R4)|R]; [|auto].
  destruct (br_read_cases r1 2 R2 ltac:(lia)) as [(w & r2 & S1 & S2 & S3 & S4)|R]; [|right; right; eauto].
  left. change (2 ^ 1) with 2 in *. change (2 ^ 2) with 4 in *.
  exists (Z.odd v), (Z.odd w), (Z.odd (w / 2)), r1, r2, w.
  rewrite R4, S4. cbn [Z.to_nat Pos.to_nat Pos.iter_op Nat.add bits_of app].
  assert (Z.b2z (Z.odd v) = v) as -> by (rewrite odd_mod; lia). rewrite !odd_mod.
  split; [auto|split; [auto|split; [auto|split; [lia|reflexivity]]]].
Qed.

Lemma blocks_nonempty K out bits out' rest : blocks K out bits out' rest -> bits <> [].
Proof. destruct 1; discriminate. Qed.

Lemma inflate_loop_sound fuel : forall r out, br_inv r -> (length (br_bits r) < fuel)%nat ->
  match inflate_loop fuel r out with
  | Ok (out', r') => br_inv r' /\ blocks lens_ok out (br_bits r) out' (br_bits r')
  | Err e => e = EInvalidDecode
  | _ => False
  end.
Proof.
  induction fuel as [|f IH]; intros r out Hi HF; [lia|]. cbn [inflate_loop].
  destruct (read_hdr r Hi) as [(fb & b0 & b1 & r1 & r2 & v & R1 & R2 & R3 & R4 & R5)|[R|(v & r1 & R1 & R2)]];
    [|rewrite R; reflexivity|rewrite R1; cbn [rbind]; rewrite R2; reflexivity].
  rewrite R1. cbn [rbind]. rewrite R2. cbn [rbind].
  set (blk := if v =? 0 then inflate_stored r2 out else if v =? 1 then inflate_fixed r2 out else if v =? 2 then inflate_dynamic r2 out else Err EInvalidDecode).
  assert (match blk with
    | Ok (o1, r3) => br_inv r3 /\ block lens_ok out (b0 :: b1 :: br_bits r2) o1 (br_bits r3) /\ (length (br_bits r3) <= length (br_bits r2))%nat
    | Err e => e = EInvalidDecode | _ => False end) as HBlk.
  { unfold blk. destruct (Z.eqb_spec v 0) as [E|N0].
    { pose proof (inflate_stored_sound r2 out R3) as S. destruct (inflate_stored r2 out) as [[o1 r3]| | |]; auto.
      destruct S as (S1 & pad & data & S2 & S3 & S4 & S5 & S6 & ->).
      split; [auto|]. destruct b0, b1; cbn in R4; try lia. split.
      - rewrite S2. apply (blk_stored lens_ok); auto.
      - rewrite S2, !app_length. lia. }
    destruct (Z.eqb_spec v 1) as [E|N1].
    { destruct fixed_tables as (lt & dt & F1 & F2 & F3 & F4). unfold inflate_fixed. rewrite F1, F2. cbn [rbind].
      pose proof (inflate_block_sound (S (bits_left r2)) _ _ lt dt r2 out F3 F4 R3) as B.
      rewrite bits_left_spec in * by auto. specialize (B ltac:(lia)).
      destruct (inflate_block (S (length (br_bits r2))) lt dt r2 out) as [[o1 r3]| | |]; auto.
      destruct B as (ts & bs & B1 & B2 & B3 & B4). split; [auto|]. destruct b0, b1; cbn in R4; try lia. split.
      - rewrite B3. eapply (blk_fixed lens_ok); eauto.
      - rewrite B3, app_length. lia. }
    destruct (Z.eqb_spec v 2) as [E|N2]; [|reflexivity].
    pose proof (inflate_dynamic_sound r2 out R3) as S. destruct (inflate_dynamic r2 out) as [[o1 r3]| | |]; auto.
    destruct S as (S1 & hb & ll & dl & ts & bs & S2 & S3 & S4 & S5 & S6 & S7).
    split; [auto|]. destruct b0, b1; cbn in R4; try lia. split.
    - rewrite S7. eapply (blk_dynamic lens_ok); eauto.
    - rewrite S7, !app_length. lia. }
  fold blk. destruct blk as [[o1 r3]| | |]; cbn [rbind]; auto. destruct HBlk as (B1 & B2 & B3).
  destruct fb; cbn [Z.b2z].
  - change (1 =? 1) with true. cbv iota. split; [auto|]. rewrite R5. apply bks_last. auto.
  - change (0 =? 1) with false. cbv iota. rewrite R5 in HF. cbn [length] in HF.
    specialize (IH r3 o1 B1 ltac:(lia)). destruct (inflate_loop f r3 o1) as [[o2 r4]| | |]; auto.
    destruct IH as (I1 & I2). split; [auto|]. rewrite R5. eapply bks_more; eauto.
Qed.

Lemma read_hdr_app r f b0 b1 rest : br_inv r -> br_bits r = f :: b0 :: b1 :: rest ->
  exists r1 r2, br_read r 1 = Ok (Z.b2z f, r1) /\ br_read r1 2 = Ok (Z.b2z b0 + 2 * Z.b2z b1, r2) /\ br_inv r2 /\ br_bits r2 = rest.
Proof.
  intros Hi HB. destruct (br_read_app r 1 (Z.b2z f) (b0 :: b1 :: rest) Hi ltac:(lia)) as (r1 & R1 & R2 & R3).
  { destruct f; cbn; lia. } { rewrite HB. destruct f; reflexivity. }
  destruct (br_read_app r1 2 (Z.b2z b0 + 2 * Z.b2z b1) rest R2 ltac:(lia)) as (r2 & S1 & S2 & S3).
  { destruct b0, b1; cbn; lia. } { rewrite R3. destruct b0, b1; reflexivity. }
  eauto 8.
Qed.

Lemma block_complete b0 b1 r out out' rest : br_inv r -> block code_ok out (b0 :: b1 :: br_bits r) out' rest ->
  exists r', (let v := Z.b2z b0 + 2 * Z.b2z b1 in
     if v =? 0 then inflate_stored r out else if v =? 1 then inflate_fixed r out else if v =? 2 then inflate_dynamic r out else Err EInvalidDecode)
     = Ok (out', r') /\ br_inv r' /\ br_bits r' = rest.
Proof.
  intros Hi HBk. inversion HBk; subst.
  - cbn [Z.b2z]. change (0 + 2 * 0) with 0. cbv zeta. change (0 =? 0) with true. cbv iota.
    eapply inflate_stored_complete; eauto.
  - cbv zeta. cbn [Z.b2z]. change (1 + 2 * 0) with 1. change (1 =? 0) with false. change (1 =? 1) with true. cbv iota.
    destruct fixed_tables as (lt & dt & F1 & F2 & F3 & F4). unfold inflate_fixed. rewrite F1, F2. cbn [rbind].
    eapply (inflate_block_complete (S (bits_left r))); eauto.
    + apply fixed_lit_ok. + apply fixed_dist_ok. + rewrite bits_left_spec by auto. lia.
  - cbv zeta. cbn [Z.b2z]. change (0 + 2 * 1) with 2. change (2 =? 0) with false. change (2 =? 1) with false. change (2 =? 2) with true. cbv iota.
    eapply inflate_dynamic_complete; eauto.
Qed.
Lemma block_head K out bits out' rest : block K out bits out' rest -> exists b0 b1 t, bits = b0 :: b1 :: t.
Proof. destruct 1; cbn; eauto. Qed.
Lemma block_shrink K out b0 b1 bits out' rest : block K out (b0 :: b1 :: bits) out' rest -> (length rest <= length bits)%nat.
Proof. inversion 1; subst; repeat (rewrite ?app_length; cbn [length]); lia. Qed.

Lemma inflate_loop_complete fuel : forall r out bits out' rest, br_inv r -> (length (br_bits r) < fuel)%nat ->
  blocks code_ok out bits out' rest -> bits = br_bits r ->
  exists r', inflate_loop fuel r out = Ok (out', r') /\ br_inv r' /\ br_bits r' = rest.
Proof.
  induction fuel as [|f IH]; intros r out bits out' rest Hi HF HB Hbits; [lia|]. cbn [inflate_loop].
  destruct HB as [out b out1 rest1 HB|out b out1 mid out2 rest2 HB HBs].
  - destruct (block_head _ _ _ _ _ HB) as (b0 & b1 & t & ->).
    destruct (read_hdr_app r true b0 b1 t Hi (eq_sym Hbits)) as (r1 & r2 & R1 & R2 & R3 & <-).
    rewrite R1. cbn [rbind]. rewrite R2. cbn [rbind]. destruct (block_complete b0 b1 r2 out _ _ R3 HB) as (r3 & B1 & B2 & B3).
    cbv zeta in B1. rewrite B1. cbn [rbind Z.b2z]. change (1 =? 1) with true. cbv iota. eauto.
  - destruct (block_head _ _ _ _ _ HB) as (b0 & b1 & t & ->).
    destruct (read_hdr_app r false b0 b1 t Hi (eq_sym Hbits)) as (r1 & r2 & R1 & R2 & R3 & <-).
    rewrite R1. cbn [rbind]. rewrite R2. cbn [rbind]. destruct (block_complete b0 b1 r2 out _ _ R3 HB) as (r3 & B1 & B2 & B3).
    cbv zeta in B1. rewrite B1. cbn [rbind Z.b2z]. change (0 =? 1) with false. cbv iota. subst.
    pose proof (block_shrink _ _ _ _ _ _ _ HB). rewrite <- Hbits in HF. cbn [length] in HF.
    eapply IH; eauto. lia.
Qed.

Theorem inflate_total data : bytes data -> (exists out, inflate data = Ok out) \/ inflate data = Err EInvalidDecode.
Proof.
  intros Hd. unfold inflate. pose proof (inflate_loop_sound (S (8 * length data)) (br_new data) []) as L.
  pose proof (br_new_inv data Hd) as N1. pose proof (br_new_bits data) as N2. rewrite N2, bytes_bits_length in L. specialize (L N1 ltac:(lia)).
  destruct (inflate_loop (S (8 * length data)) (br_new data) []) as [[o r]| | |]; cbn [rbind]; [left; eauto|right; subst; auto|contradiction|contradiction].
Qed.
Theorem inflate_sound data out : bytes data -> inflate data = Ok out ->
  exists rest, blocks lens_ok [] (bytes_bits data) out rest.
Proof.
  intros Hd E. unfold inflate in E. pose proof (inflate_loop_sound (S (8 * length data)) (br_new data) []) as L.
  pose proof (br_new_inv data Hd) as N1. pose proof (br_new_bits data) as N2. rewrite N2, bytes_bits_length in L. specialize (L N1 ltac:(lia)).
  destruct (inflate_loop (S (8 * length data)) (br_new data) []) as [[o r]| | |]; cbn [rbind] in E; try discriminate.
  injection E as ->. destruct L as [_ L]. eauto.
Qed.
Theorem inflate_complete data out rest : bytes data -> blocks code_ok [] (bytes_bits data) out rest -> inflate data = Ok out.
Proof.
  intros Hd HB. pose proof (br_new_inv data Hd) as N1. pose proof (br_new_bits data) as N2. unfold inflate.
  destruct (inflate_loop_complete (S (8 * length data)) (br_new data) [] (bytes_bits data) out rest N1) as (r & R1 & R2 & R3); eauto.
  { rewrite N2, bytes_bits_length. lia. } rewrite R1. reflexivity.
Qed.

(** outputs are byte strings *)
Lemma copy_back_bytes n d out : bytes out -> bytes (copy_back n d out).
Proof.
  revert out; induction n as [|n IH]; intros out H; cbn; auto. apply IH. apply bytes_app. split; auto.
  constructor; [|constructor]. apply (Forall_nth_d is_byte); auto. unfold is_byte; lia.
Qed.
Lemma expand_bytes ts : forall out out', bytes out -> expand out ts = Some out' -> bytes out'.
Proof.
  induction ts as [|t ts IH]; intros out out' H E; cbn [expand] in E; [injection E as <-; auto|].
  destruct (expand1 out t) as [o|] eqn:E1; [|discriminate]. apply (IH o); auto. clear E.
  destruct t as [b|l d]; cbn [expand1] in E1.
  - destruct ((0 <=? b) && (b <? 256)) eqn:B; [|discriminate]. injection E1 as <-. apply bytes_app. split; auto.
    constructor; [unfold is_byte; lia|constructor].
  - destruct (_ && _) in E1; [|discriminate]. injection E1 as <-. apply copy_back_bytes; auto.
Qed.
Lemma blocks_bytes K out bits out' rest : blocks K out bits out' rest -> bytes out -> bytes out'.
Proof.
  assert (forall K out bits out' rest, block K out bits out' rest -> bytes out -> bytes out') as BB.
  { intros K0 o b o' r H Ho. destruct H; [apply bytes_app; auto| |]; eapply expand_bytes; eauto. }
  induction 1; intros Ho; eauto.
Qed.
Lemma inflate_bytes data out : bytes data -> inflate data = Ok out -> bytes out.
Proof. intros Hd E. destruct (inflate_sound data out Hd E) as (rest & H). eapply blocks_bytes; eauto. constructor. Qed.

(** ** zlib *)
Lemma land15 c : Z.land c 15 = c mod 16.
Proof. apply (land_mask c 4). lia. Qed.
Lemma land32 f : (Z.land f 32 =? 0) = negb (Z.testbit f 5).
Proof.
  destruct (Z.testbit f 5) eqn:E; cbn [negb].
  - apply Z.eqb_neq. intros H. apply (f_equal (fun x => Z.testbit x 5)) in H. rewrite Z.land_spec, E in H. cbn in H. discriminate.
  - apply Z.eqb_eq. apply Z.bits_inj'. intros n Hn. rewrite Z.land_spec, Z.bits_0. change 32 with (2 ^ 5).
    rewrite Z.pow2_bits_eqb by lia. destruct (Z.eqb_spec 5 n); [subst; rewrite E|]; [reflexivity|apply andb_false_r].
Qed.
Lemma zhdr_val c f : is_byte f -> Z.lor (Z.shiftl c 8) f = c * 256 + f.
Proof.
  intros H. rewrite Z.lor_comm, (lor_shiftl f c 8) by (unfold is_byte in H; change (2 ^ 8) with 256; lia). change (2 ^ 8) with 256. lia.
Qed.

Lemma split_zlib (data : list Z) : 6 <= zlen data -> exists cmf flg body a b c d, data = [cmf; flg] ++ body ++ [a; b; c; d].
Proof.
  unfold zlen. intros H. destruct data as [|x [|y data]]; cbn [length] in H; try lia.
  rewrite <- (firstn_skipn (length data - 4) data). pose proof (skipn_length (length data - 4) data) as L.
  destruct (skipn (length data - 4) data) as [|a [|b [|c [|d [|]]]]]; cbn [length] in L; try lia.
  exists x, y, (firstn (length data - 4) data), a, b, c, d. reflexivity.
Qed.
Lemma get_app_l {A} (l m : list A) i (d : A) : 0 <= i < zlen l -> get (l ++ m) i = get l i.
Proof.
  intros H. rewrite (get_ok l i d) by auto. rewrite (get_ok (l ++ m) i d) by (rewrite zlen_app; pose proof (zlen_nonneg m); lia).
  f_equal. rewrite app_nth1; auto. unfold zlen in H. lia.
Qed.
Lemma get_app_r {A} (l m : list A) i (d : A) : 0 <= i < zlen m -> get (l ++ m) (zlen l + i) = get m i.
Proof.
  intros H. pose proof (zlen_nonneg l). rewrite (get_ok m i d) by auto. rewrite (get_ok (l ++ m) (zlen l + i) d) by (rewrite zlen_app; lia).
  f_equal. rewrite app_nth2; unfold zlen in *; [f_equal; lia|lia].
Qed.
Lemma zlib_unfold cmf flg body a b c d expected : bytes ([cmf; flg] ++ body ++ [a; b; c; d]) ->
  inflate_zlib ([cmf; flg] ++ body ++ [a; b; c; d]) expected =
    if negb (cmf mod 16 =? 8) then Err EInvalidDecode
    else if negb ((cmf * 256 + flg) mod 31 =? 0) then Err EInvalidDecode
    else if Z.testbit flg 5 then Err EUnsupportedDecode
    else let* out := inflate body in
      if negb (a * 2 ^ 24 + b * 2 ^ 16 + c * 2 ^ 8 + d =? adler_spec out) then Err EInvalidDecode
      else match expected with Some x => if zlen out =? x then Ok out else Err EInvalidDecode | None => Ok out end.
Proof.
  intros HB. unfold inflate_zlib. set (data := [cmf; flg] ++ body ++ [a; b; c; d]) in *.
  assert (zlen data = zlen body + 6) as HL by (unfold data; rewrite !zlen_app; change (zlen [cmf; flg]) with 2; change (zlen [a; b; c; d]) with 4; lia).
  pose proof (zlen_nonneg body) as Hn. rewrite HL. destruct (Z.ltb_spec (zlen body + 6) 6); [lia|].
  change (get data 0) with (Ok cmf). change (get data 1) with (Ok flg). cbn [rbind].
  assert (is_byte flg) as HF by (inversion HB; subst; match goal with H : Forall _ (flg :: _) |- _ => inversion H; subst; auto end).
  rewrite land15, land32, zhdr_val, negb_involutive by auto.
  destruct (cmf mod 16 =? 8); cbn [negb]; auto. destruct ((cmf * 256 + flg) mod 31 =? 0); cbn [negb]; auto.
  destruct (Z.testbit flg 5); auto.
  assert (slice data 2 (zlen body + 6 - 4) = body) as ->.
  { unfold slice, data. replace (Z.to_nat (zlen body + 6 - 4 - 2)) with (length body) by (unfold zlen; lia).
    change (Z.to_nat 2) with 2%nat. cbn [skipn app]. rewrite firstn_app, firstn_all, Nat.sub_diag. cbn. apply app_nil_r. }
  assert (forall i, 0 <= i < 4 -> get data (zlen body + 6 - 4 + i) = get [a; b; c; d] i) as G.
  { intros i Hi. unfold data. rewrite app_assoc.
    replace (zlen body + 6 - 4 + i) with (zlen ([cmf; flg] ++ body) + i) by (rewrite zlen_app; change (zlen [cmf; flg]) with 2; lia).
    apply (get_app_r _ _ i 0). change (zlen [a; b; c; d]) with 4. lia. }
  pose proof (G 0 ltac:(lia)) as G0. rewrite Z.add_0_r in G0. rewrite G0, !G by lia.
  change (get [a; b; c; d] 0) with (Ok a). change (get [a; b; c; d] 1) with (Ok b). change (get [a; b; c; d] 2) with (Ok c). change (get [a; b; c; d] 3) with (Ok d).
  cbn [rbind]. destruct (inflate body) as [out| | |] eqn:EI; cbn [rbind]; auto.
  assert (bytes body) as HBb by (unfold data in HB; apply bytes_app in HB; destruct HB as [_ HB]; apply bytes_app in HB; apply HB).
  rewrite (proj2 (adler_all out (inflate_bytes body out HBb EI))). reflexivity.
Qed.

Lemma bytes_mid cmf flg body a b c d : bytes ([cmf; flg] ++ body ++ [a; b; c; d]) -> bytes body.
Proof. intros H. apply bytes_app in H. destruct H as [_ H]. apply bytes_app in H. apply H. Qed.

Theorem inflate_zlib_sound data expected out : bytes data -> inflate_zlib data expected = Ok out ->
  zlib_accepts data out /\ (forall x, expected = Some x -> zlen out = x).
Proof.
  intros HB E. destruct (Z.ltb_spec (zlen data) 6) as [L|L].
  { unfold inflate_zlib in E. destruct (Z.ltb_spec (zlen data) 6); [discriminate|lia]. }
  destruct (split_zlib data ltac:(lia)) as (cmf & flg & body & a & b & c & d & ->).
  rewrite (zlib_unfold cmf flg body a b c d expected HB) in E.
  destruct (Z.eqb_spec (cmf mod 16) 8); cbn [negb] in E; [|discriminate].
  destruct (Z.eqb_spec ((cmf * 256 + flg) mod 31) 0); cbn [negb] in E; [|discriminate].
  destruct (Z.testbit flg 5) eqn:ET; [discriminate|].
  destruct (inflate body) as [o| | |] eqn:EI; cbn [rbind] in E; try discriminate.
  destruct (Z.eqb_spec (a * 2 ^ 24 + b * 2 ^ 16 + c * 2 ^ 8 + d) (adler_spec o)); cbn [negb] in E; [|discriminate].
  destruct (inflate_sound body o (bytes_mid _ _ _ _ _ _ _ HB) EI) as (rest & HR).
  assert (o = out /\ forall x, expected = Some x -> zlen out = x) as [-> HX].
  { destruct expected as [x|].
    - destruct (Z.eqb_spec (zlen o) x); [|discriminate]. injection E as ->. split; auto. congruence.
    - injection E as ->. split; auto. discriminate. }
  split; auto. exists cmf, flg, body, a, b, c, d, rest. auto 8.
Qed.

Theorem inflate_zlib_total data expected : bytes data ->
  (exists out, inflate_zlib data expected = Ok out) \/ inflate_zlib data expected = Err EInvalidDecode \/ inflate_zlib data expected = Err EUnsupportedDecode.
Proof.
  intros HB. destruct (Z.ltb_spec (zlen data) 6) as [L|L].
  { unfold inflate_zlib. destruct (Z.ltb_spec (zlen data) 6); [auto|lia]. }
  destruct (split_zlib data ltac:(lia)) as (cmf & flg & body & a & b & c & d & ->).
  rewrite (zlib_unfold cmf flg body a b c d expected HB).
  destruct (negb _); auto. destruct (negb _); auto. destruct (Z.testbit flg 5); auto.
  destruct (inflate_total body (bytes_mid _ _ _ _ _ _ _ HB)) as [(o & ->)| ->]; cbn [rbind]; auto.
  destruct (negb _); auto. destruct expected; eauto. destruct (zlen o =? z); eauto.
Qed.

Theorem inflate_zlib_complete data out : bytes data -> zlib_stream data out ->
  inflate_zlib data None = Ok out /\ inflate_zlib data (Some (zlen out)) = Ok out.
Proof.
  intros HB (cmf & flg & body & a & b & c & d & -> & C1 & C2 & C3 & C4 & C5 & C6 & C7 & (rest & C8 & _) & C9).
  pose proof (inflate_complete body out rest (bytes_mid _ _ _ _ _ _ _ HB) C8) as EI.
  split; rewrite zlib_unfold by exact HB; rewrite C3, C5, C6, EI, C9, !Z.eqb_refl; cbn [negb rbind]; rewrite !Z.eqb_refl; reflexivity.
Qed.

(** two byte strings that are zlib streams for the same bytes as far as the
    format goes decode alike, so a stream denotes at most one byte string *)
Theorem deflate_stream_functional data o1 o2 : bytes data -> deflate_stream data o1 -> deflate_stream data o2 -> o1 = o2.
Proof.
  intros HB (r1 & H1 & _) (r2 & H2 & _). apply inflate_complete in H1; auto. apply inflate_complete in H2; auto. congruence.
Qed.

(** ** decoding a whole sequence of symbols with one table *)
Fixpoint decode_n (n : nat) (t : htable) (r : br) : res (list Z * br) :=
  match n with
  | O => Ok ([], r)
  | S k => let* (s, r) := ht_decode t r in let* (l, r) := decode_n k t r in Ok (s :: l, r)
  end.
Theorem decode_n_complete lens t syms : forall r rest, code_ok 15 lens -> ht_for lens t -> br_inv r ->
  Forall (has_code lens) syms -> br_bits r = flat_map (code_word lens) syms ++ rest ->
  exists r', decode_n (length syms) t r = Ok (map Z.of_nat syms, r') /\ br_inv r' /\ br_bits r' = rest.
Proof.
  induction syms as [|s syms IH]; intros r rest HC HT Hi HS HB; cbn [length decode_n map flat_map app] in *.
  - eauto.
  - inversion HS as [|? ? HS1 HS2]; subst. rewrite <- app_assoc in HB.
    destruct (ht_decode_complete lens t r _ _ HT (proj2 HC) Hi HS1 HB) as (r1 & D1 & D2 & D3). rewrite D1. cbn [rbind].
    destruct (IH r1 rest HC HT D2 HS2 D3) as (r2 & E1 & E2 & E3). rewrite E1. cbn [rbind]. eauto.
Qed.
Theorem decode_new_complete lens syms rest data : code_ok 15 lens -> zlen lens <= 4096 ->
  Forall (has_code lens) syms -> bytes data -> bytes_bits data = flat_map (code_word lens) syms ++ rest ->
  exists t r', from_lengths lens = Ok t /\ decode_n (length syms) t (br_new data) = Ok (map Z.of_nat syms, r') /\ br_bits r' = rest.
Proof.
  intros HC HL HS HD HB. destruct (ht_exists lens (proj1 HC) HL) as (t & T1 & T2).
  destruct (decode_n_complete lens t syms (br_new data) rest HC T2 (br_new_inv _ HD) HS) as (r' & R1 & R2 & R3).
  { rewrite br_new_bits. auto. }
  eauto.
Qed.
Theorem inflate_total_bytes data : bytes data ->
  (exists out, bytes out /\ inflate data = Ok out) \/ inflate data = Err EInvalidDecode.
Proof. intros H. destruct (inflate_total data H) as [(o & E)|E]; auto. left. exists o. split; auto. eapply inflate_bytes; eauto. Qed.

Lemma app4_inv {A} (p q : list A) a b c d a' b' c' d' : p ++ [a; b; c; d] = q ++ [a'; b'; c'; d'] -> p = q /\ [a; b; c; d] = [a'; b'; c'; d'].
Proof.
  intros H. change [a; b; c; d] with ([a] ++ [b] ++ [c] ++ [d]) in H. change [a'; b'; c'; d'] with ([a'] ++ [b'] ++ [c'] ++ [d']) in H.
  rewrite !app_assoc in H. repeat (apply app_inj_tail in H; destruct H as [H ?]). subst. auto.
Qed.
Theorem zlib_trailer_err pre a b c d a' b' c' d' out : bytes (pre ++ [a; b; c; d]) -> bytes (pre ++ [a'; b'; c'; d']) ->
  inflate_zlib (pre ++ [a; b; c; d]) None = Ok out -> [a; b; c; d] <> [a'; b'; c'; d'] ->
  inflate_zlib (pre ++ [a'; b'; c'; d']) None = Err EInvalidDecode.
Proof.
  intros B1 B2 E N. assert (6 <= zlen (pre ++ [a; b; c; d])) as L.
  { unfold inflate_zlib in E. destruct (Z.ltb_spec (zlen (pre ++ [a; b; c; d])) 6); [discriminate|lia]. }
  rewrite zlen_app in L. change (zlen [a; b; c; d]) with 4 in L. destruct pre as [|x [|y body]]; try (unfold zlen in L; cbn in L; lia).
  change (x :: y :: body) with ([x; y] ++ body) in *. rewrite <- !app_assoc in *.
  rewrite (zlib_unfold x y body a b c d None B1) in E. rewrite (zlib_unfold x y body a' b' c' d' None B2).
  destruct (negb _); auto. destruct (negb _); auto. destruct (Z.testbit y 5); [discriminate|].
  destruct (inflate body) as [o| | |] eqn:EI; cbn [rbind] in *; try discriminate.
  destruct (Z.eqb_spec (a * 2 ^ 24 + b * 2 ^ 16 + c * 2 ^ 8 + d) (adler_spec o)) as [E1|]; cbn [negb] in E; [|discriminate].
  destruct (Z.eqb_spec (a' * 2 ^ 24 + b' * 2 ^ 16 + c' * 2 ^ 8 + d') (adler_spec o)) as [E2|]; cbn [negb]; [|auto].
  exfalso. apply N. apply bytes_app in B1. destruct B1 as [_ B1]. apply bytes_app in B1. destruct B1 as [_ B1].
  apply bytes_app in B2. destruct B2 as [_ B2]. apply bytes_app in B2. destruct B2 as [_ B2].
  repeat match goal with H : bytes (_ :: _) |- _ => inversion H; subst; clear H | H : Forall is_byte (_ :: _) |- _ => inversion H; subst; clear H end.
  unfold is_byte in *. change (2 ^ 24) with 16777216 in *. change (2 ^ 16) with 65536 in *. change (2 ^ 8) with 256 in *.
  assert (a = a') by lia. assert (b = b') by lia. assert (c = c') by lia. assert (d = d') by lia. subst. auto.
Qed.
Theorem zlib_garbage : exists data out, bytes data /\ inflate_zlib data None = Ok out /\ ~ zlib_stream data out.
Proof.
  exists [120; 156; 3; 0; 7; 7; 0; 0; 0; 1], []. split; [repeat constructor; lia|]. split; [vm_compute; reflexivity|].
  intros (cmf & flg & body & a & b & c & d & E & _ & _ & _ & _ & _ & _ & _ & (rest & H & HR) & _).
  assert (body = [3; 0; 7; 7]) as ->.
  { injection E as _ _ E. change [3; 0; 7; 7; 0; 0; 0; 1] with ([3; 0; 7; 7] ++ [0; 0; 0; 1]) in E. apply app4_inv in E. destruct E; auto. }
  assert (bytes [3; 0; 7; 7]) as HB by (repeat constructor; lia).
  destruct (inflate_loop_complete (S (8 * 4)) (br_new [3; 0; 7; 7]) [] (bytes_bits [3; 0; 7; 7]) [] rest (br_new_inv _ HB)) as (r' & R1 & R2 & R3);
    [rewrite br_new_bits, bytes_bits_length; cbn; lia|exact H|rewrite br_new_bits; reflexivity|].
  assert (inflate_loop (S (8 * 4)) (br_new [3; 0; 7; 7]) [] = Ok ([], r') -> (8 <= length (br_bits r'))%nat) as F; [|apply F in R1; rewrite R3 in R1; lia].
  clear. vm_compute inflate_loop. intros E. injection E as <-. vm_compute. lia.
Qed.
