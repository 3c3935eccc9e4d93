(** DEFLATE encoder: length and distance symbols, reversed codes, token emission. *)
From Verif Require Import Base BitsModel BitsProofs CanonSpec CanonProofs ChecksumModel ChecksumSpec ChecksumProofs
  DeflateSpec InflateModel InflateProofs HuffModel HuffProofs Lz77Model Lz77Spec Lz77Proofs DeflateModel.

(** ** Length and distance symbols *)
Definition sym_chk (f : Z -> res (Z * Z * Z)) (off : Z) (tab : list (Z * Z)) (v : Z) : bool :=
  match f v with
  | Ok (s, eb, ev) =>
      match nth_error tab (Z.to_nat (s - off)) with
      | Some (b, e) => (off <=? s) && (e =? eb) && (0 <=? e) && (e <=? 13) && (0 <=? ev) && (ev <? 2 ^ e) && (b + ev =? v)
      | None => false
      end
  | _ => false
  end.
Definition sym_ok (f : Z -> res (Z * Z * Z)) (off : Z) (tab : list (Z * Z)) (v : Z) : Prop :=
  exists k b e x, nth_error tab k = Some (b, e) /\ 0 <= e <= 13 /\ 0 <= x < 2 ^ e /\ v = b + x /\
                  f v = Ok (off + Z.of_nat k, e, x).
Lemma sym_chk_ok f off tab v : sym_chk f off tab v = true -> sym_ok f off tab v.
Proof.
  unfold sym_chk, sym_ok. destruct (f v) as [[[s eb] ev]| | |]; try discriminate.
  destruct (nth_error tab (Z.to_nat (s - off))) as [[b e]|] eqn:E; try discriminate.
  rewrite !andb_true_iff. intros H. exists (Z.to_nat (s - off)), b, e, ev.
  split; auto. split; [lia|]. split; [lia|]. split; [lia|].
  repeat f_equal; lia.
Qed.
Fixpoint zfrom (n : nat) (a : Z) : list Z := match n with O => [] | S k => a :: zfrom k (a + 1) end.
Lemma zfrom_in n : forall a v, a <= v < a + Z.of_nat n -> In v (zfrom n a).
Proof.
  induction n as [|n IH]; intros a v H; [lia|]. cbn [zfrom In].
  destruct (Z.eq_dec a v); auto. right. apply IH. lia.
Qed.
Lemma length_code_ok l : 3 <= l <= 258 -> sym_ok length_code 257 rfc_length l.
Proof.
  intros H. apply sym_chk_ok.
  assert (forallb (sym_chk length_code 257 rfc_length) (zfrom 256 3) = true) as K
    by (vm_compute; reflexivity).
  rewrite forallb_forall in K. apply K, zfrom_in. lia.
Qed.
Lemma distance_code_ok d : 1 <= d <= 32768 -> sym_ok distance_code 0 rfc_distance d.
Proof.
  intros H. apply sym_chk_ok.
  assert (forallb (sym_chk distance_code 0 rfc_distance) (zfrom (Z.to_nat 32768) 1) = true) as K
    by (vm_compute; reflexivity).
  rewrite forallb_forall in K. apply K, zfrom_in. lia.
Qed.

(** ** Reversed codes *)
Definition rev_chk (l : nat) (c : Z) : bool :=
  match reverse_bits c (Z.of_nat l) with Ok r => r =? val_of (rev (bits_of l c)) | _ => false end.
Lemma reverse_bits_ok c l : 0 <= l <= 15 -> 0 <= c < 2 ^ l ->
  reverse_bits c l = Ok (val_of (rev (bits_of (Z.to_nat l) c))).
Proof.
  intros Hl Hc.
  assert (forallb (fun n => forallb (rev_chk n) (zfrom (Z.to_nat (2 ^ Z.of_nat n)) 0)) (seq 0 16) = true) as K
    by (vm_compute; reflexivity).
  rewrite forallb_forall in K. specialize (K (Z.to_nat l)). rewrite forallb_forall in K.
  assert (rev_chk (Z.to_nat l) c = true) as R.
  { apply K; [apply in_seq; lia|]. apply zfrom_in. rewrite !Z2Nat.id by lia. lia. }
  unfold rev_chk in R. rewrite Z2Nat.id in R by lia.
  destruct (reverse_bits c l); try discriminate. f_equal. lia.
Qed.

(** [tab] holds, for each symbol that has a code, its code word (first bit
    lowest) and length *)
Definition table_for (lens : list Z) (tab : list (Z * Z)) : Prop :=
  length tab = length lens /\ lens_ok 15 lens /\
  forall s, has_code lens s -> nth s tab (0, 0) = (val_of (code_word lens s), ln lens s).

Lemma prepare_nth codes : forall tab, prepare_reversed_codes codes = Ok tab ->
  length tab = length codes /\
  forall s r, (s < length codes)%nat -> reverse_bits (fst (nth s codes (0, 0))) (snd (nth s codes (0, 0))) = Ok r ->
    nth s tab (0, 0) = (r, snd (nth s codes (0, 0))).
Proof.
  unfold prepare_reversed_codes. induction codes as [|[c l] t IH]; intros tab H; cbn [map_res] in H.
  - inversion H; subst. split; auto. cbn. intros; lia.
  - destruct (reverse_bits c l) as [r| | |] eqn:R; cbn [rbind] in H; try discriminate.
    match type of H with rbind ?m _ = _ => destruct m as [tab'| | |] eqn:M end; cbn [rbind] in H; try discriminate.
    inversion H; subst. destruct (IH tab' eq_refl) as [L N]. split; [cbn; congruence|].
    intros [|s] r' Hs Hr; cbn [nth fst snd length] in *; [congruence|]. apply N; auto; lia.
Qed.
Lemma prepare_ok codes : Forall (fun p : Z * Z => 0 <= snd p <= 15 /\ (0 < snd p -> 0 <= fst p < 2 ^ snd p)) codes ->
  exists tab, prepare_reversed_codes codes = Ok tab.
Proof.
  unfold prepare_reversed_codes. induction 1 as [|[c l] t [H1 H2] Ht [tab IH]]; cbn [map_res fst snd] in *; eauto.
  assert (exists r, reverse_bits c l = Ok r) as [r ->].
  { destruct (Z.eqb_spec l 0) as [->|]; [exists 0; reflexivity|]. rewrite reverse_bits_ok by (auto; lia). eauto. }
  cbn [rbind]. rewrite IH. cbn [rbind]. eauto.
Qed.
Lemma Forall_of_nth {A} (P : A -> Prop) d l : (forall i, (i < length l)%nat -> P (nth i l d)) -> Forall P l.
Proof.
  induction l as [|x l IH]; intros H; constructor.
  - apply (H O). cbn; lia.
  - apply IH. intros i Hi. apply (H (S i)). cbn; lia.
Qed.
Lemma snd_nth (codes : list hcode) s : snd (nth s codes (0, 0)) = nth s (map snd codes) 0.
Proof. symmetry. exact (map_nth snd codes (0, 0) s). Qed.
Lemma reversed_table M lens codes : 1 <= M <= 15 -> canonical lens codes -> code_ok M lens ->
  exists tab, prepare_reversed_codes codes = Ok tab /\ table_for lens tab.
Proof.
  intros HM [C1 C2] HK. pose proof (code_ok_15 M lens HM HK) as L15.
  assert (length codes = length lens) as LL by (rewrite <- C1, map_length; reflexivity).
  destruct (prepare_ok codes) as [tab T].
  { apply (Forall_of_nth _ (0, 0)). intros i Hi.
    assert (snd (nth i codes (0, 0)) = ln lens i) as -> by (unfold ln; rewrite <- C1; apply snd_nth).
    split; [apply (ln_range 15); auto; lia|]. intros Hp.
    assert (has_code lens i) as HC by (split; [rewrite <- LL; exact Hi|exact Hp]).
    rewrite (C2 i HC). cbn [fst]. apply (canon_range M); auto; lia. }
  exists tab; split; auto. destruct (prepare_nth codes tab T) as [L N].
  split; [rewrite L; exact LL|]. split; auto. intros s HC.
  rewrite (N s (val_of (code_word lens s))).
  - rewrite (C2 s HC). reflexivity.
  - rewrite LL. apply HC.
  - rewrite (C2 s HC). cbn [fst snd]. apply reverse_bits_ok.
    + apply (ln_range 15); auto; lia.
    + apply (canon_range M); auto; lia.
Qed.

(** ** Emission *)
(** [w'] is [w] with [bs] appended *)
Definition wrote (w : bw64) (bs : list bool) (w' : bw64) : Prop :=
  b64_inv w' /\ b64_bits w' = b64_bits w ++ bs.
Lemma wrote_refl w : b64_inv w -> wrote w [] w.
Proof. intros; split; auto. rewrite app_nil_r; auto. Qed.
Lemma wrote_trans w a w1 b w2 : wrote w a w1 -> wrote w1 b w2 -> wrote w (a ++ b) w2.
Proof. intros [H1 H2] [H3 H4]; split; auto. rewrite H4, H2, app_assoc; auto. Qed.
Lemma write_wrote w v n : b64_inv w -> 0 <= n <= 31 -> wrote w (bits_of (Z.to_nat n) v) (b64_write w v n).
Proof. intros H1 H2. destruct (b64_write_spec w v n H1 H2). split; auto. Qed.

Lemma emit_ok w lens tab s : b64_inv w -> table_for lens tab -> has_code lens s ->
  exists w', emit w tab (Z.of_nat s) = Ok w' /\ wrote w (code_word lens s) w'.
Proof.
  intros Hw (TL & T15 & T) HC. unfold emit. rewrite (get_ok tab _ (0, 0)).
  2:{ destruct HC. unfold zlen. lia. }
  rewrite Nat2Z.id, (T s HC). cbn [rbind]. eexists; split; [reflexivity|].
  pose proof (ln_range 15 lens s ltac:(lia) T15).
  assert (code_word lens s = bits_of (Z.to_nat (ln lens s)) (val_of (code_word lens s))) as E.
  { rewrite <- (code_word_length lens s). rewrite bits_of_val_of. reflexivity. }
  rewrite E at 1. apply write_wrote; auto. lia.
Qed.
Lemma emit_extra_ok w v n : b64_inv w -> 0 <= n <= 31 -> wrote w (bits_of (Z.to_nat n) v) (emit_extra w v n).
Proof.
  intros Hw Hn. unfold emit_extra. destruct (Z.ltb_spec 0 n).
  - apply write_wrote; auto.
  - replace n with 0 by lia. apply wrote_refl; auto.
Qed.

(** the two codes contain every symbol the token needs *)
Definition covered (ll dl : list Z) (t : token) : Prop :=
  match t with
  | TLit b => has_code ll (Z.to_nat b)
  | TMatch l d =>
      (forall s e v, length_code l = Ok (s, e, v) -> has_code ll (Z.to_nat s)) /\
      (forall s e v, distance_code d = Ok (s, e, v) -> has_code dl (Z.to_nat s))
  end.
Lemma write_tokens_ok ll dl lr dr : table_for ll lr -> table_for dl dr ->
  forall ts w, b64_inv w -> Forall legal_token ts -> Forall (covered ll dl) ts ->
  exists w' bs, write_tokens lr dr w ts = Ok w' /\ wrote w bs w' /\ toks_bits ll dl ts bs.
Proof.
  intros TL TD. induction ts as [|t ts IH]; intros w Hw HL HC; cbn [write_tokens].
  - exists w, []. split; auto. split; [apply wrote_refl; auto|constructor].
  - inversion HL as [|? ? L1 L2]; inversion HC as [|? ? C1 C2]; subst.
    destruct t as [b|l d]; cbn [legal_token covered] in *.
    + unfold is_byte in L1. destruct (emit_ok w ll lr (Z.to_nat b) Hw TL C1) as (w1 & E & W).
      rewrite Z2Nat.id in E by lia. rewrite E; cbn [rbind].
      destruct (IH w1 (proj1 W) L2 C2) as (w2 & bs & E2 & W2 & B).
      exists w2, (code_word ll (Z.to_nat b) ++ bs). split; auto. split; [eapply wrote_trans; eauto|].
      constructor; auto. constructor; auto.
    + destruct (length_code_ok l ltac:(lia)) as (li & lb & le & x & N1 & R1 & X1 & -> & E1).
      destruct (distance_code_ok d ltac:(lia)) as (di & db & de & y & N2 & R2 & X2 & -> & E2).
      destruct C1 as [C1l C1d]. specialize (C1l _ _ _ E1). specialize (C1d _ _ _ E2).
      unfold write_match. rewrite E1; cbn [rbind].
      rewrite <- (Nat2Z.id (Z.to_nat (257 + Z.of_nat li))) in C1l.
      destruct (emit_ok w ll lr (257 + li) Hw TL) as (w1 & M1 & W1).
      { replace (257 + li)%nat with (Z.to_nat (257 + Z.of_nat li)) by lia. rewrite Nat2Z.id in C1l; exact C1l. }
      rewrite Nat2Z.inj_add in M1. change (Z.of_nat 257) with 257 in M1. rewrite M1; cbn [rbind].
      pose proof (emit_extra_ok w1 x le (proj1 W1) ltac:(lia)) as W2.
      rewrite E2; cbn [rbind]. rewrite Z.add_0_l.
      destruct (emit_ok (emit_extra w1 x le) dl dr di (proj1 W2) TD) as (w3 & M3 & W3).
      { replace di with (Z.to_nat (0 + Z.of_nat di)) by lia. exact C1d. }
      rewrite M3; cbn [rbind].
      pose proof (emit_extra_ok w3 y de (proj1 W3) ltac:(lia)) as W4.
      destruct (IH _ (proj1 W4) L2 C2) as (w5 & bs & E5 & W5 & B).
      exists w5, ((code_word ll (257 + li) ++ bits_of (Z.to_nat le) x ++ code_word dl di ++ bits_of (Z.to_nat de) y) ++ bs).
      split; auto. split.
      * eapply wrote_trans; [|exact W5]. rewrite app_assoc, app_assoc.
        eapply wrote_trans; [|exact W4]. eapply wrote_trans; [|exact W3]. eapply wrote_trans; eauto.
      * constructor; auto. constructor; auto.
        { replace (257 + li)%nat with (Z.to_nat (257 + Z.of_nat li)) by lia. rewrite Nat2Z.id in C1l; exact C1l. }
        { replace di with (Z.to_nat (0 + Z.of_nat di)) by lia. exact C1d. }
Qed.
Lemma body_ok ll dl lr dr ts w : table_for ll lr -> table_for dl dr ->
  b64_inv w -> Forall legal_token ts -> Forall (covered ll dl) ts -> has_code ll 256 ->
  exists w' bs, (let* w := write_tokens lr dr w ts in emit w lr 256) = Ok w' /\ wrote w bs w' /\ body_bits ll dl ts bs.
Proof.
  intros TL TD Hw HL HC HE. destruct (write_tokens_ok ll dl lr dr TL TD ts w Hw HL HC) as (w1 & bs & E & W & B).
  rewrite E; cbn [rbind]. destruct (emit_ok w1 ll lr 256 (proj1 W) TL HE) as (w2 & E2 & W2).
  exists w2, (bs ++ code_word ll 256). split; auto. split; [eapply wrote_trans; eauto|]. constructor; auto.
Qed.
