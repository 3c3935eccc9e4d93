(** Shared vocabulary: outcomes of Rust functions, machine-word helpers,
    list access with an explicit panic outcome, and bit lists. *)
From Coq Require Export List ZArith Lia Bool Arith.
From Coq Require Export ZifyBool ZifyNat.
Export ListNotations.
#[export] Set Warnings "-notation-overridden".
Global Open Scope Z_scope.
Ltac Zify.zify_post_hook ::= Z.div_mod_to_equations.

Arguments Z.add : simpl never.
Arguments Z.sub : simpl never.
Arguments Z.mul : simpl never.
Arguments Z.div : simpl never.
Arguments Z.modulo : simpl never.
Arguments Z.pow : simpl never.
Arguments Z.shiftl : simpl never.
Arguments Z.shiftr : simpl never.
Arguments Z.land : simpl never.
Arguments Z.lor : simpl never.
Arguments Z.lxor : simpl never.
Arguments Z.of_nat : simpl never.
Arguments Z.to_nat : simpl never.

(** src/error.rs 10-47: the error enum.  String payloads are dropped. *)
Inductive error : Type :=
| EInvalidDimensions (w h : Z)
| EInvalidDataLength (expected actual : Z)
| EInvalidQuality (q : Z)
| EInvalidCompressionLevel (l : Z)
| EImageTooLarge (w h max : Z)
| EUnsupportedColorType
| ECompressionError
| EInvalidRestartInterval (r : Z)
| EInvalidDecode
| EUnsupportedDecode.

(** Outcome of a Rust call: a value, an [Err], a panic (index out of bounds,
    arithmetic overflow with debug checks, failed assertion), or exhaustion of
    the fuel that stands for "still running". *)
Inductive res (A : Type) : Type :=
| Ok (a : A)
| Err (e : error)
| Panic
| NoFuel.
Arguments Ok {A} a.
Arguments Err {A} e.
Arguments Panic {A}.
Arguments NoFuel {A}.

Definition rbind {A B} (r : res A) (f : A -> res B) : res B :=
  match r with Ok a => f a | Err e => Err e | Panic => Panic | NoFuel => NoFuel end.
Notation "'let*' p := e 'in' k" :=
  (rbind e (fun p => k)) (at level 200, p pattern, e at level 100, k at level 200, right associativity).

Definition is_byte (b : Z) : Prop := 0 <= b < 256.
Definition bytes (l : list Z) : Prop := Forall is_byte l.

(** [x as uK]: truncation to k bits. *)
Definition wrap (k x : Z) : Z := x mod 2 ^ k.

Definition zlen {A} (l : list A) : Z := Z.of_nat (length l).
Definition znth (l : list Z) (i : Z) : Z := nth (Z.to_nat i) l 0.
(** Rust indexing [l[i]]: panics out of bounds. *)
Definition get {A} (l : list A) (i : Z) : res A :=
  if i <? 0 then Panic
  else match nth_error l (Z.to_nat i) with Some a => Ok a | None => Panic end.
Fixpoint upd {A} (l : list A) (i : nat) (v : A) : list A :=
  match l, i with
  | [], _ => []
  | _ :: t, O => v :: t
  | x :: t, S j => x :: upd t j v
  end.
(** [l[i..j]] *)
Definition slice {A} (l : list A) (i j : Z) : list A :=
  firstn (Z.to_nat (j - i)) (skipn (Z.to_nat i) l).

(** [data.chunks(n)] *)
Fixpoint chunks_fuel {A} (fuel n : nat) (l : list A) : list (list A) :=
  match fuel with
  | O => []
  | S f => match l with
           | [] => []
           | _ => firstn n l :: chunks_fuel f n (skipn n l)
           end
  end.
Definition chunks {A} (n : nat) (l : list A) : list (list A) :=
  chunks_fuel (length l) n l.

(** ** Bit lists, least significant bit first *)
Fixpoint bits_of (n : nat) (v : Z) : list bool :=
  match n with
  | O => []
  | S n' => Z.odd v :: bits_of n' (v / 2)
  end.
Fixpoint val_of (l : list bool) : Z :=
  match l with
  | [] => 0
  | b :: r => Z.b2z b + 2 * val_of r
  end.
(** Bits of a byte string in DEFLATE order (RFC 1951 3.1.1). *)
Definition bytes_bits (l : list Z) : list bool := flat_map (bits_of 8) l.

(** ** Lemmas *)
Lemma rbind_ok {A B} (r : res A) (f : A -> res B) b :
  rbind r f = Ok b -> exists a, r = Ok a /\ f a = Ok b.
Proof. destruct r; cbn; intros H; try discriminate; eauto. Qed.

Lemma zlen_nonneg {A} (l : list A) : 0 <= zlen l.
Proof. unfold zlen; lia. Qed.
Lemma zlen_app {A} (l m : list A) : zlen (l ++ m) = zlen l + zlen m.
Proof. unfold zlen; rewrite app_length; lia. Qed.
Lemma zlen_cons {A} (x : A) l : zlen (x :: l) = 1 + zlen l.
Proof. unfold zlen; cbn [length]; lia. Qed.
Lemma zlen_nil (A : Type) : zlen (@nil A) = 0.
Proof. reflexivity. Qed.

Lemma upd_length {A} (l : list A) i v : length (upd l i v) = length l.
Proof. revert i; induction l as [|x t IH]; intros [|i]; cbn; auto. Qed.
Lemma nth_upd {A} (l : list A) i j v d :
  (i < length l)%nat -> nth j (upd l i v) d = if Nat.eqb j i then v else nth j l d.
Proof.
  revert i j; induction l as [|x t IH]; intros [|i] [|j] H; cbn in *; try lia; auto.
  apply IH; lia.
Qed.
Lemma nth_upd_eq {A} (l : list A) i v d : (i < length l)%nat -> nth i (upd l i v) d = v.
Proof. intros H; rewrite nth_upd by auto; rewrite Nat.eqb_refl; auto. Qed.
Lemma nth_upd_neq {A} (l : list A) i j v d : i <> j -> nth j (upd l i v) d = nth j l d.
Proof.
  revert i j; induction l as [|x t IH]; intros [|i] [|j] H; cbn in *; try lia; auto.
Qed.
Lemma Forall_upd {A} (P : A -> Prop) l i v : Forall P l -> P v -> Forall P (upd l i v).
Proof.
  intros Hl Hv; revert i; induction Hl; intros [|i]; cbn; constructor; auto.
Qed.

Lemma get_ok {A} (l : list A) i d :
  0 <= i < zlen l -> get l i = Ok (nth (Z.to_nat i) l d).
Proof.
  unfold get, zlen; intros H.
  destruct (Z.ltb_spec i 0); [lia|].
  rewrite (nth_error_nth' l d) by lia; reflexivity.
Qed.
Lemma get_inv {A} (l : list A) i a :
  get l i = Ok a -> 0 <= i < zlen l /\ nth_error l (Z.to_nat i) = Some a.
Proof.
  unfold get, zlen; intros H.
  destruct (Z.ltb_spec i 0); [discriminate|].
  destruct (nth_error l (Z.to_nat i)) eqn:E; [|discriminate].
  injection H as ->; split; [|reflexivity].
  assert (nth_error l (Z.to_nat i) <> None) as Hn by congruence.
  apply nth_error_Some in Hn; lia.
Qed.

Lemma bytes_app l m : bytes (l ++ m) <-> bytes l /\ bytes m.
Proof. apply Forall_app. Qed.
Lemma Forall_firstn {A} (P : A -> Prop) n l : Forall P l -> Forall P (firstn n l).
Proof. intros H; revert n; induction H; intros [|n]; cbn; auto. Qed.
Lemma Forall_skipn {A} (P : A -> Prop) n l : Forall P l -> Forall P (skipn n l).
Proof. intros H; revert n; induction H; intros [|n]; cbn; auto. Qed.
Lemma Forall_nth_d {A} (P : A -> Prop) l i d : Forall P l -> P d -> P (nth i l d).
Proof. intros H Hd; revert i; induction H; intros [|i]; cbn; auto. Qed.

Lemma wrap_range k x : 0 <= k -> 0 <= wrap k x < 2 ^ k.
Proof. intros; unfold wrap; apply Z.mod_pos_bound; apply Z.pow_pos_nonneg; lia. Qed.
Lemma wrap_id k x : 0 <= x < 2 ^ k -> wrap k x = x.
Proof. intros; unfold wrap; apply Z.mod_small; lia. Qed.
Lemma wrap8_byte x : is_byte (wrap 8 x).
Proof. apply (wrap_range 8); lia. Qed.

(** chunks *)
Lemma chunks_fuel_concat {A} f n (l : list A) :
  (0 < n)%nat -> (length l <= f)%nat -> concat (chunks_fuel f n l) = l.
Proof.
  intros Hn; revert l; induction f as [|f IH]; intros l Hl.
  - destruct l; cbn in *; [auto|lia].
  - cbn [chunks_fuel]. destruct l as [|x t]; [reflexivity|].
    cbn [concat]. rewrite IH.
    + apply firstn_skipn.
    + rewrite skipn_length. cbn [length] in *. lia.
Qed.
Lemma chunks_concat {A} n (l : list A) : (0 < n)%nat -> concat (chunks n l) = l.
Proof. intros; apply chunks_fuel_concat; auto. Qed.
Lemma chunks_fuel_indep {A} n f1 f2 (l : list A) :
  (0 < n)%nat -> (length l <= f1)%nat -> (length l <= f2)%nat ->
  chunks_fuel f1 n l = chunks_fuel f2 n l.
Proof.
  intros Hn; revert f2 l; induction f1 as [|f1 IH]; intros f2 l H1 H2.
  - destruct l; cbn in H1; [|lia]. destruct f2; reflexivity.
  - destruct f2 as [|f2].
    + destruct l; cbn in H2; [reflexivity|lia].
    + cbn [chunks_fuel]. destruct l as [|x t]; [reflexivity|].
      f_equal. apply IH; rewrite skipn_length; cbn [length] in *; lia.
Qed.
Lemma chunks_cons {A} n (l : list A) :
  (0 < n)%nat -> l <> [] -> chunks n l = firstn n l :: chunks n (skipn n l).
Proof.
  intros Hn Hl; unfold chunks at 1. destruct l as [|x t]; [congruence|].
  cbn [length chunks_fuel]. f_equal.
  apply chunks_fuel_indep; auto.
  rewrite skipn_length; cbn [length]; lia.
Qed.
Lemma chunks_nil {A} n : chunks n (@nil A) = [].
Proof. reflexivity. Qed.
Lemma chunks_fuel_len {A} f n (l : list A) :
  Forall (fun c => (length c <= n)%nat) (chunks_fuel f n l).
Proof.
  revert l; induction f as [|f IH]; intros l; cbn [chunks_fuel]; [constructor|].
  destruct l; constructor; auto. rewrite firstn_length; lia.
Qed.

(** bits *)
Lemma bits_of_length n v : length (bits_of n v) = n.
Proof. revert v; induction n; intros v; cbn; auto. Qed.

Lemma odd_mod v : Z.b2z (Z.odd v) = v mod 2.
Proof. rewrite Zmod_odd; destruct (Z.odd v); reflexivity. Qed.

Lemma pow2_S n : 2 ^ Z.of_nat (S n) = 2 * 2 ^ Z.of_nat n.
Proof. rewrite Nat2Z.inj_succ, Z.pow_succ_r by lia; reflexivity. Qed.
Lemma pow2_pos n : 0 < 2 ^ Z.of_nat n.
Proof. apply Z.pow_pos_nonneg; lia. Qed.

Lemma val_of_bits_of n v : val_of (bits_of n v) = v mod 2 ^ Z.of_nat n.
Proof.
  revert v; induction n as [|n IH]; intros v; cbn [bits_of val_of].
  - change (2 ^ Z.of_nat 0) with 1; rewrite Z.mod_1_r; reflexivity.
  - rewrite IH, odd_mod, pow2_S.
    rewrite Z.rem_mul_r by (pose proof (pow2_pos n); lia). reflexivity.
Qed.

Lemma val_of_range l : 0 <= val_of l < 2 ^ zlen l.
Proof.
  unfold zlen; induction l as [|b r IH]; cbn [val_of length].
  - change (2 ^ Z.of_nat 0) with 1; lia.
  - rewrite pow2_S; destruct b; cbn [Z.b2z]; lia.
Qed.

Lemma bits_of_val_of l : bits_of (length l) (val_of l) = l.
Proof.
  induction l as [|b r IH]; cbn [val_of length bits_of]; auto.
  f_equal.
  - rewrite Z.odd_add_mul_2; destruct b; reflexivity.
  - assert ((Z.b2z b + 2 * val_of r) / 2 = val_of r) as ->.
    { destruct b; cbn [Z.b2z]; lia. }
    exact IH.
Qed.

Lemma val_of_app a b : val_of (a ++ b) = val_of a + 2 ^ zlen a * val_of b.
Proof.
  unfold zlen; induction a as [|x a IH]; cbn [app val_of length].
  - change (2 ^ Z.of_nat 0) with 1; lia.
  - rewrite IH, pow2_S; lia.
Qed.

Lemma bits_of_app n m v :
  bits_of (n + m) v = bits_of n v ++ bits_of m (v / 2 ^ Z.of_nat n).
Proof.
  revert v; induction n as [|n IH]; intros v; cbn [bits_of Nat.add app].
  - change (2 ^ Z.of_nat 0) with 1; rewrite Z.div_1_r; reflexivity.
  - f_equal. rewrite IH, pow2_S, Z.div_div by (pose proof (pow2_pos n); lia).
    reflexivity.
Qed.

Lemma bits_of_mod n v : bits_of n (v mod 2 ^ Z.of_nat n) = bits_of n v.
Proof.
  rewrite <- val_of_bits_of.
  rewrite <- (bits_of_length n v) at 1. apply bits_of_val_of.
Qed.

Lemma bits_of_cat n m a b :
  0 <= a < 2 ^ Z.of_nat n ->
  bits_of (n + m) (a + 2 ^ Z.of_nat n * b) = bits_of n a ++ bits_of m b.
Proof.
  intros Ha. rewrite bits_of_app. f_equal.
  - rewrite <- bits_of_mod.
    rewrite Z.mul_comm, Z.mod_add by (pose proof (pow2_pos n); lia).
    apply bits_of_mod.
  - f_equal. rewrite Z.mul_comm, Z.div_add by (pose proof (pow2_pos n); lia).
    rewrite Z.div_small by lia. lia.
Qed.

Lemma val_bits_small n v : 0 <= v < 2 ^ Z.of_nat n -> val_of (bits_of n v) = v.
Proof. intros; rewrite val_of_bits_of; apply Z.mod_small; lia. Qed.

Lemma bits_of_inj n a b :
  0 <= a < 2 ^ Z.of_nat n -> 0 <= b < 2 ^ Z.of_nat n ->
  bits_of n a = bits_of n b -> a = b.
Proof.
  intros Ha Hb H. rewrite <- (val_bits_small n a Ha), <- (val_bits_small n b Hb), H; auto.
Qed.

Lemma val_of_inj a b : length a = length b -> val_of a = val_of b -> a = b.
Proof.
  intros Hl Hv. rewrite <- (bits_of_val_of a), <- (bits_of_val_of b), Hl, Hv; auto.
Qed.

Lemma nth_bits_of n v i :
  (i < n)%nat -> nth i (bits_of n v) false = Z.testbit v (Z.of_nat i).
Proof.
  revert v i; induction n as [|n IH]; intros v [|i] H; try lia; cbn [bits_of nth].
  - reflexivity.
  - rewrite IH by lia. rewrite <- Z.div2_div, Z.div2_spec, Z.shiftr_spec by lia. f_equal; lia.
Qed.

Lemma bytes_bits_app a b : bytes_bits (a ++ b) = bytes_bits a ++ bytes_bits b.
Proof. apply flat_map_app. Qed.
Lemma bytes_bits_length l : length (bytes_bits l) = (8 * length l)%nat.
Proof.
  induction l as [|x l IH]; cbn [bytes_bits flat_map length]; [reflexivity|].
  rewrite app_length, bits_of_length. change (flat_map (bits_of 8) l) with (bytes_bits l).
  rewrite IH; lia.
Qed.
Lemma bytes_bits_cons b l : bytes_bits (b :: l) = bits_of 8 b ++ bytes_bits l.
Proof. reflexivity. Qed.
Lemma bytes_bits_inj a b : bytes a -> bytes b -> bytes_bits a = bytes_bits b -> a = b.
Proof.
  revert b; induction a as [|x a IH]; intros b Ha Hb H.
  - destruct b; auto. apply (f_equal (@length bool)) in H.
    rewrite !bytes_bits_length in H; cbn in H; lia.
  - destruct b as [|y b].
    { apply (f_equal (@length bool)) in H. rewrite !bytes_bits_length in H; cbn in H; lia. }
    rewrite !bytes_bits_cons in H. inversion Ha; inversion Hb; subst.
    assert (bits_of 8 x = bits_of 8 y /\ bytes_bits a = bytes_bits b) as [E1 E2].
    { cbn [bits_of app] in H. injection H; intros. split; auto.
      cbn [bits_of]. congruence. }
    f_equal; auto. apply (bits_of_inj 8); auto.
Qed.

(** Disjoint or as addition, masks as mod. *)
Lemma land_mask v n : 0 <= n -> Z.land v (2 ^ n - 1) = v mod 2 ^ n.
Proof.
  intros H. replace (2 ^ n - 1) with (Z.ones n) by (rewrite Z.ones_equiv; lia).
  apply Z.land_ones; auto.
Qed.
Lemma lor_disjoint a b n :
  0 <= n -> 0 <= a < 2 ^ n -> Z.lor a (b * 2 ^ n) = a + b * 2 ^ n.
Proof.
  intros Hn Ha.
  assert (Z.land a (b * 2 ^ n) = 0) as Hl.
  { apply Z.bits_inj'; intros i Hi. rewrite Z.land_spec, Z.bits_0.
    destruct (Z.lt_ge_cases i n).
    - rewrite Z.mul_pow2_bits_low by lia. apply andb_false_r.
    - replace a with (a mod 2 ^ n) by (apply Z.mod_small; lia).
      rewrite Z.mod_pow2_bits_high by lia. reflexivity. }
  symmetry. rewrite Z.add_nocarry_lxor by exact Hl. rewrite Z.lxor_lor by exact Hl. reflexivity.
Qed.
Lemma lor_shiftl a b n :
  0 <= n -> 0 <= a < 2 ^ n -> Z.lor a (Z.shiftl b n) = a + b * 2 ^ n.
Proof. intros; rewrite Z.shiftl_mul_pow2 by lia; apply lor_disjoint; auto. Qed.

Lemma Zpow_plus a b : 0 <= a -> 0 <= b -> 2 ^ (a + b) = 2 ^ a * 2 ^ b.
Proof. intros; apply Z.pow_add_r; auto. Qed.
