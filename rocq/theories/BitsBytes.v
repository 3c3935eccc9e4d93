(** Whole bytes written with [write_byte] and [write_bytes] are 8-bit values (C18). *)
From Verif Require Import Base BitsModel BitsSpec BitsProofs.

Lemma bw_loop_end f w v : bw_loop f w v 0 = w.
Proof. destruct f; reflexivity. Qed.
Lemma bw_loop_once f w v : bw_pos w = 0 ->
  bw_loop (S f) w v 8 = bw_loop f (mkbw (bw_buf w ++ [Z.lor (bw_cur w) (wrap 8 (Z.shiftl (wrap 8 (Z.land v (Z.ones 8))) 0))]) 0 0) (Z.shiftr v 8) 0.
Proof. intros E. cbn [bw_loop]. rewrite E. reflexivity. Qed.
Lemma bw_byte_step w b : bw_inv w -> is_byte b -> bw_write_byte w b = bw_step w (WBits b 8).
Proof.
  intros (Hp & Hc & Hb) HB. unfold bw_write_byte, bw_step. destruct (Z.eqb_spec (bw_pos w) 0) as [E|]; [|reflexivity].
  rewrite E in *. unfold bw_write_bits. change (Z.to_nat 8) with (S 7). rewrite bw_loop_once by exact E. rewrite bw_loop_end.
  assert (bw_cur w = 0) as -> by lia. rewrite Z.lor_0_l.
  unfold wrap. change (2 ^ 8) with 256. unfold is_byte in HB. rewrite Z.land_ones by lia. change (2 ^ 8) with 256.
  rewrite (Z.mod_small b 256) by lia. rewrite (Z.mod_small b 256) by lia. rewrite Z.shiftl_0_r. rewrite (Z.mod_small b 256) by lia. reflexivity.
Qed.
Lemma step_bits w v n : bw_step w (WBits v n) = bw_write_bits w v n.
Proof. reflexivity. Qed.
Lemma fold_map {A B C} (f : A -> B -> A) (g : C -> B) l : forall w, fold_left (fun w b => f w (g b)) l w = fold_left f (map g l) w.
Proof. induction l as [|b l IH]; intros w; cbn [map fold_left]; [reflexivity|]. apply IH. Qed.
Lemma fold_cons {A B C} (f : A -> B -> A) (g : C -> B) b l w : fold_left f (map g (b :: l)) w = fold_left f (map g l) (f w (g b)).
Proof. reflexivity. Qed.
Lemma fold_ext {A B} (f g : A -> B -> A) l : (forall w b, f w b = g w b) -> forall w, fold_left f l w = fold_left g l w.
Proof. intros H. induction l as [|b l IH]; intros w; cbn [fold_left]; [reflexivity|]. rewrite H. apply IH. Qed.
Lemma bytes_nil w : bw_write_bytes w [] = w.
Proof. unfold bw_write_bytes. cbn [fold_left]. rewrite app_nil_r. destruct w as [u v x]; cbn [bw_pos bw_buf bw_cur]. destruct (x =? 0); reflexivity. Qed.
Lemma bytes_cons w b l : bw_pos w = 0 -> bw_write_bytes w (b :: l) = bw_write_bytes (bw_write_byte w b) l.
Proof.
  intros P. unfold bw_write_bytes, bw_write_byte. rewrite P. change (0 =? 0) with true. cbn match. cbn [bw_pos bw_buf bw_cur]. change (0 =? 0) with true. cbn match.
  rewrite <- app_assoc. reflexivity.
Qed.
Lemma bw_bytes_step l : forall w, bw_inv w -> bytes l -> bw_write_bytes w l = fold_left bw_step (map (fun b => WBits b 8) l) w.
Proof.
  induction l as [|b l IH]; intros w I HB.
  - rewrite bytes_nil. reflexivity.
  - destruct (Z.eq_dec (bw_pos w) 0) as [P|P].
    + inversion HB as [|? ? HB1 HB2]; subst. rewrite (bytes_cons w b l P), (bw_byte_step w b I HB1).
      assert (bw_inv (bw_step w (WBits b 8))) as I2 by (rewrite step_bits; apply bw_write_spec; [exact I|lia]).
      rewrite IH by auto. symmetry. apply (fold_cons bw_step (fun b => WBits b 8)).
    + unfold bw_write_bytes. destruct (Z.eqb_spec (bw_pos w) 0); [contradiction|].
      rewrite <- (fold_map bw_step (fun b => WBits b 8)). apply fold_ext. intros. symmetry. apply step_bits.
Qed.
Lemma bw_bytes_l ops l : Forall (wop_ok 32) ops -> bytes l ->
  let w := fold_left bw_step ops bw_new in
  bw_write_bytes w l = fold_left bw_step (map (fun b => WBits b 8) l) w /\
  (forall b, is_byte b -> bw_write_byte w b = bw_step w (WBits b 8)) /\
  (forall b, bw_write_bit w b = bw_step w (WBits (Z.b2z b) 1)).
Proof.
  intros HO HB w. destruct (bw_run ops bw_new bw_new_inv HO) as [I _]. fold w in I. split; [apply bw_bytes_step; auto|]. split; [intros; apply bw_byte_step; auto|]. intros b. rewrite step_bits. unfold bw_write_bit. reflexivity.
Qed.
