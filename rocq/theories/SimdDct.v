(** The vector forms of the integer forward transform agree with the scalar one. *)
From Verif Require Import Base Lz77Model PngFilterModel JpegBaseModel JpegDecModel JpegDctIntModel PngFilterProofs SimdModel SimdProofs.

Lemma wrap_add32 a b : wrap 32 (wrap 32 a + wrap 32 b) = wrap 32 (a + b).
Proof. unfold wrap. symmetry. apply Zplus_mod. Qed.
Lemma wrap_sub32 a b : wrap 32 (wrap 32 a - wrap 32 b) = wrap 32 (a - b).
Proof. unfold wrap. symmetry. apply Zminus_mod. Qed.
Lemma signed_wrap32 x : - 2 ^ 31 <= x < 2 ^ 31 -> signed 32 (wrap 32 x) = x.
Proof.
  intros H. unfold signed, wrap. change (2 ^ (32 - 1)) with 2147483648. change (2 ^ 32) with 4294967296. change (2 ^ 31) with 2147483648 in H.
  destruct (Z.ltb_spec (x mod 4294967296) 2147483648); lia.
Qed.
Lemma i32_inv x c : i32 x = Ok c -> c = x /\ - 2 ^ 31 <= c < 2 ^ 31.
Proof. unfold i32. destruct (Z.leb_spec (- 2 ^ 31) x), (Z.ltb_spec x (2 ^ 31)); cbn [andb]; intros E; try discriminate. injection E as <-. lia. Qed.
Definition in32 (x : Z) : Prop := - 2 ^ 31 <= x < 2 ^ 31.
Lemma fix_lane x c : in32 x -> - 2 ^ 15 <= c <= 2 ^ 15 ->
  wrap 64 (Z.shiftr (signed 64 (wrap 64 (signed 32 (wrap 32 x) * signed 32 (wrap 32 c)))) 13) mod 2 ^ 32 = wrap 32 (Z.shiftr (x * c) 13).
Proof.
  unfold in32. intros Hx Hc. rewrite (signed_wrap32 x) by exact Hx. change (2 ^ 15) with 32768 in Hc. change (2 ^ 31) with 2147483648 in Hx. rewrite (signed_wrap32 c) by (change (2 ^ 31) with 2147483648; lia).
  assert (P : - 2 ^ 63 <= x * c < 2 ^ 63) by (change (2 ^ 63) with 9223372036854775808; nia). set (p := x * c) in *. clearbody p.
  assert (signed 64 (wrap 64 p) = p) as ->.
  { unfold signed, wrap. change (2 ^ (64 - 1)) with 9223372036854775808. change (2 ^ 64) with 18446744073709551616. change (2 ^ 63) with 9223372036854775808 in P.
    destruct (Z.ltb_spec (p mod 18446744073709551616) 9223372036854775808); lia. }
  unfold wrap. change (2 ^ 64) with (2 ^ 32 * 2 ^ 32). generalize (Z.shiftr p 13) as q. intros q.
  rewrite Z.rem_mul_r by lia. rewrite (Z.mul_comm (2 ^ 32)), Z.mod_add by lia. apply Z.mod_mod. lia.
Qed.
Lemma fix_mul_lane v x c i : (i < 8)%nat -> v i = wrap 32 x -> in32 x -> - 2 ^ 15 <= c <= 2 ^ 15 ->
  avx2_fix_mul v (vset1 (wrap 32 c)) i = wrap 32 (Z.shiftr (x * c) 13).
Proof.
  intros Hi Hv Hx Hc. rewrite <- (fix_lane x c Hx Hc), <- Hv. unfold avx2_fix_mul.
  do 8 (destruct i as [|i]; [reflexivity|]). lia.
Qed.
Lemma wrap_as_i32 x : wrap 32 (as_i32 x) = wrap 32 x.
Proof.
  unfold as_i32. cbv zeta. destruct (wrap 32 x <? 2 ^ 31); unfold wrap; [apply Z.mod_mod; lia|].
  rewrite Zminus_mod, Z_mod_same_full, Z.sub_0_r, !Z.mod_mod by lia. reflexivity.
Qed.
Lemma as_i32_range x : in32 (as_i32 x).
Proof.
  unfold as_i32, in32, wrap. cbv zeta. change (2 ^ 31) with 2147483648. change (2 ^ 32) with 4294967296.
  destruct (Z.ltb_spec (x mod 4294967296) 2147483648); lia.
Qed.

(** a register lane holds the two's complement of a number *)
Definition lane (i : nat) (v : vec) (a : Z) : Prop := v i = wrap 32 a.
Lemma lane_add i v w a b c : lane i v a -> lane i w b -> add32 a b = Ok c -> lane i (vadd 32 v w) c /\ in32 c.
Proof. intros A B [-> R]%i32_inv. split; [|exact R]. unfold lane, vadd in *. rewrite A, B. apply wrap_add32. Qed.
Lemma lane_sub i v w a b c : lane i v a -> lane i w b -> sub32 a b = Ok c -> lane i (vsub 32 v w) c /\ in32 c.
Proof. intros A B [-> R]%i32_inv. split; [|exact R]. unfold lane, vsub in *. rewrite A, B. apply wrap_sub32. Qed.
Lemma lane_fix i v a c : (i < 8)%nat -> lane i v a -> in32 a -> - 2 ^ 15 <= c <= 2 ^ 15 -> lane i (avx2_fix_mul v (vset1 (wrap 32 c))) (fix_mul a c).
Proof. intros Hi A R Hc. unfold lane in *. rewrite (fix_mul_lane v a c i) by auto. unfold fix_mul. rewrite wrap_as_i32. reflexivity. Qed.
Lemma lane_fin i v a b : lane i v a -> add32 a 16 = Ok b -> signed 32 (vsrai 32 5 (vadd 32 v (vset1 16)) i) = Z.shiftr b 5.
Proof.
  intros A E. destruct (lane_add i v (vset1 16) a 16 b A eq_refl E) as [L R]. unfold lane in L. unfold vsrai. rewrite L.
  rewrite (signed_wrap32 b) by exact R. apply signed_wrap32. unfold in32 in R. rewrite Z.shiftr_div_pow2 by lia. change (2 ^ 5) with 32. change (2 ^ 31) with 2147483648 in *. lia.
Qed.
Ltac step E := match type of E with rbind ?x _ = Ok _ => let c := fresh "c" in let H := fresh "H" in destruct x as [c| | |] eqn:H; cbn [rbind] in E; try discriminate end.
Lemma columns_lane i a0 a1 a2 a3 a4 a5 a6 a7 r0 r1 r2 r3 r4 r5 r6 r7 o p : (i < 8)%nat ->
  lane i r0 a0 -> lane i r1 a1 -> lane i r2 a2 -> lane i r3 a3 -> lane i r4 a4 -> lane i r5 a5 -> lane i r6 a6 -> lane i r7 a7 ->
  fdct_1d a0 a1 a2 a3 a4 a5 a6 a7 = Ok o -> pass2_scale o = Ok p ->
  map (fun v => signed 32 (v i)) (dct_columns_avx2 r0 r1 r2 r3 r4 r5 r6 r7) = p.
Proof.
  intros Hi L0 L1 L2 L3 L4 L5 L6 L7 E P. unfold fdct_1d in E. cbv zeta in E.
  unfold dct_columns_avx2. cbv zeta. cbn [map].
  step E. destruct (lane_add _ _ _ _ _ _ L0 L7 H) as [T0 RT0]. clear H.
  step E. destruct (lane_add _ _ _ _ _ _ L1 L6 H) as [T1 RT1]. clear H.
  step E. destruct (lane_add _ _ _ _ _ _ L2 L5 H) as [T2 RT2]. clear H.
  step E. destruct (lane_add _ _ _ _ _ _ L3 L4 H) as [T3 RT3]. clear H.
  step E. destruct (lane_add _ _ _ _ _ _ T0 T3 H) as [T10 RT10]. clear H.
  step E. destruct (lane_sub _ _ _ _ _ _ T0 T3 H) as [T12 RT12]. clear H.
  step E. destruct (lane_add _ _ _ _ _ _ T1 T2 H) as [T11 RT11]. clear H.
  step E. destruct (lane_sub _ _ _ _ _ _ T1 T2 H) as [T13 RT13]. clear H.
  step E. destruct (lane_sub _ _ _ _ _ _ L0 L7 H) as [U0 RU0]. clear H.
  step E. destruct (lane_sub _ _ _ _ _ _ L1 L6 H) as [U1 RU1]. clear H.
  step E. destruct (lane_sub _ _ _ _ _ _ L2 L5 H) as [U2 RU2]. clear H.
  step E. destruct (lane_sub _ _ _ _ _ _ L3 L4 H) as [U3 RU3]. clear H.
  step E. destruct (lane_add _ _ _ _ _ _ T10 T11 H) as [O0 RO0]. clear H.
  step E. destruct (lane_sub _ _ _ _ _ _ T10 T11 H) as [O4 RO4]. clear H.
  step E. destruct (lane_add _ _ _ _ _ _ T12 T13 H) as [S1 RS1]. clear H.
  assert (Z1 := lane_fix i _ _ 4433 Hi S1 RS1 ltac:(lia)).
  step E. destruct (lane_add _ _ _ _ _ _ Z1 (lane_fix i _ _ 6270 Hi T12 RT12 ltac:(lia)) H) as [O2 RO2]. clear H.
  step E. destruct (lane_sub _ _ _ _ _ _ Z1 (lane_fix i _ _ 15137 Hi T13 RT13 ltac:(lia)) H) as [O6 RO6]. clear H.
  step E. destruct (lane_add _ _ _ _ _ _ U0 U3 H) as [O10 RO10]. clear H.
  step E. destruct (lane_add _ _ _ _ _ _ U1 U2 H) as [O11 RO11]. clear H.
  step E. destruct (lane_add _ _ _ _ _ _ U0 U2 H) as [O12 RO12]. clear H.
  step E. destruct (lane_add _ _ _ _ _ _ U1 U3 H) as [O13 RO13]. clear H.
  step E. destruct (lane_add _ _ _ _ _ _ O12 O13 H) as [S2 RS2]. clear H.
  assert (Z2 := lane_fix i _ _ 9633 Hi S2 RS2 ltac:(lia)).
  assert (M0 := lane_fix i _ _ 12299 Hi U0 RU0 ltac:(lia)). assert (M1 := lane_fix i _ _ 25172 Hi U1 RU1 ltac:(lia)).
  assert (M2 := lane_fix i _ _ 16819 Hi U2 RU2 ltac:(lia)). assert (M3 := lane_fix i _ _ 2446 Hi U3 RU3 ltac:(lia)).
  assert (M10 := lane_fix i _ _ (-7373) Hi O10 RO10 ltac:(lia)). assert (M11 := lane_fix i _ _ (-20995) Hi O11 RO11 ltac:(lia)).
  step E. destruct (lane_add _ _ _ _ _ _ (lane_fix i _ _ (-3196) Hi O12 RO12 ltac:(lia)) Z2 H) as [M12 RM12]. clear H.
  step E. destruct (lane_add _ _ _ _ _ _ (lane_fix i _ _ (-16069) Hi O13 RO13 ltac:(lia)) Z2 H) as [M13 RM13]. clear H.
  step E. destruct (lane_add _ _ _ _ _ _ M0 M10 H) as [X1 _]. clear H.
  step E. destruct (lane_add _ _ _ _ _ _ X1 M12 H) as [Q1 _]. clear H.
  step E. destruct (lane_add _ _ _ _ _ _ M1 M11 H) as [X3 _]. clear H.
  step E. destruct (lane_add _ _ _ _ _ _ X3 M13 H) as [Q3 _]. clear H.
  step E. destruct (lane_add _ _ _ _ _ _ M2 M11 H) as [X5 _]. clear H.
  step E. destruct (lane_add _ _ _ _ _ _ X5 M12 H) as [Q5 _]. clear H.
  step E. destruct (lane_add _ _ _ _ _ _ M3 M10 H) as [X7 _]. clear H.
  step E. destruct (lane_add _ _ _ _ _ _ X7 M13 H) as [Q7 _]. clear H.
  injection E as <-. unfold pass2_scale in P. cbn [map_res] in P.
  do 8 (match type of P with context [add32 ?x 16] => let H := fresh "H" in destruct (add32 x 16) eqn:H; cbn [rbind] in P; try discriminate end).
  injection P as <-.
  repeat (apply f_equal2; [eapply lane_fin; eassumption|]). reflexivity.
Qed.

Lemma map_res_len {A B} (f : A -> res B) l r : map_res f l = Ok r -> length r = length l.
Proof.
  revert r; induction l as [|a l IH]; intros r E; cbn [map_res] in E; [injection E as <-; reflexivity|].
  destruct (f a); try discriminate. cbn [rbind] in E. destruct (map_res f l); try discriminate. injection E as <-. cbn [length]. f_equal. apply IH. reflexivity.
Qed.
Lemma eight {A} (l : list A) : length l = 8%nat -> exists a b c d e f g h, l = [a; b; c; d; e; f; g; h].
Proof. intros E. do 8 (destruct l as [|? l]; [discriminate|]). destruct l; [|discriminate]. eauto 10. Qed.
Lemma columns_length r0 r1 r2 r3 r4 r5 r6 r7 : length (dct_columns_avx2 r0 r1 r2 r3 r4 r5 r6 r7) = 8%nat. Proof. reflexivity. Qed.
Local Opaque dct_columns_avx2 fdct_1d pass2_scale.
Lemma map_res_is {A B} (f : A -> res B) (g : A -> B) l r : map_res f l = Ok r -> (forall x, In x l -> forall p, f x = Ok p -> g x = p) -> r = map g l.
Proof.
  revert r; induction l as [|a l IH]; intros r E H; cbn [map_res] in E; [injection E as <-; reflexivity|].
  destruct (f a) eqn:Ea; try discriminate. cbn [rbind] in E. destruct (map_res f l); try discriminate. injection E as <-. cbn [map]. f_equal; [symmetry; apply H; [left; reflexivity|assumption]|].
  apply IH; [reflexivity|]. intros x Hx. apply H. right. exact Hx.
Qed.
Lemma avx2_dct block out : dct_2d_integer block = Ok out -> dct_2d_avx2 block = Ok out.
Proof.
  unfold dct_2d_integer, dct_2d_avx2. destruct (map_res _ (idxs 8)) as [rows| | |] eqn:ER; cbn [rbind]; try discriminate. apply map_res_len, eight in ER.
  destruct ER as (w0 & w1 & w2 & w3 & w4 & w5 & w6 & w7 & ->). cbn [nth]. intros E.
  destruct (map_res _ (idxs 8)) as [cols| | |] eqn:EC in E; cbn [rbind] in E; try discriminate.
  set (outs := dct_columns_avx2 _ _ _ _ _ _ _ _).
  assert (C : forall c, 0 <= c < 8 -> forall p, (let* o := fdct_line (map (fun row => znth row c) [w0; w1; w2; w3; w4; w5; w6; w7]) in pass2_scale o) = Ok p -> map (fun v => signed 32 (v (Z.to_nat c))) outs = p).
  { intros c Hc p Hp. unfold fdct_line in Hp. destruct (fdct_1d _ _ _ _ _ _ _ _) as [o| | |] eqn:EF in Hp; cbn [rbind] in Hp; try discriminate.
    eapply columns_lane; [lia| | | | | | | | |exact EF|exact Hp]; reflexivity. }
  rewrite (map_res_is _ (fun c => map (fun v => signed 32 (v (Z.to_nat c))) outs) _ _ EC) in E.
  2:{ intros c Hc p Hp. apply C; [apply in_idxs in Hc; lia|exact Hp]. }
  rewrite <- E. clear. assert (L : length outs = 8%nat) by apply columns_length. clearbody outs. apply eight in L as (x0 & x1 & x2 & x3 & x4 & x5 & x6 & x7 & ->). reflexivity.
Qed.
(** ** NEON *)
Lemma neon_line lo hi a0 a1 a2 a3 a4 a5 a6 a7 o :
  lane 0 lo a0 -> lane 1 lo a1 -> lane 2 lo a2 -> lane 3 lo a3 -> lane 0 hi a4 -> lane 1 hi a5 -> lane 2 hi a6 -> lane 3 hi a7 ->
  fdct_1d a0 a1 a2 a3 a4 a5 a6 a7 = Ok o -> fdct_neon lo hi = Ok o.
Proof.
  intros L0 L1 L2 L3 L4 L5 L6 L7 E. unfold fdct_neon. cbv zeta.
  set (hr := vext2 (vrev64 hi)). assert (K0 : lane 0 hr a7) by exact L7. assert (K1 : lane 1 hr a6) by exact L6. assert (K2 : lane 2 hr a5) by exact L5. assert (K3 : lane 3 hr a4) by exact L4.
  clearbody hr. Local Transparent fdct_1d. unfold fdct_1d in E. cbv zeta in E.
  assert (SA : forall i v w a b c, lane i v a -> lane i w b -> add32 a b = Ok c -> signed 32 (vadd 32 v w i) = c).
  { intros i v w a b c A B H. destruct (lane_add i v w a b c A B H) as [Q R]. rewrite Q. apply signed_wrap32. exact R. }
  assert (SS : forall i v w a b c, lane i v a -> lane i w b -> sub32 a b = Ok c -> signed 32 (vsub 32 v w i) = c).
  { intros i v w a b c A B H. destruct (lane_sub i v w a b c A B H) as [Q R]. rewrite Q. apply signed_wrap32. exact R. }
  unfold fdct_tail.
  step E. rewrite (SA 0%nat _ _ _ _ _ L0 K0 H). clear H.
  step E. rewrite (SA 1%nat _ _ _ _ _ L1 K1 H). clear H.
  step E. rewrite (SA 2%nat _ _ _ _ _ L2 K2 H). clear H.
  step E. rewrite (SA 3%nat _ _ _ _ _ L3 K3 H). clear H.
  do 4 step E. cbn [rbind].
  step E. match goal with H : sub32 _ _ = Ok ?c |- _ => rewrite (SS 0%nat _ _ _ _ _ L0 K0 H); clear H end.
  step E. match goal with H : sub32 _ _ = Ok ?c |- _ => rewrite (SS 1%nat _ _ _ _ _ L1 K1 H); clear H end.
  step E. match goal with H : sub32 _ _ = Ok ?c |- _ => rewrite (SS 2%nat _ _ _ _ _ L2 K2 H); clear H end.
  step E. match goal with H : sub32 _ _ = Ok ?c |- _ => rewrite (SS 3%nat _ _ _ _ _ L3 K3 H); clear H end.
  repeat (step E; cbn [rbind]).
  exact E.
Qed.

Lemma map_res_sim {A A' B} (f : A -> res B) (g : A' -> res B) l l' r : Forall2 (fun x y => forall p, f x = Ok p -> g y = Ok p) l l' -> map_res f l = Ok r -> map_res g l' = Ok r.
Proof.
  intros F. revert r; induction F as [|x y l l' Hxy F IH]; intros r E; cbn [map_res] in *; [exact E|].
  destruct (f x) as [p| | |] eqn:Ef; cbn [rbind] in E; try discriminate. rewrite (Hxy p eq_refl). cbn [rbind].
  destruct (map_res f l) as [q| | |]; cbn [rbind] in E; try discriminate. rewrite (IH q eq_refl). exact E.
Qed.
Lemma Forall2_same {A} (P : A -> A -> Prop) l : (forall x, P x x) -> Forall2 P l l.
Proof. intros H. induction l; constructor; auto. Qed.
Local Opaque fdct_1d fdct_neon pass1_scale.
Lemma neon_dct block out : dct_2d_integer block = Ok out -> dct_2d_neon block = Ok out.
Proof.
  unfold dct_2d_integer, dct_2d_neon.
  match goal with |- rbind (map_res ?f ?l) _ = _ -> rbind (map_res ?g ?l) _ = _ => set (F := f); set (G := g); destruct (map_res F l) as [rows| | |] eqn:ER end; cbn [rbind]; try discriminate. intros E.
  assert (R : map_res G (idxs 8) = Ok rows).
  { refine (map_res_sim F G _ _ _ (Forall2_same _ _ _) ER). intros r p Hp. unfold F, fdct_line in Hp. unfold G.
    destruct (fdct_1d _ _ _ _ _ _ _ _) as [o| | |] eqn:EF in Hp; cbn [rbind] in Hp; try discriminate.
    rewrite (neon_line _ _ _ _ _ _ _ _ _ _ o eq_refl eq_refl eq_refl eq_refl eq_refl eq_refl eq_refl eq_refl EF). exact Hp. }
  rewrite R. cbn [rbind]. clear R. apply map_res_len, eight in ER. clear F G.
  destruct ER as (w0 & w1 & w2 & w3 & w4 & w5 & w6 & w7 & ->).
  match type of E with rbind (map_res ?f ?l) _ = _ => set (F := f) in *; destruct (map_res F l) as [cols| | |] eqn:EC end; cbn [rbind] in E; try discriminate.
  match goal with |- rbind (map_res ?g ?l) _ = _ => set (G := g) end.
  rewrite (map_res_sim F G (idxs 8) _ cols); [exact E| |exact EC].
  assert (K : forall c lo hi, (forall i, (i < 4)%nat -> lo i = wrap 32 (znth (nth i [w0; w1; w2; w3; w4; w5; w6; w7] []) c)) -> (forall i, (i < 4)%nat -> hi i = wrap 32 (znth (nth (4 + i) [w0; w1; w2; w3; w4; w5; w6; w7] []) c)) ->
    forall p, F c = Ok p -> G (lo, hi) = Ok p).
  { intros c lo hi Hl Hh p Hp. unfold F, fdct_line in Hp. unfold G. cbn [fst snd].
    destruct (fdct_1d _ _ _ _ _ _ _ _) as [o| | |] eqn:EF in Hp; cbn [rbind] in Hp; try discriminate.
    rewrite (neon_line lo hi _ _ _ _ _ _ _ _ o (Hl 0%nat ltac:(lia)) (Hl 1%nat ltac:(lia)) (Hl 2%nat ltac:(lia)) (Hl 3%nat ltac:(lia)) (Hh 0%nat ltac:(lia)) (Hh 1%nat ltac:(lia)) (Hh 2%nat ltac:(lia)) (Hh 3%nat ltac:(lia)) EF). exact Hp. }
  clearbody F G. change (idxs 8) with [0; 1; 2; 3; 4; 5; 6; 7]. unfold transpose8, transpose4. cbn [map nth Nat.add combine app].
  repeat (apply Forall2_cons; [apply K; intros i Hi; (do 4 (destruct i as [|i]; [reflexivity|])); lia|]). constructor.
Qed.
