(** The inverse DCT does not overflow on the blocks of an 8-bit image. *)
From Verif Require Import Base BitsProofs Lz77Model PngFilterModel PngFilterProofs JpegBaseModel JpegDecModel JpegBaseProofs.

Lemma as_i32_id x : - 2 ^ 31 <= x < 2 ^ 31 -> as_i32 x = x.
Proof.
  intros H. unfold as_i32, wrap. change (2 ^ 32) with 4294967296. change (2 ^ 31) with 2147483648 in *.
  destruct (Z_lt_dec x 0) as [L|G].
  - replace x with (x + 4294967296 + (-1) * 4294967296) at 1 2 by lia. rewrite Z.mod_add, Z.mod_small by lia.
    destruct (Z.ltb_spec (x + 4294967296) 2147483648); lia.
  - rewrite Z.mod_small by lia. destruct (Z.ltb_spec x 2147483648); lia.
Qed.
Lemma fix_mul_bound a c : - 2 ^ 43 <= a * c < 2 ^ 43 -> 8192 * fix_mul a c <= a * c < 8192 * fix_mul a c + 8192.
Proof.
  intros H. unfold fix_mul. rewrite Z.shiftr_div_pow2 by lia. change (2 ^ 13) with 8192. change (2 ^ 43) with 8796093022208 in H.
  pose proof (Z.div_mod (a * c) 8192 ltac:(lia)). pose proof (Z.mod_pos_bound (a * c) 8192 ltac:(lia)).
  rewrite as_i32_id by (change (2 ^ 31) with 2147483648; lia). lia.
Qed.
Lemma fix_mul_le a c K M : - (8192 * K) <= c <= 8192 * K -> - M <= a <= M -> M <= 131072 -> 0 <= K <= 8 -> - (K * M + 1) <= fix_mul a c <= K * M + 1.
Proof.
  intros Hc Ha HM HK. assert (Z.abs (a * c) <= 8192 * (K * M)) as B by (rewrite Z.abs_mul; nia).
  assert (0 <= K * M <= 1048576) by nia.
  pose proof (fix_mul_bound a c ltac:(change (2 ^ 43) with 8796093022208; lia)). set (km := K * M) in *. clearbody km. set (ac := a * c) in *. clearbody ac. lia.
Qed.
Lemma shl13 d : Z.abs d <= 32767 -> as_i32 (Z.shiftl d 13) = 8192 * d.
Proof. intros H. rewrite Z.shiftl_mul_pow2 by lia. change (2 ^ 13) with 8192. rewrite as_i32_id by (change (2 ^ 31) with 2147483648; lia). lia. Qed.

Ltac add1 := unfold add32 at 1; rewrite i32_ok by (change (2 ^ 31) with 2147483648; lia); cbn [rbind].
Ltac sub1 := unfold sub32 at 1; rewrite i32_ok by (change (2 ^ 31) with 2147483648; lia); cbn [rbind].
Lemma even_bound D d0 d2 d4 d6 : 0 <= D <= 32767 -> - D <= d0 <= D -> - D <= d2 <= D -> - D <= d4 <= D -> - D <= d6 <= D ->
  let z1 := fix_mul (8192 * d2 + 8192 * d6) 4433 in let u3 := fix_mul (8192 * d6) 15137 in let u1 := fix_mul (8192 * d2) 6270 in
  - (8867 * D + 1) <= z1 <= 8867 * D + 1 /\
  - (15137 * D + 10) <= z1 - u3 <= 15137 * D + 10 /\ - (15137 * D + 10) <= z1 + u1 <= 15137 * D + 10.
Proof.
  intros HD H0 H2 H4 H6. cbv zeta.
  pose proof (fix_mul_bound (8192 * d2 + 8192 * d6) 4433 ltac:(change (2 ^ 43) with 8796093022208; lia)) as Z1.
  pose proof (fix_mul_bound (8192 * d6) 15137 ltac:(change (2 ^ 43) with 8796093022208; lia)) as U3.
  pose proof (fix_mul_bound (8192 * d2) 6270 ltac:(change (2 ^ 43) with 8796093022208; lia)) as U1.
  generalize dependent (fix_mul (8192 * d2 + 8192 * d6) 4433). generalize dependent (fix_mul (8192 * d6) 15137). generalize dependent (fix_mul (8192 * d2) 6270).
  intros u1 U1 u3 U3 z1 Z1. lia.
Qed.
Lemma idct_1d_ok D d0 d1 d2 d3 d4 d5 d6 d7 : 0 <= D <= 32767 -> - D <= d0 <= D -> - D <= d1 <= D -> - D <= d2 <= D -> - D <= d3 <= D ->
  - D <= d4 <= D -> - D <= d5 <= D -> - D <= d6 <= D -> - D <= d7 <= D ->
  exists l, idct_1d d0 d1 d2 d3 d4 d5 d6 d7 = Ok l /\ length l = 8%nat /\ Forall (fun x => - (31600 * D + 100) <= x <= 31600 * D + 100) l.
Proof.
  intros HD H0 H1 H2 H3 H4 H5 H6 H7. unfold idct_1d. rewrite !shl13 by lia. add1. sub1. add1.
  pose proof (even_bound D d0 d2 d4 d6 HD H0 H2 H4 H6) as (Z1 & Z2 & Z3). cbv zeta in Z1, Z2, Z3.
  pose proof (fix_mul_bound (8192 * d6) 15137 ltac:(change (2 ^ 43) with 8796093022208; lia)) as U3.
  pose proof (fix_mul_bound (8192 * d2) 6270 ltac:(change (2 ^ 43) with 8796093022208; lia)) as U1.
  set (z1 := fix_mul (8192 * d2 + 8192 * d6) 4433) in *. set (u3 := fix_mul (8192 * d6) 15137) in *. set (u1 := fix_mul (8192 * d2) 6270) in *.
  clearbody z1 u3 u1. sub1. add1. clear U1 U3 Z1. set (a := z1 - u3) in *. set (b := z1 + u1) in *. clearbody a b. clear z1 u1 u3.
  add1. sub1. add1. sub1.
  set (e0 := 8192 * d0 + 8192 * d4 + b). set (e3 := 8192 * d0 + 8192 * d4 - b).
  set (e1 := 8192 * d0 - 8192 * d4 + a). set (e2 := 8192 * d0 - 8192 * d4 - a).
  assert (- (31530 * D + 20) <= e0 <= 31530 * D + 20) as E0 by lia. assert (- (31530 * D + 20) <= e1 <= 31530 * D + 20) as E1 by lia.
  assert (- (31530 * D + 20) <= e2 <= 31530 * D + 20) as E2 by lia. assert (- (31530 * D + 20) <= e3 <= 31530 * D + 20) as E3 by lia.
  clearbody e0 e1 e2 e3. clear Z2 Z3 a b H0 H2 H4 H6. do 5 add1.
  assert (- (2 * D) <= d1 + d5 <= 2 * D) as S1 by lia. assert (- (2 * D) <= d1 + d7 <= 2 * D) as S2 by lia. assert (- (2 * D) <= d3 + d5 <= 2 * D) as S3 by lia.
  assert (- (2 * D) <= d5 + d7 <= 2 * D) as S4 by lia. assert (- (2 * D) <= d1 + d3 <= 2 * D) as S5 by lia.
  assert (2 * D <= 131072) as M2 by lia. assert (D <= 131072) as M1 by lia.
  pose proof (fix_mul_le (d1 + d5) 9633 2 (2 * D) ltac:(lia) S1 M2 ltac:(lia)) as Z5. pose proof (fix_mul_le d1 2446 1 D ltac:(lia) H1 M1 ltac:(lia)) as P0.
  pose proof (fix_mul_le d3 16819 3 D ltac:(lia) H3 M1 ltac:(lia)) as P1. pose proof (fix_mul_le d5 25172 4 D ltac:(lia) H5 M1 ltac:(lia)) as P2.
  pose proof (fix_mul_le d7 12299 2 D ltac:(lia) H7 M1 ltac:(lia)) as P3. pose proof (fix_mul_le (d1 + d7) (-7373) 1 (2 * D) ltac:(lia) S2 M2 ltac:(lia)) as Z1.
  pose proof (fix_mul_le (d3 + d5) (-20995) 3 (2 * D) ltac:(lia) S3 M2 ltac:(lia)) as Z2. pose proof (fix_mul_le (d5 + d7) (-16069) 2 (2 * D) ltac:(lia) S4 M2 ltac:(lia)) as Z3.
  pose proof (fix_mul_le (d1 + d3) (-3196) 1 (2 * D) ltac:(lia) S5 M2 ltac:(lia)) as Z4.
  generalize dependent (fix_mul (d1 + d5) 9633). generalize dependent (fix_mul d1 2446). generalize dependent (fix_mul d3 16819). generalize dependent (fix_mul d5 25172).
  generalize dependent (fix_mul d7 12299). generalize dependent (fix_mul (d1 + d7) (-7373)). generalize dependent (fix_mul (d3 + d5) (-20995)).
  generalize dependent (fix_mul (d5 + d7) (-16069)). generalize dependent (fix_mul (d1 + d3) (-3196)).
  clear S1 S2 S3 S4 S5 M1 M2 H1 H3 H5 H7. intros z4 Z4 z3 Z3 z2 Z2 z1 Z1 p3 P3 p2 P2 p1 P1 p0 P0 z5 Z5. do 10 add1.
  assert (- (60 * D + 5) <= p0 + z1 + (z3 + z5) <= 60 * D + 5) as O0 by lia. assert (- (60 * D + 5) <= p1 + z2 + (z4 + z5) <= 60 * D + 5) as O1 by lia.
  assert (- (60 * D + 5) <= p2 + z2 + (z3 + z5) <= 60 * D + 5) as O2 by lia. assert (- (60 * D + 5) <= p3 + z1 + (z4 + z5) <= 60 * D + 5) as O3 by lia.
  revert O0 O1 O2 O3. generalize (p0 + z1 + (z3 + z5)) (p1 + z2 + (z4 + z5)) (p2 + z2 + (z3 + z5)) (p3 + z1 + (z4 + z5)).
  clear z4 Z4 z3 Z3 z2 Z2 z1 Z1 p3 P3 p2 P2 p1 P1 p0 P0 z5 Z5. intros o0 o1 o2 o3 O0 O1 O2 O3.
  do 4 (add1; sub1).
  eexists. split; [reflexivity|]. split; [reflexivity|].
  do 8 (constructor; [lia|]). constructor.
Qed.

Lemma idct_line_ok D l : 0 <= D <= 32767 -> (forall i, 0 <= i < 8 -> - D <= znth l i <= D) ->
  exists r, idct_line l = Ok r /\ length r = 8%nat /\ Forall (fun x => - (31600 * D + 100) <= x <= 31600 * D + 100) r.
Proof. intros HD H. unfold idct_line. apply (idct_1d_ok D); auto; apply H; lia. Qed.
Lemma map_res_forall {A B} (f : A -> res B) (P : A -> Prop) (Q : B -> Prop) l : (forall a, P a -> exists b, f a = Ok b /\ Q b) -> Forall P l ->
  exists r, map_res f l = Ok r /\ length r = length l /\ Forall Q r.
Proof.
  intros H. induction 1 as [|a l Ha Hl (r & E & L & F)]; [exists []; auto|]. destruct (H a Ha) as (b & Eb & Qb).
  exists (b :: r). cbn [map_res]. rewrite Eb. cbn [rbind]. rewrite E. cbn [rbind length]. split; [reflexivity|]. split; [congruence|]. constructor; auto.
Qed.
Lemma descale1_ok x : - 64700000 <= x <= 64700000 -> exists y, descale1 x = Ok y /\ - 32000 <= y <= 32000.
Proof.
  intros H. unfold descale1. unfold add32. rewrite i32_ok by (change (2 ^ 31) with 2147483648; lia). cbn [rbind]. eexists. split; [reflexivity|].
  rewrite Z.shiftr_div_pow2 by lia. change (2 ^ 11) with 2048. split; [apply Z.div_le_lower_bound; lia|apply Z.lt_succ_r; apply Z.div_lt_upper_bound; lia].
Qed.
Lemma descale_and_clamp_ok x : - 1100000000 <= x <= 1100000000 -> exists y, descale_and_clamp x = Ok y /\ is_byte y.
Proof.
  intros H. unfold descale_and_clamp. unfold add32 at 1. rewrite i32_ok by (change (2 ^ 31) with 2147483648; lia). cbn [rbind].
  rewrite Z.shiftr_div_pow2 by lia. change (2 ^ 18) with 262144.
  assert (- 5000 <= (x + 131072) / 262144 <= 5000) as B by (split; [apply Z.div_le_lower_bound; lia|apply Z.lt_succ_r; apply Z.div_lt_upper_bound; lia]).
  unfold add32. rewrite i32_ok by (change (2 ^ 31) with 2147483648; lia). cbn [rbind]. eexists. split; [reflexivity|].
  pose proof (clamp_range ((x + 131072) / 262144 + 128) 0 255 ltac:(lia)). unfold is_byte. lia.
Qed.
Theorem idct_2d_ok coeffs : (forall n, 0 <= n < 64 -> Z.abs (znth coeffs n) <= 2047) ->
  exists px, idct_2d coeffs = Ok px /\ length px = 64%nat /\ bytes px.
Proof.
  intros H. unfold idct_2d.
  destruct (map_res_forall (fun c => let* l := idct_line (column coeffs c) in map_res descale1 l) (fun c => 0 <= c < 8)
              (fun col => length col = 8%nat /\ Forall (fun y => - 32000 <= y <= 32000) col) (idxs 8)) as (cols & E & L & F).
  { intros c Hc. destruct (idct_line_ok 2047 (column coeffs c) ltac:(lia)) as (l & El & Ll & Fl).
    { intros i Hi. unfold column. rewrite znth_map_idxs by lia. specialize (H (c + 8 * i) ltac:(lia)). lia. }
    rewrite El. cbn [rbind]. destruct (map_res_forall descale1 (fun x => - 64700000 <= x <= 64700000) (fun y => - 32000 <= y <= 32000) l) as (r & Er & Lr & Fr).
    { intros a Ha. apply descale1_ok. exact Ha. } { eapply Forall_impl; [|exact Fl]. intros a Ha. cbv beta in Ha. lia. }
    exists r. split; [exact Er|]. split; [congruence|exact Fr]. }
  { apply Forall_forall. intros x Hx. apply in_idxs in Hx. lia. }
  rewrite E. cbn [rbind].
  destruct (map_res_forall (fun r => let* l := idct_line (map (fun col => znth col r) cols) in map_res descale_and_clamp l) (fun r => 0 <= r < 8)
              (fun row => length row = 8%nat /\ bytes row) (idxs 8)) as (rows & E2 & L2 & F2).
  { intros r Hr. destruct (idct_line_ok 32000 (map (fun col => znth col r) cols) ltac:(lia)) as (l & El & Ll & Fl).
    { intros i Hi. rewrite idxs_length in L. unfold znth at 1 3. rewrite nth_indep with (d' := znth [] r) by (rewrite map_length; lia).
      rewrite (map_nth (fun col => znth col r)). apply (Forall_nth_d (fun y => - 32000 <= y <= 32000)); [|lia].
      apply (Forall_nth_d (fun col => Forall (fun y => - 32000 <= y <= 32000) col)); [|constructor]. eapply Forall_impl; [|exact F]. intros a [_ Ha]. exact Ha. }
    rewrite El. cbn [rbind]. destruct (map_res_forall descale_and_clamp (fun x => - 1100000000 <= x <= 1100000000) is_byte l) as (r' & Er & Lr & Fr).
    { intros a Ha. apply descale_and_clamp_ok. exact Ha. } { eapply Forall_impl; [|exact Fl]. intros a Ha. cbv beta in Ha. lia. }
    exists r'. split; [exact Er|]. split; [congruence|exact Fr]. }
  { apply Forall_forall. intros x Hx. apply in_idxs in Hx. lia. }
  rewrite E2. cbn [rbind]. exists (concat rows). split; [reflexivity|]. rewrite idxs_length in L2.
  assert (forall rs : list (list Z), Forall (fun row => length row = 8%nat /\ bytes row) rs -> length (concat rs) = (8 * length rs)%nat /\ bytes (concat rs)) as K.
  { induction 1 as [|a rs [La Ba] _ [IH1 IH2]]; [split; [reflexivity|constructor]|]. cbn [concat length]. rewrite app_length, La, IH1. split; [lia|]. apply bytes_app. auto. }
  destruct (K rows F2) as [K1 K2]. rewrite L2 in K1. auto.
Qed.
