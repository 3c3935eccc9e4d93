(** Reading PNM files. *)
From Verif Require Import Base PngPaletteModel PngModel PngDecModel PngSpec CliModel CliSpec.

Lemma ascii_ws_iff c : ascii_ws c = true <-> white_or_feed c.
Proof. unfold ascii_ws, white_or_feed, white. rewrite !Bool.orb_true_iff, !Z.eqb_eq. tauto. Qed.
Lemma ws_not_hash c : ascii_ws c = true -> c <> 35.
Proof. unfold ascii_ws. intros H ->. discriminate H. Qed.
Definition solid (c : Z) : Prop := ascii_ws c = false /\ c <> 35.

Lemma skip_comment t words X : ~ In 10 words -> read_token t true (words ++ 10 :: X) = read_token t false X.
Proof.
  induction words as [|c r IH]; intros N; [reflexivity|]. cbn [app read_token].
  destruct (Z.eqb_spec c 10) as [->|]; [exfalso; apply N; left; reflexivity|]. cbn [negb]. apply IH. intros I. apply N. right. exact I.
Qed.
Lemma read_hash t X : read_token t false (35 :: X) = read_token t true X.
Proof. reflexivity. Qed.
Lemma read_blanks text plain : uncommented text plain -> Forall (fun c => ascii_ws c = true) plain ->
  forall X, read_token [] false (text ++ X) = read_token [] false X.
Proof.
  induction 1 as [|c text plain N U IH|words text plain N U IH]; intros F X; [reflexivity| |].
  - inversion F as [|? ? A B]; subst. cbn [app read_token]. destruct (Z.eqb_spec c 35); [lia|]. rewrite A. apply IH. exact B.
  - cbn [app]. rewrite read_hash, <- app_assoc. cbn [app]. rewrite skip_comment by exact N. apply IH. exact F.
Qed.
Lemma read_solid text plain : uncommented text plain -> Forall solid plain ->
  forall t X, read_token t false (text ++ X) = read_token (t ++ plain) false X.
Proof.
  induction 1 as [|c text plain N U IH|words text plain N U IH]; intros F t X; [rewrite app_nil_r; reflexivity| |].
  - inversion F as [|? ? [A _] B]; subst. cbn [app read_token]. destruct (Z.eqb_spec c 35); [lia|]. rewrite A, (IH B), <- app_assoc. reflexivity.
  - cbn [app]. rewrite read_hash, <- app_assoc. cbn [app]. rewrite skip_comment by exact N. apply IH. exact F.
Qed.
Lemma read_end text c plain : uncommented text (c :: plain) -> ascii_ws c = true ->
  exists text', uncommented text' plain /\ forall t X, t <> [] -> read_token t false (text ++ X) = (t, text' ++ X).
Proof.
  remember (c :: plain) as p eqn:E. intros U. revert c plain E.
  induction U as [|c text plain N U IH|words text plain N U IH]; intros d q E A; [discriminate E| |].
  - injection E as -> ->. exists text. split; [exact U|]. intros t X NE. cbn [app read_token]. destruct (Z.eqb_spec d 35); [lia|].
    rewrite A. destruct t; [congruence|reflexivity].
  - destruct (IH d q E A) as (text' & U' & R). exists text'. split; [exact U'|]. intros t X NE.
    cbn [app]. rewrite read_hash, <- app_assoc. cbn [app]. rewrite skip_comment by exact N. apply R. exact NE.
Qed.
Lemma uncommented_split text p q : uncommented text (p ++ q) -> exists t1 t2, text = t1 ++ t2 /\ uncommented t1 p /\ uncommented t2 q.
Proof.
  remember (p ++ q) as pq eqn:E. intros U. revert p q E.
  induction U as [|c text plain N U IH|words text plain N U IH]; intros p q E.
  - symmetry in E. apply app_eq_nil in E as [-> ->]. exists [], []. repeat split; constructor.
  - destruct p as [|d p].
    + exists [], (c :: text). cbn in E. subst q. split; [reflexivity|]. split; constructor; assumption.
    + injection E as <- E. destruct (IH p q E) as (t1 & t2 & -> & U1 & U2). exists (c :: t1), t2. split; [reflexivity|]. split; [constructor|]; assumption.
  - destruct (IH p q E) as (t1 & t2 & -> & U1 & U2). exists (35 :: words ++ 10 :: t1), t2. split; [cbn [app]; rewrite <- app_assoc; reflexivity|]. split; [constructor|]; assumption.
Qed.
Lemma uncommented_app a p b q : uncommented a p -> uncommented b q -> uncommented (a ++ b) (p ++ q).
Proof.
  induction 1 as [|c text plain N U IH|words text plain N U IH]; intros B; [exact B| |].
  - cbn [app]. constructor; auto.
  - cbn [app]. rewrite <- app_assoc. cbn [app]. constructor; auto.
Qed.
Lemma uncommented_length a p : uncommented a p -> (length p <= length a)%nat.
Proof. induction 1 as [| |]; cbn [length]; try rewrite app_length; cbn [length]; lia. Qed.

(** ** Numbers *)
Lemma decimal_value_ge l acc : 0 <= acc -> Forall (fun c => 48 <= c <= 57) l -> acc <= decimal_value acc l.
Proof.
  revert acc. induction l as [|c l IH]; intros acc H F; [cbn; lia|]. inversion F; subst. cbn [decimal_value].
  specialize (IH (10 * acc + (c - 48))). assert (10 * acc + (c - 48) <= decimal_value (10 * acc + (c - 48)) l) by (apply IH; [lia|assumption]). lia.
Qed.
Lemma digits_iff l : forall acc n, 0 <= acc < 2 ^ 32 ->
  (digits_u32 acc l = Some n <-> Forall (fun c => 48 <= c <= 57) l /\ decimal_value acc l = n /\ n < 2 ^ 32).
Proof.
  induction l as [|c l IH]; intros acc n H; cbn [digits_u32 decimal_value].
  - split; [intros E; injection E as <-; split; [constructor|lia]|intros (_ & -> & _); reflexivity].
  - destruct ((48 <=? c) && (c <=? 57)) eqn:D.
    + assert (48 <= c <= 57) as Hc by lia. replace (acc * 10 + (c - 48)) with (10 * acc + (c - 48)) by lia. cbv zeta.
      destruct (Z.ltb_spec (10 * acc + (c - 48)) (2 ^ 32)) as [L|L].
      * rewrite IH by lia. split; intros (F & E & B); (split; [|split; assumption]); [constructor; assumption|inversion F; assumption].
      * split; [discriminate|]. intros (F & E & B). inversion F; subst.
        pose proof (decimal_value_ge l (10 * acc + (c - 48)) ltac:(lia) ltac:(assumption)). lia.
    + split; [discriminate|]. intros (F & _). inversion F; subst. lia.
Qed.
Lemma parse_iff l n : parse_u32 l = Ok n <-> signed_decimal l n /\ n < 2 ^ 32.
Proof.
  unfold parse_u32, signed_decimal, decimal.
  assert (forall m, digits_u32 0 m = Some n <-> Forall (fun c => 48 <= c <= 57) m /\ decimal_value 0 m = n /\ n < 2 ^ 32) as D by (intros; apply digits_iff; lia).
  destruct l as [|c [|d r]].
  - split; [discriminate|]. intros [[(H & _)|(l' & E & _)] _]; [congruence|discriminate E].
  - destruct ((c =? 43) || (c =? 45)) eqn:S.
    + split; [discriminate|]. intros [[(_ & F & _)|(l' & E & H & _)] _]; [inversion F; subst; lia|]. injection E as _ <-. congruence.
    + specialize (D [c]). split.
      * destruct (digits_u32 0 [c]) as [v|]; [|discriminate]. intros E. injection E as ->. destruct D as [D _]. specialize (D eq_refl).
        split; [left; split; [discriminate|tauto]|tauto].
      * intros [[(_ & F & V)|(l' & E & H & _)] B]; [|injection E as -> <-; congruence].
        destruct D as [_ D]. rewrite D by tauto. reflexivity.
  - destruct (Z.eqb_spec c 43) as [->|N].
    + specialize (D (d :: r)). split.
      * destruct (digits_u32 0 (d :: r)) as [v|]; [|discriminate]. intros E. injection E as ->. destruct D as [D _]. specialize (D eq_refl).
        split; [right; exists (d :: r); split; [reflexivity|split; [discriminate|tauto]]|tauto].
      * intros [[(_ & F & V)|(l' & E & H & F & V)] B]; [inversion F; subst; lia|]. injection E as <-.
        destruct D as [_ D]. rewrite D by tauto. reflexivity.
    + specialize (D (c :: d :: r)). split.
      * destruct (digits_u32 0 (c :: d :: r)) as [v|]; [|discriminate]. intros E. injection E as ->. destruct D as [D _]. specialize (D eq_refl).
        split; [left; split; [discriminate|tauto]|tauto].
      * intros [[(_ & F & V)|(l' & E & H & F & V)] B]; [|injection E as -> _; congruence].
        destruct D as [_ D]. rewrite D by tauto. reflexivity.
Qed.
Lemma parse_other l : parse_u32 l <> Panic /\ parse_u32 l <> NoFuel.
Proof. unfold parse_u32. destruct (match l with [] => _ | _ => _ end); split; discriminate. Qed.
Lemma digit_solid c : 48 <= c <= 57 \/ c = 43 -> solid c.
Proof. intros H. split; [|lia]. unfold ascii_ws. lia. Qed.
Lemma number_solid l n : signed_decimal l n -> l <> [] /\ Forall solid l.
Proof.
  intros [(N & F & _)|(l' & -> & N & F & _)].
  - split; [exact N|]. eapply Forall_impl; [|exact F]. intros c H. apply digit_solid. left. exact H.
  - split; [discriminate|]. constructor; [apply digit_solid; right; reflexivity|]. eapply Forall_impl; [|exact F]. intros c H. apply digit_solid. left. exact H.
Qed.

(** ** Forward: what the grammar describes is read *)
Lemma blanks_ws b : Forall white_or_feed b -> Forall (fun c => ascii_ws c = true) b.
Proof. apply Forall_impl. intros c. apply ascii_ws_iff. Qed.
(** white space and a number *)
Lemma read_number' text b t n : Forall white_or_feed b -> signed_decimal t n -> uncommented text (b ++ t) ->
  forall X, read_token [] false (text ++ X) = read_token t false X.
Proof.
  intros B D U X. destruct (uncommented_split _ _ _ U) as (t1 & t2 & -> & U1 & U2). destruct (number_solid _ _ D) as (_ & S).
  rewrite <- app_assoc, (read_blanks _ _ U1 (blanks_ws _ B)), (read_solid _ _ U2 S). reflexivity.
Qed.
Lemma read_sep text b rest : blank white_or_feed b -> uncommented text (b ++ rest) ->
  exists b' text', Forall white_or_feed b' /\ uncommented text' (b' ++ rest) /\ forall t X, t <> [] -> read_token t false (text ++ X) = (t, text' ++ X).
Proof.
  intros (N & B) U. destruct b as [|c b]; [congruence|]. inversion B as [|? ? C B']; subst. cbn [app] in U.
  destruct (read_end _ _ _ U) as (text' & U' & R); [apply ascii_ws_iff; exact C|]. exists b, text'. auto.
Qed.
Lemma header_rest ct w h header delim X : w < 2 ^ 32 -> h < 2 ^ 32 -> pnm_header white_or_feed signed_decimal w h header -> white_or_feed delim ->
  exists rest, (forall t, t <> [] -> read_token t false (header ++ delim :: X) = (t, rest)) /\
    decode_pnm_rest ct rest =
      if 2 ^ 63 <=? w * h * bytes_per_pixel ct then Panic
      else if zlen X <? w * h * bytes_per_pixel ct then Err EInvalidDecode
      else Ok (mkImage w h (firstn (Z.to_nat (w * h * bytes_per_pixel ct)) X) ct).
Proof.
  intros Hw Hh (b1 & tw & b2 & th & b3 & tm & B1 & Dw & B2 & Dh & B3 & Dm & U) W.
  destruct (read_sep _ _ _ B1 U) as (b1' & k1 & F1 & U1 & R1).
  rewrite app_assoc in U1. destruct (uncommented_split _ _ _ U1) as (k1a & k1b & -> & Ua & Ub).
  destruct (read_sep _ _ _ B2 Ub) as (b2' & k2 & F2 & U2 & R2).
  rewrite app_assoc in U2. destruct (uncommented_split _ _ _ U2) as (k2a & k2b & -> & Uc & Ud).
  destruct (read_sep _ _ _ B3 Ud) as (b3' & k3 & F3 & U3 & R3).
  exists ((k1a ++ k1b) ++ delim :: X). split; [intros t N; apply R1; exact N|].
  unfold decode_pnm_rest. rewrite <- !app_assoc, (read_number' _ _ _ _ F1 Dw Ua).
  rewrite R2 by apply (number_solid _ _ Dw). rewrite (proj2 (parse_iff tw w)) by auto. cbn [rbind].
  rewrite <- !app_assoc, (read_number' _ _ _ _ F2 Dh Uc). rewrite R3 by apply (number_solid _ _ Dh). rewrite (proj2 (parse_iff th h)) by auto. cbn [rbind].
  rewrite (read_number' _ _ _ _ F3 Dm U3). cbn [read_token].
  assert (ascii_ws delim = true) as A by (apply ascii_ws_iff; exact W). destruct (Z.eqb_spec delim 35) as [E|_]; [apply ws_not_hash in A; lia|]. rewrite A.
  assert (tm <> []) as NE by apply (number_solid _ _ Dm). replace (match tm with [] => read_token tm false X | _ :: _ => (tm, X) end) with (tm, X) by (destruct tm; [congruence|reflexivity]).
  rewrite (proj2 (parse_iff tm 255)) by (split; [exact Dm|reflexivity]). cbn [rbind]. reflexivity.
Qed.

Lemma magic_token ct : forall X, read_token [] false (magic ct ++ X) = read_token (magic ct) false X.
Proof. intros X. destruct ct; reflexivity. Qed.
Lemma magic_eqb5 ct : ct = Gray \/ ct = Rgb -> list_eqb (magic ct) [80; 53] = match ct with Gray => true | _ => false end.
Proof. intros [-> | ->]; reflexivity. Qed.
Lemma magic_eqb6 ct : ct = Gray \/ ct = Rgb -> list_eqb (magic ct) [80; 54] = match ct with Gray => false | _ => true end.
Proof. intros [-> | ->]; reflexivity. Qed.
(** loading, once the format is known *)
Lemma load_pnm ct X : ct = Gray \/ ct = Rgb -> 8 <= zlen (magic ct ++ X) ->
  load_image (magic ct ++ X) = decode_pnm (magic ct ++ X) /\
  load_image_from_bytes (magic ct ++ X) = decode_pnm_from_bytes (magic ct ++ X) (match ct with Gray => FPgm | _ => FPpm end).
Proof.
  intros C L. unfold load_image, load_image_from_bytes, detect_format, detect_format_from_bytes.
  assert (zlen (firstn 8 (magic ct ++ X)) = 8) as L8 by (unfold zlen in *; rewrite firstn_length; lia).
  destruct (Z.ltb_spec (zlen (magic ct ++ X)) 8); [lia|]. destruct (Z.ltb_spec (zlen (firstn 8 (magic ct ++ X))) 8); [lia|].
  destruct C as [-> | ->]; split; reflexivity.
Qed.
Lemma decode_pnm_both ct X rest : ct = Gray \/ ct = Rgb -> read_token (magic ct) false X = (magic ct, rest) ->
  decode_pnm (magic ct ++ X) = decode_pnm_rest ct rest /\
  decode_pnm_from_bytes (magic ct ++ X) (match ct with Gray => FPgm | _ => FPpm end) = decode_pnm_rest ct rest.
Proof.
  intros C R. unfold decode_pnm, decode_pnm_from_bytes. rewrite magic_token, R, (magic_eqb5 ct C), (magic_eqb6 ct C).
  destruct C as [-> | ->]; split; reflexivity.
Qed.
Lemma magic_ne ct : magic ct <> [].
Proof. destruct ct; discriminate. Qed.
Lemma header_long w h header W (D : list Z -> Z -> Prop) : (forall l n, D l n -> l <> []) -> pnm_header W D w h header -> (6 <= length header)%nat.
Proof.
  intros ND (b1 & tw & b2 & th & b3 & tm & (N1 & _) & Dw & (N2 & _) & Dh & (N3 & _) & Dm & U). apply uncommented_length in U. rewrite !app_length in U.
  apply ND in Dw, Dh, Dm. destruct b1, tw, b2, th, b3, tm; try congruence; cbn [length] in U; lia.
Qed.
Lemma pnm_read_lax ct w h raster file : w < 2 ^ 32 -> h < 2 ^ 32 -> zlen raster < 2 ^ 63 -> pnm_file white_or_feed signed_decimal ct w h raster file ->
  load_image file = Ok (mkImage w h raster ct) /\ load_image_from_bytes file = Ok (mkImage w h raster ct).
Proof.
  intros Hw Hh HR (C & L & header & delim & more & H & W & ->). cbn [app].
  destruct (header_rest ct w h header delim (raster ++ more) Hw Hh H W) as (rest & R & D).
  pose proof (header_long _ _ _ _ _ (fun l n E => proj1 (number_solid l n E)) H) as HL.
  destruct (load_pnm ct (header ++ delim :: raster ++ more) C) as [E1 E2].
  { unfold zlen. rewrite !app_length. assert (length (magic ct) = 2%nat) by (destruct ct; reflexivity). cbn [length]. lia. }
  destruct (decode_pnm_both ct _ rest C (R (magic ct) (magic_ne ct))) as [F1 F2]. rewrite E1, E2, F1, F2, D.
  rewrite <- L. destruct (Z.leb_spec (2 ^ 63) (zlen raster)); [lia|]. rewrite zlen_app. pose proof (zlen_nonneg more).
  destruct (Z.ltb_spec (zlen raster + zlen more) (zlen raster)); [lia|].
  replace (Z.to_nat (zlen raster)) with (length raster + 0)%nat by (unfold zlen; lia). rewrite firstn_app_2. cbn [firstn]. rewrite app_nil_r. split; reflexivity.
Qed.
Lemma lax_header w h header : pnm_header white decimal w h header -> pnm_header white_or_feed signed_decimal w h header.
Proof.
  intros (b1 & tw & b2 & th & b3 & tm & (N1 & B1) & Dw & (N2 & B2) & Dh & (N3 & B3) & Dm & U). exists b1, tw, b2, th, b3, tm.
  assert (forall b, Forall white b -> Forall white_or_feed b) as I by (intros b; apply Forall_impl; intros c Hc; left; exact Hc).
  repeat (split; [first [split; auto|left; assumption]|]). exact U.
Qed.
Lemma lax_file ct w h raster file : pnm_file white decimal ct w h raster file -> pnm_file white_or_feed signed_decimal ct w h raster file.
Proof.
  intros (C & L & header & delim & more & H & W & E). split; [exact C|]. split; [exact L|]. exists header, delim, more.
  split; [apply lax_header; exact H|]. split; [left; exact W|exact E].
Qed.
Lemma pnm_read ct w h raster file : w < 2 ^ 32 -> h < 2 ^ 32 -> zlen raster < 2 ^ 63 -> pnm_file white decimal ct w h raster file ->
  load_image file = Ok (mkImage w h raster ct) /\ load_image_from_bytes file = Ok (mkImage w h raster ct).
Proof. intros Hw Hh HR H. apply pnm_read_lax; auto. apply lax_file. exact H. Qed.

(** ** Backward: what is read is what the grammar describes *)
Lemma comment_token data : forall t t' rest, read_token t true data = (t', rest) ->
  (t' = t /\ rest = []) \/ exists words data', data = words ++ 10 :: data' /\ ~ In 10 words /\ read_token t false data' = (t', rest) /\ (length data' < length data)%nat.
Proof.
  induction data as [|c data IH]; intros t t' rest E; cbn [read_token] in E.
  - injection E as <- <-. left. auto.
  - destruct (Z.eqb_spec c 10) as [->|N]; cbn [negb] in E.
    + right. exists [], data. split; [reflexivity|]. split; [intros []|]. split; [exact E|cbn; lia].
    + destruct (IH _ _ _ E) as [H|(words & data' & -> & NI & R & L)]; [left; exact H|]. right. exists (c :: words), data'.
      split; [reflexivity|]. split; [intros [H|H]; [lia|auto]|]. split; [exact R|cbn in *; lia].
Qed.
Definition ended (t' tail rest : list Z) : Prop := rest = [] \/ exists d, tail = d :: rest /\ white_or_feed d /\ t' <> [].
Lemma inv_nil t data rest : ended t data rest ->
  exists text b tok tail, data = text ++ tail /\ uncommented text (b ++ tok) /\ Forall white_or_feed b /\ Forall solid tok /\ t = t ++ tok /\
    (t <> [] -> b = []) /\ ended t tail rest.
Proof.
  intros H. exists [], [], [], data. split; [reflexivity|]. split; [constructor|]. split; [constructor|]. split; [constructor|].
  split; [symmetry; apply app_nil_r|]. split; [reflexivity|exact H].
Qed.
Lemma token_inv (n : nat) : forall data t t' rest, (length data <= n)%nat -> read_token t false data = (t', rest) ->
  exists text b tok tail, data = text ++ tail /\ uncommented text (b ++ tok) /\ Forall white_or_feed b /\ Forall solid tok /\ t' = t ++ tok /\
    (t <> [] -> b = []) /\ ended t' tail rest.
Proof.
  induction n as [|n IH]; intros data t t' rest L E.
  - destruct data; [|cbn in L; lia]. cbn in E. injection E as <- <-. apply inv_nil. left. reflexivity.
  - destruct data as [|c data]; cbn [read_token] in E.
    { injection E as <- <-. apply inv_nil. left. reflexivity. }
    cbn [length] in L. destruct (Z.eqb_spec c 35) as [->|N].
    + destruct (comment_token _ _ _ _ E) as [[-> ->]|(words & data' & -> & NI & R & L')].
      * apply inv_nil. left. reflexivity.
      * destruct (IH data' t t' rest ltac:(lia) R) as (text & b & tok & tail & -> & U & B & S & T & Z0 & EN).
        exists (35 :: words ++ 10 :: text), b, tok, tail. split; [cbn [app]; rewrite <- app_assoc; reflexivity|]. split; [constructor; assumption|]. auto.
    + destruct (ascii_ws c) eqn:A.
      * apply ascii_ws_iff in A. destruct t as [|t0 t].
        -- destruct (IH data [] t' rest ltac:(lia) E) as (text & b & tok & tail & -> & U & B & S & T & Z0 & EN).
           exists (c :: text), (c :: b), tok, tail. split; [reflexivity|]. split; [cbn [app]; constructor; assumption|]. split; [constructor; assumption|].
           split; [exact S|]. split; [exact T|]. split; [congruence|exact EN].
        -- injection E as <- <-. apply inv_nil. right. exists c. split; [reflexivity|]. split; [assumption|discriminate].
      * destruct (IH data (t ++ [c]) t' rest ltac:(lia) E) as (text & b & tok & tail & -> & U & B & S & T & Z0 & EN).
        rewrite Z0 in U by (destruct t; discriminate). cbn [app] in U. exists (c :: text), [], (c :: tok), tail. split; [reflexivity|]. split; [cbn [app]; constructor; assumption|].
        split; [constructor|]. split; [constructor; [split; assumption|assumption]|]. split; [rewrite T, <- app_assoc; reflexivity|]. split; [reflexivity|exact EN].
Qed.
Lemma parse_nil : parse_u32 [] = Err EInvalidDecode.
Proof. reflexivity. Qed.
Lemma read_nil : read_token [] false [] = ([], []).
Proof. reflexivity. Qed.
(** the outcome after the magic number [m] *)
Lemma rest_inv ct m X rest : read_token m false X = (m, rest) -> m <> [] ->
  (exists e, decode_pnm_rest ct rest = Err e) \/
  exists w h header tail, 0 <= w < 2 ^ 32 /\ 0 <= h < 2 ^ 32 /\ X = header ++ tail /\ pnm_header white_or_feed signed_decimal w h header /\
    (decode_pnm_rest ct rest = Panic /\ 2 ^ 63 <= w * h * bytes_per_pixel ct \/
     exists px more, decode_pnm_rest ct rest = Ok (mkImage w h px ct) /\ zlen px = w * h * bytes_per_pixel ct /\ zlen px < 2 ^ 63 /\
       (px = [] \/ exists d, white_or_feed d /\ tail = d :: px ++ more)).
Proof.
  intros RM NM. destruct (token_inv _ _ _ _ _ (le_n _) RM) as (k0 & b0 & tok0 & tail0 & -> & U0 & B0 & S0 & T0 & Z0 & EN0).
  rewrite (Z0 NM) in U0. cbn [app] in U0. assert (tok0 = []) as -> by (apply (f_equal (@length Z)) in T0; rewrite app_length in T0; destruct tok0; [reflexivity|cbn in T0; lia]).
  unfold decode_pnm_rest. destruct (read_token [] false rest) as [t1 d1] eqn:R1.
  destruct EN0 as [-> | (e0 & -> & W0 & _)]. { rewrite read_nil in R1. injection R1 as <- <-. left. exists EInvalidDecode. reflexivity. }
  destruct (parse_u32 t1) as [w|er| |] eqn:P1; cbn [rbind]; [|left; exists er; reflexivity|destruct (parse_other t1); congruence|destruct (parse_other t1); congruence].
  destruct (token_inv _ _ _ _ _ (le_n _) R1) as (k1 & b1 & tok1 & tail1 & -> & U1 & B1 & S1 & T1 & _ & EN1). cbn [app] in T1. subst tok1.
  destruct (read_token [] false d1) as [t2 d2] eqn:R2.
  destruct EN1 as [-> | (e1 & -> & W1 & _)]. { rewrite read_nil in R2. injection R2 as <- <-. left. exists EInvalidDecode. reflexivity. }
  destruct (parse_u32 t2) as [h|er| |] eqn:P2; cbn [rbind]; [|left; exists er; reflexivity|destruct (parse_other t2); congruence|destruct (parse_other t2); congruence].
  destruct (token_inv _ _ _ _ _ (le_n _) R2) as (k2 & b2 & tok2 & tail2 & -> & U2 & B2 & S2 & T2 & _ & EN2). cbn [app] in T2. subst tok2.
  destruct (read_token [] false d2) as [t3 d3] eqn:R3.
  destruct EN2 as [-> | (e2 & -> & W2 & _)]. { rewrite read_nil in R3. injection R3 as <- <-. left. exists EInvalidDecode. reflexivity. }
  destruct (parse_u32 t3) as [m3|er| |] eqn:P3; cbn [rbind]; [|left; exists er; reflexivity|destruct (parse_other t3); congruence|destruct (parse_other t3); congruence].
  destruct (token_inv _ _ _ _ _ (le_n _) R3) as (k3 & b3 & tok3 & tail3 & -> & U3 & B3 & S3 & T3 & _ & EN3). cbn [app] in T3. subst tok3.
  destruct (Z.eqb_spec m3 255) as [->|]; cbn [negb]; [|left; exists EInvalidDecode; reflexivity].
  apply parse_iff in P1 as [D1 L1], P2 as [D2 L2], P3 as [D3 L3].
  assert (forall l n, signed_decimal l n -> 0 <= n) as NN.
  { intros l n [(_ & F & <-)|(l' & _ & _ & F & <-)]; apply decimal_value_ge; auto; lia. }
  assert (pnm_header white_or_feed signed_decimal w h (k0 ++ e0 :: k1 ++ e1 :: k2 ++ e2 :: k3)) as PH.
  { exists (e0 :: b1), t1, (e1 :: b2), t2, (e2 :: b3), t3. assert (forall e, white_or_feed e -> e <> 35) as NH by (unfold white_or_feed, white; intros; lia).
    split; [split; [discriminate|constructor; assumption]|]. split; [exact D1|]. split; [split; [discriminate|constructor; assumption]|]. split; [exact D2|].
    split; [split; [discriminate|constructor; assumption]|]. split; [exact D3|].
    change ((e0 :: b1) ++ t1 ++ (e1 :: b2) ++ t2 ++ (e2 :: b3) ++ t3) with ([] ++ e0 :: (b1 ++ t1 ++ e1 :: (b2 ++ t2 ++ e2 :: (b3 ++ t3)))).
    apply uncommented_app; [exact U0|]. constructor; [auto|]. rewrite app_assoc. apply uncommented_app; [exact U1|]. constructor; [auto|].
    rewrite (app_assoc b2). apply uncommented_app; [exact U2|]. constructor; [auto|exact U3]. }
  assert (k0 ++ e0 :: (k1 ++ e1 :: (k2 ++ e2 :: (k3 ++ tail3))) = (k0 ++ e0 :: k1 ++ e1 :: k2 ++ e2 :: k3) ++ tail3) as EX.
  { rewrite <- app_assoc. cbn [app]. do 2 f_equal. rewrite <- app_assoc. cbn [app]. do 2 f_equal. rewrite <- app_assoc. reflexivity. }
  set (x := w * h * bytes_per_pixel ct).
  assert (0 <= x) as X0 by (unfold x; pose proof (NN _ _ D1); pose proof (NN _ _ D2); destruct ct; cbn [bytes_per_pixel]; nia).
  destruct (Z.leb_spec (2 ^ 63) x) as [Big|Small].
  - right. exists w, h, (k0 ++ e0 :: k1 ++ e1 :: k2 ++ e2 :: k3), tail3. split; [split; [apply (NN _ _ D1)|exact L1]|]. split; [split; [apply (NN _ _ D2)|exact L2]|].
    split; [exact EX|]. split; [exact PH|]. left. split; [reflexivity|exact Big].
  - destruct (Z.ltb_spec (zlen d3) x) as [Sh|En]; [left; exists EInvalidDecode; reflexivity|].
    right. exists w, h, (k0 ++ e0 :: k1 ++ e1 :: k2 ++ e2 :: k3), tail3. split; [split; [apply (NN _ _ D1)|exact L1]|]. split; [split; [apply (NN _ _ D2)|exact L2]|].
    split; [exact EX|]. split; [exact PH|]. right. exists (firstn (Z.to_nat x) d3), (skipn (Z.to_nat x) d3).
    assert (zlen (firstn (Z.to_nat x) d3) = x) as LX by (unfold zlen in *; rewrite firstn_length; lia).
    split; [reflexivity|]. split; [exact LX|]. split; [rewrite LX; exact Small|].
    destruct EN3 as [-> | (e3 & -> & W3 & _)]; [left; apply firstn_nil|]. right. exists e3. split; [exact W3|]. rewrite firstn_skipn. reflexivity.
Qed.
Lemma short_load data : zlen data < 8 -> load_image data = Err EInvalidDecode /\ load_image_from_bytes data = Err EInvalidDecode.
Proof. intros H. unfold load_image, load_image_from_bytes, detect_format, detect_format_from_bytes. destruct (Z.ltb_spec (zlen data) 8); [split; reflexivity|lia]. Qed.
Lemma list_eqb_iff a b : list_eqb a b = true <-> a = b.
Proof. unfold list_eqb. destruct (list_eq_dec Z.eq_dec a b); split; congruence. Qed.
(** every file that starts with P5 or P6 *)
Lemma pnm_outcome_l ct X : ct = Gray \/ ct = Rgb -> load_image (magic ct ++ X) = load_image_from_bytes (magic ct ++ X) /\
  ((exists e, load_image (magic ct ++ X) = Err e) \/
   exists w h header tail, 0 <= w < 2 ^ 32 /\ 0 <= h < 2 ^ 32 /\ X = header ++ tail /\ pnm_header white_or_feed signed_decimal w h header /\
    (load_image (magic ct ++ X) = Panic /\ 2 ^ 63 <= w * h * bytes_per_pixel ct \/
     exists px more, load_image (magic ct ++ X) = Ok (mkImage w h px ct) /\ zlen px = w * h * bytes_per_pixel ct /\ zlen px < 2 ^ 63 /\
       (px = [] \/ exists d, white_or_feed d /\ tail = d :: px ++ more))).
Proof.
  intros C. destruct (Z_lt_le_dec (zlen (magic ct ++ X)) 8) as [L|L].
  { destruct (short_load _ L) as [-> ->]. split; [reflexivity|]. left. eexists. reflexivity. }
  destruct (load_pnm ct X C L) as [E1 E2]. rewrite E1, E2. clear E1 E2.
  destruct (read_token (magic ct) false X) as [t rest] eqn:R. destruct (list_eq_dec Z.eq_dec t (magic ct)) as [->|N].
  - destruct (decode_pnm_both ct X rest C R) as [-> ->]. split; [reflexivity|]. exact (rest_inv ct (magic ct) X rest R (magic_ne ct)).
  - assert (list_eqb t [80; 53] = false /\ list_eqb t [80; 54] = false) as [N5 N6].
    { destruct (token_inv _ _ _ _ _ (le_n _) R) as (_ & _ & tok & _ & _ & _ & _ & _ & T & _).
      split; apply not_true_iff_false; intros E; apply list_eqb_iff in E; subst t; destruct C as [-> | ->]; cbn [magic app] in *; congruence. }
    unfold decode_pnm, decode_pnm_from_bytes. rewrite magic_token, R, N5, N6. cbn [orb negb]. split; [reflexivity|]. left. eexists. reflexivity.
Qed.
(** and what is accepted is a PNM file *)
Lemma pnm_only_l ct X w h px c : ct = Gray \/ ct = Rgb -> 0 < w * h -> load_image (magic ct ++ X) = Ok (mkImage w h px c) ->
  c = ct /\ w < 2 ^ 32 /\ h < 2 ^ 32 /\ zlen px < 2 ^ 63 /\ pnm_file white_or_feed signed_decimal ct w h px (magic ct ++ X).
Proof.
  intros C P E. destruct (pnm_outcome_l ct X C) as [_ [(e & E')|(w' & h' & header & tail & Hw & Hh & -> & PH & [[E' _]|(px' & more & E' & L & S & T)])]]; try congruence.
  rewrite E in E'. injection E' as E1 E2 E3 E4. subst w' h' px' c. split; [reflexivity|]. split; [apply Hw|]. split; [apply Hh|]. split; [exact S|].
  split; [exact C|]. split; [exact L|]. destruct T as [-> | (d & W & ->)].
  - exfalso. clear - P L C. rewrite zlen_nil in L. destruct C as [-> | ->]; cbn [bytes_per_pixel] in L; lia.
  - exists header, d, more. split; [exact PH|]. split; [exact W|reflexivity].
Qed.
