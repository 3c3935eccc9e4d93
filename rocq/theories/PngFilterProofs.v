(** Proofs about PNG filters: every strategy produces scanlines that the RFC
    reconstructs to the input, and the decoder performs that reconstruction. *)
From Verif Require Import Base Lz77Model PngFilterModel PngPaletteModel PngSpec InflateModel PngDecModel.

Lemma map_res_ok {A B} (f : A -> res B) (g : A -> B) l :
  (forall x, In x l -> f x = Ok (g x)) -> map_res f l = Ok (map g l).
Proof.
  induction l as [|x r IH]; intros H; cbn [map_res map]; auto.
  rewrite H by (left; auto). cbn [rbind]. rewrite IH by (intros; apply H; right; auto). reflexivity.
Qed.
Lemma map_res_length {A B} (f : A -> res B) l r : map_res f l = Ok r -> length r = length l.
Proof.
  revert r; induction l as [|x t IH]; intros r H; cbn [map_res] in H.
  - injection H as <-; auto.
  - apply rbind_ok in H as (y & _ & H). apply rbind_ok in H as (ys & E & H).
    injection H as <-. cbn; f_equal; eauto.
Qed.
Lemma map_res_nth {A B} (f : A -> res B) l r i da db :
  map_res f l = Ok r -> (i < length l)%nat -> f (nth i l da) = Ok (nth i r db).
Proof.
  revert r i; induction l as [|x t IH]; intros r i H Hi; cbn [length] in Hi; [lia|].
  cbn [map_res] in H. apply rbind_ok in H as (y & Ey & H). apply rbind_ok in H as (ys & E & H).
  injection H as <-. destruct i; cbn [nth]; auto. apply IH; auto; lia.
Qed.

Lemma idxs_length n : length (idxs n) = n.
Proof. unfold idxs; rewrite map_length, seq_length; auto. Qed.
Lemma idxs_nth n i : (i < n)%nat -> nth i (idxs n) 0 = Z.of_nat i.
Proof.
  intros H. unfold idxs. change 0 with (Z.of_nat 0). rewrite map_nth, seq_nth by auto. f_equal; lia.
Qed.
Lemma in_idxs n x : In x (idxs n) <-> 0 <= x < Z.of_nat n.
Proof.
  unfold idxs; rewrite in_map_iff; split.
  - intros (k & <- & H%in_seq). lia.
  - intros H. exists (Z.to_nat x). rewrite in_seq. lia.
Qed.
Lemma idxs_S n : idxs (S n) = idxs n ++ [Z.of_nat n].
Proof. unfold idxs. rewrite seq_S, map_app. reflexivity. Qed.

Lemma znth_map_idxs (g : Z -> Z) n i : 0 <= i < Z.of_nat n -> znth (map g (idxs n)) i = g i.
Proof.
  intros H; unfold znth. rewrite nth_indep with (d' := g 0) by (rewrite map_length, idxs_length; lia).
  rewrite map_nth, idxs_nth by lia. f_equal; lia.
Qed.
Lemma get_znth l i : 0 <= i < zlen l -> get l i = Ok (znth l i).
Proof. apply get_ok. Qed.

Lemma paeth_same a b c : paeth_predictor a b c = paeth a b c.
Proof. reflexivity. Qed.

(** the filtered row as a function *)
Definition filt (t bpp : Z) (prev row : list Z) : list Z :=
  map (fun i => wrap 8 (znth row i -
         predict t (at0 row (i - bpp)) (at0 prev i) (at0 prev (i - bpp)))) (idxs (length row)).
Lemma filt_spec t bpp prev row : row_filtered t bpp prev row (filt t bpp prev row).
Proof.
  split; [unfold filt; rewrite map_length, idxs_length; auto|].
  intros i Hi. unfold filt. rewrite znth_map_idxs by (unfold zlen in Hi; lia). reflexivity.
Qed.
Lemma filt_bytes t bpp prev row : bytes (filt t bpp prev row).
Proof. apply Forall_forall. intros x (i & <- & _)%in_map_iff. apply wrap8_byte. Qed.
Lemma filt_length t bpp prev row : length (filt t bpp prev row) = length row.
Proof. unfold filt; rewrite map_length, idxs_length; auto. Qed.

Lemma at0_byte l i : bytes l -> is_byte (at0 l i).
Proof.
  intros H. unfold at0. destruct (i <? 0); [unfold is_byte; lia|]. apply (Forall_nth_d is_byte); auto.
  unfold is_byte; lia.
Qed.
Lemma get_left row i bpp : 0 < bpp -> 0 <= i < zlen row ->
  (if bpp <=? i then get row (i - bpp) else Ok 0) = Ok (at0 row (i - bpp)).
Proof.
  intros Hb Hi. unfold at0. destruct (Z.leb_spec bpp i).
  - rewrite get_znth by lia. destruct (Z.ltb_spec (i - bpp) 0); [lia|reflexivity].
  - destruct (Z.ltb_spec (i - bpp) 0); [reflexivity|lia].
Qed.
Lemma at0_pos l i : 0 <= i -> at0 l i = znth l i.
Proof. intros; unfold at0; destruct (Z.ltb_spec i 0); [lia|auto]. Qed.

Section Row.
Context (bpp : Z) (row prev : list Z).
Hypothesis Hbpp : 0 < bpp.
Hypothesis Hlen : length prev = length row.
Hypothesis Hrow : bytes row.
Hypothesis Hprev : bytes prev.

Let zl : zlen prev = zlen row. Proof. unfold zlen; lia. Qed.

Lemma filter_sub_ok : filter_sub row bpp = Ok (filt 1 bpp prev row).
Proof.
  apply map_res_ok. intros i Hi%in_idxs. rewrite get_znth by (unfold zlen; lia). cbn [rbind].
  rewrite get_left by (unfold zlen; lia). reflexivity.
Qed.
Lemma filter_up_ok : filter_up row prev = Ok (filt 2 bpp prev row).
Proof.
  apply map_res_ok. intros i Hi%in_idxs. rewrite !get_znth by (unfold zlen; lia). cbn [rbind].
  rewrite (at0_pos prev) by lia. reflexivity.
Qed.
Lemma filter_average_ok : filter_average row prev bpp = Ok (filt 3 bpp prev row).
Proof.
  apply map_res_ok. intros i Hi%in_idxs.
  rewrite (get_znth row) by (unfold zlen; lia). cbn [rbind].
  rewrite get_left by (unfold zlen; lia). cbn [rbind].
  rewrite get_znth by (unfold zlen; lia). cbn [rbind].
  rewrite (at0_pos prev i) by lia.
  rewrite (wrap_id 8 ((at0 row (i - bpp) + znth prev i) / 2)); [reflexivity|].
  pose proof (at0_byte row (i - bpp) Hrow). pose proof (at0_byte prev i Hprev) as H0.
  rewrite at0_pos in H0 by lia. unfold is_byte in *. lia.
Qed.
Lemma filter_paeth_ok : filter_paeth row prev bpp = Ok (filt 4 bpp prev row).
Proof.
  apply map_res_ok. intros i Hi%in_idxs.
  rewrite (get_znth row) by (unfold zlen; lia). cbn [rbind].
  rewrite (get_left row) by (unfold zlen; lia). cbn [rbind].
  rewrite get_znth by (unfold zlen; lia). cbn [rbind].
  rewrite (get_left prev) by (unfold zlen; lia). cbn [rbind].
  rewrite (at0_pos prev i) by lia. reflexivity.
Qed.
Lemma filt_none : filt 0 bpp prev row = row.
Proof.
  apply (nth_ext _ _ 0 0); [apply filt_length|]. intros n Hn. rewrite filt_length in Hn.
  pose proof (proj2 (filt_spec 0 bpp prev row) (Z.of_nat n)) as H.
  unfold znth in H. rewrite Nat2Z.id in H. rewrite H by (unfold zlen; lia).
  change (predict 0 _ _ _) with 0. rewrite Z.sub_0_r. apply Z.mod_small.
  apply (Forall_nth_d is_byte); auto. unfold is_byte; lia.
Qed.

(** a filtered scanline: the type byte and the bytes *)
Definition fline (t : Z) : list Z := t :: filt t bpp prev row.
Definition good_line (o : res (list Z)) : Prop := exists t, 0 <= t <= 4 /\ o = Ok (fline t).
Lemma gl0 : good_line (Ok (FILTER_NONE :: row)).
Proof. exists 0; split; [lia|]. unfold fline. rewrite filt_none. reflexivity. Qed.
Lemma gl t : 0 <= t <= 4 -> good_line (Ok (t :: filt t bpp prev row)).
Proof. exists t; split; auto. Qed.

Lemma emit_good b : 0 <= b <= 4 ->
  good_line (emit_best b row (filt 1 bpp prev row) (filt 2 bpp prev row)
               (filt 3 bpp prev row) (filt 4 bpp prev row)).
Proof.
  intros H.
  assert (b = 0 \/ b = 1 \/ b = 2 \/ b = 3 \/ b = 4) as [-> | [-> | [-> | [-> | ->]]]] by lia.
  - apply gl0.
  - apply (gl 1); lia.
  - apply (gl 2); lia.
  - apply (gl 3); lia.
  - apply (gl 4); lia.
Qed.

Ltac br := match goal with
  | |- context [let '(_, _) := (if ?c then _ else _) in _] => destruct c
  | |- good_line (if ?c then _ else _) => destruct c
  | |- context [if ?c then FILTER_PAETH else _] => destruct c
  end; cbn beta iota.
Ltac fin := first [ apply gl0 | apply (gl 1); lia | apply (gl 2); lia | apply (gl 3); lia
                  | apply (gl 4); lia
                  | apply emit_good; unfold FILTER_NONE, FILTER_SUB, FILTER_UP, FILTER_AVERAGE, FILTER_PAETH; lia ].

Lemma adaptive_good : good_line (adaptive_filter row prev bpp).
Proof.
  unfold adaptive_filter.
  rewrite filter_sub_ok, filter_up_ok, filter_average_ok, filter_paeth_ok. cbn [rbind].
  repeat br; fin.
Qed.
Lemma bigrams_good : good_line (bigrams_filter row prev bpp).
Proof.
  unfold bigrams_filter.
  rewrite filter_sub_ok, filter_up_ok, filter_average_ok, filter_paeth_ok. cbn [rbind].
  repeat br; fin.
Qed.
Lemma fast_good : good_line (adaptive_filter_fast row prev bpp).
Proof.
  unfold adaptive_filter_fast.
  rewrite filter_sub_ok, filter_up_ok, filter_paeth_ok. cbn [rbind].
  repeat (match goal with
  | |- context [let '(_, _) := (if ?c then _ else _) in _] => destruct c
  | |- context [if ?c then FILTER_PAETH else _] => destruct c
  | |- good_line (if ?c then _ else _) => destruct c eqn:?
  end; cbn beta iota; try discriminate); fin.
Qed.
Lemma filter_row_good s : good_line (filter_row row prev bpp s).
Proof.
  destruct s; cbn [filter_row].
  - apply gl0.
  - rewrite filter_sub_ok; cbn [rbind]. apply (gl 1); lia.
  - rewrite filter_up_ok; cbn [rbind]. apply (gl 2); lia.
  - rewrite filter_average_ok; cbn [rbind]. apply (gl 3); lia.
  - rewrite filter_paeth_ok; cbn [rbind]. apply (gl 4); lia.
  - apply adaptive_good.
  - apply adaptive_good.
  - apply fast_good.
  - apply bigrams_good.
Qed.
End Row.

(** ** Whole images *)
Lemma slice_r_ok {A} (l : list A) i j :
  0 <= i -> i <= j -> j <= zlen l -> slice_r l i j = Ok (slice l i j).
Proof.
  intros. unfold slice_r.
  replace (0 <=? i) with true by (symmetry; apply Z.leb_le; lia).
  replace (i <=? j) with true by (symmetry; apply Z.leb_le; lia).
  replace (j <=? zlen l) with true by (symmetry; apply Z.leb_le; lia). reflexivity.
Qed.
Lemma slice_len {A} (l : list A) i j :
  0 <= i -> i <= j -> j <= zlen l -> zlen (slice l i j) = j - i.
Proof. intros. unfold zlen, slice in *. rewrite firstn_length, skipn_length. lia. Qed.
Lemma slice_bytes l i j : bytes l -> bytes (slice l i j).
Proof. intros. apply Forall_firstn, Forall_skipn; auto. Qed.

(** [rows sb n data]: the scanlines of the image as slices *)
Definition rowsl (sb : Z) (data : list Z) (y : Z) : list Z := slice data (y * sb) (y * sb + sb).

Lemma rows_concat sb n data y : 0 <= sb -> 0 <= y -> zlen data = (y + Z.of_nat n) * sb ->
  concat (map (fun k => rowsl sb data (y + Z.of_nat k)) (seq 0 n)) = skipn (Z.to_nat (y * sb)) data.
Proof.
  intros Hs. revert y. induction n as [|n IH]; intros y Hy Hl.
  - cbn. rewrite skipn_all2; auto. unfold zlen in Hl. lia.
  - cbn [seq map concat]. rewrite Z.add_0_r. rewrite <- seq_shift, map_map.
    replace (map (fun x : nat => rowsl sb data (y + Z.of_nat (S x))) (seq 0 n))
      with (map (fun k => rowsl sb data ((y + 1) + Z.of_nat k)) (seq 0 n)).
    2:{ apply map_ext. intros k. f_equal. lia. }
    rewrite IH by lia. unfold rowsl, slice.
    replace (Z.to_nat (y * sb + sb - y * sb)) with (Z.to_nat sb) by lia.
    replace (Z.to_nat ((y + 1) * sb)) with (Z.to_nat sb + Z.to_nat (y * sb))%nat by lia.
    assert (forall (a b : nat) (l : list Z), skipn (a + b) l = skipn a (skipn b l)) as Hk.
    { intros a b l. revert l. induction b as [|b IHb]; intros l.
      - rewrite Nat.add_0_r. reflexivity.
      - rewrite Nat.add_succ_r. destruct l; cbn [skipn]; [destruct a; reflexivity|apply IHb]. }
    rewrite Hk. apply firstn_skipn.
Qed.

Lemma fline_img bpp sb t prev row raws filts :
  0 <= t <= 4 -> zlen row = sb -> img_filtered bpp sb row raws filts ->
  img_filtered bpp sb prev (row ++ raws) (fline bpp row prev t ++ filts).
Proof.
  intros Ht Hr Hi. unfold fline. cbn [app]. apply IF_row; auto. apply filt_spec.
Qed.

Lemma filter_rows_good bpp sb data s n : forall y prev last,
  0 < bpp -> 0 <= sb -> 0 <= y -> bytes data -> bytes prev -> zlen prev = sb ->
  zlen data = (y + Z.of_nat n) * sb ->
  (y = 0 -> prev = repeat 0 (Z.to_nat sb)) ->
  exists o, filter_rows n y data prev sb bpp s last = Ok o /\ bytes o /\
    zlen o = Z.of_nat n * (sb + 1) /\
    img_filtered bpp sb prev (skipn (Z.to_nat (y * sb)) data) o.
Proof.
  induction n as [|n IH]; intros y prev last Hb Hs Hy Hd Hp Hpl Hl Hz.
  - exists []. cbn [filter_rows]. split; [reflexivity|]. split; [constructor|]. split; [reflexivity|].
    rewrite skipn_all2 by (unfold zlen in Hl; lia). constructor.
  - cbn [filter_rows].
    rewrite slice_r_ok by nia. cbn [rbind].
    fold (rowsl sb data y).
    assert (zlen (rowsl sb data y) = sb) as Hrl by (unfold rowsl; rewrite slice_len; nia).
    assert (bytes (rowsl sb data y)) as Hrb by (apply slice_bytes; auto).
    replace (if y =? 0 then repeat 0 (Z.to_nat sb) else prev) with prev.
    2:{ destruct (Z.eqb_spec y 0); auto. }
    assert (forall s', good_line bpp (rowsl sb data y) prev (filter_row (rowsl sb data y) prev bpp s')) as Hg.
    { intros s'. apply filter_row_good; auto. unfold zlen in *; lia. }
    assert (exists t l', 0 <= t <= 4 /\
      match s with
        | SMinSum => let* o := adaptive_filter (rowsl sb data y) prev bpp in Ok (o, last)
        | SAdaptiveFast =>
            let* o := filter_row (rowsl sb data y) prev bpp
              (match last with
               | Some f => if f =? FILTER_SUB then SSub
                           else if f =? FILTER_UP then SUp
                           else if f =? FILTER_PAETH then SPaeth
                           else SAdaptiveFast
               | None => SAdaptiveFast
               end) in
            Ok (o, match o with f :: _ => Some f | [] => last end)
        | _ => let* o := filter_row (rowsl sb data y) prev bpp s in Ok (o, last)
        end = Ok (fline bpp (rowsl sb data y) prev t, l')) as (t & l' & Ht & E).
    { destruct s;
        try (match goal with |- context [filter_row _ _ _ ?s'] =>
               destruct (Hg s') as (t & Ht & ->); eexists t, _; split; [exact Ht|reflexivity] end).
      destruct (Hg SMinSum) as (t & Ht & E). cbn [filter_row] in E. rewrite E.
      eexists t, _; split; [exact Ht|reflexivity]. }
    rewrite E. cbn [rbind].
    destruct (IH (y + 1) (rowsl sb data y) l') as (o & Eo & Hob & Hol & Hi); auto; try lia.
    rewrite Eo. cbn [rbind]. eexists. split; [reflexivity|]. split; [|split].
    + apply bytes_app; split; auto. unfold fline. constructor; [unfold is_byte; lia|apply filt_bytes].
    + rewrite zlen_app. unfold fline. rewrite zlen_cons. unfold zlen at 1. rewrite filt_length.
      change (Z.of_nat (length (rowsl sb data y))) with (zlen (rowsl sb data y)). lia.
    + pose proof (rows_concat sb (S n) data y Hs Hy Hl) as R1.
      pose proof (rows_concat sb n data (y + 1) Hs ltac:(lia) ltac:(lia)) as R2.
      rewrite <- R1. cbn [seq map concat]. rewrite Z.add_0_r. rewrite <- seq_shift, map_map.
      replace (map (fun x : nat => rowsl sb data (y + Z.of_nat (S x))) (seq 0 n))
        with (map (fun k => rowsl sb data ((y + 1) + Z.of_nat k)) (seq 0 n))
        by (apply map_ext; intros k; f_equal; lia).
      rewrite R2. apply fline_img; auto.
Qed.

Lemma parallel_rows_good bpp sb data s n : forall y prev,
  0 < bpp -> 0 <= sb -> 0 <= y -> bytes data -> bytes prev -> zlen prev = sb ->
  zlen data = (y + Z.of_nat n) * sb ->
  (if y =? 0 then prev = repeat 0 (Z.to_nat sb) else prev = rowsl sb data (y - 1)) ->
  exists rows, map_res (parallel_row data sb bpp s) (map (fun k => y + Z.of_nat k) (seq 0 n)) = Ok rows /\
    bytes (concat rows) /\ zlen (concat rows) = Z.of_nat n * (sb + 1) /\
    img_filtered bpp sb prev (skipn (Z.to_nat (y * sb)) data) (concat rows).
Proof.
  induction n as [|n IH]; intros y prev Hb Hs Hy Hd Hp Hpl Hl Hz.
  - exists []. cbn. split; [reflexivity|]. split; [constructor|]. split; [reflexivity|].
    rewrite skipn_all2 by (unfold zlen in Hl; lia). constructor.
  - cbn [seq map map_res]. rewrite Z.add_0_r.
    assert (zlen (rowsl sb data y) = sb) as Hrl by (unfold rowsl; rewrite slice_len; nia).
    assert (bytes (rowsl sb data y)) as Hrb by (apply slice_bytes; auto).
    assert (exists t, 0 <= t <= 4 /\ parallel_row data sb bpp s y = Ok (fline bpp (rowsl sb data y) prev t))
      as (t & Ht & E).
    { unfold parallel_row. rewrite slice_r_ok by nia. cbn [rbind]. fold (rowsl sb data y).
      assert ((if y =? 0 then Ok (repeat 0 (Z.to_nat sb)) else slice_r data ((y - 1) * sb) (y * sb)) = Ok prev) as ->.
      { destruct (Z.eqb_spec y 0); [congruence|]. rewrite slice_r_ok by nia. rewrite Hz. f_equal.
        unfold rowsl, slice. f_equal. lia. }
      cbn [rbind]. destruct (filter_row_good bpp (rowsl sb data y) prev) with (s := s) as (t & Ht & ->); auto.
      { unfold zlen in *; lia. }
      exists t; split; auto. cbn [rbind].
      assert (zlen (fline bpp (rowsl sb data y) prev t) = sb + 1) as ->.
      { unfold fline. rewrite zlen_cons. unfold zlen at 1. rewrite filt_length. unfold zlen in Hrl. lia. }
      rewrite Z.eqb_refl. reflexivity. }
    rewrite E. cbn [rbind].
    destruct (IH (y + 1) (rowsl sb data y)) as (rows & Er & Hob & Hol & Hi); auto; try lia.
    { destruct (Z.eqb_spec (y + 1) 0); [lia|]. f_equal; lia. }
    replace (map (fun k : nat => y + Z.of_nat k) (seq 1 n))
      with (map (fun k => (y + 1) + Z.of_nat k) (seq 0 n)).
    2:{ rewrite <- seq_shift, map_map. apply map_ext; intros; lia. }
    rewrite Er. cbn [rbind concat]. eexists. split; [reflexivity|]. cbn [concat]. split; [|split].
    + apply bytes_app; split; auto. unfold fline. constructor; [unfold is_byte; lia|apply filt_bytes].
    + rewrite zlen_app. unfold fline. rewrite zlen_cons. unfold zlen at 1. rewrite filt_length.
      change (Z.of_nat (length (rowsl sb data y))) with (zlen (rowsl sb data y)). lia.
    + pose proof (rows_concat sb (S n) data y Hs Hy Hl) as R1.
      pose proof (rows_concat sb n data (y + 1) Hs ltac:(lia) ltac:(lia)) as R2.
      rewrite <- R1. cbn [seq map concat]. rewrite Z.add_0_r. rewrite <- seq_shift, map_map.
      replace (map (fun x : nat => rowsl sb data (y + Z.of_nat (S x))) (seq 0 n))
        with (map (fun k => rowsl sb data ((y + 1) + Z.of_nat k)) (seq 0 n))
        by (apply map_ext; intros k; f_equal; lia).
      rewrite R2. apply fline_img; auto.
Qed.

Lemma repeat0_bytes n : bytes (repeat 0 n).
Proof. apply Forall_forall. intros x ->%repeat_spec. unfold is_byte; lia. Qed.
Lemma zlen_repeat {A} (x : A) n : zlen (repeat x n) = Z.of_nat n.
Proof. unfold zlen; rewrite repeat_length; auto. Qed.

Lemma apply_filters_good par data width height sb bpp s :
  0 < bpp -> 0 <= sb -> 0 <= height -> bytes data -> zlen data = sb * height ->
  exists o, apply_filters_with_row_bytes par data width height sb bpp s = Ok o /\
    bytes o /\ zlen o = height * (sb + 1) /\
    img_filtered bpp sb (repeat 0 (Z.to_nat sb)) data o.
Proof.
  intros Hb Hs Hh Hd Hl. unfold apply_filters_with_row_bytes.
  set (s1 := if _ && _ then SSub else s).
  destruct (par && _).
  - unfold apply_filters_parallel, idxs.
    destruct (parallel_rows_good bpp sb data s1 (Z.to_nat height) 0 (repeat 0 (Z.to_nat sb)))
      as (rows & E & Hob & Hol & Hi); auto; try lia.
    { apply repeat0_bytes. } { rewrite zlen_repeat; lia. }
    { cbn. reflexivity. }
    change (map (fun k : nat => 0 + Z.of_nat k) (seq 0 (Z.to_nat height)))
      with (map Z.of_nat (seq 0 (Z.to_nat height))) in E.
    rewrite E. cbn [rbind]. eexists; split; [reflexivity|]. split; auto. split; [lia|].
    cbn [skipn Z.mul Z.to_nat] in Hi. exact Hi.
  - replace (zlen data =? sb * height) with true by (symmetry; apply Z.eqb_eq; auto). cbn [negb].
    destruct (filter_rows_good bpp sb data s1 (Z.to_nat height) 0 (repeat 0 (Z.to_nat sb)) None)
      as (o & E & Hob & Hol & Hi); auto; try lia.
    { apply repeat0_bytes. } { rewrite zlen_repeat; lia. }
    exists o; split; auto. split; auto. split; [lia|]. exact Hi.
Qed.

(** ** Reconstruction *)
Definition mix (k : nat) (raw f row : list Z) : Prop :=
  length row = length raw /\
  forall j, nth j row 0 = if (j <? k)%nat then nth j raw 0 else nth j f 0.

Lemma recon_byte x p : is_byte x -> wrap 8 ((x - p) mod 256 + p) = x.
Proof.
  unfold is_byte, wrap. intros H. change (2 ^ 8) with 256.
  rewrite Zplus_mod_idemp_l. rewrite Z.sub_add. apply Z.mod_small; auto.
Qed.

Lemma unf_step t bpp prev raw f row k :
  1 <= t <= 4 -> 0 < bpp -> bytes raw -> bytes prev -> length prev = length raw ->
  row_filtered t bpp prev raw f -> mix k raw f row -> (k < length raw)%nat ->
  (t = 1 -> bpp <= Z.of_nat k) ->
  unf_byte t row prev bpp (Z.of_nat k) = Ok (nth k raw 0).
Proof.
  intros Ht Hb Hr Hp Hpl (Hfl & Hf) (Hml & Hm) Hk H1.
  assert (znth row (Z.of_nat k) = (nth k raw 0 -
     predict t (at0 raw (Z.of_nat k - bpp)) (at0 prev (Z.of_nat k)) (at0 prev (Z.of_nat k - bpp))) mod 256) as Hx.
  { unfold znth at 1. rewrite Nat2Z.id, Hm. rewrite Nat.ltb_irrefl.
    specialize (Hf (Z.of_nat k)). unfold znth in Hf. rewrite Nat2Z.id in Hf.
    rewrite Hf by (unfold zlen; lia). reflexivity. }
  assert (0 <= Z.of_nat k - bpp -> znth row (Z.of_nat k - bpp) = at0 raw (Z.of_nat k - bpp)) as Hlft.
  { intros Hge. rewrite at0_pos by lia. unfold znth. rewrite Hm.
    destruct (Nat.ltb_spec (Z.to_nat (Z.of_nat k - bpp)) k); [auto|lia]. }
  assert ((if bpp <=? Z.of_nat k then get row (Z.of_nat k - bpp) else Ok 0)
          = Ok (at0 raw (Z.of_nat k - bpp))) as Hgl.
  { destruct (Z.leb_spec bpp (Z.of_nat k)).
    - rewrite get_znth by (unfold zlen; lia). f_equal. apply Hlft; lia.
    - unfold at0. destruct (Z.ltb_spec (Z.of_nat k - bpp) 0); [auto|lia]. }
  assert (is_byte (nth k raw 0)) as Hby by (apply (Forall_nth_d is_byte); auto; unfold is_byte; lia).
  unfold unf_byte. rewrite get_znth by (unfold zlen; lia). cbn [rbind]. rewrite Hx.
  assert (t = 1 \/ t = 2 \/ t = 3 \/ t = 4) as [-> | [-> | [-> | ->]]] by lia; cbn [Z.eqb Pos.eqb].
  - rewrite get_znth by (unfold zlen; lia). cbn [rbind]. rewrite Hlft by lia.
    cbn [predict Z.eqb Pos.eqb]. rewrite recon_byte; auto.
  - rewrite get_znth by (unfold zlen; lia). cbn [rbind]. rewrite <- at0_pos by lia.
    cbn [predict Z.eqb Pos.eqb]. rewrite recon_byte; auto.
  - rewrite Hgl. cbn [rbind]. rewrite get_znth by (unfold zlen; lia). cbn [rbind].
    rewrite <- at0_pos by lia. cbn [predict Z.eqb Pos.eqb].
    rewrite (wrap_id 8 ((_ + _) / 2)).
    + rewrite recon_byte; auto.
    + pose proof (at0_byte raw (Z.of_nat k - bpp) Hr). pose proof (at0_byte prev (Z.of_nat k) Hp).
      unfold is_byte in *. lia.
  - rewrite Hgl. cbn [rbind]. rewrite get_znth by (unfold zlen; lia). cbn [rbind].
    rewrite (get_left prev) by (unfold zlen; lia). cbn [rbind].
    rewrite <- at0_pos by lia. cbn [predict Z.eqb Pos.eqb].
    change paeth_predictor with paeth; rewrite recon_byte; auto.
Qed.

Lemma unf_loop_ok t bpp prev raw f n : forall k row,
  1 <= t <= 4 -> 0 < bpp -> bytes raw -> bytes prev -> length prev = length raw ->
  row_filtered t bpp prev raw f -> mix k raw f row -> (k + n = length raw)%nat ->
  (t = 1 -> bpp <= Z.of_nat k) ->
  unf_loop t prev bpp (map Z.of_nat (seq k n)) row = Ok raw.
Proof.
  induction n as [|n IH]; intros k row Ht Hb Hr Hp Hpl Hf Hm Hk H1.
  - cbn. f_equal. destruct Hm as (Hl & Hm). apply (nth_ext _ _ 0 0); auto.
    intros j Hj. rewrite Hm. destruct (Nat.ltb_spec j k); [auto|lia].
  - unfold unf_loop. cbn [seq map fold_res].
    rewrite (unf_step t bpp prev raw f row k) by (auto; lia). cbn [rbind].
    apply (IH (S k)); auto; try lia.
    destruct Hm as (Hl & Hm). split; [rewrite upd_length; auto|]. intros j.
    rewrite Nat2Z.id, nth_upd by lia. rewrite Hm.
    destruct (Nat.eqb_spec j k).
    + subst. destruct (Nat.ltb_spec k (S k)); [auto|lia].
    + destruct (Nat.ltb_spec j k), (Nat.ltb_spec j (S k)); auto; lia.
Qed.

Lemma mix0 raw f : length f = length raw -> mix 0 raw f f.
Proof. split; auto. Qed.

Lemma unfilter_row_ok t bpp prev raw f :
  0 <= t <= 4 -> 0 < bpp -> bytes raw -> bytes prev -> length prev = length raw ->
  row_filtered t bpp prev raw f -> unfilter_row t f prev bpp = Ok raw.
Proof.
  intros Ht Hb Hr Hp Hpl Hf. destruct (Hf) as (Hfl & Hfi).
  unfold unfilter_row. destruct (Z.eqb_spec t 0) as [->|].
  { f_equal. apply (nth_ext _ _ 0 0); auto. intros j Hj.
    specialize (Hfi (Z.of_nat j)). unfold znth in Hfi. rewrite Nat2Z.id in Hfi.
    rewrite Hfi by (unfold zlen; lia). cbn [predict Z.eqb Pos.eqb]. rewrite Z.sub_0_r.
    apply Z.mod_small. apply (Forall_nth_d is_byte); auto. unfold is_byte; lia. }
  destruct (Z.eqb_spec t 1) as [->|].
  { destruct (Nat.le_gt_cases (Z.to_nat bpp) (length raw)).
    - apply (unf_loop_ok 1 bpp prev raw f); auto; try lia.
      split; auto. intros j. destruct (Nat.ltb_spec j (Z.to_nat bpp)); auto.
      specialize (Hfi (Z.of_nat j)). unfold znth in Hfi. rewrite Nat2Z.id in Hfi.
      rewrite Hfi by (unfold zlen; lia). cbn [predict Z.eqb Pos.eqb].
      unfold at0 at 1. destruct (Z.ltb_spec (Z.of_nat j - bpp) 0); [|lia]. rewrite Z.sub_0_r.
      apply Z.mod_small. apply (Forall_nth_d is_byte); auto. unfold is_byte; lia.
    - replace (length f - Z.to_nat bpp)%nat with 0%nat by lia. cbn. f_equal.
      apply (nth_ext _ _ 0 0); auto. intros j Hj.
      specialize (Hfi (Z.of_nat j)). unfold znth in Hfi. rewrite Nat2Z.id in Hfi.
      rewrite Hfi by (unfold zlen; lia). cbn [predict Z.eqb Pos.eqb].
      unfold at0 at 1. destruct (Z.ltb_spec (Z.of_nat j - bpp) 0); [|lia]. rewrite Z.sub_0_r.
      apply Z.mod_small. apply (Forall_nth_d is_byte); auto. unfold is_byte; lia. }
  replace ((t =? 2) || (t =? 3) || (t =? 4)) with true by lia.
  unfold idxs. apply (unf_loop_ok t bpp prev raw f); auto; try lia. apply mix0; auto.
Qed.

Lemma slice_app_mid {A} (a b c : list A) i j :
  i = zlen a -> j = zlen a + zlen b -> slice (a ++ b ++ c) i j = b.
Proof.
  intros -> ->. unfold slice, zlen. rewrite Nat2Z.id.
  rewrite skipn_app, skipn_all, Nat.sub_diag. cbn [skipn app].
  replace (Z.to_nat _) with (length b + 0)%nat by lia.
  rewrite firstn_app_2. cbn. apply app_nil_r.
Qed.

Lemma unfilter_rows_ok bpp sb data : 0 < bpp -> 0 <= sb ->
  forall prev raw filts, img_filtered bpp sb prev raw filts ->
  forall n y done, bytes raw -> bytes prev -> zlen prev = sb ->
  data = done ++ filts -> zlen done = y * (1 + sb) -> 0 <= y ->
  Z.of_nat n * (1 + sb) = zlen filts ->
  unfilter_rows n y data prev sb bpp = Ok raw.
Proof.
  intros Hb Hs prev raw filts Hi. induction Hi as [prev|prev t row f raws filts Ht Hrl Hf Hi IH];
    intros n y done Hr Hp Hpl Hd Hdl Hy Hn.
  - rewrite zlen_nil in Hn. destruct n; [reflexivity|lia].
  - pose proof (zlen_nonneg filts).
    destruct Hf as (Hfl & Hfi). assert (zlen f = sb) as Hfs by (unfold zlen in *; lia).
    rewrite zlen_cons, zlen_app in Hn.
    destruct n as [|n]; [lia|].
    cbn [unfilter_rows].
    assert (get data (y * (1 + sb)) = Ok t) as ->.
    { subst data. rewrite (get_ok _ _ 0) by (rewrite zlen_app, zlen_cons, zlen_app; nia).
      f_equal. rewrite app_nth2 by (unfold zlen in *; lia).
      replace (_ - _)%nat with 0%nat by (unfold zlen in *; lia). reflexivity. }
    cbn [rbind].
    replace (t :: f ++ filts) with ([t] ++ f ++ filts) in Hd by reflexivity.
    rewrite app_assoc in Hd.
    assert (zlen (done ++ [t]) = y * (1 + sb) + 1) as Hdt by (rewrite zlen_app, zlen_cons, zlen_nil; lia).
    rewrite slice_r_ok by (subst data; rewrite ?zlen_app, ?zlen_cons, ?zlen_nil in *; nia).
    assert (slice data (y * (1 + sb) + 1) (y * (1 + sb) + 1 + sb) = f) as ->.
    { subst data. apply slice_app_mid; lia. }
    cbn [rbind]. apply bytes_app in Hr as (Hr1 & Hr2).
    rewrite (unfilter_row_ok t bpp prev row f); auto; try (unfold zlen in *; lia); [|split; auto].
    cbn [rbind].
    rewrite (IH n (y + 1) ((done ++ [t]) ++ f)); auto; try lia.
    + rewrite Hd, app_assoc. reflexivity.
    + rewrite zlen_app. lia.
Qed.

(** ** Totality of reconstruction on any bytes *)
Lemma unf_byte_total t row prev bpp i :
  1 <= t <= 4 -> 0 <= bpp -> 0 <= i < zlen row -> zlen prev = zlen row -> (t = 1 -> bpp <= i) ->
  exists v, unf_byte t row prev bpp i = Ok v /\ is_byte v.
Proof.
  intros Ht Hb Hi Hl H1. unfold unf_byte. rewrite get_znth by lia. cbn [rbind].
  assert (exists l, (if bpp <=? i then get row (i - bpp) else Ok 0) = Ok l) as (l & El).
  { destruct (Z.leb_spec bpp i); [rewrite get_znth by lia|]; eauto. }
  assert (exists l, (if bpp <=? i then get prev (i - bpp) else Ok 0) = Ok l) as (c & Ec).
  { destruct (Z.leb_spec bpp i); [rewrite get_znth by lia|]; eauto. }
  destruct (Z.eqb_spec t 1).
  { rewrite get_znth by lia. cbn [rbind]. eexists; split; [reflexivity|apply wrap8_byte]. }
  destruct (Z.eqb_spec t 2).
  { rewrite get_znth by lia. cbn [rbind]. eexists; split; [reflexivity|apply wrap8_byte]. }
  rewrite El, Ec. rewrite get_znth by lia. cbn [rbind].
  destruct (t =? 3); eexists; (split; [reflexivity|apply wrap8_byte]).
Qed.
Lemma unf_loop_total t prev bpp is : forall row,
  1 <= t <= 4 -> 0 <= bpp -> zlen prev = zlen row -> bytes row ->
  Forall (fun i => 0 <= i < zlen row /\ (t = 1 -> bpp <= i)) is ->
  exists r, unf_loop t prev bpp is row = Ok r /\ length r = length row /\ bytes r.
Proof.
  induction is as [|i is IH]; intros row Ht Hb Hl Hr Hi.
  - exists row. cbn. auto.
  - apply Forall_cons_iff in Hi as ((Hi & H1) & His).
    destruct (unf_byte_total t row prev bpp i) as (v & E & Hv); auto.
    unfold unf_loop. cbn [fold_res]. rewrite E. cbn [rbind].
    destruct (IH (upd row (Z.to_nat i) v)) as (r & Er & Hrl & Hrb); auto.
    + unfold zlen in *. rewrite upd_length; lia.
    + apply Forall_upd; auto.
    + eapply Forall_impl; [|exact His]. cbn. intros a (Ha & Hb'). unfold zlen in *.
      rewrite upd_length. auto.
    + exists r. split; [exact Er|]. rewrite upd_length in Hrl. auto.
Qed.
Lemma unfilter_row_total t row prev bpp :
  0 <= bpp -> zlen prev = zlen row -> bytes row ->
  (exists r, unfilter_row t row prev bpp = Ok r /\ length r = length row /\ bytes r) \/
  unfilter_row t row prev bpp = Err EInvalidDecode.
Proof.
  intros Hb Hl Hr. unfold unfilter_row.
  destruct (Z.eqb_spec t 0); [left; eauto|].
  destruct (Z.eqb_spec t 1).
  { left. apply unf_loop_total; auto; try lia. apply Forall_forall.
    intros i (k & <- & Hk%in_seq)%in_map_iff. unfold zlen. lia. }
  destruct ((t =? 2) || (t =? 3) || (t =? 4)) eqn:E; [left|right; auto].
  apply unf_loop_total; auto; try lia. apply Forall_forall.
  intros i Hk%in_idxs. unfold zlen. lia.
Qed.
Lemma unfilter_rows_total n : forall y data prev sb bpp,
  0 <= bpp -> 0 <= sb -> 0 <= y -> bytes data -> zlen prev = sb ->
  (y + Z.of_nat n) * (1 + sb) <= zlen data ->
  (exists r, unfilter_rows n y data prev sb bpp = Ok r /\ zlen r = Z.of_nat n * sb /\ bytes r) \/
  unfilter_rows n y data prev sb bpp = Err EInvalidDecode.
Proof.
  induction n as [|n IH]; intros y data prev sb bpp Hb Hs Hy Hd Hp Hl.
  - left. exists []. cbn. repeat split; auto. constructor.
  - cbn [unfilter_rows]. rewrite get_znth by nia. cbn [rbind].
    rewrite slice_r_ok by nia. cbn [rbind].
    set (rd := slice data _ _).
    assert (zlen rd = sb) as Hrd by (unfold rd; rewrite slice_len; nia).
    destruct (unfilter_row_total (znth data (y * (1 + sb))) rd prev bpp) as [(r & E & Hrl & Hrb)|E]; auto.
    + lia.
    + apply slice_bytes; auto.
    + rewrite E. cbn [rbind]. assert (zlen r = sb) by (unfold zlen in *; lia).
      destruct (IH (y + 1) data r sb bpp) as [(q & Eq & Hql & Hqb)|Eq]; auto; try lia.
      * rewrite Eq. cbn [rbind]. left. eexists; split; [reflexivity|]. split; [rewrite zlen_app; lia|].
        apply bytes_app; auto.
      * rewrite Eq. right; auto.
    + rewrite E. right; auto.
Qed.

(** one filter byte in 0..=4 at the start of each row *)
Lemma img_filtered_types bpp sb : 0 <= sb -> forall prev raw filts, img_filtered bpp sb prev raw filts ->
  forall y, 0 <= y -> y * (1 + sb) < zlen filts -> 0 <= znth filts (y * (1 + sb)) <= 4.
Proof.
  intros Hs prev raw filts H. induction H as [prev|prev t row f raws filts Ht Hl (Hf & _) H IH]; intros y Hy Hr.
  - rewrite zlen_nil in Hr. lia.
  - destruct (Z.eq_dec y 0) as [->|Hy0]; [exact Ht|]. rewrite zlen_cons, zlen_app in Hr.
    assert (zlen f = sb) as Lf by (unfold zlen in *; lia).
    replace (znth (t :: f ++ filts) (y * (1 + sb))) with (znth filts ((y - 1) * (1 + sb))); [apply IH; lia|].
    assert (0 <= (y - 1) * (1 + sb)) as Hk by nia. assert (y * (1 + sb) = (y - 1) * (1 + sb) + 1 + sb) as -> by ring.
    set (k := (y - 1) * (1 + sb)) in *. clearbody k.
    unfold znth. replace (Z.to_nat (k + 1 + sb)) with (S (length f + Z.to_nat k))%nat by (unfold zlen in Lf; lia).
    cbn [nth]. rewrite app_nth2_plus. reflexivity.
Qed.
Lemma filters_invertible_l par data width h sb bpp s :
  0 < bpp -> 0 <= sb -> 0 <= h -> bytes data -> zlen data = sb * h ->
  exists o, apply_filters_with_row_bytes par data width h sb bpp s = Ok o /\ zlen o = h * (1 + sb) /\
    (forall y, 0 <= y < h -> 0 <= znth o (y * (1 + sb)) <= 4) /\
    unfilter_rows (Z.to_nat h) 0 o (repeat 0 (Z.to_nat sb)) sb bpp = Ok data.
Proof.
  intros Hb Hs Hh Hd L. destruct (apply_filters_good par data width h sb bpp s) as (o & E & Ob & Ol & Of); auto.
  exists o. split; auto. split; [lia|]. split.
  - intros y Hy. apply (img_filtered_types bpp sb Hs _ _ _ Of); nia.
  - apply (unfilter_rows_ok bpp sb o Hb Hs _ _ _ Of _ _ []); auto; try lia.
    + apply repeat0_bytes.
    + rewrite zlen_repeat; lia.
Qed.
Lemma rows_invertible_l h sb bpp raw filts : 0 < bpp -> 0 <= sb -> 0 <= h -> bytes raw -> zlen raw = sb * h -> zlen filts = h * (1 + sb) ->
  img_filtered bpp sb (repeat 0 (Z.to_nat sb)) raw filts ->
  unfilter_rows (Z.to_nat h) 0 filts (repeat 0 (Z.to_nat sb)) sb bpp = Ok raw.
Proof.
  intros Hb Hs Hh Hd L Lf Hi. apply (unfilter_rows_ok bpp sb filts Hb Hs _ _ _ Hi _ _ []); auto; try lia.
  - apply repeat0_bytes.
  - rewrite zlen_repeat; lia.
Qed.
