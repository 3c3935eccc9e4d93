(** Threads that fill their own parts give one result. *)
From Verif Require Import Base Lz77Model PngFilterModel PngPaletteModel PngFilterProofs ThreadsModel.

(** ** What is read at one place after a list of writes *)
Definition at_place {V} (i : nat) (ws : list (nat * V)) : list (nat * V) := filter (fun w => (fst w =? i)%nat) ws.
Lemma run_length {V} (ws : list (nat * V)) : forall buf, length (run_writes ws buf) = length buf.
Proof. induction ws as [|w ws IH]; intros buf; [reflexivity|]. unfold run_writes in *. cbn [fold_left]. rewrite IH. apply upd_length. Qed.
Lemma run_at {V} (i : nat) (d : V) (ws : list (nat * V)) : forall buf, (i < length buf)%nat ->
  nth i (run_writes ws buf) d = last (map snd (at_place i ws)) (nth i buf d).
Proof.
  induction ws as [|[j v] ws IH]; intros buf H; [reflexivity|]. unfold run_writes in *. cbn [fold_left fst snd].
  rewrite IH by (rewrite upd_length; exact H). unfold at_place. cbn [filter fst]. destruct (Nat.eqb_spec j i) as [->|N].
  - rewrite nth_upd_eq by exact H. cbn [map snd]. destruct (map snd (filter _ ws)) eqn:E; [reflexivity|].
    cbn [last]. clear. revert v0. induction l as [|a l IH]; intros v0; [reflexivity|]. exact (IH a).
  - rewrite nth_upd_neq by exact N. reflexivity.
Qed.
Lemma at_app {V} i (a b : list (nat * V)) : at_place i (a ++ b) = at_place i a ++ at_place i b.
Proof. apply filter_app. Qed.
(** when one task alone writes to a place, its writes are all there are, in its order *)
Lemma schedule_at {V} i k (ls : list (list (nat * V))) l : schedule ls l -> (forall j, j <> k -> at_place i (nth j ls []) = []) -> at_place i l = at_place i (nth k ls []).
Proof.
  intros S. induction S as [ls F|a x t b l S IH]; intros H.
  - destruct (nth_in_or_default k ls []) as [I|E]; [|rewrite E; reflexivity]. rewrite Forall_forall in F. rewrite (F _ I). reflexivity.
  - assert (N : forall j, nth j (a ++ t :: b) [] = if (j =? length a)%nat then t else nth j (a ++ (x :: t) :: b) []).
    { intros j. destruct (Nat.eqb_spec j (length a)) as [->|Nj]; [rewrite app_nth2, Nat.sub_diag by lia; reflexivity|].
      destruct (Nat.lt_ge_cases j (length a)) as [L|G]; [rewrite !app_nth1 by exact L; reflexivity|].
      rewrite !app_nth2 by lia. destruct (j - length a)%nat eqn:E; [lia|reflexivity]. }
    assert (NA : nth (length a) (a ++ (x :: t) :: b) [] = x :: t) by (rewrite app_nth2, Nat.sub_diag by lia; reflexivity).
    assert (H' : forall j, j <> k -> at_place i (nth j (a ++ t :: b) []) = []).
    { intros j Hj. rewrite N. destruct (Nat.eqb_spec j (length a)) as [->|]; [|apply H; exact Hj]. specialize (H _ Hj). rewrite NA in H.
      change (x :: t) with ([x] ++ t) in H. rewrite at_app in H. apply app_eq_nil in H. apply H. }
    specialize (IH H'). change (x :: l) with ([x] ++ l). rewrite at_app, IH, N. destruct (Nat.eqb_spec k (length a)) as [->|Nk].
    + rewrite NA. change (x :: t) with ([x] ++ t). rewrite at_app. reflexivity.
    + pose proof (H (length a) (not_eq_sym Nk)) as Hx. rewrite NA in Hx. change (x :: t) with ([x] ++ t) in Hx. rewrite at_app in Hx. apply app_eq_nil in Hx as [-> _]. reflexivity.
Qed.
(** some schedule always exists: one task after the other *)
Lemma schedule_nil {A} (ls : list (list A)) l : schedule ls l -> schedule ([] :: ls) l.
Proof.
  intros S. induction S as [ls F|a x t b l S IH]; [apply sch_done; constructor; auto|]. apply (sch_step ([] :: a) x t b l). exact IH.
Qed.
Lemma schedule_concat {A} (ls : list (list A)) : schedule ls (concat ls).
Proof.
  induction ls as [|t ls IH]; [apply sch_done; constructor|]. cbn [concat]. induction t as [|x t IHt]; [apply schedule_nil; exact IH|].
  apply (sch_step [] x t ls). exact IHt.
Qed.

(** ** Rows *)
Lemma at_combine_out {V} i (row : list V) : forall s, ~ (s <= i < s + length row)%nat -> at_place i (combine (seq s (length row)) row) = [].
Proof.
  induction row as [|v row IH]; intros s H; [reflexivity|]. cbn [length seq combine]. unfold at_place. cbn [filter fst]. cbn [length] in H.
  destruct (Nat.eqb_spec s i); [lia|]. apply (IH (S s)). lia.
Qed.
Lemma at_combine_in {V} j (d : V) (row : list V) : forall s, (j < length row)%nat -> at_place (s + j) (combine (seq s (length row)) row) = [(s + j, nth j row d)]%nat.
Proof.
  revert j. induction row as [|v row IH]; intros j s H; [cbn in H; lia|]. cbn [length seq combine]. unfold at_place. cbn [filter fst]. cbn [length] in H. destruct j as [|j].
  - rewrite Nat.add_0_r, Nat.eqb_refl. cbn [nth]. f_equal. apply (at_combine_out s row (S s)). lia.
  - destruct (Nat.eqb_spec s (s + S j)); [lia|]. replace (s + S j)%nat with (S s + j)%nat by lia. cbn [nth]. apply IH. lia.
Qed.
Lemma row_tasks_nth {V} stride (rows : list (list V)) k : (k < length rows)%nat -> nth k (row_tasks stride rows) [] = row_task stride k (nth k rows []).
Proof.
  intros H. unfold row_tasks. set (g := fun p : nat * list V => row_task stride (fst p) (snd p)).
  rewrite (nth_indep _ [] (g (0%nat, []))) by (rewrite map_length, combine_length, seq_length; lia).
  rewrite (map_nth g). rewrite combine_nth by apply seq_length. rewrite seq_nth by exact H. reflexivity.
Qed.
Lemma row_tasks_out {V} stride (rows : list (list V)) k : (length rows <= k)%nat -> nth k (row_tasks stride rows) [] = [].
Proof. intros H. apply nth_overflow. unfold row_tasks. rewrite map_length, combine_length, seq_length. lia. Qed.
Lemma concat_nth {V} stride (d : V) (rows : list (list V)) : forall k j, Forall (fun r => length r = stride) rows -> (k < length rows)%nat -> (j < stride)%nat ->
  nth (k * stride + j) (concat rows) d = nth j (nth k rows []) d.
Proof.
  induction rows as [|r rows IH]; intros k j F Hk Hj; [cbn in Hk; lia|]. apply Forall_cons_iff in F as [L F]. cbn [concat length] in *. destruct k as [|k].
  - cbn [Nat.mul Nat.add nth]. apply app_nth1. lia.
  - rewrite app_nth2 by nia. cbn [nth]. rewrite <- (IH k j) by (auto; lia). f_equal. nia.
Qed.
Lemma concat_len {V} stride (rows : list (list V)) : Forall (fun r => length r = stride) rows -> length (concat rows) = (length rows * stride)%nat.
Proof. induction rows as [|r rows IH]; intros F; [reflexivity|]. apply Forall_cons_iff in F as [L F]. cbn [concat length]. rewrite app_length, IH, L by exact F. lia. Qed.
Lemma rows_any_order {V} stride (rows : list (list V)) ws buf : (0 < stride)%nat -> Forall (fun r => length r = stride) rows -> length buf = (length rows * stride)%nat ->
  schedule (row_tasks stride rows) ws -> run_writes ws buf = concat rows.
Proof.
  intros HS F LB S. assert (LE : length (run_writes ws buf) = length (concat rows)) by (rewrite run_length, (concat_len stride) by exact F; exact LB).
  destruct (run_writes ws buf) as [|d out] eqn:EO; [destruct (concat rows); [reflexivity|discriminate LE]|]. rewrite <- EO in *. clear EO out.
  apply (nth_ext _ _ d d LE). intros i Hi. rewrite run_length in Hi.
  set (k := (i / stride)%nat). set (j := (i mod stride)%nat).
  assert (EI : i = (k * stride + j)%nat) by (subst k j; rewrite (Nat.mul_comm _ stride); apply Nat.div_mod; lia).
  assert (Hj : (j < stride)%nat) by (subst j; apply Nat.mod_upper_bound; lia). assert (Hk : (k < length rows)%nat) by nia.
  assert (LK : forall q, (q < length rows)%nat -> length (nth q rows []) = stride) by (intros q Hq; rewrite Forall_forall in F; apply F, nth_In; exact Hq).
  rewrite run_at by exact Hi. rewrite (schedule_at i k _ _ S).
  - rewrite row_tasks_nth by exact Hk. unfold row_task. rewrite EI at 1. rewrite (at_combine_in j d) by (rewrite LK by exact Hk; exact Hj).
    cbn [map snd last]. rewrite EI. rewrite (concat_nth stride) by auto. reflexivity.
  - intros q Hq. destruct (Nat.lt_ge_cases q (length rows)) as [L|G]; [|rewrite row_tasks_out by exact G; reflexivity].
    rewrite row_tasks_nth by exact L. unfold row_task. apply at_combine_out. rewrite LK by exact L. nia.
Qed.
Lemma par_rows_one {V} stride f (buf : list V) rows r : (0 < stride)%nat -> length buf = (length rows * stride)%nat ->
  map_res f (idxs (length rows)) = Ok rows -> Forall (fun r => length r = stride) rows -> par_rows stride f buf r -> r = Ok (concat rows).
Proof.
  intros HS LB E F P. assert (C : (length buf / stride)%nat = length rows) by (rewrite LB; apply Nat.div_mul; lia).
  inversion P as [rows' ws E' F' S|k Hk HN]; subst; rewrite C in *.
  - rewrite E in E'. injection E' as <-. f_equal. apply (rows_any_order stride); assumption.
  - exfalso. pose proof (map_res_nth f (idxs (length rows)) rows k 0 [] E) as M. unfold idxs in M. rewrite map_length, seq_length in M. specialize (M Hk).
    change 0 with (Z.of_nat 0) in M. rewrite (map_nth Z.of_nat), seq_nth in M by exact Hk. cbn [Nat.add] in M.
    apply (HN _ M). rewrite Forall_forall in F. apply F, nth_In. exact Hk.
Qed.
Lemma par_rows_some {V} stride f (buf : list V) rows : (0 < stride)%nat -> length buf = (length rows * stride)%nat ->
  map_res f (idxs (length rows)) = Ok rows -> Forall (fun r => length r = stride) rows -> par_rows stride f buf (Ok (concat rows)).
Proof.
  intros HS LB E F. rewrite <- (rows_any_order stride rows (concat (row_tasks stride rows)) buf HS F LB (schedule_concat _)).
  apply par_done with (rows := rows); [|exact F|apply schedule_concat]. replace (length buf / stride)%nat with (length rows); [exact E|]. rewrite LB. symmetry. apply Nat.div_mul. lia.
Qed.
