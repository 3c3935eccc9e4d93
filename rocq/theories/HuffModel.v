(** Model of src/compress/huffman.rs: code lengths by Huffman's algorithm,
    limiting, canonical codes. *)
From Verif Require Import Base InflateModel.
From Coq Require Import Permutation.

(** huffman.rs 22-28: a leaf has a symbol and no children, an inner node two
    children and no symbol *)
Inductive tree : Type :=
| Leaf (freq : Z) (sym : Z)
| Node (freq : Z) (l r : tree).
Definition freq (t : tree) : Z := match t with Leaf f _ => f | Node f _ _ => f end.
(** huffman.rs 30-37: by frequency, then [Option<u16>] with None first *)
Definition tree_le (a b : tree) : bool :=
  (freq a <? freq b) ||
  ((freq a =? freq b) &&
   match a, b with
   | Node _ _ _, _ => true
   | Leaf _ _, Node _ _ _ => false
   | Leaf _ s, Leaf _ s' => s <=? s'
   end).

(** std::collections::BinaryHeap<Reverse<Node>> is not part of the crate: it
    is any priority queue.  Which of several equal nodes comes out first is
    left open, so everything below holds for every tie-breaking. *)
Record heap : Type := mkheap {
  hstate : Type;
  h_elems : hstate -> list tree;
  h_of : list tree -> hstate;
  h_push : tree -> hstate -> hstate;
  h_pop : hstate -> option (tree * hstate);
  h_of_ok : forall l, Permutation (h_elems (h_of l)) l;
  h_push_ok : forall t h, Permutation (h_elems (h_push t h)) (t :: h_elems h);
  h_pop_none : forall h, h_pop h = None -> h_elems h = [];
  h_pop_some : forall h t h', h_pop h = Some (t, h') ->
    Permutation (h_elems h) (t :: h_elems h') /\
    Forall (fun x => tree_le t x = true) (h_elems h) }.

(** an instance: a list from which the leftmost minimum is taken *)
Fixpoint take_min (m : tree) (acc l : list tree) : tree * list tree :=
  match l with
  | [] => (m, acc)
  | x :: t => if tree_le m x then take_min m (x :: acc) t else take_min x (m :: acc) t
  end.
Definition lpop (l : list tree) : option (tree * list tree) :=
  match l with [] => None | x :: t => Some (take_min x [] t) end.

Definition U32 : Z := 2 ^ 32.
(** huffman.rs 85-97: [while heap.len() > 1]; the frequency sum is u32
    arithmetic that panics on overflow.  The final [pop] (line 100) is the one
    after which nothing is left.  Fuel: each round removes a node. *)
Fixpoint merge_loop (H : heap) (fuel : nat) (h : hstate H) : res tree :=
  match h_pop H h with
  | None => Panic
  | Some (lf, h1) =>
      match h_pop H h1 with
      | None => Ok lf
      | Some (rt, h2) =>
          match fuel with
          | O => NoFuel
          | S f =>
              if freq lf + freq rt <? U32
              then merge_loop H f (h_push H (Node (freq lf + freq rt) lf rt) h2)
              else Panic
          end
      end
  end.

(** huffman.rs 112-123; [depth] is a u8 and overflows with a panic *)
Fixpoint extract_lengths (t : tree) (depth : Z) (lengths : list Z) : res (list Z) :=
  match t with
  | Leaf _ s =>
      let* _ := get lengths s in
      Ok (upd lengths (Z.to_nat s) (Z.max depth 1))
  | Node _ l r =>
      if depth + 1 <? 256 then
        let* lengths := extract_lengths l (depth + 1) lengths in
        extract_lengths r (depth + 1) lengths
      else Panic
  end.

(** huffman.rs 147-151; shifts of a u32 by at most [maxl] *)
Definition contribution (maxl l : Z) : Z := Z.shiftl 1 (maxl - l).
Definition kraft_sum (maxl : Z) (lens : list Z) : Z :=
  fold_left (fun a l => if l >? 0 then a + contribution maxl l else a) lens 0.

(** huffman.rs 156-163: first index of the shortest code below the maximum *)
Fixpoint find_short (maxl : Z) (i : nat) (lens : list Z) (best_len : Z) (best : option nat) : option nat :=
  match lens with
  | [] => best
  | len :: t =>
      if (len >? 0) && (len <? maxl) && (len <? best_len)
      then find_short maxl (S i) t len (Some i)
      else find_short maxl (S i) t best_len best
  end.
(** huffman.rs 179-186: first index of the longest code above one bit *)
Fixpoint find_long (i : nat) (lens : list Z) (best_len : Z) (best : option nat) : option nat :=
  match lens with
  | [] => best
  | len :: t =>
      if (len >? 1) && (len >? best_len)
      then find_long (S i) t len (Some i)
      else find_long (S i) t best_len best
  end.
(** huffman.rs 154-173 *)
Fixpoint lengthen_loop (fuel : nat) (maxl limit ksum : Z) (lens : list Z) : res (Z * list Z) :=
  if ksum >? limit then
    match find_short maxl 0 lens maxl None with
    | None => Ok (ksum, lens)
    | Some idx =>
        match fuel with
        | O => NoFuel
        | S f =>
            let l := nth idx lens 0 in
            let ksum := ksum - contribution maxl l in
            let lens := upd lens idx (l + 1) in
            lengthen_loop f maxl limit (ksum + contribution maxl (l + 1)) lens
        end
    end
  else Ok (ksum, lens).
(** huffman.rs 177-204 *)
Fixpoint shorten_loop (fuel : nat) (maxl limit ksum : Z) (lens : list Z) : res (list Z) :=
  if ksum <? limit then
    match find_long 0 lens 0 None with
    | None => Ok lens
    | Some idx =>
        match fuel with
        | O => NoFuel
        | S f =>
            let l := nth idx lens 0 in
            let oldc := contribution maxl l in
            let newc := contribution maxl (l - 1) in
            if ksum - oldc + newc <=? limit
            then shorten_loop f maxl limit (ksum - oldc + newc) (upd lens idx (l - 1))
            else Ok lens
        end
    end
  else Ok lens.
(** huffman.rs 128-205.  Each round of the first loop lengthens, of the
    second shortens, one of the codes, which bounds the number of rounds. *)
Definition limit_code_lengths (lens : list Z) (maxl : Z) : res (list Z) :=
  if existsb (fun l => l >? maxl) lens then
    let lens := map (fun l => if l >? maxl then maxl else l) lens in
    let limit := Z.shiftl 1 maxl in
    let fuel := (length lens * Z.to_nat maxl)%nat in
    let* (ksum, lens) := lengthen_loop fuel maxl limit (kraft_sum maxl lens) lens in
    shorten_loop fuel maxl limit ksum lens
  else Ok lens.

(** huffman.rs 14-19: (code, length) *)
Notation hcode := (Z * Z)%type.
(** huffman.rs 216-222: indexing panics above 15 *)
Fixpoint count_lengths (lens : list Z) (blc : list Z) : res (list Z) :=
  match lens with
  | [] => Ok blc
  | l :: t =>
      if l >? 0 then
        let* c := get blc l in count_lengths t (upd blc (Z.to_nat l) (c + 1))
      else count_lengths t blc
  end.
(** huffman.rs 225-230: u16 addition panics on overflow, [<< 1] drops the top bit *)
Fixpoint next_loop16 (k : nat) (bits code : Z) (blc nc : list Z) : res (list Z) :=
  match k with
  | O => Ok nc
  | S k' =>
      let s := code + wrap 16 (znth blc (bits - 1)) in
      if s <? 2 ^ 16 then
        let code := wrap 16 (Z.shiftl s 1) in
        next_loop16 k' (bits + 1) code blc (upd nc (Z.to_nat bits) code)
      else Panic
  end.
(** huffman.rs 233-241 *)
Fixpoint assign16 (lens nc : list Z) : res (list hcode) :=
  match lens with
  | [] => Ok []
  | l :: t =>
      if l >? 0 then
        let* c := get nc l in
        if c + 1 <? 2 ^ 16 then
          let* r := assign16 t (upd nc (Z.to_nat l) (c + 1)) in Ok ((c, l) :: r)
        else Panic
      else let* r := assign16 t nc in Ok ((0, 0) :: r)
  end.
(** huffman.rs 212-244 *)
Definition generate_canonical_codes (lens : list Z) : res (list hcode) :=
  let* blc := count_lengths lens (repeat 0 16) in
  let* nc := next_loop16 15 1 0 blc (repeat 0 16) in
  assign16 lens nc.

(** huffman.rs 55-59 *)
Fixpoint non_zero (i : Z) (fs : list Z) : list (Z * Z) :=
  match fs with
  | [] => []
  | f :: t => if f >? 0 then (wrap 16 i, f) :: non_zero (i + 1) t else non_zero (i + 1) t
  end.
(** huffman.rs 72-105: the code lengths when two or more symbols occur *)
Definition huffman_lengths (H : heap) (n : nat) (nz : list (Z * Z)) (maxl : Z) : res (list Z) :=
  let* root := merge_loop H (length nz) (h_of H (map (fun '(s, f) => Leaf f s) nz)) in
  let* lens := extract_lengths root 0 (repeat 0 n) in
  limit_code_lengths lens maxl.
(** huffman.rs 48-109 *)
Definition build_codes (H : heap) (fs : list Z) (maxl : Z) : res (list hcode) :=
  match fs with
  | [] => Ok []
  | _ =>
      let n := length fs in
      match non_zero 0 fs with
      | [] => Ok (repeat (0, 0) n)
      | [(s, _)] =>
          let* _ := get (repeat (0, 0) n) s in
          Ok (upd (repeat (0, 0) n) (Z.to_nat s) (0, 1))
      | nz =>
          let* lens := huffman_lengths H n nz maxl in
          generate_canonical_codes lens
      end
  end.

(** huffman.rs 246-289 *)
Definition fixed_literal_codes : res (list hcode) :=
  generate_canonical_codes (repeat 8 144 ++ repeat 9 112 ++ repeat 7 24 ++ repeat 8 8).
Definition fixed_distance_codes : res (list hcode) := generate_canonical_codes (repeat 5 32).

Lemma take_min_perm l : forall m acc, Permutation (m :: acc ++ l) (fst (take_min m acc l) :: snd (take_min m acc l)).
Proof.
  induction l as [|x t IH]; intros m acc; cbn [take_min].
  - rewrite app_nil_r. reflexivity.
  - destruct (tree_le m x); rewrite <- IH; cbn [app].
    + apply perm_skip. symmetry. apply Permutation_middle.
    + rewrite <- Permutation_middle. apply perm_swap.
Qed.
Lemma tree_le_refl a : tree_le a a = true.
Proof. unfold tree_le. destruct a; lia. Qed.
Lemma tree_le_trans a b c : tree_le a b = true -> tree_le b c = true -> tree_le a c = true.
Proof. unfold tree_le. destruct a, b, c; cbn [freq]; lia. Qed.
Lemma tree_le_total a b : tree_le a b = false -> tree_le b a = true.
Proof. unfold tree_le. destruct a, b; cbn [freq]; lia. Qed.
Lemma take_min_le l : forall m acc, Forall (fun x => tree_le m x = true) acc ->
  Forall (fun x => tree_le (fst (take_min m acc l)) x = true) (m :: acc ++ l).
Proof.
  induction l as [|x t IH]; intros m acc H; cbn [take_min].
  - rewrite app_nil_r. constructor; auto. apply tree_le_refl.
  - destruct (tree_le m x) eqn:E.
    + specialize (IH m (x :: acc) ltac:(constructor; auto)).
      inversion IH as [|? ? I1 I2]; subst. cbn [app] in I2. inversion I2 as [|? ? I3 I4]; subst.
      constructor; auto. apply Forall_app in I4. apply Forall_app. split; [|constructor]; tauto.
    + apply tree_le_total in E.
      specialize (IH x (m :: acc)). cbn [app] in IH. assert (Forall (fun y => tree_le x y = true) (m :: acc)) as F.
      { constructor; auto. eapply Forall_impl; [|exact H]. intros y Hy. eapply tree_le_trans; eauto. }
      specialize (IH F). inversion IH as [|? ? I1 I2]; subst. inversion I2 as [|? ? I3 I4]; subst.
      constructor; auto. apply Forall_app in I4. apply Forall_app. split; [|constructor]; tauto.
Qed.
Definition list_heap : heap.
Proof.
  refine (mkheap (list tree) (fun l => l) (fun l => l) cons lpop _ _ _ _).
  - intros l. apply Permutation_refl.
  - intros t h. apply Permutation_refl.
  - intros [|x h]; [auto|discriminate].
  - intros [|x h] t h' E; [discriminate|]. cbn [lpop] in E. injection E as E.
    pose proof (take_min_perm h x []) as P. pose proof (take_min_le h x [] ltac:(constructor)) as L.
    cbn [app] in *. rewrite E in P, L. auto.
Defined.

Example build_codes_ex : build_codes list_heap [5;9;12;13;16;45;0] 15 =
  Ok [(14,4);(15,4);(4,3);(5,3);(6,3);(0,1);(0,0)].
Proof. vm_compute. reflexivity. Qed.
Example build_codes_ex2 : build_codes list_heap [1;1;2;3;5;8;13;21;34;55] 4 =
  Ok [(2,3);(10,4);(11,4);(12,4);(13,4);(14,4);(15,4);(3,3);(4,3);(0,2)].
Proof. vm_compute. reflexivity. Qed.
