(** Model of the palette construction and colour-type reduction of
    src/png/mod.rs, and of src/color.rs. *)
From Verif Require Import Base Lz77Model PngFilterModel.

(** color.rs 9-18 *)
Inductive color_type : Type := Gray | GrayAlpha | Rgb | Rgba.
(** color.rs 23-30 *)
Definition bytes_per_pixel (c : color_type) : Z :=
  match c with Gray => 1 | GrayAlpha => 2 | Rgb => 3 | Rgba => 4 end.
(** color.rs 34-41 *)
Definition png_color_type (c : color_type) : Z :=
  match c with Gray => 0 | GrayAlpha => 4 | Rgb => 2 | Rgba => 6 end.
(** color.rs 45-47 *)
Definition png_bit_depth (c : color_type) : Z := 8.

(** [[u8; 4]] *)
Notation rgba := (Z * Z * Z * Z)%type.

(** [chunks_exact(2)], [chunks_exact(3)] and [chunks_exact(4)] *)
Fixpoint px2 (l : list Z) : list (Z * Z) :=
  match l with a :: b :: r => (a, b) :: px2 r | _ => [] end.
Fixpoint px3 (l : list Z) : list (Z * Z * Z) :=
  match l with a :: b :: c :: r => (a, b, c) :: px3 r | _ => [] end.
Fixpoint px4 (l : list Z) : list rgba :=
  match l with a :: b :: c :: d :: r => (a, b, c, d) :: px4 r | _ => [] end.

(** u32 addition with overflow check *)
Definition add32 (a b : Z) : res Z := if a + b <? 2 ^ 32 then Ok (a + b) else Panic.

(** [sort_unstable] on u32 keys (equal keys are indistinguishable, so any
    sort gives the same result) *)
Fixpoint insert_key (k : Z) (l : list Z) : list Z :=
  match l with
  | [] => [k]
  | x :: r => if k <=? x then k :: x :: r else x :: insert_key k r
  end.
Definition sort_keys (l : list Z) : list Z := fold_right insert_key [] l.
(** [dedup] *)
Fixpoint dedup (l : list Z) : list Z :=
  match l with
  | x :: ((y :: _) as t) => if x =? y then dedup t else x :: dedup t
  | _ => l
  end.
(** position of a key in a list without repetitions ([binary_search] on a
    sorted deduplicated slice finds the one position holding the key) *)
Fixpoint key_pos (k : Z) (l : list Z) : option Z :=
  match l with
  | [] => None
  | x :: r => if x =? k then Some 0
              else match key_pos k r with Some i => Some (i + 1) | None => None end
  end.

(** mod.rs 856-870 *)
Definition color_key (c : rgba) : Z :=
  let '(r, g, b, a) := c in
  Z.lor (Z.lor (Z.lor (Z.shiftl r 24) (Z.shiftl g 16)) (Z.shiftl b 8)) a.
(** mod.rs 887 *)
Definition key_color (k : Z) : rgba :=
  (wrap 8 (Z.shiftr k 24), wrap 8 (Z.shiftr k 16), wrap 8 (Z.shiftr k 8), wrap 8 k).

(** ** mod.rs 940-977: co-occurrence matrix *)
Definition row_at (m : list (list Z)) (i : Z) : res (list Z) := get m i.
Definition mat_at (m : list (list Z)) (i j : Z) : res Z :=
  let* r := get m i in get r j.
(** [matrix[i][j] += 1] *)
Definition mat_inc (m : list (list Z)) (i j : Z) : res (list (list Z)) :=
  let* r := get m i in
  let* v := get r j in
  let* v' := add32 v 1 in
  Ok (upd m (Z.to_nat i) (upd r (Z.to_nat j) v')).
(** mod.rs 957-963 (and 966-972): one neighbour pair *)
Definition bump_pair (n : Z) (m : list (list Z)) (val next : Z) : res (list (list Z)) :=
  if next <? n then
    let* m1 := mat_inc m val next in mat_inc m1 next val
  else Ok m.
(** mod.rs 950-973: the body for one pixel *)
Definition co_pixel (indexed : list Z) (n width height y : Z) (m : list (list Z)) (x : Z)
  : res (list (list Z)) :=
  let row_start := y * width in
  let* val := get indexed (row_start + x) in
  if n <=? val then Ok m
  else
    let* m1 := if x + 1 <? width then
                 let* next := get indexed (row_start + x + 1) in bump_pair n m val next
               else Ok m in
    if y + 1 <? height then
      let* below := get indexed (row_start + width + x) in bump_pair n m1 val below
    else Ok m1.
Fixpoint fold_res {A B} (f : B -> A -> res B) (l : list A) (b : B) : res B :=
  match l with [] => Ok b | x :: r => let* b' := f b x in fold_res f r b' end.
Definition build_co_occurrence_matrix (indexed : list Z) (n width height : Z)
  : res (list (list Z)) :=
  fold_res (fun m y => fold_res (co_pixel indexed n width height y) (idxs (Z.to_nat width)) m)
    (idxs (Z.to_nat height))
    (repeat (repeat 0 (Z.to_nat n)) (Z.to_nat n)).

(** ** mod.rs 980-991 *)
Fixpoint enum {A} (i : Z) (l : list A) : list (Z * A) :=
  match l with [] => [] | x :: r => (i, x) :: enum (i + 1) r end.
Definition raw_edges (m : list (list Z)) : list ((Z * Z) * Z) :=
  flat_map (fun '(i, row) =>
    flat_map (fun '(j, w) => if 0 <? w then [((j, i), w)] else [])
      (firstn (Z.to_nat i) (enum 0 row))) (enum 0 m).
(** stable sort by descending weight *)
Fixpoint insert_edge (e : (Z * Z) * Z) (l : list ((Z * Z) * Z)) : list ((Z * Z) * Z) :=
  match l with
  | [] => [e]
  | x :: r => if snd x <=? snd e then e :: x :: r else x :: insert_edge e r
  end.
Definition weighted_edges (m : list (list Z)) : list (Z * Z) :=
  map fst (fold_right insert_edge [] (raw_edges m)).

(** ** mod.rs 998-1059 *)
(** mod.rs 1012-1022: initial sums; the accumulator is
    (sums, best_sum_pos, best_sum) *)
Definition init_sum_step (r0 r1 : Z) (st : list (Z * Z) * Z * (Z * Z)) (e : Z * list Z)
  : res (list (Z * Z) * Z * (Z * Z)) :=
  let '(sums, pos, best) := st in
  let '(i, row) := e in
  if (i =? r0) || (i =? r1) then Ok st
  else
    let* a := get row r0 in
    let* b := get row r1 in
    let* s := add32 a b in
    if snd best <? s then Ok (sums ++ [(i, s)], zlen sums, (i, s))
    else Ok (sums ++ [(i, s)], pos, best).
(** mod.rs 1030-1033 (isize arithmetic: below 2^8 * 2^8 * 2^32 in magnitude) *)
Fixpoint zeng_delta (m : list (list Z)) (best n i : Z) (rem : list Z) (acc : Z) : res Z :=
  match rem with
  | [] => Ok acc
  | idx :: r =>
      let* w := mat_at m best idx in
      zeng_delta m best n (i + 1) r (acc + (n - 1 - 2 * i) * w)
  end.
(** [Vec::swap_remove]: panics out of bounds *)
Definition swap_remove {A} (l : list A) (i : Z) : res (list A) :=
  if (0 <=? i) && (i <? zlen l) then
    match rev l with
    | [] => Panic
    | last :: _ => Ok (removelast (upd l (Z.to_nat i) last))
    end
  else Panic.
(** mod.rs 1048-1054 *)
Fixpoint update_sums (m : list (list Z)) (best i : Z) (sums : list (Z * Z))
  (pos : Z) (bs : Z * Z) : res (list (Z * Z) * Z * (Z * Z)) :=
  match sums with
  | [] => Ok ([], pos, bs)
  | (c, s) :: r =>
      let* w := mat_at m best c in
      let* s' := add32 s w in
      let '(pos', bs') := if snd bs <? s' then (i, (c, s')) else (pos, bs) in
      let* (r', p, b) := update_sums m best (i + 1) r pos' bs' in
      Ok ((c, s') :: r', p, b)
  end.
(** mod.rs 1024-1056; one colour leaves [sums] per iteration *)
Fixpoint zeng_loop (fuel : nat) (m : list (list Z)) (ncol : Z) (rem : list Z)
  (sums : list (Z * Z)) (pos : Z) (best : Z * Z) : res (list Z) :=
  match sums with
  | [] => Ok rem
  | _ =>
    match fuel with
    | O => NoFuel
    | S f =>
      let bi := fst best in
      let* delta := zeng_delta m bi (ncol - zlen sums) 0 rem 0 in
      let rem' := if 0 <? delta then bi :: rem else rem ++ [bi] in
      let* sums1 := swap_remove sums pos in
      let* (sums2, pos', best') :=
        match sums1 with
        | [] => Ok (sums1, pos, best)
        | _ => update_sums m bi 0 sums1 0 (0, 0)
        end in
      zeng_loop f m ncol rem' sums2 pos' best'
    end
  end.
Definition mzeng_reindex (ncol : Z) (edges : list (Z * Z)) (m : list (list Z)) : res (list Z) :=
  match edges with
  | [] => Ok (idxs (Z.to_nat ncol))
  | (r0, r1) :: _ =>
      if ncol =? 0 then Ok []
      else
        let* (sums, pos, best) := fold_res (init_sum_step r0 r1) (enum 0 m) ([], 0, (0, 0)) in
        zeng_loop (length sums) m ncol [r0; r1] sums pos best
  end.

(** ** mod.rs 1063-1099 *)
(** 1069-1072 *)
Definition count_colors (indexed : list Z) : res (list Z) :=
  fold_res (fun c v => let* x := get c v in let* x' := add32 x 1 in Ok (upd c (Z.to_nat v) x'))
    indexed (repeat 0 (Z.to_nat 256)).
(** 1075-1079: [max_by_key] keeps the last maximum *)
Fixpoint max_by_count (counts : list Z) (rem : list Z) (best : option (Z * Z)) : res (option (Z * Z)) :=
  match rem with
  | [] => Ok best
  | i :: r =>
      let* c := get counts i in
      let best' := match best with
                   | None => Some (i, c)
                   | Some (_, bc) => if bc <=? c then Some (i, c) else best
                   end in
      max_by_count counts r best'
  end.
Definition rotate_left {A} (k : Z) (l : list A) : res (list A) :=
  if k <=? zlen l then Ok (skipn (Z.to_nat k) l ++ firstn (Z.to_nat k) l) else Panic.
Definition rotate_right {A} (k : Z) (l : list A) : res (list A) :=
  if k <=? zlen l then
    Ok (skipn (length l - Z.to_nat k)%nat l ++ firstn (length l - Z.to_nat k)%nat l)
  else Panic.
Definition apply_most_popular_first (indexed : list Z) (rem : list Z) : res (list Z) :=
  match rem, indexed with
  | [], _ => Ok rem
  | _, [] => Ok rem
  | _, _ =>
    let* counts := count_colors indexed in
    let* bo := max_by_count counts rem None in
    let '(mi, mc) := match bo with Some p => p | None => (0, 0) end in
    let len32 := wrap 32 (zlen indexed) in
    let* t3 := if len32 * 3 <? 2 ^ 32 then Ok (len32 * 3) else Panic in
    let threshold := t3 / 20 in
    if mc <? threshold then Ok rem
    else match key_pos mi rem with
         | None => Ok rem
         | Some pos =>
             if zlen rem / 2 <=? pos then rotate_right (pos + 1) (rev rem)
             else rotate_left pos rem
         end
  end.

(** ** mod.rs 1102-1120 *)
Definition apply_remapping (indexed : list Z) (palette : list rgba) (rem : list Z)
  : res (list Z * list rgba) :=
  let* np := map_res (get palette) rem in
  let* bm := fold_res (fun bm '(ni, oi) =>
                 let* _ := get bm oi in Ok (upd bm (Z.to_nat oi) (wrap 8 ni)))
               (enum 0 rem) (repeat 0 (Z.to_nat 256)) in
  let* ni := map_res (get bm) indexed in
  Ok (ni, np).

(** mod.rs 909-937 *)
Definition optimize_palette_order (indexed : list Z) (palette : list rgba) (width height : Z)
  : res (list Z * list rgba) :=
  let n := zlen palette in
  if n <=? 2 then Ok (indexed, palette)
  else
    let* m := build_co_occurrence_matrix indexed n width height in
    match weighted_edges m with
    | [] => Ok (indexed, palette)
    | edges =>
        let* r0 := mzeng_reindex n edges m in
        let* r1 := apply_most_popular_first indexed r0 in
        apply_remapping indexed palette r1
    end.

(** mod.rs 838-900 *)
Definition build_palette (data : list Z) (ct : color_type) (width height : Z)
  : res (option (list Z * list rgba)) :=
  let go (px : list rgba) : res (option (list Z * list rgba)) :=
    let keys := map color_key px in
    let sorted := dedup (sort_keys keys) in
    if 256 <? zlen sorted then Ok None
    else
      let palette := map key_color sorted in
      let* indexed := map_res (fun k => match key_pos k sorted with
                                        | Some i => Ok (wrap 8 i)
                                        | None => Panic
                                        end) keys in
      let* r := optimize_palette_order indexed palette width height in
      Ok (Some r) in
  match ct with
  | Rgb => go (map (fun '(r, g, b) => (r, g, b, 255)) (px3 data))
  | Rgba => go (px4 data)
  | _ => Ok None
  end.

(** mod.rs 1122-1129 *)
Definition all_gray_rgb (data : list Z) : bool :=
  forallb (fun '(r, g, b) => (r =? g) && (g =? b)) (px3 data).
(** mod.rs 1131-1147: the loop with its early exit *)
Fixpoint analyze_px (l : list rgba) (opq gr : bool) : bool * bool :=
  match l with
  | [] => (opq, gr)
  | (r, g, b, a) :: t =>
      let opq' := if a =? 255 then opq else false in
      let gr' := if (r =? g) && (g =? b) then gr else false in
      if negb opq' && negb gr' then (opq', gr') else analyze_px t opq' gr'
  end.
Definition analyze_rgba (data : list Z) : bool * bool := analyze_px (px4 data) true true.

(** mod.rs 673-680 *)
Record reduced := mkReduced {
  rd_data : list Z;
  rd_ct : color_type;
  rd_byte : Z;
  rd_depth : Z;
  rd_bpp : Z;
  rd_pal : option (list rgba)
}.
Definition unreduced (data : list Z) (ct : color_type) : reduced :=
  mkReduced data ct (png_color_type ct) (png_bit_depth ct) (bytes_per_pixel ct) None.
(** [(bit_depth as usize).div_ceil(8).max(1)] *)
Definition depth_bpp (d : Z) : Z := Z.max ((d + 7) / 8) 1.
(** mod.rs 737-755 (= 770-788) *)
Definition reduce_gray (gray : list Z) (width : Z) : res reduced :=
  let d := match reduce_gray_bit_depth gray with Some d => d | None => 8 end in
  let* packed := if d <? 8 then pack_bits_rows gray width d else Ok gray in
  Ok (mkReduced packed Gray (png_color_type Gray) d (depth_bpp d) None).
(** mod.rs 734-835 *)
Definition reduce_by_type (data : list Z) (width : Z) (ct : color_type) : res reduced :=
  match ct with
  | Rgb =>
      if all_gray_rgb data then reduce_gray (map (fun '(r, _, _) => r) (px3 data)) width
      else Ok (mkReduced data ct (png_color_type ct) 8 3 None)
  | Rgba =>
      let '(opq, gr) := analyze_rgba data in
      if opq && gr then reduce_gray (map (fun '(r, _, _, _) => r) (px4 data)) width
      else if opq then
        Ok (mkReduced (flat_map (fun '(r, g, b, _) => [r; g; b]) (px4 data))
              Rgb (png_color_type Rgb) 8 3 None)
      else if gr then
        Ok (mkReduced (flat_map (fun '(r, _, _, a) => [r; a]) (px4 data))
              GrayAlpha (png_color_type GrayAlpha) 8 2 None)
      else Ok (mkReduced data ct (png_color_type ct) 8 4 None)
  | _ => Ok (unreduced data ct)
  end.
(** mod.rs 683-836 *)
Definition maybe_reduce_color_type (data : list Z) (width height : Z) (ct : color_type)
  (reduce_color_type reduce_palette : bool) : res reduced :=
  if (match ct with Gray => true | _ => false end) && reduce_color_type then
    Ok (mkReduced data Gray (png_color_type Gray) 8 1 None)
  else
    let* bp := if reduce_palette then build_palette data ct width height else Ok None in
    match bp with
    | Some (indexed, palette) =>
        let d := palette_bit_depth (zlen palette) in
        let* packed := if d <? 8 then pack_bits_rows indexed width d else Ok indexed in
        Ok (mkReduced packed Rgb 3 d (depth_bpp d) (Some palette))
    | None =>
        if negb reduce_color_type then Ok (unreduced data ct)
        else reduce_by_type data width ct
    end.

(** mod.rs 633-671 *)
Definition maybe_optimize_alpha (data : list Z) (ct : color_type) (opt : bool) : list Z :=
  if negb opt then data
  else match ct with
       | Rgba =>
           flat_map (fun '(r, g, b, a) => if a =? 0 then [0; 0; 0; a] else [r; g; b; a]) (px4 data)
           ++ skipn (4 * (length data / 4))%nat data
       | GrayAlpha =>
           flat_map (fun '(g, a) => if a =? 0 then [0; a] else [g; a]) (px2 data)
           ++ skipn (2 * (length data / 2))%nat data
       | _ => data
       end.
