(** Model of the colour quantiser of src/png/mod.rs (lines 1149-1762). *)
From Verif Require Import Base Lz77Model PngFilterModel PngPaletteModel.

(** [max_by_key]: the last element with the largest key *)
Fixpoint max_by_last {A} (key : A -> Z) (l : list A) (best : option A) : option A :=
  match l with
  | [] => best
  | x :: r =>
      max_by_last key r
        (match best with
         | None => Some x
         | Some b => if key b <=? key x then Some x else best
         end)
  end.

(** mod.rs 1153-1157: colour and count *)
Notation ccount := (rgba * Z)%type.
Definition chan (c : Z) (p : rgba) : Z :=
  let '(r, g, b, a) := p in
  if c =? 0 then r else if c =? 1 then g else if c =? 2 then b else a.

(** A box is its list of colours; the bounds stored by [from_colors]
    (mod.rs 1173-1204) are functions of it. *)
Definition box_min (c : Z) (l : list ccount) : Z :=
  fold_left (fun m x => Z.min m (chan c (fst x))) l 255.
Definition box_max (c : Z) (l : list ccount) : Z :=
  fold_left (fun m x => Z.max m (chan c (fst x))) l 0.
(** u8 subtraction with underflow check *)
Definition sub8 (a b : Z) : res Z := if b <=? a then Ok (a - b) else Panic.

(** mod.rs 1211-1238 *)
Definition box_range (l : list ccount) : res (Z * Z) :=
  let* rr := sub8 (box_max 0 l) (box_min 0 l) in
  let* gr := sub8 (box_max 1 l) (box_min 1 l) in
  let* br := sub8 (box_max 2 l) (box_min 2 l) in
  let* ar := sub8 (box_max 3 l) (box_min 3 l) in
  let rs := rr * 2 in
  let gs := gr * 4 in
  let bs := br in
  let as_ := ar * 3 in
  let '(ms, ch) := (rs, 0) in
  let '(ms, ch) := if ms <? gs then (gs, 1) else (ms, ch) in
  let '(ms, ch) := if ms <? bs then (bs, 2) else (ms, ch) in
  let '(ms, ch) := if ms <? as_ then (as_, 3) else (ms, ch) in
  Ok (ch, ms).

(** stable sort by a channel *)
Fixpoint insert_cc (c : Z) (x : ccount) (l : list ccount) : list ccount :=
  match l with
  | [] => [x]
  | y :: r => if chan c (fst x) <=? chan c (fst y) then x :: y :: r else y :: insert_cc c x r
  end.
Definition sort_cc (c : Z) (l : list ccount) : list ccount := fold_right (insert_cc c) [] l.
(** mod.rs 1254: u32 sum *)
Definition sum32 (l : list ccount) : res Z := fold_res (fun s x => add32 s (snd x)) l 0.
(** mod.rs 1255-1263 *)
Fixpoint find_split (half : Z) (i acc : Z) (l : list ccount) : res Z :=
  match l with
  | [] => Ok 0
  | x :: r =>
      let* acc' := add32 acc (snd x) in
      if half <=? acc' then Ok i else find_split half (i + 1) acc' r
  end.
(** mod.rs 1244-1272 *)
Definition box_split (l : list ccount) : res (list ccount * list ccount) :=
  let* (ch, _) := box_range l in
  let s := sort_cc ch l in
  let* total := sum32 s in
  let* i := find_split (total / 2) 0 0 s in
  let i := Z.min i (Z.max 0 (zlen s - 2)) in
  let* lo := slice_r s 0 (i + 1) in
  let* hi := slice_r s (i + 1) (zlen s) in
  Ok (lo, hi).
(** mod.rs 1274-1298; the u64 sums cannot overflow *)
Definition make_palette_entry (l : list ccount) : rgba :=
  let total := fold_left (fun s x => s + snd x) l 0 in
  let sum c := fold_left (fun s x => s + chan c (fst x) * snd x) l 0 in
  if total =? 0 then (0, 0, 0, 255)
  else (wrap 8 (sum 0 / total), wrap 8 (sum 1 / total), wrap 8 (sum 2 / total), wrap 8 (sum 3 / total)).

(** mod.rs 1310-1331 *)
Fixpoint cut_loop (fuel : nat) (max_colors : Z) (boxes : list (list ccount))
  : res (list (list ccount)) :=
  if negb (zlen boxes <? max_colors) then Ok boxes
  else match fuel with
  | O => NoFuel
  | S f =>
      let* rs := map_res box_range boxes in
      match max_by_last (fun p : Z * (Z * Z) => snd (snd p)) (enum 0 rs) None with
      | None => Panic
      | Some (idx, _) =>
          let* b := get boxes idx in
          if negb (1 <? zlen b) then Ok boxes
          else
            let rest := firstn (Z.to_nat idx) boxes ++ skipn (Z.to_nat (idx + 1)) boxes in
            let* (lo, hi) := box_split b in
            let bl := match lo with [] => rest | _ => rest ++ [lo] end in
            let br := match hi with [] => bl | _ => bl ++ [hi] end in
            cut_loop f max_colors br
      end
  end.

(** mod.rs 1405-1430: i32 arithmetic within range; [>>] is arithmetic shift *)
Definition perceptual_distance_sq (c1 c2 : rgba) : Z :=
  let '(r1, g1, b1, a1) := c1 in
  let '(r2, g2, b2, a2) := c2 in
  let dr := r1 - r2 in
  let dg := g1 - g2 in
  let db := b1 - b2 in
  let da := a1 - a2 in
  let rm := Z.shiftr (r1 + r2) 1 in
  let rw := 512 + rm in
  let bw := 767 - rm in
  let dist := Z.shiftr (rw * dr * dr + 1024 * dg * dg + bw * db * db) 8 in
  wrap 32 (dist + da * da).

(** mod.rs 1432-1443 *)
Fixpoint nearest_go (color : rgba) (palette : list rgba) (i bi bd : Z) : Z :=
  match palette with
  | [] => bi
  | p :: r =>
      let d := perceptual_distance_sq color p in
      if d <? bd then nearest_go color r (i + 1) (wrap 8 i) d
      else nearest_go color r (i + 1) bi bd
  end.
Definition nearest_palette_index (color : rgba) (palette : list rgba) : Z :=
  nearest_go color palette 0 0 (2 ^ 32 - 1).

(** mod.rs 1346-1390.  The inner search (1359-1367) is [nearest_go] with an
    untruncated index. *)
Fixpoint nearest_ix (color : rgba) (palette : list rgba) (i bi bd : Z) : Z :=
  match palette with
  | [] => bi
  | p :: r =>
      let d := perceptual_distance_sq color p in
      if d <? bd then nearest_ix color r (i + 1) i d
      else nearest_ix color r (i + 1) bi bd
  end.
Notation kacc := (Z * Z * Z * Z * Z)%type.
Definition kmeans_add (palette : list rgba) (accs : list kacc) (x : ccount) : res (list kacc) :=
  let bi := nearest_ix (fst x) palette 0 0 (2 ^ 32 - 1) in
  let n := snd x in
  let* a := get accs bi in
  let '(a0, a1, a2, a3, a4) := a in
  Ok (upd accs (Z.to_nat bi)
        (a0 + chan 0 (fst x) * n, a1 + chan 1 (fst x) * n, a2 + chan 2 (fst x) * n,
         a3 + chan 3 (fst x) * n, a4 + n)).
Definition kmeans_update (pa : rgba * kacc) : rgba :=
  let '(p, (a0, a1, a2, a3, a4)) := pa in
  if 0 <? a4 then (wrap 8 (a0 / a4), wrap 8 (a1 / a4), wrap 8 (a2 / a4), wrap 8 (a3 / a4)) else p.
Definition kmeans_step (colors : list ccount) (palette : list rgba) : res (list rgba) :=
  let* accs := fold_res (kmeans_add palette) colors (repeat (0, 0, 0, 0, 0) (length palette)) in
  Ok (map kmeans_update (combine palette accs)).
Definition refine_palette_kmeans (palette : list rgba) (colors : list ccount) : res (list rgba) :=
  match palette, colors with
  | [], _ => Ok palette
  | _, [] => Ok palette
  | _, _ => let* p := kmeans_step colors palette in kmeans_step colors p
  end.

(** mod.rs 1301-1339 *)
Definition median_cut_palette (colors : list ccount) (max_colors : Z) : res (list rgba) :=
  match colors with
  | [] => Ok [(0, 0, 0, 255)]
  | _ =>
      let* boxes := cut_loop (Z.to_nat max_colors) max_colors [colors] in
      refine_palette_kmeans (map make_palette_entry boxes) colors
  end.

(** mod.rs 1455-1499.  The table [opaque_lut] is represented by the function
    that fills it: the entry with index (r6 << 12) | (g6 << 6) | b6, with r6,
    g6, b6 < 64, is computed from r6, g6 and b6 alone, and is only read at
    such an index. *)
Definition expand6 (v : Z) : Z := Z.lor (wrap 8 (Z.shiftl v 2)) (Z.shiftr v 4).
Definition lut_lookup (palette : list rgba) (r g b a : Z) : Z :=
  if a =? 255 then
    nearest_palette_index
      (expand6 (Z.shiftr r 2), expand6 (Z.shiftr g 2), expand6 (Z.shiftr b 2), 255) palette
  else nearest_palette_index (r, g, b, a) palette.

(** f32 operations used by the dithering loop; the theorems hold for any
    operations whose final clamp-and-cast yields a byte. *)
Record fops := mkF {
  fT : Type;
  f_lit : Z -> fT;
  f_add : fT -> fT -> fT;
  f_sub : fT -> fT -> fT;
  f_mul : fT -> fT -> fT;
  f_div : fT -> fT -> fT;
  f_u8 : fT -> Z          (** [.clamp(0.0, 255.0) as u8] *)
}.
(** [v[i] += e * k / 16.0] *)
Definition f_bump (F : fops) (v : list (fT F)) (i : Z) (e : fT F) (k : Z) : res (list (fT F)) :=
  let* x := get v i in
  Ok (upd v (Z.to_nat i) (f_add F x (f_div F (f_mul F e (f_lit F k)) (f_lit F 16)))).
(** mod.rs 1675-1690 for one channel: (err, next_err) *)
Definition diffuse (F : fops) (en : list (fT F) * list (fT F)) (x : Z) (e : fT F)
  : res (list (fT F) * list (fT F)) :=
  let '(err, nxt) := en in
  let* err := f_bump F err (x + 2) e 7 in
  let* nxt := f_bump F nxt x e 3 in
  let* nxt := f_bump F nxt (x + 1) e 5 in
  let* nxt := f_bump F nxt (x + 2) e 1 in
  Ok (err, nxt).
Notation dchan F := (list (fT F) * list (fT F))%type.
(** mod.rs 1662-1664 *)
Definition adjust (F : fops) (en : dchan F) (x v : Z) : res Z :=
  let* e := get (fst en) (x + 1) in
  Ok (f_u8 F (f_add F (f_lit F v) e)).
(** mod.rs 1647-1691: one row; [px] are the remaining pixels of the row *)
Fixpoint dither_row (F : fops) (palette : list rgba) (x : Z) (px : list rgba)
  (dr dg db : dchan F) : res (list Z * dchan F * dchan F * dchan F) :=
  match px with
  | [] => Ok ([], dr, dg, db)
  | (r, g, b, a) :: t =>
      let* ar := adjust F dr x r in
      let* ag := adjust F dg x g in
      let* ab := adjust F db x b in
      let idx := lut_lookup palette ar ag ab a in
      let* p := get palette idx in
      let '(p0, p1, p2, _) := p in
      let* dr := diffuse F dr x (f_sub F (f_lit F ar) (f_lit F p0)) in
      let* dg := diffuse F dg x (f_sub F (f_lit F ag) (f_lit F p1)) in
      let* db := diffuse F db x (f_sub F (f_lit F ab) (f_lit F p2)) in
      let* (is, dr, dg, db) := dither_row F palette (x + 1) t dr dg db in
      Ok (idx :: is, dr, dg, db)
  end.
(** mod.rs 1692-1697: clear and swap *)
Definition next_row (F : fops) (d : dchan F) : dchan F :=
  (snd d, map (fun _ => f_lit F 0) (fst d)).
(** mod.rs 1645-1698 *)
Fixpoint dither_rows (F : fops) (palette : list rgba) (width : Z) (h : nat) (px : list rgba)
  (dr dg db : dchan F) : res (list Z) :=
  match h with
  | O => Ok []
  | S m =>
      let* row := slice_r px 0 width in
      let* (is, dr, dg, db) := dither_row F palette 0 row dr dg db in
      let* rest := dither_rows F palette width m (skipn (Z.to_nat width) px)
                     (next_row F dr) (next_row F dg) (next_row F db) in
      Ok (is ++ rest)
  end.

(** pixels as RGBA, mod.rs 1601-1605 *)
Definition pixels_of (ct : color_type) (data : list Z) : list rgba :=
  match ct with
  | Rgb => map (fun '(r, g, b) => (r, g, b, 255)) (px3 data)
  | _ => px4 data
  end.
(** mod.rs 1526-1538 (= 1720-1740): every [stride]-th pixel *)
Fixpoint sample_fuel {A} (fuel stride : nat) (l : list A) : list A :=
  match fuel, l with
  | S f, x :: _ => x :: sample_fuel f stride (skipn stride l)
  | _, _ => []
  end.
Definition sample {A} (stride : nat) (l : list A) : list A := sample_fuel (length l) stride l.

(** mod.rs 1541-1573: run lengths of the sorted keys *)
Fixpoint runs (stride : Z) (prev count : Z) (keys : list Z) : list ccount :=
  match keys with
  | [] => [(key_color prev, count)]
  | k :: r =>
      if k =? prev then runs stride prev (Z.min (count + stride) (2 ^ 32 - 1)) r
      else (key_color prev, count) :: runs stride k stride r
  end.
Definition histogram (stride : Z) (keys : list Z) : list ccount :=
  match sort_keys keys with
  | [] => []
  | k :: r => runs stride k stride r
  end.

(** mod.rs 1586-1597: (key, index) pairs; the binary search over the pairs
    sorted by key finds the entry with that key, the keys being distinct *)
Fixpoint pal_find (key : Z) (l : list (Z * rgba)) : option Z :=
  match l with
  | [] => None
  | (i, c) :: r => if color_key c =? key then Some (wrap 8 i) else pal_find key r
  end.

(** mod.rs 1505-1701.  [top] is [sort_unstable_by] descending count: any
    permutation of its argument. *)
Definition quantize_image (F : fops) (top : list ccount -> list ccount)
  (data : list Z) (width height : Z) (ct : color_type) (max_colors : Z) (dithering : bool)
  : res (list rgba * list Z) :=
  let bpp := bytes_per_pixel ct in
  if negb (bpp =? 3) && negb (bpp =? 4) then Err EUnsupportedColorType
  else
    let px := pixels_of ct data in
    let total := zlen data / bpp in
    let stride := Z.max (total / 50000) 1 in
    let keys := map color_key (sample (Z.to_nat stride) px) in
    let colors := histogram (wrap 32 stride) keys in
    let colors := if 8192 <? zlen colors then firstn (Z.to_nat 8192) (top colors) else colors in
    if zlen colors <=? max_colors then
      let palette := map fst colors in
      let indices := map (fun c => match pal_find (color_key c) (enum 0 palette) with
                                   | Some i => i
                                   | None => nearest_palette_index c palette
                                   end) px in
      Ok (palette, indices)
    else
      let* palette := median_cut_palette colors max_colors in
      if negb dithering then
        Ok (palette, map (fun '(r, g, b, a) => lut_lookup palette r g b a) px)
      else
        let z := repeat (f_lit F 0) (Z.to_nat (width + 2)) in
        let* is := dither_rows F palette width (Z.to_nat height) px (z, z) (z, z) (z, z) in
        Ok (palette, is).

(** mod.rs 1743-1758 *)
Fixpoint count_unique (threshold count prev : Z) (keys : list Z) : option Z :=
  match keys with
  | [] => Some count
  | k :: r =>
      if k =? prev then count_unique threshold count k r
      else if threshold <? count + 1 then None
      else count_unique threshold (count + 1) k r
  end.
(** mod.rs 1708-1762; the 3-byte key (without the 255) orders and compares
    like the key with a constant alpha *)
Definition should_quantize_auto (data : list Z) (ct : color_type) (max_colors : Z) : bool :=
  let total := zlen data / bytes_per_pixel ct in
  if total =? 0 then false
  else
    let stride := Z.max (total / 20000) 1 in
    let threshold := max_colors * 32 in
    let keys := sort_keys (map color_key (sample (Z.to_nat stride) (pixels_of ct data))) in
    match keys with
    | [] => false
    | k :: r =>
        match count_unique threshold 1 k r with
        | None => false
        | Some u => (max_colors <? u) && (u <=? threshold)
        end
    end.
