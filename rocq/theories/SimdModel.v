(** src/simd/x86_64.rs and src/simd/aarch64.rs.  A register is a function from lane
    number to an unsigned lane; the lane width is that of the operation that made it,
    and a use at another width is written as a cast.  A load past the end of its slice
    (undefined behaviour in Rust) is [Panic].  The instructions follow the Intel and Arm
    manuals. *)
From Verif Require Import Base Lz77Model PngFilterModel ChecksumModel DeflateModel JpegBaseModel JpegDecModel JpegDctIntModel.

Definition vec := nat -> Z.
Definition signed (w x : Z) : Z := if x <? 2 ^ (w - 1) then x else x - 2 ^ w.
(** [_mm_loadu_si128], [_mm256_loadu_si256], [vld1q_u8] from offset [off] of a slice *)
Definition vload (n : Z) (data : list Z) (off : Z) : res vec :=
  let* s := slice_r data off (off + n) in Ok (fun i => nth i s 0).
(** [storeu] into a buffer of [n] lanes *)
Definition vstore (n : nat) (v : vec) : list Z := map v (seq 0 n).
(** set1, add, sub, and, or, xor, andnot at lane width [w] *)
Definition vset1 (x : Z) : vec := fun _ => x.
Definition vadd (w : Z) (a b : vec) : vec := fun i => wrap w (a i + b i).
Definition vsub (w : Z) (a b : vec) : vec := fun i => wrap w (a i - b i).
Definition vand (a b : vec) : vec := fun i => Z.land (a i) (b i).
Definition vor (a b : vec) : vec := fun i => Z.lor (a i) (b i).
Definition vxor (a b : vec) : vec := fun i => Z.lxor (a i) (b i).
Definition vandnot (w : Z) (a b : vec) : vec := fun i => Z.land (2 ^ w - 1 - a i) (b i).
(** shifts of each lane by a constant *)
Definition vslli (w k : Z) (a : vec) : vec := fun i => wrap w (Z.shiftl (a i) k).
Definition vsrli (k : Z) (a : vec) : vec := fun i => Z.shiftr (a i) k.
Definition vsrai (w k : Z) (a : vec) : vec := fun i => wrap w (Z.shiftr (signed w (a i)) k).
(** compare: all ones or zero *)
Definition vcmpeq (w : Z) (a b : vec) : vec := fun i => if a i =? b i then 2 ^ w - 1 else 0.
Definition vcmpgt (w : Z) (a b : vec) : vec := fun i => if signed w (a i) >? signed w (b i) then 2 ^ w - 1 else 0.
(** reinterpretation: two lanes of [w] bits as one of [2w], and back (little endian) *)
Definition vjoin (w : Z) (v : vec) : vec := fun i => v (2 * i)%nat + 2 ^ w * v (2 * i + 1)%nat.
Definition vsplit (w : Z) (v : vec) : vec := fun i => if Nat.even i then v (i / 2)%nat mod 2 ^ w else v (i / 2)%nat / 2 ^ w.
(** unpacklo/unpackhi_epi8: each 16-byte half interleaves its low (high) 8 bytes *)
Definition vunpack (hi : nat) (a b : vec) : vec :=
  fun i => let k := (i / 16)%nat in let j := (i mod 16)%nat in (if Nat.even j then a else b) (16 * k + hi + j / 2)%nat.
Definition vunpacklo8 := vunpack 0.
Definition vunpackhi8 := vunpack 8.
(** packus_epi16: each 16-byte half takes 8 lanes of [a], then 8 of [b], saturated *)
Definition sat_u8 (x : Z) : Z := let s := signed 16 x in if s <? 0 then 0 else if s >? 255 then 255 else s.
Definition vpackus16 (a b : vec) : vec :=
  fun i => let k := (i / 16)%nat in let j := (i mod 16)%nat in sat_u8 (if (j <? 8)%nat then a (8 * k + j)%nat else b (8 * k + (j - 8))%nat).
(** sad_epu8: sums of absolute differences of 8 bytes, in 64-bit lanes *)
Definition vsum (f : nat -> Z) (n : nat) : Z := fold_right Z.add 0 (map f (seq 0 n)).
Definition vsad8 (a b : vec) : vec := fun i => vsum (fun j => Z.abs (a (8 * i + j)%nat - b (8 * i + j)%nat)) 8.
(** madd_epi16; hadd_epi32; shuffle_epi32 *)
Definition vmadd16 (a b : vec) : vec :=
  fun i => wrap 32 (signed 16 (a (2 * i)%nat) * signed 16 (b (2 * i)%nat) + signed 16 (a (2 * i + 1)%nat) * signed 16 (b (2 * i + 1)%nat)).
Definition vhadd32 (a b : vec) : vec :=
  fun i => let k := (i / 4)%nat in let j := (i mod 4)%nat in
    let v := if (j <? 2)%nat then a else b in let m := (4 * k + 2 * (j mod 2))%nat in wrap 32 (v m + v (m + 1)%nat).
Definition vshuffle32 (i0 i1 i2 i3 : nat) (v : vec) : vec :=
  fun i => match i with O => v i0 | 1%nat => v i1 | 2%nat => v i2 | _ => v i3 end.
(** movemask_epi8 of [n] bytes *)
Definition vmovemask (n : nat) (v : vec) : Z := vsum (fun i => (v i / 128) * 2 ^ Z.of_nat i) n.

(** ** x86_64.rs 353-426: match length *)
Fixpoint match_vec (isa : Z) (tail : Z -> res Z) (fuel : nat) (data : list Z) (p1 p2 len maxl : Z) : res Z :=
  if negb (len + isa <=? maxl) then tail len else
  match fuel with
  | O => NoFuel
  | S f => let* a := vload isa data (p1 + len) in
           let* b := vload isa data (p2 + len) in
           let mask := vmovemask (Z.to_nat isa) (vcmpeq 8 a b) in
           if negb (mask =? 2 ^ isa - 1) then Ok (len + ctz 32 (2 ^ 32 - 1 - mask))
           else match_vec isa tail f data p1 p2 (len + isa) maxl
  end.
(** 353-395; the word and byte loops are those of the scalar code *)
Definition match_length_sse2 (data : list Z) (p1 p2 maxl : Z) : res Z :=
  match_vec 16 (fun len => match_words (Z.to_nat maxl) data p1 p2 len maxl) (Z.to_nat maxl) data p1 p2 0 maxl.
(** 401-426 *)
Definition match_length_avx2 (data : list Z) (p1 p2 maxl : Z) : res Z :=
  match_vec 32 (fun len => if len <? maxl then let* n := match_length_sse2 data (p1 + len) (p2 + len) (maxl - len) in Ok (len + n) else Ok len)
    (Z.to_nat maxl) data p1 p2 0 maxl.
(** aarch64.rs 114-162: the first zero of the comparison, found by a scan *)
Fixpoint first_zero (l : list Z) (i : Z) : option Z :=
  match l with [] => None | x :: r => if x =? 0 then Some i else first_zero r (i + 1) end.
Fixpoint match_neon (fuel : nat) (data : list Z) (p1 p2 len maxl : Z) : res Z :=
  if negb (len + 16 <=? maxl) then match_words (Z.to_nat maxl) data p1 p2 len maxl else
  match fuel with
  | O => NoFuel
  | S f => let* a := vload 16 data (p1 + len) in
           let* b := vload 16 data (p2 + len) in
           let cmp := vstore 16 (vcmpeq 8 a b) in
           if negb (fold_right Z.min 255 cmp =? 255) then
             match first_zero cmp 0 with Some i => Ok (len + i) | None => match_neon f data p1 p2 (len + 16) maxl end
           else match_neon f data p1 p2 (len + 16) maxl
  end.
Definition match_length_neon (data : list Z) (p1 p2 maxl : Z) : res Z := match_neon (Z.to_nat maxl) data p1 p2 0 maxl.

(** ** Adler-32 *)
(** [chunks_exact(n)] and its remainder *)
Fixpoint chunks_exact (fuel n : nat) (l : list Z) : list (list Z) * list Z :=
  match fuel with
  | O => ([], l)
  | S f => if (length l <? n)%nat then ([], l) else let '(c, r) := chunks_exact f n (skipn n l) in (firstn n l :: c, r)
  end.
Definition u32 (x : Z) : Z := wrap 32 x.
Definition weights (n : Z) : vec := fun i => n - Z.of_nat i.
Definition of_list (l : list Z) : vec := fun i => nth i l 0.
(** bytes times weights, as 32-bit lanes: x86_64.rs 284-291 and 459-466 *)
Definition weigh_x86 (n : Z) (v : vec) : vec :=
  let ext := fun f : vec -> vec -> vec => fun x : vec => vjoin 8 (f x (vset1 0)) in
  vadd 32 (vmadd16 (ext vunpacklo8 v) (ext vunpacklo8 (weights n))) (vmadd16 (ext vunpackhi8 v) (ext vunpackhi8 (weights n))).
(** 449-486: one 32-byte chunk of [adler32_avx2] *)
Definition adler_reduce (s : Z * Z * Z) : Z * Z * Z :=
  let '(s1, s2, p) := s in if p >=? 5552 then (s1 mod MOD_ADLER, s2 mod MOD_ADLER, 0) else s.
Definition adler_chunk_avx2 (s : Z * Z * Z) (chunk : list Z) : Z * Z * Z :=
  let '(s1, s2, p) := s in
  let v := of_list chunk in
  let sad := vsad8 v (vset1 0) in
  let chunk_sum := u32 (sad 0%nat + sad 1%nat + sad 2%nat + sad 3%nat) in
  let sum_prod := weigh_x86 32 v in
  let tmp1 := vhadd32 sum_prod sum_prod in
  let tmp2 := vhadd32 tmp1 tmp1 in
  let weighted_sum := u32 (signed 32 (tmp2 0%nat) + signed 32 (tmp2 4%nat)) in
  let s2 := u32 (s2 + u32 (s1 * 32)) in
  let s2 := u32 (s2 + weighted_sum) in
  adler_reduce (u32 (s1 + chunk_sum), s2, p + 32).
(** 489-498 *)
Definition adler_byte_avx2 (s : Z * Z * Z) (b : Z) : Z * Z * Z :=
  let '(s1, s2, p) := s in let s1 := u32 (s1 + b) in adler_reduce (s1, u32 (s2 + s1), p + 1).
(** 500-503 *)
Definition adler_join (s1 s2 : Z) : Z := Z.lor (wrap 32 (Z.shiftl (s2 mod MOD_ADLER) 16)) (s1 mod MOD_ADLER).
(** 432-504 *)
Definition adler32_avx2 (data : list Z) : Z :=
  let '(cs, rest) := chunks_exact (length data) 32 data in
  let '(s1, s2, _) := fold_left adler_byte_avx2 rest (fold_left adler_chunk_avx2 cs (1, 0, 0)) in adler_join s1 s2.
(** 260-309: the block routine; vector state (vs1, vs2, vs1_total) *)
Definition adler_chunk_ssse3 (s : vec * vec * vec) (chunk : list Z) : vec * vec * vec :=
  let '(vs1, vs2, tot) := s in
  let v := of_list chunk in
  let vs2 := vadd 32 vs2 (vslli 32 4 tot) in
  let sad := vsplit 32 (vsad8 v (vset1 0)) in
  (vadd 32 vs1 sad, vadd 32 vs2 (weigh_x86 16 v), vadd 32 tot sad).
Definition adler_block_ssse3 (data : list Z) (s1 s2 : Z) : res (Z * Z) :=
  let '(vs1, vs2, _) := fold_left adler_chunk_ssse3 (fst (chunks_exact (length data) 16 data)) (vset1 0, vset1 0, vset1 0) in
  let vs1_sum := vadd 32 vs1 (vshuffle32 2 3 0 0 vs1) in
  let* s1 := add_u32 s1 (vs1_sum 0%nat) in
  let vs2_2 := vadd 32 vs2 (vshuffle32 2 3 0 0 vs2) in
  let vs2_sum := vadd 32 vs2_2 (vshuffle32 1 0 0 0 vs2_2) in
  let* s2 := add_u32 s2 (vs2_sum 0%nat) in
  Ok (s1, s2).
(** 228-235 and aarch64.rs 29-35, over the block routine *)
Fixpoint adler_blocks (blk : list Z -> Z -> Z -> res (Z * Z)) (fuel : nat) (data : list Z) (s1 s2 : Z) : res (list Z * Z * Z) :=
  if zlen data <? 5552 then Ok (data, s1, s2) else
  match fuel with
  | O => NoFuel
  | S f => let* (a, b) := blk (firstn (Z.to_nat 5552) data) s1 s2 in
           adler_blocks blk f (skipn (Z.to_nat 5552) data) (a mod MOD_ADLER) (b mod MOD_ADLER)
  end.
(** 218-256 and aarch64.rs 19-56 *)
Definition adler_vec (blk : list Z -> Z -> Z -> res (Z * Z)) (data : list Z) : res Z :=
  let* (rest, s1, s2) := adler_blocks blk (length data) data 1 0 in
  let* (rest, s1, s2) :=
    if zlen rest >=? 16 then
      let n := Z.to_nat (zlen rest / 16 * 16) in
      let* (a, b) := blk (firstn n rest) s1 s2 in Ok (skipn n rest, a mod MOD_ADLER, b mod MOD_ADLER)
    else Ok (rest, s1, s2) in
  let* (s1, s2) := adler_inner rest s1 s2 in
  Ok (adler_join s1 s2).
Definition adler32_ssse3 : list Z -> res Z := adler_vec adler_block_ssse3.
(** aarch64.rs 68-107: [vpaddlq] adds neighbouring lanes into lanes of twice the width;
    [vmull_u8], [vaddq_u16] *)
Definition vpaddl (v : vec) : vec := fun i => v (2 * i)%nat + v (2 * i + 1)%nat.
Definition adler_chunk_neon (s : Z * Z) (chunk : list Z) : Z * Z :=
  let '(s1, s2) := s in
  let v := of_list chunk in
  let s2 := u32 (s2 + u32 (s1 * 16)) in
  let sum := vpaddl (vpaddl (vpaddl v)) in
  let chunk_sum := u32 (sum 0%nat + sum 1%nat) in
  let prod_lo : vec := fun i => v i * weights 16 i in
  let prod_hi : vec := fun i => v (8 + i)%nat * weights 16 (8 + i)%nat in
  let prod := vpaddl (vpaddl (vadd 16 prod_lo prod_hi)) in
  let weighted_sum := u32 (prod 0%nat + prod 1%nat) in
  (u32 (s1 + chunk_sum), u32 (s2 + weighted_sum)).
Definition adler_block_neon (data : list Z) (s1 s2 : Z) : res (Z * Z) :=
  Ok (fold_left adler_chunk_neon (fst (chunks_exact (length data) 16 data)) (s1, s2)).
Definition adler32_neon : list Z -> res Z := adler_vec adler_block_neon.

(** ** Filter scores *)
Definition score_byte (b : Z) : Z := if b <? 128 then b else 256 - b.
(** x86_64.rs 510-562: two 64-bit lanes *)
Definition vscore (v : vec) : vec := vsad8 (vxor v (vset1 128)) (vset1 128).
Definition score_filter_sse2 (f : list Z) : Z :=
  let '(cs, rest) := chunks_exact (length f) 16 f in
  let sum := fold_left (fun acc c => vadd 64 acc (vscore (of_list c))) cs (vset1 0) in
  fold_left (fun s b => s + score_byte b) rest (wrap 64 (sum 0%nat + sum 1%nat)).
(** 569-594: four *)
Definition score_filter_avx2 (f : list Z) : Z :=
  let '(cs, rest) := chunks_exact (length f) 32 f in
  let sum := fold_left (fun acc c => vadd 64 acc (vscore (of_list c))) cs (vset1 0) in
  fold_left (fun s b => s + score_byte b) rest (sum 0%nat + sum 1%nat + sum 2%nat + sum 3%nat).
(** aarch64.rs 169-202; [vabsq_s8] maps -128 to itself, 128 as u8 *)
Definition vabs8 (v : vec) : vec := fun i => wrap 8 (Z.abs (signed 8 (v i))).
Definition score_filter_neon (f : list Z) : Z :=
  let '(cs, rest) := chunks_exact (length f) 16 f in
  let sum := fold_left (fun acc c => let s := vpaddl (vpaddl (vpaddl (vabs8 (of_list c)))) in acc + (s 0%nat + s 1%nat)) cs 0 in
  fold_left (fun s b => s + score_byte b) rest sum.

(** ** Filters: [n] bytes at a time, then one by one *)
Fixpoint tail_loop (fuel : nat) (one : Z -> res Z) (i len : Z) : res (list Z) :=
  if negb (i <? len) then Ok [] else
  match fuel with
  | O => NoFuel
  | S f => let* x := one i in let* r := tail_loop f one (i + 1) len in Ok (x :: r)
  end.
Fixpoint vec_loop (fuel : nat) (n : Z) (blk : Z -> res (list Z)) (one : Z -> res Z) (i len : Z) : res (list Z) :=
  if negb (i + n <=? len) then tail_loop (Z.to_nat len) one i len else
  match fuel with
  | O => NoFuel
  | S f => let* b := blk i in let* r := vec_loop f n blk one (i + n) len in Ok (b ++ r)
  end.
(** difference of [n] bytes: sub_epi8 and store *)
Definition vdiff (n : Z) (a b : vec) : list Z := vstore (Z.to_nat n) (vsub 8 a b).
(** x86_64.rs 601-636: [row[..bpp]] panics on a shorter row *)
Definition sub_body (n : Z) (row : list Z) (bpp : Z) : res (list Z) :=
  let remaining := slice row bpp (zlen row) in
  let left := slice row 0 (zlen row - bpp) in
  vec_loop (length row) n
    (fun i => let* curr := vload n remaining i in let* prev := vload n left i in Ok (vdiff n curr prev))
    (fun i => let* c := get remaining i in let* l := get left i in Ok (wrap 8 (c - l))) 0 (zlen remaining).
Definition filter_sub_sse2 (row : list Z) (bpp : Z) : res (list Z) :=
  let* first := slice_r row 0 bpp in
  let* rest := sub_body 16 row bpp in Ok (first ++ rest).
(** 670-702; aarch64.rs 209-245 *)
Definition filter_sub_vec (n : Z) (row : list Z) (bpp : Z) : res (list Z) :=
  let* first := slice_r row 0 (Z.min bpp (zlen row)) in
  if zlen row <=? bpp then Ok first else let* rest := sub_body n row bpp in Ok (first ++ rest).
Definition filter_sub_avx2 := filter_sub_vec 32.
Definition filter_sub_neon := filter_sub_vec 16.
(** 642-664, 942-963; aarch64.rs 252-275 *)
Definition filter_up_vec (n : Z) (row prev : list Z) : res (list Z) :=
  vec_loop (length row) n
    (fun i => let* curr := vload n row i in let* above := vload n prev i in Ok (vdiff n curr above))
    (fun i => let* c := get row i in let* a := get prev i in Ok (wrap 8 (c - a))) 0 (zlen row).
Definition filter_up_sse2 := filter_up_vec 16.
Definition filter_up_avx2 := filter_up_vec 32.
Definition filter_up_neon := filter_up_vec 16.
(** 992-999: the average through 16-bit lanes *)
Definition vavg_avx2 (l a : vec) : vec :=
  let ext := fun f : vec -> vec -> vec => fun x : vec => vjoin 8 (f x (vset1 0)) in
  vpackus16 (vsrli 1 (vadd 16 (ext vunpacklo8 l) (ext vunpacklo8 a))) (vsrli 1 (vadd 16 (ext vunpackhi8 l) (ext vunpackhi8 a))).
(** aarch64.rs 307: [vhaddq_u8] *)
Definition vhadd8 (l a : vec) : vec := fun i => Z.shiftr (l i + a i) 1.
(** 969-1017; aarch64.rs 282-325 *)
Definition filter_average_vec (n : Z) (avg : vec -> vec -> vec) (row prev : list Z) (bpp : Z) : res (list Z) :=
  let* first := tail_loop (length row) (fun i => let* a := get prev i in let* c := get row i in Ok (wrap 8 (c - wrap 8 ((0 + a) / 2)))) 0 (Z.min bpp (zlen row)) in
  if zlen row <=? bpp then Ok first else
  let* rest := vec_loop (length row) n
    (fun i => let* curr := vload n row i in let* above := vload n prev i in let* lft := vload n row (i - bpp) in Ok (vdiff n curr (avg lft above)))
    (fun i => let* l := get row (i - bpp) in let* a := get prev i in let* c := get row i in Ok (wrap 8 (c - wrap 8 ((l + a) / 2)))) bpp (zlen row) in
  Ok (first ++ rest).
Definition filter_average_avx2 := filter_average_vec 32 vavg_avx2.
Definition filter_average_neon := filter_average_vec 16 vhadd8.
(** 705-709; [_mm256_abs_epi16], [vabsq_s16] *)
Definition vabs16_sse2 (v : vec) : vec := let sign := vsrai 16 15 v in vsub 16 (vxor v sign) sign.
Definition vabs16 (v : vec) : vec := fun i => wrap 16 (Z.abs (signed 16 (v i))).
(** 723-770 on one half of the lanes; 865-916 is the same with [_mm256_abs_epi16] *)
Definition vpaeth16 (abs16 : vec -> vec) (a b c : vec) : vec :=
  let ones := vset1 (2 ^ 16 - 1) in
  let p := vsub 16 (vadd 16 a b) c in
  let pa := abs16 (vsub 16 p a) in let pb := abs16 (vsub 16 p b) in let pc := abs16 (vsub 16 p c) in
  let pa_le_pb := vandnot 16 (vcmpgt 16 pa pb) ones in
  let pa_le_pc := vandnot 16 (vcmpgt 16 pa pc) ones in
  let mask_a := vand pa_le_pb pa_le_pc in
  let pb_le_pc := vandnot 16 (vcmpgt 16 pb pc) ones in
  let mask_b := vandnot 16 mask_a pb_le_pc in
  let mask_c := vandnot 16 (vor mask_a mask_b) ones in
  vor (vor (vand mask_a a) (vand mask_b b)) (vand mask_c c).
Definition vpaeth_x86 (abs16 : vec -> vec) (l a u : vec) : vec :=
  let ext := fun f : vec -> vec -> vec => fun x : vec => vjoin 8 (f x (vset1 0)) in
  vpackus16 (vpaeth16 abs16 (ext vunpacklo8 l) (ext vunpacklo8 a) (ext vunpacklo8 u))
            (vpaeth16 abs16 (ext vunpackhi8 l) (ext vunpackhi8 a) (ext vunpackhi8 u)).
(** aarch64.rs 385-448: [vmovl_u8], [vcleq_s16], [vmvnq_u16], [vmovn_u16] *)
Definition vcle16 (a b : vec) : vec := fun i => if signed 16 (a i) <=? signed 16 (b i) then 2 ^ 16 - 1 else 0.
Definition vmvn16 (a : vec) : vec := fun i => 2 ^ 16 - 1 - a i.
Definition vpaeth16_neon (a b c : vec) : vec :=
  let p := vsub 16 (vadd 16 a b) c in
  let pa := vabs16 (vsub 16 p a) in let pb := vabs16 (vsub 16 p b) in let pc := vabs16 (vsub 16 p c) in
  let mask_a := vand (vcle16 pa pb) (vcle16 pa pc) in
  let mask_b := vand (vmvn16 mask_a) (vcle16 pb pc) in
  vor (vor (vand a mask_a) (vand b mask_b)) (vand c (vmvn16 (vor mask_a mask_b))).
Definition vpaeth_neon (l a u : vec) : vec :=
  let hi := fun x : vec => fun i => x (8 + i)%nat in
  let r_lo := vpaeth16_neon l a u in let r_hi := vpaeth16_neon (hi l) (hi a) (hi u) in
  fun i => wrap 8 (if (i <? 8)%nat then r_lo i else r_hi (i - 8)%nat).
(** 781-822, 830-936; aarch64.rs 335-380 *)
Definition filter_paeth_vec (n : Z) (predict : vec -> vec -> vec -> vec) (first_one : Z -> Z) (row prev : list Z) (bpp : Z) : res (list Z) :=
  let* first := tail_loop (length row) (fun i => let* a := get prev i in let* c := get row i in Ok (wrap 8 (c - first_one a))) 0 (Z.min bpp (zlen row)) in
  if zlen row <=? bpp then Ok first else
  let* rest := vec_loop (length row) n
    (fun i => let* curr := vload n row i in let* lft := vload n row (i - bpp) in let* above := vload n prev i in let* ul := vload n prev (i - bpp) in
              Ok (vdiff n curr (predict lft above ul)))
    (fun i => let* l := get row (i - bpp) in let* a := get prev i in let* u := get prev (i - bpp) in let* c := get row i in
              Ok (wrap 8 (c - paeth_predictor l a u))) bpp (zlen row) in
  Ok (first ++ rest).
Definition filter_paeth_sse2 := filter_paeth_vec 16 (vpaeth_x86 vabs16_sse2) (fun a => paeth_predictor 0 a 0).
Definition filter_paeth_avx2 := filter_paeth_vec 32 (vpaeth_x86 vabs16) (fun a => paeth_predictor 0 a 0).
Definition filter_paeth_neon := filter_paeth_vec 16 vpaeth_neon (fun a => a).

(** ** CRC-32 with carry-less multiplication: 31-178.  Registers are 128-bit integers. *)
Definition clmul (a b : Z) : Z := fold_right Z.lxor 0 (map (fun i => if Z.testbit b i then Z.shiftl a i else 0) (idxs 64)).
Definition lo64 (x : Z) : Z := x mod 2 ^ 64.
Definition hi64 (x : Z) : Z := x / 2 ^ 64.
(** 128-136; [crc32_constants] 11-22 *)
Definition fold_16 (k1 k2 acc data : Z) : Z := Z.lxor (Z.lxor (clmul (lo64 acc) k1) (clmul (hi64 acc) k2)) data.
(** 145-178 *)
Definition reduce_128_to_32 (x : Z) : Z :=
  let k5 := 0x163cd6124 in let k6 := 0x1db710640 in let mu := 0x1f7011641 in let poly := 0x1db710641 in
  let mask32 := fun v => Z.land v (2 ^ 32 - 1) in
  let t0 := clmul (hi64 x) k5 in
  let crc := Z.lxor t0 x in
  let t1 := clmul (mask32 crc) k6 in
  let crc := Z.lxor (Z.shiftr crc 32) t1 in
  let t2 := clmul (mask32 crc) mu in
  let t3 := clmul (mask32 (Z.shiftr t2 32)) poly in
  mask32 (Z.lxor crc t3).
Definition load128 (data : list Z) (off : nat) : Z := le_val (firstn 16 (skipn off data)).
(** 69-91 and 103-108 *)
Fixpoint crc_fold4 (fuel : nat) (x : Z * Z * Z * Z) (data : list Z) : (Z * Z * Z * Z) * list Z :=
  if zlen data <? 64 then (x, data) else
  match fuel with
  | O => (x, data)
  | S f => let '(x0, x1, x2, x3) := x in let fo := fold_16 0x154442bd4 0x1c6e41596 in
           crc_fold4 f (fo x0 (load128 data 0), fo x1 (load128 data 16), fo x2 (load128 data 32), fo x3 (load128 data 48)) (skipn 64 data)
  end.
Fixpoint crc_fold1 (fuel : nat) (x : Z) (data : list Z) : Z * list Z :=
  if zlen data <? 16 then (x, data) else
  match fuel with
  | O => (x, data)
  | S f => crc_fold1 f (fold_16 0x1751997d0 0x0ccaa009e x (load128 data 0)) (skipn 16 data)
  end.
(** 31-119; [align] is what [align_offset(16)] of the data pointer returns *)
Definition crc32_pclmulqdq (align : Z) (data : list Z) : Z :=
  if zlen data <? 64 then crc32_bytewise data else
  let ok := (align >? 0) && (align <=? zlen data) in
  let crc := if ok then fold_left crc_step1 (firstn (Z.to_nat align) data) crc_new else crc_new in
  let rest := if ok then skipn (Z.to_nat align) data else data in
  let '(crc, rest) :=
    if zlen rest >=? 64 then
      let x := (Z.lxor (load128 rest 0) crc, load128 rest 16, load128 rest 32, load128 rest 48) in
      let '((x0, x1, x2, x3), rest) := crc_fold4 (length rest) x (skipn 64 rest) in
      let fo := fold_16 0x1751997d0 0x0ccaa009e in
      let x0 := fo x0 x1 in let x0 := fo x0 x2 in let x0 := fo x0 x3 in
      let '(x0, rest) := crc_fold1 (length rest) x0 rest in
      (reduce_128_to_32 x0, rest)
    else (crc, rest) in
  crc_finalize (fold_left crc_step1 rest crc).

(** ** The AVX2 integer transform: 1053-1317 *)
(** [avx2_fix_mul], 1263-1317.  [_mm_mul_epi32]: lanes 0 and 2 of 4, signed, 64 bits.
    [sra_epi64_const13]: 1250-1259.  [_mm_shuffle_ps a b 0b10_00_10_00] takes lanes 0, 2
    of each operand, here the low halves of the 64-bit lanes. *)
Definition mul_epi32 (a b : vec) : vec := fun i => wrap 64 (signed 32 (a (2 * i)%nat) * signed 32 (b (2 * i)%nat)).
Definition sra13 (v : vec) : vec := fun i => wrap 64 (Z.shiftr (signed 64 (v i)) 13).
Definition shuffle_ps_2020 (a b : vec) : vec :=
  fun i => match i with O => a 0%nat | 1%nat => a 2%nat | 2%nat => b 0%nat | _ => b 2%nat end.
Definition fix_mul_half (a b : vec) : vec :=
  let s0 := vsplit 32 (sra13 (mul_epi32 a b)) in
  let s1 := vsplit 32 (sra13 (mul_epi32 (vshuffle32 1 1 3 3 a) (vshuffle32 1 1 3 3 b))) in
  vshuffle32 0 2 1 3 (shuffle_ps_2020 s0 s1).
Definition avx2_fix_mul (a b : vec) : vec :=
  let hi := fun x : vec => fun i => x (4 + i)%nat in
  fun i => if (i <? 4)%nat then fix_mul_half a b i else fix_mul_half (hi a) (hi b) (i - 4)%nat.
(** 1132-1244 *)
Definition dct_columns_avx2 (r0 r1 r2 r3 r4 r5 r6 r7 : vec) : list vec :=
  let add := vadd 32 in let sub := vsub 32 in let fm := fun x c => avx2_fix_mul x (vset1 (wrap 32 c)) in
  let fin := fun x => vsrai 32 5 (add x (vset1 16)) in
  let t0 := add r0 r7 in let t1 := add r1 r6 in let t2 := add r2 r5 in let t3 := add r3 r4 in
  let t10 := add t0 t3 in let t12 := sub t0 t3 in let t11 := add t1 t2 in let t13 := sub t1 t2 in
  let u0 := sub r0 r7 in let u1 := sub r1 r6 in let u2 := sub r2 r5 in let u3 := sub r3 r4 in
  let out0 := fin (add t10 t11) in
  let out4 := fin (sub t10 t11) in
  let z1 := fm (add t12 t13) 4433 in
  let out2 := fin (add z1 (fm t12 6270)) in
  let out6 := fin (sub z1 (fm t13 15137)) in
  let o10 := add u0 u3 in let o11 := add u1 u2 in let o12 := add u0 u2 in let o13 := add u1 u3 in
  let z1 := fm (add o12 o13) 9633 in
  let m0 := fm u0 12299 in let m1 := fm u1 25172 in let m2 := fm u2 16819 in let m3 := fm u3 2446 in
  let m10 := fm o10 (-7373) in let m11 := fm o11 (-20995) in
  let m12 := add (fm o12 (-3196)) z1 in let m13 := add (fm o13 (-16069)) z1 in
  let out1 := fin (add (add m0 m10) m12) in
  let out3 := fin (add (add m1 m11) m13) in
  let out5 := fin (add (add m2 m11) m12) in
  let out7 := fin (add (add m3 m10) m13) in
  [out0; out1; out2; out3; out4; out5; out6; out7].
(** 1053-1123: the row pass is the scalar code *)
Definition dct_2d_avx2 (block : list Z) : res (list Z) :=
  let* rows := map_res (fun r => let* o := fdct_line (map (fun i => znth block (8 * r + i)) (idxs 8)) in Ok (pass1_scale o)) (idxs 8) in
  let row := fun k : nat => fun i : nat => wrap 32 (nth i (nth k rows []) 0) in
  Ok (map (signed 32) (flat_map (vstore 8) (dct_columns_avx2 (row 0%nat) (row 1%nat) (row 2%nat) (row 3%nat) (row 4%nat) (row 5%nat) (row 6%nat) (row 7%nat)))).
(** ** The NEON integer transform: dct.rs 200-260.  [vgetq_lane_s32] reads a lane as i32. *)
(** dct.rs 285-324 and 361-403: the scalar arithmetic after the first butterflies; plain
    [+] and [-] overflow like the scalar code *)
Definition fdct_tail (t0 t1 t2 t3 u0 u1 u2 u3 : Z) : res (list Z) :=
  let* t10 := add32 t0 t3 in let* t11 := add32 t1 t2 in let* t12 := sub32 t0 t3 in let* t13 := sub32 t1 t2 in
  let* o0 := add32 t10 t11 in
  let* o4 := sub32 t10 t11 in
  let* s := add32 t12 t13 in
  let z1 := fix_mul s 4433 in
  let* o2 := add32 z1 (fix_mul t12 6270) in
  let* o6 := sub32 z1 (fix_mul t13 15137) in
  let* t10 := add32 u0 u3 in let* t11 := add32 u1 u2 in let* t12 := add32 u0 u2 in let* t13 := add32 u1 u3 in
  let* s := add32 t12 t13 in
  let z1 := fix_mul s 9633 in
  let m0 := fix_mul u0 12299 in let m1 := fix_mul u1 25172 in let m2 := fix_mul u2 16819 in let m3 := fix_mul u3 2446 in
  let t10 := fix_mul t10 (-7373) in let t11 := fix_mul t11 (-20995) in
  let* t12 := add32 (fix_mul t12 (-3196)) z1 in
  let* t13 := add32 (fix_mul t13 (-16069)) z1 in
  let* a := add32 m0 t10 in let* o1 := add32 a t12 in
  let* a := add32 m1 t11 in let* o3 := add32 a t13 in
  let* a := add32 m2 t11 in let* o5 := add32 a t12 in
  let* a := add32 m3 t10 in let* o7 := add32 a t13 in
  Ok [o0; o1; o2; o3; o4; o5; o6; o7].
(** 270-283 and 346-359: [vrev64q_s32], [vextq_s32 _ _ 2], [vaddq_s32], [vsubq_s32] *)
Definition vrev64 (v : vec) : vec := vshuffle32 1 0 3 2 v.
Definition vext2 (v : vec) : vec := vshuffle32 2 3 0 1 v.
Definition fdct_neon (lo hi : vec) : res (list Z) :=
  let hi_rev := vext2 (vrev64 hi) in
  let s := fun i => signed 32 (vadd 32 lo hi_rev i) in
  let d := fun i => signed 32 (vsub 32 lo hi_rev i) in
  fdct_tail (s 0%nat) (s 1%nat) (s 2%nat) (s 3%nat) (d 0%nat) (d 1%nat) (d 2%nat) (d 3%nat).
(** 418-527: 4x4 blocks by [vtrn1q]/[vtrn2q] of 32 and 64 bits *)
Definition trn1_32 (a b : vec) : vec := fun i => match i with O => a 0%nat | 1%nat => b 0%nat | 2%nat => a 2%nat | _ => b 2%nat end.
Definition trn2_32 (a b : vec) : vec := fun i => match i with O => a 1%nat | 1%nat => b 1%nat | 2%nat => a 3%nat | _ => b 3%nat end.
Definition trn1_64 (a b : vec) : vec := fun i => match i with O => a 0%nat | 1%nat => a 1%nat | 2%nat => b 0%nat | _ => b 1%nat end.
Definition trn2_64 (a b : vec) : vec := fun i => match i with O => a 2%nat | 1%nat => a 3%nat | 2%nat => b 2%nat | _ => b 3%nat end.
Definition transpose4 (r0 r1 r2 r3 : vec) : list vec :=
  let x0 := trn1_32 r0 r1 in let x1 := trn2_32 r0 r1 in let x2 := trn1_32 r2 r3 in let x3 := trn2_32 r2 r3 in
  [trn1_64 x0 x2; trn1_64 x1 x3; trn2_64 x0 x2; trn2_64 x1 x3].
Definition vnil : vec := fun _ => 0.
Definition transpose8 (lo hi : list vec) : list (vec * vec) :=
  let q := fun (m : list vec) (k : nat) => transpose4 (nth k m vnil) (nth (k + 1) m vnil) (nth (k + 2) m vnil) (nth (k + 3) m vnil) in
  combine (q lo 0%nat) (q lo 4%nat) ++ combine (q hi 0%nat) (q hi 4%nat).
(** 207-260 *)
Definition lanes4 (l : list Z) (k : nat) : vec := fun i => wrap 32 (nth (k + i) l 0).
Definition dct_2d_neon (block : list Z) : res (list Z) :=
  let* rows := map_res (fun r => let row := map (fun i => znth block (8 * r + i)) (idxs 8) in
                                 let* o := fdct_neon (lanes4 row 0) (lanes4 row 4) in Ok (pass1_scale o)) (idxs 8) in
  let* cols := map_res (fun c : vec * vec => let* o := fdct_neon (fst c) (snd c) in pass2_scale o)
                 (transpose8 (map (fun r => lanes4 r 0) rows) (map (fun r => lanes4 r 4) rows)) in
  Ok (flat_map (fun r => map (fun col => znth col r) cols) (idxs 8)).

(** ** simd/mod.rs 31-236: what each machine runs *)
Inductive isa : Type := Avx2 | Ssse3 | Sse2 | Scalar | Neon.
(** 72-90 *)
Definition simd_adler32 (m : isa) (data : list Z) : res Z :=
  match m with
  | Avx2 => Ok (adler32_avx2 data) | Ssse3 | Sse2 => adler32_ssse3 data
  | Scalar => adler32_checked data | Neon => adler32_neon data
  end.
(** 113-132 *)
Definition simd_match_length (m : isa) : list Z -> Z -> Z -> Z -> res Z :=
  match m with
  | Avx2 => match_length_avx2 | Ssse3 | Sse2 => match_length_sse2
  | Scalar => match_length_scalar | Neon => match_length_neon
  end.
(** 136-155 *)
Definition simd_score_filter (m : isa) : list Z -> Z :=
  match m with Avx2 => score_filter_avx2 | Ssse3 | Sse2 => score_filter_sse2 | Scalar => score_filter | Neon => score_filter_neon end.
(** 159-178 *)
Definition simd_filter_sub (m : isa) : list Z -> Z -> res (list Z) :=
  match m with Avx2 => filter_sub_avx2 | Ssse3 | Sse2 => filter_sub_sse2 | Scalar => filter_sub | Neon => filter_sub_neon end.
(** 182-201 *)
Definition simd_filter_up (m : isa) : list Z -> list Z -> res (list Z) :=
  match m with Avx2 => filter_up_avx2 | Ssse3 | Sse2 => filter_up_sse2 | Scalar => filter_up | Neon => filter_up_neon end.
(** 205-223 *)
Definition simd_filter_average (m : isa) : list Z -> list Z -> Z -> res (list Z) :=
  match m with Avx2 => filter_average_avx2 | Ssse3 | Sse2 | Scalar => filter_average | Neon => filter_average_neon end.
(** 227-236 *)
Definition simd_filter_paeth (m : isa) : list Z -> list Z -> Z -> res (list Z) :=
  match m with Neon => filter_paeth_neon | _ => filter_paeth end.
(** dct.rs 535-568 *)
Definition simd_dct_2d_fast (m : isa) (block : list Z) : res (list Z) :=
  if forallb (fun x => x =? znth block 0) (skipn 1 block) then let* dc := i32 (znth block 0 * 8) in Ok (dc :: repeat 0 63)
  else match m with Avx2 => dct_2d_avx2 block | Neon => dct_2d_neon block | _ => dct_2d_integer block end.
(** deflate.rs 956-969 ([zlib_wrap]) with the checksum of compress/adler32.rs 11-21, which
    is [simd::adler32] when the [simd] feature is on *)
Definition zlib_wrap_on (m : isa) (level : Z) (data deflated : list Z) : res (list Z) :=
  let* a := simd_adler32 m data in
  Ok (zlib_header level ++ (if should_use_stored (zlen data) (zlen deflated) then deflate_stored data else deflated) ++ be32 a).
(** simd/mod.rs 98-109; [align] as in [crc32_pclmulqdq] *)
Definition simd_crc32 (pclmul : bool) (align : Z) (data : list Z) : Z :=
  if pclmul then crc32_pclmulqdq align data else crc32_bytewise data.
