(** What is asked of the PNG encoder. *)
From Coq Require Import Permutation.
From Verif Require Import Base ChecksumSpec DeflateSpec PngPaletteModel PngDecModel PngModel PngSpec.

(** the first check that fails, if any *)
Definition rejects (o : options) (len : Z) : option error :=
  let w := o_width o in let h := o_height o in
  if (o_level o <? 1) || (9 <? o_level o) then Some (EInvalidCompressionLevel (o_level o))
  else if (w =? 0) || (h =? 0) then Some (EInvalidDimensions w h)
  else if (2 ^ 24 <? w) || (2 ^ 24 <? h) then Some (EImageTooLarge w h (2 ^ 24))
  else let want := w * h * bytes_per_pixel (o_ct o) in
       if len =? want then None else Some (EInvalidDataLength want len).

(** valid arguments *)
Definition accepted (o : options) (data : list Z) : Prop :=
  1 <= o_level o <= 9 /\ 0 < o_width o <= 2 ^ 24 /\ 0 < o_height o <= 2 ^ 24 /\
  image_ok (o_ct o) data (o_width o * o_height o).

(** The compressors count symbols in u32; the optimal one sums weighted counts. *)
Definition room (o : options) : Z := if o_optimal o then 2 ^ 32 / 3 else 2 ^ 32.
Lemma room_le o : room o <= 2 ^ 32.
Proof. unfold room. destruct (o_optimal o); [|apply Z.le_refl]. intros C. vm_compute in C. discriminate. Qed.
(** what is asked of the compressor that the options select *)
Definition comp_ok (e : env) (o : options) : Prop :=
  forall d, bytes d -> zlen d + 1 < room o -> exists z, compress e o d = Ok z /\ bytes z /\ zlib_stream z d.
(** the unstable sort only reorders *)
Definition env_ok (e : env) (o : options) : Prop :=
  comp_ok e o /\ forall l, Permutation (e_top e l) l.

(** What the counters of the compressor and of the palette ordering hold. *)
Definition small (o : options) : Prop :=
  o_height o * (o_width o * bytes_per_pixel (o_ct o) + 1) + 1 < room o /\
  (o_palette o = true -> 4 * (o_width o * o_height o) < 2 ^ 32).

(** ** The chunks of a file, RFC 2083 sections 4 and 5.6: IHDR, PLTE exactly
    for indexed images, tRNS only with PLTE, IDATs, IEND.  The concatenated
    IDATs are a zlib stream for [h] scanlines, each with a filter byte. *)
Definition samples_per_pixel (ctb : Z) : Z :=
  if ctb =? 2 then 3 else if ctb =? 4 then 2 else if ctb =? 6 then 4 else 1.
Definition legal (ctb depth : Z) : Prop :=
  In (ctb, depth) [(0, 1); (0, 2); (0, 4); (0, 8); (2, 8); (3, 1); (3, 2); (3, 4); (3, 8); (4, 8); (6, 8)].
Definition opt_to_list {A} (o : option A) : list A := match o with Some a => [a] | None => [] end.
Record png_layout (w h depth ctb : Z) (cs : list (list Z * list Z)) : Prop := {
  pl_legal : legal ctb depth;
  pl_wf : Forall wf_chunk cs;
  pl_chunks : exists (pal trns : option (list Z)) (idats : list (list Z)) (scanlines : list Z),
    cs = (T_IHDR, be4 w ++ be4 h ++ [depth; ctb; 0; 0; 0]) ::
         map (pair T_PLTE) (opt_to_list pal) ++ map (pair T_tRNS) (opt_to_list trns) ++
         map (pair T_IDAT) idats ++ [(T_IEND, [])] /\
    (ctb = 3 <-> pal <> None) /\
    (forall p, pal = Some p -> exists n, zlen p = 3 * n /\ 1 <= n <= 2 ^ depth /\ forall t, trns = Some t -> zlen t <= n) /\
    (trns <> None -> pal <> None) /\
    idats <> [] /\ Forall (fun d => d <> []) idats /\
    zlib_stream (concat idats) scanlines /\
    zlen scanlines = h * (1 + (w * samples_per_pixel ctb * depth + 7) / 8) }.
