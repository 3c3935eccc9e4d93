(** Sizes: compressed data and PNG files are hardly larger than what they hold (C81); decoded
    data is bounded by the file (C82), the memory reserved for it is not (C83). *)
From Coq Require Import Permutation.
From Verif Require Import Base InflateModel Lz77Model HuffModel DeflateModel DeflateTop LzOptModel LzOptTop PngFilterModel PngPaletteModel PngModel PngDecModel PngSpec PngEncSpec CliSpec SizeSpec SizeProofs PropDeflate PropCli.
Open Scope Z_scope.

(** C81: the zlib entry points write at most what stored blocks would take. *)
Theorem zlib_hardly_expands : forall H E p data level z p', deflate_zlib H E p data level = Ok (z, p') -> zlen z <= zlib_bound (zlen data).
Proof. exact zlib_len. Qed.
Print Assumptions zlib_hardly_expands.
Theorem zlib_packed_hardly_expands : forall H p data level z p', deflate_zlib_packed H p data level = Ok (z, p') -> zlen z <= zlib_bound (zlen data).
Proof. exact zlib_packed_len. Qed.
Print Assumptions zlib_packed_hardly_expands.
Theorem zlib_optimal_hardly_expands : forall H E log2 data iterations z, deflate_optimal_zlib H E log2 data iterations = Ok z -> zlen z <= zlib_bound (zlen data).
Proof. exact zlib_optimal_len. Qed.
Print Assumptions zlib_optimal_hardly_expands.
(** C81: a PNG file takes at most an eight-thousandth and 1200 bytes more than its rows with
    one filter byte each, whatever the options (also with colour quantisation). *)
Theorem png_hardly_expands : forall e data o f, pixo_compressors e -> accepted o data -> 4 * (o_width o * o_height o) < 2 ^ 32 -> 0 <= o_max_colors o ->
  (forall l, Permutation (e_top e l) l) ->
  encode e data o = Ok f -> zlen f <= png_bound (o_height o * (o_width o * bytes_per_pixel (o_ct o) + 1)).
Proof. exact png_len. Qed.
Print Assumptions png_hardly_expands.
Theorem png_indexed_hardly_expands : forall e output data w h pal trns o f, pixo_compressors e -> 0 < w -> 0 < h -> bytes data ->
  encode_indexed_into e output data w h pal trns o = (f, Ok tt) -> zlen f <= png_bound (h * (w + 1)).
Proof. exact (fun e output data w h pal trns o f C Hw Hh B E => indexed_into_len e output data w h pal trns o f _ C Hw Hh B (Z.le_refl _) E). Qed.
Print Assumptions png_indexed_hardly_expands.
(** a picture of 2 by 1 pixels whose file has 72 bytes; six bytes that become 14 *)
Definition size_options : options := mkOpts 2 1 Rgb 6 SNone false false false false false QOff 256 false.
Example png_size_case : pixo_compressors ex_env /\ accepted size_options [1; 2; 3; 40; 50; 60] /\
  match encode ex_env [1; 2; 3; 40; 50; 60] size_options with Ok f => zlen f = 72 | _ => False end /\ png_bound (1 * (2 * 3 + 1)) = 1207.
Proof.
  split; [apply cli_case|]. split; [split; [cbn; lia|]; split; [cbn; lia|]; split; [cbn; lia|]; split; [cbn; lia|]; split; [apply bytes_of_check; reflexivity|reflexivity]|].
  split; [vm_compute; reflexivity|reflexivity].
Qed.
Example zlib_size_case : match deflate_zlib_packed list_heap pool_init [1; 2; 3; 40; 50; 60] 6 with Ok (z, _) => zlen z = 14 | _ => False end /\ zlib_bound 6 = 17 /\ zlib_bound 1000000 = 1000086.
Proof. split; [vm_compute; reflexivity|]. split; reflexivity. Qed.

(** C82: no data, conforming or not, stands for more than 1032 times its size. *)
Theorem inflate_bounded : forall data out, bytes data -> inflate data = Ok out -> zlen out <= 1032 * zlen data.
Proof. exact inflate_cost. Qed.
Print Assumptions inflate_bounded.
Theorem inflate_zlib_bounded : forall data expected out, bytes data -> inflate_zlib data expected = Ok out -> zlen out <= 1032 * (zlen data - 6).
Proof. exact inflate_zlib_cost. Qed.
Print Assumptions inflate_zlib_bounded.
(** C82: a PNG file decodes to at most 33024 times its size (samples of 1 bit through a
    palette with transparency become 32 bits). *)
Theorem png_decoded_bounded : forall file im, bytes file -> decode_png file = Ok im ->
  im_width im * im_height im * bytes_per_pixel (im_ct im) <= 33024 * zlen file.
Proof. exact decode_png_cost. Qed.
Print Assumptions png_decoded_bounded.
(** 259 equal bytes, of 6 *)
Example inflate_size_case : match inflate [75; 76; 28; 241; 0; 0] with Ok out => out = repeat 97 259 | _ => False end.
Proof. vm_compute. reflexivity. Qed.

(** C83: for a file that decodes, the memory reserved beforehand is at most 1032 times the
    size of the file.  Missing: files that turn out to be bad. *)
Theorem png_reserves_partial : forall file im n, bytes file -> decode_png file = Ok im -> png_reserves file = Some n -> n <= 1032 * zlen file.
Proof. exact reserves_cost. Qed.
Print Assumptions png_reserves_partial.
Example png_reserves_case : match encode ex_env [1; 2; 3; 40; 50; 60] size_options with Ok f => png_reserves f = Some 7 | _ => False end.
Proof. vm_compute. reflexivity. Qed.
(** C83, refuted: the decoder reserves memory for the size the header announces before it
    looks at the compressed data.  The file below has 63 bytes, and more than 2^51 bytes are
    asked for. *)
Definition bomb : list Z :=
  [137; 80; 78; 71; 13; 10; 26; 10; 0; 0; 0; 13; 73; 72; 68; 82; 1; 0; 0; 0; 1; 0; 0; 0; 16; 6; 0; 0; 0; 161; 246; 109; 151;
   0; 0; 0; 6; 73; 68; 65; 84; 120; 156; 3; 0; 0; 0; 209; 196; 243; 147; 0; 0; 0; 0; 73; 69; 78; 68; 174; 66; 96; 130].
Theorem png_reserves_refuted : exists file n, bytes file /\ zlen file = 63 /\ png_reserves file = Some n /\ 2 ^ 51 <= n /\ exists er, decode_png file = Err er.
Proof.
  exists bomb, (2 ^ 24 * (2 ^ 24 * 8 + 1)). split; [apply bytes_of_check; reflexivity|]. split; [reflexivity|]. split; [vm_compute; reflexivity|].
  split; [vm_compute; discriminate|]. eexists. vm_compute. reflexivity.
Qed.
Print Assumptions png_reserves_refuted.
