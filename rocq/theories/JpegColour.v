(** The decoder's colour conversion: against the JFIF formulas, and after the encoder's. *)
From Verif Require Import Base PngFilterModel JpegBaseModel JpegBaseProofs JpegDecModel.

(** millionths, limited to the range of a byte *)
Definition lim (x : Z) : Z := Z.max 0 (Z.min 255000000 x).

Lemma clamp_mm x : clamp x 0 255 = Z.max 0 (Z.min 255 x).
Proof. unfold clamp. destruct (Z.ltb_spec x 0); [lia|]. rewrite Z.gtb_ltb. destruct (Z.ltb_spec 255 x); lia. Qed.
Lemma clamp_near a e d : 0 <= d -> Z.abs (1000000 * a - e) <= d -> Z.abs (1000000 * clamp a 0 255 - lim e) <= d.
Proof. intros Hd H. rewrite clamp_mm. unfold lim. lia. Qed.
Lemma clamp_near_byte a v d : 0 <= v <= 255 -> Z.abs (a - v) <= d -> Z.abs (clamp a 0 255 - v) <= d.
Proof. intros Hv H. rewrite clamp_mm. lia. Qed.
Lemma clamp_byte a : is_byte (clamp a 0 255).
Proof. rewrite clamp_mm. unfold is_byte. lia. Qed.

Lemma decoder_colour_l y cb cr : is_byte y -> is_byte cb -> is_byte cr ->
  exists r g b, ycbcr_pixel y cb cr = [r; g; b] /\ is_byte r /\ is_byte g /\ is_byte b /\
    Z.abs (1000000 * r - lim (1000000 * y + 1402000 * (cr - 128))) <= 1200000 /\
    Z.abs (1000000 * g - lim (1000000 * y - 344136 * (cb - 128) - 714136 * (cr - 128))) <= 1200000 /\
    Z.abs (1000000 * b - lim (1000000 * y + 1772000 * (cb - 128))) <= 1200000.
Proof.
  intros Hy Hb Hr. unfold ycbcr_pixel. do 3 eexists. split; [reflexivity|]. unfold is_byte in Hy, Hb, Hr.
  split; [apply clamp_byte|]. split; [apply clamp_byte|]. split; [apply clamp_byte|].
  rewrite !Z.shiftr_div_pow2 by lia. change (2 ^ 8) with 256.
  split; [|split]; apply clamp_near; lia.
Qed.

Lemma colour_roundtrip_l r g b : is_byte r -> is_byte g -> is_byte b ->
  exists y cb cr r' g' b', rgb_to_ycbcr r g b = Ok (y, cb, cr) /\ ycbcr_pixel y cb cr = [r'; g'; b'] /\
    Z.abs (r' - r) <= 3 /\ Z.abs (g' - g) <= 3 /\ Z.abs (b' - b) <= 3.
Proof.
  intros Hr Hg Hb. rewrite rgb_to_ycbcr_ok by auto. do 6 eexists. split; [reflexivity|]. unfold ycbcr_pixel. split; [reflexivity|].
  unfold is_byte in *. rewrite !Z.shiftr_div_pow2 by lia. change (2 ^ 8) with 256.
  pose proof (Z.div_mod (77 * r + 150 * g + 29 * b + 128) 256 ltac:(lia)) as Y1. pose proof (Z.mod_pos_bound (77 * r + 150 * g + 29 * b + 128) 256 ltac:(lia)) as Y2.
  pose proof (Z.div_mod (-43 * r - 85 * g + 128 * b + 128) 256 ltac:(lia)) as B1. pose proof (Z.mod_pos_bound (-43 * r - 85 * g + 128 * b + 128) 256 ltac:(lia)) as B2.
  pose proof (Z.div_mod (128 * r - 107 * g - 21 * b + 128) 256 ltac:(lia)) as R1. pose proof (Z.mod_pos_bound (128 * r - 107 * g - 21 * b + 128) 256 ltac:(lia)) as R2.
  set (qy := (77 * r + 150 * g + 29 * b + 128) / 256) in *. set (qb := (-43 * r - 85 * g + 128 * b + 128) / 256) in *. set (qr := (128 * r - 107 * g - 21 * b + 128) / 256) in *.
  set (my := (77 * r + 150 * g + 29 * b + 128) mod 256) in *. set (mb := (-43 * r - 85 * g + 128 * b + 128) mod 256) in *. set (mr := (128 * r - 107 * g - 21 * b + 128) mod 256) in *.
  clearbody qy qb qr my mb mr.
  assert (clamp qy 0 255 = qy) as -> by (rewrite clamp_mm; lia).
  assert (clamp (qb + 128) 0 255 - 128 = Z.min qb 127) as -> by (rewrite clamp_mm; lia).
  assert (clamp (qr + 128) 0 255 - 128 = Z.min qr 127) as -> by (rewrite clamp_mm; lia).
  split; [|split]; apply clamp_near_byte; lia.
Qed.
