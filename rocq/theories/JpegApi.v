(** The JPEG encoder as called: what it accepts, the file it writes, and what
    the decoder makes of it. *)
From Verif Require Import Base PngFilterModel PngPaletteModel PngFilterProofs PngPackProofs MsbSpec JpegBaseModel JpegHuffModel JpegDecModel JpegSpec JpegSymProofs JpegEncModel JpegEncProofs JpegCountProofs JpegImgSpec JpegMcuProofs JpegScanProofs JpegFileSpec JpegTop JpegProgSpec JpegProgProofs.

(** ranges of the Rust types: u32 dimensions, u8 quality, u16 interval, &[u8] *)
Definition jpeg_typed (data : list Z) (o : jopts) : Prop :=
  0 <= jo_w o < 2 ^ 32 /\ 0 <= jo_h o < 2 ^ 32 /\ 0 <= jo_quality o <= 255 /\ bytes data /\
  match jo_restart o with Some i => 0 <= i <= 65535 | None => True end.
(** what an error says about the arguments *)
Definition error_fits (data : list Z) (o : jopts) (er : error) : Prop :=
  match er with
  | EInvalidQuality q => q = jo_quality o /\ ~ 1 <= q <= 100
  | EInvalidRestartInterval i => jo_restart o = Some i /\ i = 0
  | EInvalidDimensions w h => w = jo_w o /\ h = jo_h o /\ (w = 0 \/ h = 0)
  | EImageTooLarge w h m => w = jo_w o /\ h = jo_h o /\ m = 65535 /\ (65535 < w \/ 65535 < h)
  | EUnsupportedColorType => jo_ct o = GrayAlpha \/ jo_ct o = Rgba
  | EInvalidDataLength ex ac => ac = zlen data /\ ex = jo_w o * jo_h o * ncomps o /\ ac <> ex
  | _ => False
  end.

Lemma jpeg_body_baseline e data o : valid_args data o -> dctq_ok (je_dctq e) -> jo_prog o = false ->
  exists t scan, jpeg_body e data o = Ok (baseline_file o (tabs_of t 0) (tabs_of t 1) scan) /\ tabs_ok t /\
    scan_code (tabs_of t) 0 (map (fun iv => zzs (concat iv)) (intervals (jo_restart o) (image_mcus (je_dctq e) data o))) scan.
Proof.
  intros V HQ HP. destruct (image_scan_ok e data o V HQ) as (t & scan & ET & HT & ES & SC). exists t, scan. split; [|auto].
  unfold jpeg_body. rewrite ET. cbn [rbind]. rewrite HP. rewrite (all_mcus_ok (je_dctq e) data o V). cbn [rbind]. rewrite ES. cbn [rbind].
  destruct V as (Hw & Hh & _ & _ & _ & HC & HR). unfold baseline_file. rewrite <- (header_ok 192 t o HT Hw Hh HR). rewrite <- !app_assoc.
  assert (write_sos (jo_ct o) = sos_segment (scan_comps (jo_ct o))) as -> by (destruct HC as [->| ->]; reflexivity). reflexivity.
Qed.
Lemma jpeg_body_progressive e data o q : valid_args data o -> dctq_ok (je_dctq e) -> jo_prog o = true ->
  q = (if jo_trellis o then je_trellis e else je_dctq e) -> dctq_ok q ->
  exists t segs, jpeg_body e data o = Ok (progressive_file o (tabs_of t 0) (tabs_of t 1) segs) /\ tabs_ok t /\
    Forall2 (fun s seg => let '(c, ss, se) := s in exists bits, segment seg bits /\
      (prog_scan_has_codes (tabs_of t c) ss se (comp_blocks (image_mcus q data o) c) ->
       prog_scan_code (tabs_of t c) ss se (comp_blocks (image_mcus q data o) c) bits)) prog_script segs.
Proof.
  intros V HD HP Eq HQ. destruct (image_scan_ok e data o V HD) as (t & scan & ET & HT & _).
  destruct (image_mcus_ok q data o V HQ) as (_ & _ & HM & _).
  destruct (progressive_scans_ok t _ HT HM) as (segs & ES & FS). exists t, segs. split; [|auto].
  unfold jpeg_body. rewrite ET. cbn [rbind]. rewrite HP, <- Eq. rewrite (all_mcus_ok q data o V). cbn [rbind]. rewrite ES. cbn [rbind].
  destruct V as (Hw & Hh & _ & _ & _ & HC & HR). unfold progressive_file. rewrite <- (header_ok 194 t o HT Hw Hh HR). rewrite <- !app_assoc. reflexivity.
Qed.

(** ** the checks *)
Lemma jencode_into_valid e output data o : valid_args data o ->
  jencode_into e output data o = match jpeg_body e data o with
    | Ok out => (out, Ok tt) | Err er => (output, Err er) | Panic => (output, Panic) | NoFuel => (output, NoFuel) end.
Proof.
  intros (Hw & Hh & Hq & _ & HL & HC & HR). unfold jencode_into, JPEG_MAX_DIMENSION.
  destruct (Z.eqb_spec (jo_quality o) 0); [lia|]. destruct (Z.gtb_spec (jo_quality o) 100); [lia|]. cbn [orb].
  assert (match jo_restart o with Some i => i =? 0 | None => false end = false) as ->.
  { destruct (jo_restart o) as [i|]; [|reflexivity]. destruct (Z.eqb_spec i 0); [lia|reflexivity]. }
  destruct (Z.eqb_spec (jo_w o) 0); [lia|]. destruct (Z.eqb_spec (jo_h o) 0); [lia|]. cbn [orb].
  destruct (Z.gtb_spec (jo_w o) 65535); [lia|]. destruct (Z.gtb_spec (jo_h o) 65535); [lia|]. cbn [orb].
  unfold ncomps in HL. destruct HC as [E|E]; rewrite E in *; rewrite HL, Z.eqb_refl; reflexivity.
Qed.
Lemma jencode_into_invalid e output data o : jpeg_typed data o -> ~ valid_args data o ->
  exists er, jencode_into e output data o = (output, Err er) /\ error_fits data o er.
Proof.
  intros (Hw & Hh & Hq & HB & HR) NV. unfold jencode_into, JPEG_MAX_DIMENSION.
  destruct (Z.eqb_spec (jo_quality o) 0) as [E1|E1]; [eexists; split; [reflexivity|]; cbn; lia|].
  destruct (Z.gtb_spec (jo_quality o) 100) as [E2|E2]; [eexists; split; [reflexivity|]; cbn; lia|]. cbn [orb].
  destruct (match jo_restart o with Some i => i =? 0 | None => false end) eqn:ER.
  { eexists; split; [reflexivity|]. cbn. destruct (jo_restart o) as [i|]; [|discriminate ER]. apply Z.eqb_eq in ER. subst i. auto. }
  destruct (Z.eqb_spec (jo_w o) 0) as [E3|E3]; [eexists; split; [reflexivity|]; cbn; lia|].
  destruct (Z.eqb_spec (jo_h o) 0) as [E4|E4]; [eexists; split; [reflexivity|]; cbn; lia|]. cbn [orb].
  destruct (Z.gtb_spec (jo_w o) 65535) as [E5|E5]; [eexists; split; [reflexivity|]; cbn; lia|].
  destruct (Z.gtb_spec (jo_h o) 65535) as [E6|E6]; [eexists; split; [reflexivity|]; cbn; lia|]. cbn [orb].
  assert (match jo_restart o with Some i => 1 <= i <= 65535 | None => True end) as HR'.
  { destruct (jo_restart o) as [i|]; [|exact I]. apply Z.eqb_neq in ER. lia. }
  destruct (jo_ct o) eqn:EC.
  - destruct (Z.eqb_spec (zlen data) (jo_w o * jo_h o * 1)) as [EL|EL]; cbn [negb].
    + exfalso. apply NV. unfold valid_args, ncomps. rewrite EC. repeat (split; [lia || exact HB || (left; reflexivity) || exact HR'|]). exact HR'.
    + eexists; split; [reflexivity|]. cbn. unfold ncomps. rewrite EC. lia.
  - eexists; split; [reflexivity|]. cbn. rewrite EC. auto.
  - destruct (Z.eqb_spec (zlen data) (jo_w o * jo_h o * 3)) as [EL|EL]; cbn [negb].
    + exfalso. apply NV. unfold valid_args, ncomps. rewrite EC. repeat (split; [lia || exact HB || (right; reflexivity) || exact HR'|]). exact HR'.
    + eexists; split; [reflexivity|]. cbn. unfold ncomps. rewrite EC. lia.
  - eexists; split; [reflexivity|]. cbn. rewrite EC. auto.
Qed.

(** ** theorems *)
Definition quantisers_ok (e : jenv) : Prop := dctq_ok (je_dctq e) /\ dctq_ok (je_trellis e).

Theorem jpeg_accepts_exactly e output data o : quantisers_ok e -> jpeg_typed data o ->
  (valid_args data o -> exists out, jencode_into e output data o = (out, Ok tt)) /\
  (~ valid_args data o -> exists er, jencode_into e output data o = (output, Err er) /\ error_fits data o er).
Proof.
  intros [Q1 Q2] HT. split; [|apply jencode_into_invalid; exact HT].
  intros V. rewrite (jencode_into_valid e output data o V). destruct (jo_prog o) eqn:HP.
  - destruct (jpeg_body_progressive e data o _ V Q1 HP eq_refl ltac:(destruct (jo_trellis o); assumption)) as (t & segs & E & _). rewrite E. eauto.
  - destruct (jpeg_body_baseline e data o V Q1 HP) as (t & scan & E & _). rewrite E. eauto.
Qed.
Theorem jencode_into_same e output data o : 
  match jencode e data o with
  | Ok out => jencode_into e output data o = (out, Ok tt)
  | Err er => jencode_into e output data o = (output, Err er)
  | Panic => snd (jencode_into e output data o) = Panic
  | NoFuel => snd (jencode_into e output data o) = NoFuel
  end.
Proof.
  unfold jencode, jencode_into.
  repeat match goal with |- context [if ?c then _ else _] => destruct c; [reflexivity|] end.
  destruct (jo_ct o); try reflexivity; (match goal with |- context [negb ?c] => destruct (negb c); [reflexivity|] end);
    destruct (jpeg_body e data o); reflexivity.
Qed.
Theorem jencode_baseline e data o : valid_args data o -> dctq_ok (je_dctq e) -> jo_prog o = false ->
  exists t scan, jencode e data o = Ok (baseline_file o (tabs_of t 0) (tabs_of t 1) scan) /\ tabs_ok t /\
    scan_code (tabs_of t) 0 (map (fun iv => zzs (concat iv)) (intervals (jo_restart o) (image_mcus (je_dctq e) data o))) scan.
Proof.
  intros V HQ HP. destruct (jpeg_body_baseline e data o V HQ HP) as (t & scan & E & R). exists t, scan. split; [|exact R].
  unfold jencode. rewrite (jencode_into_valid e [] data o V), E. reflexivity.
Qed.
Theorem jencode_progressive e data o q : valid_args data o -> dctq_ok (je_dctq e) -> jo_prog o = true ->
  q = (if jo_trellis o then je_trellis e else je_dctq e) -> dctq_ok q ->
  exists t segs, jencode e data o = Ok (progressive_file o (tabs_of t 0) (tabs_of t 1) segs) /\ tabs_ok t /\
    Forall2 (fun s seg => let '(c, ss, se) := s in exists bits, segment seg bits /\
      (prog_scan_has_codes (tabs_of t c) ss se (comp_blocks (image_mcus q data o) c) ->
       prog_scan_code (tabs_of t c) ss se (comp_blocks (image_mcus q data o) c) bits)) prog_script segs.
Proof.
  intros V HD HP Eq HQ. destruct (jpeg_body_progressive e data o q V HD HP Eq HQ) as (t & segs & E & R). exists t, segs. split; [|exact R].
  unfold jencode. rewrite (jencode_into_valid e [] data o V), E. reflexivity.
Qed.
Lemma single_interval {A} (o : jopts) (mcus : list A) : mcus <> [] -> match jo_restart o with Some i => zlen mcus <= i | None => True end ->
  intervals (jo_restart o) mcus = [mcus].
Proof.
  intros HN HR. unfold intervals. destruct (jo_restart o) as [i|]; [|reflexivity].
  destruct mcus as [|a l]; [contradiction|]. apply PngPackProofs.chunks_single; [discriminate|]. rewrite zlen_cons in HR. unfold zlen in HR. cbn [length]. lia.
Qed.
Theorem jpeg_roundtrip e data o : valid_args data o -> dctq_ok (je_dctq e) -> jo_prog o = false ->
  match jo_restart o with Some i => mcus_across o * mcus_down o <= i | None => True end ->
  exists out, jencode e data o = Ok out /\ forall tail, decode_jpeg (out ++ tail) = Ok (dec_image (je_dctq e) data o).
Proof.
  intros V HQ HP HR. destruct (jencode_baseline e data o V HQ HP) as (t & scan & E & HT & SC).
  destruct (image_mcus_ok _ data o V HQ) as (N & L & _). rewrite <- L in HR.
  rewrite (single_interval o _ N HR) in SC. cbn [map] in SC.
  eexists. split; [exact E|]. intros tail. apply decode_file; auto; [rewrite <- L; exact HR|].
  inversion SC as [? ? bits ? HI HS|? ? ? ? ? ? ? ? HX]; subst; [exists bits; auto|].
  match goal with H : scan_code _ _ [] _ |- _ => inversion H end.
Qed.
