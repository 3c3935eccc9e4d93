(** The dispatchers of src/simd/mod.rs, machine by machine. *)
From Verif Require Import Base ChecksumModel ChecksumSpec ChecksumProofs Lz77Model Lz77Spec Lz77Proofs PngFilterModel DeflateModel DeflateSpec DeflateTop
  InflateModel InflateProofs JpegBaseModel JpegDecModel JpegDctIntModel SimdModel SimdProofs SimdAdler SimdDct.

Lemma simd_filters m row prev bpp : 0 < bpp <= zlen row -> length prev = length row -> bytes row -> bytes prev ->
  simd_filter_sub m row bpp = filter_sub row bpp /\ simd_filter_up m row prev = filter_up row prev /\
  simd_filter_average m row prev bpp = filter_average row prev bpp /\ simd_filter_paeth m row prev bpp = filter_paeth row prev bpp.
Proof.
  intros Hb Hl Hr Hp. split; [|split; [|split]]; destruct m; try reflexivity; cbn.
  - apply (filter_sub_vec_eq bpp 32 row prev); auto; lia.
  - apply filter_sub_sse2_eq; auto.
  - apply filter_sub_sse2_eq; auto.
  - apply (filter_sub_vec_eq bpp 16 row prev); auto; lia.
  - apply (filter_up_vec_eq bpp 32 row prev); auto; lia.
  - apply (filter_up_vec_eq bpp 16 row prev); auto; lia.
  - apply (filter_up_vec_eq bpp 16 row prev); auto; lia.
  - apply (filter_up_vec_eq bpp 16 row prev); auto; lia.
  - apply (average_vec_eq bpp 32 row prev); auto; try lia. apply vavg_lane.
  - apply (average_vec_eq bpp 16 row prev); auto; try lia. intros; apply vhadd_lane.
  - apply (paeth_vec_eq bpp 16 row prev); auto; try lia.
    + intros. apply vpaeth_neon_lane; auto.
    + intros a Ha. unfold is_byte in Ha. unfold paeth_predictor. destruct (Z.leb_spec (Z.abs (0 + a - 0 - 0)) (Z.abs (0 + a - 0 - a))), (Z.leb_spec (Z.abs (0 + a - 0 - 0)) (Z.abs (0 + a - 0 - 0))); cbn [andb]; try lia.
      destruct (Z.leb_spec (Z.abs (0 + a - 0 - a)) (Z.abs (0 + a - 0 - 0))); lia.
Qed.
Lemma x86_paeth row prev bpp : 0 < bpp <= zlen row -> length prev = length row -> bytes row -> bytes prev ->
  filter_paeth_sse2 row prev bpp = filter_paeth row prev bpp /\ filter_paeth_avx2 row prev bpp = filter_paeth row prev bpp.
Proof.
  intros Hb Hl Hr Hp. split.
  - apply (paeth_vec_eq bpp 16 row prev); auto; try lia. intros. apply vpaeth_x86_lane; auto. apply vabs16_sse2_ok.
  - apply (paeth_vec_eq bpp 32 row prev); auto; try lia. intros. apply vpaeth_x86_lane; auto. apply vabs16_ok.
Qed.
Lemma simd_score m f : bytes f -> zlen f < 2 ^ 57 -> simd_score_filter m f = score_filter f.
Proof. intros B L. destruct m; cbn [simd_score_filter]; [apply score_avx2_eq|apply score_sse2_eq|apply score_sse2_eq|reflexivity|apply score_neon_eq]; auto. Qed.
Lemma simd_match m data p1 p2 maxl : bytes data -> 0 <= p1 -> 0 <= p2 -> 0 <= maxl -> p1 + maxl <= zlen data -> p2 + maxl <= zlen data ->
  exists n, simd_match_length m data p1 p2 maxl = Ok n /\ match_length_scalar data p1 p2 maxl = Ok n /\ common_prefix data p1 p2 maxl n.
Proof.
  intros B H1 H2 Hm L1 L2. destruct (match_length_scalar_ok data p1 p2 maxl) as (s & ES & CS); auto; try lia.
  assert (G : exists n, simd_match_length m data p1 p2 maxl = Ok n /\ common_prefix data p1 p2 maxl n).
  { destruct m; cbn [simd_match_length]; [apply match_avx2_ok|apply match_sse2_ok|apply match_sse2_ok|eauto|apply match_neon_ok]; auto; lia. }
  destruct G as (n & E & C). exists n. rewrite (cp_unique data p1 p2 maxl n s C CS) in *. auto.
Qed.
Lemma simd_dct m block out : dct_2d_fast block = Ok out -> simd_dct_2d_fast m block = Ok out.
Proof.
  unfold dct_2d_fast, simd_dct_2d_fast. destruct (forallb _ _); [auto|]. destruct m; auto; intros E; [apply avx2_dct|apply neon_dct]; exact E.
Qed.

(** ** Checksums *)
Lemma simd_adler_good m data : bytes data -> (m = Scalar \/ m = Neon \/ (m = Avx2 /\ (zlen data < 11136 \/ Forall (fun b => b <= 253) data)) \/ zlen data < 16) ->
  simd_adler32 m data = Ok (adler_spec data).
Proof.
  intros B H. destruct m; cbn [simd_adler32].
  - f_equal. destruct H as [H|[H|[[_ [H|H]]|H]]]; try discriminate.
    + apply (avx2_main 255 data); [lia| |right; exact H]. eapply Forall_impl; [|exact B]. unfold is_byte. cbn beta. lia.
    + apply (avx2_main 253 data); [lia| |left; lia]. apply Forall_forall. intros b Hb. rewrite Forall_forall in H. apply H in Hb as Hb2. unfold bytes in B. rewrite Forall_forall in B. apply B in Hb. unfold is_byte in Hb. lia.
    + apply (avx2_main 255 data); [lia| |right; lia]. eapply Forall_impl; [|exact B]. unfold is_byte. cbn beta. lia.
  - destruct H as [H|[H|[[H _]|H]]]; try discriminate. apply ssse3_tiny; auto.
  - destruct H as [H|[H|[[H _]|H]]]; try discriminate. apply ssse3_tiny; auto.
  - apply adler_all; auto.
  - apply neon_ok; auto.
Qed.
Lemma avx2_low data : bytes data -> adler32_avx2 data mod 65536 = adler_spec data mod 65536.
Proof. intros B. apply (avx2_main 255 data); [lia|]. eapply Forall_impl; [|exact B]. unfold is_byte. cbn beta. lia. Qed.
Lemma zlib_same m level data deflated : bytes data -> simd_adler32 m data = Ok (adler_spec data) -> zlib_wrap_on m level data deflated = Ok (zlib_wrap level data deflated).
Proof. intros B E. unfold zlib_wrap_on, zlib_wrap. rewrite E, (proj2 (adler_all data B)). reflexivity. Qed.
Lemma zlib_bad m level data deflated v : bytes data -> data <> [] -> bytes deflated -> deflate_stream deflated data ->
  simd_adler32 m data = Ok v -> 0 <= v < 2 ^ 32 -> v <> adler_spec data ->
  exists z, zlib_wrap_on m level data deflated = Ok z /\ inflate_zlib z None = Err EInvalidDecode.
Proof.
  intros B N BD DS E Hv NE. unfold zlib_wrap_on. rewrite E. cbn [rbind]. eexists. split; [reflexivity|].
  destruct (zlib_wrap_ok level data deflated B N BD DS) as [B1 Z1]. unfold zlib_wrap in B1, Z1. rewrite (proj2 (adler_all data B)) in B1, Z1.
  set (body := if should_use_stored _ _ then _ else _) in *. destruct (be32_ok v Hv) as (a & b & c & d & -> & G1 & G2).
  destruct (be32_ok (adler_spec data) (adler_spec_range data)) as (a' & b' & c' & d' & F & F1 & F2). rewrite F in *.
  rewrite app_assoc in B1, Z1 |- *. eapply (zlib_trailer_err _ a' b' c' d'); [exact B1| |apply (inflate_zlib_complete _ _ B1 Z1)|].
  - apply bytes_app. split; [apply bytes_app in B1; tauto|exact G1].
  - intros Q. injection Q as <- <- <- <-. lia.
Qed.
Lemma ssse3_range data : bytes data -> 16 <= zlen data < 5552 -> exists v, adler32_ssse3 data = Ok v /\ 0 <= v < 2 ^ 32 /\ v <> adler_spec data.
Proof.
  intros B L. destruct (ssse3_wrong data B L) as (v & E & N). exists v. split; [exact E|]. split; [|exact N].
  rewrite ssse3_short in E by auto. injection E as <-. change (2 ^ 32) with 4294967296. lia.
Qed.
Lemma zlib_ssse3 m level data deflated : m = Ssse3 \/ m = Sse2 -> bytes data -> 16 <= zlen data < 5552 -> bytes deflated -> deflate_stream deflated data ->
  exists z, zlib_wrap_on m level data deflated = Ok z /\ inflate_zlib z None = Err EInvalidDecode.
Proof.
  intros Hm B L BD DS. destruct (ssse3_range data B L) as (v & E & Hv & N). eapply zlib_bad; eauto.
  - intros ->. unfold zlen in L. cbn in L. lia.
  - destruct Hm as [-> | ->]; exact E.
Qed.
Lemma zlib_avx2_gen level data deflated : bytes data -> adler32_avx2 data <> adler_spec data -> bytes deflated -> deflate_stream deflated data ->
  exists z, zlib_wrap_on Avx2 level data deflated = Ok z /\ inflate_zlib z None = Err EInvalidDecode.
Proof.
  intros B N BD DS. assert (F : Forall (fun b => 0 <= b <= 255) data).
  { eapply Forall_impl; [|exact B]. unfold is_byte. cbn beta. lia. }
  eapply (zlib_bad Avx2 level data deflated (adler32_avx2 data)); auto.
  - intros ->. apply N. destruct (avx2_main 255 [] ltac:(lia) F) as [M _]. apply M. right; reflexivity.
  - apply (avx2_main 255); [lia|exact F].
Qed.
Lemma pclmul_small align data : bytes data -> zlen data < 64 -> crc32_pclmulqdq align data = crc_spec data.
Proof. intros B L. unfold crc32_pclmulqdq. destruct (Z.ltb_spec (zlen data) 64); [|lia]. apply crc_all. exact B. Qed.
Lemma pclmul_wrong align : 0 <= align < 16 -> crc32_pclmulqdq align (repeat 0 80) <> crc_spec (repeat 0 80).
Proof.
  intros H. assert (crc_spec (repeat 0 80) = crc32_bytewise (repeat 0 80)) as ->.
  { symmetry. apply crc_all. apply bytes_repeat. unfold is_byte. lia. }
  assert (G : Forall (fun a => crc32_pclmulqdq a (repeat 0 80) <> crc32_bytewise (repeat 0 80)) (idxs 16)).
  { repeat (apply Forall_cons; [vm_compute; discriminate|]). apply Forall_nil. }
  rewrite Forall_forall in G. apply G. apply PngFilterProofs.in_idxs. exact H.
Qed.
Lemma simd_crc_good pclmul align data : bytes data -> pclmul = false \/ zlen data < 64 -> simd_crc32 pclmul align data = crc_spec data.
Proof. intros B H. unfold simd_crc32. destruct pclmul; [apply pclmul_small; auto; destruct H; [discriminate|auto]|apply crc_all; exact B]. Qed.
