(** The implementations the native module can be put together from.

    Each of encoder, decoder, CRC and CRC shift is selected at run time or compile time on
    its own; the properties of the JavaScript functions hold for every combination. *)
From Verif Require Import Base BaseLemmas EncNode EncModel EncSpec EncEnd EncNodeSpec EncNodeProofs DecSpec DecNode DecNodeSpec
  DecNodeProofs PropsDecLemmas PropsSimdLemmas DecSimdModel DecSimdSpec DecSseModel DecSseMain DecAvxModel DecAvxMain DecKernel DecRvvModel DecRvvMain DecNeonModel DecNeonMain
  DecEvexModel DecEvexProofs   CrcSpec CrcModel CrcMul CrcNodeSpec CrcNodeProofs CrcIsaProofs ClmulModel ClmulProofs ClmulMul Clmul256Model Clmul256Proofs
  ArmModel ArmProofs ArmMul RvModel RvProofs CrcUtilModel CrcUtilProofs JsBase JsModel JsSpec JsStrings JsEncoder
  EncSseModel EncSseProofs EncAvxModel EncAvxProofs EncRvvModel EncRvvProofs EncNeonModel EncNeonProofs.
Open Scope Z_scope.

(** /repo/src/encoder.cc lines 148-198 (the default and encoder_init): the encoders.
    The vector kernels are called through do_encode_simd of encoder_common.h. *)
Inductive an_encoder : encoder -> Prop :=
| enc_generic : an_encoder do_encode_generic
| enc_sse isa : enc_ok isa -> an_encoder (do_encode_simd (do_encode_sse isa))
| enc_avx2 isa : an_encoder (do_encode_simd (do_encode_avx2 isa))
| enc_rvv rv : (r_units rv < 512)%nat -> an_encoder (do_encode_simd (do_encode_rvv rv))
| enc_neon v8 : an_encoder (do_encode_simd (do_encode_neon v8)).

(** /repo/src/decoder.cc lines 341-429 (the defaults and decoder_init): the decoders modelled. *)
Inductive a_decoder : decoders -> Prop :=
| dec_scalar : a_decoder scalar
| dec_sse isa : a_decoder (sse_decoders isa)
| dec_avx2 isa : a_decoder (avx_decoders isa)
| dec_rvv rv : (d_log rv <= 1)%nat -> a_decoder (rvv_decoders rv)
| dec_neon ne : a_decoder (neon_decoders ne)
| dec_evex isa : (e_mask isa = true -> fast_match (e_base isa) = true) -> a_decoder (evex_decoders isa).

(** /repo/src/crc.cc lines 187-297 (the default and crc32_init): the CRC implementations.  [bits] is
    the size of the C type long. *)
Inductive a_crc : crc_fun -> Prop :=
| crc_generic : a_crc portable
| crc_clmul avx512 bits : 64 <= bits -> a_crc (do_crc32_incremental_clmul avx512 false bits)
| crc_clmul256 avx512 bits : 64 <= bits -> a_crc (do_crc32_incremental_clmul256 avx512 false bits)
| crc_arm a64 bits : 64 <= bits -> a_crc (do_crc32_incremental_arm a64 bits)
| crc_rv x64 bits : 64 <= bits -> a_crc (do_crc32_incremental_rv_zbc x64 bits)
| crc_crcutil v : a_crc (do_crc32_incremental_crcutil v false).

(** /repo/src/crc.cc lines 187-297: the implementations of crc32_shift. *)
Inductive a_shift : mulfun -> Prop :=
| shift_generic : a_shift crc32_shift_generic
| shift_clmul avx512 gfni : a_shift (crc32_shift_clmul avx512 gfni)
| shift_arm : a_shift crc32_shift_arm
| shift_pmull a64 : a_shift (crc32_shift_pmull a64 (rbit 32) (rbit 64))
| shift_pmull_msvc a64 : a_shift (crc32_shift_pmull a64 rbit32_msvc rbit64_msvc)
| shift_rv x64 : a_shift (crc32_shift_rv_zbc x64).

Lemma an_encoder_meets e : an_encoder e -> meets_spec e.
Proof. intros []; auto using generic_meets, simd_meets, sse_good, avx_good, rvv_good, neon_good. Qed.
Lemma a_decoder_plain D : a_decoder D -> forall text, decode_returns D text false (decode_text text).
Proof.
  intros [|isa|isa|rv L|ne|isa F] text.
  - exact (decode_spec scalar scalar_meets text false).
  - apply (only_plain (sse_decoders isa) text). apply (simd_plain 5); [lia|]. apply (sse_kernel_ok isa false false). discriminate.
  - apply (only_plain (avx_decoders isa) text). apply (simd_plain 6); [lia|]. apply (avx_kernel_ok isa false false). discriminate.
  - rewrite rvv_simd. apply only_plain. apply (simd_plain (rv_log rv)); [apply rv_log_1|]. rewrite <- dvl_pow.
    eapply kernel_x_ok, (rvd_kernel_ok rv false false); [exact L|discriminate].
  - rewrite neon_simd. apply only_plain. apply (simd_plain (n_log ne)); [apply n_log_1|]. rewrite <- nw_pow. apply neon_kernel_ok; discriminate.
  - apply (only_plain (evex_decoders isa) text). apply (simd_plain 5); [lia|]. apply (evex_kernel_ok isa false false); [exact F|discriminate].
Qed.
Lemma a_decoder_raw D : a_decoder D -> raw_good D.
Proof.
  intros [|isa|isa|rv L|ne|isa F]; [exact scalar_raw_good|apply (simd_raw_good 5)|apply (simd_raw_good 6)|rewrite rvv_simd; apply (simd_raw_good (rv_log rv))
    |rewrite neon_simd; apply (simd_raw_good (n_log ne))|apply (simd_raw_good 5)]; try apply rv_log_1; try apply n_log_1; try lia.
  - apply (sse_kernel_ok isa true false). discriminate.
  - apply (avx_kernel_ok isa true false). discriminate.
  - rewrite <- dvl_pow. eapply kernel_x_ok, (rvd_kernel_ok rv true false); [exact L|discriminate].
  - rewrite <- nw_pow. apply neon_kernel_ok; discriminate.
  - apply (evex_kernel_ok isa true false); [exact F|discriminate].
Qed.
Lemma a_crc_same f : a_crc f -> forall src len m, 0 <= len < 2 ^ 63 -> node_crc32 f src len None m = node_crc32 portable src len None m.
Proof.
  assert (G : forall bits, 64 <= bits -> 2 ^ 63 <= 2 ^ (bits - 1)) by (intros; apply Z.pow_le_mono_r; lia).
  intros [|avx512 bits Hb|avx512 bits Hb|a64 bits Hb|x64 bits Hb|v] src len m Hl; [reflexivity|..|apply (js_same (2 ^ 63)); [intros B ? ? ? ? _; apply crcutil_crc_ok|lia]]; pose proof (G bits Hb);
    apply (js_same (2 ^ (bits - 1))); try lia.
  - apply (below_signed (crc_fold avx512 false)); [lia|exact (crc_fold_ok avx512)].
  - apply (below_signed (crc_fold256 avx512 false)); [lia|exact (crc_fold256_ok avx512)].
  - apply (below_signed (arm_crc a64)); [lia|apply arm_crc_ok].
  - apply (below_signed (rv_crc x64)); [lia|apply rv_crc_ok].
Qed.
Lemma a_shift_ok f : a_shift f -> is_shift f.
Proof.
  intros []; auto using generic_is_shift, clmul_is_shift, arm_is_shift, rv_is_shift.
  - exact (pmull_is_shift a64 _ _ (fun _ _ => eq_refl) (fun _ _ => eq_refl)).
  - exact (pmull_is_shift a64 _ _ rbit32_msvc_ok rbit64_msvc_ok).
Qed.

Lemma native_works Y : placed Y -> an_encoder (y_enc Y) -> a_decoder (y_dec Y) -> a_crc (y_crc Y) -> a_shift (y_shift Y) -> works Y.
Proof.
  intros P H1 H2 H3 H4.
  apply works_of; auto using an_encoder_meets, a_decoder_plain, a_decoder_raw, a_crc_same, a_shift_ok.
Qed.

(** A native module put together from these, wherever the Buffers are placed. *)
Record a_build (Y : native) : Prop := {
  b_placed : placed Y; b_enc : an_encoder (y_enc Y); b_dec : a_decoder (y_dec Y);
  b_crc : a_crc (y_crc Y); b_shift : a_shift (y_shift Y)
}.
Lemma build_works Y : a_build Y -> works Y.
Proof. intros []. apply native_works; assumption. Qed.
