(** The native build (YENC_BUILD_NATIVE, which binding.gyp lines 2-3 and 48-50 make the
    default outside Windows): encoder and decoder are chosen at compile time from the
    macros that the compiler defines for -march=native.

    Only the macros that the code asks for are here.  A compiler that defines
    __AVX512BW__ is taken to define __AVX512VL__ too, and MSVC, which has no native
    build, is left out. *)
From Verif Require Import Base EncNode EncModel DecNode DecSimdModel DecSseModel DecAvxModel DecEvexModel EncAvxModel EncSseModel.

Record macros := {
  m_ssse3 : bool;      (* __SSSE3__ *)
  m_sse41 : bool;      (* __SSE4_1__ *)
  m_avx2 : bool;       (* __AVX2__ *)
  m_avx512bw : bool;   (* __AVX512BW__ *)
  m_vbmi2 : bool;      (* __AVX512VBMI2__ *)
  m_popcnt : bool;     (* __POPCNT__ *)
  m_lzcnt : bool;      (* __LZCNT__ *)
  m_tune : tune;       (* the __tune_*__ macros of EncSseModel.v *)
  m_zen1 : bool;       (* __tune_bdver4__ or __tune_znver1__ *)
  m_icl : bool;        (* __tune_icelake_client__ and so on, decoder_sse_base.h lines 9-14 *)
  m_gnuc : bool;       (* __GNUC__ *)
  m_amd64 : bool;      (* PLATFORM_AMD64 *)
  m_no256 : bool       (* YENC_DISABLE_AVX256 *)
}.

(** /repo/src/common.h lines 264-276: _ISA_NATIVE. *)
Definition native_level (M : macros) : Z :=
  if m_vbmi2 M then 0x603
  else if m_avx512bw M then 0x507
  else if m_avx2 M then 0x403
  else if m_sse41 M then 0x300
  else if m_ssse3 M then 0x200
  else 0x100.
(** /repo/src/common.h lines 277-285: ISA_NATIVE. *)
Definition native_isa (M : macros) : Z :=
  if m_popcnt M then
    if m_lzcnt M then Z.lor (Z.lor (native_level M) 1) 2 else Z.lor (native_level M) 1
  else native_level M.

(** /repo/src/encoder.cc lines 153-168: encoder_native_init.  [bsr0] is what BSR32(0)
    gives. *)
Definition native_enc_sse (M : macros) (bsr0 : Z) : enc_isa :=
  {| e_level := native_isa M; e_has_popcnt := m_popcnt M; e_has_lzcnt := m_lzcnt M; e_tune := m_tune M; e_gnuc := m_gnuc M; e_bsr0 := bsr0 |}.
Definition native_enc_avx (M : macros) : avx_isa :=
  {| a_level := native_isa M; a_asm := m_gnuc M && m_amd64 M; a_zen := m_zen1 M |}.
Definition native_encoder (M : macros) (bsr0 : Z) : encoder :=
  if m_avx2 M && negb (m_no256 M) then do_encode_simd (do_encode_avx2 (native_enc_avx M))
  else do_encode_simd (do_encode_sse (native_enc_sse M bsr0)).

(** The choices of /repo/src/decoder_sse_base.h: lines 108-112, 113-117, 640, 657-658,
    226-227 (341, 428, 617) and 77-78. *)
Definition native_dec_sse (M : macros) : sse_isa :=
  let level := native_isa M in
  {| fast_match := m_ssse3 M && (0x200 <=? level) && match m_tune M with T_atom | T_slm | T_btver1 | T_btver2 => false | _ => true end;
     blend_add := m_sse41 M && (0x300 <=? level) && match m_tune M with T_slm | T_goldmont => false | _ => true end;
     has_ssse3 := m_ssse3 M && (0x200 <=? level);
     has_popcnt := m_popcnt M && Z.testbit level 0 && match m_tune M with T_btver1 => false | _ => true end;
     use_alignr := m_ssse3 M && (0x200 <=? level) && match m_tune M with T_btver1 => false | _ => true end;
     has_lzcnt := m_lzcnt M && Z.testbit level 1 |}.
(** Lines 118-124, 314, 641-642 and 9-14 of the same file, with AVX512. *)
Definition native_dec_evex (M : macros) : evex_isa :=
  let level := native_isa M in
  {| e_base := native_dec_sse M; e_mask := true; DecEvexModel.e_vbmi2 := 0x603 <=? level;
     e_compress := (0x603 <=? level) && m_popcnt M; e_icl := m_icl M |}.
(** The choices of /repo/src/decoder_avx2_base.h, see DecAvxModel.v. *)
Definition native_dec_avx (M : macros) : avxd_isa :=
  let level := native_isa M in
  {| d_mask := 0x507 <=? level; d_avx3 := 0x507 <=? level; d_vbmi2 := 0x603 <=? level; d_amd64 := m_amd64 M; d_icl := m_icl M |}.
(** /repo/src/decoder.cc lines 352-375: decoder_set_native_funcs. *)
Definition native_decoders (M : macros) : decoders :=
  if m_avx2 M && negb (m_no256 M) then avx_decoders (native_dec_avx M)
  else if 0x507 <=? native_isa M then evex_decoders (native_dec_evex M)
  else sse_decoders (native_dec_sse M).
