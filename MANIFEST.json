{
 "claims": [
  {
   "property": "C01",
   "status": "proved",
   "theorems": [
    "c01_roundtrip_plain"
   ],
   "note": ""
  },
  {
   "property": "C02",
   "status": "proved",
   "theorems": [
    "c02_roundtrip_raw"
   ],
   "note": ""
  },
  {
   "property": "C03",
   "status": "proved",
   "theorems": [
    "c03_line_safe"
   ],
   "note": ""
  },
  {
   "property": "C04",
   "status": "proved",
   "theorems": [
    "c04_line_lengths"
   ],
   "note": ""
  },
  {
   "property": "C05",
   "status": "proved",
   "theorems": [
    "c05_dots_and_spaces"
   ],
   "note": ""
  },
  {
   "property": "C06",
   "status": "proved",
   "theorems": [
    "c06_no_marker_in_text",
    "c06_stream_not_ended"
   ],
   "note": ""
  },
  {
   "property": "C07",
   "status": "proved",
   "theorems": [
    "c07_max_size"
   ],
   "note": ""
  },
  {
   "property": "C08",
   "status": "partial",
   "theorems": [
    "c08_min_size_refuted",
    "c08_readme_equation_refuted",
    "c08_min_size_corrected",
    "c08_min_size_partial",
    "c08_min_size_exact"
   ],
   "note": "False as stated; refuted by a witness, corrected bound proved, original bound proved when the line size does not divide the length."
  },
  {
   "property": "C09",
   "status": "proved",
   "theorems": [
    "c09_encode_memory_safe",
    "c09_encodeTo_memory_safe"
   ],
   "note": ""
  },
  {
   "property": "C10",
   "status": "proved",
   "theorems": [
    "c10_encodeTo_max_size"
   ],
   "note": ""
  },
  {
   "property": "C11",
   "status": "proved",
   "theorems": [
    "c11_encoder_isa_independent",
    "c11_sse_encode",
    "c11_sse_same",
    "c11_avx2_encode",
    "c11_avx2_same",
    "c11_rvv_encode",
    "c11_rvv_same",
    "c11_neon_encode",
    "c11_neon_same"
   ],
   "note": "For any kernel meeting the stated contract, and for the 128-bit x86 kernels (SSE2 to VBMI2, any tuning macros, provided the macros agree with use_isa: enc_ok), the AVX2, AVX512BW, VBMI2, RVV and NEON kernels, which meet it."
  },
  {
   "property": "C12",
   "status": "partial",
   "theorems": [
    "c12_incremental_refuted",
    "c12_incremental_partial",
    "c12_incremental_exact",
    "c12_line_size_one_refuted"
   ],
   "note": "False as stated; refuted. It holds exactly when no chunk with bytes behind it ends with a full line (every encoder, line sizes from 2; with line size 1 the column returned may be rejected by the next call, refuted too)."
  },
  {
   "property": "C13",
   "status": "proved",
   "theorems": [
    "c13_only_valid_arguments",
    "c13_throws_exactly"
   ],
   "note": ""
  },
  {
   "property": "C14",
   "status": "partial",
   "theorems": [
    "c14_incr_destination_refuted",
    "c14_incr_destination_partial",
    "c14_enough_from_127",
    "c14_overflow_below_127",
    "c14_safe_exactly"
   ],
   "note": "False as stated; refuted.  The line sizes for which the check is enough are characterised exactly, for every encoder: 127 and above."
  },
  {
   "property": "C15",
   "status": "proved",
   "theorems": [
    "c15_plain_reference"
   ],
   "note": ""
  },
  {
   "property": "C16",
   "status": "proved",
   "theorems": [
    "c16_raw_reference",
    "c16_stream_reference"
   ],
   "note": ""
  },
  {
   "property": "C17",
   "status": "proved",
   "theorems": [
    "c17_decode_memory_safe",
    "c17_simd_memory_safe",
    "c17_sse_memory_safe",
    "c17_avx2_memory_safe"
   ],
   "note": "Scalar code, SIMD front-end, the SSE kernels and the 256-bit kernels; for RVV see C61, for NEON C62, for the 128-bit AVX512 code C63."
  },
  {
   "property": "C18",
   "status": "proved",
   "theorems": [
    "c18_decodeTo_in_place",
    "c18_decodeChunk_in_place"
   ],
   "note": ""
  },
  {
   "property": "C19",
   "status": "proved",
   "theorems": [
    "c19_chunking"
   ],
   "note": "Streams below 2 GiB, because of C47."
  },
  {
   "property": "C20",
   "status": "proved",
   "theorems": [
    "c20_end_detection"
   ],
   "note": ""
  },
  {
   "property": "C21",
   "status": "proved",
   "theorems": [
    "c21_state_is_pending_text"
   ],
   "note": ""
  },
  {
   "property": "C22",
   "status": "proved",
   "theorems": [
    "c22_plain_isa_independent",
    "c22_plain_sse",
    "c22_plain_avx2",
    "c22_plain_neon",
    "c22_plain_evex_partial"
   ],
   "note": "For any kernel meeting the contract, and for the SSE2, SSSE3, AVX, AVX2, VBMI2 and NEON kernels as written; for RVV see C61, for the 128-bit AVX512 code C63."
  },
  {
   "property": "C23",
   "status": "partial",
   "theorems": [
    "c23_raw_isa_independent_refuted",
    "c23_raw_every_kernel_refuted",
    "c23_raw_isa_independent_partial",
    "c23_raw_sse_partial",
    "c23_raw_avx2_partial",
    "c23_raw_avx2_refuted",
    "c23_raw_rvv_partial",
    "c23_raw_rvv_refuted",
    "c23_raw_neon_partial",
    "c23_raw_neon_refuted",
    "c23_raw_evex_partial",
    "c23_raw_evex_refuted",
    "c23_raw_exact"
   ],
   "note": "False as stated: the front-end can lose the last byte of a text ending in '=' CR LF; refuted, proved for all other texts, and characterised exactly."
  },
  {
   "property": "C24",
   "status": "proved",
   "theorems": [
    "c24_chunk_isa_independent",
    "c24_chunk_sse",
    "c24_chunk_avx2",
    "c24_chunk_evex_partial",
    "c24_chunk_in_place",
    "c24_chunking"
   ],
   "note": "For any kernel meeting the contract, and for the SSE2, SSSE3, AVX, AVX2 and VBMI2 kernels as written; for RVV see C61, for NEON C62, for the 128-bit AVX512 code C63."
  },
  {
   "property": "C25",
   "status": "proved",
   "theorems": [
    "c25_fix_eqMask"
   ],
   "note": ""
  },
  {
   "property": "C26",
   "status": "proved",
   "theorems": [
    "c26_crc32_standard",
    "c26_crc32_continues"
   ],
   "note": "Portable implementation; for the crcutil library see C64."
  },
  {
   "property": "C27",
   "status": "proved",
   "theorems": [
    "c27_incremental"
   ],
   "note": ""
  },
  {
   "property": "C28",
   "status": "proved",
   "theorems": [
    "c28_combine",
    "c28_combine_u64"
   ],
   "note": ""
  },
  {
   "property": "C29",
   "status": "proved",
   "theorems": [
    "c29_zeroes",
    "c29_zeroes_undo"
   ],
   "note": ""
  },
  {
   "property": "C30",
   "status": "partial",
   "theorems": [
    "c30_zeroes_any_length_refuted",
    "c30_zeroes_undefined_refuted",
    "c30_zeroes_any_length_partial",
    "c30_zeros_u64",
    "c30_zeroes_exact",
    "c30_zeroes_default_exact"
   ],
   "note": "False from 2^31 on (truncation to int); refuted. Up to 2^53 it is right exactly below 2^31 (every start value but ffffffff, every CRC shift). Proved below, and for all 64-bit lengths of the C function."
  },
  {
   "property": "C31",
   "status": "proved",
   "theorems": [
    "c31_commutative",
    "c31_associative",
    "c31_distributive",
    "c31_identity",
    "c31_no_zero_divisors",
    "c31_inverse",
    "c31_polynomials"
   ],
   "note": ""
  },
  {
   "property": "C32",
   "status": "proved",
   "theorems": [
    "c32_shift",
    "c32_shift_add",
    "c32_shift_undo",
    "c32_shift_default"
   ],
   "note": ""
  },
  {
   "property": "C33",
   "status": "proved",
   "theorems": [
    "c33_exponent_reduction",
    "c33_powmod_portable",
    "c33_shift_variants",
    "c33_bytepow_portable_refuted"
   ],
   "note": "For GCC, Clang and MSVC; the bytepow variant for other compilers is refuted."
  },
  {
   "property": "C34",
   "status": "partial",
   "theorems": [
    "c34_clmul_crc32_partial",
    "c34_vpclmul_crc32_partial",
    "c34_clmul_multiply",
    "c34_clmul_shift",
    "c34_arm_crc32_partial",
    "c34_rv_crc32_partial",
    "c34_arm_multiply",
    "c34_arm_shift",
    "c34_rv_multiply",
    "c34_rv_shift",
    "c56_every_length_refuted"
   ],
   "note": "All implementations: x86 (PCLMULQDQ, VPCLMULQDQ), ARM (CRC32, PMULL; AArch64 and 32-bit), RISC-V Zbc (RV64, RV32). Multiply and shift: all operands. crc32: all lengths a long can hold; for longer ones it is false (C56)."
  },
  {
   "property": "C35",
   "status": "proved",
   "theorems": [
    "c35_burst",
    "c35_burst_bits"
   ],
   "note": ""
  },
  {
   "property": "C36",
   "status": "proved",
   "theorems": [
    "c36_packed_is_big_endian",
    "c36_read_is_big_endian",
    "c36_repack"
   ],
   "note": ""
  },
  {
   "property": "C37",
   "status": "partial",
   "theorems": [
    "c37_state_accepted_refuted",
    "c37_state_accepted_partial"
   ],
   "note": "False for the states returned at the end of data; refuted. Proved for all states returned before the end."
  },
  {
   "property": "C38",
   "status": "partial",
   "theorems": [
    "c38_documented_order_refuted",
    "c38_documented_order_ignores_buffer",
    "c18_decodeChunk_in_place"
   ],
   "note": "False as documented; refuted. With the order (data, output, state) the buffer is written."
  },
  {
   "property": "C39",
   "status": "partial",
   "theorems": [
    "c39_short_destination_refuted",
    "c39_short_destination_partial"
   ],
   "note": "It returns 0 instead of throwing; refuted. The memory safety half is proved."
  },
  {
   "property": "C40",
   "status": "proved",
   "theorems": [
    "c40_parts_tile",
    "c40_parts_accepted",
    "native_module_works"
   ],
   "note": ""
  },
  {
   "property": "C41",
   "status": "proved",
   "theorems": [
    "c41_running_crc"
   ],
   "note": ""
  },
  {
   "property": "C42",
   "status": "partial",
   "theorems": [
    "c42_failed_call_unchanged_refuted",
    "c42_failed_call_unchanged_partial"
   ],
   "note": "False as stated: a rejected call increments the part number (and changes the CRC if the last part is too short); everything else is unchanged."
  },
  {
   "property": "C43",
   "status": "proved",
   "theorems": [
    "c43_single_part_roundtrip",
    "c43_single_part_created"
   ],
   "note": ""
  },
  {
   "property": "C44",
   "status": "partial",
   "theorems": [
    "c44_post_works_refuted",
    "c44_post_always_throws"
   ],
   "note": "False: post() always throws a ReferenceError; proved for all arguments."
  },
  {
   "property": "C45",
   "status": "partial",
   "theorems": [
    "c45_no_injection_refuted",
    "c45_no_injection_partial",
    "c45_injection_exact"
   ],
   "note": "False as stated: a CR LF in the file name is copied to the header; proved for names without CR LF. For names without U+0000 a line break gets in exactly when CR LF occurs in the first 256 units."
  },
  {
   "property": "C46",
   "status": "partial",
   "theorems": [
    "c46_codec_supported_partial",
    "c46_crc_supported_partial",
    "c46_detection_safe",
    "c46_codec_supported_refuted",
    "c46_leaf_limit_refuted"
   ],
   "note": "False on CPUs without SSE2 and on CPUs whose highest CPUID leaf is below 7; refuted, proved for all others. x86, run-time detection builds."
  },
  {
   "property": "C47",
   "status": "partial",
   "theorems": [
    "c47_count_refuted",
    "c47_encodeTo_misreports",
    "c47_count_partial",
    "c47_count_exact"
   ],
   "note": "False from 2 GiB on; refuted. Proved below; for decodeTo the count is right exactly below 2 GiB."
  },
  {
   "property": "C48",
   "status": "proved",
   "theorems": [
    "c48_two_bits",
    "c48_order"
   ],
   "note": ""
  },
  {
   "property": "C49",
   "status": "proved",
   "theorems": [
    "c49_sse_kernels",
    "c49_avx2_kernels"
   ],
   "note": "For the AVX512 variants of the SSE code see C63."
  },
  {
   "property": "C50",
   "status": "proved",
   "theorems": [
    "c50_from_post_total"
   ],
   "note": ""
  },
  {
   "property": "C51",
   "status": "proved",
   "theorems": [
    "c51_silent_means_verified",
    "c51_crc32_of_only_part_refuted"
   ],
   "note": ""
  },
  {
   "property": "C52",
   "status": "proved",
   "theorems": [
    "c52_multi_part_roundtrip",
    "c52_empty_part_refuted"
   ],
   "note": ""
  },
  {
   "property": "C53",
   "status": "proved",
   "theorems": [
    "c53_offsets"
   ],
   "note": ""
  },
  {
   "property": "C54",
   "status": "proved",
   "theorems": [
    "c54_best_selected",
    "c54_slow_avoided"
   ],
   "note": ""
  },
  {
   "property": "C55",
   "status": "partial",
   "theorems": [
    "c55_portable_reads_input",
    "c55_clmul_reads_input_refuted",
    "c55_clmul_reads_input_partial",
    "c55_arm_reads_input",
    "c55_rv_reads_input",
    "c55_crcutil_reads_input"
   ],
   "note": "Proved for the portable code, crcutil, the ARM and the RISC-V code; the x86 code reads up to 15 or 31 bytes past the end, refuted; proved that these stay within the aligned block and do not matter."
  },
  {
   "property": "C56",
   "status": "partial",
   "theorems": [
    "c56_every_length_refuted",
    "c56_2gib_undefined",
    "c56_every_length_partial",
    "c56_arm_rv_every_length_refuted",
    "c56_arm_rv_every_length_partial"
   ],
   "note": "False where long has 32 bits and the buffer 2 GiB or more; refuted, proved below."
  },
  {
   "property": "C57",
   "status": "partial",
   "theorems": [
    "c57_multiply_arm_defined_refuted",
    "c57_multiply_arm_overflows",
    "c57_multiply_arm_wrapping_partial"
   ],
   "note": "False: crc32_multiply_arm overflows a signed integer for all operands but zero; right where signed arithmetic wraps."
  },
  {
   "property": "C58",
   "status": "proved",
   "theorems": [
    "c58_bsr_of_zero_unused"
   ],
   "note": ""
  },
  {
   "property": "C59",
   "status": "partial",
   "theorems": [
    "c59_sse_stops_at_marker",
    "c59_avx2_stops_at_marker_partial",
    "c59_rvv_stops_at_marker_partial",
    "c59_neon_stops_at_marker_partial",
    "c59_evex_stops_at_marker_partial",
    "c59_avx3_stops_at_marker_refuted",
    "c59_evex_stops_at_marker_refuted"
   ],
   "note": "Proved for SSE2, SSSE3, AVX, AVX2, VBMI2, RVV (VLEN up to 256) and NEON.  False of builds for AVX512BW without VBMI2, refuted; harmless to the result (C24)."
  },
  {
   "property": "C60",
   "status": "partial",
   "theorems": [
    "c60_same_for_all_builds_partial",
    "c60_same_for_all_builds_refuted",
    "native_module_works"
   ],
   "note": "Proved for all modelled implementations; missing, because false and refuted: dot-unstuffing texts that end in \"=\\r\\n\" (C23)."
  },
  {
   "property": "C61",
   "status": "partial",
   "theorems": [
    "c61_rvv_kernels_partial",
    "c61_rvv_exact",
    "c61_rvv_refuted",
    "c17_rvv_memory_safe_partial",
    "c22_plain_rvv_partial",
    "c24_chunk_rvv_partial"
   ],
   "note": "Proved for VLEN 128 and 256.  False from 512 on, where the addition that resolves \"==\" is given the vector length 1: c61_rvv_exact says the contract holds exactly up to 256 bits, whatever the elements left open contain; refuted at the level of decode() for 512 by a text that decodes differently.  For the texts decoded right with any VLEN see C67."
  },
  {
   "property": "C62",
   "status": "partial",
   "theorems": [
    "c62_neon_kernels_partial",
    "c62_neon_incremental_refuted",
    "c17_neon_memory_safe_partial",
    "c24_chunk_neon_partial"
   ],
   "note": "The incremental decoders load 16 bytes behind a block of which only 4 are known to be in the source: refuted.  Proved for the other modes, and for this one where such a load (aligned, beginning inside the source) is allowed."
  },
  {
   "property": "C63",
   "status": "partial",
   "theorems": [
    "c63_evex_kernels_partial",
    "c63_evex_refuted",
    "c17_evex_memory_safe",
    "c22_plain_evex_partial",
    "c24_chunk_evex_partial"
   ],
   "note": "False of mask comparisons without fast match (AVX512 code tuned for the AMD Bobcat): a stuffed dot at the start of a block stays; refuted.  Proved for all other combinations; memory safety for all of them."
  },
  {
   "property": "C64",
   "status": "proved",
   "theorems": [
    "c64_crcutil_standard",
    "c64_crcutil_same",
    "c64_created",
    "c64_multiply",
    "c64_xpow"
   ],
   "note": "All four ways of compiling crcutil; for what the C++ standard leaves undefined in it see C65."
  },
  {
   "property": "C65",
   "status": "partial",
   "theorems": [
    "c65_crcutil_standard_refuted",
    "c65_pointer_refuted",
    "c65_crcutil_standard_partial"
   ],
   "note": "False: misaligned word access, and a pointer formed before the start of short inputs; refuted.  Proved for the lengths and alignments listed in the theorem."
  },
  {
   "property": "C66",
   "status": "partial",
   "theorems": [
    "c66_arm_supported_partial",
    "c66_arm_linux_exact",
    "c66_bsd_refuted",
    "c66_rvv_mask",
    "c66_rv_supported_partial",
    "c66_rv_bsd_refuted"
   ],
   "note": "False on FreeBSD and OpenBSD where the kernel does not provide an entry of the auxiliary vector: the variable is read uninitialised; refuted.  Proved for all other systems."
  },
  {
   "property": "C67",
   "status": "proved",
   "theorems": [
    "c67_rvv_valid_text",
    "c67_rvv_decode_valid",
    "c67_rvv_chunk_valid",
    "c67_rvv_roundtrip_plain",
    "c67_rvv_roundtrip_raw",
    "c67_rvv_roundtrip_chunks"
   ],
   "note": "Every VLEN, every content of the elements left open."
  },
  {
   "property": "C68",
   "status": "partial",
   "theorems": [
    "c17_rvv_memory_safe",
    "c68_rvv_ends_refuted",
    "c68_rvv_ends_partial"
   ],
   "note": "Within its buffers for every VLEN.  Termination proved up to VLEN 256, and for 512 and 1024 if the carries that are never written are zeros; false from 2048 on: an element that is all ones yields a carry in every round, whether it was given one or not, so the loop goes on for ever."
  },
  {
   "property": "C69",
   "status": "partial",
   "theorems": [
    "c69_native_encode_partial",
    "c69_native_decode_partial",
    "c69_native_module_partial",
    "c69_native_level",
    "c69_native_memory_safe",
    "c69_native_encode_refuted",
    "c69_native_popcnt_refuted",
    "c69_native_tune_refuted",
    "c69_native_decode_refuted"
   ],
   "note": "False for some combinations of macros, which the refutations show; proved for those of actual processors (NativeSpec.sound).  The decoders stay within their buffers for all of them."
  },
  {
   "property": "C70",
   "status": "proved",
   "theorems": [
    "c12_incremental_exact"
   ],
   "note": "Every encoder; the refutation for line size 1 is c12_line_size_one_refuted (C12)."
  },
  {
   "property": "C71",
   "status": "proved",
   "theorems": [
    "c08_min_size_exact"
   ],
   "note": "Line sizes up to INT_MAX - 6, beyond which the C int column may overflow."
  },
  {
   "property": "C72",
   "status": "proved",
   "theorems": [
    "c30_zeroes_exact",
    "c30_zeroes_default_exact"
   ],
   "note": ""
  },
  {
   "property": "C73",
   "status": "proved",
   "theorems": [
    "c45_injection_exact"
   ],
   "note": ""
  },
  {
   "property": "C74",
   "status": "proved",
   "theorems": [
    "c74_min_size_rounding",
    "c74_max_size_rounding",
    "c74_floor_of_quotient"
   ],
   "note": ""
  },
  {
   "property": "C75",
   "status": "proved",
   "theorems": [
    "c75_max_size_ratio",
    "c75_ratio_accepted",
    "c75_ratio_rejected"
   ],
   "note": "Rounding of every operation included."
  },
  {
   "property": "C76",
   "status": "proved",
   "theorems": [
    "c76_encode_room",
    "c76_encodeTo_room",
    "c76_encodeIncr_room"
   ],
   "note": "encodeTo with the smallest buffer it accepts."
  },
  {
   "property": "C77",
   "status": "partial",
   "theorems": [
    "c77_any_argument_refuted",
    "c77_any_crc_argument_refuted",
    "c77_kinds",
    "c77_encode_exact",
    "c77_encodeTo_exact",
    "c77_encodeIncr_exact",
    "c77_encodeIncr_output_exact",
    "c77_empty",
    "c77_buffers",
    "c77_combine_exact",
    "c77_zeroes_exact",
    "c77_shift_exact",
    "c77_crc_values",
    "c77_before8"
   ],
   "note": "False from Node.js 8 on: encode(data, undefined) reads undefined as a number; refuted.  Undefined exactly if an argument taken as a number is none (or outside int64_t); otherwise an error or the specified result."
  },
  {
   "property": "C78",
   "status": "partial",
   "theorems": [
    "c78_defaults_refuted",
    "c78_defaults_partial"
   ],
   "note": "False of crc32 and crc32_zeroes, whose default is documented as false: they throw; refuted.  Proved for the others."
  },
  {
   "property": "C79",
   "status": "partial",
   "theorems": [
    "c79_strip_dots_refuted",
    "c79_strip_dots_partial",
    "c79_strip_dots_exact",
    "c79_strip_dots_to_exact"
   ],
   "note": "False from Node.js 8 on: only true counts as true; refuted."
  },
  {
   "property": "C80",
   "status": "partial",
   "theorems": [
    "c80_encode",
    "c80_encodeIncr",
    "c80_decode",
    "c80_decodeIncr_partial",
    "c80_nothing_allocated",
    "c80_any_order",
    "c80_nothing_decoded",
    "c80_lost_block_refuted"
   ],
   "note": "False of decode and decodeIncr with an allocator whose realloc to 0 bytes returns NULL and keeps the block, when nothing is decoded (exactly: line ends and perhaps a last '='); refuted.  Proved for all other cases, but for the NEON incremental decoder where reading past the source is not allowed (C62)."
  },
  {
   "property": "C81",
   "status": "partial",
   "theorems": [
    "c81_no_memory",
    "c81_no_memory_decode",
    "c81_no_memory_decodeIncr_partial",
    "c81_no_memory_refuted",
    "c81_realloc_failure_refuted"
   ],
   "note": "False: neither result is checked.  If malloc fails, every encoder is undefined on every non-empty input, and every decoder on every input of which something is decoded (for incremental decoding with NEON: n_line = true only, C62); refuted."
  },
  {
   "property": "C82",
   "status": "partial",
   "theorems": [
    "c82_encodeTo_reach",
    "c82_encodeIncr_reach",
    "c82_decodeTo_reach",
    "c82_decodeIncr_reach_partial",
    "c82_encodeTo_only",
    "c82_encodeIncr_only",
    "c82_decodeTo_only",
    "c82_decodeIncr_only"
   ],
   "note": "All implementations.  Missing: decodeIncr of the NEON code where an aligned load running past the end of the source counts as undefined (n_line = false, C62); and it looks at up to 15 bytes behind the source, so there the independence is only of memory beyond those."
  },
  {
   "property": "C83",
   "status": "partial",
   "theorems": [
    "c83_little",
    "c83_big_partial",
    "c83_big_exact",
    "c83_big_decodes",
    "c83_big_each_refuted",
    "c83_big_refuted"
   ],
   "note": "False on big-endian hosts: (uint32_t)(c+42) is up to 297, and its bit 8 turns the LF of the line break into a VT; proved: nothing else differs, and nothing at all if the data has none of the 37 characters concerned; and exactly: the LFs in front of bytes below 42 are VTs, and decoding gives one byte more for each.  Refuted for each of them, and for decoding what was encoded."
  },
  {
   "property": "C84",
   "status": "proved",
   "theorems": [
    "c84_crc32",
    "c84_crc32_continues"
   ],
   "note": "The portable code only."
  },
  {
   "property": "C85",
   "status": "partial",
   "theorems": [
    "c85_little",
    "c85_big_partial",
    "c85_big_anywhere_partial",
    "c85_big_each_refuted",
    "c85_big_refuted"
   ],
   "note": "False on big-endian hosts: (word & 0xffffff) == UINT32_PACK('\\n','=','y',0) is never true there, so a control line whose CR is at the end of the previous chunk is decoded as data.  Proved same otherwise, for every kernel: without searching for the end, or if LF, '=', 'y' are not at the first aligned address.  The witness with a real kernel takes that as on little-endian hosts."
  },
  {
   "property": "C86",
   "status": "proved",
   "theorems": [
    "c86_arm",
    "c86_arm_crc32_below"
   ],
   "note": "crc_arm.cc; crc_arm_pmull.cc is modelled for little-endian targets only."
  },
  {
   "property": "C87",
   "status": "proved",
   "theorems": [
    "c87_rv",
    "c87_rv_crc32_below"
   ],
   "note": ""
  }
 ]
}