# Formal model of node-yencode: design

All Coq sources are in `rocq/theories` (Coq 8.16.1, logical prefix `Verif`).

## 1. Approach

The C++ functions are modelled one by one as total, computable Gallina
functions on a small abstract machine (`Base.v`):

* bytes are `Coq.Init.Byte.byte` (256 constructors), C integers are `Z` with the
  wrapping or the overflow check written out where it matters;
* memory is one flat `Z -> byte`; every load and store is checked against the
  source and destination buffers of the call; an access outside them, a null
  dereference of the state pointer and a signed `int` overflow give the distinct
  outcome `UB`;
* loops run on fuel computed from the input length; running out is the distinct
  outcome `NoFuel`.  Theorems conclude `Ok ...`, so they include memory safety
  and termination.

Specifications are separate files (`*Spec.v`), written without reference to the
model: a column-by-column yEnc encoder, a seven-state stream automaton for the
decoders, the bitwise CRC-32 definition and polynomial arithmetic over GF(2).

Property theorems live in `Props*.v`, which contain nothing but statements,
one-line proofs, `Print Assumptions`, and the non-vacuity examples.

## 2. Properties: what is modelled, how it is proved

See section 4 for the per-property table.

## 3. Trusted base

* Coq's kernel (and the VM for `vm_compute`).
* `Print Assumptions` of the theorems: see section 5.
* The model itself, i.e. the claim that each Gallina definition matches the C++
  or JavaScript lines cited in its comment.

Modelled, function by function:

| part | source | model |
|------|--------|-------|
| scalar encoder | `src/encoder.cc` | `EncModel.v` |
| Node wrappers and argument handling | `src/yencode.cc` | `EncNode.v`, `DecNode.v`, `CrcModel.v`, `JsArgs.v`, `HeapModel.v` |
| SSE2 to VBMI2 encode kernels of 128 bits with all compile-time choices, lookup tables | `src/encoder_sse_base.h` | `EncSseModel.v` |
| AVX2, AVX512BW and VBMI2 encode kernels of 256 bits, lookup tables | `src/encoder_avx_base.h` | `EncAvxModel.v` |
| RVV encode kernel, any vector length | `src/encoder_rvv.cc` | `EncLoopModel.v`, `EncRvvModel.v` |
| NEON encode kernel, ARMv7 and AArch64 | `src/encoder_neon.cc` | `EncLoopModel.v`, `EncNeonModel.v` |
| scalar decoders | `src/decoder.cc` | `DecModel.v` |
| SIMD decoder front-end, nextMask, fix_eqMask | `src/decoder_common.h` | `DecSimdModel.v`, `DecMaskModel.v` |
| SSE2/SSSE3/AVX decode kernels, lookup tables | `src/decoder_sse_base.h`, `src/decoder.cc` | `DecKernelModel.v`, `DecSseModel.v` |
| AVX2, AVX512 and VBMI2 256-bit decode kernels | `src/decoder_avx2_base.h` | `DecAvxModel.v` |
| AVX512 variants of the 128-bit decode kernel | `src/decoder_sse_base.h`, `src/decoder_vbmi2.cc` | `DecEvexModel.v` |
| RVV decode kernel, any vector length | `src/decoder_rvv.cc` | `DecRvvModel.v` |
| NEON decode kernels, ARMv7 and AArch64 | `src/decoder_neon.cc`, `src/decoder_neon64.cc` | `DecNeonModel.v` |
| CRC-32: tables, slice-by-4, multiply, shift, combine, zeroes, bytepow, powmod | `src/crc.cc`, `src/crc.h` | `CrcModel.v` |
| x86 CRC-32 with (V)PCLMULQDQ, its multiply and shift | `src/crc_folding.cc`, `src/crc_folding_256.cc` | `ClmulModel.v`, `Clmul256Model.v` |
| ARM CRC-32 (CRC32 and PMULL instructions), its multiply and shift | `src/crc_arm.cc`, `src/crc_arm_pmull.cc` | `ArmModel.v` |
| RISC-V CRC-32 (Zbc), its multiply and shift | `src/crc_riscv.cc` | `RvModel.v` |
| crcutil, the generic CRC-32 of x86 builds: arithmetic modulo the polynomial, tables, loops (C++, amd64 and i386 assembly, MMX intrinsics) | `crcutil-1.0/code/*`, `crcutil-1.0/examples/interface.cc`, `src/crc.cc` | `CrcUtilModel.v` |
| x86 CPU detection and dispatch (run-time builds) | `src/platform.cc`, `src/encoder.cc`, `src/decoder.cc`, `src/crc.cc`, `binding.gyp` | `IsaModel.v` |
| ARM and RISC-V CPU detection and dispatch | `src/platform.cc`, `src/encoder.cc`, `src/decoder.cc`, `src/crc.cc` | `ArmIsaModel.v` |
| Native builds: selection by compiler macros | `src/common.h`, `src/encoder.cc`, `src/decoder.cc` | `NativeModel.v` |
| JavaScript layer: decodeChunk, sizes, YEncoder, post, from_post | `index.js` | `DecNode.v`, `EncNode.v`, `JsModel.v` |

Of JavaScript: strings as lists of UTF-16 units, UTF-8 coding, trim, toLowerCase
on ASCII, objects with the properties inherited from Object.prototype; numbers
are an abstract type that is exact on integers below 2^53; for `minSize` and `maxSize` also
binary64 with rounding (`JsNum.v`).  Warnings are reduced
to their codes.

Byte order: everything is modelled for little-endian hosts, except the portable
encoder, the portable CRC, the ARM CRC without PMULL, the RISC-V CRC and the front-end of the SIMD decoders (for any kernel),
which are also modelled for big-endian ones (`EndianModel.v`, `CrcEndianModel.v`,
`ArmEndianModel.v`, `RvEndianModel.v`, `DecEndianModel.v`); the scalar decoder works on bytes only.  The kernels
themselves are not modelled for big-endian hosts.

Not modelled: the compiler, the Node/V8/N-API runtime, the garbage collector,
and the parts listed as open in section 4.

## 4. Per-property plan

| id | modelled | proof method |
|----|----------|--------------|
| C01, C02 | `do_encode_generic`, `do_decode_noend_scalar`, `do_decode_end_scalar` | refinement of both to list specifications, then induction on the data for the round trip |
| C03-C06 | same encoder | invariants over the list specification of the encoder (induction on data, column as invariant parameter) |
| C07, C08, C10 | `maxSize`, `minSize`, `YENC_MAX_SIZE` | arithmetic bound by induction on the data with a potential function over the column; C08 is false as documented, refuted by a witness and replaced by the correct bound; `minSize` is a lower bound exactly when the line size does not divide the length (EncIncr, PropsExact) |
| C09 | encoder loads/stores | part of the refinement theorem (outcome is `Ok`) |
| C11 | `do_encode_simd` with the kernel as a parameter; `do_encode_sse` for every `use_isa` and tuning macro, reads of variables never assigned undefined; `do_encode_avx2` for AVX2, AVX512BW, VBMI2; `do_encode_rvv`, `do_encode_neon` | refinement, kernel contract as a hypothesis; contract proved for these kernels: vectors computed symbolically per mask, invariant over the blocks |
| C12 | `EncodeIncr` | false at one column; refuted by witness, proved with the side condition, and the condition proved necessary (EncIncr, PropsExact); for line size 1 the column returned may be rejected by the next call |
| C13, C14 | argument handling in `yencode.cc` | case analysis; C14 refuted by witness; in `PropsIncr.v` exactly the line sizes from 127 are safe: an upper bound on line breaks, and for shorter lines that an encoder with a larger buffer behaves the same until it leaves the smaller one (`EncLocal.v`, relational proof over all encoders) |
| C15, C16 | scalar decoders | refinement to the automaton, automaton related to the textual reference |
| C17, C18 | memory model allows aliasing | refinement theorem has `dest <= src or disjoint` as only layout assumption |
| C19-C21 | `do_decode_end_scalar<true>`, `DecodeIncr`, `decodeChunk` | automaton composition over concatenation |
| C22-C24 | `_do_decode_simd` for arbitrary kernels meeting a block contract, then concrete kernels | refinement; C23 is false, refuted by witness, proved with the exact side condition |
| C25 | `fix_eqMask` | induction on the bit list with ripple-carry invariant |
| C49 | `do_decode_sse` for SSE2, SSSE3, AVX, `do_decode_avx2` for AVX2, AVX512BW, VBMI2: instructions as functions on byte lists, loop over blocks | per-position flags of a block; invariant tying escFirst, yencOffset, lfCompare/minMask to the automaton state |
| C26, C27, C35 | slice-by-4 tables, main loop | linearity over GF(2), induction on data |
| C28-C33 | multiply, shift, powmod, bytepow, combine, zeros, unzero | polynomial quotient ring; order of x by repeated squaring (`vm_compute` of a closed term); the lengths for which crc32_zeroes is right, exactly (CrcExact, PropsExact) |
| C34 | CLMUL, ARM, RISC-V CRC code | bilinearity plus finite basis check, folding invariant |
| C36 | `read_crc32`, `pack_crc32` | bit-level arithmetic |
| C37, C38, C44, C45 | `decodeChunk`, `post`, header generation in `index.js` | refuted by witnesses on the model; proved restricted versions; for C45 the exact condition on names without U+0000 (JsInject, PropsExact) |
| C39 | `DecodeTo` | case analysis (documented throw does not happen) |
| C40-C42 | `YEncoder` as a state machine | induction over call histories |
| C43, C52 | `from_post`, `decoderParseLines`, `bufferFind`, `bufferFindRev` | symbolic parsing of the generated article, line by line |
| C50, C51, C53 | `from_post` on arbitrary Buffers | invariants of the header loop and of the property objects |
| C46, C54 | `cpu_supports_isa`, `cpu_supports_crc_isa` and the init functions (`IsaModel.v`) | bit-level case analysis over all register values; false without SSE2 or below leaf 7, refuted |
| C47 | return values of `EncodeTo`, `DecodeTo`, `decodeChunk` | false from 2 GiB on (32-bit return value), refuted; proved below; exact for `decodeTo` (PropsExact) |
| C55 | same code as C34 | false (aligned loads run past the end), refuted; the effect is confined, proved |
| C56 | same code as C34 | false where long has 32 bits, refuted; proved below 2 GiB |
| C57 | `crc32_multiply_arm` with signed overflow as an outcome | false, refuted; overflows for every non-zero operand, proved |
| C58 | same kernels, BSR32(0) as a parameter | the parameter drops out of the computation |
| C59 | same kernels | the same proof with one more conjunct: a break implies a marker in the block; false for AVX512BW without VBMI2 (mask 0xff01 for 0xff00), refuted by witness |
| C60 | all implementations above as inductive families (`JsBuilds.v`), the module as a record of any four of them | the per-implementation theorems give `works` for every combination; `from_post` depends on the module only through decode and crc32; the texts C23 excludes refute the full claim |
| C61 | `do_decode_rvv` with VLEN and the contents of unwritten elements as parameters (`DecRvvModel.v`) | as C49, masks as bit lists; false from VLEN 512 on (additions of lines 223 and 229 given the vector length 1), refuted by witness; `c61_rvv_exact`: the contract holds exactly up to 256 bits |
| C62 | `do_decode_neon` of both files with a block as a list of vectors (`DecNeonModel.v`); a parameter says whether aligned reads may run past the source | as C49; the incremental mode reads 16 bytes where 4 are guaranteed, refuted by witness; proved with that read allowed, and without it for the other two modes |
| C63 | `do_decode_sse` with `use_isa` at AVX512 levels, sharing the block of C49 and replacing three of its steps | the proof of C49 with those steps as parameters; refuted by a witness for mask comparisons without fast match; memory safety for all combinations by the framework of `DecSafe.v`, which looks only at addresses and lengths (`DecEvexSafe.v`) |
| C64 | crcutil as `src/crc.cc` uses it (`CrcUtilModel.v`): the constructor runs in the model, the four compiled forms of the loop share one definition with the table lookups and loop ends of each as cases | loop invariant: the four interleaved registers stand for one CRC; tables checked entry by entry (a finite sweep); arithmetic by the ring laws of `CrcAlg.v` |
| C65 | same model, a parameter makes misaligned word access and pointers before the buffer undefined | false, refuted by witnesses; proved for the listed lengths and alignments |
| C66 | `cpu_supports_neon`, `cpu_supports_rvv`, the ARM and RISC-V parts of the init functions, per operating system (`ArmIsaModel.v`); what systems report is specified in `ArmIsaSpec.v` | bit-level case analysis; an entry missing from the auxiliary vector refutes it on FreeBSD and OpenBSD |
| C67 | the same kernel, texts without invalid escape sequences (`valid_escapes`) | the path that goes wrong is entered only for "==" and the like: contract restricted to such texts (`kernel_ok_on`), front-end proof generalised to it (`simd_run_on`); the results for whole calls through a decoder that turns to the scalar code for other texts (`guarded`, `DecRvvValid.v`) |
| C68 | the same kernel; the number of rounds of its loop over carries that are followed is a parameter, `NoFuel` is the outcome when they are used up | safety by a rule for each construct of the monad (`may`, `DecSafe.v`), for any kernel and front-end; termination is false from VLEN 2048 on: `c68_rvv_ends_refuted` gives the text for every such VLEN and every number of rounds; proved up to 256 bits, and up to 1024 for zero carries |
| C69 | the choices of the native build (`NativeModel.v`): ISA_NATIVE, tuning macros, POPCNT and LZCNT as parameters of the kernels of C11, C49 and C63 | case analysis over the macros, then the theorems on the kernels; refuted by witnesses for macros that contradict the instruction level; memory safety of the decoders for every combination |
| C70-C73 | the functions of C12, C08, C30 and C45 | the exact conditions (EncIncr, CrcExact, JsInject; theorems in PropsExact): both directions, the converse by the character after the break (never CR), by data of zero bytes, by the order of x, and by the UTF-8 form of CR LF |
| C74, C75 | `minSize` and `maxSize` with numbers rounded to binary64 after each operation (`JsNum.v`: rationals and a computable rounding function) | relative error at most 2^-53, exactness on integers below 2^53; the error of a quotient a/b is below 1/b; '=' in the text counts the escaped characters |
| C76 | `YENC_MAX_SIZE`, `encode`, `encodeTo` and `encodeIncr` with the 32 byte room of `YENC_DISABLE_AVX256` builds (`EncNode.v`, parameter `no256`) | the memory-safety invariant of every encoder is proved with 32 bytes beyond the longest text, which both sizes leave |
| C77-C79 | the argument handling of all functions in `src/yencode.cc` on arbitrary JavaScript values, with the conversions of Node.js before 8 and from 8 on (`JsArgs.v`) | case analysis of the arguments: meant, out of range, ill-typed (`JsArgsSpec.v`); all three properties are false from Node.js 8 on, refuted, and the exact conditions proved.  The effect of V8's unchecked casts is taken from V8's sources |
| C80, C81 | the allocated blocks before and after `Encode`, `EncodeIncr`, `Decode`, `DecodeIncr` and `free_buffer` in `src/yencode.cc`, with an allocator that may move blocks and may fail (`HeapModel.v`) | the encoders and decoders write only inside the block (`an_encoder_local`, `runs_none`, `runs_end`), realloc hands its content on; induction over histories of calls and finalisers; refuted where realloc to 0 keeps the block and where malloc or realloc fails; by locality of the encoders and decoders, a failed malloc is undefined behaviour for all of them |
| C82 | all encoders and decoders | locality (`EncLocal.v`, `DecLocal.v`): a relational proof over every kernel that a run with a larger destination, or with other memory around the buffers, does the same; together with the memory safety of a run in the smallest sufficient destination this bounds what is written; for the NEON decoder the 15 bytes behind the source count as looked at |
| C83 | `do_encode_generic` with the packing macros, table and stores of either byte order (`EndianModel.v`) | simulation against the little-endian model: same control flow, and the text differs at most in line feeds that became vertical tabs; a second simulation with the place the unrolled loop may go back to (`EndianExact.v`) says which: those in front of bytes below 42; by induction over the grammar of the text, decoding gives one byte more for each (`EndianDecode.v`); refuted on big-endian hosts |
| C84 | `do_crc32_incremental_generic` with word loads of either byte order and `bswap32` (`CrcEndianModel.v`) | a swapped big-endian load is a little-endian load (byte-wise, by linearity of `bswap32`), so both runs are the same; then C26 |
| C85 | `_do_decode_simd` with loads and packing macros of either byte order, any kernel (`DecEndianModel.v`) | the 16-bit comparisons are the same on both; the masked 32-bit one is never true on big-endian hosts; equality of the runs elsewhere; refuted for LF, '=', 'y' after CR |
| C86 | `arm_crc_calc` with loads of either byte order and `_LE16/32/64` (`ArmEndianModel.v`) | byte-wise: swapping a big-endian load gives the little-endian one; equality of the runs |
| C87 | `read_full`, `read_partial` (memcpy into a zero word, then SWAP) and `rv_crc_calc` for either byte order (`RvEndianModel.v`) | byte-wise, as C86; padding with zero bytes changes nothing; equality of the runs |
| C48 | same CRC code as C26 | exact order of x (prime factors of 2^32-1), bit-level form of the CRC |

## 5. Assumptions per theorem

`Print Assumptions` follows every theorem in the `Props*.v` files and prints
"Closed under the global context" for all of them: no axioms are used, neither
own ones nor those of the standard library.
