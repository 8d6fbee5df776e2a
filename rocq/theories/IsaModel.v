(* Model of the run-time CPU detection and dispatch on x86:
   /repo/src/platform.cc 98-187, /repo/src/encoder.cc 172-203,
   /repo/src/decoder.cc 403-429, /repo/src/crc.cc 230-238 and the *_init /
   *_set_*_funcs functions of the per-ISA files.

   Not modelled: YENC_BUILD_NATIVE builds (no run-time detection, the choice is
   made by the compiler), and MSVC before 2010. C ints are mathematical
   integers; only bit tests and comparisons with constants are made on them. *)
From Coq Require Import ZArith Bool List.
From Verif Require Import IsaSpec.
Import ListNotations.
Open Scope Z_scope.

(* enum YEncDecIsaLevel, /repo/src/common.h 225-240. *)
Definition ISA_FEATURE_POPCNT := 0x1.
Definition ISA_FEATURE_LZCNT := 0x2.
Definition ISA_FEATURE_EVEX512 := 0x4.
Definition ISA_LEVEL_SSE2 := 0x100.
Definition ISA_LEVEL_SSSE3 := 0x200.
Definition ISA_LEVEL_SSE41 := 0x300.
Definition ISA_LEVEL_AVX := 0x381.
Definition ISA_LEVEL_AVX2 := 0x403.
Definition ISA_LEVEL_AVX3 := 0x507.
Definition ISA_LEVEL_VBMI2 := 0x603.

(* [x & m] used as a condition. *)
Definition any (x m : Z) : bool := negb (Z.land x m =? 0).
(* [(x & m) == m]. *)
Definition all (x m : Z) : bool := Z.land x m =? m.

(* _GET_XCR, /repo/src/platform.cc 79-83. XGETBV raises #UD when
   CPUID.1:ECX.OSXSAVE is clear; that is [None]. *)
Definition _GET_XCR (c : cpu) : option Z :=
  if Z.testbit (ecx (cpuid c 1 0)) 27 then Some (xcr0 c) else None.

(* family and model, /repo/src/platform.cc 110-111. *)
Definition cpu_family (a : Z) : Z :=
  Z.land (Z.shiftr a 8) 0xf + Z.land (Z.shiftr a 16) 0xff0.
Definition cpu_model (a : Z) : Z :=
  Z.land (Z.shiftr a 4) 0xf + Z.land (Z.shiftr a 12) 0xf0.

Definition oneof (x : Z) (l : list Z) : bool := existsb (Z.eqb x) l.

(* RapidYenc::cpu_supports_isa, /repo/src/platform.cc 98-167. [None] means
   XGETBV was executed on a CPU that does not have it. _cpuid1 and _cpuid1x
   do not set ECX; leaves 1 and 80000001h have no sub-leaves. *)
Definition cpu_supports_isa (c : cpu) : option Z :=
  let flags := cpuid c 1 0 in
  let ret := 0 in
  let ret := if any (ecx flags) 0x800000 then Z.lor ret ISA_FEATURE_POPCNT else ret in
  let flags2 := cpuid c 0x80000001 0 in
  let ret := if any (ecx flags2) 0x20
             then Z.lor ret (Z.lor ISA_FEATURE_LZCNT ISA_FEATURE_POPCNT) else ret in
  let family := cpu_family (eax flags) in
  let model := cpu_model (eax flags) in
  if (family =? 6) && oneof model [0x1C; 0x26; 0x27; 0x35; 0x36; 0x37; 0x4A; 0x4C; 0x4D; 0x5A; 0x5D]
  then Some (Z.lor ret ISA_LEVEL_SSE2)
  else if (family =? 0x5f) && oneof model [0; 1; 2]
  then Some (Z.lor ret ISA_LEVEL_SSE2)
  else if all (ecx flags) 0x200 then
    if (family =? 6) && oneof model [0x5c; 0x5f; 0x7a; 0x9c]
    then Some (Z.lor ret ISA_LEVEL_SSSE3)
    else if any (ecx flags) 0x80000 then
      if all (ecx flags) 0x1C800000 then
        match _GET_XCR c with
        | None => None
        | Some x =>
          let xcr := Z.land x 0xff in
          if all xcr 6 then
            let cpuInfo := cpuid c 7 0 in
            if all (ebx cpuInfo) 0x128 && any ret ISA_FEATURE_LZCNT then
              let avx512 :=
                if all (ebx cpuInfo) 0xC0010000 then
                  let ret := Z.lor ret ISA_FEATURE_EVEX512 in
                  if any (ecx cpuInfo) 0x40
                  then Some (Z.lor ret ISA_LEVEL_VBMI2)
                  else Some (Z.lor ret ISA_LEVEL_AVX3)
                else Some (Z.lor ret ISA_LEVEL_AVX2) in
              if all xcr 0xE0 then
                if any (edx (cpuid c 7 1)) 0x80000 then
                  let b := ebx (cpuid c 0x24 0) in
                  if (1 <=? Z.land b 0xff) && any b 0x20000 then
                    let ret := if any b 0x40000 then Z.lor ret ISA_FEATURE_EVEX512 else ret in
                    Some (Z.lor ret ISA_LEVEL_VBMI2)
                  else avx512
                else avx512
              else Some (Z.lor ret ISA_LEVEL_AVX2)
            else Some (Z.lor ret ISA_LEVEL_AVX)
          else Some (Z.lor ret ISA_LEVEL_SSE41)
        end
      else Some (Z.lor ret ISA_LEVEL_SSE41)
    else Some (Z.lor ret ISA_LEVEL_SSSE3)
  else Some (Z.lor ret ISA_LEVEL_SSE2).

(* RapidYenc::cpu_supports_crc_isa, /repo/src/platform.cc 169-187. *)
Definition cpu_supports_crc_isa (c : cpu) : option Z :=
  let flags := cpuid c 1 0 in
  if all (ecx flags) 0x80202 then
    if all (ecx flags) 0x1C000000 then
      match _GET_XCR c with
      | None => None
      | Some x =>
        let xcr := Z.land x 0xff in
        if all xcr 6 then
          let cpuInfo := cpuid c 7 0 in
          if all (ebx cpuInfo) 0x20 && all (ecx cpuInfo) 0x400 then Some 2 else Some 1
        else Some 1
      end
    else Some 1
  else Some 0.

(* What the compiler provided: whether each per-ISA file was compiled with its
   instruction set ("#if" at the top of /repo/src/encoder_sse2.cc,
   encoder_ssse3.cc, encoder_avx.cc, encoder_avx2.cc, encoder_vbmi2.cc and the
   decoder files of the same names, crc_folding.cc, crc_folding_256.cc), and
   [no_evex512]: the vbmi2 files were compiled for AVX10/256
   (encoder_has_avx10 / decoder_has_avx10, encoder_vbmi2.cc 4-8). YENC_DISABLE_AVX256
   is [c_avx2 = false], [c_clmul256 = false]. *)
Record build := {
  c_sse2 : bool; c_ssse3 : bool; c_avx : bool; c_avx2 : bool; c_vbmi2 : bool;
  no_evex512 : bool; c_clmul : bool; c_clmul256 : bool }.

(* The condition of encoder_vbmi2.cc 4: without __AVX512VBMI2__ it is false. *)
Definition has_avx10 (b : build) : bool := no_evex512 b && c_vbmi2 b.

(* The code selected: the portable functions or those of one per-ISA file. *)
Inductive impl := I_generic | I_sse2 | I_ssse3 | I_avx | I_avx2 | I_vbmi2.

(* encoder_*_init (encoder_sse2.cc 7-14, encoder_ssse3.cc 9-18, encoder_avx.cc 7-16,
   encoder_avx2.cc 7-16, encoder_vbmi2.cc 14-33); decoder_set_*_funcs are the
   same (decoder_sse2.cc 29-39, decoder_ssse3.cc 6-18, decoder_avx.cc 6-18,
   decoder_avx2.cc 6-17, decoder_vbmi2.cc 14-33). *)
Definition sse2_init (b : build) : impl := if c_sse2 b then I_sse2 else I_generic.
Definition ssse3_init (b : build) : impl := if c_ssse3 b then I_ssse3 else sse2_init b.
Definition avx_init (b : build) : impl := if c_avx b then I_avx else ssse3_init b.
Definition avx2_init (b : build) : impl := if c_avx2 b then I_avx2 else avx_init b.
Definition vbmi2_init (b : build) : impl := if c_vbmi2 b then I_vbmi2 else avx2_init b.

(* RapidYenc::encoder_init, /repo/src/encoder.cc 172-193 (x86 part), and
   RapidYenc::decoder_init, /repo/src/decoder.cc 403-420, which is the same. *)
Definition codec_init (b : build) (c : cpu) : option impl :=
  match cpu_supports_isa c with
  | None => None
  | Some use_isa =>
    Some (
      if (ISA_LEVEL_VBMI2 <=? use_isa) && (has_avx10 b || any use_isa ISA_FEATURE_EVEX512)
      then vbmi2_init b
      else if ISA_LEVEL_AVX2 <=? use_isa then avx2_init b
      else if ISA_LEVEL_AVX <=? use_isa then avx_init b
      else if ISA_LEVEL_SSSE3 <=? use_isa then ssse3_init b
      else sse2_init b)
  end.

Inductive crc_impl := K_generic | K_clmul | K_clmul256.

(* crc_clmul_set_funcs (crc_folding.cc 502-512), crc_clmul256_set_funcs
   (crc_folding_256.cc 213-222). *)
Definition clmul_init (b : build) : crc_impl := if c_clmul b then K_clmul else K_generic.
Definition clmul256_init (b : build) : crc_impl :=
  if c_clmul256 b then K_clmul256 else clmul_init b.

(* RapidYenc::crc32_init, /repo/src/crc.cc 230-238 (x86 part). *)
Definition crc_init (b : build) (c : cpu) : option crc_impl :=
  match cpu_supports_crc_isa c with
  | None => None
  | Some support =>
    Some (if support =? 2 then clmul256_init b
          else if support =? 1 then clmul_init b else K_generic)
  end.

(* The instruction sets each file is compiled with, /repo/binding.gyp: -msse2,
   -mssse3, "-mavx -mpopcnt", "-mavx2 -mpopcnt -mbmi -mbmi2 -mlzcnt",
   "-mavx512vbmi2 -mavx512vl -mavx512bw -mpopcnt -mbmi -mbmi2 -mlzcnt" (and
   -mno-evex512), "-mssse3 -msse4.1 -mpclmul", "-mavx2 -mvpclmulqdq -mpclmul".
   Each of the SSE/AVX options turns on those before it. SSE3 and SSE4.2 are
   left out of this list: every CPU with SSSE3, respectively AVX, has them. *)
Definition needs (b : build) (i : impl) : list feature :=
  match i with
  | I_generic => []
  | I_sse2 => [SSE2]
  | I_ssse3 => [SSE2; SSSE3]
  | I_avx => [SSE2; SSSE3; SSE41; AVX; POPCNT]
  | I_avx2 => [SSE2; SSSE3; SSE41; AVX; AVX2; POPCNT; BMI1; BMI2; LZCNT]
  | I_vbmi2 =>
      [SSE2; SSSE3; SSE41; AVX; AVX2; AVX512F; AVX512BW; AVX512VL; AVX512VBMI2;
       POPCNT; BMI1; BMI2; LZCNT; EVEX256]
      ++ (if has_avx10 b then [] else [EVEX512])
  end.
(* crc_clmul256_set_funcs keeps multiply and shift of crc_folding.cc. *)
Definition crc_needs (i : crc_impl) : list feature :=
  match i with
  | K_generic => []
  | K_clmul => [SSE2; SSSE3; SSE41; PCLMUL]
  | K_clmul256 => [SSE2; SSSE3; SSE41; AVX; AVX2; VPCLMUL; PCLMUL]
  end.
