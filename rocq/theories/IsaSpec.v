(* What an x86 CPU and its operating system report about instruction sets.
   Written from the vendors' definition of CPUID and XCR0; independent of the
   code in /repo. *)
From Coq Require Import ZArith Bool List.
Import ListNotations.
Open Scope Z_scope.

(* The four registers CPUID fills in. *)
Record regs := { eax : Z; ebx : Z; ecx : Z; edx : Z }.

(* A CPU: the result of CPUID for each leaf (EAX) and sub-leaf (ECX), and the
   value XGETBV would return for XCR0. *)
Record cpu := { cpuid : Z -> Z -> regs; xcr0 : Z }.

(* The instruction sets the compiled code may use. [EVEX256] and [EVEX512] are
   the AVX-512 encodings at vector lengths up to 256 bits and of 512 bits. *)
Inductive feature :=
  | SSE2 | SSSE3 | SSE41 | PCLMUL | POPCNT | LZCNT
  | AVX | AVX2 | BMI1 | BMI2 | VPCLMUL
  | AVX512F | AVX512BW | AVX512VL | AVX512VBMI2
  | EVEX256 | EVEX512.

Definition basic_leaf (c : cpu) (l : Z) : Prop := l <= eax (cpuid c 0 0).
Definition ext_leaf (c : cpu) (l : Z) : Prop := l <= eax (cpuid c 0x80000000 0).

(* AVX10 version 1 or later (leaf 7.1 EDX bit 19, leaf 24h EBX bits 0-7); bits
   17 and 18 of leaf 24h EBX give the vector lengths 256 and 512. *)
Definition avx10_1 (c : cpu) : Prop :=
  basic_leaf c 0x24 /\
  Z.testbit (edx (cpuid c 7 1)) 19 = true /\
  1 <= (ebx (cpuid c 0x24 0)) mod 256.

Definition leaf7_ebx (c : cpu) (n : Z) : Prop :=
  basic_leaf c 7 /\ Z.testbit (ebx (cpuid c 7 0)) n = true.
Definition leaf7_ecx (c : cpu) (n : Z) : Prop :=
  basic_leaf c 7 /\ Z.testbit (ecx (cpuid c 7 0)) n = true.

(* The operating system saves the YMM state / the opmask and ZMM state. *)
Definition osxsave (c : cpu) : Prop :=
  Z.testbit (ecx (cpuid c 1 0)) 26 = true /\ Z.testbit (ecx (cpuid c 1 0)) 27 = true.
Definition ymm_enabled (c : cpu) : Prop :=
  osxsave c /\ Z.testbit (xcr0 c) 1 = true /\ Z.testbit (xcr0 c) 2 = true.
Definition zmm_enabled (c : cpu) : Prop :=
  ymm_enabled c /\ Z.testbit (xcr0 c) 5 = true /\
  Z.testbit (xcr0 c) 6 = true /\ Z.testbit (xcr0 c) 7 = true.

(* [usable c f]: instructions of [f] are reported by CPUID and their register
   state is enabled. AVX10.1 provides all the AVX-512 instruction sets listed
   here. *)
Definition usable (c : cpu) (f : feature) : Prop :=
  match f with
  | SSE2 => Z.testbit (edx (cpuid c 1 0)) 26 = true
  | SSSE3 => Z.testbit (ecx (cpuid c 1 0)) 9 = true
  | SSE41 => Z.testbit (ecx (cpuid c 1 0)) 19 = true
  | PCLMUL => Z.testbit (ecx (cpuid c 1 0)) 1 = true
  | POPCNT => Z.testbit (ecx (cpuid c 1 0)) 23 = true
  | LZCNT => ext_leaf c 0x80000001 /\ Z.testbit (ecx (cpuid c 0x80000001 0)) 5 = true
  | AVX => Z.testbit (ecx (cpuid c 1 0)) 28 = true /\ ymm_enabled c
  | AVX2 => leaf7_ebx c 5 /\ ymm_enabled c
  | BMI1 => leaf7_ebx c 3
  | BMI2 => leaf7_ebx c 8
  | VPCLMUL => leaf7_ecx c 10 /\ ymm_enabled c
  | AVX512F => (leaf7_ebx c 16 \/ avx10_1 c) /\ zmm_enabled c
  | AVX512BW => (leaf7_ebx c 30 \/ avx10_1 c) /\ zmm_enabled c
  | AVX512VL => (leaf7_ebx c 31 \/ avx10_1 c) /\ zmm_enabled c
  | AVX512VBMI2 => (leaf7_ecx c 6 \/ avx10_1 c) /\ zmm_enabled c
  | EVEX256 =>
      (leaf7_ebx c 31 \/
       (avx10_1 c /\ Z.testbit (ebx (cpuid c 0x24 0)) 17 = true)) /\ zmm_enabled c
  | EVEX512 =>
      (leaf7_ebx c 16 \/
       (avx10_1 c /\ Z.testbit (ebx (cpuid c 0x24 0)) 18 = true)) /\ zmm_enabled c
  end.

(* CPUID leaves the start-up code reads without asking whether they exist: on
   a CPU that has them, the leaf numbers up to 7 (up to 24h if it has AVX10)
   and the extended leaf 80000001h are valid. *)
Definition leaves_exist (c : cpu) : Prop :=
  basic_leaf c 7 /\ ext_leaf c 0x80000001 /\
  (Z.testbit (edx (cpuid c 7 1)) 19 = true -> basic_leaf c 0x24).

(* The CPU signature in EAX of leaf 1: family, extended family, and the model
   with its extension. *)
Definition sig_family (c : cpu) : Z := (eax (cpuid c 1 0) / 2 ^ 8) mod 16.
Definition sig_extfamily (c : cpu) : Z := (eax (cpuid c 1 0) / 2 ^ 20) mod 256.
Definition sig_model (c : cpu) : Z :=
  16 * ((eax (cpuid c 1 0) / 2 ^ 16) mod 16) + (eax (cpuid c 1 0) / 2 ^ 4) mod 16.

(* CPUs whose PSHUFB is slow: Intel Bonnell/Silvermont, AMD Bobcat; and those
   whose PBLENDVB is slow: Intel Goldmont/Tremont. *)
Definition slow_pshufb (c : cpu) : Prop :=
  (sig_family c = 6 /\ sig_extfamily c = 0 /\
   In (sig_model c) [0x1C; 0x26; 0x27; 0x35; 0x36; 0x37; 0x4A; 0x4C; 0x4D; 0x5A; 0x5D]) \/
  (sig_family c = 15 /\ sig_extfamily c = 5 /\ In (sig_model c) [0; 1; 2]).
Definition slow_pblendvb (c : cpu) : Prop :=
  sig_family c = 6 /\ sig_extfamily c = 0 /\ In (sig_model c) [0x5c; 0x5f; 0x7a; 0x9c].
