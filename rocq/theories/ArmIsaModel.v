(* Model of the run-time CPU detection and dispatch on ARM and RISC-V:
   /repo/src/platform.cc 1-56 and 191-213, and the ARM and RISC-V parts of
   RapidYenc::encoder_init (/repo/src/encoder.cc 190-197), RapidYenc::decoder_init
   (/repo/src/decoder.cc 421-428) and RapidYenc::crc32_init (/repo/src/crc.cc 239-296).

   Which branch of the #if chains is compiled depends on the operating system and
   its headers; [arm_os] lists the cases. *)
From Coq Require Import ZArith Bool List.
From Verif Require Import ArmIsaSpec.
Import ListNotations.
Open Scope Z_scope.

(* [OS_auxv bsd]: sys/auxv.h and the HWCAP macros are there; [bsd] is FreeBSD or
   OpenBSD, where the values come from elf_aux_info.  [OS_other]: none of the
   above is there (platform.cc 50-54, crc.cc 271-277). *)
Inductive arm_os := OS_auxv (bsd : bool) | OS_android | OS_windows | OS_apple | OS_other.

(* A build: operating system, __aarch64__, whether the compiler was asked to assume
   the CRC and crypto instructions everywhere (__ARM_FEATURE_CRC32,
   __ARM_FEATURE_CRYPTO in crc.cc), and which per-ISA files have been compiled with their instructions
   (__ARM_NEON in encoder_neon.cc and decoder_neon*.cc; __ARM_FEATURE_CRC32 in
   crc_arm.cc; __ARM_FEATURE_CRYPTO and __ARM_FEATURE_CRC32 in crc_arm_pmull.cc). *)
Record arm_build := {
  os : arm_os; aarch64 : bool; assume_crc : bool; assume_crypto : bool;
  c_neon : bool; c_armcrc : bool; c_pmull : bool }.

(* The value of a local variable or call; [Uninit] is reading a variable nothing has
   been stored in, which is undefined. *)
Inductive read := Val (v : Z) | Uninit.

(* getauxval is 0 for an entry that is not there (getauxval(3)); elf_aux_info then
   returns an error and leaves its buffer alone: platform.cc 23-24, crc.cc 210-214. *)
Definition getauxval (bsd : bool) (s : arm_system) (t : auxv_type) : read :=
  match auxv s t with
  | Some v => Val v
  | None => if bsd then Uninit else Val 0
  end.

(* [x & mask] converted to bool; None is undefined behaviour. *)
Definition masked (x : read) (mask : Z) : option bool :=
  match x with Val v => Some (negb (Z.land v mask =? 0)) | Uninit => None end.

(* The macros of the system headers. *)
Definition HWCAP_ASIMD := 0x2.
Definition HWCAP_PMULL := 0x10.
Definition HWCAP_CRC32 := 0x80.
Definition HWCAP_NEON := 0x1000.
Definition HWCAP2_PMULL := 0x2.
Definition HWCAP2_CRC32 := 0x10.

(* sysctlbyname into an int that is 0 before: platform.cc 44-48, crc.cc 242-248. *)
Definition sysctl_bool (s : arm_system) (n : sysctl_name) : bool :=
  match sysctl s n with Some v => negb (v =? 0) | None => false end.

(* RapidYenc::cpu_supports_neon, platform.cc 20-55. *)
Definition cpu_supports_neon (b : arm_build) (s : arm_system) : option bool :=
  match os b with
  | OS_auxv bsd => masked (getauxval bsd s HWCAP) (if aarch64 b then HWCAP_ASIMD else HWCAP_NEON)
  | OS_android => Some (android s F_NEON)
  | OS_windows => Some (windows s F_NEON)
  | OS_apple => Some (sysctl_bool s Hw_neon)
  | OS_other => Some (aarch64 b)
  end.

(* crc.cc 240-283: supports_crc and supports_pmull.  The 64-bit headers define
   HWCAP_CRC32 and HWCAP_PMULL, the 32-bit ones HWCAP2_CRC32 and HWCAP2_PMULL. *)
Definition supports_crc (b : arm_build) (s : arm_system) : option bool :=
  match os b with
  | OS_auxv bsd => if aarch64 b then masked (getauxval bsd s HWCAP) HWCAP_CRC32
                   else masked (getauxval bsd s HWCAP2) HWCAP2_CRC32
  | OS_android => Some (android s F_CRC32)
  | OS_windows => Some (windows s F_CRC32)
  | OS_apple => Some (sysctl_bool s Hw_crc32)
  | OS_other => Some (assume_crc b)
  end.
Definition supports_pmull (b : arm_build) (s : arm_system) : option bool :=
  match os b with
  | OS_auxv bsd => if aarch64 b then masked (getauxval bsd s HWCAP) HWCAP_PMULL
                   else masked (getauxval bsd s HWCAP2) HWCAP2_PMULL
  | OS_android => Some (android s F_PMULL)
  | OS_windows => Some (windows s F_PMULL)
  | OS_apple => Some (sysctl_bool s Hw_pmull)
  | OS_other => Some (assume_crypto b)
  end.

(* The code selected. *)
Inductive arm_codec := A_generic | A_neon.
Inductive arm_crc := C_generic | C_arm.
Inductive arm_mul := M_generic | M_arm | M_pmull.

(* encoder_init and decoder_init; encoder_neon_init and decoder_set_neon_funcs do nothing
   without __ARM_NEON (encoder_neon.cc 548-550, decoder_neon.cc 460-462, decoder_neon64.cc 444-446). *)
Definition arm_codec_init (b : arm_build) (s : arm_system) : option arm_codec :=
  match cpu_supports_neon b s with
  | Some yes => Some (if yes && c_neon b then A_neon else A_generic)
  | None => None
  end.
(* crc32_init, crc.cc 239-289; crc_arm_set_funcs (crc_arm.cc 214-226) keeps the generic
   multiply and shift on 32-bit ARM; crc_pmull_set_funcs (crc_arm_pmull.cc 207-215). *)
Definition arm_crc_init (b : arm_build) (s : arm_system) : option (arm_crc * arm_mul) :=
  match supports_crc b s, supports_pmull b s with
  | Some crc, Some pmull =>
    Some (if crc then
            (if c_armcrc b then C_arm else C_generic,
             if pmull && c_pmull b then M_pmull else if c_armcrc b && aarch64 b then M_arm else M_generic)
          else (C_generic, M_generic))
  | _, _ => None
  end.

(* The instructions each uses, by the compiler options of binding.gyp 304-452: NEON;
   "-march=armv8-a+crc"; "-march=armv8-a+crc+crypto" with NEON registers. *)
Definition codec_uses (i : arm_codec) : list arm_feature := match i with A_generic => [] | A_neon => [F_NEON] end.
Definition crc_uses (i : arm_crc) : list arm_feature := match i with C_generic => [] | C_arm => [F_CRC32] end.
Definition mul_uses (i : arm_mul) : list arm_feature :=
  match i with M_generic => [] | M_arm => [F_CRC32] | M_pmull => [F_CRC32; F_PMULL] end.

(* Conditions of the properties.  The compiler was told the truth about the CPUs the build is for
   (all AArch64 CPUs have NEON); where elf_aux_info is used, the kernel provides both entries. *)
Definition meant_for (b : arm_build) (s : arm_system) : Prop :=
  (aarch64 b = true -> executes s F_NEON = true) /\
  (assume_crc b = true -> executes s F_CRC32 = true) /\ (assume_crypto b = true -> executes s F_PMULL = true).
Definition entries_there (b : arm_build) (s : arm_system) : Prop := os b = OS_auxv true -> forall t, auxv s t <> None.

(** ** RISC-V *)

(* [rv_at_hwcap]: sys/auxv.h is there; [rv_bsd]: FreeBSD or OpenBSD; [rv_probe]: asm/hwprobe.h is
   there; [c_rvv], [c_zbc]: encoder_rvv.cc and decoder_rvv.cc, crc_riscv.cc compiled with their instructions. *)
Record rv_build := { rv_at_hwcap : bool; rv_bsd : bool; rv_probe : bool; c_rvv : bool; c_zbc : bool }.

(* RapidYenc::cpu_supports_rvv, platform.cc 201-212. *)
Definition cpu_supports_rvv (b : rv_build) (s : rv_system) : option bool :=
  if rv_at_hwcap b then
    match rv_auxv s with
    | Some v => Some (Z.land v 0x20112D =? 0x20112D)
    | None => if rv_bsd b then None else Some (Z.land 0 0x20112D =? 0x20112D)
    end
  else Some false.

Inductive rv_codec := V_generic | V_rvv.
Inductive rv_crc := R_generic | R_zbc.

(* encoder.cc 194-197, decoder.cc 425-428; encoder_rvv_init and decoder_set_rvv_funcs do nothing
   without __riscv_vector. *)
Definition rv_codec_init (b : rv_build) (s : rv_system) : option rv_codec :=
  match cpu_supports_rvv b s with
  | Some yes => Some (if yes && c_rvv b then V_rvv else V_generic)
  | None => None
  end.
(* crc.cc 284-295; crc_riscv_set_funcs, crc_riscv.cc 241-251. *)
Definition rv_crc_init (b : rv_build) (s : rv_system) : rv_crc :=
  let rv_hwprobe_ext_zbc := Z.shiftl 1 7 in
  let rv_hwprobe_ext_zbkc := Z.shiftl 1 9 in
  match (if rv_probe b then hwprobe s else None) with
  | Some value =>
    if negb (Z.land value (Z.lor rv_hwprobe_ext_zbc rv_hwprobe_ext_zbkc) =? 0) && c_zbc b then R_zbc else R_generic
  | None => R_generic
  end.
