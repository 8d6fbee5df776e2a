(* What operating systems report about ARM and RISC-V CPUs.  Written from the
   headers of the systems (asm/hwcap.h, sys/auxv.h, asm/hwprobe.h, winnt.h) and
   the RISC-V convention that bit 0 of the hwcap word is extension A, bit 1
   extension B and so on; independent of the code in /repo. *)
From Coq Require Import ZArith Bool List.
Import ListNotations.
Open Scope Z_scope.

(** ** ARM *)

Inductive arm_feature := F_NEON | F_CRC32 | F_PMULL.

Inductive auxv_type := HWCAP | HWCAP2.
Inductive sysctl_name := Hw_neon | Hw_crc32 | Hw_pmull.

(* A running system: [executes] is what the CPU can do; the rest is what the
   operating system says.  [auxv] is None for an entry that is not there, [sysctl]
   for a name that is not known; [android] and [windows] are the features
   android_getCpuFeatures and IsProcessorFeaturePresent report. *)
Record arm_system := {
  executes : arm_feature -> bool;
  auxv : auxv_type -> option Z;
  sysctl : sysctl_name -> option Z;
  android : arm_feature -> bool;
  windows : arm_feature -> bool }.

(* The bit of the auxiliary vector that stands for a feature (Linux, FreeBSD and OpenBSD). *)
Definition hwcap_bit (aarch64 : bool) (f : arm_feature) : auxv_type * Z :=
  match f, aarch64 with
  | F_NEON, true => (HWCAP, 1)  | F_NEON, false => (HWCAP, 12)
  | F_PMULL, true => (HWCAP, 4) | F_PMULL, false => (HWCAP2, 1)
  | F_CRC32, true => (HWCAP, 7) | F_CRC32, false => (HWCAP2, 4)
  end.
Definition sysctl_of (f : arm_feature) : sysctl_name :=
  match f with F_NEON => Hw_neon | F_CRC32 => Hw_crc32 | F_PMULL => Hw_pmull end.

(* The system does not claim a feature the CPU does not have. *)
Definition truthful (aarch64 : bool) (s : arm_system) : Prop := forall f, executes s f = false ->
  (forall v, auxv s (fst (hwcap_bit aarch64 f)) = Some v -> Z.testbit v (snd (hwcap_bit aarch64 f)) = false) /\
  (forall v, sysctl s (sysctl_of f) = Some v -> v = 0) /\
  android s f = false /\ windows s f = false.

(** ** RISC-V *)

(* The single-letter extensions by their letter, Zbc and Zbkc. *)
Inductive rv_feature := F_ext (letter : Z) | F_Zbc | F_Zbkc.
Definition letter_A := 65.
(* The letters of IMAFDCV, what code compiled for rv64gcv uses. *)
Definition IMAFDCV : list Z := [73; 77; 65; 70; 68; 67; 86].

(* [hwprobe]: the value of RISCV_HWPROBE_KEY_IMA_EXT_0, or None if the call fails. *)
Record rv_system := { rv_executes : rv_feature -> bool; rv_auxv : option Z; hwprobe : option Z }.

Definition rv_truthful (s : rv_system) : Prop :=
  (forall l v, letter_A <= l < letter_A + 26 -> rv_executes s (F_ext l) = false -> rv_auxv s = Some v -> Z.testbit v (l - letter_A) = false) /\
  (forall v, hwprobe s = Some v -> (rv_executes s F_Zbc = false -> Z.testbit v 7 = false) /\
                                   (rv_executes s F_Zbkc = false -> Z.testbit v 9 = false)).

(* The system reports exactly the features the CPU has. *)
Definition exact_auxv (aarch64 : bool) (s : arm_system) : Prop := forall f,
  executes s f = match auxv s (fst (hwcap_bit aarch64 f)) with
                 | Some v => Z.testbit v (snd (hwcap_bit aarch64 f))
                 | None => false
                 end.
