(* C66: the choice of implementation on ARM and RISC-V.  What systems report is in
   ArmIsaSpec.v. *)
From Coq Require Import ZArith Bool List Lia.
From Verif Require Import ArmIsaSpec ArmIsaModel ArmIsaProofs.
Import ListNotations.
Open Scope Z_scope.

(* A Cortex-A72 under 64-bit and 32-bit Linux, and a 32-bit ARM CPU whose kernel has no AT_HWCAP2. *)
Definition a72_64 : arm_system := {| executes := fun _ => true; auxv := fun t => match t with HWCAP => Some 0xFF | HWCAP2 => Some 0 end;
  sysctl := fun _ => None; android := fun _ => false; windows := fun _ => false |}.
Definition a72_32 : arm_system := {| executes := fun _ => true; auxv := fun t => match t with HWCAP => Some 0x3FB0D6 | HWCAP2 => Some 0x1F end;
  sysctl := fun _ => None; android := fun _ => false; windows := fun _ => false |}.
Definition old_arm : arm_system := {| executes := fun f => match f with F_NEON => true | _ => false end;
  auxv := fun t => match t with HWCAP => Some 0x3FB0D6 | HWCAP2 => None end;
  sysctl := fun _ => None; android := fun _ => false; windows := fun _ => false |}.
Definition arm_full (o : arm_os) (a64 : bool) : arm_build := {| os := o; aarch64 := a64; assume_crc := false; assume_crypto := false;
  c_neon := true; c_armcrc := true; c_pmull := true |}.

(* Start-up selects something and what it selects the CPU can run, on every system that does
   not claim features the CPU lacks.  Missing: FreeBSD and OpenBSD kernels that do not provide
   an entry of the auxiliary vector; the claim is false there, see below. *)
Theorem c66_arm_supported_partial : forall b s, truthful (aarch64 b) s -> meant_for b s -> entries_there b s ->
  exists codec crc mul, arm_codec_init b s = Some codec /\ arm_crc_init b s = Some (crc, mul) /\
    Forall (fun f => executes s f = true) (codec_uses codec ++ crc_uses crc ++ mul_uses mul).
Proof. exact arm_init_ok. Qed.
Print Assumptions c66_arm_supported_partial.
Example c66_arm_ex :
  truthful true a72_64 /\ meant_for (arm_full (OS_auxv true) true) a72_64 /\ entries_there (arm_full (OS_auxv true) true) a72_64 /\
  truthful false old_arm /\ meant_for (arm_full (OS_auxv false) false) old_arm /\
  arm_codec_init (arm_full (OS_auxv false) false) old_arm = Some A_neon /\
  arm_crc_init (arm_full (OS_auxv false) false) old_arm = Some (C_generic, M_generic) /\
  arm_crc_init (arm_full (OS_auxv false) false) a72_32 = Some (C_arm, M_pmull).
Proof.
  split; [intros f H; discriminate H|]. split; [repeat split; reflexivity|]. split; [intros _ []; discriminate|].
  split. { intros []; cbn; intro H; try discriminate H; repeat split; try discriminate. }
  split; [repeat split; discriminate|]. vm_compute. repeat split.
Qed.

(* On Linux a CPU that has the instructions gets the code that uses them. *)
Theorem c66_arm_linux_exact : forall b s, os b = OS_auxv false -> exact_auxv (aarch64 b) s ->
  c_neon b = true -> c_armcrc b = true -> c_pmull b = true ->
  arm_codec_init b s = Some (if executes s F_NEON then A_neon else A_generic) /\
  arm_crc_init b s = Some (if executes s F_CRC32 then (C_arm, if executes s F_PMULL then M_pmull else if aarch64 b then M_arm else M_generic)
                           else (C_generic, M_generic)).
Proof.
  intros b s Ho H. apply uses_all; [exact Ho|]. intro f. rewrite H. unfold aux_answer. destruct (auxv s _); reflexivity.
Qed.
Print Assumptions c66_arm_linux_exact.
Example c66_arm_linux_ex : exact_auxv true a72_64 /\ exact_auxv false a72_32 /\ exact_auxv false old_arm /\
  arm_crc_init (arm_full (OS_auxv false) true) a72_64 = Some (C_arm, M_pmull).
Proof. repeat split; intros []; reflexivity. Qed.

(* FreeBSD, OpenBSD: the result of elf_aux_info is not looked at; if the entry is not there, the variable
   it should have been stored in is read without a value. *)
Theorem c66_bsd_refuted : exists b s, truthful (aarch64 b) s /\ meant_for b s /\ arm_crc_init b s = None.
Proof.
  exists (arm_full (OS_auxv true) false), old_arm. split; [apply c66_arm_ex|]. split; [repeat split; discriminate|]. vm_compute. reflexivity.
Qed.
Print Assumptions c66_bsd_refuted.

(* RISC-V: the mask 0x20112D stands for I, M, A, F, D, C and V. *)
Theorem c66_rvv_mask : forall b s v, rv_at_hwcap b = true -> rv_auxv s = Some v ->
  (cpu_supports_rvv b s = Some true <-> Forall (fun l => Z.testbit v (l - letter_A) = true) IMAFDCV).
Proof.
  intros b s v Hb Hv. unfold cpu_supports_rvv. rewrite Hb, Hv, <- rvv_bits. split; [intro H; injection H; auto|intros ->; reflexivity].
Qed.
Print Assumptions c66_rvv_mask.
(* Missing: as for ARM. *)
Theorem c66_rv_supported_partial : forall b s, rv_truthful s -> (rv_bsd b = true -> rv_auxv s <> None) ->
  (exists i, rv_codec_init b s = Some i /\ (i = V_rvv -> Forall (fun l => rv_executes s (F_ext l) = true) IMAFDCV)) /\
  (rv_crc_init b s = R_zbc -> rv_executes s F_Zbc = true \/ rv_executes s F_Zbkc = true).
Proof. intros b s T H. split; [apply rv_codec_ok; assumption|apply rv_crc_init_ok, T]. Qed.
Print Assumptions c66_rv_supported_partial.
Theorem c66_rv_bsd_refuted : exists b s, rv_truthful s /\ rv_codec_init b s = None.
Proof.
  exists {| rv_at_hwcap := true; rv_bsd := true; rv_probe := false; c_rvv := true; c_zbc := true |},
    {| rv_executes := fun _ => false; rv_auxv := None; hwprobe := None |}.
  split; [split; intros; discriminate|reflexivity].
Qed.
Print Assumptions c66_rv_bsd_refuted.
(* A board with RVV and Zbc. *)
Definition rv_board : rv_system := {| rv_executes := fun _ => true; rv_auxv := Some 0x20112D; hwprobe := Some 0x87 |}.
Example c66_rv_ex : rv_truthful rv_board /\
  rv_codec_init {| rv_at_hwcap := true; rv_bsd := true; rv_probe := true; c_rvv := true; c_zbc := true |} rv_board = Some V_rvv /\
  rv_crc_init {| rv_at_hwcap := true; rv_bsd := true; rv_probe := true; c_rvv := true; c_zbc := true |} rv_board = R_zbc.
Proof. repeat split; discriminate. Qed.
