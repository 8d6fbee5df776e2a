(* Properties of the run-time choice of implementation on x86 (C46, C54).
   [cpu], [usable], [leaves_exist] and the CPU signatures are in IsaSpec.v. *)
From Coq Require Import ZArith Bool List Lia.
From Verif Require Import IsaSpec IsaModel IsaProofs.
Import ListNotations.
Open Scope Z_scope.

(* Some CPUs for the examples. *)
Definition no_regs : regs := {| eax := 0; ebx := 0; ecx := 0; edx := 0 |}.
Definition table (l : list (Z * Z * regs)) (x : Z) : cpu :=
  {| cpuid := fun a b => match find (fun e => (fst (fst e) =? a) && (snd (fst e) =? b)) l with
                         | Some e => snd e | None => no_regs end;
     xcr0 := x |}.
(* An Ice Lake client CPU (family 6, model 7Eh) under an OS enabling AVX-512. *)
Definition icelake : cpu := table
  [ ((0, 0), {| eax := 0x1B; ebx := 0; ecx := 0; edx := 0 |});
    ((1, 0), {| eax := 0x706E5; ebx := 0; ecx := 0x7FFAFBBF; edx := 0xBFEBFBFF |});
    ((7, 0), {| eax := 0; ebx := 0xF2BF67EB; ecx := 0x405F4E; edx := 0xBC000410 |});
    ((0x80000000, 0), {| eax := 0x80000008; ebx := 0; ecx := 0; edx := 0 |});
    ((0x80000001, 0), {| eax := 0; ebx := 0; ecx := 0x121; edx := 0x2C100800 |}) ] 0xE7.
(* A Sandy Bridge CPU. *)
Definition sandybridge : cpu := table
  [ ((0, 0), {| eax := 0xD; ebx := 0; ecx := 0; edx := 0 |});
    ((1, 0), {| eax := 0x206A7; ebx := 0; ecx := 0x1FBAE3FF; edx := 0xBFEBFBFF |});
    ((0x80000000, 0), {| eax := 0x80000008; ebx := 0; ecx := 0; edx := 0 |});
    ((0x80000001, 0), {| eax := 0; ebx := 0; ecx := 1; edx := 0x28100000 |}) ] 7.
(* A CPU with AVX10.1 at 256 bits only. *)
Definition avx10_256 : cpu := table
  [ ((0, 0), {| eax := 0x24; ebx := 0; ecx := 0; edx := 0 |});
    ((1, 0), {| eax := 0xC06F0; ebx := 0; ecx := 0x7FFAFBBF; edx := 0xBFEBFBFF |});
    ((7, 0), {| eax := 1; ebx := 0x239C27EB; ecx := 0x400; edx := 0 |});
    ((7, 1), {| eax := 0; ebx := 0; ecx := 0; edx := 0x80000 |});
    ((0x24, 0), {| eax := 0; ebx := 0x20001; ecx := 0; edx := 0 |});
    ((0x80000000, 0), {| eax := 0x80000008; ebx := 0; ecx := 0; edx := 0 |});
    ((0x80000001, 0), {| eax := 0; ebx := 0; ecx := 0x121; edx := 0x2C100800 |}) ] 0xE7.
(* A Pentium III: no SSE2. *)
Definition pentium3 : cpu := table
  [ ((0, 0), {| eax := 2; ebx := 0; ecx := 0; edx := 0 |});
    ((1, 0), {| eax := 0x6B1; ebx := 0; ecx := 0; edx := 0x383FBFF |}) ] 0.
(* A Haswell CPU whose firmware limits the CPUID leaves to 2: leaf 7 then
   returns the contents of leaf 2. *)
Definition limited : cpu := table
  [ ((0, 0), {| eax := 2; ebx := 0; ecx := 0; edx := 0 |});
    ((1, 0), {| eax := 0x306C3; ebx := 0; ecx := 0x7FFAFBBF; edx := 0xBFEBFBFF |});
    ((2, 0), {| eax := 0x76036301; ebx := 0xF0B5FF; ecx := 0; edx := 0xC30000 |});
    ((7, 0), {| eax := 0x76036301; ebx := 0xF0B5FF; ecx := 0; edx := 0xC30000 |});
    ((0x80000000, 0), {| eax := 0x80000008; ebx := 0; ecx := 0; edx := 0 |});
    ((0x80000001, 0), {| eax := 0; ebx := 0; ecx := 0x21; edx := 0x2C100800 |}) ] 7.

Definition full_build : build := {| c_sse2 := true; c_ssse3 := true; c_avx := true; c_avx2 := true;
  c_vbmi2 := true; no_evex512 := false; c_clmul := true; c_clmul256 := true |}.
Definition avx10_build : build := {| c_sse2 := true; c_ssse3 := true; c_avx := true; c_avx2 := true;
  c_vbmi2 := true; no_evex512 := true; c_clmul := true; c_clmul256 := true |}.

(* C46: the encoder and decoder selected at start-up only use usable instruction
   sets, on every CPU that has SSE2 and the CPUID leaves the code reads. The
   claim without these two conditions is false, see below. *)
Theorem c46_codec_supported_partial : forall b c i,
  leaves_exist c -> usable c SSE2 ->
  codec_init b c = Some i -> Forall (usable c) (needs b i).
Proof. exact codec_ok. Qed.
Print Assumptions c46_codec_supported_partial.

Example c46_codec_supported_ex :
  leaves_exist icelake /\ usable icelake SSE2 /\
  codec_init full_build icelake = Some I_vbmi2 /\
  codec_init full_build sandybridge = Some I_avx /\
  codec_init full_build avx10_256 = Some I_avx2 /\
  codec_init avx10_build avx10_256 = Some I_vbmi2.
Proof.
  split; [|vm_compute; repeat split].
  split; [|split]; vm_compute; [discriminate|discriminate|intros; discriminate].
Qed.

(* C46 for the CRC functions. *)
Theorem c46_crc_supported_partial : forall b c i,
  basic_leaf c 7 -> usable c SSE2 ->
  crc_init b c = Some i -> Forall (usable c) (crc_needs i).
Proof. exact crc_init_ok. Qed.
Print Assumptions c46_crc_supported_partial.

Example c46_crc_supported_ex :
  basic_leaf icelake 7 /\ usable icelake SSE2 /\
  crc_init full_build icelake = Some K_clmul256 /\
  crc_init full_build sandybridge = Some K_clmul /\ crc_init full_build pentium3 = Some K_generic.
Proof. split; [vm_compute; discriminate|vm_compute; repeat split]. Qed.

(* Detection itself never executes XGETBV on a CPU or OS that does not have it,
   so start-up always selects something. *)
Theorem c46_detection_safe : forall b c,
  (exists i, codec_init b c = Some i) /\ (exists k, crc_init b c = Some k).
Proof.
  intros b c. split.
  - unfold codec_init. destruct (isa_detected c) as (r & -> & _). eauto.
  - unfold crc_init. destruct (crc_init_cases c) as (r & -> & _). eauto.
Qed.
Print Assumptions c46_detection_safe.

(* The same CPU without OSXSAVE: XGETBV would fault. *)
Example c46_detection_safe_ex :
  _GET_XCR pentium3 = None /\ codec_init full_build pentium3 = Some I_sse2.
Proof. split; reflexivity. Qed.

(* Without SSE2 the SSE2 functions are selected all the same: platform.cc 166 is
   reached without looking at EDX bit 26 of leaf 1. *)
Theorem c46_codec_supported_refuted : exists b c i,
  codec_init b c = Some i /\ ~ Forall (usable c) (needs b i).
Proof.
  exists full_build, pentium3, I_sse2. split; [reflexivity|].
  intros H. inversion H as [|? ? S _]. discriminate S.
Qed.
Print Assumptions c46_codec_supported_refuted.

(* With SSE2, but on a CPU whose highest CPUID leaf is below 7, the AVX2
   functions are selected from what leaf 7 happens to return. *)
Theorem c46_leaf_limit_refuted : exists b c i,
  usable c SSE2 /\ codec_init b c = Some i /\ ~ Forall (usable c) (needs b i).
Proof.
  exists full_build, limited, I_avx2. split; [reflexivity|]. split; [reflexivity|].
  intros H. rewrite Forall_forall in H.
  assert (U : usable limited AVX2) by (apply H; cbn; tauto).
  destruct U as ((L & _) & _). revert L. vm_compute. intros L. apply L. reflexivity.
Qed.
Print Assumptions c46_leaf_limit_refuted.

(* C54: outside the listed slow CPUs the best implementation that was compiled in
   and is usable is selected; on the listed ones SSSE3 and up is avoided. The
   list is given by family and model numbers in IsaSpec.v. *)
Theorem c54_best_selected : forall b c,
  ~ slow_pshufb c -> ~ slow_pblendvb c -> exists i, codec_init b c = Some i /\
  (c_ssse3 b = true -> Forall (usable c) (needs b I_ssse3) ->
   In i [I_ssse3; I_avx; I_avx2; I_vbmi2]) /\
  (c_avx b = true -> Forall (usable c) (needs b I_avx) -> In i [I_avx; I_avx2; I_vbmi2]) /\
  (c_avx2 b = true -> Forall (usable c) (needs b I_avx2) -> In i [I_avx2; I_vbmi2]) /\
  (c_vbmi2 b = true -> Forall (usable c) (needs b I_avx2) -> zmm_enabled c ->
   (* AVX-512 reported bit by bit, on a CPU without AVX10 *)
   Z.testbit (edx (cpuid c 7 1)) 19 = false /\ leaf7_ebx c 16 /\ leaf7_ebx c 30 /\
     leaf7_ebx c 31 /\ leaf7_ecx c 6 \/
   (* or AVX10, at 512 bits unless compiled for 256 *)
   avx10_1 c /\ Z.testbit (ebx (cpuid c 0x24 0)) 17 = true /\
     (has_avx10 b = true \/ Z.testbit (ebx (cpuid c 0x24 0)) 18 = true) ->
   i = I_vbmi2).
Proof.
  intros b c N1 N2. destruct (isa_detected c) as (r & E & _).
  destruct (level_rank b c r E) as (i & Hi & R2 & R3 & R4). exists i.
  destruct (rank_in i) as (I2 & I3 & I4). split; [exact Hi|]. repeat apply conj.
  - intros C U. apply I2, R2; auto. destruct (best_ssse3 c N1) as (r' & E' & L); [pick U|].
    congruence.
  - intros C U. apply I3, R3; auto.
    destruct (best_avx c N1 N2) as (r' & E' & L); [pick U|pick U|pick U|pick U|congruence].
  - intros C U. apply I4, R4; auto.
    destruct (best_avx2 c N1 N2) as (r' & E' & L);
      [pick U|pick U|pick U|pick U|pick U|pick U|pick U|pick U|congruence].
  - intros C U Z K. assert (H : codec_init b c = Some I_vbmi2)
      by (apply best_vbmi2; auto; pick U). congruence.
Qed.
Print Assumptions c54_best_selected.

Example c54_best_selected_ex :
  ~ slow_pshufb icelake /\ ~ slow_pblendvb icelake /\
  Forall (usable sandybridge) (needs full_build I_avx).
Proof.
  split; [|split].
  - intros [(_ & _ & H)|(H & _)]; vm_compute in H; [|discriminate].
    repeat destruct H as [H|H]; try discriminate; contradiction.
  - intros (_ & _ & H). vm_compute in H.
    repeat destruct H as [H|H]; try discriminate; contradiction.
  - vm_compute. repeat constructor.
Qed.

Theorem c54_slow_avoided : forall b c,
  slow_pshufb c -> codec_init b c = Some (if c_sse2 b then I_sse2 else I_generic).
Proof.
  intros b c H. unfold codec_init. destruct (slow_is c H) as (p & l & ->).
  destruct p, l; reflexivity.
Qed.
Print Assumptions c54_slow_avoided.

(* An Atom (Bonnell, 106C2h) with SSSE3. *)
Example c54_slow_avoided_ex :
  slow_pshufb (table [((1, 0), {| eax := 0x106C2; ebx := 0; ecx := 0x40E31D; edx := 0xBFE9FBFF |})] 0).
Proof. left. vm_compute. tauto. Qed.
