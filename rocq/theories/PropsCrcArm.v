(** Properties of the CRC implementations for ARM (CRC32 and PMULL instructions) and
    RISC-V (Zbc).

    [a64]: AArch64 (otherwise 32-bit, or MSVC); [x64]: RV64 (otherwise RV32); [bits] is
    the width of the C type long.  All loads of these models are checked: one that
    touches a byte outside the buffer is undefined behaviour. *)
From Verif Require Import Base BaseLemmas CrcSpec CrcModel CrcNodeSpec CrcNodeProofs CrcIsaProofs
  ArmModel ArmProofs ArmMul RvModel RvProofs.
From Coq Require Import Lia.
Open Scope N_scope.

Notation arm := do_crc32_incremental_arm.
Notation zbc := do_crc32_incremental_rv_zbc.

(** C34: crc32 returns the same whichever implementation is selected; [portable]
    is the one of C26.  Missing, because false (C56): lengths a long cannot hold. *)
Theorem c34_arm_crc32_partial : forall a64 bits src len init m, (0 < bits)%Z -> (0 <= len < 2 ^ (bits - 1))%Z ->
  node_crc32 (arm a64 bits) src len init m = node_crc32 portable src len init m.
Proof. intros a64 bits src len init m Hb. apply js_same, (below_signed (arm_crc a64)), arm_crc_ok. exact Hb. Qed.
Print Assumptions c34_arm_crc32_partial.

Theorem c34_rv_crc32_partial : forall x64 bits src len init m, (0 < bits)%Z -> (0 <= len < 2 ^ (bits - 1))%Z ->
  node_crc32 (zbc x64 bits) src len init m = node_crc32 portable src len init m.
Proof. intros x64 bits src len init m Hb. apply js_same, (below_signed (rv_crc x64)), rv_crc_ok. exact Hb. Qed.
Print Assumptions c34_rv_crc32_partial.

(** A hundred bytes at an odd address. *)
Definition hundred : mem := fun a => u8 (a * a + 5).
Example c34_arm_crc32_ex : let r := JReturns [xe8; xf2; x88; x8e] in
  node_crc32 portable 1001 100 None hundred = r /\
  node_crc32 (arm true 64) 1001 100 None hundred = r /\ node_crc32 (arm false 32) 1001 100 None hundred = r /\
  node_crc32 (zbc true 64) 1001 100 None hundred = r /\ node_crc32 (zbc false 32) 1001 100 None hundred = r.
Proof. vm_compute. repeat split. Qed.

Theorem c34_arm_multiply : forall a b, word a -> word b ->
  crc32_multiply_arm a b = crc32_multiply_generic a b /\
  (forall a64, crc32_multiply_pmull a64 a b = crc32_multiply_generic a b).
Proof.
  intros a b Ha Hb. split; [apply (mul_same _ arm_is_multiply); assumption|].
  intro a64. apply (mul_same _ (pmull_is_multiply a64)); assumption.
Qed.
Print Assumptions c34_arm_multiply.

(** With the RBIT instruction and with MSVC's replacement for it. *)
Theorem c34_arm_shift : forall a n, word a -> word n ->
  crc32_shift_arm a n = crc32_shift_generic a n /\
  (forall a64, crc32_shift_pmull a64 (rbit 32) (rbit 64) a n = crc32_shift_generic a n /\
               crc32_shift_pmull a64 rbit32_msvc rbit64_msvc a n = crc32_shift_generic a n).
Proof.
  intros a n Ha Hn. split; [apply (shift_same _ arm_is_shift); assumption|]. intro a64. split.
  - apply (shift_same _ (pmull_is_shift a64 _ _ (fun _ _ => eq_refl) (fun _ _ => eq_refl))); assumption.
  - apply (shift_same _ (pmull_is_shift a64 _ _ rbit32_msvc_ok rbit64_msvc_ok)); assumption.
Qed.
Print Assumptions c34_arm_shift.

Theorem c34_rv_multiply : forall x64 a b, word a -> word b -> crc32_multiply_rv_zbc x64 a b = crc32_multiply_generic a b.
Proof. intro x64. exact (mul_same _ (rv_is_multiply x64)). Qed.
Print Assumptions c34_rv_multiply.

Theorem c34_rv_shift : forall x64 a n, word a -> word n -> crc32_shift_rv_zbc x64 a n = crc32_shift_generic a n.
Proof. intro x64. exact (shift_same _ (rv_is_shift x64)). Qed.
Print Assumptions c34_rv_shift.

Example c34_arm_multiply_ex : word 0xCBF43926 /\ word 0xFFFFFFFF /\
  crc32_multiply_arm 0xCBF43926 0xFFFFFFFF = 0xA7713253 /\ crc32_multiply_pmull true 0xCBF43926 0xFFFFFFFF = 0xA7713253 /\
  crc32_shift_arm 0xCBF43926 0xFFFFFFFD = 0x9932E81A /\
  crc32_shift_pmull false rbit32_msvc rbit64_msvc 0xCBF43926 0xFFFFFFFD = 0x9932E81A.
Proof. vm_compute. repeat split. Qed.
Example c34_rv_multiply_ex : word 0xCBF43926 /\ word 0xFFFFFFFF /\
  crc32_multiply_rv_zbc false 0xCBF43926 0xFFFFFFFF = 0xA7713253 /\ crc32_shift_rv_zbc true 0xCBF43926 0xFFFFFFFD = 0x9932E81A.
Proof. vm_compute. repeat split. Qed.

(** C55: crc32 reads nothing outside its input. *)
Theorem c55_arm_reads_input : forall a64 bits src len init m m', (0 < bits)%Z -> (0 <= len < 2 ^ (bits - 1))%Z ->
  (forall a, (src <= a < src + len)%Z -> m a = m' a) ->
  node_crc32 (arm a64 bits) src len init m <> JUB /\
  node_crc32 (arm a64 bits) src len init m = node_crc32 (arm a64 bits) src len init m'.
Proof.
  intros a64 bits src len init m m' Hb Hl H. rewrite !c34_arm_crc32_partial by assumption. apply portable_reads; [apply Hl|exact H].
Qed.
Print Assumptions c55_arm_reads_input.

Theorem c55_rv_reads_input : forall x64 bits src len init m m', (0 < bits)%Z -> (0 <= len < 2 ^ (bits - 1))%Z ->
  (forall a, (src <= a < src + len)%Z -> m a = m' a) ->
  node_crc32 (zbc x64 bits) src len init m <> JUB /\
  node_crc32 (zbc x64 bits) src len init m = node_crc32 (zbc x64 bits) src len init m'.
Proof.
  intros x64 bits src len init m m' Hb Hl H. rewrite !c34_rv_crc32_partial by assumption. apply portable_reads; [apply Hl|exact H].
Qed.
Print Assumptions c55_rv_reads_input.

Example c55_arm_ex : (0 < 32)%Z /\ (0 <= 4 < 2 ^ (32 - 1))%Z /\
  node_crc32 (arm true 32) 0 4 None (fun a => if Z.eqb a 4 then x01 else x00) = JReturns (crc_of [x00; x00; x00; x00]) /\
  node_crc32 (zbc true 32) 0 4 None (fun a => if Z.eqb a 4 then x01 else x00) = JReturns (crc_of [x00; x00; x00; x00]).
Proof. vm_compute. repeat split; discriminate. Qed.

(** C56: crc32 is right for every length.  False where long has 32 bits (Windows on
    ARM, 32-bit ARM and RISC-V): 4 GiB count as nothing. *)
Theorem c56_arm_rv_every_length_refuted : forall a64 x64, exists src m,
  node_crc32 (arm a64 32) src (2 ^ 32) None m <> node_crc32 portable src (2 ^ 32) None m /\
  node_crc32 (zbc x64 32) src (2 ^ 32) None m <> node_crc32 portable src (2 ^ 32) None m.
Proof.
  intros a64 x64. exists 0%Z, (fun _ => x00).
  rewrite (portable_4g (Z.to_nat (2 ^ 32))) by (first [apply zero_bytes | lia]).
  split; [destruct a64|destruct x64]; vm_compute; discriminate.
Qed.
Print Assumptions c56_arm_rv_every_length_refuted.

(** Missing: lengths of 2 GiB and more where long has 32 bits. *)
Theorem c56_arm_rv_every_length_partial : forall a64 x64 bits data init, (0 < bits)%Z -> (zlen data < 2 ^ (bits - 1))%Z -> word init ->
  crc32_returns (arm a64 bits) data (Some (be32 init)) (be32 (crc32_spec init data)) /\
  crc32_returns (zbc x64 bits) data (Some (be32 init)) (be32 (crc32_spec init data)).
Proof.
  intros a64 x64 bits data init Hb Hl Hi. split; intros src m Hm;
    rewrite ?c34_arm_crc32_partial, ?c34_rv_crc32_partial by (try exact Hb; unfold zlen in *; lia);
    apply (js_crc_init portable generic_crc_ok); auto.
Qed.
Print Assumptions c56_arm_rv_every_length_partial.

Example c56_arm_rv_partial_ex : (zlen (repeat x00 1000) < 2 ^ (32 - 1))%Z /\ word 0xCBF43926.
Proof. vm_compute. repeat split. Qed.

(** C57: multiplying CRCs involves no undefined behaviour.  False of
    crc32_multiply_arm, which doubles a signed number until it overflows: whatever the
    operands are, unless the second is zero ([None] is undefined behaviour). *)
Theorem c57_multiply_arm_defined_refuted : exists a b, word a /\ word b /\ crc32_multiply_arm_opt false a b = None.
Proof. exists 1, 1. vm_compute. repeat split. Qed.
Print Assumptions c57_multiply_arm_defined_refuted.

Theorem c57_multiply_arm_overflows : forall a b, word b -> b <> 0 -> crc32_multiply_arm_opt false a b = None.
Proof. exact multiply_overflows. Qed.
Print Assumptions c57_multiply_arm_overflows.

(** Where signed arithmetic wraps around (-fwrapv, or what compilers make of it), the
    result is the product. *)
Theorem c57_multiply_arm_wrapping_partial : forall a b, word a -> word b ->
  crc32_multiply_arm_opt true a b = Some (crc32_multiply_generic a b).
Proof. exact multiply_wrapping. Qed.
Print Assumptions c57_multiply_arm_wrapping_partial.

Example c57_ex : word 0x80000000 /\ 0x80000000 <> 0 /\ crc32_multiply_arm_opt true 0xCBF43926 0x80000000 = Some 0xCBF43926.
Proof. vm_compute. repeat split. discriminate. Qed.
