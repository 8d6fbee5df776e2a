(** C86: the CRC code for the CRC32 instructions of ARM returns the same on either byte order ([a64], [bits] and [portable] as in PropsCrcArm.v). *)
From Verif Require Import Base BaseLemmas CrcSpec CrcModel CrcNodeSpec CrcNodeProofs CrcIsaProofs ArmModel ArmProofs EndianModel
  ArmEndianModel ArmEndianProofs.
Open Scope N_scope.

(** The byte order does not matter, for any length. *)
Theorem c86_arm : forall a64 bits src len init m,
  node_crc32 (o_crc32_arm Big a64 bits) src len init m = node_crc32 (o_crc32_arm Little a64 bits) src len init m.
Proof. intros. unfold node_crc32. destruct init; [destruct (is4 _)|]; rewrite ?o_arm_eq; reflexivity. Qed.
Print Assumptions c86_arm.

(** It is CRC-32, for lengths a long can hold (longer ones: C56). *)
Theorem c86_arm_crc32_below : forall o a64 bits data, (0 < bits)%Z -> (zlen data < 2 ^ (bits - 1))%Z ->
  crc32_returns (o_crc32_arm o a64 bits) data None (be32 (crc32_spec 0 data)).
Proof.
  intros o a64 bits data Hb Hl src m Hm. pose proof (js_crc _ generic_crc_ok data src m Hm) as E.
  transitivity (node_crc32 portable src (zlen data) None m); [|exact E].
  rewrite <- (js_same _ _ (below_signed (arm_crc a64) bits Hb (arm_crc_ok a64)) src (zlen data) None m) by (pose proof (zlen_nonneg data); lia).
  unfold node_crc32. rewrite o_arm_eq. reflexivity.
Qed.
Print Assumptions c86_arm_crc32_below.

(** ** Examples *)
(** A hundred bytes at an odd address: loads of 1, 2, 4 and 8 bytes. *)
Example c86_arm_ex : let m := fun a => u8 (a * a + 5) in let r := JReturns [xe8; xf2; x88; x8e] in
  forall o, node_crc32 (o_crc32_arm o true 64) 1001 100 None m = r /\ node_crc32 (o_crc32_arm o false 32) 1001 100 None m = r.
Proof. cbv zeta. intros []; vm_compute; split; reflexivity. Qed.
Example c86_arm_hyps_ex : (0 < 32)%Z /\ (zlen [x31; x32; x33] < 2 ^ (32 - 1))%Z.
Proof. split; reflexivity. Qed.
