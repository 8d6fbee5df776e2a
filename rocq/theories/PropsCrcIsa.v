(** Properties of the CRC implementations for x86 with carry-less multiplication.

    [avx512] selects the instructions of the AVX512 builds, [bits] is the width of
    the C type long.  The flag [strict] of the model says whether a vector load may
    touch bytes outside the buffer: [false] allows it within the aligned block of
    the vector's size around a byte of the buffer. *)
From Verif Require Import Base BaseLemmas CrcSpec CrcModel CrcNodeSpec CrcNodeProofs ClmulModel ClmulProofs ClmulMul
  Clmul256Model Clmul256Proofs CrcIsaProofs.
From Coq Require Import Lia.
Open Scope N_scope.

Notation clmul128 avx512 := (do_crc32_incremental_clmul avx512 false).
Notation clmul256 avx512 := (do_crc32_incremental_clmul256 avx512 false).

(** C34: crc32 returns the same whichever implementation is selected; [portable]
    is the one of C26.  Missing, because false (C56): lengths a long cannot hold. *)
Theorem c34_clmul_crc32_partial : forall avx512 bits src len init m, (0 < bits)%Z -> (0 <= len < 2 ^ (bits - 1))%Z ->
  node_crc32 (clmul128 avx512 bits) src len init m = node_crc32 portable src len init m.
Proof.
  intros avx512 bits src len init m Hb. apply js_same, (below_signed (crc_fold avx512 false)); [exact Hb|].
  exact (crc_fold_ok avx512).
Qed.
Print Assumptions c34_clmul_crc32_partial.

Theorem c34_vpclmul_crc32_partial : forall avx512 bits src len init m, (0 < bits)%Z -> (0 <= len < 2 ^ (bits - 1))%Z ->
  node_crc32 (clmul256 avx512 bits) src len init m = node_crc32 portable src len init m.
Proof.
  intros avx512 bits src len init m Hb. apply js_same, (below_signed (crc_fold256 avx512 false)); [exact Hb|].
  exact (crc_fold256_ok avx512).
Qed.
Print Assumptions c34_vpclmul_crc32_partial.

(** A hundred bytes at an odd address. *)
Definition hundred : mem := fun a => u8 (a * a + 5).
Example c34_crc32_ex : let r := JReturns [xe8; xf2; x88; x8e] in
  node_crc32 portable 1001 100 None hundred = r /\ node_crc32 (clmul128 false 64) 1001 100 None hundred = r /\
  node_crc32 (clmul256 true 32) 1001 100 None hundred = r.
Proof. vm_compute. repeat split. Qed.

Theorem c34_clmul_multiply : forall a b, word a -> word b -> crc32_multiply_clmul a b = crc32_multiply_generic a b.
Proof. exact (mul_same _ clmul_is_multiply). Qed.
Print Assumptions c34_clmul_multiply.

Theorem c34_clmul_shift : forall avx512 gfni a n, word a -> word n -> crc32_shift_clmul avx512 gfni a n = crc32_shift_generic a n.
Proof. intros avx512 gfni. exact (shift_same _ (clmul_is_shift avx512 gfni)). Qed.
Print Assumptions c34_clmul_shift.

Example c34_multiply_ex : word 0xCBF43926 /\ word 0xFFFFFFFF /\
  crc32_multiply_clmul 0xCBF43926 0xFFFFFFFF = 0xA7713253 /\ crc32_shift_clmul true true 0xCBF43926 0xFFFFFFFD = 0x9932E81A /\
  crc32_shift_clmul false false 0xCBF43926 0xFFFFFFFD = 0x9932E81A.
Proof. vm_compute. repeat split. Qed.

(** C55: crc32 reads nothing outside its input.  True of the portable code: *)
Theorem c55_portable_reads_input : forall src len init m m', (0 <= len)%Z ->
  (forall a, (src <= a < src + len)%Z -> m a = m' a) ->
  node_crc32 portable src len init m <> JUB /\
  node_crc32 portable src len init m = node_crc32 portable src len init m'.
Proof. exact portable_reads. Qed.
Print Assumptions c55_portable_reads_input.

Example c55_ex : (forall a, (0 <= a < 0 + 4)%Z -> (fun _ => x00) a = (fun a => if Z.eqb a 4 then x01 else x00) a).
Proof. intros a H. cbv beta. destruct (Z.eqb_spec a 4); [lia|reflexivity]. Qed.

(** False of the others, as C and C++ see it: [true] forbids reading outside. *)
Theorem c55_clmul_reads_input_refuted :
  (exists src len m, (0 <= len < 2 ^ 31)%Z /\ node_crc32 (do_crc32_incremental_clmul false true 64) src len None m = JUB) /\
  (exists src len m, (0 <= len < 2 ^ 31)%Z /\ node_crc32 (do_crc32_incremental_clmul256 false true 64) src len None m = JUB).
Proof. split; exists 0%Z, 33%Z, (fun _ => x00); vm_compute; repeat split; discriminate. Qed.
Print Assumptions c55_clmul_reads_input_refuted.

(** What does hold: no load touches a 16-byte (32-byte) block without a byte of the
    input, so none can fault, and the bytes outside do not affect the result. *)
Theorem c55_clmul_reads_input_partial : forall avx512 bits src len init m m', (0 < bits)%Z -> (0 <= len < 2 ^ (bits - 1))%Z ->
  (forall a, (src <= a < src + len)%Z -> m a = m' a) ->
  (node_crc32 (clmul128 avx512 bits) src len init m <> JUB /\
   node_crc32 (clmul128 avx512 bits) src len init m = node_crc32 (clmul128 avx512 bits) src len init m') /\
  (node_crc32 (clmul256 avx512 bits) src len init m <> JUB /\
   node_crc32 (clmul256 avx512 bits) src len init m = node_crc32 (clmul256 avx512 bits) src len init m').
Proof.
  intros avx512 bits src len init m m' Hb Hl H. rewrite !c34_clmul_crc32_partial, !c34_vpclmul_crc32_partial by assumption.
  split; apply portable_reads; auto; apply Hl.
Qed.
Print Assumptions c55_clmul_reads_input_partial.

Example c55_partial_ex : (0 < 32)%Z /\ (0 <= 4 < 2 ^ (32 - 1))%Z /\
  node_crc32 (clmul128 true 32) 0 4 None (fun a => if Z.eqb a 4 then x01 else x00) = JReturns (crc_of [x00; x00; x00; x00]).
Proof. vm_compute. repeat split; discriminate. Qed.

(** C56: crc32 is right for every length.  True of the portable code (C26).  Where
    long has 32 bits, as on Windows, 4 GiB count as nothing and 2 GiB as a negative
    number of bytes. *)
Theorem c56_every_length_refuted : forall avx512, exists src m,
  node_crc32 (clmul128 avx512 32) src (2 ^ 32) None m <> node_crc32 portable src (2 ^ 32) None m /\
  node_crc32 (clmul256 avx512 32) src (2 ^ 32) None m <> node_crc32 portable src (2 ^ 32) None m.
Proof.
  intro avx512. exists 0%Z, (fun _ => x00).
  rewrite (portable_4g (Z.to_nat (2 ^ 32))) by (first [apply zero_bytes | lia]).
  split; discriminate.
Qed.
Print Assumptions c56_every_length_refuted.

Theorem c56_2gib_undefined : forall avx512 src len m, (2 ^ 31 <= len < 2 ^ 32)%Z ->
  node_crc32 (clmul128 avx512 32) src len None m = JUB /\ node_crc32 (clmul256 avx512 32) src len None m = JUB.
Proof. exact negative_ub. Qed.
Print Assumptions c56_2gib_undefined.

Example c56_2gib_ex : (2 ^ 31 <= 2 ^ 31 + 5 < 2 ^ 32)%Z. Proof. vm_compute. split; [discriminate|reflexivity]. Qed.

(** Missing: lengths of 2 GiB and more where long has 32 bits. *)
Theorem c56_every_length_partial : forall avx512 bits data init, (0 < bits)%Z -> (zlen data < 2 ^ (bits - 1))%Z -> word init ->
  crc32_returns (clmul128 avx512 bits) data (Some (be32 init)) (be32 (crc32_spec init data)) /\
  crc32_returns (clmul256 avx512 bits) data (Some (be32 init)) (be32 (crc32_spec init data)).
Proof.
  intros avx512 bits data init Hb Hl Hi. split; intros src m Hm;
    rewrite ?c34_clmul_crc32_partial, ?c34_vpclmul_crc32_partial by (try exact Hb; unfold zlen in *; lia);
    apply (js_crc_init portable generic_crc_ok); auto.
Qed.
Print Assumptions c56_every_length_partial.

Example c56_partial_ex : (zlen (repeat x00 1000) < 2 ^ (32 - 1))%Z /\ word 0xCBF43926.
Proof. vm_compute. repeat split. Qed.
