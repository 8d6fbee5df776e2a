(** Properties of the CRC functions (portable implementations).

    [crc] is crc32 as built without crcutil and without SIMD. *)
From Verif Require Import Base BaseLemmas CrcSpec CrcModel CrcAlg CrcMul CrcErr CrcNodeSpec CrcNodeProofs.
Open Scope N_scope.

Notation crc := (do_crc32_incremental_generic generate_crc32_slice_table).
Notation shift := crc32_shift_generic.
Notation mul := crc32_multiply_generic.

(** "123456789", the customary check string. *)
Definition check : list byte := [x31; x32; x33; x34; x35; x36; x37; x38; x39].

(** C26: crc32 is CRC-32, for every placement of the data in memory. *)
Theorem c26_crc32_standard : forall data, crc32_returns crc data None (be32 (crc32_spec 0 data)).
Proof. exact (js_crc crc generic_crc_ok). Qed.
Print Assumptions c26_crc32_standard.

Example c26_ex : crc32_spec 0 check = 0xCBF43926 /\
  node_crc32 crc 7 9 None (mem_of 7 check) = JReturns [xcb; xf4; x39; x26].
Proof. split; vm_compute; reflexivity. Qed.

(** ... and continues from a given value. *)
Theorem c26_crc32_continues : forall data c, word c ->
  crc32_returns crc data (Some (be32 c)) (be32 (crc32_spec c data)).
Proof. intros. apply (js_crc_init crc generic_crc_ok); auto. Qed.
Print Assumptions c26_crc32_continues.

Example c26_continues_ex : word 0xCBF43926 /\ crc32_spec 0xCBF43926 check = crc32_spec 0 (check ++ check).
Proof. split; vm_compute; reflexivity. Qed.

(** C27 *)
Theorem c27_incremental : forall a b ra r,
  crc32_returns crc a None ra -> crc32_returns crc b (Some ra) r -> crc32_returns crc (a ++ b) None r.
Proof.
  intros a b ra r Ha Hb. rewrite (js_crc_fun crc _ _ _ _ Ha (js_crc crc generic_crc_ok a)) in Hb.
  rewrite (js_crc_fun crc _ _ _ _ Hb (js_incremental crc generic_crc_ok a b)). apply (js_crc crc generic_crc_ok).
Qed.
Print Assumptions c27_incremental.

Example c27_ex : exists ra r, crc32_returns crc check None ra /\ crc32_returns crc [x41] (Some ra) r.
Proof.
  exists (crc_of check), (crc_of (check ++ [x41])).
  split; [apply js_crc, generic_crc_ok|apply js_incremental, generic_crc_ok].
Qed.

(** C28: [crc_of d] is what crc32(d) returns, by C26. *)
Theorem c28_combine : forall a b, (zlen b < 2 ^ 63)%Z ->
  node_crc32_combine shift (crc_of a) (crc_of b) (zlen b) = JReturns (crc_of (a ++ b)).
Proof. exact (js_combine shift generic_is_shift). Qed.
Print Assumptions c28_combine.

(** The C function, for every length a uint64_t can hold and any running value. *)
Theorem c28_combine_u64 : forall i a b, word i -> N.of_nat (length b) < 2 ^ 64 ->
  crc32_combine shift (crc32_spec i a) (crc32_spec 0 b) (N.of_nat (length b)) = crc32_spec i (a ++ b).
Proof. exact (combine_run shift generic_is_shift). Qed.
Print Assumptions c28_combine_u64.

Example c28_ex : (zlen check < 2 ^ 63)%Z /\ crc_of (check ++ check) <> crc_of check.
Proof. split; vm_compute; [reflexivity|discriminate]. Qed.

(** C29 *)
Theorem c29_zeroes : forall a n, (Z.of_nat n < 2 ^ 31)%Z ->
  node_crc32_zeroes shift (Z.of_nat n) (Some (crc_of a)) = JReturns (crc_of (a ++ repeat x00 n)).
Proof.
  intros a n H. unfold crc_of. rewrite <- spec_app.
  apply js_zeroes_init; [exact generic_is_shift|apply spec_word; reflexivity|reflexivity|exact H].
Qed.
Print Assumptions c29_zeroes.

Example c29_ex : node_crc32_zeroes shift 1000 (Some (crc_of check)) = JReturns (crc_of (check ++ repeat x00 1000)).
Proof. vm_compute. reflexivity. Qed.

Theorem c29_zeroes_undo : forall b n, crc_buf b -> (0 < n < 2 ^ 31)%Z ->
  exists b1 b2, node_crc32_zeroes shift n (Some b) = JReturns b1 /\ node_crc32_zeroes shift (- n) (Some b1) = JReturns b /\
    node_crc32_zeroes shift (- n) (Some b) = JReturns b2 /\ node_crc32_zeroes shift n (Some b2) = JReturns b.
Proof. exact (js_zeroes_undo shift generic_is_shift). Qed.
Print Assumptions c29_zeroes_undo.

Example c29_undo_ex : crc_buf (crc_of check) /\ (0 < 2147483647 < 2 ^ 31)%Z.
Proof. repeat apply conj; reflexivity. Qed.

(** C30, full statement: forall n < 2^53,
      node_crc32_zeroes shift n None = JReturns (crc_of (repeat x00 n)).
    False: the length is truncated to 32 bits.  2^32 zero bytes have a non-zero
    CRC, but the function returns that of no bytes. *)
Theorem c30_zeroes_any_length_refuted : exists n : N, n < 2 ^ 53 /\
  node_crc32_zeroes shift (Z.of_N n) None <> JReturns (crc_of (repeat x00 (N.to_nat n))).
Proof.
  exists (2 ^ 32). split; [reflexivity|]. apply zeroes_wrong; [reflexivity|vm_compute; reflexivity|vm_compute; reflexivity].
Qed.
Print Assumptions c30_zeroes_any_length_refuted.

(** At 2^31 the C code negates INT_MIN. *)
Theorem c30_zeroes_undefined_refuted : exists n : Z, (0 <= n < 2 ^ 53)%Z /\ node_crc32_zeroes shift n None = JUB.
Proof. exists (2 ^ 31)%Z. vm_compute. split; [split; [discriminate|reflexivity]|reflexivity]. Qed.
Print Assumptions c30_zeroes_undefined_refuted.

(** C30, missing: lengths of 2^31 and more. *)
Theorem c30_zeroes_any_length_partial : forall n : nat, (Z.of_nat n < 2 ^ 31)%Z ->
  node_crc32_zeroes shift (Z.of_nat n) None = JReturns (crc_of (repeat x00 n)).
Proof. exact (js_zeroes shift generic_is_shift). Qed.
Print Assumptions c30_zeroes_any_length_partial.

Example c30_ex : (Z.of_nat 3 < 2 ^ 31)%Z /\ node_crc32_zeroes shift 3 None = JReturns [xff; x41; xd9; x12].
Proof. split; vm_compute; reflexivity. Qed.

(** The C function behind it is right for every 64-bit length. *)
Theorem c30_zeros_u64 : forall c n, word c -> N.of_nat n < 2 ^ 64 ->
  crc32_zeros shift c (N.of_nat n) = crc32_spec c (repeat x00 n).
Proof. exact (zeros_ok shift generic_is_shift). Qed.
Print Assumptions c30_zeros_u64.

(** C31 *)
Theorem c31_commutative : forall a b, crc_buf a -> crc_buf b -> exists r, crc_buf r /\
  node_crc32_multiply mul a b = JReturns r /\ node_crc32_multiply mul b a = JReturns r.
Proof. exact (js_mul_comm mul generic_is_multiply). Qed.
Print Assumptions c31_commutative.

Theorem c31_associative : forall a b c ab bc r, crc_buf a -> crc_buf b -> crc_buf c ->
  node_crc32_multiply mul a b = JReturns ab -> node_crc32_multiply mul b c = JReturns bc ->
  node_crc32_multiply mul ab c = JReturns r -> node_crc32_multiply mul a bc = JReturns r.
Proof. exact (js_mul_assoc mul generic_is_multiply). Qed.
Print Assumptions c31_associative.

Theorem c31_distributive : forall a b c r s, crc_buf a -> crc_buf b -> crc_buf c ->
  node_crc32_multiply mul a b = JReturns r -> node_crc32_multiply mul a c = JReturns s ->
  node_crc32_multiply mul a (xor_buf b c) = JReturns (xor_buf r s).
Proof. exact (js_mul_distr mul generic_is_multiply). Qed.
Print Assumptions c31_distributive.

Theorem c31_identity : forall a, crc_buf a -> node_crc32_multiply mul [x80; x00; x00; x00] a = JReturns a.
Proof. exact (js_mul_one mul generic_is_multiply). Qed.
Print Assumptions c31_identity.

Theorem c31_no_zero_divisors : forall a b, crc_buf a -> crc_buf b ->
  node_crc32_multiply mul a b = JReturns [x00; x00; x00; x00] -> a = [x00; x00; x00; x00] \/ b = [x00; x00; x00; x00].
Proof. exact (js_mul_zero_divisors mul generic_is_multiply). Qed.
Print Assumptions c31_no_zero_divisors.

Theorem c31_inverse : forall a, crc_buf a -> a <> [x00; x00; x00; x00] ->
  exists b, crc_buf b /\ node_crc32_multiply mul a b = JReturns [x80; x00; x00; x00].
Proof. exact (js_mul_inverse mul generic_is_multiply). Qed.
Print Assumptions c31_inverse.

(** The multiplication is that of polynomials modulo P: it multiplies the powers
    of x as it should (with the laws above this determines it). *)
Theorem c31_polynomials : forall i j,
  node_crc32_multiply mul (be32 (xpow i)) (be32 (xpow j)) = JReturns (be32 (xpow (i + j))).
Proof. exact (js_mul_xpow mul generic_is_multiply). Qed.
Print Assumptions c31_polynomials.

Example c31_ex : crc_buf [x12; x34; x56; x78] /\ crc_buf [xde; xad; xbe; xef] /\
  node_crc32_multiply mul [x12; x34; x56; x78] [xde; xad; xbe; xef] = JReturns [xd6; x04; x8c; xa5].
Proof. repeat apply conj; vm_compute; reflexivity. Qed.

(** C32 *)
Theorem c32_shift : forall c (n : N), word c -> n < 2 ^ 31 ->
  node_crc32_shift shift (Z.of_N n) (Some (be32 c)) = JReturns (be32 (times_x n c)).
Proof.
  intros c n Hc Hn. rewrite (js_shift_be shift generic_is_shift) by (auto; lia).
  unfold zshift. destruct (0 <=? Z.of_N n)%Z eqn:E; [rewrite N2Z.id; reflexivity|lia].
Qed.
Print Assumptions c32_shift.

Example c32_ex : node_crc32_shift shift 40 (Some [xcb; xf4; x39; x26]) = JReturns (be32 (times_x 40 0xCBF43926)).
Proof. vm_compute. reflexivity. Qed.

Theorem c32_shift_add : forall m n b b1 b2, crc_buf b ->
  (- 2 ^ 31 < m < 2 ^ 31)%Z -> (- 2 ^ 31 < n < 2 ^ 31)%Z -> (- 2 ^ 31 < m + n < 2 ^ 31)%Z ->
  node_crc32_shift shift n (Some b) = JReturns b1 -> node_crc32_shift shift m (Some b1) = JReturns b2 ->
  node_crc32_shift shift (m + n) (Some b) = JReturns b2.
Proof. exact (js_shift_add shift generic_is_shift). Qed.
Print Assumptions c32_shift_add.

Theorem c32_shift_undo : forall n b, crc_buf b -> (- 2 ^ 31 < n < 2 ^ 31)%Z ->
  exists b1, node_crc32_shift shift n (Some b) = JReturns b1 /\ node_crc32_shift shift (- n) (Some b1) = JReturns b.
Proof. exact (js_shift_undo shift generic_is_shift). Qed.
Print Assumptions c32_shift_undo.

Example c32_undo_ex : crc_buf (crc_of check) /\ exists b1,
  node_crc32_shift shift (-5) (Some (crc_of check)) = JReturns b1 /\ node_crc32_shift shift 5 (Some b1) = JReturns (crc_of check).
Proof.
  split; [reflexivity|].
  let r := eval vm_compute in (node_crc32_shift shift (-5) (Some (crc_of check))) in
  match r with JReturns ?b => exists b end. split; vm_compute; reflexivity.
Qed.

(** Without a value, x^0 is shifted; x^0 is 80000000. *)
Theorem c32_shift_default : forall n, node_crc32_shift shift n None = node_crc32_shift shift n (Some [x80; x00; x00; x00]).
Proof. exact (js_shift_default shift). Qed.
Print Assumptions c32_shift_default.

(** C33: both reductions preserve the power of x, and give 32-bit exponents. *)
Theorem c33_exponent_reduction : forall n c, n < 2 ^ 64 -> word c ->
  word (crc32_powmod n) /\ times_x (crc32_powmod n) c = times_x n c /\
  word (crc32_bytepow n) /\ times_x (crc32_bytepow n) c = times_x (8 * n) c.
Proof.
  intros n c Hn Hc. split; [apply powmod_ok, Hn|]. split; [apply times_powmod; assumption|].
  split; [apply bytepow_ok, Hn|apply times_bytepow; assumption].
Qed.
Print Assumptions c33_exponent_reduction.

(** The variant of powmod for compilers other than GCC, Clang and MSVC. *)
Theorem c33_powmod_portable : forall n, n < 2 ^ 64 -> crc32_powmod_portable n = crc32_powmod n.
Proof. exact powmod_portable_ok. Qed.
Print Assumptions c33_powmod_portable.

Example c33_ex : crc32_powmod (2 ^ 64 - 1) = 2 ^ 32 - 1 /\ crc32_powmod (2 ^ 32 + 5) = 6 /\
  crc32_bytepow (2 ^ 61 + 2 ^ 32 - 1) = 1.
Proof. repeat apply conj; vm_compute; reflexivity. Qed.

(** The corresponding variant of bytepow (crc.h lines 51-56) loses a carry. *)
Theorem c33_bytepow_portable_refuted : exists n, n < 2 ^ 64 /\
  times_x (crc32_bytepow_portable n) ONE <> times_x (8 * n) ONE.
Proof.
  exists (2 ^ 61 + 2 ^ 32 - 1). split; [reflexivity|]. rewrite <- times_bytepow by reflexivity.
  vm_compute. discriminate.
Qed.
Print Assumptions c33_bytepow_portable_refuted.

(** The two variants of crc32_shift_generic agree. *)
Theorem c33_shift_variants : forall c n, word c -> word n ->
  crc32_shift_generic c n = times_x n c /\ crc32_shift_portable c n = times_x n c.
Proof. intros. split; [apply generic_is_shift|apply portable_is_shift]; assumption. Qed.
Print Assumptions c33_shift_variants.

Example c33_shift_ex : word 0xdeadbeef /\ word 0xfffffffe /\ crc32_shift_generic 0xdeadbeef 0xfffffffe <> 0xdeadbeef.
Proof. repeat apply conj; vm_compute; discriminate || reflexivity. Qed.

(** C35 *)
Theorem c35_burst : forall p a b s ra rb,
  length a = 4%nat -> length b = 4%nat -> a <> b ->
  crc32_returns crc (p ++ a ++ s) None ra -> crc32_returns crc (p ++ b ++ s) None rb -> ra <> rb.
Proof. exact (js_burst crc generic_crc_ok). Qed.
Print Assumptions c35_burst.

(** Any burst of at most 32 bits, wherever it starts. *)
Theorem c35_burst_bits : forall d1 d2 p a b s r1 r2,
  msg_bits d1 = p ++ a ++ s -> msg_bits d2 = p ++ b ++ s ->
  length a = length b -> (length a <= 32)%nat -> a <> b ->
  crc32_returns crc d1 None r1 -> crc32_returns crc d2 None r2 -> r1 <> r2.
Proof. exact (js_burst_bits crc generic_crc_ok). Qed.
Print Assumptions c35_burst_bits.

Example c35_ex : msg_bits [x01; x02; x03] = [true; false; false; false; false] ++ [false; false; false; false; true; false] ++
    [false; false; false; false; false; true; true; false; false; false; false; false; false] /\
  crc_of [x01; x02; x03] <> crc_of [x41; x02; x03].
Proof. split; vm_compute; [reflexivity|discriminate]. Qed.

(** C36 *)
Theorem c36_packed_is_big_endian : forall c, word c -> pack_crc32 c = be32 c /\ read_crc32 (pack_crc32 c) = c.
Proof. intros. split; [apply pack_be|apply read_pack; assumption]. Qed.
Print Assumptions c36_packed_is_big_endian.

Theorem c36_read_is_big_endian : forall b0 b1 b2 b3, read_crc32 [b0; b1; b2; b3] =
  ((Byte.to_N b0 * 256 + Byte.to_N b1) * 256 + Byte.to_N b2) * 256 + Byte.to_N b3.
Proof. exact read_be. Qed.
Print Assumptions c36_read_is_big_endian.

Theorem c36_repack : forall b, crc_buf b -> pack_crc32 (read_crc32 b) = b.
Proof. exact pack_read. Qed.
Print Assumptions c36_repack.

Example c36_ex : word 0xCBF43926 /\ be32 0xCBF43926 = [xcb; xf4; x39; x26] /\ crc_buf [xcb; xf4; x39; x26].
Proof. repeat apply conj; vm_compute; reflexivity. Qed.

(** C48: two flipped bits at a distance below 2^32 - 1 are detected. *)
Theorem c48_two_bits : forall d1 d2 p a q b s r1 r2,
  msg_bits d1 = p ++ a :: q ++ b :: s -> msg_bits d2 = p ++ negb a :: q ++ negb b :: s ->
  N.of_nat (length q) + 1 < 2 ^ 32 - 1 ->
  crc32_returns crc d1 None r1 -> crc32_returns crc d2 None r2 -> r1 <> r2.
Proof. exact (js_two_bits crc generic_crc_ok). Qed.
Print Assumptions c48_two_bits.

Example c48_ex : msg_bits [x01; x80] = [] ++ true :: [false; false; false; false; false; false; false; false; false; false; false; false; false; false] ++ true :: [] /\
  msg_bits [x00; x00] = [] ++ negb true :: [false; false; false; false; false; false; false; false; false; false; false; false; false; false] ++ negb true :: [].
Proof. split; reflexivity. Qed.

(** The distance cannot be larger: x^(2^32-1) = 1, and no smaller power is 1. *)
Theorem c48_order : forall n, xpow n = ONE <-> (2 ^ 32 - 1 | n).
Proof. exact order_iff. Qed.
Print Assumptions c48_order.
