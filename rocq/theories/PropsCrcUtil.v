(** Properties of crcutil, the generic CRC of x86 builds.

    [v] is the way crcutil is compiled (C++, x86-64 assembly, i386 assembly or MMX intrinsics);
    the [false] in [crcutil v] says that what the C++ standard leaves undefined but the compilers
    in use translate as intended does not count as undefined (for that see C65). *)
From Verif Require Import Base BaseLemmas CrcSpec CrcModel CrcMul CrcNodeSpec CrcNodeProofs CrcIsaProofs CrcUtilModel CrcUtilProofs CrcUtilFacts.
From Coq Require Import Lia.
Open Scope N_scope.

Notation crcutil v := (do_crc32_incremental_crcutil v false).
Notation crcutil_std v := (do_crc32_incremental_crcutil v true).

(** C64: crc32 is the standard CRC-32, for every way of compiling crcutil, length, alignment and
    initial value. *)
Theorem c64_crcutil_standard : forall v data c, word c ->
  crc32_returns (crcutil v) data (Some (be32 c)) (be32 (crc32_spec c data)) /\
  crc32_returns (crcutil v) data None (be32 (crc32_spec 0 data)).
Proof. intros v data c Hc. split; [apply (js_crc_init _ (crcutil_crc_ok v)); auto|apply (js_crc _ (crcutil_crc_ok v))]. Qed.
Print Assumptions c64_crcutil_standard.

(** The same result as the code compiled with YENC_DISABLE_CRCUTIL. *)
Theorem c64_crcutil_same : forall v src len init m, (0 <= len)%Z ->
  node_crc32 (crcutil v) src len init m = node_crc32 portable src len init m.
Proof. intros v src len init m Hl. apply (js_same (len + 1)); [intros B ? ? ? ? _; apply crcutil_crc_ok|lia]. Qed.
Print Assumptions c64_crcutil_same.

(** C55: crc32 reads nothing outside its input. *)
Theorem c55_crcutil_reads_input : forall v src len init m m', (0 <= len)%Z ->
  (forall a, (src <= a < src + len)%Z -> m a = m' a) ->
  node_crc32 (crcutil v) src len init m <> JUB /\
  node_crc32 (crcutil v) src len init m = node_crc32 (crcutil v) src len init m'.
Proof. intros v src len init m m' Hl H. rewrite !c64_crcutil_same by assumption. apply portable_reads; [apply Hl|exact H]. Qed.
Print Assumptions c55_crcutil_reads_input.

(** More than 1024 bytes at an odd address, so that all the loops run; few bytes. *)
Definition squares : mem := fun a => u8 (a * a + 5).
Definition all_cu : list cu := [CU_cpp; CU_amd64; CU_mmx; CU_intrin].
Example c64_ex : word 0xCBF43926 /\
  map (fun v => node_crc32 (crcutil v) 1001 1150 None squares) all_cu = repeat (JReturns [xd9; x16; xbd; x57]) 4 /\
  map (fun v => node_crc32 (crcutil v) 1001 47 (Some [xcb; xf4; x39; x26]) squares) all_cu = repeat (JReturns [x4c; xf5; xe8; x20]) 4 /\
  map (fun v => node_crc32 (crcutil v) 1001 0 None squares) all_cu = repeat (JReturns [x00; x00; x00; x00]) 4.
Proof. repeat split; vm_compute; reflexivity. Qed.
Example c55_crcutil_ex : (0 <= 4)%Z /\
  node_crc32 (crcutil CU_amd64) 0 4 None (fun a => if Z.eqb a 4 then x01 else x00) = JReturns (crc_of [x00; x00; x00; x00]).
Proof. vm_compute. repeat split; discriminate. Qed.

(** The library sets itself up: the constructor ends, its result is not NULL, and the
    precomputed values are right: W = 32 bits, and the CRC of a message followed by its own CRC
    (least significant byte first) is the constant kept for this. *)
Theorem c64_created : exists g, crcutil_create 0xEDB88320 0 32 true = Ok (Some g) /\
  crc32_multiply_generic (x_pow_minus_W (base g)) (xpow 32) = xpow 0 /\
  (forall data, crc32_spec 0 (data ++ rev (be32 (crc32_spec 0 data))) = crc_of_crc (base g)) /\
  (forall j i, (j < 8)%nat -> i < 256 -> nth (N.to_nat i) (nth j (crc_word g) []) 0 = times_x (64 - 8 * N.of_nat j) i /\
     nth (N.to_nat i) (nth j (crc_word_interleaved g) []) 0 = times_x (256 - 8 * N.of_nat j) i).
Proof.
  exists the_crc. split; [exact made|]. split; [exact minus_W_ok|]. split; [exact crc_of_crc_ok|].
  exact (tables_nth the_crc the_good).
Qed.
Print Assumptions c64_created.
Example c64_created_ex : crc32_spec 0 [x31; x32] = 0x4F5344CD /\ crc32_spec 0 [x31; x32; xcd; x44; x53; x4f] = 0x2144DF1C.
Proof. vm_compute. repeat split. Qed.

(** Its polynomial arithmetic is that of crc32_multiply and of powers of x. *)
Theorem c64_multiply : forall a b, word a -> word b -> gf_multiply 0xEDB88320 0x80000000 a b = crc32_multiply_generic a b.
Proof. intros a b Ha Hb. rewrite multiply_mulx by assumption. apply gf_multiply_ok; assumption. Qed.
Print Assumptions c64_multiply.
Theorem c64_xpow : forall g n, crcutil_create 0xEDB88320 0 32 true = Ok (Some g) -> n < 2 ^ 64 ->
  gf_xpow_n (x_pow_2n (base g)) (generating_polynomial (base g)) (one (base g)) n = xpow n.
Proof. exact xpow_made. Qed.
Print Assumptions c64_xpow.
Example c64_multiply_ex : word 0xCBF43926 /\ word 0xFFFFFFFF /\ gf_multiply 0xEDB88320 0x80000000 0xCBF43926 0xFFFFFFFF = 0xA7713253 /\
  gf_multiply 0xEDB88320 0x80000000 0 0xFFFFFFFF = 0 /\ 2 ^ 64 - 1 < 2 ^ 64.
Proof. vm_compute. repeat split. Qed.

(** C65: crcutil does nothing the C++ standard leaves undefined.  False: words are read through
    misaligned pointers, and the C++ code forms a pointer 63 bytes before the end of the input
    even if that is before its start. *)
Theorem c65_crcutil_standard_refuted : Forall (fun v => exists src len, node_crc32 (crcutil_std v) src len None squares = JUB)
  [CU_cpp; CU_amd64; CU_intrin].
Proof. apply Forall_cons; [|apply Forall_cons; [|apply Forall_cons; [|apply Forall_nil]]]; exists 1001%Z, 40%Z; vm_compute; reflexivity. Qed.
Print Assumptions c65_crcutil_standard_refuted.
Theorem c65_pointer_refuted : exists src len, (src mod 8 = 0)%Z /\ node_crc32 (crcutil_std CU_cpp) src len None squares = JUB.
Proof. exists 1000%Z, 3%Z. vm_compute. split; reflexivity. Qed.
Print Assumptions c65_pointer_refuted.

(** Missing: the inputs not listed here. *)
Theorem c65_crcutil_standard_partial : forall v src len init m, (0 <= len)%Z ->
  match v with
  | CU_cpp => len = 0 \/ 63 <= len /\ (len <= 1024 -> src mod 8 = 0)
  | CU_amd64 => 8 <= len <= 47 -> src mod 8 = 0
  | CU_mmx => True
  | CU_intrin => 8 <= len <= 1024 -> src mod 8 = 0
  end%Z ->
  node_crc32 (crcutil_std v) src len init m = node_crc32 portable src len init m.
Proof. intros v src len init m Hl H. apply (kept_same v src len init m Hl). intros _. exact H. Qed.
Print Assumptions c65_crcutil_standard_partial.
Example c65_ex : node_crc32 (crcutil_std CU_cpp) 1001 1150 None squares = JReturns [xd9; x16; xbd; x57] /\
  node_crc32 (crcutil_std CU_amd64) 1000 40 None squares = node_crc32 portable 1000 40 None squares.
Proof. vm_compute. repeat split. Qed.
