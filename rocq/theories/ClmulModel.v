(** Model of the PCLMULQDQ code, /repo/src/crc_folding.cc.

    A __m128i is a number below 2^128, byte 0 in the lowest bits.  [avx512] selects
    the code compiled under ENABLE_AVX512 (crc_folding.cc 27-29: native builds with
    AVX512VL).  fold_xor (34-40) is an exclusive or in both its forms and is not
    distinguished from _mm_xor_si128.  [gfni] selects the GFNI form of
    reverse_bits_epi8 (382-386: native builds with GFNI).

    Aligned loads may reach past the end of the buffer: an aligned 16-byte load
    cannot fault if one of its bytes belongs to the buffer, and the model lets it
    read whatever memory holds there.  [strict] makes such loads undefined instead. *)
From Verif Require Import Base CrcModel.
From Coq Require Import NArith.
Open Scope N_scope.

(** ** Instructions *)

Definition W64 : N := 0xFFFFFFFFFFFFFFFF.
Definition W128 : N := 0xFFFFFFFFFFFFFFFFFFFFFFFFFFFFFFFF.
Definition lo64 (x : N) : N := N.land x W64.
Definition hi64 (x : N) : N := N.land (N.shiftr x 64) W64.

(** Carry-less product of the low [n] bits of [b] with [a]. *)
Fixpoint clmul_n (n : nat) (a b : N) : N :=
  match n with
  | O => 0
  | S k => N.lxor (clmul_n k a b)
             (if N.testbit b (N.of_nat k) then N.shiftl a (N.of_nat k) else 0)
  end.
Definition clmul (a b : N) : N := clmul_n 64 a b.

(** _mm_clmulepi64_si128. *)
Definition mm_clmul (a b imm : N) : N :=
  clmul (if N.testbit imm 0 then hi64 a else lo64 a)
        (if N.testbit imm 4 then hi64 b else lo64 b).

(** _mm_cvtsi32_si128 is the identity on 32-bit numbers.  _mm_set_epi32. *)
Definition set_epi32 (e3 e2 e1 e0 : N) : N :=
  N.lxor e0 (N.lxor (N.shiftl e1 32) (N.lxor (N.shiftl e2 64) (N.shiftl e3 96))).
(** _mm_srli_si128, _mm_slli_si128 (by [k] bytes). *)
Definition srli_si128 (x k : N) : N := N.shiftr x (8 * k).
Definition slli_si128 (x k : N) : N := N.land (N.shiftl x (8 * k)) W128.
(** _mm_extract_epi32. *)
Definition extract32 (x i : N) : N := u32 (N.shiftr x (32 * i)).
(** _mm_add_epi64. *)
Definition add_epi64 (x y : N) : N :=
  N.lor (N.land (lo64 x + lo64 y) W64) (N.shiftl (N.land (hi64 x + hi64 y) W64) 64).
(** _mm_ternarylogic_epi32: bit by bit, the bit of [imm] at index 4a+2b+c. *)
Definition ternary (a b c imm : N) : N :=
  let not x := N.lxor x W128 in
  let term k := if N.testbit imm k
    then N.land (if N.testbit k 2 then a else not a)
           (N.land (if N.testbit k 1 then b else not b)
              (if N.testbit k 0 then c else not c)) else 0 in
  N.lor (term 0) (N.lor (term 1) (N.lor (term 2) (N.lor (term 3)
    (N.lor (term 4) (N.lor (term 5) (N.lor (term 6) (term 7))))))).

(** Byte [i] of a vector, and _mm_shuffle_epi8 (the bytes put together do not
    overlap). *)
Definition byte_at (x i : N) : N := N.land (N.shiftr x (8 * i)) 0xFF.
Fixpoint of_bytes (n : nat) (f : N -> N) : N :=
  match n with
  | O => 0
  | S k => N.lxor (of_bytes k f) (N.shiftl (f (N.of_nat k)) (8 * N.of_nat k))
  end.
Definition shuffle_epi8 (x idx : N) : N :=
  of_bytes 16 (fun i => let j := byte_at idx i in
    if N.testbit j 7 then 0 else byte_at x (N.land j 15)).

(** A 16-byte vector from an array of 32-bit words: [_mm_load_si128((__m128i* )t + i)]. *)
Definition vec_at (t : list N) (i : N) : N :=
  set_epi32 (tab t (4 * i + 3)) (tab t (4 * i + 2)) (tab t (4 * i + 1)) (tab t (4 * i)).

(** Little-endian number of the [n] bytes in memory from address [a] on. *)
Fixpoint le_at (m : mem) (a : Z) (n : nat) : N :=
  match n with
  | O => 0
  | S k => N.lxor (Byte.to_N (m a)) (N.shiftl (le_at m (a + 1)%Z k) 8)
  end.
Definition all_readable (B : bufs) (a : Z) (n : nat) : bool :=
  forallb (fun i => can_read B (a + Z.of_nat i)%Z) (seq 0 n).
Definition some_readable (B : bufs) (a : Z) (n : nat) : bool :=
  existsb (fun i => can_read B (a + Z.of_nat i)%Z) (seq 0 n).

(** memcpy of [n] bytes, and unaligned vector loads: every byte has to be readable. *)
Definition loadu (B : bufs) (n : nat) (a : Z) : M N :=
  fun m => if all_readable B a n then Ok (le_at m a n, m) else UB.
(** Aligned vector load of [n] bytes: faults if not aligned to [n]. *)
Definition loada (strict : bool) (B : bufs) (n : nat) (a : Z) : M N :=
  fun m => if (a mod Z.of_nat n =? 0)%Z &&
              (if strict then all_readable B a n else some_readable B a n)
           then Ok (le_at m a n, m) else UB.

(** ** crc_folding.cc *)

Section Folding.
Context (avx512 strict : bool).

(** _mm_xor_si128 twice, or _mm_ternarylogic_epi32(a, b, c, 0x96). *)
Definition xor3 (a b c : N) : N :=
  if avx512 then ternary a b c 0x96 else N.lxor (N.lxor a b) c.

(** do_one_fold and do_one_fold_merge, 43-64: the fold of [src], exclusive or [data]. *)
Definition fold4 : N := set_epi32 0x00000001 0x54442bd4 0x00000001 0xc6e41596.
Definition one_fold (src data : N) : N :=
  xor3 (mm_clmul src fold4 0x01) (mm_clmul src fold4 0x10) data.

(** 66-82. *)
Definition pshufb_shf_table : list N := [
    0x84838281; 0x88878685; 0x8c8b8a89; 0x008f8e8d;
    0x85848382; 0x89888786; 0x8d8c8b8a; 0x01008f8e;
    0x86858483; 0x8a898887; 0x8e8d8c8b; 0x0201008f;
    0x87868584; 0x8b8a8988; 0x8f8e8d8c; 0x03020100;
    0x88878685; 0x8c8b8a89; 0x008f8e8d; 0x04030201;
    0x89888786; 0x8d8c8b8a; 0x01008f8e; 0x05040302;
    0x8a898887; 0x8e8d8c8b; 0x0201008f; 0x06050403;
    0x8b8a8988; 0x8f8e8d8c; 0x03020100; 0x07060504;
    0x8c8b8a89; 0x008f8e8d; 0x04030201; 0x08070605;
    0x8d8c8b8a; 0x01008f8e; 0x05040302; 0x09080706;
    0x8e8d8c8b; 0x0201008f; 0x06050403; 0x0a090807;
    0x8f8e8d8c; 0x03020100; 0x07060504; 0x0b0a0908;
    0x008f8e8d; 0x04030201; 0x08070605; 0x0c0b0a09;
    0x01008f8e; 0x05040302; 0x09080706; 0x0d0c0b0a;
    0x0201008f; 0x06050403; 0x0a090807; 0x0e0d0c0b ].

(** The four accumulators. *)
Definition acc : Type := N * N * N * N.

(** partial_fold, 84-121. *)
Definition partial_fold (len : N) (c : acc) (part : N) : acc :=
  let '(c0, c1, c2, c3) := c in
  let shl := vec_at pshufb_shf_table (len - 1) in
  let shr := N.lxor shl 0x80808080808080808080808080808080 in
  let a0 := shuffle_epi8 c0 shl in
  let c0 := N.lor (shuffle_epi8 c0 shr) (shuffle_epi8 c1 shl) in
  let c1 := N.lor (shuffle_epi8 c1 shr) (shuffle_epi8 c2 shl) in
  let c2 := N.lor (shuffle_epi8 c2 shr) (shuffle_epi8 c3 shl) in
  let part := shuffle_epi8 part shl in
  let c3 := N.lor (shuffle_epi8 c3 shr) part in
  let c3 := one_fold a0 c3 in
  (c0, c1, c2, c3).

(** crc_k, 123-130, and crc_mask, 132-134. *)
Definition crc_k : list N := [
    0xccaa009e; 0x00000000; 0x751997d0; 0x00000001;
    0xccaa009e; 0x00000000; 0x63cd6124; 0x00000001;
    0xf7011641; 0x00000000; 0xdb710640; 0x00000001 ].
Definition crc_mask : N := set_epi32 0xFFFFFFFF 0xFFFFFFFF 0xFFFFFFFF 0x00000000.

(** The label "done", 280-351. *)
Definition fold_done (c : acc) : N :=
  let '(c0, c1, c2, c3) := c in
  let k := vec_at crc_k 0 in
  let t0 := mm_clmul c0 k 0x10 in
  let c0 := mm_clmul c0 k 0x01 in
  let c1 := xor3 c1 t0 c0 in
  let t1 := mm_clmul c1 k 0x10 in
  let c1 := mm_clmul c1 k 0x01 in
  let c2 := xor3 c2 t1 c1 in
  let t2 := mm_clmul c2 k 0x10 in
  let c2 := mm_clmul c2 k 0x01 in
  let c3 := xor3 c3 t2 c2 in
  let k := vec_at crc_k 1 in
  let c0 := c3 in
  let c3 := mm_clmul c3 k 0 in
  let c0 := srli_si128 c0 8 in
  let c3 := N.lxor c3 c0 in
  let c0 := c3 in
  let c3 := slli_si128 c3 4 in
  let c3 := mm_clmul c3 k 0x10 in
  let c3 := if avx512 then ternary c3 c0 crc_mask 0x28
            else N.lxor c3 (N.land c0 crc_mask) in
  let c1 := c3 in
  let k := vec_at crc_k 2 in
  let c3 := mm_clmul c3 k 0 in
  let c3 := mm_clmul c3 k 0x10 in
  let c3 := if avx512 then ternary c3 c1 c1 0xC3
            else N.lxor c3 (N.lxor c1 crc_mask) in
  extract32 c3 2.

(** The loop of 174-205: 64 bytes a time. *)
Fixpoint fold_loop (fuel : nat) (B : bufs) (src len : Z) (c : acc) : M (Z * Z * acc) :=
  if (64 <=? len)%Z then
    match fuel with
    | O => nofuel
    | S f =>
      let '(c0, c1, c2, c3) := c in
      t0 <- loada strict B 16 src ;;
      t1 <- loada strict B 16 (src + 16) ;;
      t2 <- loada strict B 16 (src + 32) ;;
      t3 <- loada strict B 16 (src + 48) ;;
      fold_loop f B (src + 64) (len - 64)
        (one_fold c0 t0, one_fold c1 t1, one_fold c2 t2, one_fold c3 t3)
    end
  else ret (src, len, c).

(** crc_fold, 139-352.  [len] is a C long (see [do_crc32_incremental_clmul]); a
    negative one reaches memcpy as a huge size. *)
Definition crc_fold (B : bufs) (src len : Z) (initial : N) : M N :=
  let c0 := mm_clmul (not32 initial) 0xdfded7ec 0 in
  let c := (c0, 0, 0, 0) in
  if (len <? 16)%Z then
    if (len =? 0)%Z then ret initial
    else if (len <? 0)%Z then ub
    else
      part <- loadu B (Z.to_nat len) src ;;
      ret (fold_done (partial_fold (Z.to_N len) c part))
  else
    let algn_diff := ((- src) mod 16)%Z in
    '(src, len, c) <-
      (if (algn_diff =? 0)%Z then ret (src, len, c)
       else
         part <- loadu B 16 src ;;
         ret ((src + algn_diff)%Z, (len - algn_diff)%Z,
              partial_fold (Z.to_N algn_diff) c part)) ;;
    '(src, len, c) <- fold_loop (Z.to_nat len) B src len c ;;
    let '(c0, c1, c2, c3) := c in
    if (48 <=? len)%Z then
      let len := (len - 48)%Z in
      t0 <- loada strict B 16 src ;;
      t1 <- loada strict B 16 (src + 16) ;;
      t2 <- loada strict B 16 (src + 32) ;;
      let c := (c3, one_fold c0 t0, one_fold c1 t1, one_fold c2 t2) in
      if (len =? 0)%Z then ret (fold_done c)
      else
        part <- loada strict B 16 (src + 48) ;;
        ret (fold_done (partial_fold (Z.to_N len) c part))
    else if (32 <=? len)%Z then
      let len := (len - 32)%Z in
      t0 <- loada strict B 16 src ;;
      t1 <- loada strict B 16 (src + 16) ;;
      let c := (c2, c3, one_fold c0 t0, one_fold c1 t1) in
      if (len =? 0)%Z then ret (fold_done c)
      else
        part <- loada strict B 16 (src + 32) ;;
        ret (fold_done (partial_fold (Z.to_N len) c part))
    else if (16 <=? len)%Z then
      let len := (len - 16)%Z in
      t0 <- loada strict B 16 src ;;
      let c := (c1, c2, c3, one_fold c0 t0) in
      if (len =? 0)%Z then ret (fold_done c)
      else
        part <- loada strict B 16 (src + 16) ;;
        ret (fold_done (partial_fold (Z.to_N len) c part))
    else if (len =? 0)%Z then ret (fold_done c)
    else
      part <- loada strict B 16 src ;;
      ret (fold_done (partial_fold (Z.to_N len) c part)).

(** A cast of size_t to a signed type of [bits] bits. *)
Definition to_signed (bits n : Z) : Z := ((n + 2 ^ (bits - 1)) mod 2 ^ bits - 2 ^ (bits - 1))%Z.

(** do_crc32_incremental_clmul, 354-356; [long_bits] is 64, or 32 on Windows. *)
Definition do_crc32_incremental_clmul (long_bits : Z) (B : bufs) (data length : Z) (init : N) : M N :=
  crc_fold B data (to_signed long_bits length) init.

(** crc32_reduce, 359-366. *)
Definition crc32_reduce (prod : N) : N :=
  let k := vec_at crc_k 2 in
  let t := mm_clmul prod k 0 in
  let t := mm_clmul t k 0x10 in
  N.lxor t prod.

(** crc32_multiply_clmul, 368-378. *)
Definition crc32_multiply_clmul (a b : N) : N :=
  let prod := mm_clmul a b 0 in
  let prod := add_epi64 prod prod in
  let prod := slli_si128 prod 4 in
  extract32 (crc32_reduce prod) 2.

(** reverse_bits_epi8, 381-409.  _mm_set_epi8 lists byte 15 first. *)
Definition rev_lo : N := 0xf070b030d0509010e060a020c0408000.
Definition rev_hi : N := 0x0f070b030d0509010e060a020c040800.
Definition set1_epi8_0f : N := 0x0f0f0f0f0f0f0f0f0f0f0f0f0f0f0f0f.
(** _mm_srli_epi16: bits of the 16-bit lane above stay out. *)
Definition srli_epi16_4 (x : N) : N :=
  N.land (N.shiftr x 4) 0x0fff0fff0fff0fff0fff0fff0fff0fff.
(** _mm_gf2p8affine_epi64_epi8 with 0 as the last operand: bit [j] of a byte is the parity
    of what it shares with byte 7-j of the 64-bit matrix beside it. *)
Fixpoint parity (n : nat) (x : N) : bool :=
  match n with O => false | S k => xorb (N.testbit x (N.of_nat k)) (parity k x) end.
Definition affine_byte (matrix x : N) : N :=
  fold_right N.add 0 (map (fun j => if parity 8 (N.land (byte_at matrix (7 - j)) x) then 2 ^ j else 0) [0; 1; 2; 3; 4; 5; 6; 7]).
Definition gf2p8affine (src A : N) : N :=
  of_bytes 16 (fun i => affine_byte (if i <? 8 then lo64 A else hi64 A) (byte_at src i)).
Definition reverse_bits_epi8 (gfni : bool) (src : N) : N :=
  if gfni then gf2p8affine src (set_epi32 0x80402010 0x08040201 0x80402010 0x08040201) else
  let t0 := N.land src set1_epi8_0f in
  let t1 := N.land (srli_epi16_4 src) set1_epi8_0f in
  N.lor (shuffle_epi8 rev_lo t0) (shuffle_epi8 rev_hi t1).

(** BSWAP32, 411-416. *)
Definition BSWAP32 (n : N) : N :=
  N.lor (shl32 (N.land n 0xff) 24) (N.lor (shl32 (N.land n 0xff00) 8)
    (N.lor (N.shiftr (N.land n 0xff0000) 8) (N.shiftr (N.land n 0xff000000) 24))).

(** 420-425. *)
Definition crc_power_rev : list N := [
	0x00000002; 0x00000004; 0x00000010; 0x00000100; 0x00010000; 0x04c11db7; 0x490d678d; 0xe8a45605;
	0x75be46b7; 0xe6228b11; 0x567fddeb; 0x88fe2237; 0x0e857e71; 0x7001e426; 0x075de2b2; 0xf12a7f90;
	0xf0b4a1c1; 0x58f46c0c; 0xc3395ade; 0x96837f8c; 0x544037f9; 0x23b7b136; 0xb2e16ba8; 0x725e7bfa;
	0xec709b5d; 0xf77a7274; 0x2845d572; 0x034e2515; 0x79695942; 0x540cb128; 0x0b65d023; 0x3c344723 ].

(** 433, 465. *)
Definition fold_const : N := set_epi32 0 0x490d678d 0 0xf200aa66.

(** crc32_shift_clmul_mulred, 428-437. *)
Definition crc32_shift_clmul_mulred (pos prod : N) : N :=
  let coeff := tab crc_power_rev pos in
  let prod := mm_clmul prod coeff 0 in
  let hi := mm_clmul prod fold_const 0x11 in
  N.lxor hi prod.

(** The loop of 455-463; ctz32 is __builtin_ctz.  [n] loses a bit each time. *)
Fixpoint shift_mul_loop (fuel : nat) (n result result2 : N) : N * N :=
  match fuel with
  | O => (result, result2)
  | S f =>
    if n =? 0 then (result, result2)
    else
      let result := crc32_shift_clmul_mulred (ctz n) result in
      let n := N.land n (n - 1) in
      if n =? 0 then (result, result2)
      else
        let result2 := crc32_shift_clmul_mulred (ctz n) result2 in
        let n := N.land n (n - 1) in
        shift_mul_loop f n result result2
  end.

(** _mm_sll_epi64 by less than 64. *)
Definition sll_epi64 (x k : N) : N :=
  N.lor (N.land (N.shiftl (lo64 x) k) W64) (N.shiftl (N.land (N.shiftl (hi64 x) k) W64) 64).
(** _mm_unpackhi_epi32(x, zero). *)
Definition unpackhi_epi32_0 (x : N) : N := set_epi32 0 (extract32 x 3) 0 (extract32 x 2).
(** _mm_blend_epi16(zero, x, 0x3c): 16-bit lanes 2 to 5 of [x]. *)
Definition blend_epi16_3c (x : N) : N := N.land x 0x00000000FFFFFFFFFFFFFFFF00000000.

(** crc32_shift_clmul, 439-498. *)
Definition crc32_shift_clmul (gfni : bool) (crc1 n : N) : N :=
  if n =? 0 then crc1 else
  let result := BSWAP32 crc1 in
  let result := reverse_bits_epi8 gfni result in
  let result := sll_epi64 result (N.land n 31) in
  let n := N.land n 0xFFFFFFE0 in
  let result :=
    if n =? 0 then result
    else
      let result2 := tab crc_power_rev (ctz n) in
      let n := N.land n (n - 1) in
      let '(result, result2) :=
        if n =? 0 then (result, result2)
        else
          let result2 := mm_clmul result2 (tab crc_power_rev (ctz n)) 0 in
          let n := N.land n (n - 1) in
          shift_mul_loop 32 n result result2 in
      let result := mm_clmul result result2 0 in
      let t := unpackhi_epi32_0 result in
      let hi := mm_clmul t fold_const 1 in
      let lo := mm_clmul t fold_const 0x10 in
      xor3 result hi lo in
  let reduction_const := set_epi32 0 0x04c11db7 1 0x04d101df in
  let t := mm_clmul (blend_epi16_3c result) reduction_const 0 in
  let t := mm_clmul t reduction_const 0x11 in
  let result := N.lxor t result in
  let result := reverse_bits_epi8 gfni result in
  BSWAP32 (u32 result).

End Folding.
