(** Model of the ARM CRC code: /repo/src/crc_arm.cc and /repo/src/crc_arm_pmull.cc
    (line numbers below refer to these).

    [a64] says whether __aarch64__ is defined: AArch64 except with MSVC.  Little-endian
    targets.  The pipelined loop (121-149 of crc_arm.cc) is not compiled and not
    modelled.  Loads through cast pointers are modelled as the LDR instruction, which
    needs no alignment. *)
From Verif Require Import Base CrcModel ClmulModel.
From Coq Require Import NArith.
Open Scope N_scope.

(** The CRC32B, CRC32H, CRC32W and CRC32X instructions ([bits] is the operand size):
    the accumulator, exclusive or the operand, is multiplied bit by bit. *)
Definition crc_bit (c : N) : N := N.lxor (N.shiftr c 1) (if N.odd c then 0xEDB88320 else 0).
Definition crc32_insn (bits : N) (acc data : N) : N := N.iter bits crc_bit (N.lxor acc data).

(** ** crc_arm.cc *)

(** crc32_multiply_arm, 64-78.  [res] and [a64] are uint64_t, [b64] is an int64_t.
    [wrapv]: signed arithmetic wraps around (what GCC and clang produce here);
    otherwise overflow is undefined behaviour, [None]. *)
Definition int64 (z : Z) : Z := ((z + 2 ^ 63) mod 2 ^ 64 - 2 ^ 63)%Z.
Fixpoint pmull_loop (n : nat) (wrapv : bool) (res a64 : N) (b64 : Z) : option N :=
  match n with
  | O => Some res
  | S n =>
    let mask := if (Z.shiftr b64 63 =? 0)%Z then 0 else W64 in
    let res := N.lxor res (N.land a64 mask) in
    let b2 := (b64 + b64)%Z in
    if (int64 b2 =? b2)%Z || wrapv
    then pmull_loop n wrapv res (N.shiftr a64 1) (int64 b2)
    else None
  end.
Definition crc32_multiply_arm_opt (wrapv : bool) (a b : N) : option N :=
  match pmull_loop 32 wrapv 0 (N.shiftl a 32) (int64 (Z.shiftl (Z.of_N b) 32)) with
  | None => None
  | Some res => Some (u32 (N.lxor (crc32_insn 32 0 (u32 res)) (N.shiftr res 32)))
  end.
Definition crc32_multiply_arm (a b : N) : N :=
  match crc32_multiply_arm_opt true a b with Some r => r | None => 0 end.

(** One load of [n] bytes and the CRC instruction for it; the pointer advances. *)
Definition crc_feed (B : bufs) (n : nat) (st : Z * N) : M (Z * N) :=
  d <- loadu B n (fst st) ;;
  ret ((fst st + Z.of_nat n)%Z, crc32_insn (8 * N.of_nat n) (snd st) d).
Fixpoint crc_feeds (k : nat) (B : bufs) (n : nat) (st : Z * N) : M (Z * N) :=
  match k with
  | O => ret st
  | S k => st <- crc_feed B n st ;; crc_feeds k B n st
  end.

Section Arm.
Context (a64 : bool).

(** WORD_T and CRC_WORD, 51-59. *)
Definition WS : nat := if a64 then 8%nat else 4%nat.

(** Lines 100-117: [n] bytes if the pointer has that bit set. *)
Definition align_step (B : bufs) (n : nat) (st : Z * N * Z) : M (Z * N * Z) :=
  let '(src, crc, len) := st in
  if (Z.land src (Z.of_nat n) =? 0)%Z then ret st
  else '(src, crc) <- crc_feed B n (src, crc) ;; ret (src, crc, (len - Z.of_nat n)%Z).

(** 151-160. *)
Fixpoint arm_loop (fuel : nat) (B : bufs) (st : Z * N) (len : Z) : M (Z * N * Z) :=
  let len := (len - Z.of_nat WS * 8)%Z in
  if (0 <=? len)%Z then
    match fuel with
    | O => nofuel
    | S f => st <- crc_feeds 8 B WS st ;; arm_loop f B st len
    end
  else ret (st, len).

(** Lines 161-187: [k] loads of [n] bytes if [len] has that bit set. *)
Definition tail_step (k : nat) (B : bufs) (n : nat) (len : Z) (st : Z * N) : M (Z * N) :=
  if (Z.land len (Z.of_nat n * Z.of_nat k) =? 0)%Z then ret st else crc_feeds k B n st.

(** arm_crc_calc, 96-190. *)
Definition arm_crc_calc (crc : N) (B : bufs) (src len : Z) : M N :=
  '(src, crc, len) <-
    (if (16 <=? len)%Z then
       st <- align_step B 1 (src, crc, len) ;;
       st <- align_step B 2 st ;;
       if a64 then align_step B 4 st else ret st
     else ret (src, crc, len)) ;;
  '(st, len) <- arm_loop (Z.to_nat len) B (src, crc) len ;;
  st <- tail_step 4 B WS len st ;;
  st <- tail_step 2 B WS len st ;;
  st <- tail_step 1 B WS len st ;;
  st <- (if a64 then tail_step 1 B 4 len st else ret st) ;;
  st <- tail_step 1 B 2 len st ;;
  st <- tail_step 1 B 1 len st ;;
  ret (snd st).

(** do_crc32_incremental_arm, 192-194. *)
Definition do_crc32_incremental_arm (long_bits : Z) (B : bufs) (data length : Z) (init : N) : M N :=
  c <- arm_crc_calc (not32 init) B data (to_signed long_bits length) ;;
  ret (not32 c).

End Arm.

(** crc32_shift_arm, 198-210. *)
Fixpoint arm_shift_loop (fuel : nat) (mul : mulfun) (result n : N) : N :=
  match fuel with
  | O => result
  | S fuel => if n =? 0 then result
              else arm_shift_loop fuel mul (mul result (tab crc_power (ctz n))) (N.land n (n - 1))
  end.
Definition crc32_shift_arm (crc1 n : N) : N :=
  let prod := N.shiftl crc1 (32 - N.land n 31) in
  let result := u32 (N.lxor (crc32_insn 32 0 (u32 prod)) (N.shiftr prod 32)) in
  arm_shift_loop 32 crc32_multiply_arm result (N.land n 0xFFFFFFE0).

(** ** crc_arm_pmull.cc *)

(** The RBIT instruction on [k] bits (40-66: rbit32 and rbit64 as intrinsics or inline
    assembly). *)
Fixpoint rbit (k : nat) (x : N) : N :=
  match k with
  | O => 0
  | S k => N.lxor (N.shiftl (N.land x 1) (N.of_nat k)) (rbit k (N.shiftr x 1))
  end.
(** rbit64 and rbit32 with MSVC on AArch64, 27-38. *)
Definition rbit64_msvc (x : N) : N :=
  let x := of_bytes 8 (fun i => byte_at x (7 - i)) in
  let x := N.lor (N.shiftr (N.land x 0xaaaaaaaaaaaaaaaa) 1) (N.shiftl (N.land x 0x5555555555555555) 1) in
  let x := N.lor (N.shiftr (N.land x 0xcccccccccccccccc) 2) (N.shiftl (N.land x 0x3333333333333333) 2) in
  N.lor (N.shiftr (N.land x 0xf0f0f0f0f0f0f0f0) 4) (N.shiftl (N.land x 0x0f0f0f0f0f0f0f0f) 4).
Definition rbit32_msvc (x : N) : N := N.shiftr (rbit64_msvc x) 32.

(** crc32_multiply_pmull, 112-125. *)
Definition crc32_multiply_pmull (a64 : bool) (a b : N) : N :=
  let p := clmul a b in
  if a64 then u32 (N.lxor (crc32_insn 32 0 (u32 (lo64 (p + p)))) (N.shiftr p 31))
  else
    let prod := lo64 (p + p) in
    N.lxor (crc32_insn 32 0 (u32 prod)) (u32 (N.shiftr prod 32)).

(** crc_power_rev, 129-134. *)
Definition crc_power_rev_pmull : list N := [
  0x00000002; 0x00000004; 0x00000010; 0x00000100; 0x00010000; 0x04c11db7; 0x490d678d; 0xe8a45605;
  0x75be46b7; 0xe6228b11; 0x567fddeb; 0x88fe2237; 0x0e857e71; 0x7001e426; 0x075de2b2; 0xf12a7f90;
  0xf0b4a1c1; 0x58f46c0c; 0xc3395ade; 0x96837f8c; 0x544037f9; 0x23b7b136; 0xb2e16ba8; 0x725e7bfa;
  0xec709b5d; 0xf77a7274; 0x2845d572; 0x034e2515; 0x79695942; 0x540cb128; 0x0b65d023; 0x3c344723 ].

(** crc32_shift_pmull_mulred, 137-141. *)
Definition pmull_mulred (a b : N) : N :=
  let r := clmul a b in
  let h := clmul (hi64 r) 0x490d678d in
  N.lxor (lo64 r) (lo64 h).

(** 167-175. *)
Fixpoint pmull_shift_loop (fuel : nat) (n res res2 : N) : N * N :=
  match fuel with
  | O => (res, res2)
  | S f =>
    if n =? 0 then (res, res2)
    else
      let res := pmull_mulred res (tab crc_power_rev_pmull (ctz n)) in
      let n := N.land n (n - 1) in
      if n =? 0 then (res, res2)
      else
        let res2 := pmull_mulred res2 (tab crc_power_rev_pmull (ctz n)) in
        let n := N.land n (n - 1) in
        pmull_shift_loop f n res res2
  end.

(** crc32_shift_pmull, 144-204; [rbit32] and [rbit64] as above. *)
Definition crc32_shift_pmull (a64 : bool) (rbit32 rbit64 : N -> N) (crc1 n : N) : N :=
  let crc1 := rbit32 crc1 in
  let res := N.shiftl crc1 (N.land n 31) in
  let n := N.land n 0xFFFFFFE0 in
  if n =? 0 then
    if a64 then
      let crc := rbit64 res in
      u32 (N.lxor (crc32_insn 32 0 (u32 crc)) (N.shiftr crc 32))
    else
      N.lxor (crc32_insn 32 0 (rbit32 (N.shiftr res 32))) (rbit32 (u32 res))
  else
    let res2 := tab crc_power_rev_pmull (ctz n) in
    let n := N.land n (n - 1) in
    let '(res, res2) :=
      if n =? 0 then (res, res2)
      else
        let res2 := lo64 (clmul res2 (tab crc_power_rev_pmull (ctz n))) in
        let n := N.land n (n - 1) in
        pmull_shift_loop 32 n res res2 in
    let prod := clmul res res2 in
    (* vrbitq_u8, then vrev64q_u8: each 64-bit lane is reversed *)
    let lane0 := rbit 64 (lo64 prod) in
    let lane1 := rbit 64 (hi64 prod) in
    if a64 then
      let crc := crc32_insn 64 0 lane1 in
      u32 (N.lxor (crc32_insn 32 (u32 lane0) (u32 crc)) (N.shiftr lane0 32))
    else
      let crc := crc32_insn 32 0 (u32 lane1) in
      let crc := crc32_insn 32 (u32 (N.shiftr lane1 32)) crc in
      N.lxor (crc32_insn 32 (u32 lane0) crc) (u32 (N.shiftr lane0 32)).
