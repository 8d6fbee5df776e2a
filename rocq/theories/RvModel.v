(** Model of /repo/src/crc_riscv.cc (line numbers below refer to it): CRC-32 with the
    RISC-V Zbc extension.  [x64] says whether __riscv_xlen is 64 (otherwise 32).
    Little-endian (SWAP, 33-42, is the identity). *)
From Verif Require Import Base CrcModel ClmulModel.
From Coq Require Import NArith.
Open Scope N_scope.

Section Rv.
Context (x64 : bool).

(** __riscv_xlen, and sizeof(uintptr_t), 78. *)
Definition XL : N := if x64 then 64 else 32.
Definition WSZ : nat := if x64 then 8%nat else 4%nat.
Definition wrap (x : N) : N := N.land x (N.ones XL).
Definition shl (x k : N) : N := wrap (N.shiftl x k).

(** The clmul and clmulh instructions, 5-31. *)
Definition rv_clmul (x y : N) : N := wrap (clmul x y).
Definition rv_clmulh (x y : N) : N := N.shiftr (clmul x y) XL.

(** CLMULL and CLMULH, 64-65 and 70-71; [k] may have 33 bits. *)
Definition CLMULL (x k : N) : N := if x64 then rv_clmul x k else rv_clmul x (N.land k 0xffffffff).
Definition CLMULH (x k : N) : N :=
  if x64 then rv_clmulh x k
  else N.lxor (rv_clmulh x (N.land k 0xffffffff)) (if 0xffffffff <? k then x else 0).
(** 63, 69. *)
Definition MUL_HI : N := if x64 then 0x15a546366 else 0x140d44a2e.
Definition MUL_LO : N := if x64 then 0xf1da05aa else 0x1751997d0.

Definition accum : Type := (N * N * N * N)%type.

(** 54, 67, 73-74. *)
Definition rv_init (crc : N) : accum :=
  if x64 then (0, 0, 0, rv_clmul crc 0xb66b1fa6)
  else (0, 0, rv_clmul crc 0xb66b1fa6, rv_clmulh crc 0xb66b1fa6).

(** read_full, 48-50: an aligned load.  read_partial, 43-47, is [loadu]. *)
Definition read_full (B : bufs) (a : Z) : M N := loada true B WSZ a.

(** 84-91: [n] bytes, [part], are added. *)
Definition rv_align (c : accum) (part : N) (alignment process : N) : accum :=
  let '(a0, a1, a2, a3) := c in
  let l := alignment * 8 in
  let r := process * 8 in
  if x64 then (a0, a1, shl a3 l, N.lor (shl part l) (N.shiftr a3 r))
  else (a0, shl a2 l, N.lor (shl a3 l) (N.shiftr a2 r), N.lor (shl part l) (N.shiftr a3 r)).

(** 98-109. *)
Fixpoint rv_loop (fuel : nat) (B : bufs) (src len : Z) (c : accum) : M (Z * Z * accum) :=
  let W := Z.of_nat WSZ in
  let len := (len - W * 4)%Z in
  if (0 <=? len)%Z then
    match fuel with
    | O => nofuel
    | S f =>
      let '(a0, a1, a2, a3) := c in
      let tmpLo := N.lxor (CLMULL a0 MUL_LO) (CLMULL a1 MUL_HI) in
      let tmpHi := N.lxor (CLMULH a0 MUL_LO) (CLMULH a1 MUL_HI) in
      w0 <- read_full B src ;;
      w1 <- read_full B (src + W)%Z ;;
      let a0 := N.lxor tmpLo w0 in
      let a1 := N.lxor tmpHi w1 in
      let tmpLo := N.lxor (CLMULL a2 MUL_LO) (CLMULL a3 MUL_HI) in
      let tmpHi := N.lxor (CLMULH a2 MUL_LO) (CLMULH a3 MUL_HI) in
      w2 <- read_full B (src + W * 2)%Z ;;
      w3 <- read_full B (src + W * 3)%Z ;;
      let a2 := N.lxor tmpLo w2 in
      let a3 := N.lxor tmpHi w3 in
      rv_loop f B (src + W * 4)%Z len (a0, a1, a2, a3)
    end
  else ret (src, len, c).

(** 112-119. *)
Definition rv_two (B : bufs) (src len : Z) (c : accum) : M (Z * accum) :=
  let W := Z.of_nat WSZ in
  if (Z.land len (W * 2) =? 0)%Z then ret (src, c)
  else
    let '(a0, a1, a2, a3) := c in
    let tmpLo := N.lxor (CLMULL a0 MUL_LO) (CLMULL a1 MUL_HI) in
    let tmpHi := N.lxor (CLMULH a0 MUL_LO) (CLMULH a1 MUL_HI) in
    w2 <- read_full B src ;;
    w3 <- read_full B (src + W)%Z ;;
    ret ((src + W * 2)%Z, (a2, a3, N.lxor tmpLo w2, N.lxor tmpHi w3)).

(** 120-127. *)
Definition rv_one (B : bufs) (src len : Z) (c : accum) : M (Z * accum) :=
  let W := Z.of_nat WSZ in
  if (Z.land len W =? 0)%Z then ret (src, c)
  else
    let '(a0, a1, a2, a3) := c in
    let tmpLo := CLMULL a0 MUL_HI in
    let tmpHi := CLMULH a0 MUL_HI in
    w <- read_full B src ;;
    ret ((src + W)%Z, (a1, a2, N.lxor a3 tmpLo, N.lxor tmpHi w)).

(** 131-141. *)
Definition rv_part (c : accum) (part tail : N) : accum :=
  let '(a0, a1, a2, a3) := c in
  let l := (N.of_nat WSZ - tail) * 8 in
  let r := tail * 8 in
  let tmp := shl a0 l in
  let tmpLo := CLMULL tmp MUL_HI in
  let tmpHi := CLMULH tmp MUL_HI in
  let a0 := N.lor (N.shiftr a0 r) (shl a1 l) in
  let a1 := N.lor (N.shiftr a1 r) (shl a2 l) in
  let a2 := N.lor (N.shiftr a2 r) (shl a3 l) in
  let a3 := N.lor (N.shiftr a3 r) (shl part l) in
  (a0, a1, N.lxor a2 tmpLo, N.lxor a3 tmpHi).

(** 145-173. *)
Definition rv_done (c : accum) : N :=
  let '(a0, a1, a2, a3) := c in
  let '(a0, a3) :=
    if x64 then
      let a2 := N.lxor a2 (N.lxor (rv_clmul a0 0x1751997d0) (rv_clmul a1 0xccaa009e)) in
      let a3 := N.lxor a3 (N.lxor (rv_clmulh a0 0x1751997d0) (rv_clmulh a1 0xccaa009e)) in
      let a0 := rv_clmulh a2 0xccaa009e in
      let a3 := N.lxor a3 (rv_clmul a2 0xccaa009e) in
      let a1 := rv_clmul (N.land a3 0xffffffff) 0x163cd6124 in
      let a0 := N.lxor a0 (N.shiftr a1 32) in
      let a3 := N.lxor a1 (N.shiftr a3 32) in
      (a0, shl a3 32)
    else
      let a2 := N.lxor a2 (N.lxor (rv_clmul a0 0xccaa009e) (CLMULL a1 0x163cd6124)) in
      let a3 := N.lxor a3 (N.lxor (rv_clmulh a0 0xccaa009e) (CLMULH a1 0x163cd6124)) in
      let a0 := CLMULH a2 0x163cd6124 in
      (a0, N.lxor a3 (CLMULL a2 0x163cd6124)) in
  let a3 := CLMULL a3 0xf7011641 in
  let a3 := CLMULH a3 0x1db710640 in
  u32 (N.lxor a0 a3).

(** rv_crc_calc, 53-176. *)
Definition rv_crc_calc (crc : N) (B : bufs) (src len : Z) : M N :=
  let W := Z.of_nat WSZ in
  let c := rv_init crc in
  let initial_alignment := Z.land src (W - 1) in
  let initial_process := (W - initial_alignment)%Z in
  '(src, len, c) <-
    (if negb (initial_alignment =? 0)%Z && (initial_process <=? len)%Z then
       part <- loadu B (Z.to_nat initial_process) src ;;
       ret ((src + initial_process)%Z, (len - initial_process)%Z,
            rv_align c part (Z.to_N initial_alignment) (Z.to_N initial_process))
     else ret (src, len, c)) ;;
  '(src, len, c) <- rv_loop (Z.to_nat len) B src len c ;;
  '(src, c) <- rv_two B src len c ;;
  '(src, c) <- rv_one B src len c ;;
  let tail := Z.land len (W - 1) in
  c <- (if (tail =? 0)%Z then ret c
        else
          part <- loadu B (Z.to_nat tail) src ;;
          ret (rv_part c part (Z.to_N tail))) ;;
  ret (rv_done c).

(** do_crc32_incremental_rv_zbc, 178-180. *)
Definition do_crc32_incremental_rv_zbc (long_bits : Z) (B : bufs) (data length : Z) (init : N) : M N :=
  c <- rv_crc_calc (not32 init) B data (to_signed long_bits length) ;;
  ret (not32 c).

(** crc32_reduce_rv_zbc, 185-190 (64-bit only). *)
Definition crc32_reduce_rv_zbc (prod : N) : N :=
  let t := rv_clmul (shl prod 33) 0xf7011641 in
  let t := rv_clmulh t 0x1db710640 in
  u32 (N.lxor t (N.shiftr prod 31)).

(** crc32_multiply_rv_zbc, 192-209. *)
Definition crc32_multiply_rv_zbc (a b : N) : N :=
  if x64 then crc32_reduce_rv_zbc (rv_clmul a b)
  else
    let prodLo := rv_clmul a b in
    let prodHi := rv_clmulh a b in
    let prodHi := u32 (prodHi + prodHi) in
    let prodHi := N.lor prodHi (N.shiftr prodLo 31) in
    let prodLo := u32 (prodLo + prodLo) in
    let t := rv_clmul prodLo 0xf7011641 in
    let t := N.lxor t (rv_clmulh t 0xdb710640) in
    N.lxor t prodHi.

(** crc32_shift_rv_zbc, 212-237; its loop is 227-235. *)
Fixpoint rv_shift_loop (fuel : nat) (n result result2 : N) : N * N :=
  match fuel with
  | O => (result, result2)
  | S f =>
    if n =? 0 then (result, result2)
    else
      let result := crc32_multiply_rv_zbc result (tab crc_power (ctz n)) in
      let n := N.land n (n - 1) in
      if n =? 0 then (result, result2)
      else
        let result2 := crc32_multiply_rv_zbc result2 (tab crc_power (ctz n)) in
        let n := N.land n (n - 1) in
        rv_shift_loop f n result result2
  end.
Definition crc32_shift_rv_zbc (crc1 n : N) : N :=
  let '(result, n) :=
    if x64 then (crc32_reduce_rv_zbc (shl crc1 (N.lxor 31 (N.land n 31))), N.land n 0xFFFFFFE0)
    else (crc1, n) in
  if n =? 0 then result
  else
    let result2 := tab crc_power (ctz n) in
    let n := N.land n (n - 1) in
    let '(result, result2) := rv_shift_loop 32 n result result2 in
    crc32_multiply_rv_zbc result result2.

End Rv.
