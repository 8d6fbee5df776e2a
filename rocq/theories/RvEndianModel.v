(** rv_crc_calc (/repo/src/crc_riscv.cc lines 33-176) for targets of either byte order.  [RvModel.v] has the
    little-endian code and what does not load; [x64] as there. *)
From Verif Require Import Base CrcModel ClmulModel RvModel EndianModel ArmEndianModel.
From Coq Require Import NArith.
Open Scope N_scope.

Section Rv.
Context (o : order) (x64 : bool).

(** read_full, 48-50: an aligned load and SWAP (33-42), on words of WSZ bytes. *)
Definition o_read_full (B : bufs) (a : Z) : M N :=
  fun m => if (a mod Z.of_nat (WSZ x64) =? 0)%Z && all_readable B a (WSZ x64)
           then Ok (o_le o (WSZ x64) (o_at o m a (WSZ x64)), m) else UB.

(** read_partial, 43-47: [sz] bytes are copied to the start of a word that is 0; SWAP of this word. *)
Definition o_read_partial (B : bufs) (sz : nat) (a : Z) : M N :=
  fun m =>
    let data : mem := fun k => if (0 <=? k)%Z && (k <? Z.of_nat sz)%Z then m (a + k)%Z else NUL in
    if all_readable B a sz then Ok (o_le o (WSZ x64) (o_at o data 0 (WSZ x64)), m) else UB.

(** 98-109, as [rv_loop]. *)
Fixpoint o_rv_loop (fuel : nat) (B : bufs) (src len : Z) (c : RvModel.accum) : M (Z * Z * RvModel.accum) :=
  let W := Z.of_nat (WSZ x64) in
  let len := (len - W * 4)%Z in
  if (0 <=? len)%Z then
    match fuel with
    | O => nofuel
    | S f =>
      let '(a0, a1, a2, a3) := c in
      let tmpLo := N.lxor (CLMULL x64 a0 (MUL_LO x64)) (CLMULL x64 a1 (MUL_HI x64)) in
      let tmpHi := N.lxor (CLMULH x64 a0 (MUL_LO x64)) (CLMULH x64 a1 (MUL_HI x64)) in
      w0 <- o_read_full B src ;;
      w1 <- o_read_full B (src + W)%Z ;;
      let a0 := N.lxor tmpLo w0 in
      let a1 := N.lxor tmpHi w1 in
      let tmpLo := N.lxor (CLMULL x64 a2 (MUL_LO x64)) (CLMULL x64 a3 (MUL_HI x64)) in
      let tmpHi := N.lxor (CLMULH x64 a2 (MUL_LO x64)) (CLMULH x64 a3 (MUL_HI x64)) in
      w2 <- o_read_full B (src + W * 2)%Z ;;
      w3 <- o_read_full B (src + W * 3)%Z ;;
      let a2 := N.lxor tmpLo w2 in
      let a3 := N.lxor tmpHi w3 in
      o_rv_loop f B (src + W * 4)%Z len (a0, a1, a2, a3)
    end
  else ret (src, len, c).

(** 112-119, as [rv_two]. *)
Definition o_rv_two (B : bufs) (src len : Z) (c : RvModel.accum) : M (Z * RvModel.accum) :=
  let W := Z.of_nat (WSZ x64) in
  if (Z.land len (W * 2) =? 0)%Z then ret (src, c)
  else
    let '(a0, a1, a2, a3) := c in
    let tmpLo := N.lxor (CLMULL x64 a0 (MUL_LO x64)) (CLMULL x64 a1 (MUL_HI x64)) in
    let tmpHi := N.lxor (CLMULH x64 a0 (MUL_LO x64)) (CLMULH x64 a1 (MUL_HI x64)) in
    w2 <- o_read_full B src ;;
    w3 <- o_read_full B (src + W)%Z ;;
    ret ((src + W * 2)%Z, (a2, a3, N.lxor tmpLo w2, N.lxor tmpHi w3)).

(** 120-127, as [rv_one]. *)
Definition o_rv_one (B : bufs) (src len : Z) (c : RvModel.accum) : M (Z * RvModel.accum) :=
  let W := Z.of_nat (WSZ x64) in
  if (Z.land len W =? 0)%Z then ret (src, c)
  else
    let '(a0, a1, a2, a3) := c in
    let tmpLo := CLMULL x64 a0 (MUL_HI x64) in
    let tmpHi := CLMULH x64 a0 (MUL_HI x64) in
    w <- o_read_full B src ;;
    ret ((src + W)%Z, (a1, a2, N.lxor a3 tmpLo, N.lxor tmpHi w)).

(** rv_crc_calc, 53-176. *)
Definition o_rv_crc_calc (crc : N) (B : bufs) (src len : Z) : M N :=
  let W := Z.of_nat (WSZ x64) in
  let c := rv_init x64 crc in
  let initial_alignment := Z.land src (W - 1) in
  let initial_process := (W - initial_alignment)%Z in
  '(src, len, c) <-
    (if negb (initial_alignment =? 0)%Z && (initial_process <=? len)%Z then
       part <- o_read_partial B (Z.to_nat initial_process) src ;;
       ret ((src + initial_process)%Z, (len - initial_process)%Z,
            rv_align x64 c part (Z.to_N initial_alignment) (Z.to_N initial_process))
     else ret (src, len, c)) ;;
  '(src, len, c) <- o_rv_loop (Z.to_nat len) B src len c ;;
  '(src, c) <- o_rv_two B src len c ;;
  '(src, c) <- o_rv_one B src len c ;;
  let tail := Z.land len (W - 1) in
  c <- (if (tail =? 0)%Z then ret c
        else
          part <- o_read_partial B (Z.to_nat tail) src ;;
          ret (rv_part x64 c part (Z.to_N tail))) ;;
  ret (rv_done x64 c).

(** do_crc32_incremental_rv_zbc, 178-180. *)
Definition o_crc32_rv_zbc (long_bits : Z) (B : bufs) (data length : Z) (init : N) : M N :=
  c <- o_rv_crc_calc (not32 init) B data (to_signed long_bits length) ;;
  ret (not32 c).

End Rv.
