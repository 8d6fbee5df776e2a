(** arm_crc_calc (/repo/src/crc_arm.cc lines 96-190) for targets of either byte order.  [ArmModel.v] has the
    little-endian code; [a64] as there. *)
From Verif Require Import Base CrcModel ClmulModel ArmModel EndianModel.
From Coq Require Import NArith.
Open Scope N_scope.

(** What a load of [n] bytes gives: the byte of weight 256^i is at a+i or, big-endian, at a+n-1-i. *)
Definition o_at (o : order) (m : mem) (a : Z) (n : nat) : N :=
  of_bytes n (fun i => Byte.to_N (m (a + match o with Little => Z.of_N i | Big => Z.of_nat n - 1 - Z.of_N i end)%Z)).
Definition o_loadu (o : order) (B : bufs) (n : nat) (a : Z) : M N :=
  fun m => if all_readable B a n then Ok (o_at o m a n, m) else UB.

(** __builtin_bswap16, 32 and 64: _LE16, _LE32 and _LE64 of lines 36-49; one byte is not swapped. *)
Definition bswap (n : nat) (x : N) : N := of_bytes n (fun i => byte_at x (N.of_nat n - 1 - i)).
Definition o_le (o : order) (n : nat) (x : N) : N := match o with Big => bswap n x | Little => x end.

(** As [crc_feed] and [crc_feeds]. *)
Definition o_feed (o : order) (B : bufs) (n : nat) (st : Z * N) : M (Z * N) :=
  d <- o_loadu o B n (fst st) ;;
  ret ((fst st + Z.of_nat n)%Z, crc32_insn (8 * N.of_nat n) (snd st) (o_le o n d)).
Fixpoint o_feeds (o : order) (k : nat) (B : bufs) (n : nat) (st : Z * N) : M (Z * N) :=
  match k with
  | O => ret st
  | S k => st <- o_feed o B n st ;; o_feeds o k B n st
  end.

Section Arm.
Context (o : order) (a64 : bool).

(** Lines 100-117, as [align_step]. *)
Definition o_align_step (B : bufs) (n : nat) (st : Z * N * Z) : M (Z * N * Z) :=
  let '(src, crc, len) := st in
  if (Z.land src (Z.of_nat n) =? 0)%Z then ret st
  else '(src, crc) <- o_feed o B n (src, crc) ;; ret (src, crc, (len - Z.of_nat n)%Z).

(** Lines 151-160, as [arm_loop]. *)
Fixpoint o_arm_loop (fuel : nat) (B : bufs) (st : Z * N) (len : Z) : M (Z * N * Z) :=
  let len := (len - Z.of_nat (WS a64) * 8)%Z in
  if (0 <=? len)%Z then
    match fuel with
    | O => nofuel
    | S f => st <- o_feeds o 8 B (WS a64) st ;; o_arm_loop f B st len
    end
  else ret (st, len).

(** Lines 161-187, as [tail_step]. *)
Definition o_tail_step (k : nat) (B : bufs) (n : nat) (len : Z) (st : Z * N) : M (Z * N) :=
  if (Z.land len (Z.of_nat n * Z.of_nat k) =? 0)%Z then ret st else o_feeds o k B n st.

(** arm_crc_calc, 96-190. *)
Definition o_arm_crc_calc (crc : N) (B : bufs) (src len : Z) : M N :=
  '(src, crc, len) <-
    (if (16 <=? len)%Z then
       st <- o_align_step B 1 (src, crc, len) ;;
       st <- o_align_step B 2 st ;;
       if a64 then o_align_step B 4 st else ret st
     else ret (src, crc, len)) ;;
  '(st, len) <- o_arm_loop (Z.to_nat len) B (src, crc) len ;;
  st <- o_tail_step 4 B (WS a64) len st ;;
  st <- o_tail_step 2 B (WS a64) len st ;;
  st <- o_tail_step 1 B (WS a64) len st ;;
  st <- (if a64 then o_tail_step 1 B 4 len st else ret st) ;;
  st <- o_tail_step 1 B 2 len st ;;
  st <- o_tail_step 1 B 1 len st ;;
  ret (snd st).

(** do_crc32_incremental_arm, 192-194. *)
Definition o_crc32_arm (long_bits : Z) (B : bufs) (data length : Z) (init : N) : M N :=
  c <- o_arm_crc_calc (not32 init) B data (to_signed long_bits length) ;;
  ret (not32 c).
End Arm.
