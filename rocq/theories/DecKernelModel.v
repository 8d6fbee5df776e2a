(** What the SIMD kernels share: the choice of nextMask
    (/repo/src/decoder_common.h lines 174-199) and the loop over blocks. *)
From Verif Require Import Base DecModel DecSimdModel DecMaskModel.

Definition loads_eq (B : bufs) (a : Z) (c : byte) : M bool :=
  x <- load B a ;; ret (beq x c).

(** /repo/src/decoder_common.h lines 174-187: [decoder_set_nextMask] looking back
    from the end [src] of the data. *)
Definition nextMask_back (isRaw : bool) (B : bufs) (src len nextMask : Z) : M Z :=
  if isRaw then
    if negb (len =? 0) then
      a <- loads_eq B (src - 2) CR ;;
      b <- andm a (loads_eq B (src - 1) LF) ;;
      c <- andm b (loads_eq B src DOT) ;;
      if c then ret 1 else
      a <- loads_eq B (src - 1) CR ;;
      b <- andm a (loads_eq B src LF) ;;
      c <- andm b (loads_eq B (src + 1) DOT) ;;
      if c then ret 2 else ret 0
    else ret nextMask
  else ret 0.

(** Lines 190-199: [decoder_set_nextMask] from the mask of a block at [src]. *)
Definition nextMask_fwd (isRaw : bool) (B : bufs) (src : Z) (mask : N) : M Z :=
  if isRaw then
    a <- loads_eq B src DOT ;;
    if a then ret (Z.of_N (N.land mask 1)) else
    b <- loads_eq B (src + 1) DOT ;;
    if b then ret (Z.of_N (N.land mask 2)) else ret 0
  else ret 0.

(** The loop of the kernels, [for(i = -len; i; i += width)]: the body either breaks
    with a nextMask or goes on with its variables updated.  At a break the
    variables are those the iteration started with. *)
Fixpoint block_loop {T} (fuel : nat) (width : Z) (body : Z -> T -> M (Z + T)) (i : Z) (st : T)
    : M (option (Z * Z) * T) :=
  if i =? 0 then ret (None, st)
  else match fuel with
       | O => nofuel
       | S f =>
         x <- body i st ;;
         match x with
         | inl nextMask => ret (Some (i, nextMask), st)
         | inr st' => block_loop f width body (i + width) st'
         end
       end.
