(** Model of the bit tricks shared by the SIMD decoders
    (/repo/src/decoder_common.h lines 201-220). *)
From Verif Require Import Base.

(** An unsigned integer of [w] bits. *)
Definition uint (w x : N) : N := N.modulo x (2 ^ w)%N.

(** The complement of a [w]-bit integer. *)
Definition unot (w x : N) : N := N.lxor (uint w x) (N.ones w).

(** /repo/src/decoder_common.h lines 203-220: [fix_eqMask<T>] for an unsigned T
    of [w] <= 64 bits. *)
Definition fix_eqMask (w mask maskShift1 : N) : N :=
  let start := N.land mask (unot w maskShift1) in
  let even := uint w 0x5555555555555555%N in
  let oddGroups := uint w (mask + N.land start even) in
  N.land (N.lxor oddGroups even) mask.
