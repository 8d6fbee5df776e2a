(** Specification: CRC-32 computed bit by bit, and powers of x modulo the CRC
    polynomial.

    Words are numbers below 2^32.  As in the standard reflected form, bit 31 is the
    coefficient of x^0 and bit 0 that of x^31. *)
From Verif Require Import Base.
From Coq Require Export NArith.
Open Scope N_scope.

(** x^32 mod P, reflected. *)
Definition POLY : N := 0xEDB88320.

(** Multiplication by x modulo P. *)
Definition step (c : N) : N := N.lxor (N.shiftr c 1) (if N.odd c then POLY else 0).

(** Multiplication by x^n. *)
Definition times_x (n : N) (c : N) : N := N.iter n step c.

(** x^n; [ONE] is x^0. *)
Definition ONE : N := 0x80000000.
Definition xpow (n : N) : N := times_x n ONE.

(** One message byte, least significant bit first. *)
Definition crc_byte (c : N) (b : byte) : N := times_x 8 (N.lxor c (Byte.to_N b)).
Definition crc_bytes (c : N) (l : list byte) : N := fold_left crc_byte l c.

Definition mask32 : N := 0xFFFFFFFF.
Definition compl (c : N) : N := N.lxor c mask32.

(** CRC-32 of [data], continuing from the CRC-32 [init] of what came before (0 if
    nothing did). *)
Definition crc32_spec (init : N) (data : list byte) : N := compl (crc_bytes (compl init) data).

Definition word (c : N) : Prop := c < 2 ^ 32.

(** The big-endian 4-byte form of a word. *)
Definition be32 (c : N) : list byte :=
  map (fun k => u8 (Z.of_N (c / 2 ^ k mod 256))) [24; 16; 8; 0].

(** A message as a sequence of bits in transmission order. *)
Definition byte_bits (b : byte) : list bool := map (N.testbit (Byte.to_N b)) [0; 1; 2; 3; 4; 5; 6; 7].
Definition msg_bits (l : list byte) : list bool := flat_map byte_bits l.
