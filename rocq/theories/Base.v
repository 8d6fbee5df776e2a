(** Shared vocabulary of the model: bytes, C integers, outcomes, memory.

    Nothing in this file models a particular function of /repo; it defines the
    small abstract machine on which the functions of /repo are modelled. *)

From Coq Require Export ZArith NArith List Bool Lia.
From Coq Require Export Strings.Byte.
From Coq Require Import ZifyBool ZifyNat ZifyN.
Export ListNotations.
Global Open Scope Z_scope.

Ltac Zify.zify_post_hook ::= Z.div_mod_to_equations.

(** ** Bytes *)

(** Value of a byte as an integer (0..255). *)
Definition bz (b : byte) : Z := Z.of_N (Byte.to_N b).

(** Conversion of an integer to [unsigned char] (reduction modulo 256). *)
Definition u8 (z : Z) : byte :=
  match Byte.of_N (Z.to_N (z mod 256)) with Some b => b | None => x00 end.

Definition beq (a b : byte) : bool := Byte.eqb a b.

(** The characters the code mentions by name. *)
Definition NUL : byte := x00.
Definition TAB : byte := x09.
Definition LF  : byte := x0a.
Definition CR  : byte := x0d.
Definition SP  : byte := x20.
Definition DOT : byte := x2e.
Definition EQS : byte := x3d.
Definition YY  : byte := x79.

(** C [int] is 32 bits on all supported platforms (LP64 and LLP64). *)
Definition INT_MAX : Z := 2147483647.
Definition INT_MIN : Z := -2147483648.
Definition in_int (z : Z) : bool := (INT_MIN <=? z) && (z <=? INT_MAX).

(** Conversion to a 32-bit signed integer, as a C cast does. *)
Definition to_int32 (z : Z) : Z := (z + 2147483648) mod 4294967296 - 2147483648.

(** ** Outcomes *)

(** Running a piece of C either returns a value, executes undefined behaviour
    (out-of-bounds access, null dereference, signed overflow), or exhausts the
    loop fuel of the model.  No theorem treats the last two as success. *)
Inductive out (A : Type) : Type :=
| Ok (a : A)
| UB
| NoFuel.
Arguments Ok {A} a.
Arguments UB {A}.
Arguments NoFuel {A}.

(** ** Memory *)

(** A flat byte memory.  Validity of an access is tracked separately. *)
Definition mem := Z -> byte.

Definition upd (m : mem) (a : Z) (b : byte) : mem :=
  fun x => if x =? a then b else m x.

(** The two buffers a call may touch: [rlo,rhi) may be read, [wlo,whi) may be
    read and written. *)
Record bufs := { rlo : Z; rhi : Z; wlo : Z; whi : Z }.

Definition can_read (B : bufs) (a : Z) : bool :=
  ((rlo B <=? a) && (a <? rhi B)) || ((wlo B <=? a) && (a <? whi B)).
Definition can_write (B : bufs) (a : Z) : bool :=
  (wlo B <=? a) && (a <? whi B).

Definition M (A : Type) := mem -> out (A * mem).

Definition ret {A} (a : A) : M A := fun m => Ok (a, m).
Definition bind {A C} (x : M A) (f : A -> M C) : M C :=
  fun m => match x m with
           | Ok (a, m') => f a m'
           | UB => UB
           | NoFuel => NoFuel
           end.
Definition ub {A} : M A := fun _ => UB.
Definition nofuel {A} : M A := fun _ => NoFuel.

Definition load (B : bufs) (a : Z) : M byte :=
  fun m => if can_read B a then Ok (m a, m) else UB.
Definition store (B : bufs) (a : Z) (b : byte) : M unit :=
  fun m => if can_write B a then Ok (tt, upd m a b) else UB.

(** Signed [int] arithmetic whose overflow is undefined behaviour. *)
Definition chk_int (z : Z) : M Z :=
  fun m => if in_int z then Ok (z, m) else UB.

Notation "x <- e ;; k" := (bind e (fun x => k))
  (at level 61, e at next level, right associativity).
Notation "' pat <- e ;; k" := (bind e (fun x => match x with pat => k end))
  (at level 61, pat pattern, e at next level, right associativity).
Notation "e ;;; k" := (bind e (fun _ => k))
  (at level 61, right associativity).

(** [bytes_at m a l]: memory holds the bytes [l] from address [a] on. *)
Fixpoint bytes_at (m : mem) (a : Z) (l : list byte) : Prop :=
  match l with
  | [] => True
  | b :: t => m a = b /\ bytes_at m (a + 1) t
  end.

(** Reading [n] bytes back out of memory. *)
Fixpoint read_n (m : mem) (a : Z) (n : nat) : list byte :=
  match n with
  | O => []
  | S k => m a :: read_n m (a + 1) k
  end.

(** A memory holding [l] at address [a] (used to build concrete cases). *)
Definition mem_of (a : Z) (l : list byte) : mem :=
  fun x => if (a <=? x) && (x <? a + Z.of_nat (length l))
           then nth (Z.to_nat (x - a)) l x00 else x00.

Definition zlen {A} (l : list A) : Z := Z.of_nat (length l).
