(** What the optional arguments of encode, encodeTo and encodeIncr mean (Node.js 8 and later), and the
    truth value of JavaScript values. *)
From Verif Require Import Base JsBase JsArgs.
From Coq Require Import QArith.
Open Scope Z_scope.

(** [z] is [q] without its fraction. *)
Definition int_part (q : Q) (z : Z) : Prop :=
  ((0 <= q)%Q /\ (inject_Z z <= q < inject_Z (z + 1))%Q) \/ ((q < 0)%Q /\ (inject_Z (z - 1) < q <= inject_Z z)%Q).

(** The value is a number with integer part [z], which fits into 64 bits. *)
Definition integer (v : value) (z : Z) : Prop := exists q, v = Number (Fin q) /\ int_part q z /\ - 2 ^ 63 <= z < 2 ^ 63.
Definition no_integer (v : value) : Prop := forall z, ~ integer v z.

(** The low 32 bits are used; 0 stands for 128, and a column at the end of the line for column 0. *)
Definition is_line (v : value) (L : Z) : Prop :=
  exists z, integer v z /\ 0 <= to_int32 z /\ L = (if to_int32 z =? 0 then 128 else to_int32 z).
Definition is_col (v : value) (L col : Z) : Prop :=
  exists z, integer v z /\ 0 <= to_int32 z <= L /\ col = (if to_int32 z =? L then 0 else to_int32 z).

(** Arguments [args] (behind the Buffers) ask for line size [L] and column [col]. *)
Definition ask (args : list value) (L col : Z) : Prop :=
  match args with
  | [] => L = 128 /\ col = 0
  | [l] => is_line l L /\ col = 0
  | l :: c :: _ => is_line l L /\ is_col c L col
  end.

(** They are integers out of range. *)
Definition out_of_range (args : list value) : Prop :=
  match args with
  | [] => False
  | l :: r => (exists z, integer l z /\ to_int32 z < 0) \/
    match r with
    | [] => False
    | c :: _ => exists L z, is_line l L /\ integer c z /\ (to_int32 z < 0 \/ L < to_int32 z)
    end
  end.

(** The first of them that matters is no integer. *)
Definition ill_typed (args : list value) : Prop :=
  match args with
  | [] => False
  | l :: r => no_integer l \/
    match r with
    | [] => False
    | c :: _ => (exists L, is_line l L) /\ no_integer c
    end
  end.

(** ECMA-262, ToBoolean. *)
Definition truthy (v : value) : bool :=
  match v with
  | Undefined | Null | Number NaN | Str [] => false
  | Bool b => b
  | Number (Fin q) => negb (Qeq_bool q 0)
  | _ => true
  end.

(** The optional CRC argument is missing or a Buffer of 4 bytes. *)
Definition good_init (rest : list value) : Prop := match rest with [] => True | Buf _ n :: _ => n = 4 | _ => False end.
