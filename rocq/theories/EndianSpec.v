(** The characters that are not escaped at the start of a line though their sum with 42 is 256 or more: those
    from 214 on but for the ones encoded as NUL, TAB, LF, CR and space. *)
From Verif Require Import Base.
Open Scope Z_scope.

Definition first_plain (c : byte) : Prop := 214 <= bz c /\ ~ In (bz c) [214; 223; 224; 227; 246].

(** A text with a vertical tab for each line feed that is followed by a byte below 42. *)
Fixpoint with_vt (s : list byte) : list byte :=
  match s with
  | x :: ((y :: _) as r) => (if (bz x =? 10) && (bz y <? 42) then x0b else x) :: with_vt r
  | _ => s
  end.

(** The number of these line feeds. *)
Fixpoint lost_lf (s : list byte) : Z :=
  match s with
  | x :: ((y :: _) as r) => (if (bz x =? 10) && (bz y <? 42) then 1 else 0) + lost_lf r
  | _ => 0
  end.
