(** Specification of escape resolution in a block of characters. *)
From Verif Require Import Base.

(** [eqs] says which characters are '='.  An '=' is an escape lead unless it is
    itself escaped, i.e. preceded by a lead; [esc] says that the character before
    the block is a lead. *)
Fixpoint leads (esc : bool) (eqs : list bool) : list bool :=
  match eqs with
  | [] => []
  | b :: t => let x := b && negb esc in x :: leads x t
  end.

(** A list of flags as a bit mask, first flag in the lowest bit. *)
Fixpoint mask_of (l : list bool) : N :=
  match l with
  | [] => 0
  | b :: t => N.b2n b + 2 * mask_of t
  end%N.
