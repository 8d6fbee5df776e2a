(** Specification of yEnc encoding, independent of the implementation.

    yEnc adds 42 to each byte.  The result is "critical" if it is NUL, LF, CR or
    '='; a critical character is written as '=' followed by the character plus
    64.  This implementation also escapes tab and space in the first and last
    column of a line (and as the very last character of a message) and '.' in
    the first column.  A line break CRLF is written before a character once the
    line holds [L] columns. *)
From Verif Require Import Base.

Definition shifted (c : byte) : byte := u8 (bz c + 42).

Definition is_crit (o : byte) : bool :=
  beq o NUL || beq o LF || beq o CR || beq o EQS.
Definition is_ws (o : byte) : bool := beq o TAB || beq o SP.

(** Must [c] be escaped, given whether it is in the first / last column? *)
Definition must_escape (first last : bool) (c : byte) : bool :=
  let o := shifted c in
  is_crit o || (is_ws o && (first || last)) || (beq o DOT && first).

Definition enc_char (first last : bool) (c : byte) : list byte :=
  if must_escape first last c then [EQS; u8 (bz (shifted c) + 64)] else [shifted c].

(** [yenc L fin col data]: the text for [data] when [col] characters are already
    on the current line; [fin] says that the end of [data] ends the last line. *)
Fixpoint yenc (L : Z) (fin : bool) (col : Z) (data : list byte) : list byte :=
  match data with
  | [] => []
  | c :: t =>
    if L <=? col then
      let e := enc_char true false c in
      CR :: LF :: e ++ yenc L fin (zlen e) t
    else
      let e := enc_char (col =? 0)
                 ((col =? L - 1) || (fin && match t with [] => true | _ => false end)) c in
      e ++ yenc L fin (col + zlen e) t
  end.

(** The column reached after [data]: number of characters on the last line. *)
Fixpoint yenc_col (L : Z) (fin : bool) (col : Z) (data : list byte) : Z :=
  match data with
  | [] => col
  | c :: t =>
    if L <=? col then
      yenc_col L fin (zlen (enc_char true false c)) t
    else
      yenc_col L fin
        (col + zlen (enc_char (col =? 0)
           ((col =? L - 1) || (fin && match t with [] => true | _ => false end)) c)) t
  end.

(** The column the implementation reports: as [yenc_col] except that a character
    placed in the last column does not count when it ends the data. *)
Fixpoint ret_col (L : Z) (fin : bool) (col : Z) (data : list byte) : Z :=
  match data with
  | [] => col
  | c :: t =>
    if L <=? col then ret_col L fin (zlen (enc_char true false c)) t
    else if (col =? L - 1) && negb (col =? 0) && match t with [] => true | _ => false end
    then col
    else ret_col L fin (col + zlen (enc_char (col =? 0)
           ((col =? L - 1) || (fin && match t with [] => true | _ => false end)) c)) t
  end.

(** One-shot encoding as a user sees it. *)
Definition yenc_message (L col : Z) (data : list byte) : list byte := yenc L true col data.

(** ** Vocabulary for the shape of encoded text *)

(** The seven characters that may follow an '=': 64 added to NUL, TAB, LF, CR,
    space, '.', '='. *)
Definition legal_escapes : list byte :=
  map (fun o => u8 (bz o + 64)) [NUL; TAB; LF; CR; SP; DOT; EQS].

(** No NUL; CR and LF only as CRLF; every '=' is followed by a legal escape
    character. *)
Definition line_safe (o : list byte) : Prop :=
  (forall a b, o <> a ++ NUL :: b) /\
  (forall a b, o = a ++ CR :: b -> exists b', b = LF :: b') /\
  (forall a b, o = a ++ LF :: b -> exists a', a = a' ++ [CR]) /\
  (forall a b, o = a ++ EQS :: b -> exists c b', b = c :: b' /\ In c legal_escapes).

(** The lines of a text, i.e. the pieces between CRLF pairs. *)
Fixpoint lines (o : list byte) : list (list byte) :=
  match o with
  | [] => [[]]
  | c :: t =>
    match t with
    | d :: t' =>
      if beq c CR && beq d LF then [] :: lines t'
      else match lines t with l :: ls => (c :: l) :: ls | [] => [[c]] end
    | [] => [[c]]
    end
  end.

(** Putting lines back together. *)
Fixpoint join_crlf (ls : list (list byte)) : list byte :=
  match ls with
  | [] => []
  | [l] => l
  | l :: ls => l ++ CR :: LF :: join_crlf ls
  end.

(** A completed line: it takes [n] columns, or one more if its last character is
    escaped. *)
Definition full_line (n : Z) (l : list byte) : Prop :=
  zlen l = n \/ (zlen l = n + 1 /\ exists l' c, l = l' ++ [EQS; c]).

Definition starts_with (p l : list byte) : Prop := exists t, l = p ++ t.
Definition ends_with (p l : list byte) : Prop := exists t, l = t ++ p.
