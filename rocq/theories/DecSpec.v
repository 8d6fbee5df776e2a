(** Specification of yEnc decoding, independent of the implementation.

    First the textual reference semantics, then the same as automata that read
    one character at a time (needed to talk about streams cut into chunks). *)
From Verif Require Import Base EncSpec.

Definition unshift (c : byte) : byte := u8 (bz c - 42).
Definition unescape (c : byte) : byte := u8 (bz c - 42 - 64).

(** ** Textual reference *)

(** Plain decoding: CR and LF are dropped, '=' c stands for c-106, anything else
    for c-42; a trailing lone '=' yields nothing. *)
Fixpoint decode_text (l : list byte) : list byte :=
  match l with
  | [] => []
  | c :: t =>
    if beq c CR || beq c LF then decode_text t
    else if beq c EQS then
      match t with [] => [] | d :: t' => unescape d :: decode_text t' end
    else unshift c :: decode_text t
  end.

(** NNTP dot-unstuffing: one '.' is removed at the start of every line.  [bol]
    says that the text starts at the beginning of a line. *)
Fixpoint unstuff (bol : bool) (l : list byte) : list byte :=
  match l with
  | [] => []
  | c :: t =>
    if bol && beq c DOT then
      unstuff false t
    else
      match t with
      | d :: t' => if beq c CR && beq d LF then CR :: LF :: unstuff true t' else c :: unstuff false t
      | [] => [c]
      end
  end.

(** NNTP dot-stuffing: an additional '.' is put in front of every line starting
    with '.'. *)
Fixpoint stuff (bol : bool) (l : list byte) : list byte :=
  match l with
  | [] => []
  | c :: t =>
    let rest :=
      match t with
      | d :: t' => if beq c CR && beq d LF then CR :: LF :: stuff true t' else c :: stuff false t
      | [] => [c]
      end in
    if bol && beq c DOT then DOT :: rest else rest
  end.

(** ** Automata *)

(** Decoder states, named after the last characters read
    (/repo/src/decoder.h lines 12-20, in the order of the C enum). *)
Inductive dstate := S_CRLF | S_EQ | S_CR | S_NONE | S_CRLFDT | S_CRLFDTCR | S_CRLFEQ.
(** How decoding ended (/repo/src/decoder.h lines 23-27). *)
Inductive dend := E_NONE | E_CONTROL | E_ARTICLE.

(** A character not preceded by anything special. *)
Definition step_normal (c : byte) : list byte * dstate :=
  if beq c CR then ([], S_CR)
  else if beq c LF then ([], S_NONE)
  else if beq c EQS then ([], S_EQ)
  else ([unshift c], S_NONE).

(** A character following an escape. *)
Definition step_esc (c : byte) : list byte * dstate :=
  ([unescape c], if beq c CR then S_CR else S_NONE).

(** Dot-unstuffing decoder without end detection. *)
Definition step_raw (s : dstate) (c : byte) : list byte * dstate :=
  match s with
  | S_CRLF => if beq c DOT then ([], S_NONE) else step_normal c
  | S_EQ => step_esc c
  | S_CR => if beq c LF then ([], S_CRLF) else step_normal c
  | _ => step_normal c
  end.

Fixpoint run_raw (s : dstate) (l : list byte) : list byte * dstate :=
  match l with
  | [] => ([], s)
  | c :: t =>
    let '(o, s1) := step_raw s c in
    let '(o', s2) := run_raw s1 t in (o ++ o', s2)
  end.

(** Plain decoder: only a pending escape matters. *)
Definition step_plain (s : dstate) (c : byte) : list byte * dstate :=
  match s with
  | S_EQ => ([unescape c], S_NONE)
  | _ => if beq c CR || beq c LF then ([], S_NONE)
         else if beq c EQS then ([], S_EQ)
         else ([unshift c], S_NONE)
  end.

Fixpoint run_plain (s : dstate) (l : list byte) : list byte * dstate :=
  match l with
  | [] => ([], s)
  | c :: t =>
    let '(o, s1) := step_plain s c in
    let '(o', s2) := run_plain s1 t in (o ++ o', s2)
  end.

(** Dot-unstuffing decoder that stops at CRLF '=y' and at CRLF '.' CRLF. *)
Inductive step_result := Go (o : list byte) (s : dstate) | Stop (s : dstate) (e : dend).

Definition go (x : list byte * dstate) : step_result := Go (fst x) (snd x).

Definition step_end (s : dstate) (c : byte) : step_result :=
  match s with
  | S_CRLF => if beq c DOT then Go [] S_CRLFDT
              else if beq c EQS then Go [] S_CRLFEQ else go (step_normal c)
  | S_CRLFDT => if beq c CR then Go [] S_CRLFDTCR
                else if beq c EQS then Go [] S_CRLFEQ else go (step_normal c)
  | S_CRLFDTCR => if beq c LF then Stop S_CRLF E_ARTICLE else go (step_normal c)
  | S_CRLFEQ => if beq c YY then Stop S_NONE E_CONTROL else go (step_esc c)
  | S_EQ => go (step_esc c)
  | S_CR => if beq c LF then Go [] S_CRLF else go (step_normal c)
  | S_NONE => go (step_normal c)
  end.

(** Result: output, state, end indication, unread rest of the input. *)
Fixpoint run_end (s : dstate) (l : list byte) : list byte * dstate * dend * list byte :=
  match l with
  | [] => ([], s, E_NONE, [])
  | c :: t =>
    match step_end s c with
    | Go o s1 => let '(o', s2, e, r) := run_end s1 t in (o ++ o', s2, e, r)
    | Stop s1 e => ([], s1, e, t)
    end
  end.

(** ** Streams *)

(** The text a decoder state stands for (the strings of decodePrev in
    /repo/index.js line 13). *)
Definition state_text (s : dstate) : list byte :=
  match s with
  | S_CRLF => [CR; LF]
  | S_EQ => [EQS]
  | S_CR => [CR]
  | S_NONE => []
  | S_CRLFDT => [CR; LF; DOT]
  | S_CRLFDTCR => [CR; LF; DOT; CR]
  | S_CRLFEQ => [CR; LF; EQS]
  end.

(** The text [t] ends with an end-of-data marker of kind [e]. *)
Definition ends_in_marker (e : dend) (t : list byte) : Prop :=
  match e with
  | E_NONE => False
  | E_CONTROL => ends_with [CR; LF; EQS; YY] t \/ ends_with [CR; LF; DOT; EQS; YY] t
  | E_ARTICLE => ends_with [CR; LF; DOT; CR; LF] t
  end.
