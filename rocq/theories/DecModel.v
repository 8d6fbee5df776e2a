(** Model of the scalar decoders (/repo/src/decoder.cc).

    The state pointer is an [option dstate]; [None] is a null pointer.  Writing
    through a null state pointer is undefined behaviour. *)
From Verif Require Import Base DecSpec.

Definition ge0 (z : Z) : bool := 0 <=? z.

(** ** do_decode_noend_scalar *)

(** The main loop for isRaw: /repo/src/decoder.cc lines 52-71; result (i, p). *)
Fixpoint raw_loop (fuel : nat) (B : bufs) (es i p : Z) : M (Z * Z) :=
  match fuel with
  | O => nofuel
  | S f =>
    if i <? -2 then
      c <- load B (es + i) ;;
      if beq c CR then
        n <- load B (es + (i + 1)) ;;
        if beq n LF then
          d <- load B (es + (i + 2)) ;;
          let i := if beq d DOT then i + 2 else i in
          raw_loop f B es (i + 1) p
        else raw_loop f B es (i + 1) p
      else if beq c LF then raw_loop f B es (i + 1) p
      else if beq c EQS then
        c <- load B (es + (i + 1)) ;;
        store B p (u8 (bz c - 42 - 64)) ;;;
        let i := i + (if beq c CR then 0 else 1) in
        raw_loop f B es (i + 1) (p + 1)
      else
        store B p (u8 (bz c - 42)) ;;;
        raw_loop f B es (i + 1) (p + 1)
    else ret (i, p)
  end.

(** The second last character: /repo/src/decoder.cc lines 74-94 and 289-311.
    [inl]: return with the end of line state; [inr]: continue with (i, p). *)
Definition second_last (B : bufs) (es i p : Z) (state : option dstate) : M (Z + Z * Z) :=
  if i =? -2 then
    c <- load B (es + i) ;;
    if beq c CR then
      match state with
      | Some _ =>
        n <- load B (es + (i + 1)) ;;
        if beq n LF then ret (inl p) else ret (inr (i + 1, p))
      | None => ret (inr (i + 1, p))
      end
    else if beq c LF then ret (inr (i + 1, p))
    else if beq c EQS then
      c <- load B (es + (i + 1)) ;;
      store B p (u8 (bz c - 42 - 64)) ;;;
      let i := i + (if beq c CR then 0 else 1) in
      ret (inr (i + 1, p + 1))
    else
      store B p (u8 (bz c - 42)) ;;; ret (inr (i + 1, p + 1))
  else ret (inr (i, p)).

(** The final character: /repo/src/decoder.cc lines 97-106 and 314-323; result
    is (p, new state). *)
Definition final_char (B : bufs) (es i p : Z) (state : option dstate) : M (Z * option dstate) :=
  if i =? -1 then
    c <- load B (es + i) ;;
    if negb (beq c LF) && negb (beq c CR) && negb (beq c EQS) then
      store B p (u8 (bz c - 42)) ;;; ret (p + 1, state)
    else
      match state with
      | Some _ =>
        if beq c EQS then ret (p, Some S_EQ)
        else if beq c CR then ret (p, Some S_CR)
        else ret (p, Some S_NONE)
      | None => ret (p, state)
      end
  else ret (p, state).

(** The switch on the incoming state for isRaw: /repo/src/decoder.cc lines 25-50.
    [inl s]: "return 0" with the state set to [s]; [inr (i, p, state)]: go on.
    The three cases fall through into one another, hence three definitions. *)
Definition raw_crlf (B : bufs) (es i p : Z) (state : option dstate) : M (option dstate + Z * Z * option dstate) :=
  c <- load B (es + i) ;;
  ret (inr (if beq c DOT then i + 1 else i, p, state)).
Definition raw_cr (B : bufs) (es i p : Z) (state : option dstate) : M (option dstate + Z * Z * option dstate) :=
  c <- load B (es + i) ;;
  if negb (beq c LF) then ret (inr (i, p, state))
  else
    let i := i + 1 in
    let state := Some S_CRLF in
    if ge0 i then ret (inl state) else raw_crlf B es i p state.
Definition raw_eq (B : bufs) (es i p : Z) (state : option dstate) : M (option dstate + Z * Z * option dstate) :=
  c <- load B (es + i) ;;
  store B p (u8 (bz c - 42 - 64)) ;;;
  let p := p + 1 in
  let i := i + 1 in
  if beq c CR then
    let state := Some S_CR in
    if ge0 i then ret (inl state) else raw_cr B es i p state
  else ret (inr (i, p, Some S_NONE)).
Definition raw_prologue (B : bufs) (es i p : Z) (state : option dstate)
    : M (option dstate + Z * Z * option dstate) :=
  match state with
  | Some S_EQ => raw_eq B es i p state
  | Some S_CR => raw_cr B es i p state
  | Some S_CRLF => raw_crlf B es i p state
  | Some _ => ret (inr (i, p, state))
  | None => raw_crlf B es i p state
  end.

Definition set_none (state : option dstate) : option dstate :=
  match state with Some _ => Some S_NONE | None => None end.

(** The main loop for !isRaw: /repo/src/decoder.cc lines 123-132. *)
Fixpoint plain_loop (fuel : nat) (B : bufs) (es i p : Z) : M (Z * Z) :=
  match fuel with
  | O => nofuel
  | S f =>
    if i <? -1 then
      c <- load B (es + i) ;;
      if beq c LF || beq c CR then plain_loop f B es (i + 1) p
      else if beq c EQS then
        let i := i + 1 in
        c <- load B (es + i) ;;
        let c := u8 (bz c - 64) in
        store B p (u8 (bz c - 42)) ;;;
        plain_loop f B es (i + 1) (p + 1)
      else
        store B p (u8 (bz c - 42)) ;;;
        plain_loop f B es (i + 1) (p + 1)
    else ret (i, p)
  end.

(** /repo/src/decoder.cc lines 12-146: [do_decode_noend_scalar<isRaw>]; result is
    (returned size, state afterwards). *)
Definition do_decode_noend_scalar (isRaw : bool) (B : bufs) (src dest len : Z)
    (state : option dstate) : M (Z * option dstate) :=
  let es := src + len in
  let p := dest in
  let i := - len in
  if len <? 1 then ret (0, state)
  else if isRaw then
    pro <- raw_prologue B es i p state ;;
    match pro with
    | inl st => ret (0, st)
    | inr (i, p, state) =>
      '(i, p) <- raw_loop (S (Z.to_nat len)) B es i p ;;
      let state := set_none state in
      x <- second_last B es i p state ;;
      match x with
      | inl p => ret (p - dest, Some S_CRLF)
      | inr (i, p) =>
        '(p, state) <- final_char B es i p state ;;
        ret (p - dest, state)
      end
    end
  else
    '(i, p, state) <-
      match state with
      | Some S_EQ =>
        c <- load B (es + i) ;;
        store B p (u8 (bz c - 42 - 64)) ;;;
        ret (i + 1, p + 1, Some S_NONE)
      | _ => ret (i, p, state)
      end ;;
    '(i, p) <- plain_loop (S (Z.to_nat len)) B es i p ;;
    let state := set_none state in
    if i =? -1 then
      c <- load B (es + i) ;;
      if negb (beq c LF) && negb (beq c CR) && negb (beq c EQS) then
        store B p (u8 (bz c - 42)) ;;; ret (p + 1 - dest, state)
      else
        match state with
        | Some _ => ret (p - dest, Some (if beq c EQS then S_EQ else S_NONE))
        | None => ret (p - dest, state)
        end
    else ret (p - dest, state).

(** ** do_decode_end_scalar *)

(** Values returned: end indication, *src, *dest, *state. *)
Definition eres := (dend * Z * Z * option dstate)%type.

(** Writing the state: undefined behaviour for a null pointer. *)
Definition set_state (state : option dstate) (s : dstate) : M (option dstate) :=
  match state with Some _ => ret (Some s) | None => ub end.

(** The YDEC_CHECK_END macro (/repo/src/decoder.cc lines 159-164): [Some r] when
    the function returns. *)
Definition check_end (es i p : Z) (state : option dstate) (s : dstate) : M (option eres) :=
  if i =? 0 then
    st <- set_state state s ;; ret (Some (E_NONE, es, p, st))
  else ret None.

(** The switch on the incoming state with its fall-throughs and gotos:
    /repo/src/decoder.cc lines 165-223.  [lab] is the case label executed;
    [inl r] is a return, [inr (i, p)] a break. *)
Fixpoint end_switch (fuel : nat) (isRaw : bool) (B : bufs) (es : Z) (state : option dstate)
    (lab : dstate) (i p : Z) : M (eres + Z * Z) :=
  match fuel with
  | O => nofuel
  | S f =>
    let goto lab i p := end_switch f isRaw B es state lab i p in
    let check_goto s i p lab :=
      r <- check_end es i p state s ;;
      match r with Some r => ret (inl r) | None => goto lab i p end in
    match lab with
    | S_CRLFEQ =>
      c <- load B (es + i) ;;
      if beq c YY then
        st <- set_state state S_NONE ;;
        ret (inl (E_CONTROL, es + i + 1, p, st))
      else goto S_EQ i p
    | S_EQ =>
      c <- load B (es + i) ;;
      store B p (u8 (bz c - 42 - 64)) ;;;
      let p := p + 1 in
      let i := i + 1 in
      if negb (beq c CR) then ret (inr (i, p))
      else check_goto S_CR i p S_CR
    | S_CR =>
      c <- load B (es + i) ;;
      if negb (beq c LF) then ret (inr (i, p))
      else check_goto S_CRLF (i + 1) p S_CRLF
    | S_CRLF =>
      c <- load B (es + i) ;;
      if beq c DOT && isRaw then check_goto S_CRLFDT (i + 1) p S_CRLFDT
      else if beq c EQS then check_goto S_CRLFEQ (i + 1) p S_CRLFEQ
      else ret (inr (i, p))
    | S_CRLFDT =>
      c <- load B (es + i) ;;
      if isRaw && beq c CR then check_goto S_CRLFDTCR (i + 1) p S_CRLFDTCR
      else if isRaw && beq c EQS then check_goto S_CRLFEQ (i + 1) p S_CRLFEQ
      else ret (inr (i, p))
    | S_CRLFDTCR =>
      c <- load B (es + i) ;;
      if beq c LF then
        if isRaw then
          st <- set_state state S_CRLF ;;
          ret (inl (E_ARTICLE, es + i + 1, p, st))
        else check_goto S_CRLF (i + 1) p S_CRLF
      else ret (inr (i, p))
    | S_NONE => ret (inr (i, p))
    end
  end.

(** The character after CRLF '=' (or CRLF '.='): /repo/src/decoder.cc lines
    245-256 and 261-273, with [i] at that character.  [inr (i, p)] are the values
    at the "continue" (before the loop's i++). *)
Definition end_ceq (B : bufs) (es i p : Z) (state : option dstate) : M (eres + Z * Z) :=
  r <- check_end es i p state S_CRLFEQ ;;
  match r with
  | Some r => ret (inl r)
  | None =>
    c <- load B (es + i) ;;
    if beq c YY then
      st <- set_state state S_NONE ;;
      ret (inl (E_CONTROL, es + i + 1, p, st))
    else
      store B p (u8 (bz c - 42 - 64)) ;;;
      ret (inr (i - (if beq c CR then 1 else 0), p + 1))
  end.

(** The body for '\r' followed by '\n': /repo/src/decoder.cc lines 228-275. *)
Definition end_crlf (isRaw : bool) (B : bufs) (es i p : Z) (state : option dstate) : M (eres + Z * Z) :=
  d <- load B (es + (i + 2)) ;;
  if isRaw && beq d DOT then
    let i := i + 3 in
    r <- check_end es i p state S_CRLFDT ;;
    match r with
    | Some r => ret (inl r)
    | None =>
      c <- load B (es + i) ;;
      if beq c CR then
        let i := i + 1 in
        r <- check_end es i p state S_CRLFDTCR ;;
        match r with
        | Some r => ret (inl r)
        | None =>
          c <- load B (es + i) ;;
          if beq c LF then
            st <- set_state state S_CRLF ;;
            ret (inl (E_ARTICLE, es + i + 1, p, st))
          else ret (inr (i - 1, p))
        end
      else if beq c EQS then end_ceq B es (i + 1) p state
      else ret (inr (i - 1, p))
    end
  else if beq d EQS then end_ceq B es (i + 3) p state
  else ret (inr (i, p)).

(** The main loop: /repo/src/decoder.cc lines 225-286. *)
Fixpoint end_loop (fuel : nat) (isRaw : bool) (B : bufs) (es : Z) (state : option dstate)
    (i p : Z) : M (eres + Z * Z) :=
  match fuel with
  | O => nofuel
  | S f =>
    if i <? -2 then
      c <- load B (es + i) ;;
      if beq c CR then
        n <- load B (es + (i + 1)) ;;
        if beq n LF then
          x <- end_crlf isRaw B es i p state ;;
          match x with
          | inl r => ret (inl r)
          | inr (i, p) => end_loop f isRaw B es state (i + 1) p
          end
        else end_loop f isRaw B es state (i + 1) p
      else if beq c LF then end_loop f isRaw B es state (i + 1) p
      else if beq c EQS then
        c <- load B (es + (i + 1)) ;;
        store B p (u8 (bz c - 42 - 64)) ;;;
        let i := i + (if beq c CR then 0 else 1) in
        end_loop f isRaw B es state (i + 1) (p + 1)
      else
        store B p (u8 (bz c - 42)) ;;;
        end_loop f isRaw B es state (i + 1) (p + 1)
    else ret (inr (i, p))
  end.

(** /repo/src/decoder.cc lines 148-329: [do_decode_end_scalar<isRaw>]. *)
Definition do_decode_end_scalar (isRaw : bool) (B : bufs) (src dest len : Z)
    (state : option dstate) : M eres :=
  let es := src + len in
  let p := dest in
  let i := - len in
  if len <? 1 then ret (E_NONE, src, dest, state)
  else
    x <- end_switch (S (S (2 * Z.to_nat len))) isRaw B es state
           (match state with Some s => s | None => S_CRLF end) i p ;;
    match x with
    | inl r => ret r
    | inr (i, p) =>
      x <- end_loop (S (Z.to_nat len)) isRaw B es state i p ;;
      match x with
      | inl r => ret r
      | inr (i, p) =>
        let state := set_none state in
        x <- second_last B es i p state ;;
        match x with
        | inl p => ret (E_NONE, es, p, Some S_CRLF)
        | inr (i, p) =>
          '(p, state) <- final_char B es i p state ;;
          ret (E_NONE, es, p, state)
        end
      end
    end.

(** /repo/src/decoder.cc lines 331-338: [do_decode_scalar<isRaw, searchEnd>]. *)
Definition do_decode_scalar (isRaw searchEnd : bool) (B : bufs) (src dest len : Z)
    (state : option dstate) : M eres :=
  if searchEnd then do_decode_end_scalar isRaw B src dest len state
  else
    '(n, state) <- do_decode_noend_scalar isRaw B src dest len state ;;
    ret (E_NONE, src + len, dest + n, state).
