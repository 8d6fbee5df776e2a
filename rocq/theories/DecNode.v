(** Model of the decoder entry points seen from JavaScript: /repo/src/yencode.cc
    lines 236-332 and decodeChunk in /repo/index.js.

    Allocation failure and arguments that are not Buffers are not modelled.  The
    debugging option DBG_ALIGN_SOURCE is off.  JavaScript strings are lists of
    characters below 256. *)
From Verif Require Import Base DecSpec DecModel EncNode.

(** The signature of the decoder function pointers (/repo/src/decoder.h lines
    30-32): *src, *dest, len, state; result is (end, *src, *dest, *state). *)
Definition decoder := bufs -> Z -> Z -> Z -> option dstate -> M eres.

(** /repo/src/decoder.h lines 30-32: _do_decode, _do_decode_raw and
    _do_decode_end_raw. *)
Record decoders := { dec_plain : decoder; dec_raw : decoder; dec_end : decoder }.

(** The defaults: /repo/src/decoder.cc lines 343-345. *)
Definition scalar : decoders :=
  {| dec_plain := do_decode_scalar false false;
     dec_raw := do_decode_scalar true false;
     dec_end := do_decode_scalar true true |}.

(** /repo/src/decoder.h lines 35-39: [decode]; result is the number of bytes
    written. *)
Definition decode (D : decoders) (isRaw : bool) (B : bufs) (src dest len : Z)
    (state : option dstate) : M Z :=
  '(_, _, ds, _) <- (if isRaw then dec_raw D else dec_plain D) B src dest len state ;;
  ret (ds - dest).

(** /repo/src/yencode.cc lines 236-255: [Decode]; the result is the content of
    the returned Buffer. *)
Definition node_decode (D : decoders) (malloc : Z -> Z) (src len : Z) (isRaw : bool)
    (m : mem) : out (list byte) :=
  if len =? 0 then Ok []
  else
    let result := malloc len in
    let B := {| rlo := src; rhi := src + len; wlo := result; whi := result + len |} in
    match decode D isRaw B src result len None m with
    | Ok (n, m') => Ok (read_n m' result (Z.to_nat n))
    | UB => UB
    | NoFuel => NoFuel
    end.

(** /repo/src/yencode.cc lines 257-277: [DecodeTo].  A short destination makes it
    return 0.  The count is truncated to 32 bits by Integer::New (line 276). *)
Definition node_decode_to (D : decoders) (src len dest dcap : Z) (isRaw : bool)
    (m : mem) : js (out (Z * mem)) :=
  if len =? 0 then Returns (Ok (0, m))
  else if dcap <? len then Returns (Ok (0, m))
  else
    let B := {| rlo := src; rhi := src + len; wlo := dest; whi := dest + dcap |} in
    Returns (match decode D isRaw B src dest len None m with
             | Ok (n, m') => Ok (to_int32 n, m')
             | UB => UB
             | NoFuel => NoFuel
             end).

(** The object [DecodeIncr] returns; [ir_output] is absent when a destination was
    supplied. *)
Record incr_result := {
  ir_read : Z; ir_written : Z; ir_output : option (list byte); ir_ended : dend; ir_state : dstate
}.

(** /repo/src/yencode.cc lines 280-332: [DecodeIncr] for a non-empty source.
    Counts are truncated to 32 bits by Integer::New (lines 322-323). *)
Definition node_decode_incr (D : decoders) (malloc : Z -> Z) (src len : Z) (state : dstate)
    (dst : option (Z * Z)) (m : mem) : js (out (incr_result * mem)) :=
  if match dst with Some (_, dcap) => dcap <? len | None => false end then Throws
  else
    let '(result, cap) := match dst with Some (d, dcap) => (d, dcap) | None => (malloc len, len) end in
    let B := {| rlo := src; rhi := src + len; wlo := result; whi := result + cap |} in
    Returns (match dec_end D B src result len (Some state) m with
             | Ok ((ended, sp, dp, Some state'), m') =>
               let n := dp - result in
               Ok ({| ir_read := to_int32 (sp - src); ir_written := to_int32 n;
                      ir_output := match dst with
                                   | Some _ => None
                                   | None => Some (read_n m' result (Z.to_nat n)) end;
                      ir_ended := ended; ir_state := state' |}, m')
             | Ok ((_, _, _, None), _) => UB
             | UB => UB
             | NoFuel => NoFuel
             end).

(** ** decodeChunk *)

(** JavaScript values passed to decodeChunk. *)
Inductive jsval := JUndef | JNull | JStr (s : list byte) | JBuf (addr len : Z).

(** /repo/index.js line 13: decodePrev. *)
Definition decodePrev : list (list byte) :=
  [ [CR; LF]; [EQS]; [CR]; []; [CR; LF; DOT]; [CR; LF; DOT; CR]; [CR; LF; EQS] ].

(** The enum values 0..6 of /repo/src/decoder.h lines 12-20. *)
Definition state_of_index (i : nat) : dstate :=
  nth i [S_CRLF; S_EQ; S_CR; S_NONE; S_CRLFDT; S_CRLFDTCR; S_CRLFEQ] S_NONE.
Definition index_of_state (s : dstate) : nat :=
  match s with S_CRLF => 0 | S_EQ => 1 | S_CR => 2 | S_NONE => 3 | S_CRLFDT => 4
             | S_CRLFDTCR => 5 | S_CRLFEQ => 6 end%nat.

(** String comparison and Array.prototype.indexOf. *)
Fixpoint str_eqb (a b : list byte) : bool :=
  match a, b with
  | [], [] => true
  | x :: a, y :: b => beq x y && str_eqb a b
  | _, _ => false
  end.
Fixpoint indexOf (l : list (list byte)) (s : list byte) : option nat :=
  match l with
  | [] => None
  | x :: t => if str_eqb x s then Some 0%nat
              else match indexOf t s with Some i => Some (S i) | None => None end
  end.

(** String.prototype.slice with a negative argument [-n]. *)
Definition slice_last (n : nat) (s : list byte) : list byte := skipn (length s - n) s.

(** The object decodeChunk returns; [c_output] are the bytes of the output. *)
Record chunk_result := {
  c_read : Z; c_written : Z; c_output : list byte; c_ended : bool; c_state : list byte
}.

(** /repo/index.js lines 133-145: sorting out the arguments; the result is the
    output buffer, if one is used, and the previous state. *)
Definition chunk_args (output prev : jsval) (m : mem) : option (Z * Z) * list byte :=
  let '(output, prev) :=
    match output with
    | JUndef | JBuf _ _ => (output, prev)
    | other => (JNull, other)
    end in
  let prev := match prev with
              | JNull | JUndef => [CR; LF]
              | JStr s => s
              | JBuf a n => read_n m a (Z.to_nat n)
              end in
  let prev := slice_last 4 prev in
  let prev := if str_eqb prev [CR; LF; DOT; EQS] then [CR; LF; EQS] else prev in
  (match output with JBuf a n => Some (a, n) | _ => None end, prev).

(** /repo/index.js lines 152-159: the numeric state.  [None] is the
    ReferenceError raised by the i++ of line 154 (no variable i is in scope and
    the file is in strict mode). *)
Definition chunk_state (prev : list byte) : option nat :=
  match indexOf decodePrev prev with
  | Some i => Some i
  | None => match indexOf decodePrev (slice_last 3 prev) with
            | Some i => Some i
            | None => None
            end
  end.

(** /repo/index.js lines 133-169: [decodeChunk].  The memory is returned as well,
    to describe a supplied output buffer. *)
Definition js_decodeChunk (D : decoders) (malloc : Z -> Z) (src len : Z) (output prev : jsval)
    (m : mem) : js (out (chunk_result * mem)) :=
  let '(output, prev) := chunk_args output prev m in
  if len =? 0 then
    Returns (Ok ({| c_read := 0; c_written := 0; c_output := []; c_ended := false; c_state := prev |}, m))
  else
    match chunk_state prev with
    | None => Throws
    | Some i =>
      match node_decode_incr D malloc src len (state_of_index i) output m with
      | Throws => Throws
      | Returns UB => Returns UB
      | Returns NoFuel => Returns NoFuel
      | Returns (Ok (r, m')) =>
        Returns (Ok ({|
          c_read := ir_read r;
          c_written := ir_written r;
          c_output := match ir_output r, output with
                      | Some o, _ => o
                      | None, Some (a, n) => read_n m' a (Z.to_nat n)
                      | None, None => []
                      end;
          c_ended := match ir_ended r with E_NONE => false | _ => true end;
          c_state := match ir_ended r with
                     | E_NONE => nth (index_of_state (ir_state r)) decodePrev []
                     | E_CONTROL => [CR; LF; EQS; YY]
                     | E_ARTICLE => [CR; LF; DOT; CR; LF]
                     end |}, m'))
      end
    end.
