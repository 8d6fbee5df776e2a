(** Model of the encoder entry points seen from JavaScript.

    A source buffer is a range of memory.  [malloc] maps a requested size to the
    address returned; allocation failure is not modelled.  Arguments after the
    buffers are modelled as a list of integers (the int64 values V8 hands over);
    non-integer JavaScript values are not modelled. *)
From Verif Require Import Base.

Inductive js (A : Type) : Type := Throws | Returns (a : A).
Arguments Throws {A}.
Arguments Returns {A} a.

(** The signature of the function pointer [_do_encode]
    (/repo/src/encoder.h lines 13-16): line_size, column, source, destination,
    length, doEnd; result is (bytes written, new column). *)
Definition encoder := bufs -> Z -> Z -> Z -> Z -> Z -> bool -> M (Z * Z).

(** size_t arithmetic. *)
Definition u64 (z : Z) : Z := z mod 18446744073709551616.

(** /repo/src/yencode.cc lines 29-42: YENC_MAX_SIZE; [no256] says whether
    YENC_DISABLE_AVX256 is defined. *)
Definition max_size (no256 : bool) (len line_size : Z) : Z :=
  let ret := u64 (u64 (len * 2) + 2 + (if no256 then 32 else 64)) in
  if line_size =? 128 then u64 (ret + 2 * (len / 64))
  else u64 (ret + 2 * (u64 (len * 2) / line_size)).

(** As it is by default. *)
Notation YENC_MAX_SIZE := (max_size false).

(** /repo/src/yencode.cc lines 115-127, 149-161, 194-206: handling of the
    line_size and column arguments.  [None] is a thrown error. *)
Definition enc_args (args : list Z) : option (Z * Z) :=
  match args with
  | [] => Some (128, 0)
  | a :: rest =>
    let line_size := to_int32 a in
    let line_size := if line_size =? 0 then 128 else line_size in
    if line_size <? 0 then None
    else match rest with
         | [] => Some (line_size, 0)
         | b :: _ =>
           let col := to_int32 b in
           if (line_size <? col) || (col <? 0) then None
           else Some (line_size, if col =? line_size then 0 else col)
         end
  end.

(** /repo/src/yencode.cc lines 105-137: [Encode]; the result is the content of
    the returned Buffer. *)
Definition node_encode_in (no256 : bool) (encode : encoder) (malloc : Z -> Z) (src len : Z)
    (args : list Z) (m : mem) : js (out (list byte)) :=
  if len =? 0 then Returns (Ok [])
  else match enc_args args with
       | None => Throws
       | Some (line_size, col) =>
         let dest_len := max_size no256 len line_size in
         let result := malloc dest_len in
         let B := {| rlo := src; rhi := src + len; wlo := result; whi := result + dest_len |} in
         Returns (match encode B line_size col src result len true m with
                  | Ok ((n, _), m') => Ok (read_n m' result (Z.to_nat n))
                  | UB => UB
                  | NoFuel => NoFuel
                  end)
       end.

(** /repo/src/yencode.cc lines 139-170: [EncodeTo]; [dest], [dcap] are the
    address and length of the destination Buffer; the result is the returned
    integer and the memory.  Integer::New takes a 32-bit integer, so the size_t
    count is truncated (line 169). *)
Definition node_encode_to_in (no256 : bool) (encode : encoder) (src len dest dcap : Z)
    (args : list Z) (m : mem) : js (out (Z * mem)) :=
  if len =? 0 then Returns (Ok (0, m))
  else match enc_args args with
       | None => Throws
       | Some (line_size, col) =>
         if dcap <? max_size no256 len line_size then Throws
         else
           let B := {| rlo := src; rhi := src + len; wlo := dest; whi := dest + dcap |} in
           Returns (match encode B line_size col src dest len true m with
                    | Ok ((n, _), m') => Ok (to_int32 n, m')
                    | UB => UB
                    | NoFuel => NoFuel
                    end)
       end.

(** /repo/src/yencode.cc lines 172-234: [EncodeIncr].  [dst] is the optional
    destination Buffer (address, length).  As in the code, the size check of a
    supplied destination uses the default line size 128.  The result is
    (written, output bytes, col), [written] truncated to 32 bits (line 226); for
    an empty input no output is set. *)
Definition node_encode_incr_in (no256 : bool) (encode : encoder) (malloc : Z -> Z) (src len : Z)
    (dst : option (Z * Z)) (args : list Z) (m : mem) : js (out (Z * list byte * Z)) :=
  if match dst with Some (_, dcap) => dcap <? max_size no256 len 128 | None => false end
  then Throws
  else match enc_args args with
       | None => Throws
       | Some (line_size, col) =>
         if len =? 0 then Returns (Ok (0, [], col))
         else
           let '(result, dest_len) :=
             match dst with
             | Some (d, dcap) => (d, dcap)
             | None => let n := max_size no256 len line_size in (malloc n, n)
             end in
           let B := {| rlo := src; rhi := src + len; wlo := result; whi := result + dest_len |} in
           Returns (match encode B line_size col src result len false m with
                    | Ok ((n, col'), m') => Ok (to_int32 n, read_n m' result (Z.to_nat n), col')
                    | UB => UB
                    | NoFuel => NoFuel
                    end)
       end.

(** The default build. *)
Definition node_encode := node_encode_in false.
Definition node_encode_to := node_encode_to_in false.
Definition node_encode_incr := node_encode_incr_in false.

(** /repo/index.js lines 171-175: [minSize] on integers.  JavaScript numbers are
    modelled as integers; see [JsNum.v] for the floating-point division. *)
Definition js_minSize (length line_size : Z) : Z :=
  if length =? 0 then 0
  else length + 2 * (length / (if line_size =? 0 then 128 else line_size)).

(** /repo/index.js lines 176-189: [maxSize] with the default esc_ratio (2 after
    adjustment). *)
Definition js_maxSize (length line_size : Z) : Z :=
  if length =? 0 then 0
  else length * 2 + 2 * ((length * 2) / (if line_size =? 0 then 128 else line_size)) + 2 + 64.

(** [maxSize(length, line_size, 0)]: esc_ratio 0 becomes 1. *)
Definition js_maxSize0 (length line_size : Z) : Z :=
  if length =? 0 then 0
  else length * 1 + 2 * ((length * 1) / (if line_size =? 0 then 128 else line_size)) + 2 + 64.
