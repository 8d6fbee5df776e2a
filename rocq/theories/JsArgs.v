(** The arguments of the native functions: /repo/src/yencode.cc as called from JavaScript with any
    values.

    What V8 does is taken from its sources: [As<Integer>()] is an unchecked cast, and [Integer::Value()]
    of a Number converts its double to int64_t.  For any other value, and for a double outside int64_t (or NaN),
    this is undefined behaviour.  [As<Boolean>()] is an unchecked cast too, but [Boolean::Value()] only compares
    the value with the one object [true].  [ToInteger] (Node.js before 8) follows ECMA-262; how strings
    and objects become numbers is left open: any function [to_num].  Simplified: such a conversion does not
    throw.  [decodeIncr] is reached through decodeChunk only, see [DecNode.v]. *)
From Verif Require Import Base EncModel EncNode DecModel DecNode CrcModel JsBase.
From Coq Require Import QArith Qround.
Open Scope Z_scope.

Inductive num := Fin (q : Q) | Inf (negative : bool) | NaN.
Inductive value :=
| Undefined | Null | Bool (b : bool) | Number (n : num) | Str (s : jstr) | Object (id : Z)
| Buf (addr len : Z).

(** Integer part, as by a cast from double to int64_t. *)
Definition trunc (q : Q) : Z := if Qle_bool 0 q then Qfloor q else Qceiling q.
(** The cast itself; [None] is undefined behaviour. *)
Definition cast_int64 (n : num) : option Z :=
  match n with
  | Fin q => let z := trunc q in if (- 2 ^ 63 <=? z) && (z <? 2 ^ 63) then Some z else None
  | _ => None
  end.

(** Which Node.js: before version 8, with a conversion to numbers, or from version 8 on. *)
Inductive node := Before8 (to_num : value -> num) | From8.

(** /repo/src/yencode.cc lines 56 and 61 (ARG_TO_INT); before 8, ToInteger makes 0 of NaN. *)
Definition arg_int (V : node) (v : value) : option Z :=
  match V with
  | From8 => match v with Number n => cast_int64 n | _ => None end
  | Before8 to_num =>
      let n := match v with
               | Undefined => NaN
               | Null => Fin 0
               | Bool b => Fin (if b then 1 else 0)
               | Number n => n
               | Str _ | Object _ | Buf _ _ => to_num v
               end in
      match n with NaN => Some 0 | n => cast_int64 n end
  end.

(** /repo/src/yencode.cc lines 57 and 62 (ARG_TO_BOOL); before 8, ToBoolean. *)
Definition arg_bool (V : node) (v : value) : bool :=
  match V with
  | From8 => match v with Bool b => b | _ => false end
  | Before8 _ =>
      match v with
      | Undefined | Null => false
      | Bool b => b
      | Number (Fin q) => negb (Qeq_bool q 0)
      | Number (Inf _) => true
      | Number NaN => false
      | Str [] => false
      | Str _ | Object _ | Buf _ _ => true
      end
  end.

(** /repo/src/yencode.cc lines 115-127, 149-161, 194-206: line_size and column. *)
Inductive parsed := PThrows | PUB | POk (line_size col : Z).
Definition parse_args (V : node) (args : list value) : parsed :=
  match args with
  | [] => POk 128 0
  | a :: rest =>
    match arg_int V a with
    | None => PUB
    | Some a =>
      let line_size := to_int32 a in
      let line_size := if line_size =? 0 then 128 else line_size in
      if line_size <? 0 then PThrows
      else match rest with
           | [] => POk line_size 0
           | b :: _ =>
             match arg_int V b with
             | None => PUB
             | Some b =>
               let col := to_int32 b in
               if (line_size <? col) || (col <? 0) then PThrows
               else POk line_size (if col =? line_size then 0 else col)
             end
           end
    end
  end.

(** /repo/src/yencode.cc lines 105-137: Encode.  The rest is [node_encode_in], given the two integers
    found, which its own [enc_args] accepts and keeps. *)
Definition v_encode (V : node) (no256 : bool) (e : encoder) (malloc : Z -> Z) (args : list value) (m : mem) : js (out (list byte)) :=
  match args with
  | Buf src len :: rest =>
    if len =? 0 then Returns (Ok [])
    else match parse_args V rest with
         | PThrows => Throws
         | PUB => Returns UB
         | POk line_size col => node_encode_in no256 e malloc src len [line_size; col] m
         end
  | _ => Throws
  end.

(** /repo/src/yencode.cc lines 139-170: EncodeTo. *)
Definition v_encodeTo (V : node) (no256 : bool) (e : encoder) (args : list value) (m : mem) : js (out (Z * mem)) :=
  match args with
  | Buf src len :: Buf dest dcap :: rest =>
    if len =? 0 then Returns (Ok (0, m))
    else match parse_args V rest with
         | PThrows => Throws
         | PUB => Returns UB
         | POk line_size col => node_encode_to_in no256 e src len dest dcap [line_size; col] m
         end
  | _ => Throws
  end.

(** /repo/src/yencode.cc lines 172-234: EncodeIncr. *)
Definition v_encodeIncr (V : node) (no256 : bool) (e : encoder) (malloc : Z -> Z) (args : list value) (m : mem) : js (out (Z * list byte * Z)) :=
  match args with
  | Buf src len :: rest =>
    let '(dst, rest) := match rest with Buf d dcap :: r => (Some (d, dcap), r) | _ => (None, rest) end in
    if match dst with Some (_, dcap) => dcap <? max_size no256 len 128 | None => false end then Throws
    else match parse_args V rest with
         | PThrows => Throws
         | PUB => Returns UB
         | POk line_size col => node_encode_incr_in no256 e malloc src len dst [line_size; col] m
         end
  | _ => Throws
  end.

(** /repo/src/yencode.cc lines 236-255: Decode. *)
Definition v_decode (V : node) (D : decoders) (malloc : Z -> Z) (args : list value) (m : mem) : js (out (list byte)) :=
  match args with
  | Buf src len :: rest =>
    Returns (node_decode D malloc src len (match rest with v :: _ => arg_bool V v | [] => false end) m)
  | _ => Throws
  end.

(** /repo/src/yencode.cc lines 257-277: DecodeTo. *)
Definition v_decodeTo (V : node) (D : decoders) (args : list value) (m : mem) : js (out (Z * mem)) :=
  match args with
  | Buf src len :: Buf dest dcap :: rest =>
    node_decode_to D src len dest dcap (match rest with v :: _ => arg_bool V v | [] => false end) m
  | _ => Throws
  end.

(** The content of a Buffer. *)
Definition content (m : mem) (addr len : Z) : list byte := read_n m addr (Z.to_nat len).

(** The optional second argument of crc32, crc32_zeroes and crc32_shift: outer [None] is the error
    "Second argument must be a 4 byte buffer" (its length is checked by the functions of [CrcModel]). *)
Definition opt_crc (rest : list value) (m : mem) : option (option (list byte)) :=
  match rest with
  | [] => Some None
  | Buf a n :: _ => if n =? 4 then Some (Some (content m a n)) else None
  | _ => None
  end.

(** /repo/src/yencode.cc lines 354-373: CRC32. *)
Definition v_crc32 (f : crc_fun) (args : list value) (m : mem) : jsres (list byte) :=
  match args with
  | Buf src len :: rest => match opt_crc rest m with Some init => node_crc32 f src len init m | None => JThrows end
  | _ => JThrows
  end.

(** /repo/src/yencode.cc lines 375-389: CRC32Combine. *)
Definition v_crc32_combine (V : node) (shift : mulfun) (args : list value) (m : mem) : jsres (list byte) :=
  match args with
  | Buf a n :: Buf b k :: v :: _ =>
    if (n =? 4) && (k =? 4) then
      match arg_int V v with
      | Some len => node_crc32_combine shift (content m a n) (content m b k) len
      | None => JUB
      end
    else JThrows
  | _ => JThrows
  end.

(** /repo/src/yencode.cc lines 391-409: CRC32Zeroes. *)
Definition v_crc32_zeroes (V : node) (shift : mulfun) (args : list value) (m : mem) : jsres (list byte) :=
  match args with
  | v :: rest =>
    match opt_crc rest m with
    | None => JThrows
    | Some init => match arg_int V v with Some len => node_crc32_zeroes shift len init | None => JUB end
    end
  | [] => JThrows
  end.

(** /repo/src/yencode.cc lines 411-425: CRC32Multiply. *)
Definition v_crc32_multiply (mul : mulfun) (args : list value) (m : mem) : jsres (list byte) :=
  match args with
  | Buf a n :: Buf b k :: _ =>
    if (n =? 4) && (k =? 4) then node_crc32_multiply mul (content m a n) (content m b k) else JThrows
  | _ => JThrows
  end.

(** /repo/src/yencode.cc lines 427-445: CRC32Shift. *)
Definition v_crc32_shift (V : node) (shift : mulfun) (args : list value) (m : mem) : jsres (list byte) :=
  match args with
  | v :: rest =>
    match opt_crc rest m with
    | None => JThrows
    | Some init => match arg_int V v with Some n => node_crc32_shift shift n init | None => JUB end
    end
  | [] => JThrows
  end.
