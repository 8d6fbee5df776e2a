(** The portable encoder on hosts of either byte order.  [EncModel.v] fixes the little-endian values; here
    the packing macros, the table and the stores are written out for both, and the functions that use them
    are repeated with the byte order as parameter. *)
From Verif Require Import Base EncModel.
Open Scope Z_scope.

(** /repo/src/common.h line 108: __BYTE_ORDER__. *)
Inductive order := Little | Big.

(** /repo/src/common.h lines 109 and 113: UINT16_PACK. *)
Definition o_pack16 (o : order) (a b : Z) : Z :=
  match o with
  | Big => Z.lor (Z.shiftl a 8) b
  | Little => Z.lor a (Z.shiftl b 8)
  end.

(** /repo/src/common.h lines 110 and 114: UINT32_PACK.  One operand is a uint32_t wherever it is used. *)
Definition o_pack32 (o : order) (a b c d : Z) : Z :=
  (match o with
   | Big => Z.lor (Z.lor (Z.lor (Z.shiftl a 24) (Z.shiftl b 16)) (Z.shiftl c 8)) d
   | Little => Z.lor (Z.lor (Z.lor a (Z.shiftl b 8)) (Z.shiftl c 16)) (Z.shiftl d 24)
   end) mod 2 ^ 32.

(** /repo/src/common.h lines 111 and 115: UINT32_16_PACK. *)
Definition o_pack32_16 (o : order) (a b : Z) : Z :=
  (match o with
   | Big => Z.lor (Z.shiftl a 16) b
   | Little => Z.lor a (Z.shiftl b 16)
   end) mod 2 ^ 32.

(** /repo/src/encoder.cc lines 17-21: [escapedLUT]. *)
Definition o_escapedLUT (o : order) (c : byte) : Z :=
  let n := bz c in
  if (n =? 214) || (n =? 214 + 13) || (n =? 214 + 10) || (n =? 61 - 42)
     || (n =? 214 + 9) || (n =? 214 + 32) || (n =? 46 - 42)
  then o_pack16 o 61 (Z.land (n + 42 + 64) 255) else 0.

(** memcpy of a uint16_t to p (/repo/src/encoder.cc lines 40, 59, 89, 108). *)
Definition o_store16 (o : order) (B : bufs) (p w : Z) : M unit :=
  match o with
  | Big => store B p (u8 (w / 256)) ;;; store B (p + 1) (u8 w)
  | Little => store B p (u8 w) ;;; store B (p + 1) (u8 (w / 256))
  end.

(** memcpy of a uint32_t to p (/repo/src/encoder.cc lines 120, 126). *)
Definition o_store32 (o : order) (B : bufs) (p w : Z) : M unit :=
  match o with
  | Big => store B p (u8 (w / 16777216)) ;;; store B (p + 1) (u8 (w / 65536)) ;;;
           store B (p + 2) (u8 (w / 256)) ;;; store B (p + 3) (u8 w)
  | Little => store B p (u8 w) ;;; store B (p + 1) (u8 (w / 256)) ;;;
              store B (p + 2) (u8 (w / 65536)) ;;; store B (p + 3) (u8 (w / 16777216))
  end.

(** /repo/src/encoder.cc lines 37-47, as [enc_first]. *)
Definition o_first (o : order) (B : bufs) (es i p : Z) : M (Z * Z * Z) :=
  c <- load B (es + i) ;;
  if negb (o_escapedLUT o c =? 0) then
    o_store16 o B p (o_escapedLUT o c) ;;; ret (i + 1, p + 2, 2)
  else
    store B p (u8 (bz c + 42)) ;;; ret (i + 1, p + 1, 1).

(** /repo/src/encoder.cc lines 54-61, as [do_thing]. *)
Definition o_thing (o : order) (B : bufs) (es i n p : Z) : M Z :=
  c <- load B (es + (i + n)) ;;
  if negb (beq (escapeLUT c) NUL) then
    store B p (escapeLUT c) ;;; ret (p + 1)
  else
    o_store16 o B p (o_escapedLUT o c) ;;; ret (p + 2).

(** /repo/src/encoder.cc lines 62-69, as [enc_block8]. *)
Definition o_block8 (o : order) (B : bufs) (es i p : Z) : M Z :=
  p <- o_thing o B es i 0 p ;;
  p <- o_thing o B es i 1 p ;;
  p <- o_thing o B es i 2 p ;;
  p <- o_thing o B es i 3 p ;;
  p <- o_thing o B es i 4 p ;;
  p <- o_thing o B es i 5 p ;;
  p <- o_thing o B es i 6 p ;;
  o_thing o B es i 7 p.

(** /repo/src/encoder.cc lines 51-73, as [enc_unrolled]. *)
Fixpoint o_unrolled (o : order) (fuel : nat) (B : bufs) (es line_size i p col : Z)
    (sp : option Z) : M (Z * Z * Z * option Z) :=
  match fuel with
  | O => nofuel
  | S f =>
    t1 <- chk_int (line_size - col) ;;
    room <- chk_int (t1 - 1) ;;
    if (i <? -1 - 8) && (8 <? room) then
      let s := p in
      p <- o_block8 o B es i p ;;
      col <- chk_int (col + (p - s)) ;;
      o_unrolled o f B es line_size (i + 8) p col (Some s)
    else ret (i, p, col, sp)
  end.

(** /repo/src/encoder.cc lines 82-102, as [enc_rest]. *)
Fixpoint o_rest (o : order) (fuel : nat) (B : bufs) (es line_size i p col : Z)
    : M (Z * Z * Z * bool) :=
  match fuel with
  | O => nofuel
  | S f =>
    last <- chk_int (line_size - 1) ;;
    if col <? last then
      c <- load B (es + i) ;;
      '(p, col) <-
        (if negb (beq (escapeLUT c) NUL) then
           store B p (escapeLUT c) ;;; col <- chk_int (col + 1) ;; ret (p + 1, col)
         else
           o_store16 o B p (o_escapedLUT o c) ;;; col <- chk_int (col + 2) ;; ret (p + 2, col)) ;;
      if 0 <=? i + 1 then ret (i + 1, p, col, true)
      else o_rest o f B es line_size (i + 1) p col
    else ret (i, p, col, false)
  end.

(** /repo/src/encoder.cc lines 104-113, as [enc_last]. *)
Definition o_last (o : order) (B : bufs) (es line_size i p col : Z) : M (Z * Z) :=
  if col <? line_size then
    c <- load B (es + i) ;;
    if negb (o_escapedLUT o c =? 0) && negb (bz c =? 46 - 42) then
      o_store16 o B p (o_escapedLUT o c) ;;; ret (i + 1, p + 2)
    else
      store B p (u8 (bz c + 42)) ;;; ret (i + 1, p + 1)
  else ret (i, p).

(** /repo/src/encoder.cc lines 117-129, as [enc_eol]: (uint32_t)(c+42) is an int of up to 297. *)
Definition o_eol (o : order) (B : bufs) (c : byte) (p : Z) : M (Z * Z) :=
  if negb (o_escapedLUT o c =? 0) then
    o_store32 o B p (o_pack32_16 o (o_pack16 o 13 10) (o_escapedLUT o c)) ;;; ret (p + 4, 2)
  else
    o_store32 o B p (o_pack32 o 13 10 (bz c + 42) 0) ;;; ret (p + 3, 1).

(** /repo/src/encoder.cc lines 48-130, as [enc_lines]. *)
Fixpoint o_lines (o : order) (fuel : nat) (B : bufs) (es line_size i p col : Z) : M (Z * Z) :=
  match fuel with
  | O => nofuel
  | S f =>
    if i <? 0 then
      '(i, p, col, sp) <- o_unrolled o (S f) B es line_size i p col None ;;
      '(i, p, col) <-
        (match sp with
         | Some s =>
           if line_size - 1 <=? col then
             col <- chk_int (col - (p - s)) ;; ret (i - 8, s, col)
           else ret (i, p, col)
         | None => ret (i, p, col)
         end) ;;
      '(i, p, col, ended) <- o_rest o (S f) B es line_size i p col ;;
      if ended then ret (p, col)
      else
        '(i, p) <- o_last o B es line_size i p col ;;
        if 0 <=? i then ret (p, col)
        else
          c <- load B (es + i) ;;
          '(p, col) <- o_eol o B c p ;;
          o_lines o f B es line_size (i + 1) p col
    else ret (p, col)
  end.

(** /repo/src/encoder.cc lines 30-145: [do_encode_generic]. *)
Definition o_encode_generic (o : order) (B : bufs) (line_size col src dest len : Z) (doEnd : bool)
    : M (Z * Z) :=
  let es := src + len in
  let i := - len in
  let p := dest in
  '(i, p, col) <-
    (if col =? 0 then o_first o B es i p else ret (i, p, col)) ;;
  '(p, col) <- o_lines o (S (Z.to_nat len)) B es line_size i p col ;;
  '(p, col) <- enc_end B doEnd p col ;;
  ret (p - dest, col).
