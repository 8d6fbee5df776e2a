(** Model of the portable (scalar) encoder and of the scalar part of the SIMD
    front-end. *)
From Verif Require Import Base.

(** /repo/src/common.h: UINT16_PACK(a, b) is laid out in memory as the bytes a, b
    on both byte orders; the model fixes the little-endian value (for big-endian hosts see
    [EndianModel.v]).
    Only the two packing patterns used by the encoder are modelled. *)
Definition pack16 (a b : Z) : Z := a + 256 * b.

(** /repo/src/encoder.cc lines 12-16: [escapeLUT]; 0 for critical characters,
    else the encoded character. *)
Definition escapeLUT (c : byte) : byte :=
  let n := bz c in
  if (n =? 214) || (n =? 13 + 214) || (n =? 10 + 214) || (n =? 61 - 42)
  then u8 0 else u8 (Z.land (n + 42) 255).

(** /repo/src/encoder.cc lines 17-21: [escapedLUT]; the two-byte escape sequence
    for characters that need escaping somewhere, else 0. *)
Definition escapedLUT (c : byte) : Z :=
  let n := bz c in
  if (n =? 214) || (n =? 214 + 13) || (n =? 214 + 10) || (n =? 61 - 42)
     || (n =? 214 + 9) || (n =? 214 + 32) || (n =? 46 - 42)
  then pack16 61 (Z.land (n + 42 + 64) 255) else 0.

(** memcpy of a uint16_t to p (/repo/src/encoder.cc lines 40, 59, 89, 108). *)
Definition store16 (B : bufs) (p : Z) (w : Z) : M unit :=
  store B p (u8 w) ;;; store B (p + 1) (u8 (w / 256)).

(** memcpy of a uint32_t to p (/repo/src/encoder.cc lines 120, 126). *)
Definition store32 (B : bufs) (p : Z) (w : Z) : M unit :=
  store B p (u8 w) ;;; store B (p + 1) (u8 (w / 256)) ;;;
  store B (p + 2) (u8 (w / 65536)) ;;; store B (p + 3) (u8 (w / 16777216)).

(** The first character of a line, at the start of a call:
    /repo/src/encoder.cc lines 37-47; result is (i, p, col). *)
Definition enc_first (B : bufs) (es i p : Z) : M (Z * Z * Z) :=
  c <- load B (es + i) ;;
  if negb (escapedLUT c =? 0) then
    store16 B p (escapedLUT c) ;;; ret (i + 1, p + 2, 2)
  else
    store B p (u8 (bz c + 42)) ;;; ret (i + 1, p + 1, 1).

(** DO_THING(n): /repo/src/encoder.cc lines 54-61; result is the new p. *)
Definition do_thing (B : bufs) (es i n p : Z) : M Z :=
  c <- load B (es + (i + n)) ;;
  if negb (beq (escapeLUT c) NUL) then
    store B p (escapeLUT c) ;;; ret (p + 1)
  else
    store16 B p (escapedLUT c) ;;; ret (p + 2).

(** DO_THING(0) ... DO_THING(7): /repo/src/encoder.cc lines 62-69. *)
Definition enc_block8 (B : bufs) (es i p : Z) : M Z :=
  p <- do_thing B es i 0 p ;;
  p <- do_thing B es i 1 p ;;
  p <- do_thing B es i 2 p ;;
  p <- do_thing B es i 3 p ;;
  p <- do_thing B es i 4 p ;;
  p <- do_thing B es i 5 p ;;
  p <- do_thing B es i 6 p ;;
  do_thing B es i 7 p.

(** The eight-fold unrolled loop: /repo/src/encoder.cc lines 51-73.
    [sp] is [None] for a null pointer; result is (i, p, col, sp). *)
Fixpoint enc_unrolled (fuel : nat) (B : bufs) (es line_size i p col : Z)
    (sp : option Z) : M (Z * Z * Z * option Z) :=
  match fuel with
  | O => nofuel
  | S f =>
    t1 <- chk_int (line_size - col) ;;
    room <- chk_int (t1 - 1) ;;
    if (i <? -1 - 8) && (8 <? room) then
      let s := p in
      p <- enc_block8 B es i p ;;
      col <- chk_int (col + (p - s)) ;;
      enc_unrolled f B es line_size (i + 8) p col (Some s)
    else ret (i, p, col, sp)
  end.

(** The one-at-a-time loop: /repo/src/encoder.cc lines 82-102.
    The boolean is true when the loop left through "goto end". *)
Fixpoint enc_rest (fuel : nat) (B : bufs) (es line_size i p col : Z)
    : M (Z * Z * Z * bool) :=
  match fuel with
  | O => nofuel
  | S f =>
    last <- chk_int (line_size - 1) ;;
    if col <? last then
      c <- load B (es + i) ;;
      '(p, col) <-
        (if negb (beq (escapeLUT c) NUL) then
           store B p (escapeLUT c) ;;; col <- chk_int (col + 1) ;; ret (p + 1, col)
         else
           store16 B p (escapedLUT c) ;;; col <- chk_int (col + 2) ;; ret (p + 2, col)) ;;
      if 0 <=? i + 1 then ret (i + 1, p, col, true)
      else enc_rest f B es line_size (i + 1) p col
    else ret (i, p, col, false)
  end.

(** Last character of a line: /repo/src/encoder.cc lines 104-113.  As in the
    code, [col] is not updated here.  Result is (i, p). *)
Definition enc_last (B : bufs) (es line_size i p col : Z) : M (Z * Z) :=
  if col <? line_size then
    c <- load B (es + i) ;;
    if negb (escapedLUT c =? 0) && negb (bz c =? 46 - 42) then
      store16 B p (escapedLUT c) ;;; ret (i + 1, p + 2)
    else
      store B p (u8 (bz c + 42)) ;;; ret (i + 1, p + 1)
  else ret (i, p).

(** Line break together with the first character of the next line:
    /repo/src/encoder.cc lines 117-129 (same code in encoder_common.h lines 76-86).
    Result is (p, col).  The operand (uint32_t)(c+42) is not cut to 8 bits: it reaches into
    the fourth byte, which is behind the text. *)
Definition enc_eol (B : bufs) (c : byte) (p : Z) : M (Z * Z) :=
  if negb (escapedLUT c =? 0) then
    store32 B p (pack16 13 10 + 65536 * escapedLUT c) ;;; ret (p + 4, 2)
  else
    store32 B p (13 + 256 * 10 + 65536 * (bz c + 42)) ;;; ret (p + 3, 1).

(** The outer loop: /repo/src/encoder.cc lines 48-130; result is (p, col). *)
Fixpoint enc_lines (fuel : nat) (B : bufs) (es line_size i p col : Z) : M (Z * Z) :=
  match fuel with
  | O => nofuel
  | S f =>
    if i <? 0 then
      '(i, p, col, sp) <- enc_unrolled (S f) B es line_size i p col None ;;
      '(i, p, col) <-
        (match sp with
         | Some s =>
           if line_size - 1 <=? col then
             col <- chk_int (col - (p - s)) ;; ret (i - 8, s, col)
           else ret (i, p, col)
         | None => ret (i, p, col)
         end) ;;
      '(i, p, col, ended) <- enc_rest (S f) B es line_size i p col ;;
      if ended then ret (p, col)
      else
        '(i, p) <- enc_last B es line_size i p col ;;
        if 0 <=? i then ret (p, col)
        else
          c <- load B (es + i) ;;
          '(p, col) <- enc_eol B c p ;;
          enc_lines f B es line_size (i + 1) p col
    else ret (p, col)
  end.

(** The doEnd block: /repo/src/encoder.cc lines 132-142 and
    /repo/src/encoder_common.h lines 90-99; result is (p, col). *)
Definition enc_end (B : bufs) (doEnd : bool) (p col : Z) : M (Z * Z) :=
  if doEnd then
    lc <- load B (p - 1) ;;
    if beq lc TAB || beq lc SP then
      store B (p - 1) EQS ;;;
      store B p (u8 (bz lc + 64)) ;;;
      col <- chk_int (col + 1) ;;
      ret (p + 1, col)
    else ret (p, col)
  else ret (p, col).

(** /repo/src/encoder.cc lines 30-145: [do_encode_generic].
    Result is (number of bytes written, new column).  The fuel only bounds the
    model's loops. *)
Definition do_encode_generic (B : bufs) (line_size col src dest len : Z) (doEnd : bool)
    : M (Z * Z) :=
  let es := src + len in
  let i := - len in
  let p := dest in
  '(i, p, col) <-
    (if col =? 0 then enc_first B es i p else ret (i, p, col)) ;;
  '(p, col) <- enc_lines (S (Z.to_nat len)) B es line_size i p col ;;
  '(p, col) <- enc_end B doEnd p col ;;
  ret (p - dest, col).

(** A vector kernel as called by [do_encode_simd]: it receives line_size, the
    column, the end of the source, the destination pointer and the remaining
    length, and returns the new column, destination pointer and remaining
    length (/repo/src/encoder_common.h lines 23, 36). *)
Definition enc_kernel := bufs -> Z -> Z -> Z -> Z -> Z -> M (Z * Z * Z).

(** The scalar loop after the kernel: /repo/src/encoder_common.h lines 51-88;
    result is (p, col). *)
Fixpoint enc_simd_tail (fuel : nat) (B : bufs) (es line_size i p col : Z) : M (Z * Z) :=
  match fuel with
  | O => nofuel
  | S f =>
    if i <? 0 then
      c <- load B (es + i) ;;
      let i := i + 1 in
      last <- chk_int (line_size - 1) ;;
      if col <? last then
        if beq (escapeLUT c) NUL then
          store B p EQS ;;; store B (p + 1) (u8 (bz c + 42 + 64)) ;;;
          col <- chk_int (col + 2) ;;
          enc_simd_tail f B es line_size i (p + 2) col
        else
          store B p (escapeLUT c) ;;;
          col <- chk_int (col + 1) ;;
          enc_simd_tail f B es line_size i (p + 1) col
      else if col <? line_size then
        p <- (if negb (escapedLUT c =? 0) && negb (bz c =? 46 - 42) then
                store16 B p (escapedLUT c) ;;; ret (p + 2)
              else
                store B p (u8 (bz c + 42)) ;;; ret (p + 1)) ;;
        if i =? 0 then ret (p, col)
        else
          c <- load B (es + i) ;;
          '(p, col) <- enc_eol B c p ;;
          enc_simd_tail f B es line_size (i + 1) p col
      else
        '(p, col) <- enc_eol B c p ;;
        enc_simd_tail f B es line_size i p col
    else ret (p, col)
  end.

(** /repo/src/encoder_common.h lines 23-101: [do_encode_simd]. *)
Definition do_encode_simd (kernel : enc_kernel) (B : bufs)
    (line_size col src dest len : Z) (doEnd : bool) : M (Z * Z) :=
  if len <? 1 then ret (0, col)
  else if line_size <? 12 then
    do_encode_generic B line_size col src dest len doEnd
  else
    let es := src + len in
    let col := if col <? 0 then 0 else col in
    '(col, p, len) <- kernel B line_size col es dest len ;;
    let i := - len in
    '(i, p, col) <-
      (if (col =? 0) && (i <? 0) then enc_first B es i p else ret (i, p, col)) ;;
    '(p, col) <- enc_simd_tail (S (Z.to_nat len)) B es line_size i p col ;;
    '(p, col) <- enc_end B doEnd p col ;;
    ret (p - dest, col).
