(** Model of the front-end shared by all SIMD decoders
    (/repo/src/decoder_common.h), for an arbitrary kernel. *)
From Verif Require Import Base DecSpec DecModel DecNode.

(** What a kernel returns through its reference arguments: len, p, escFirst,
    nextMask. *)
Definition kres := (Z * Z * Z * Z)%type.

(** The signature of the kernels (/repo/src/decoder_common.h line 26): a pointer to
    the end of the source, the length, the destination, escFirst and nextMask. *)
Definition kernel := bufs -> Z -> Z -> Z -> Z -> Z -> M kres.

(** [x & ~(width-1)] on pointers and lengths (lines 36 and 125).  Addresses and
    lengths are unbounded integers: adding width-1 is taken not to wrap. *)
Definition align_down (width x : Z) : Z := Z.land x (Z.lnot (width - 1)).

(** Comparison of a 16-bit load with UINT16_PACK(c, d): both bytes are read. *)
Definition is16 (B : bufs) (a : Z) (c d : byte) : M bool :=
  x <- load B a ;; y <- load B (a + 1) ;; ret (beq x c && beq y d).

(** Comparison of a 32-bit load, masked with 0xffffff, with UINT32_PACK(c,d,e,0)
    (line 87): all four bytes are read.  As the whole model, little-endian. *)
Definition is24 (B : bufs) (a : Z) (c d e : byte) : M bool :=
  x <- load B a ;; y <- load B (a + 1) ;; z <- load B (a + 2) ;; _w <- load B (a + 3) ;;
  ret (beq x c && beq y d && beq z e).

(** [a] evaluated only when [b] holds. *)
Definition andm (b : bool) (a : M bool) : M bool := if b then a else ret false.

(** The switch over the incoming state: /repo/src/decoder_common.h lines 52-120.
    [inl (end, src, state)] is a return, [inr nextMask] goes on. *)
Definition simd_switch (isRaw searchEnd : bool) (B : bufs) (src : Z) (s : dstate)
    : M (dend * Z * dstate + Z) :=
  match s with
  | S_CRLF =>
    c <- andm isRaw (c <- load B src ;; ret (beq c DOT)) ;;
    if c then
      e <- andm searchEnd (is16 B (src + 1) CR LF) ;;
      if e then ret (inl (E_ARTICLE, src + 3, S_CRLF)) else
      e <- andm searchEnd (is16 B (src + 1) EQS YY) ;;
      if e then ret (inl (E_CONTROL, src + 3, S_NONE)) else
      ret (inr 1)
    else
      e <- andm searchEnd (is16 B src EQS YY) ;;
      if e then ret (inl (E_CONTROL, src + 2, S_NONE)) else ret (inr 0)
  | S_CR =>
    c <- andm isRaw (is16 B src LF DOT) ;;
    if c then
      e <- andm searchEnd (is16 B (src + 2) CR LF) ;;
      if e then ret (inl (E_ARTICLE, src + 4, S_CRLF)) else
      e <- andm searchEnd (is16 B (src + 2) EQS YY) ;;
      if e then ret (inl (E_CONTROL, src + 4, S_NONE)) else
      ret (inr 2)
    else
      e <- andm searchEnd (is24 B src LF EQS YY) ;;
      if e then ret (inl (E_CONTROL, src + 3, S_NONE)) else ret (inr 0)
  | S_CRLFDT =>
    e <- andm (searchEnd && isRaw) (is16 B src CR LF) ;;
    if e then ret (inl (E_ARTICLE, src + 2, S_CRLF)) else
    e <- andm (searchEnd && isRaw) (is16 B src EQS YY) ;;
    if e then ret (inl (E_CONTROL, src + 2, S_NONE)) else ret (inr 0)
  | S_CRLFDTCR =>
    e <- andm (searchEnd && isRaw) (c <- load B src ;; ret (beq c LF)) ;;
    if e then ret (inl (E_ARTICLE, src + 1, S_CRLF)) else ret (inr 0)
  | S_CRLFEQ =>
    e <- andm searchEnd (c <- load B src ;; ret (beq c YY)) ;;
    if e then ret (inl (E_CONTROL, src + 1, S_NONE)) else ret (inr 0)
  | _ => ret (inr 0)
  end.

(** /repo/src/decoder_common.h lines 43-45: lenBuffer. *)
Definition len_buffer (isRaw searchEnd : bool) (width : Z) : Z :=
  width - 1 + (if searchEnd then 3 + (if isRaw then 1 else 0) else if isRaw then 2 else 0).

(** The state after the kernel: lines 129-132. *)
Definition kernel_state (escFirst nextMask : Z) : dstate :=
  if negb (escFirst =? 0) then S_EQ
  else if nextMask =? 1 then S_CRLF
  else if nextMask =? 2 then S_CR
  else S_NONE.

(** The scalar code on the rest: lines 140-141 and 155. *)
Definition simd_tail (isRaw searchEnd : bool) (B : bufs) (src dest len : Z) (s : dstate) : M eres :=
  if negb (len =? 0) then do_decode_scalar isRaw searchEnd B src dest len (Some s)
  else ret (E_NONE, src, dest, Some s).

(** Lines 43-155: everything after the source has been aligned, with the state
    *pState = [s]. *)
Definition simd_aligned (K : kernel) (isRaw searchEnd : bool) (width : Z) (B : bufs)
    (src dest len : Z) (s : dstate) : M eres :=
  let lenBuffer := len_buffer isRaw searchEnd width in
  if lenBuffer <? len then
    x <- simd_switch isRaw searchEnd B src s ;;
    match x with
    | inl (e, src, s) => ret (e, src, dest, Some s)
    | inr nextMask =>
      let escFirst := match s with S_EQ | S_CRLFEQ => 1 | _ => 0 end in
      let dLen := align_down width (len - lenBuffer + (width - 1)) in
      '(dLen, p, escFirst, nextMask) <- K B (src + dLen) dLen dest escFirst nextMask ;;
      simd_tail isRaw searchEnd B (src + dLen) p (len - dLen) (kernel_state escFirst nextMask)
    end
  else simd_tail isRaw searchEnd B src dest len s.

(** /repo/src/decoder_common.h lines 26-156: [_do_decode_simd].  A null state
    pointer is replaced by a local variable (lines 32-33), so the state is lost in
    the end.  The value [None] for the state of a completed inner call cannot
    occur. *)
Definition do_decode_simd (K : kernel) (isRaw searchEnd : bool) (width : Z) (B : bufs)
    (src dest len : Z) (state : option dstate) : M eres :=
  if len <=? width * 2 then do_decode_scalar isRaw searchEnd B src dest len state
  else
    let s := match state with Some s => s | None => S_CRLF end in
    '(e, src', dest', st) <-
      (if negb (Z.land src (width - 1) =? 0) then
         let aSrc := align_down width (src + (width - 1)) in
         let amount := aSrc - src in
         '(e, src', dest, st) <- do_decode_scalar isRaw searchEnd B src dest amount (Some s) ;;
         match e, st with
         | E_NONE, Some s => simd_aligned K isRaw searchEnd width B src' dest (len - amount) s
         | _, _ => ret (e, src', dest, st)
         end
       else simd_aligned K isRaw searchEnd width B src dest len s) ;;
    ret (e, src', dest', match state with Some _ => st | None => None end).

(** The three decoders of an instruction set, built from its kernels
    (e.g. /repo/src/decoder_sse2.cc lines 31-33). *)
Definition simd (width : Z) (Kplain Kraw Kend : kernel) : decoders :=
  {| dec_plain := do_decode_simd Kplain false false width;
     dec_raw := do_decode_simd Kraw true false width;
     dec_end := do_decode_simd Kend true true width |}.
