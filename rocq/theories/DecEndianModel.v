(** The front-end of the SIMD decoders (/repo/src/decoder_common.h) on hosts of either byte order.
    [DecSimdModel.v] has the little-endian code; here the words that are compared with the results of the
    packing macros are written out for both.  Kernels are parameters, as there. *)
From Verif Require Import Base DecSpec DecModel DecNode DecSimdModel EndianModel.
Open Scope Z_scope.

(** A load of a uint16_t (lines 56, 61, 67, 74, 76, 81, 94, 99). *)
Definition o_word16 (o : order) (B : bufs) (a : Z) : M Z :=
  x <- load B a ;; y <- load B (a + 1) ;;
  ret (match o with Big => 256 * bz x + bz y | Little => bz x + 256 * bz y end).

(** A load of a uint32_t (line 87). *)
Definition o_word32 (o : order) (B : bufs) (a : Z) : M Z :=
  x <- load B a ;; y <- load B (a + 1) ;; z <- load B (a + 2) ;; w <- load B (a + 3) ;;
  ret (match o with
       | Big => 16777216 * bz x + 65536 * bz y + 256 * bz z + bz w
       | Little => bz x + 256 * bz y + 65536 * bz z + 16777216 * bz w
       end).

(** Lines 56, 61, 67, 74, 76, 81, 94, 99: comparison with UINT16_PACK(c, d). *)
Definition o_is16 (o : order) (B : bufs) (a : Z) (c d : byte) : M bool :=
  w <- o_word16 o B a ;; ret (w =? o_pack16 o (bz c) (bz d)).

(** Line 87: (load & 0xffffff) == UINT32_PACK(c, d, e, 0).  The mask is the same number on both. *)
Definition o_is24 (o : order) (B : bufs) (a : Z) (c d e : byte) : M bool :=
  w <- o_word32 o B a ;; ret (Z.land w 16777215 =? o_pack32 o (bz c) (bz d) (bz e) 0).

(** Lines 52-120, as [simd_switch]. *)
Definition o_switch (o : order) (isRaw searchEnd : bool) (B : bufs) (src : Z) (s : dstate)
    : M (dend * Z * dstate + Z) :=
  match s with
  | S_CRLF =>
    c <- andm isRaw (c <- load B src ;; ret (beq c DOT)) ;;
    if c then
      e <- andm searchEnd (o_is16 o B (src + 1) CR LF) ;;
      if e then ret (inl (E_ARTICLE, src + 3, S_CRLF)) else
      e <- andm searchEnd (o_is16 o B (src + 1) EQS YY) ;;
      if e then ret (inl (E_CONTROL, src + 3, S_NONE)) else
      ret (inr 1)
    else
      e <- andm searchEnd (o_is16 o B src EQS YY) ;;
      if e then ret (inl (E_CONTROL, src + 2, S_NONE)) else ret (inr 0)
  | S_CR =>
    c <- andm isRaw (o_is16 o B src LF DOT) ;;
    if c then
      e <- andm searchEnd (o_is16 o B (src + 2) CR LF) ;;
      if e then ret (inl (E_ARTICLE, src + 4, S_CRLF)) else
      e <- andm searchEnd (o_is16 o B (src + 2) EQS YY) ;;
      if e then ret (inl (E_CONTROL, src + 4, S_NONE)) else
      ret (inr 2)
    else
      e <- andm searchEnd (o_is24 o B src LF EQS YY) ;;
      if e then ret (inl (E_CONTROL, src + 3, S_NONE)) else ret (inr 0)
  | S_CRLFDT =>
    e <- andm (searchEnd && isRaw) (o_is16 o B src CR LF) ;;
    if e then ret (inl (E_ARTICLE, src + 2, S_CRLF)) else
    e <- andm (searchEnd && isRaw) (o_is16 o B src EQS YY) ;;
    if e then ret (inl (E_CONTROL, src + 2, S_NONE)) else ret (inr 0)
  | S_CRLFDTCR =>
    e <- andm (searchEnd && isRaw) (c <- load B src ;; ret (beq c LF)) ;;
    if e then ret (inl (E_ARTICLE, src + 1, S_CRLF)) else ret (inr 0)
  | S_CRLFEQ =>
    e <- andm searchEnd (c <- load B src ;; ret (beq c YY)) ;;
    if e then ret (inl (E_CONTROL, src + 1, S_NONE)) else ret (inr 0)
  | _ => ret (inr 0)
  end.

(** Lines 43-155, as [simd_aligned]. *)
Definition o_simd_aligned (o : order) (K : kernel) (isRaw searchEnd : bool) (width : Z) (B : bufs)
    (src dest len : Z) (s : dstate) : M eres :=
  let lenBuffer := len_buffer isRaw searchEnd width in
  if lenBuffer <? len then
    x <- o_switch o isRaw searchEnd B src s ;;
    match x with
    | inl (e, src, s) => ret (e, src, dest, Some s)
    | inr nextMask =>
      let escFirst := match s with S_EQ | S_CRLFEQ => 1 | _ => 0 end in
      let dLen := align_down width (len - lenBuffer + (width - 1)) in
      '(dLen, p, escFirst, nextMask) <- K B (src + dLen) dLen dest escFirst nextMask ;;
      simd_tail isRaw searchEnd B (src + dLen) p (len - dLen) (kernel_state escFirst nextMask)
    end
  else simd_tail isRaw searchEnd B src dest len s.

(** Lines 26-156, as [do_decode_simd]. *)
Definition o_decode_simd (o : order) (K : kernel) (isRaw searchEnd : bool) (width : Z) (B : bufs)
    (src dest len : Z) (state : option dstate) : M eres :=
  if len <=? width * 2 then do_decode_scalar isRaw searchEnd B src dest len state
  else
    let s := match state with Some s => s | None => S_CRLF end in
    '(e, src', dest', st) <-
      (if negb (Z.land src (width - 1) =? 0) then
         let aSrc := align_down width (src + (width - 1)) in
         let amount := aSrc - src in
         '(e, src', dest, st) <- do_decode_scalar isRaw searchEnd B src dest amount (Some s) ;;
         match e, st with
         | E_NONE, Some s => o_simd_aligned o K isRaw searchEnd width B src' dest (len - amount) s
         | _, _ => ret (e, src', dest, st)
         end
       else o_simd_aligned o K isRaw searchEnd width B src dest len s) ;;
    ret (e, src', dest', match state with Some _ => st | None => None end).
