(** Model of the 256-bit kernel of the encoders (/repo/src/encoder_avx_base.h,
    /repo/src/encoder_avx2.cc, encoder_vbmi2.cc and the native build of encoder.cc).
    Line numbers are those of encoder_avx_base.h.

    The compile-time choices are parameters.  The macros __AVX512VL__, __AVX512BW__
    and __AVX512VBMI2__ are taken to be defined whenever use_isa has the level that
    needs them.  The count of the bits of eqMask in two halves of a 32-bit build is
    taken to be the count of all of them.  The tables are
    functions; that they are allocated and filled first is not modelled.  The
    unaligned 16- and 32-bit stores through cast pointers are plain byte stores
    here. *)
From Verif Require Import Base EncModel DecMaskSpec DecMaskModel DecVec DecSseModel EncSseModel.

Record avx_isa := {
  a_level : Z;     (* use_isa, an YEncDecIsaLevel of /repo/src/common.h lines 226-241 *)
  a_asm : bool;    (* __GNUC__ && PLATFORM_AMD64, line 293 *)
  a_zen : bool     (* __tune_bdver4__ or __tune_znver1__ *)
}.

(** [use_isa >= ISA_LEVEL_AVX3] and [use_isa >= ISA_LEVEL_VBMI2] *)
Definition a_avx3 (isa : avx_isa) : bool := 0x507 <=? a_level isa.
Definition a_vbmi2 (isa : avx_isa) : bool := 0x603 <=? a_level isa.

(** ** Vectors of 32 bytes: what the instructions do *)

Definition y_loadu (B : bufs) (a : Z) : M vec := load_n B a 32.
Definition y_set1 (z : Z) : vec := repeat (u8 z) 32.
Definition y_lo (v : vec) : vec := firstn 16 v.
Definition y_hi (v : vec) : vec := skipn 16 v.
(** These two work within 128-bit halves. *)
Definition y_shuffle (v idx : vec) : vec := v_shuffle (y_lo v) (y_lo idx) ++ v_shuffle (y_hi v) (y_hi idx).
Definition y_alignr (a b : vec) (n : nat) : vec := v_alignr (y_lo a) (y_lo b) n ++ v_alignr (y_hi a) (y_hi b) n.
(** 64-bit shifts; undefined for amounts outside 0..63. *)
Definition shr64 (x : N) (n : Z) : M N :=
  if (0 <=? n) && (n <? 64) then ret (N.shiftr x (Z.to_N n)) else ub.
Definition shl64 (x : N) (n : Z) : M N :=
  if (0 <=? n) && (n <? 64) then ret (uint 64 (N.shiftl x (Z.to_N n))) else ub.

(** ** Lookup tables *)

(** Lines 38-50: lookupsVBMI2->expand[i]; [1<<31] is taken as bit 31. *)
Definition expand16 (i : N) : N := expand_fill 16 0 0 i.

(** Lines 54-65: the entries of shufExpand[i] that are written first. *)
Fixpoint shuf_fill16 (n : nat) (j : Z) (k : N) : vec :=
  match n with
  | O => []
  | S n' => (if N.eqb (N.land k 1) 0 then [] else [u8 0xff]) ++ u8 j :: shuf_fill16 n' (j + 1) (N.shiftr k 1)
  end.
(** Lines 66-67. *)
Definition shuf_row16 (i : N) : vec :=
  let res := shuf_fill16 16 0 i in
  res ++ repeat (u8 0x40) (32 - length res).

(** Lines 69-75: entry [i] of expandMergemix, its two halves. *)
Definition merge_n (i : Z) : Z := if i =? 32 then 32 else 31 - i.
Definition js32 : list Z := map Z.of_nat (seq 0 32).
Definition merge_mask (i : Z) : vec := map (fun j => if j <=? merge_n i then xff else x00) js32.
Definition merge_mix (i : Z) : vec :=
  map (fun j => u8 (61 * (if merge_n i =? j then 1 else 0) + 64 * (if merge_n i =? j - 1 then 1 else 0) + 42 * (if merge_n i =? j then 0 else 1))) js32.

(** ** The kernel *)

Section Kernel.
Variable isa : avx_isa.

(** Lines 148-161 and 449-466: which bytes are critical; [first] for the first vector
    of a line. *)
Definition avx_cmp (first : bool) (data : vec) : vec :=
  let a := v_abs data in
  v_cmpeq (y_shuffle (esc_table ++ esc_table) (if first then v_adds a (u8 88 :: repeat x00 31) else a)) data.

(** Lines 164-171 and 468-475, and 209-212 for AVX2: what is added to the characters. *)
Definition avx_shift (data cmp : vec) : vec :=
  if a_avx3 isa then v_tern_f8 (v_add data (y_set1 42)) cmp (y_set1 64)
  else v_add data (v_blendv (y_set1 42) (y_set1 (42 + 64)) cmp).

(** Lines 181-243: the two vectors with the text of the 32 characters of [data], of
    which [mask] says which are escaped.  For AVX2 the entry for the upper half is
    found by its byte offset, 32 times its number. *)
Definition avx_slow_vectors (data : vec) (mask : N) : vec * vec :=
  let m1 := N.land mask 0xffff in
  if a_vbmi2 isa then
    let m2 := N.shiftr mask 16 in
    (y_expand (y_set1 61) (expand16 m1) data, y_expand (y_set1 61) (expand16 m2) (y_hi data ++ y_hi data))
  else
    let m2 := N.land (N.shiftr mask 11) 0x1fffe0 in
    let data1 := y_lo data ++ y_lo data in
    let data2 := y_hi data ++ y_hi data in
    let shuf1 := shuf_row16 m1 in
    let shuf2 := shuf_row16 (N.shiftr m2 5) in
    (v_blendv (y_shuffle data1 shuf1) (y_set1 61) shuf1, v_blendv (y_shuffle data2 shuf2) (y_set1 61) shuf2).

(** Lines 261-272 and 279-290: for AVX2 a set bit marks a '=', for VBMI2 any other
    character.  [n] is shuf1Len or shuf3Len. *)
Definition avx_eq_mask (mask : N) (n : Z) : M N :=
  let m1 := N.land mask 0xffff in
  let '(eqMask1, eqMask2) :=
    if a_vbmi2 isa then (expand16 m1, expand16 (N.shiftr mask 16))
    else (v_movemask (shuf_row16 m1), v_movemask (shuf_row16 (N.shiftr (N.land (N.shiftr mask 11) 0x1fffe0) 5))) in
  hi <- shl64 eqMask2 n ;; ret (N.lor eqMask1 hi).

(** Lines 255-330: the line ends within the block just written; [p] and [col] are
    those after the block. *)
Definition avx_slow_eol (i p col : Z) (maskA maskB : N) : M blk :=
  let outputBytesA := popcount maskA + 32 in
  let maskBitsB := popcount maskB in
  let shuf1Len := popcount (N.land maskA 0xffff) + 16 in
  let shuf3Len := popcount (N.land maskB 0xffff) + 16 in
  let shiftAmt := maskBitsB + 32 - 1 - col in
  '(eqMask, i, shiftAmt) <-
    (if shiftAmt <? 0 then
       eqMask <- avx_eq_mask maskA shuf1Len ;;
       ret (eqMask, if a_vbmi2 isa then i - 32 else i + maskBitsB, shiftAmt + outputBytesA)
     else
       eqMask <- avx_eq_mask maskB shuf3Len ;;
       ret (eqMask, i, shiftAmt)) ;;
  if a_vbmi2 isa && a_asm isa then
    (* lines 293-302: a shift by 0 leaves the carry of the one before *)
    let carry1 := N.odd eqMask in
    let eqMask := N.shiftr eqMask 1 in
    eqMask' <- shr64 eqMask shiftAmt ;;
    let carry := if shiftAmt =? 0 then carry1 else N.testbit eqMask (Z.to_N (shiftAmt - 1)) in
    let p := p + (- col - 1) + (if carry then 1 else 0) in
    ret (Eol (i - popcount eqMask') p)
  else
    eqMask <- shr64 eqMask shiftAmt ;;
    let bitCount := popcount eqMask in
    if a_vbmi2 isa then
      let i := i - bitCount in
      let p := p - col in
      if negb (N.eqb (N.land eqMask 1) 1) then ret (Eol i (p - 1)) else ret (Eol (i + 1) p)
    else
      let i := i + bitCount in
      let revert := col + Z.of_N (N.land eqMask 1) in
      ret (Eol (i - revert) (p - revert)).

(** Lines 180-331: some half of the block has several characters to escape. *)
Definition avx_slow (B : bufs) (i p col : Z) (dataA dataB cmpA cmpB : vec) (maskA maskB : N) : M blk :=
  let '(data1A, data2A) := avx_slow_vectors (avx_shift dataA cmpA) maskA in
  let '(data1B, data2B) := avx_slow_vectors (avx_shift dataB cmpB) maskB in
  let outputBytesA := popcount maskA + 32 in
  let shuf1Len := popcount (N.land maskA 0xffff) + 16 in
  let shuf3Len := popcount (N.land maskB 0xffff) + 16 in
  store_n B p data1A ;;;
  store_n B (p + shuf1Len) data2A ;;;
  store_n B (p + outputBytesA) data1B ;;;
  store_n B (p + outputBytesA + shuf3Len) data2B ;;;
  let outputBytes := 32 + outputBytesA + popcount maskB in
  let p := p + outputBytes in
  let col := col + outputBytes in
  if 0 <=? col then avx_slow_eol i p col maskA maskB else ret (Next p col).

(** Lines 335-404: 32 characters at [es + j], of which at most one is escaped,
    are written to [p] as 32 bytes and one more byte. *)
Definition avx_fast_half (B : bufs) (es j p : Z) (data cmp : vec) (mask : N) : M unit :=
  if a_vbmi2 isa then
    let data := avx_shift data cmp in
    store_n B p (y_expand (y_set1 61) (N.lxor mask 0xffffffff) data) ;;;
    store B (p + 32) (nth 15 (y_hi data) x00)
  else if a_avx3 isa then
    let data := avx_shift data cmp in
    let dataSwapped := y_hi data ++ y_lo data in
    let data := v_tern_b8 (k_blend (uint 32 (2 ^ 32 - mask)) data (y_alignr data dataSwapped 15)) cmp (y_set1 61) in
    store_n B p data ;;;
    store B (p + 32) (nth 15 (y_lo dataSwapped) x00)
  else
    let bitIndex := lzcnt32 mask in
    let mergeMask := merge_mask bitIndex in
    shifted <- (if a_zen isa then ret (y_alignr data (y_lo data ++ y_lo data) 15) else y_loadu B (es + j - 1)) ;;
    let data := v_andnot cmp data in
    let data := v_blendv shifted data mergeMask in
    let data := v_add data (merge_mix bitIndex) in
    store_n B p data ;;;
    c <- load B (es + (j + 32 - 1)) ;;
    store B (p + 32) (u8 (bz c + 42 + Z.of_N (N.land 64 (N.shiftr mask (32 - 1 - 6))))).

(** Lines 408-433; [p] and [col] are those after the block, [maskBitsB] has been
    increased by 32. *)
Definition avx_fast_eol (i p col : Z) (maskA maskB : N) (maskBitsB : Z) : blk :=
  if maskBitsB <? col then
    let bitIndexA := lzcnt32 maskA + (1 + maskBitsB) in
    let i := i + (maskBitsB - 32) in
    let '(p, i) := if col =? bitIndexA then (p - 1, i) else (p, i + (if bitIndexA <? col then 1 else 0)) in
    Eol (i - col) (p - col)
  else
    let bitIndexB := lzcnt32 maskB + 1 in
    let '(p, i) := if col =? bitIndexB then (p - 1, i) else (p, i + (if bitIndexB <? col then 1 else 0)) in
    Eol (i - col) (p - col).

(** Lines 332-433 and 485-563: neither half of the block has more than one character
    to escape.  (AVX2 reads the characters of both halves before the first store;
    here those of the second are read after it.) *)
Definition avx_fast (B : bufs) (es i p col : Z) (dataA dataB cmpA cmpB : vec) (maskA maskB : N) : M blk :=
  let maskBitsB := popcount maskB + 32 in
  let outputBytesA := popcount maskA + 32 in
  avx_fast_half B es (i - 64) p dataA cmpA maskA ;;;
  let p := p + outputBytesA in
  avx_fast_half B es (i - 32) p dataB cmpB maskB ;;;
  let p := p + maskBitsB in
  let col := col + (outputBytesA + maskBitsB) in
  if 0 <=? col then ret (avx_fast_eol i p col maskA maskB maskBitsB) else ret (Next p col).

(** Lines 145-433 and 446-563: one block of 64 characters at [es + i]; [first] says
    that the block starts a line.  After the loads the code has [i + 64] in its
    variable i. *)
Definition avx_block (B : bufs) (es : Z) (first : bool) (i p col : Z) : M blk :=
  dataA <- y_loadu B (es + i) ;;
  dataB <- y_loadu B (es + i + 32) ;;
  let i := i + 64 in
  let cmpA := avx_cmp first dataA in
  let cmpB := avx_cmp false dataB in
  let maskA := v_movemask cmpA in
  let maskB := v_movemask cmpB in
  if 1 <? Z.lor (popcount maskA) (popcount maskB) then avx_slow B i p col dataA dataB cmpA cmpB maskA maskB
  else avx_fast B es i p col dataA dataB cmpA cmpB maskA maskB.

(** Lines 95-109: one character in the middle of a line, so that reading the byte
    before a block is allowed.  Result is (i, p, col). *)
Definition avx_pre (B : bufs) (line_size es i p col : Z) : M (Z * Z * Z) :=
  if negb (a_zen isa) && (col <? 0) && negb (col =? - line_size + 1) then
    c <- load B (es + i) ;;
    if (bz c =? 214) || (bz c =? 10 + 214) || (bz c =? 13 + 214) || (bz c =? 61 - 42) then
      store16 B p (0x6a3d + 256 * bz c) ;;; ret (i + 1, p + 2, col + 2)
    else
      store B p (u8 (bz c + 42)) ;;; ret (i + 1, p + 1, col + 1)
  else ret (i, p, col).

End Kernel.

(** Lines 80-573: [do_encode_avx2].  INPUT_OFFSET is 128; the loop is that of
    encoder_sse_base.h.  The result is (col, p, len) as [enc_kernel] wants it. *)
Definition do_encode_avx2 (isa : avx_isa) : enc_kernel := fun B line_size col srcEnd dest len =>
  if (len <=? 128) || (line_size <? 16) then ret (col, dest, len)
  else
    let i := - len + 128 in
    let es := srcEnd - 128 in
    '(i, p, col) <- avx_pre isa B line_size es i dest (col - line_size + 1) ;;
    '(i, p, col) <- enc_start B line_size es i p col ;;
    '(i, p, col) <- enc_blocks (Z.to_nat len) (avx_block isa B es) 64 B line_size es false i p col ;;
    ret (col + line_size - 1, p, - (i - 128)).

(** /repo/src/encoder_avx2.cc and encoder_vbmi2.cc with a GNU compiler for AMD64; the
    level between them is for native builds only. *)
Definition enc_avx2 : avx_isa := {| a_level := 0x403; a_asm := true; a_zen := false |}.
Definition enc_avx3 : avx_isa := {| a_level := 0x507; a_asm := true; a_zen := false |}.
Definition enc_vbmi2 : avx_isa := {| a_level := 0x603; a_asm := true; a_zen := false |}.
