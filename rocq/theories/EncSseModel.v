(** Model of the SSE kernel of the encoders (/repo/src/encoder_sse_base.h,
    /repo/src/encoder_sse2.cc, encoder_ssse3.cc, encoder_avx.cc, encoder_vbmi2.cc
    and the native build of encoder.cc).  Line numbers are those of
    encoder_sse_base.h.

    The compile-time choices are parameters.  The macros __SSSE3__, __SSE4_1__,
    __AVX512VL__, __AVX512BW__ and __AVX512VBMI2__ are taken to be defined whenever
    use_isa has the level that needs them: every file that includes this code checks
    so, except that a native build takes __AVX512BW__ alone for ISA_LEVEL_AVX3.  The
    unaligned 16- and 32-bit stores through cast pointers are plain byte stores
    here. *)
From Verif Require Import Base EncModel DecMaskSpec DecMaskModel DecVec DecSseModel.

(** The [__tune_*__] macros the code asks for, of which a compiler defines at most one;
    [T_zen] stands for those of line 354 (but __tune_btver2__), which choose between
    two ways to count bits, [T_goldmont] for __tune_goldmont__,
    __tune_goldmont_plus__ and __tune_tremont__, [T_k10] for __tune_amdfam10__ and
    __tune_k8__. *)
Inductive tune := T_none | T_zen | T_k10 | T_btver1 | T_btver2 | T_atom | T_slm | T_goldmont.

Record enc_isa := {
  e_level : Z;          (* use_isa, an YEncDecIsaLevel of /repo/src/common.h lines 226-241 *)
  e_has_popcnt : bool;  (* __POPCNT__ *)
  e_has_lzcnt : bool;   (* __LZCNT__ *)
  e_tune : tune;
  e_gnuc : bool;        (* __GNUC__ *)
  e_bsr0 : Z            (* what BSR32(0) gives (lines 84-99): __builtin_clz and BSR leave it open *)
}.

(** The conditions that the code tests. *)
Definition e_ssse3 (isa : enc_isa) : bool := 0x200 <=? e_level isa.
Definition e_sse41 (isa : enc_isa) : bool := 0x300 <=? e_level isa.
Definition e_avx3 (isa : enc_isa) : bool := 0x507 <=? e_level isa.
Definition e_vbmi2 (isa : enc_isa) : bool := 0x603 <=? e_level isa.
(** [use_isa & ISA_FEATURE_POPCNT] and [use_isa & ISA_FEATURE_LZCNT] *)
Definition f_popcnt (isa : enc_isa) : bool := Z.testbit (e_level isa) 0.
Definition f_lzcnt (isa : enc_isa) : bool := Z.testbit (e_level isa) 1.
Definition e_btver1 (isa : enc_isa) : bool := match e_tune isa with T_btver1 => true | _ => false end.
(** Lines 211, 238, 528, 637: pshufb to find the characters and to make room. *)
Definition e_fast (isa : enc_isa) : bool :=
  e_ssse3 isa && match e_tune isa with T_atom | T_slm | T_btver1 => false | _ => true end.
(** Line 542 *)
Definition e_blend (isa : enc_isa) : bool :=
  e_sse41 isa && match e_tune isa with T_slm | T_goldmont => false | _ => true end.
(** Line 570 *)
Definition e_alignr (isa : enc_isa) : bool := e_ssse3 isa && negb (e_btver1 isa).
(** Lines 159-163 *)
Definition e_branch (isa : enc_isa) : bool :=
  match e_tune isa with T_atom | T_slm | T_btver1 | T_btver2 => true | _ => negb (e_ssse3 isa) end.
(** Lines 267, 351 and 695 *)
Definition e_popcnt (isa : enc_isa) : bool := e_has_popcnt isa && negb (e_btver1 isa) && f_popcnt isa.
(** Lines 444-445 *)
Definition e_popcnt_eol (isa : enc_isa) : bool := e_has_popcnt isa && f_popcnt isa.
(** Lines 343, 507, 512: whether outputBytes or maskBits is set without popcnt. *)
Definition e_set_len (isa : enc_isa) : bool := e_btver1 isa || negb (f_popcnt isa).
(** Lines 107 and 517 *)
Definition e_lzcnt (isa : enc_isa) : bool := e_has_lzcnt isa && f_lzcnt isa.
(** Lines 384, 395, 406 and 457: expandMask is used to find the end of the line. *)
Definition e_emask (isa : enc_isa) : bool := e_vbmi2 isa || negb (e_ssse3 isa).
(** Lines 408-432 *)
Definition e_asm (isa : enc_isa) : bool :=
  e_gnuc isa && (e_vbmi2 isa || match e_tune isa with T_k10 => true | _ => false end).

(** What pabsb and paddsb do to a byte. *)
Definition b_abs (b : byte) : byte := if b_top b then u8 (- bz b) else b.
Definition b_signed (b : byte) : Z := if b_top b then bz b - 256 else bz b.
Definition b_adds (a b : byte) : byte := u8 (Z.max (-128) (Z.min 127 (b_signed a + b_signed b))).
Definition b_sub (a b : byte) : byte := u8 (bz a - bz b).
Definition v_abs : vec -> vec := map b_abs.
Definition v_adds : vec -> vec -> vec := map2 b_adds.
Definition v_sub : vec -> vec -> vec := map2 b_sub.

(** _mm_mask_expand_epi8 and _mm256_mask_expand_epi8: the bytes of [a], one after the
    other, to the places whose bit is set. *)
Fixpoint y_expand (src : vec) (k : N) (a : vec) : vec :=
  match src with
  | [] => []
  | s :: src =>
    if N.odd k then hd x00 a :: y_expand src (N.div2 k) (tl a)
    else s :: y_expand src (N.div2 k) a
  end.
(** Blending by a mask register, bit j for byte j: [b] where the bit is set. *)
Fixpoint k_blend (k : N) (a b : vec) : vec :=
  match a, b with
  | x :: a, y :: b => (if N.odd k then y else x) :: k_blend (N.div2 k) a b
  | _, _ => []
  end.
(** The ternary logic 0xf8 and 0xb8 as it is used here. *)
Definition v_tern_f8 (a b c : vec) : vec := v_or a (v_and b c).
Definition v_tern_b8 (a b c : vec) : vec := v_or (v_andnot b a) (v_and b c).

Definition lzcnt32 (x : N) : Z := if N.eqb x 0 then 32 else 31 - Z.of_N (N.log2 x).

(** ** Lookup tables: lines 29-80 *)

(** Lines 33-45: the entries of shufMix[i].shuf that are written first. *)
Fixpoint shuf_fill (n : nat) (j : Z) (k : N) : vec :=
  match n with
  | O => []
  | S n' => (if N.eqb (N.land k 1) 0 then [] else [u8 (0xf0 + j)]) ++ u8 j :: shuf_fill n' (j + 1) (N.shiftr k 1)
  end.
(** Lines 46-47. *)
Definition shuf_row (i : N) : vec :=
  let res := shuf_fill 8 0 i in
  res ++ map (fun x => u8 (Z.of_nat x + 0x40)) (seq (length res) (16 - length res)).

(** Lines 35-45: expandMask[i]. *)
Fixpoint expand_fill (n : nat) (j p : N) (k : N) : N :=
  match n with
  | O => 0
  | S n' =>
    let p := if N.eqb (N.land k 1) 0 then p else N.succ p in
    N.lor (N.shiftl 1 (j + p)) (expand_fill n' (N.succ j) p (N.shiftr k 1))
  end%N.
Definition expand_mask (i : N) : N := expand_fill 8 0 0 i.

(** Lines 51-58: shufMix[i].mix. *)
Definition mix_row (i : N) : vec :=
  let maskEsc := v_cmpeq (v_and (shuf_row i) (v_set1 (-16))) (v_set1 (-16)) in
  let addMask := v_and (v_slli maskEsc 1) (v_set1 64) in
  let addMask := v_or addMask (v_and maskEsc (v_set1 (61 - 42))) in
  v_add addMask (v_set1 42).

(** Line 61 (also /repo/src/encoder_avx_base.h lines 27-31). *)
Definition eolLastChar (c : byte) : Z :=
  let i := bz c in
  if (i =? 214 + 9) || (i =? 214 + 32) || (i =? 214 + 0) || (i =? 214 + 10) || (i =? 214 + 13) || (i =? 61 - 42)
  then 256 * Z.land (i + 42 + 64) 255 + 0x0a0d003d
  else Z.land (i + 42) 255 + 0x0a0d00.

(** Line 62. *)
Definition eolFirstMask (c : byte) : N :=
  let i := bz c in if (i =? 214 + 9) || (i =? 214 + 32) || (i =? 46 - 42) then 1%N else 0%N.

(** Lines 64-66: BitsSetTable256plus8. *)
Definition bits_set_plus8 (i : N) : Z :=
  8 + Z.of_N (N.land i 1 + N.land (N.shiftr i 1) 1 + N.land (N.shiftr i 2) 1 + N.land (N.shiftr i 3) 1
              + N.land (N.shiftr i 4) 1 + N.land (N.shiftr i 5) 1 + N.land (N.shiftr i 6) 1 + N.land (N.shiftr i 7) 1)%N.

(** Lines 68-69: what entry [i] of expandMaskmix and expandShufmaskmix is made for. *)
Definition entry_n (isa : enc_isa) (i : Z) : Z :=
  if f_lzcnt isa then (if i =? 32 then 32 else 31 - i) else if i =? 0 then 32 else i - 1.
(** Lines 70-79: the four vectors of an entry, for one [n]. *)
Definition js (k : nat) : list Z := map Z.of_nat (seq k 16).
Definition maskmix_mask (n : Z) (k : nat) : vec := map (fun j => if j <? n then xff else x00) (js k).
Definition shufmix_shuf (n : Z) : vec := map (fun j => if n =? j then xff else u8 (j - (if n <? j then 1 else 0))) (js 0).
Definition shufmix_mask (n : Z) : vec := map (fun j => if j <=? n then xff else x00) (js 16).
Definition entry_mix (n : Z) (k : nat) : vec :=
  map (fun j => if n =? j then u8 61 else u8 (42 + 64 * (if n =? j - 1 then 1 else 0))) (js k).

(** ** Lines 101-127: sse2_expand_bytes.  The loop runs once per bit set, at most 8
    times. *)
Fixpoint expand_bytes (isa : enc_isa) (fuel : nat) (mask : N) (data : vec) : vec :=
  match fuel with
  | O => data
  | S f =>
    if N.eqb mask 0 then data else
    let '(entry, mask) :=
      if e_lzcnt isa then
        let bitIndex := lzcnt32 mask in
        (bitIndex, N.land mask (N.shiftr 0x7fffffff (Z.to_N bitIndex)))
      else
        let bitIndex := N.log2 mask in
        (Z.of_N bitIndex + 1, N.lxor mask (N.shiftl 1 bitIndex)) in
    let mergeMask := maskmix_mask (entry_n isa entry) 0 in
    expand_bytes isa f mask (v_or (v_and mergeMask data) (v_slli (v_andnot mergeMask data) 1))
  end.

(** Lines 129-148: sse2_expand_store_vector; result is (shufLenP1, shufLenP2), the
    value returned by the code being shufLenP2. *)
Definition expand_store_vector (isa : enc_isa) (B : bufs) (data : vec) (mask maskP1 maskP2 : N) (p : Z) : M (Z * Z) :=
  if negb (N.eqb mask 0) then
    let dataA := expand_bytes isa 8 maskP1 data in
    let dataB := expand_bytes isa 8 maskP2 (v_srli data 8) in
    let dataA := v_add dataA (mix_row maskP1) in
    let dataB := v_add dataB (mix_row maskP2) in
    let shufLenP1 := bits_set_plus8 maskP1 in
    let shufLenP2 := shufLenP1 + bits_set_plus8 maskP2 in
    store_n B p dataA ;;; store_n B (p + shufLenP1) dataB ;;; ret (shufLenP1, shufLenP2)
  else
    store_n B p (v_sub data (v_set1 (-42))) ;;; ret (8, 16).

(** ** The kernel *)

(** How the code for one block ends: going on with the next block, or at
    _encode_eol_handle_pre (line 623) with the character at [i] being the last of
    the line. *)
Inductive blk :=
| Next (p col : Z)
| Eol (i p : Z).

Definition esc_table : vec :=
  map u8 [10 - 42; -42; 32 - 42; 61 - 42; -42; 13 - 42; -42; -42; 10 - 42; 9 - 42; 0 - 42; 61 - 42; 46 - 42; 13 - 42; -42; 0 - 42].

(** An unsigned 32-bit shift; undefined for amounts outside 0..31. *)
Definition shr32 (x : N) (n : Z) : M N :=
  if (0 <=? n) && (n <? 32) then ret (N.shiftr x (Z.to_N n)) else ub.
Definition shl32 (x : N) (n : Z) : M N :=
  if (0 <=? n) && (n <? 32) then ret (uint 32 (N.shiftl x (Z.to_N n))) else ub.

(** Reading a variable, which is undefined before it is set. *)
Definition given {A} (x : option A) : M A := match x with Some v => ret v | None => ub end.

Section Kernel.
Variable isa : enc_isa.

(** Lines 211-232 and 238-259: which bytes are critical; [first] is the variant of
    lines 637-646 and 663-672 used for the first vector of a line. *)
Definition sse_cmp (first : bool) (data : vec) : vec :=
  if e_fast isa then
    let a := v_abs data in
    v_cmpeq (v_shuffle esc_table (if first then v_adds a (v_cvtsi32 88) else a)) data
  else
    v_or (v_or (v_cmpeq data (v_set1 (-42))) (v_cmpeq data (v_set1 (10 - 42))))
         (v_or (v_cmpeq data (v_set1 (61 - 42))) (v_cmpeq data (v_set1 (13 - 42)))).

(** Lines 444-455: the number of bits of eqMask. *)
Definition sse_count (eqMask : N) : Z :=
  if e_popcnt_eol isa then popcount eqMask
  else bits_set_plus8 (N.land eqMask 0xff) + bits_set_plus8 (N.land (N.shiftr eqMask 8) 0xff)
       + bits_set_plus8 (N.land (N.shiftr eqMask 16) 0xff) + bits_set_plus8 (N.land (N.shiftr eqMask 24) 0xff) - 32.

(** Lines 290-293 and 482-485: the characters as they are written. *)
Definition sse_shift (data cmp : vec) : vec :=
  v_tern_f8 (v_sub data (v_set1 (-42))) cmp (v_set1 64).

(** Lines 288-329: the four vectors with the text of a block, from SSSE3 on. *)
Definition sse_slow_vectors (dataA dataB cmpA cmpB : vec) (m1 m2 m3 m4 : N) : vec * vec * vec * vec :=
  if e_vbmi2 isa then
    let dataA := sse_shift dataA cmpA in
    let dataB := sse_shift dataB cmpB in
    (y_expand (v_set1 61) (expand_mask m1) dataA, y_expand (v_set1 61) (expand_mask m2) (v_srli dataA 8),
     y_expand (v_set1 61) (expand_mask m3) dataB, y_expand (v_set1 61) (expand_mask m4) (v_srli dataB 8))
  else
    let shuf1A := shuf_row m1 in
    let shuf2A := v_or (shuf_row m2) (v_set1 8) in
    let shuf1B := shuf_row m3 in
    let shuf2B := v_or (shuf_row m4) (v_set1 8) in
    (v_add (v_shuffle dataA shuf1A) (mix_row m1), v_add (v_shuffle dataA shuf2A) (mix_row m2),
     v_add (v_shuffle dataB shuf1B) (mix_row m3), v_add (v_shuffle dataB shuf2B) (mix_row m4)).

(** Lines 279-375: writing a block in which several characters are escaped;
    result is (outputBytes, shuf1Len, shuf2Len, shuf3Len).  [outputBytes] is what
    lines 267-277 have set. *)
Definition sse_slow_store (B : bufs) (p : Z) (dataA dataB cmpA cmpB : vec) (maskA maskB : N) (outputBytes : option Z) : M (Z * Z * Z * Z) :=
  let m1 := N.land maskA 0xff in
  let m2 := N.shiftr maskA 8 in
  let m3 := N.land maskB 0xff in
  let m4 := N.shiftr maskB 8 in
  if e_ssse3 isa then
    let '(data1A, data2A, data1B, data2B) := sse_slow_vectors dataA dataB cmpA cmpB m1 m2 m3 m4 in
    let '(outputBytes, shuf1Len, shuf2Len, shuf3Len) :=
      if e_popcnt isa then
        let shuf2Len := popcount maskA + 16 in
        (outputBytes, bits_set_plus8 m1, shuf2Len, bits_set_plus8 m3 + shuf2Len)
      else
        let shuf1Len := bits_set_plus8 m1 in
        let shuf2Len := shuf1Len + bits_set_plus8 m2 in
        let shuf3Len := shuf2Len + bits_set_plus8 m3 in
        (Some (shuf3Len + bits_set_plus8 m4), shuf1Len, shuf2Len, shuf3Len) in
    store_n B p data1A ;;; store_n B (p + shuf1Len) data2A ;;;
    store_n B (p + shuf2Len) data1B ;;; store_n B (p + shuf3Len) data2B ;;;
    outputBytes <- given outputBytes ;;
    ret (outputBytes, shuf1Len, shuf2Len, shuf3Len)
  else
    '(shuf1Len, shuf2Len) <- expand_store_vector isa B dataA maskA m1 m2 p ;;
    '(shuf3Len, shuf4Len) <- expand_store_vector isa B dataB maskB m3 m4 (p + shuf2Len) ;;
    outputBytes <- given (if e_set_len isa then Some (shuf2Len + shuf4Len) else outputBytes) ;;
    ret (outputBytes, shuf1Len, shuf2Len, shuf3Len + shuf2Len).

(** Lines 380-404: the half of the block in which the line ends, as (eqMask,
    shiftAmt, i); a set bit marks a '=' or, with expandMask, any other character. *)
Definition sse_eq_mask (i col : Z) (maskA maskB : N) (outputBytes shuf1Len shuf2Len shuf3Len : Z) : M (N * Z * Z) :=
  let m1 := N.land maskA 0xff in
  let m2 := N.shiftr maskA 8 in
  let m3 := N.land maskB 0xff in
  let m4 := N.shiftr maskB 8 in
  let shiftAmt := outputBytes - shuf2Len - col - 1 in
  if shiftAmt <? 0 then
    let shiftAmt := shiftAmt + shuf2Len in
    let i := i - 16 in
    if e_emask isa then
      hi <- shl32 (expand_mask m2) shuf1Len ;;
      ret (N.lor hi (expand_mask m1), shiftAmt, i)
    else
      hi <- shl32 (v_movemask (v_or (shuf_row m2) (v_set1 8))) shuf1Len ;;
      ret (N.lor hi (v_movemask (shuf_row m1)), shiftAmt, i + (outputBytes - shuf2Len))
  else if e_emask isa then
    hi <- shl32 (expand_mask m4) (shuf3Len - shuf2Len) ;;
    ret (N.lor hi (expand_mask m3), shiftAmt, i)
  else
    hi <- shl32 (v_movemask (v_or (shuf_row m4) (v_set1 8))) (shuf3Len - shuf2Len) ;;
    ret (N.lor hi (v_movemask (shuf_row m3)), shiftAmt, i).

(** Lines 377-464: the line ends within the block just written; find the last
    character that belongs to it.  [p] and [col] are those after the block. *)
Definition sse_slow_eol (i p col : Z) (maskA maskB : N) (outputBytes shuf1Len shuf2Len shuf3Len : Z) : M blk :=
  '(eqMask, shiftAmt, i) <- sse_eq_mask i col maskA maskB outputBytes shuf1Len shuf2Len shuf3Len ;;
  if e_emask isa then
    if e_asm isa then
      (* lines 413-424: a shift by 0 leaves the carry of the one before *)
      let carry1 := N.odd eqMask in
      let eqMask := N.shiftr eqMask 1 in
      eqMask' <- shr32 eqMask shiftAmt ;;
      let carry := if shiftAmt =? 0 then carry1 else N.testbit eqMask (Z.to_N (shiftAmt - 1)) in
      let p := p + (- col - 1) + (if carry then 1 else 0) in
      ret (Eol (i - sse_count eqMask') p)
    else
      eqMask <- shr32 eqMask shiftAmt ;;
      let p := p - col in
      let '(p, i) := if negb (N.eqb (N.land eqMask 1) 1) then (p - 1, i) else (p, i + 1) in
      ret (Eol (i - sse_count eqMask) p)
  else
    eqMask <- shr32 eqMask shiftAmt ;;
    let col := col + Z.of_N (N.land eqMask 1) in
    let i := i + sse_count eqMask in
    ret (Eol (i - col) (p - col)).

(** Lines 279-464. *)
Definition sse_slow (B : bufs) (i p col : Z) (dataA dataB cmpA cmpB : vec) (maskA maskB : N) (outputBytes : option Z) : M blk :=
  '(outputBytes, shuf1Len, shuf2Len, shuf3Len) <- sse_slow_store B p dataA dataB cmpA cmpB maskA maskB outputBytes ;;
  let p := p + outputBytes in
  let col := col + outputBytes in
  if 0 <=? col then sse_slow_eol i p col maskA maskB outputBytes shuf1Len shuf2Len shuf3Len
  else ret (Next p col).

(** Lines 466-477: no character is escaped. *)
Definition sse_noesc (B : bufs) (i p col : Z) (dataA dataB : vec) : M blk :=
  store_n B p (v_sub dataA (v_set1 (-42))) ;;;
  store_n B (p + 16) (v_sub dataB (v_set1 (-42))) ;;;
  let p := p + 32 in
  let col := col + 32 in
  if 0 <=? col then ret (Eol (i - col) (p - col)) else ret (Next p col).

(** Lines 528-590: the two vectors to store when at most one character is
    escaped, the entry of the tables being made for [n]. *)
Definition sse_one_vectors (n : Z) (dataA dataB cmpB : vec) : vec * vec :=
  let '(dataA, dataB) :=
    if e_fast isa then
      let mergeMaskB := shufmix_mask n in
      let dataBShifted := v_alignr dataB dataA 15 in
      let dataB := v_andnot cmpB dataB in
      (v_shuffle dataA (shufmix_shuf n),
       if e_blend isa then v_blendv dataBShifted dataB mergeMaskB
       else v_or (v_and mergeMaskB dataB) (v_andnot mergeMaskB dataBShifted))
    else
      let mergeMaskA := maskmix_mask n 0 in
      let mergeMaskB := maskmix_mask n 16 in
      let dataAMasked := v_andnot mergeMaskA dataA in
      let dataBMasked := v_andnot mergeMaskB dataB in
      let dataAShifted := v_slli dataAMasked 1 in
      let dataBShifted :=
        if e_alignr isa then v_alignr dataBMasked dataAMasked 15
        else v_or (v_slli dataBMasked 1) (v_srli dataAMasked 15) in
      (v_or (v_and mergeMaskA dataA) dataAShifted, v_or (v_and mergeMaskB dataB) dataBShifted) in
  (v_add dataA (entry_mix n 0), v_add dataB (entry_mix n 16)).

(** Lines 480-503: the same at the AVX512 levels, and the byte after them. *)
Definition evex_one_vectors (dataA dataB cmpA cmpB : vec) (mask : N) : vec * vec * byte :=
  let dataA := sse_shift dataA cmpA in
  let dataB := sse_shift dataB cmpB in
  let last := nth 15 dataB x00 in
  let blendMask := uint 32 (2 ^ 32 - mask) in
  let dataB := v_tern_b8 (k_blend (N.shiftr blendMask 16) dataB (v_alignr dataB dataA 15)) cmpB (v_set1 61) in
  let dataA :=
    if e_vbmi2 isa then y_expand (v_set1 61) (N.lxor mask 0xffffffff) dataA
    else v_tern_b8 (k_blend blendMask dataA (v_alignr dataA dataA 15)) cmpA (v_set1 61) in
  (dataA, dataB, last).

(** Lines 480-598: what is stored when at most one character is escaped, and
    (bitIndex, outputBytes).  The entry of the tables must be one of the 33. *)
Definition sse_one_text (B : bufs) (es i : Z) (dataA dataB cmpA cmpB : vec) (mask : N) (maskBits outputBytes : option Z)
    : M (vec * vec * byte * option Z * option Z) :=
  if e_avx3 isa then
    let '(dataA, dataB, last) := evex_one_vectors dataA dataB cmpA cmpB mask in
    ret (dataA, dataB, last, None, outputBytes)
  else
    let maskBits := if e_set_len isa then Some (if N.eqb mask 0 then 0 else 1) else maskBits in
    let maskBits := if e_branch isa then Some 1 else maskBits in
    outputBytes <- (if e_set_len isa then maskBits <- given maskBits ;; ret (Some (32 + maskBits)) else ret outputBytes) ;;
    bitIndex <- (if e_lzcnt isa then ret (lzcnt32 mask)
                 else maskBits <- given maskBits ;;
                      ret (Z.lor (if N.eqb mask 0 then e_bsr0 isa else Z.of_N (N.log2 mask)) (maskBits - 1))) ;;
    let entry := if f_lzcnt isa then bitIndex else bitIndex + 1 in
    if (0 <=? entry) && (entry <? 33) then
      let '(dataA, dataB) := sse_one_vectors (entry_n isa entry) dataA dataB cmpB in
      c <- load B (es + (i - 1)) ;;
      ret (dataA, dataB, u8 (bz c + 42 + Z.of_N (N.land 64 (N.shiftr mask (16 * 2 - 1 - 6)))), Some bitIndex, outputBytes)
    else ub.

(** Lines 479-621: at most one character is escaped. *)
Definition sse_one (B : bufs) (es i p col : Z) (dataA dataB cmpA cmpB : vec) (mask : N) (maskBits outputBytes : option Z) : M blk :=
  '(dataA, dataB, last, bitIndex, outputBytes) <- sse_one_text B es i dataA dataB cmpA cmpB mask maskBits outputBytes ;;
  store B (p + 32) last ;;;
  store_n B p dataA ;;;
  store_n B (p + 16) dataB ;;;
  outputBytes <- given outputBytes ;;
  let p := p + outputBytes in
  let col := col + outputBytes in
  if 0 <=? col then
    bitIndex <- (if e_avx3 isa then ret (lzcnt32 mask + 1)
                 else bitIndex <- given bitIndex ;;
                      ret (if f_lzcnt isa then bitIndex + 1 else 31 - bitIndex + 1)) ;;
    let '(p, i) := if col =? bitIndex then (p - 1, i) else (p, i + (if bitIndex <? col then 1 else 0)) in
    ret (Eol (i - col) (p - col))
  else ret (Next p col).

(** Lines 205-621 and 634-710: one block of 32 characters at [es + i]; [first] says
    that the block starts a line.  After the loads the code has [i + 32] in its
    variable i. *)
Definition sse_block (B : bufs) (es : Z) (first : bool) (i p col : Z) : M blk :=
  dataA <- mm_loadu B (es + i) ;;
  dataB <- mm_loadu B (es + i + 16) ;;
  let cmpA := sse_cmp first dataA in
  let cmpB := sse_cmp false dataB in
  maskA <- (if first && negb (e_fast isa) then
              c <- load B (es + i) ;; ret (N.lor (v_movemask cmpA) (eolFirstMask c))
            else ret (v_movemask cmpA)) ;;
  let i := i + 32 in
  let maskB := v_movemask cmpB in
  let mask := N.lor (N.shiftl maskB 16) maskA in
  let '(maskBits, outputBytes, manyBitsSet) :=
    if e_popcnt isa then (Some (popcount mask), Some (popcount mask + 32), 1 <? popcount mask)
    else (None, None, negb (N.eqb (N.land mask (uint 32 (mask + 0xffffffff))) 0)) in
  if manyBitsSet then sse_slow B i p col dataA dataB cmpA cmpB maskA maskB outputBytes
  else if e_branch isa && N.eqb mask 0 then sse_noesc B i p col dataA dataB
  else sse_one B es i p col dataA dataB cmpA cmpB mask maskBits outputBytes.

End Kernel.

(** ** The loop around the blocks; also that of /repo/src/encoder_avx_base.h, with
    another block *)

(** Lines 177-179 and 624-626 (encoder_avx_base.h lines 115-117 and 436-438); the
    result is the new p. *)
Definition last_char (B : bufs) (c : byte) (p : Z) : M Z :=
  store32 B p (eolLastChar c) ;;; ret (p + 3 + eolLastChar c / 2 ^ 27).

(** Lines 174-203 (encoder_avx_base.h lines 111-143); [col] is relative to the last
    column.  Result is (i, p, col). *)
Definition enc_start (B : bufs) (line_size es i p col : Z) : M (Z * Z * Z) :=
  '(i, p, col) <-
    (if 0 <=? col then
       c <- load B (es + i) ;;
       if col =? 0 then p <- last_char B c p ;; ret (i + 1, p, - line_size + 1)
       else '(p, n) <- enc_eol B c p ;; ret (i + 1, p, n - line_size + 1)
     else ret (i, p, col)) ;;
  if col =? - line_size + 1 then '(i, p, n) <- enc_first B es i p ;; ret (i, p, col + n)
  else ret (i, p, col).

(** Lines 204-718 (encoder_avx_base.h lines 144-565); [width] is the number of characters in a block.  Result is
    (i, p, col). *)
Fixpoint enc_blocks (fuel : nat) (block : bool -> Z -> Z -> Z -> M blk) (width : Z)
    (B : bufs) (line_size es : Z) (first : bool) (i p col : Z) : M (Z * Z * Z) :=
  match fuel with
  | O => nofuel
  | S f =>
    r <- block first i p col ;;
    match r with
    | Next p col =>
      let i := i + width in
      if i <? 0 then enc_blocks f block width B line_size es false i p col
      else ret (i, p, col)
    | Eol i p =>
      c <- load B (es + i) ;;
      p <- last_char B c p ;;
      let col := - line_size + 1 in
      if 0 <=? i then ret (i + 1, p, col)
      else enc_blocks f block width B line_size es true (i + 1) p col
    end
  end.

(** Lines 152-723: [do_encode_sse].  INPUT_OFFSET is 64.  The result is (col, p,
    len) as [enc_kernel] wants it. *)
Definition do_encode_sse (isa : enc_isa) : enc_kernel := fun B line_size col srcEnd dest len =>
  if (len <=? 64) || (line_size <? 16) then ret (col, dest, len)
  else
    let i := - len + 64 in
    let es := srcEnd - 64 in
    '(i, p, col) <- enc_start B line_size es i dest (col - line_size + 1) ;;
    '(i, p, col) <- enc_blocks (Z.to_nat len) (sse_block isa B es) 32 B line_size es false i p col ;;
    ret (col + line_size - 1, p, - (i - 64)).

(** /repo/src/encoder_sse2.cc, encoder_ssse3.cc, encoder_avx.cc, and encoder_vbmi2.cc
    lines 20-28, with a GNU compiler. *)
Definition enc_sse2 (bsr0 : Z) : enc_isa :=
  {| e_level := 0x100; e_has_popcnt := false; e_has_lzcnt := false; e_tune := T_none; e_gnuc := true; e_bsr0 := bsr0 |}.
Definition enc_ssse3 (bsr0 : Z) : enc_isa :=
  {| e_level := 0x200; e_has_popcnt := false; e_has_lzcnt := false; e_tune := T_none; e_gnuc := true; e_bsr0 := bsr0 |}.
Definition enc_avx (bsr0 : Z) : enc_isa :=
  {| e_level := 0x301; e_has_popcnt := true; e_has_lzcnt := false; e_tune := T_none; e_gnuc := true; e_bsr0 := bsr0 |}.
Definition enc_vbmi2_128 (bsr0 : Z) : enc_isa :=
  {| e_level := 0x603; e_has_popcnt := true; e_has_lzcnt := true; e_tune := T_none; e_gnuc := true; e_bsr0 := bsr0 |}.

(** The same build with another result of BSR32(0); not in the code. *)
Definition with_bsr0 (isa : enc_isa) (z : Z) : enc_isa :=
  {| e_level := e_level isa; e_has_popcnt := e_has_popcnt isa; e_has_lzcnt := e_has_lzcnt isa; e_tune := e_tune isa; e_gnuc := e_gnuc isa; e_bsr0 := z |}.

(** The builds in which the compiler offers the instructions that use_isa promises, and in
    which the code for AVX512 finds the popcnt instruction and is not tuned for one of the
    processors that get other code (see [e_fast]); not in the code. *)
Record enc_ok (isa : enc_isa) : Prop := {
  ok_popcnt : Z.testbit (e_level isa) 0 = true -> e_has_popcnt isa = true;
  ok_lzcnt : Z.testbit (e_level isa) 1 = true -> e_has_lzcnt isa = true;
  ok_avx3 : 0x507 <= e_level isa -> Z.testbit (e_level isa) 0 = true /\ ~ In (e_tune isa) [T_atom; T_slm; T_btver1]
}.
