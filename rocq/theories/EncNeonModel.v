(** Model of the NEON kernel of the encoder (/repo/src/encoder_neon.cc), for ARMv7 and
    AArch64.

    [clz_n] is modelled by what the CLZ instruction gives for 0; a compiler for which
    lines 30-35 or 42-45 leave the test for 0 out is assumed to emit that instruction. *)
From Verif Require Import Base EncModel DecMaskSpec DecMaskModel DecVec DecSseModel EncSseModel EncLoopModel.

(** ** Instructions; nothing here models code of /repo *)

(** vext *)
Definition v_ext (a b : vec) (n : nat) : vec := firstn (length a) (skipn n (a ++ b)).
(** vbsl *)
Definition b_bsl (m a b : byte) : byte := b_or (b_and m a) (b_andnot m b).
Definition v_bsl (m a b : vec) : vec := map2 (fun m ab => b_bsl m (fst ab) (snd ab)) m (map2 pair a b).
(** vqtbx1, vqtbx2, vtbx1: an index outside the table leaves the byte as it is. *)
Definition v_tbx (a table idx : vec) : vec :=
  map2 (fun x i => if bz i <? Z.of_nat (length table) then nth (Z.to_nat (bz i)) table x00 else x) a idx.
(** vhadd on signed bytes *)
Definition v_hadd : vec -> vec -> vec := map2 (fun a b => u8 (Z.shiftr (b_signed a + b_signed b) 1)).
(** vpadd on bytes *)
Fixpoint v_padd (v : vec) : vec :=
  match v with a :: b :: t => b_add a b :: v_padd t | _ => [] end.
(** vpadd on 16-bit lanes *)
Fixpoint v_padd16 (v : vec) : vec :=
  match v with
  | a :: b :: c :: d :: t =>
    let s := bz a + 256 * bz b + (bz c + 256 * bz d) in u8 s :: u8 (s / 256) :: v_padd16 t
  | _ => []
  end.
(** vbic *)
Definition v_bic (a b : vec) : vec := map2 (fun x y => b_andnot y x) a b.
(** vcge and vcgt on unsigned bytes *)
Definition v_cge : vec -> vec -> vec := map2 (fun a b => bm (bz b <=? bz a)).
Definition v_cgt : vec -> vec -> vec := map2 (fun a b => bm (bz b <? bz a)).
(** vcnt *)
Definition v_cnt : vec -> vec := map (fun b => u8 (popcount (Z.to_N (bz b)))).
(** Reading a lane made of the bytes given, and the bytes of a 32-bit lane. *)
Fixpoint lane (l : vec) : N :=
  match l with [] => 0 | b :: t => Z.to_N (bz b) + 256 * lane t end%N.
Definition bytes4 (n : N) : vec := map (fun k => u8 (Z.of_N (N.shiftr n k))) [0; 8; 16; 24]%N.
(** A left shift of a 32-bit int that must not overflow. *)
Definition shl_int (x : N) (n : Z) : M N :=
  if (0 <=? n) && (n <? 32) && (Z.of_N (N.shiftl x (Z.to_N n)) <? 2 ^ 31) then ret (N.shiftl x (Z.to_N n)) else ub.

(** ** Lookup tables: lines 528-546 *)

(** The entries of shufLUT[i] written by lines 533-541, and the others. *)
Fixpoint neon_fill (n : nat) (j : Z) (k : N) : vec :=
  match n with
  | O => []
  | S n' => (if N.eqb (N.land k 1) 0 then [] else [EQS]) ++ u8 j :: neon_fill n' (j + 1) (N.shiftr k 1)
  end.
Definition shufLUT (i : N) : vec :=
  let res := neon_fill 8 0 i in
  res ++ map (fun x => u8 (Z.of_nat x + 0x80)) (seq (length res) (16 - length res)).

(** expandLUT[i]; [j] is j+p of the code. *)
Fixpoint neon_expand_fill (n : nat) (j : N) (k : N) : N :=
  match n with
  | O => 0
  | S n' =>
    if N.eqb (N.land k 1) 0 then neon_expand_fill n' (N.succ j) (N.shiftr k 1)
    else N.lor (N.shiftl 1 j) (neon_expand_fill n' (N.succ (N.succ j)) (N.shiftr k 1))
  end%N.
Definition expandLUT (i : N) : N := uint 16 (neon_expand_fill 8 0 i).

(** ** The kernel *)

Section Kernel.
Variable v8 : bool.    (* __aarch64__ *)

(** Lines 18-53. *)
Definition mask_bits : Z := if v8 then 64 else 32.
Definition clz_n (v : N) : Z := if N.eqb v 0 then mask_bits else mask_bits - 1 - Z.of_N (N.log2 v).

(** Lines 312-357 for one vector (also lines 71-77 and 79, 91-100 and 116): the
    critical bytes, and the characters after addition. *)
Definition neon_cmp (data : vec) : vec :=
  if v8 then
    v_tbx (v_cmpeq data (v_set1 (61 - 42))) (map u8 [255; 0; 0; 0; 0; 0; 0; 0; 0; 0; 255; 0; 0; 255; 0; 0])
      (v_add data (v_set1 42))
  else
    v_or (v_or (v_cmpeq data (v_set1 (-42))) (v_cmpeq data (v_set1 (61 - 42))))
         (v_or (v_cmpeq data (v_set1 (13 - 42))) (v_cmpeq data (v_set1 (10 - 42)))).
Definition neon_data (data : vec) : vec :=
  if v8 then v_or (v_add data (v_set1 42)) (v_and (neon_cmp data) (v_set1 64))
  else v_sub data (v_bsl (neon_cmp data) (v_set1 (-64 - 42)) (v_set1 (-42))).

(** Lines 361-366, 376-385 (also 120-125, 151-160): the masks of both vectors,
    brought together; AArch64 has 8 bytes with 4 characters each, ARMv7 4 bytes with
    8 each. *)
Definition bit_select : vec := map u8 [1; 2; 4; 8; 16; 32; 64; 128; 1; 2; 4; 8; 16; 32; 64; 128].
Definition neon_merge (cmpA cmpB : vec) : vec :=
  let a := v_and cmpA bit_select in
  let b := v_and cmpB bit_select in
  if v8 then
    let m := v_padd (a ++ b) in v_padd (m ++ m)
  else
    let c := v_padd (v_padd (firstn 8 a ++ skipn 8 a) ++ v_padd (firstn 8 b ++ skipn 8 b)) in v_padd (c ++ c).
Definition neon_mask (merged : vec) : N := lane (firstn (if v8 then 8 else 4) merged).

(** Lines 367 and 386 (also 142 and 177). *)
Definition neon_many (mask : N) : bool :=
  negb (N.eqb (N.land mask (uint (Z.to_N mask_bits) (mask + (2 ^ Z.to_N mask_bits - 1)))) 0).

(** Lines 368-373 and 387-390 (also 143-148 and 178-181): m1, m2, m3, m4 and
    cmpPacked. *)
Definition neon_quarters (mask : N) (merged : vec) : N * N * N * N * vec :=
  if v8 then
    let mask := N.lor mask (N.shiftr mask 8) in
    (N.land mask 0xff, N.land (N.shiftr mask 16) 0xff, N.land (N.shiftr mask 32) 0xff, N.land (N.shiftr mask 48) 0xff,
     v_padd (firstn 8 merged ++ firstn 8 merged))
  else
    (N.land mask 0xff, N.land (N.shiftr mask 8) 0xff, N.land (N.shiftr mask 16) 0xff, N.land (N.shiftr mask 24) 0xff, merged).

(** Lines 393-422 (also 185-211): the halves of one vector, with '=' inserted. *)
Definition neon_halves (data : vec) (m1 m2 : N) : vec * vec :=
  let shuf1 := shufLUT m1 in
  let shuf2 := shufLUT m2 in
  if v8 then (v_tbx shuf1 data shuf1, v_tbx shuf2 (v_ext data data 8) shuf2)
  else
    let half d s := v_tbx (firstn 8 s) d (firstn 8 s) ++ v_tbx (skipn 8 s) d (skipn 8 s) in
    (half (firstn 8 data) shuf1, half (skipn 8 data) shuf2).

(** Lines 425-433 (also 214-222): shuf1Len, shuf2Len, shuf3Len, shuf4Len and
    shufTotalLen; [plus] is the constant added. *)
Definition neon_lens (packed : vec) (plus : N) : Z * Z * Z * Z * Z :=
  let counts := uint 32 (lane (firstn 4 (v_cnt packed)) + plus) in
  (Z.of_N (N.land counts 0xff), Z.of_N (N.land (N.shiftr counts 8) 0xff), Z.of_N (N.land (N.shiftr counts 16) 0xff),
   Z.of_N (N.land (N.shiftr counts 24) 0xff), Z.of_N (N.shiftr (uint 32 (counts * 0x1010101)) 24)).

(** Lines 447-468; [i], [p] and [col] are those after the block. *)
Definition neon_slow_eol (i p col : Z) (m1 m2 m3 m4 : N) (shuf1Len shuf3Len shuf4Len total : Z) : M blk :=
  let len2ndHalf := shuf3Len + shuf4Len in
  let shiftAmt := len2ndHalf - col - 1 in
  '(eqMaskHalf, i) <-
    (if shiftAmt <? 0 then
       hi <- shl_int (expandLUT m2) shuf1Len ;;
       h <- shr32 (N.lor hi (expandLUT m1)) (total - col - 1) ;;
       ret (h, i + len2ndHalf - 16)
     else
       hi <- shl_int (expandLUT m4) shuf3Len ;;
       h <- shr32 (N.lor hi (expandLUT m3)) shiftAmt ;;
       ret (h, i)) ;;
  let revert := col + Z.of_N (N.land eqMaskHalf 1) in
  let cnt := uint 32 (lane (v_cnt (bytes4 eqMaskHalf)) * 0x1010101) in
  let i := i + Z.of_N (N.shiftr cnt 24) in
  ret (Eol (i - revert) (p - revert)).

(** Lines 368-470. *)
Definition neon_slow (B : bufs) (i p col : Z) (dataA dataB : vec) (mask : N) (merged : vec) : M blk :=
  let '(m1, m2, m3, m4, packed) := neon_quarters mask merged in
  let '(data1A, data2A) := neon_halves dataA m1 m2 in
  let '(data1B, data2B) := neon_halves dataB m3 m4 in
  let '(shuf1Len, shuf2Len, shuf3Len, shuf4Len, total) := neon_lens packed 0x08080808 in
  store_n B p data1A ;;; let p := p + shuf1Len in
  store_n B p data2A ;;; let p := p + shuf2Len in
  store_n B p data1B ;;; let p := p + shuf3Len in
  store_n B p data2B ;;; let p := p + shuf4Len in
  let col := col + total in
  if 0 <=? col then neon_slow_eol i p col m1 m2 m3 m4 shuf1Len shuf3Len shuf4Len total
  else ret (Next p col).

(** Lines 475-481 (also 237-243). *)
Definition blend_tables : vec * vec :=
  if v8 then (map u8 [63; 62; 61; 60; 51; 50; 49; 48; 47; 46; 45; 44; 35; 34; 33; 32], map u8 [31; 30; 29; 28; 19; 18; 17; 16; 15; 14; 13; 12; 3; 2; 1; 0])
  else (map u8 [31; 30; 29; 28; 27; 26; 25; 24; 23; 22; 21; 20; 19; 18; 17; 16], map u8 [15; 14; 13; 12; 11; 10; 9; 8; 7; 6; 5; 4; 3; 2; 1; 0]).

(** Line 474 (also 236). *)
Definition neon_vclz (bitIndex : Z) : vec := v_set1 (Z.land bitIndex (Z.lnot mask_bits)).

(** Lines 482-487. *)
Definition neon_one (bitIndex : Z) (cmpA cmpB dataA dataB : vec) : vec * vec :=
  let blendA := v_cge (fst blend_tables) (neon_vclz bitIndex) in
  let blendB := v_cge (snd blend_tables) (neon_vclz bitIndex) in
  let dataAShifted := v_ext dataA dataA 15 in
  let dataBShifted := v_ext dataA dataB 15 in
  (v_bsl blendA (v_bsl cmpA (v_set1 61) dataA) dataAShifted, v_bsl blendB (v_bsl cmpB (v_set1 61) dataB) dataBShifted).

(** Lines 472-510. *)
Definition neon_fast (B : bufs) (i p col : Z) (cmpA cmpB dataA dataB : vec) (mask : N) : M blk :=
  let bitIndex := clz_n mask in
  let '(outA, outB) := neon_one bitIndex cmpA cmpB dataA dataB in
  store_n B p (outA ++ outB) ;;;
  let p := p + 32 in
  store B p (nth 15 dataB x00) ;;;
  let n := if N.eqb mask 0 then 0 else 1 in
  let p := p + n in
  let col := col + n + 32 in
  if 0 <=? col then
    let bitIndex := if v8 then bitIndex - Z.shiftl (Z.shiftr (bitIndex + 4) 4) 3 else bitIndex in
    let bitIndex := bitIndex + 1 in
    let '(p, i) := if col =? bitIndex then (p - 1, i) else (p, i + if bitIndex <? col then 1 else 0) in
    ret (Eol (i - col) (p - col))
  else ret (Next p col).

(** Lines 307-515: one block. *)
Definition neon_block (B : bufs) (es i p col : Z) : M blk :=
  dataA <- load_n B (es + i) 16 ;;
  dataB <- load_n B (es + i + 16) 16 ;;
  let i := i + 32 in
  let cmpA := neon_cmp dataA in
  let cmpB := neon_cmp dataB in
  let dataA := neon_data dataA in
  let dataB := neon_data dataB in
  let merged := neon_merge cmpA cmpB in
  let mask := neon_mask merged in
  if neon_many mask then neon_slow B i p col dataA dataB mask merged
  else neon_fast B i p col cmpA cmpB dataA dataB mask.

(** Lines 63-69, 78 and 81-90, 102-115: the first vector of the end-of-line code. *)
Definition eol_table1 : vec := map u8 [-42; -128; -128; -42; 9 - 42; 10 - 42; 13 - 42; 9 - 42; 10 - 42; 13 - 42; -128; -128; -42; -128; -128; -128].
Definition eol_table2 : vec := map u8 [32 - 42; 10 - 42; 13 - 42; 32 - 42; -128; -128; -128; -128; -128; -128; 46 - 42; -128; -128; -128; 61 - 42; -128].
Definition eol_cmpA (data : vec) : vec :=
  if v8 then
    v_cmpeq (v_tbx (v_set1 (61 - 42)) (eol_table1 ++ eol_table2)
      (v_hadd data (map u8 [42; 48; 66; 66; 66; 66; 66; 66; 66; 66; 66; 66; 66; 66; 66; 66]))) data
  else
    let firstTwoChars := concat (repeat (firstn 2 data) 4) in
    let cmpNl := v_cmpeq firstTwoChars (map u8 [32 + 214; 32 + 214; 9 + 214; 9 + 214; 13 + 214; 46 - 42; 61 - 42; 61 - 42]) in
    let cmpNl2 := v_padd16 (cmpNl ++ repeat x00 8) in
    let cmpNl2 := v_padd16 (cmpNl2 ++ repeat x00 8) in
    let cmpA := neon_cmp data in
    v_or (firstn 8 cmpA) cmpNl2 ++ skipn 8 cmpA.
Definition eol_dataA (data : vec) : vec :=
  if v8 then v_add data (v_bsl (eol_cmpA data) (v_set1 (64 + 42)) (v_set1 42))
  else v_sub data (v_bsl (eol_cmpA data) (v_set1 (-64 - 42)) (v_set1 (-42))).

(** Lines 143-232 without the line break; result is (p, col). *)
Definition eol_slow (B : bufs) (line_size p : Z) (dataA dataB : vec) (mask : N) (merged : vec) : M (Z * Z) :=
  let '(m1, m2, m3, m4, packed) := neon_quarters mask merged in
  let '(data1A, data2A) := neon_halves dataA m1 m2 in
  let '(data1B, data2B) := neon_halves dataB m3 m4 in
  let data1A := v_ext data1A data1A 1 in
  let '(shuf1Len, shuf2Len, shuf3Len, shuf4Len, total) := neon_lens packed 0x08080807 in
  store_n B p data1A ;;; let p := p + shuf1Len in
  store_n B p data2A ;;; let p := p + shuf2Len in
  store_n B p data1B ;;; let p := p + shuf3Len in
  store_n B p data2B ;;; let p := p + shuf4Len in
  ret (p, total + 1 + (- line_size + 32) - 32).

(** Lines 235-254; result is (p, col). *)
Definition eol_one (bitIndex : Z) (cmpA cmpB dataA dataB : vec) : vec * vec :=
  let blendA := v_cgt (fst blend_tables) (neon_vclz bitIndex) in
  let blendB := v_cgt (snd blend_tables) (neon_vclz bitIndex) in
  let dataAShifted := v_bsl cmpA (v_set1 61) dataA in
  let dataBShifted := v_bsl cmpB (v_set1 61) dataB in
  let dataAShifted := v_ext dataAShifted dataBShifted 1 in
  let dataBShifted := v_ext dataBShifted dataBShifted 1 in
  (v_bsl blendA dataAShifted dataA, v_bsl blendB dataBShifted dataB).
Definition eol_fast (B : bufs) (line_size p : Z) (cmpA cmpB dataA dataB : vec) (mask : N) : M (Z * Z) :=
  let '(outA, outB) := eol_one (clz_n mask) cmpA cmpB dataA dataB in
  store_n B p (outA ++ outB) ;;;
  let n := if N.eqb mask 0 then 0 else 1 in
  ret (p + 31 + n, - line_size + 32 + n).

(** Lines 58-259: encode_eol_handle_pre. *)
Definition neon_eol (B : bufs) (line_size es i p : Z) : M (Z * Z * Z) :=
  oDataA <- load_n B (es + i) 16 ;;
  oDataB <- load_n B (es + i + 16) 16 ;;
  let cmpA := eol_cmpA oDataA in
  let cmpB := neon_cmp oDataB in
  let dataA := eol_dataA oDataA in
  let dataB := neon_data oDataB in
  let merged := neon_merge cmpA cmpB in
  let mask := neon_mask merged in
  let firstChar := bz (nth 0 dataA x00) in
  '(p, mask, merged) <-
    (if N.eqb (N.land mask 1) 1 then
       store32 B p (firstChar * 256 + 0x0a0d003d) ;;;
       ret (p + 4, N.lxor mask 1, v_bic merged (u8 1 :: repeat x00 15))
     else
       store32 B p (firstChar + 0x0a0d00) ;;;
       ret (p + 3, mask, merged)) ;;
  '(p, col) <-
    (if neon_many mask then eol_slow B line_size p dataA dataB mask merged
     else eol_fast B line_size p cmpA cmpB dataA dataB mask) ;;
  ret (i + 32, p, col).

(** Lines 264-521: [do_encode_neon].  INPUT_OFFSET is 63. *)
Definition do_encode_neon : enc_kernel := fun B line_size col srcEnd dest len =>
  if (len <=? 63) || (line_size <? 64) then ret (col, dest, len)
  else
    let i := - len + 63 in
    let es := srcEnd - 63 in
    '(i, p, col) <- enc_begin B line_size es (neon_eol B line_size es) i dest (col - line_size + 1) ;;
    '(i, p, col) <- enc_loop (Z.to_nat len) (neon_block B es) (neon_eol B line_size es) 32 i p col ;;
    ret (col + line_size - 1, p, - (i - 63)).

End Kernel.
