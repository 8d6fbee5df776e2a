(** Model of the 256-bit kernel of the decoders (/repo/src/decoder_avx2_base.h,
    /repo/src/decoder_avx2.cc, decoder_vbmi2.cc).  Line numbers are those of
    decoder_avx2_base.h.

    The compile-time choices are parameters.  Where the code spells out a variant
    for 32-bit builds that computes the same vector (lines 473-477), or one that is
    switched off (lines 119-141), there is only one here.  The unused upper half of
    zext128_256 is zero.  The table is a function; that it is allocated and filled
    first is not modelled. *)
From Verif Require Import Base DecSpec DecModel DecNode DecMaskSpec DecMaskModel DecVec DecSimdModel DecKernelModel
  DecSseModel EncSseModel EncAvxModel.

Record avxd_isa := {
  d_mask : bool;   (* useAVX3MaskCmp, lines 75-82 *)
  d_avx3 : bool;   (* use_isa >= ISA_LEVEL_AVX3, where this is tested by itself *)
  d_vbmi2 : bool;  (* use_isa >= ISA_LEVEL_VBMI2 *)
  d_amd64 : bool;  (* PLATFORM_AMD64 *)
  d_icl : bool     (* compiled for Ice Lake or its successors, lines 44-49 *)
}.

(** ** What the instructions do *)

Definition y_load (B : bufs) (a : Z) : M vec := load_aligned B a 32.
Definition y_set1_16 (w : Z) : vec := flat_map (fun _ => [u8 w; u8 (w / 256)]) (repeat tt 16).
(** zext128_256 *)
Definition y_zext (v : vec) : vec := v ++ repeat x00 16.
(** _mm256_broadcastq_epi64 of the 8 bytes of [x]. *)
Definition y_bcast64 (x : N) : vec :=
  let q := map (fun k => u8 (Z.of_N (N.shiftr x (N.of_nat k * 8)))) (seq 0 8) in q ++ q ++ q ++ q.

(** The low [n] bits of a mask. *)
Definition k_bits (n : nat) (k : N) : list bool := map (fun i => N.testbit k (N.of_nat i)) (seq 0 n).

(** _mm256_cmpeq_epi8_mask, _mm256_mask_cmpeq_epi8_mask, _mm256_mask_test_epi8_mask *)
Definition k_cmpeq (a b : vec) : N := mask_of (map2 beq a b).
Definition k_mask_cmpeq (k : N) (a b : vec) : N := N.land k (k_cmpeq a b).
Definition k_mask_test (k : N) (a b : vec) : N :=
  N.land k (mask_of (map2 (fun x y => negb (bz (b_and x y) =? 0)) a b)).
(** _mm256_mask_add_epi8, _mm256_mask_blend_epi8, _mm256_maskz_mov_epi8, _mm256_movm_epi8 *)
Definition y_blend (k : N) (a b : vec) : vec := map2 (fun ab c => if (c : bool) then snd ab else fst ab) (map2 pair a b) (k_bits 32 k).
Definition y_mask_add (src : vec) (k : N) (a b : vec) : vec := y_blend k src (v_add a b).
Definition y_maskz_mov (k : N) (a : vec) : vec := y_blend k (y_set1 0) a.
Definition y_movm (k : N) : vec := map bm (k_bits 32 k).
(** _mm256_shrdi_epi16: the lanes of [b] and [a] side by side, shifted right. *)
Definition y_shrdi16 (a b : vec) (n : Z) : vec := lanes16 (fun x y => (x + 65536 * y) / 2 ^ n) a b.
(** _mm256_alignr_epi32 *)
Definition y_alignr32 (a b : vec) (n : nat) : vec := firstn 32 (skipn (4 * n) (b ++ a)).
(** The bytes whose bit is set, one after the other. *)
Fixpoint k_compress (k : N) (a : vec) : vec :=
  match a with
  | [] => []
  | x :: a => (if N.odd k then [x] else []) ++ k_compress (N.div2 k) a
  end.
(** _mm256_maskz_compress_epi8 *)
Definition y_compress (k : N) (a : vec) : vec :=
  let r := k_compress k a in r ++ repeat x00 (32 - length r).

Section Kernel.
Variable isa : avxd_isa.

(** Lines 44-49: COMPRESS_STORE. *)
Definition compress_store (B : bufs) (p : Z) (k : N) (a : vec) : M unit :=
  store_n B p (if d_icl isa then k_compress k a else y_compress k a).

(** Lines 89-102: the characters to look at. *)
Definition avx_match (oData minMask : vec) : vec :=
  v_cmpeq oData (y_shuffle (fast_table ++ fast_table) (v_min oData minMask)).

(** ** Lines starting with a dot and end markers, without mask registers *)

(** Lines 204-211 and 220-316 as far as they apply: is there an end marker in this
    half, given the positions of CR LF and of CR LF '.'? *)
Definition avx_match_end (tmpData3 tmpData4 match2Eq match1Nl match2NlDot : vec) : vec :=
  let match3Cr := v_cmpeq (y_set1 13) tmpData3 in
  let match4Lf := v_cmpeq tmpData4 (y_set1 10) in
  let match4EqY := v_cmpeq16 tmpData4 (y_set1_16 0x793d) in
  let match3EqY := v_and match2Eq (v_cmpeq (y_set1 121) tmpData3) in
  let match4EqY := v_slli16 match4EqY 8 in
  let match4End := v_or (v_and match3Cr match4Lf) (v_or match4EqY (v_srli16 match3EqY 8)) in
  let match4End := v_and match4End match2NlDot in
  let match3End := v_and match3EqY match1Nl in
  v_or match4End match3End.

(** Lines 228-235: tmpData4A. *)
Definition avx_data4 (B : bufs) (src : Z) (oDataA oDataB : vec) : M vec :=
  if d_avx3 isa && d_amd64 isa then ret (y_alignr32 oDataB oDataA 1) else y_loadu B (src + 4).

(** Lines 114-429 without useAVX3MaskCmp; gives mask and minMask.  [inl] is the break of
    lines 317-323 and 413-417. *)
Definition avx_newlines (isRaw searchEnd : bool) (B : bufs) (src : Z) (mask maskEq : N)
    (oDataA oDataB minMask : vec) : M (Z + N * vec) :=
  if (isRaw || searchEnd) && negb (N.eqb mask maskEq) then
    tmpData2A <- y_loadu B (src + 2) ;;
    tmpData2B <- y_loadu B (src + 2 + 32) ;;
    let match2EqA := v_cmpeq (y_set1 61) tmpData2A in
    let match2EqB := v_cmpeq (y_set1 61) tmpData2B in
    let match2CrXDtA := v_and (v_cmpeq oDataA (y_set1 13)) (v_cmpeq tmpData2A (y_set1 46)) in
    let match2CrXDtB := v_and (v_cmpeq oDataB (y_set1 13)) (v_cmpeq tmpData2B (y_set1 46)) in
    let partialKillDotFound := negb (N.eqb (v_movemask (v_or match2CrXDtA match2CrXDtB)) 0) in
    if isRaw && partialKillDotFound then
      tmpData1A <- y_loadu B (src + 1) ;;
      tmpData1B <- y_loadu B (src + 1 + 32) ;;
      let match1LfA := v_cmpeq (y_set1 10) tmpData1A in
      let match1LfB := v_cmpeq (y_set1 10) tmpData1B in
      againA <- y_load B src ;;
      againB <- y_load B (src + 32) ;;
      let match1NlA := v_and match1LfA (v_cmpeq againA (y_set1 13)) in
      let match1NlB := v_and match1LfB (v_cmpeq againB (y_set1 13)) in
      let match2NlDotA := v_and match2CrXDtA match1NlA in
      let match2NlDotB := v_and match2CrXDtB match1NlB in
      stop <- (if searchEnd then
                 tmpData4A <- avx_data4 B src oDataA oDataB ;;
                 tmpData4B <- y_loadu B (src + 4 + 32) ;;
                 tmpData3A <- y_loadu B (src + 3) ;;
                 tmpData3B <- y_loadu B (src + 3 + 32) ;;
                 ret (negb (N.eqb (v_movemask (v_or
                        (avx_match_end tmpData3A tmpData4A match2EqA match1NlA match2NlDotA)
                        (avx_match_end tmpData3B tmpData4B match2EqB match1NlB match2NlDotB))) 0))
               else ret false) ;;
      if (stop : bool) then nm <- nextMask_fwd isRaw B src mask ;; ret (inl nm)
      else
        let mask := N.lor mask (N.shiftl (v_movemask match2NlDotA) 2) in
        let mask := N.lor mask (uint 64 (N.shiftl (v_movemask match2NlDotB) 34)) in
        let match2NlDotB := y_zext (v_srli (y_hi match2NlDotB) 14) in
        ret (inr (mask, v_subs (y_set1 46) match2NlDotB))
    else if searchEnd then
      tmpData3A <- y_loadu B (src + 3) ;;
      tmpData3B <- y_loadu B (src + 3 + 32) ;;
      let match3EqYA := v_and match2EqA (v_cmpeq (y_set1 121) tmpData3A) in
      let match3EqYB := v_and match2EqB (v_cmpeq (y_set1 121) tmpData3B) in
      let partialEndFound := negb (N.eqb (v_movemask (v_or match3EqYA match3EqYB)) 0) in
      stop <- (if partialEndFound then
                 tmpData1A <- y_loadu B (src + 1) ;;
                 tmpData1B <- y_loadu B (src + 1 + 32) ;;
                 let match1LfA := v_cmpeq (y_set1 10) tmpData1A in
                 let match1LfB := v_cmpeq (y_set1 10) tmpData1B in
                 againA <- y_load B src ;;
                 againB <- y_load B (src + 32) ;;
                 ret (negb (N.eqb (v_movemask (v_or
                        (v_and match3EqYA (v_and match1LfA (v_cmpeq againA (y_set1 13))))
                        (v_and match3EqYB (v_and match1LfB (v_cmpeq againB (y_set1 13)))))) 0))
               else ret false) ;;
      if (stop : bool) then nm <- nextMask_fwd isRaw B src mask ;; ret (inl nm)
      else ret (inr (mask, if isRaw then y_set1 46 else minMask))
    else ret (inr (mask, y_set1 46))
  else ret (inr (mask, minMask)).

(** ** The same with mask registers *)

(** Lines 244-301: is there an end marker in this half? *)
Definition avx3_match_end (tmpData3 tmpData4 : vec) (match2EqMask match1NlMask match2NlDotMask : N) : N :=
  let match3Cr := v_cmpeq (y_set1 13) tmpData3 in
  let match4Lf := v_cmpeq tmpData4 (y_set1 10) in
  let match4EqY := v_cmpeq16 tmpData4 (y_set1_16 0x793d) in
  let match3EqYMask := k_mask_cmpeq match2EqMask (y_set1 121) tmpData3 in
  let match34EqY :=
    if d_vbmi2 isa then y_shrdi16 (y_movm match3EqYMask) match4EqY 8
    else y_blend (N.shiftr match3EqYMask 1) (v_and match4EqY (y_set1_16 (-0xff))) (y_set1 (-1)) in
  let match4End := v_or match34EqY (v_and match3Cr match4Lf) in
  N.lor (k_mask_test match2NlDotMask match4End match4End) (N.land match3EqYMask match1NlMask).

(** Lines 114-429 with useAVX3MaskCmp. *)
Definition avx3_newlines (isRaw searchEnd : bool) (B : bufs) (src : Z) (mask maskEq : N)
    (oDataA oDataB minMask : vec) : M (Z + N * vec) :=
  if (isRaw || searchEnd) && negb (N.eqb mask maskEq) then
    tmpData2A <- y_loadu B (src + 2) ;;
    tmpData2B <- y_loadu B (src + 2 + 32) ;;
    let match2EqMaskA := k_cmpeq (y_set1 61) tmpData2A in
    let match2EqMaskB := k_cmpeq (y_set1 61) tmpData2B in
    let match0CrMaskA := k_cmpeq oDataA (y_set1 13) in
    let match0CrMaskB := k_cmpeq oDataB (y_set1 13) in
    let match2CrXDtMaskA := k_mask_cmpeq match0CrMaskA tmpData2A (y_set1 46) in
    let match2CrXDtMaskB := k_mask_cmpeq match0CrMaskB tmpData2B (y_set1 46) in
    let partialKillDotFound := negb (N.eqb (N.lor match2CrXDtMaskA match2CrXDtMaskB) 0) in
    if isRaw && partialKillDotFound then
      tmpData1A <- y_loadu B (src + 1) ;;
      let match1NlMaskA := k_mask_cmpeq match0CrMaskA (y_set1 10) tmpData1A in
      tmpData1B <- y_loadu B (src + 1 + 32) ;;
      let match1NlMaskB := k_mask_cmpeq match0CrMaskB (y_set1 10) tmpData1B in
      let match2NlDotMaskA := N.land match2CrXDtMaskA match1NlMaskA in
      let match2NlDotMaskB := N.land match2CrXDtMaskB match1NlMaskB in
      stop <- (if searchEnd then
                 tmpData4A <- avx_data4 B src oDataA oDataB ;;
                 tmpData4B <- y_loadu B (src + 4 + 32) ;;
                 tmpData3A <- y_loadu B (src + 3) ;;
                 tmpData3B <- y_loadu B (src + 3 + 32) ;;
                 ret (negb (N.eqb (N.lor
                        (avx3_match_end tmpData3A tmpData4A match2EqMaskA match1NlMaskA match2NlDotMaskA)
                        (avx3_match_end tmpData3B tmpData4B match2EqMaskB match1NlMaskB match2NlDotMaskB)) 0))
               else ret false) ;;
      if (stop : bool) then nm <- nextMask_fwd isRaw B src mask ;; ret (inl nm)
      else
        let mask := N.lor mask (N.shiftl match2NlDotMaskA 2) in
        let mask := N.lor mask (uint 64 (N.shiftl match2NlDotMaskB 34)) in
        ret (inr (mask, y_maskz_mov (unot 32 (N.shiftr match2NlDotMaskB 30)) (y_set1 46)))
    else if searchEnd then
      tmpData3A <- y_loadu B (src + 3) ;;
      let match3EqYMaskA := k_mask_cmpeq match2EqMaskA (y_set1 121) tmpData3A in
      tmpData3B <- y_loadu B (src + 3 + 32) ;;
      let match3EqYMaskB := k_mask_cmpeq match2EqMaskB (y_set1 121) tmpData3B in
      let partialEndFound := negb (N.eqb (N.lor match3EqYMaskA match3EqYMaskB) 0) in
      stop <- (if partialEndFound then
                 tmpData1A <- y_loadu B (src + 1) ;;
                 let match3LfEqYMaskA := k_mask_cmpeq match3EqYMaskA (y_set1 10) tmpData1A in
                 tmpData1B <- y_loadu B (src + 1 + 32) ;;
                 let match3LfEqYMaskB := k_mask_cmpeq match3EqYMaskB (y_set1 10) tmpData1B in
                 ret (negb (N.eqb (N.lor (k_mask_cmpeq match3LfEqYMaskA oDataA (y_set1 13))
                                         (k_mask_cmpeq match3LfEqYMaskB oDataB (y_set1 13))) 0))
               else ret false) ;;
      if (stop : bool) then nm <- nextMask_fwd isRaw B src mask ;; ret (inl nm)
      else ret (inr (mask, if isRaw then y_set1 46 else minMask))
    else ret (inr (mask, y_set1 46))
  else ret (inr (mask, minMask)).

(** ** Unescaping and storing *)

(** Lines 534-543: the offset to add to the first half of the next block. *)
Definition y_next_offset (escFirst : N) : vec :=
  if d_avx3 isa then y_mask_add (y_set1 (-42)) (uint 32 escFirst) (y_set1 (-42)) (y_set1 (-64))
  else v_xor (y_set1 (-42)) (y_zext (v_slli16 (v_cvtsi32 (Z.of_N escFirst)) 6)).

(** Lines 471-492: maskEq as vectors; [k] is the first byte taken. *)
Definition y_mask_vec (maskEq : N) (k : Z) : vec :=
  let idx := flat_map (fun j => repeat (u8 (k + j)) 8) [0; 1; 2; 3] in
  let bits := concat (repeat (map (fun j => u8 (2 ^ Z.of_nat j)) (seq 0 8)) 4) in
  v_cmpeq (v_and (y_shuffle (y_bcast64 maskEq) idx) bits) bits.

(** Lines 431-543: the decoded bytes of both halves, the mask of the characters to
    remove, escFirst and yencOffset for the next block.  [src] is the block, for the
    load of line 516. *)
Definition avx_unescape (B : bufs) (src : Z) (mask maskEq escFirst : N) (yencOffset oDataA oDataB cmpEqA : vec)
    : M (vec * vec * N * N * vec) :=
  let dataA := v_add oDataA yencOffset in
  let dataB := v_add oDataB (y_set1 (-42)) in
  let maskEqShift1 := uint 64 (uint 64 (N.shiftl maskEq 1) + escFirst) in
  if negb (N.eqb (N.land mask maskEqShift1) 0) then
    let maskEq := fix_eqMask 64 maskEq maskEqShift1 in
    let mask := N.land mask (unot 64 escFirst) in
    let escFirst := N.shiftr maskEq 63 in
    let maskEq := uint 64 (N.shiftl maskEq 1) in
    let mask := N.land mask (unot 64 maskEq) in
    if d_avx3 isa then
      ret (y_mask_add dataA (uint 32 maskEq) dataA (y_set1 (-64)),
           y_mask_add dataB (uint 32 (N.shiftr maskEq 32)) dataB (y_set1 (-64)), mask, escFirst, y_next_offset escFirst)
    else
      ret (v_add oDataA (v_blendv yencOffset (y_set1 (-42 - 64)) (y_mask_vec maskEq 0)),
           v_add oDataB (v_blendv (y_set1 (-42)) (y_set1 (-42 - 64)) (y_mask_vec maskEq 4)), mask, escFirst, y_next_offset escFirst)
  else
    let escFirst := N.shiftr maskEq 63 in
    if d_avx3 isa then
      ret (y_mask_add dataA (uint 32 (N.shiftl maskEq 1)) dataA (y_set1 (-64)),
           y_mask_add dataB (uint 32 (N.shiftr maskEq 31)) dataB (y_set1 (-64)), mask, escFirst, y_next_offset escFirst)
    else
      let cmpEqA := y_alignr cmpEqA (v_set1 61 ++ y_lo cmpEqA) 15 in
      prevB <- y_loadu B (src - 1 + 32) ;;
      let cmpEqB := v_cmpeq (y_set1 61) prevB in
      ret (v_add oDataA (v_blendv yencOffset (y_set1 (-42 - 64)) cmpEqA),
           v_add oDataB (v_blendv (y_set1 (-42)) (y_set1 (-42 - 64)) cmpEqB), mask, escFirst, y_next_offset escFirst).

(** Lines 545-601: remove the masked characters and store the rest; gives the new
    destination pointer.  The table compact has entries of 16 bytes: a byte offset
    of x & 0x7fff0 is entry (x & 0x7fff0) >> 4. *)
Definition avx_compact_store (B : bufs) (p : Z) (mask : N) (dataA dataB : vec) : M Z :=
  if d_vbmi2 isa then
    compress_store B p (unot 32 mask) dataA ;;;
    let p := p - popcount (N.land mask 0xffffffff) in
    compress_store B (p + 32) (unot 32 (N.shiftr mask 32)) dataB ;;;
    ret (p + (64 - popcount (uint 32 (N.shiftr mask 32))))
  else
    let shuf := compact_lut (N.land mask 0x7fff) ++ compact_lut (N.shiftr (N.land (N.shiftr mask 12) 0x7fff0) 4) in
    let dataA := y_shuffle dataA shuf in
    store_n B p (y_lo dataA) ;;;
    let p := p - popcount (N.land mask 0xffff) in
    store_n B (p + 16) (y_hi dataA) ;;;
    let p := p - popcount (N.land mask 0xffff0000) in
    if d_amd64 isa then
      let mask := N.shiftr mask 28 in
      let shuf := compact_lut (N.shiftr (N.land mask 0x7fff0) 4) ++ compact_lut (N.shiftr (N.land (N.shiftr mask 16) 0x7fff0) 4) in
      let dataB := y_shuffle dataB shuf in
      store_n B (p + 32) (y_lo dataB) ;;;
      let p := p - popcount (N.land mask 0xffff0) in
      store_n B (p + 48) (y_hi dataB) ;;;
      let p := p - popcount (uint 32 (N.shiftr mask 20)) in
      ret (p + 64)
    else
      let mask := N.shiftr mask 32 in
      let shuf := compact_lut (N.land mask 0x7fff) ++ compact_lut (N.shiftr (N.land (N.shiftr mask 12) 0x7fff0) 4) in
      let dataB := y_shuffle dataB shuf in
      store_n B (p + 32) (y_lo dataB) ;;;
      let p := p - popcount (N.land mask 0xffff) in
      store_n B (p + 48) (y_hi dataB) ;;;
      let p := p - popcount (N.land mask 0xffff0000) in
      ret (p + 64).

(** The variables of the loop: p, escFirst, yencOffset, minMask. *)
Definition avx_vars := (Z * N * vec * vec)%type.

(** Lines 85-613: one block of 64 characters. *)
Definition avx_block (isRaw searchEnd : bool) (B : bufs) (src : Z) (i : Z) (st : avx_vars)
    : M (Z + avx_vars) :=
  let '(p, escFirst, yencOffset, minMask) := st in
  oDataA <- y_load B (src + i) ;;
  oDataB <- y_load B (src + i + 32) ;;
  let cmpA := avx_match oDataA minMask in
  let cmpB := avx_match oDataB (y_set1 46) in
  let mask := N.lor (N.shiftl (v_movemask cmpB) 32) (v_movemask cmpA) in
  if negb (N.eqb mask 0) then
    let cmpEqA := v_cmpeq oDataA (y_set1 61) in
    let cmpEqB := v_cmpeq oDataB (y_set1 61) in
    let maskEq := N.lor (N.shiftl (v_movemask cmpEqB) 32) (v_movemask cmpEqA) in
    x <- (if d_mask isa then avx3_newlines else avx_newlines) isRaw searchEnd B (src + i) mask maskEq oDataA oDataB minMask ;;
    match x with
    | inl nextMask => ret (inl nextMask)
    | inr (mask, minMask) =>
      '(dataA, dataB, mask, escFirst, yencOffset) <-
        avx_unescape B (src + i) mask maskEq escFirst yencOffset oDataA oDataB cmpEqA ;;
      p <- avx_compact_store B p mask dataA dataB ;;
      ret (inr (p, escFirst, yencOffset, minMask))
    end
  else
    store_n B p (v_add oDataA yencOffset) ;;;
    store_n B (p + 32) (v_add oDataB (y_set1 (-42))) ;;;
    ret (inr (p + 64, 0%N, y_set1 (-42), minMask)).

(** Lines 53-616: [do_decode_avx2]. *)
Definition do_decode_avx2 (isRaw searchEnd : bool) : kernel :=
  fun B src len p escFirst nextMask =>
    let yencOffset := if negb (escFirst =? 0) then u8 (-42 - 64) :: repeat (u8 (-42)) 31 else y_set1 (-42) in
    let minMask :=
      if negb (nextMask =? 0) && isRaw then
        u8 (if nextMask =? 1 then 0 else 46) :: u8 (if nextMask =? 2 then 0 else 46) :: repeat (u8 46) 30
      else y_set1 46 in
    nextMask <- nextMask_back isRaw B src len nextMask ;;
    '(stop, (p, escFirst, _, _)) <-
      block_loop (Z.to_nat len) 64 (avx_block isRaw searchEnd B src) (- len)
        (p, Z.to_N escFirst, yencOffset, minMask) ;;
    match stop with
    | Some (i, nextMask) => ret (len + i, p, Z.of_N escFirst, nextMask)
    | None => ret (len, p, Z.of_N escFirst, nextMask)
    end.
End Kernel.

(** The decoders of /repo/src/decoder_avx2.cc lines 9-12 and
    /repo/src/decoder_vbmi2.cc lines 13-18. *)
Definition avx_decoders (isa : avxd_isa) : decoders :=
  simd 64 (do_decode_avx2 isa false false) (do_decode_avx2 isa true false) (do_decode_avx2 isa true true).

(** decoder_avx2.cc, decoder_vbmi2.cc, and /repo/src/decoder.cc lines 352-363 when
    compiled for a processor with AVX512BW and AVX512VL only (common.h lines
    260-285), all for 64 bits. *)
Definition isa_avx2 : avxd_isa := {| d_mask := false; d_avx3 := false; d_vbmi2 := false; d_amd64 := true; d_icl := false |}.
Definition isa_vbmi2 : avxd_isa := {| d_mask := true; d_avx3 := true; d_vbmi2 := true; d_amd64 := true; d_icl := false |}.
Definition isa_avx3 : avxd_isa := {| d_mask := true; d_avx3 := true; d_vbmi2 := false; d_amd64 := true; d_icl := false |}.
