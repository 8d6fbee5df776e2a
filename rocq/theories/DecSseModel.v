(** Model of the SSE kernel of the decoders (/repo/src/decoder_sse_base.h,
    /repo/src/decoder_sse2.cc, decoder_ssse3.cc, decoder_avx.cc).

    The compile-time choices are parameters.  The AVX512 variants ([useAVX3MaskCmp],
    [use_isa >= ISA_LEVEL_AVX3]) are in DecEvexModel.v. *)
From Verif Require Import Base DecSpec DecModel DecNode DecMaskSpec DecMaskModel DecVec DecSimdModel DecKernelModel.

(** Lines 108-117 and the tests on [use_isa]. *)
Record sse_isa := {
  fast_match : bool;   (* _USING_FAST_MATCH *)
  blend_add : bool;    (* _USING_BLEND_ADD *)
  has_ssse3 : bool;    (* use_isa >= ISA_LEVEL_SSSE3 *)
  has_popcnt : bool;   (* use_isa & ISA_FEATURE_POPCNT, not __tune_btver1__ *)
  use_alignr : bool;   (* use_isa >= ISA_LEVEL_SSSE3, not __tune_btver1__ *)
  has_lzcnt : bool     (* use_isa & ISA_FEATURE_LZCNT *)
}.

(** ** Lookup tables *)

(** /repo/src/decoder_sse2.cc lines 9-11: BitsSetTable256inv. *)
Definition bits_set_inv (i : N) : Z :=
  8 - Z.of_N (N.land i 1 + N.land (N.shiftr i 1) 1 + N.land (N.shiftr i 2) 1 + N.land (N.shiftr i 3) 1
              + N.land (N.shiftr i 4) 1 + N.land (N.shiftr i 5) 1 + N.land (N.shiftr i 6) 1 + N.land (N.shiftr i 7) 1)%N.

(** /repo/src/decoder_sse2.cc lines 13-15: eqAdd, an array of uint64_t, as the 8
    bytes each entry occupies. *)
Definition eq_add (i : N) : vec :=
  let X k := N.shiftl (if N.eqb (N.land i (N.shiftl 1 k)) 0 then 0%N else 192%N) (k * 8) in
  let w := (N.lor (N.lor (N.lor (N.lor (N.lor (N.lor (N.lor (X 0) (X 1)) (X 2)) (X 3)) (X 4)) (X 5)) (X 6)) (X 7))%N in
  map (fun k => u8 (Z.of_N (N.shiftr w (N.of_nat k * 8)))) (seq 0 8).

(** /repo/src/decoder_sse2.cc lines 17-24: unshufMask, 32 entries; the upper ones
    are for lzcnt. *)
Definition unshuf_mask (i : nat) : vec :=
  map (fun j => if Nat.ltb j (if Nat.leb 16 i then 31 - i else i) then xff else x00) (seq 0 16).

(** /repo/src/decoder.cc lines 380-399: one entry of the table built by
    decoder_init_lut, tableSize = 16. *)
Fixpoint lut_fill (n : nat) (j : Z) (k : N) : vec :=
  match n with
  | O => []
  | S n' => (if N.eqb (N.land k 1) 0 then [u8 j] else []) ++ lut_fill n' (j + 1) (N.shiftr k 1)
  end.
Definition compact_lut (i : N) : vec :=
  let res := lut_fill 16 0 i in res ++ repeat x80 (16 - length res).

(** ** sse2_compact_vect: lines 73-95.  The loop runs once per bit set, at most 16
    times. *)

(** Lines 76-87: bitIndex and the mask without that bit; [mask] is not zero.  The
    instruction lzcnt counts the zeros above the highest bit, bsr gives its number. *)
Definition top_bit (lzcnt : bool) (mask : N) : N * N :=
  if lzcnt then
    let bitIndex := (31 - N.log2 mask)%N in (bitIndex, N.land mask (N.shiftr 0x7fffffff bitIndex))
  else
    let bitIndex := N.log2 mask in (bitIndex, N.lxor mask (N.shiftl 1 bitIndex)).

Fixpoint compact_vect (lzcnt : bool) (fuel : nat) (mask : N) (data : vec) : vec :=
  match fuel with
  | O => data
  | S f =>
    if N.eqb mask 0 then data else
    let '(bitIndex, mask) := top_bit lzcnt mask in
    let mergeMask := unshuf_mask (N.to_nat bitIndex) in
    compact_vect lzcnt f mask (v_or (v_and mergeMask data) (v_andnot mergeMask (v_srli data 1)))
  end.

Section Kernel.
Variable isa : sse_isa.

Definition fast_table : vec :=
  [DOT; xff; xff; xff; xff; xff; xff; xff; xff; xff; LF; xff; xff; CR; EQS; xff].

(** Lines 142-174: the characters to look at. *)
Definition sse_match (oDataA oDataB lfCompare minMask : vec) : vec * vec :=
  if fast_match isa then
    (v_cmpeq oDataA (v_shuffle fast_table (v_min oDataA minMask)),
     v_cmpeq oDataB (v_shuffle fast_table (v_min oDataB (v_set1 46))))
  else
    (v_or (v_or (v_cmpeq oDataA lfCompare) (v_cmpeq oDataA (v_set1 13))) (v_cmpeq oDataA (v_set1 61)),
     v_or (v_or (v_cmpeq oDataB (v_set1 10)) (v_cmpeq oDataB (v_set1 13))) (v_cmpeq oDataB (v_set1 61))).

(** The variables lines 201-505 update: mask, lfCompare, minMask. *)
Definition nl_vars := (N * vec * vec)%type.

(** Lines 487-503: no line starting with a dot was found. *)
Definition reset_compare (mask : N) (lfCompare minMask : vec) : nl_vars :=
  if fast_match isa then (mask, lfCompare, v_set1 46) else (mask, v_set1 10, minMask).

(** Lines 307-368: is there an end marker, given the positions of CR LF and of
    CR LF '.'? *)
Definition sse_match_end (tmpData3A tmpData3B tmpData4A tmpData4B match2EqA match2EqB
    match1NlA match1NlB match2NlDotA match2NlDotB : vec) : bool :=
  let match3CrA := v_cmpeq (v_set1 13) tmpData3A in
  let match3CrB := v_cmpeq (v_set1 13) tmpData3B in
  let match4LfA := v_cmpeq tmpData4A (v_set1 10) in
  let match4LfB := v_cmpeq tmpData4B (v_set1 10) in
  let match4EqYA := v_cmpeq16 tmpData4A (v_set1_16 0x793d) in
  let match4EqYB := v_cmpeq16 tmpData4B (v_set1_16 0x793d) in
  let match3EqYA := v_and match2EqA (v_cmpeq (v_set1 121) tmpData3A) in
  let match3EqYB := v_and match2EqB (v_cmpeq (v_set1 121) tmpData3B) in
  let match4EqYA := v_slli16 match4EqYA 8 in
  let match4EqYB := v_slli16 match4EqYB 8 in
  let match4EndA := v_or (v_and match3CrA match4LfA) (v_or match4EqYA (v_srli16 match3EqYA 8)) in
  let match4EndB := v_or (v_and match3CrB match4LfB) (v_or match4EqYB (v_srli16 match3EqYB 8)) in
  let match4EndA := v_and match4EndA match2NlDotA in
  let match4EndB := v_and match4EndB match2NlDotB in
  let match3EndA := v_and match3EqYA match1NlA in
  let match3EndB := v_and match3EqYB match1NlB in
  negb (N.eqb (v_movemask (v_or (v_or match4EndA match3EndA) (v_or match4EndB match3EndB))) 0).

(** Lines 201-505: lines starting with a dot, and end markers.  [inl] is the
    break of lines 370-377 and 482-487. *)
Definition sse_newlines (isRaw searchEnd : bool) (B : bufs) (src : Z) (mask maskEq : N)
    (oDataA oDataB cmpEqA cmpEqB lfCompare minMask : vec) : M (Z + nl_vars) :=
  if (isRaw || searchEnd) && negb (N.eqb mask maskEq) then
    tmpData2A <- mm_loadu B (src + 2) ;;
    tmpData2B <- mm_loadu B (src + 2 + 16) ;;
    let match2EqA := if use_alignr isa then v_alignr cmpEqB cmpEqA 2 else v_cmpeq (v_set1 61) tmpData2A in
    let match2EqB := v_cmpeq (v_set1 61) tmpData2B in
    let match2CrXDtA := v_and (v_cmpeq oDataA (v_set1 13)) (v_cmpeq tmpData2A (v_set1 46)) in
    let match2CrXDtB := v_and (v_cmpeq oDataB (v_set1 13)) (v_cmpeq tmpData2B (v_set1 46)) in
    let partialKillDotFound := negb (N.eqb (v_movemask (v_or match2CrXDtA match2CrXDtB)) 0) in
    if isRaw && partialKillDotFound then
      tmpData1A <- mm_loadu B (src + 1) ;;
      tmpData1B <- mm_loadu B (src + 1 + 16) ;;
      let match1LfA := v_cmpeq (v_set1 10) tmpData1A in
      let match1LfB := v_cmpeq (v_set1 10) tmpData1B in
      againA <- mm_load B src ;;
      againB <- mm_load B (src + 16) ;;
      let match1NlA := v_and match1LfA (v_cmpeq againA (v_set1 13)) in
      let match1NlB := v_and match1LfB (v_cmpeq againB (v_set1 13)) in
      let match2NlDotA := v_and match2CrXDtA match1NlA in
      let match2NlDotB := v_and match2CrXDtB match1NlB in
      stop <- (if searchEnd then
                 tmpData3A <- mm_loadu B (src + 3) ;;
                 tmpData3B <- mm_loadu B (src + 3 + 16) ;;
                 tmpData4A <- mm_loadu B (src + 4) ;;
                 tmpData4B <- mm_loadu B (src + 4 + 16) ;;
                 ret (sse_match_end tmpData3A tmpData3B tmpData4A tmpData4B match2EqA match2EqB
                        match1NlA match1NlB match2NlDotA match2NlDotB)
               else ret false) ;;
      if (stop : bool) then nm <- nextMask_fwd isRaw B src mask ;; ret (inl nm)
      else
        let mask := N.lor mask (N.shiftl (v_movemask match2NlDotA) 2) in
        let mask := N.lor mask (N.land (N.shiftl (v_movemask match2NlDotB) 18) 0xffffffff) in
        let match2NlDotB := v_srli match2NlDotB 14 in
        ret (inr (if fast_match isa then (mask, lfCompare, v_subs (v_set1 46) match2NlDotB)
                  else (mask, v_or (v_and match2NlDotB (v_set1 46)) (v_set1 10), minMask)))
    else if searchEnd then
      tmpData3A <- mm_loadu B (src + 3) ;;
      tmpData3B <- mm_loadu B (src + 3 + 16) ;;
      let match3EqYA := v_and match2EqA (v_cmpeq (v_set1 121) tmpData3A) in
      let match3EqYB := v_and match2EqB (v_cmpeq (v_set1 121) tmpData3B) in
      let partialEndFound := negb (N.eqb (v_movemask (v_or match3EqYA match3EqYB)) 0) in
      stop <- (if partialEndFound then
                 againA <- mm_load B src ;;
                 againB <- mm_load B (src + 16) ;;
                 tmpData1A <- mm_loadu B (src + 1) ;;
                 tmpData1B <- mm_loadu B (src + 1 + 16) ;;
                 let cmpCrA := v_cmpeq againA (v_set1 13) in
                 let cmpCrB := v_cmpeq againB (v_set1 13) in
                 let match1LfA := v_cmpeq (v_set1 10) tmpData1A in
                 let match1LfB := v_cmpeq (v_set1 10) tmpData1B in
                 ret (negb (N.eqb (v_movemask (v_or (v_and match3EqYA (v_and match1LfA cmpCrA))
                                                    (v_and match3EqYB (v_and match1LfB cmpCrB)))) 0))
               else ret false) ;;
      if (stop : bool) then nm <- nextMask_fwd isRaw B src mask ;; ret (inl nm)
      else ret (inr (if isRaw then reset_compare mask lfCompare minMask else (mask, lfCompare, minMask)))
    else ret (inr (reset_compare mask lfCompare minMask))
  else ret (inr (mask, lfCompare, minMask)).

(** Lines 555-557 and 593-595: the offset to add to the first half of the next
    block. *)
Definition next_offset (escFirst : N) : vec :=
  v_xor (v_set1 (-42)) (v_slli16 (v_cvtsi32 (Z.of_N escFirst)) 6).

(** LOAD_HALVES (lines 187-190) applied to two entries of eqAdd. *)
Definition load_halves (maskEq : N) : vec :=
  eq_add (N.land maskEq 0xff) ++ eq_add (N.land (N.shiftr maskEq 8) 0xff).

(** Lines 506-630: the decoded bytes of both halves, the mask of the characters to
    remove, escFirst and yencOffset for the next block. *)
Definition sse_unescape (mask maskEq escFirst : N) (yencOffset oDataA oDataB cmpEqA cmpEqB : vec)
    : vec * vec * N * N * vec :=
  let dataA := v_add oDataA yencOffset in
  let dataB := v_add oDataB (v_set1 (-42)) in
  let maskEqShift1 := uint 32 (uint 32 (N.shiftl maskEq 1) + escFirst) in
  if negb (N.eqb (N.land mask maskEqShift1) 0) then
    let maskEq := fix_eqMask 32 maskEq maskEqShift1 in
    let mask := N.land mask (unot 32 escFirst) in
    let escFirst := N.shiftr maskEq 31 in
    let maskEq := uint 32 (N.shiftl maskEq 1) in
    let mask := N.land mask (unot 32 maskEq) in
    (v_add dataA (load_halves maskEq), v_add dataB (load_halves (N.shiftr maskEq 16)),
     mask, escFirst, next_offset escFirst)
  else
    let escFirst := N.shiftr maskEq 31 in
    if blend_add isa then
      (v_add oDataA (v_blendv yencOffset (v_set1 (-42 - 64)) (v_slli cmpEqA 1)),
       v_add oDataB (v_blendv (v_set1 (-42)) (v_set1 (-42 - 64)) (v_alignr cmpEqB cmpEqA 15)),
       mask, escFirst, next_offset escFirst)
    else
      let cmpEqA := v_and cmpEqA (v_set1 (-64)) in
      let cmpEqB := v_and cmpEqB (v_set1 (-64)) in
      let yencOffset := v_add (v_set1 (-42)) (v_srli cmpEqB 15) in
      let cmpEqB := if use_alignr isa then v_alignr cmpEqB cmpEqA 15
                    else v_or (v_slli cmpEqB 1) (v_srli cmpEqA 15) in
      let cmpEqA := v_slli cmpEqA 1 in
      (v_add dataA cmpEqA, v_add dataB cmpEqB, mask, escFirst, yencOffset).

(** The number of bytes kept of a half whose removed characters are [mask]
    (lines 666-669 and 677-681), from the table. *)
Definition kept16 (mask : N) : Z :=
  bits_set_inv (N.land mask 0xff) + bits_set_inv (N.land (N.shiftr mask 8) 0xff).

(** The population count instruction. *)
Fixpoint popcount_pos (p : positive) : Z :=
  match p with xH => 1 | xO q => popcount_pos q | xI q => 1 + popcount_pos q end.
Definition popcount (n : N) : Z := match n with N0 => 0 | Npos p => popcount_pos p end.

(** Lines 638-682: remove the masked characters and store the rest; gives the new
    destination pointer.  The table compact has entries of 16 bytes: the byte offset
    (mask >> 12) & 0x7fff0 of line 655 is entry (mask >> 16) & 0x7fff. *)
Definition sse_compact_store (B : bufs) (p : Z) (mask : N) (dataA dataB : vec) : M Z :=
  if has_ssse3 isa then
    let dataA := v_shuffle dataA (compact_lut (N.land mask 0x7fff)) in
    store_n B p dataA ;;;
    let dataB := v_shuffle dataB (compact_lut (N.shiftr (N.land (N.shiftr mask 12) 0x7fff0) 4)) in
    if has_popcnt isa then
      let p := p - popcount (N.land mask 0xffff) in
      store_n B (p + 16) dataB ;;;
      let p := p - popcount (N.land mask 0xffff0000) in
      ret (p + 32)
    else
      let p := p + kept16 mask in
      store_n B p dataB ;;;
      ret (p + kept16 (N.shiftr mask 16))
  else
    let dataA := compact_vect (has_lzcnt isa) 32 (N.land mask 0xffff) dataA in
    store_n B p dataA ;;;
    let p := p + kept16 mask in
    let mask := N.shiftr mask 16 in
    let dataB := compact_vect (has_lzcnt isa) 32 mask dataB in
    store_n B p dataB ;;;
    ret (p + kept16 mask).

(** The variables of the loop: p, escFirst, yencOffset, lfCompare, minMask. *)
Definition sse_vars := (Z * N * vec * vec * vec)%type.

(** Lines 138-695: one block of 32 characters.  The parts that have several variants
    are parameters. *)
Definition sse_block_with
    (newlines : bool -> bool -> bufs -> Z -> N -> N -> vec -> vec -> vec -> vec -> vec -> vec -> M (Z + nl_vars))
    (unescape : N -> N -> N -> vec -> vec -> vec -> vec -> vec -> vec * vec * N * N * vec)
    (compact_store : bufs -> Z -> N -> vec -> vec -> M Z)
    (isRaw searchEnd : bool) (B : bufs) (src : Z) (i : Z) (st : sse_vars) : M (Z + sse_vars) :=
  let '(p, escFirst, yencOffset, lfCompare, minMask) := st in
  oDataA <- mm_load B (src + i) ;;
  oDataB <- mm_load B (src + i + 16) ;;
  let '(cmpA, cmpB) := sse_match oDataA oDataB lfCompare minMask in
  let mask := N.lor (v_movemask cmpA) (N.shiftl (v_movemask cmpB) 16) in
  if negb (N.eqb mask 0) then
    let cmpEqA := v_cmpeq oDataA (v_set1 61) in
    let cmpEqB := v_cmpeq oDataB (v_set1 61) in
    let maskEq := N.lor (v_movemask cmpEqA) (N.shiftl (v_movemask cmpEqB) 16) in
    x <- newlines isRaw searchEnd B (src + i) mask maskEq oDataA oDataB cmpEqA cmpEqB lfCompare minMask ;;
    match x with
    | inl nextMask => ret (inl nextMask)
    | inr (mask, lfCompare, minMask) =>
      let '(dataA, dataB, mask, escFirst, yencOffset) :=
        unescape mask maskEq escFirst yencOffset oDataA oDataB cmpEqA cmpEqB in
      p <- compact_store B p mask dataA dataB ;;
      ret (inr (p, escFirst, yencOffset, lfCompare, minMask))
    end
  else
    store_n B p (v_add oDataA yencOffset) ;;;
    store_n B (p + 16) (v_add oDataB (v_set1 (-42))) ;;;
    ret (inr (p + 32, 0%N, v_set1 (-42), lfCompare, minMask)).

Definition sse_block : bool -> bool -> bufs -> Z -> Z -> sse_vars -> M (Z + sse_vars) :=
  sse_block_with sse_newlines sse_unescape sse_compact_store.

(** Lines 99-698: [do_decode_sse]. *)
Definition do_decode_with (block : bool -> bool -> bufs -> Z -> Z -> sse_vars -> M (Z + sse_vars))
    (isRaw searchEnd : bool) : kernel :=
  fun B src len p escFirst nextMask =>
    let yencOffset := if negb (escFirst =? 0) then u8 (-42 - 64) :: repeat (u8 (-42)) 15 else v_set1 (-42) in
    let lfCompare := v_set1 10 in
    let minMask := v_set1 46 in
    let '(lfCompare, minMask) :=
      if negb (nextMask =? 0) && isRaw then
        if fast_match isa then (lfCompare, v_insert16 minMask (if nextMask =? 1 then 0x2e00 else 0x002e))
        else (v_insert16 lfCompare (if nextMask =? 1 then 0x0a2e else 0x2e0a), minMask)
      else (lfCompare, minMask) in
    nextMask <- nextMask_back isRaw B src len nextMask ;;
    '(stop, (p, escFirst, _, _, _)) <-
      block_loop (Z.to_nat len) 32 (block isRaw searchEnd B src) (- len)
        (p, Z.to_N escFirst, yencOffset, lfCompare, minMask) ;;
    match stop with
    | Some (i, nextMask) => ret (len + i, p, Z.of_N escFirst, nextMask)
    | None => ret (len, p, Z.of_N escFirst, nextMask)
    end.
Definition do_decode_sse : bool -> bool -> kernel := do_decode_with sse_block.
End Kernel.

(** The instruction set levels of decoder_sse2.cc, decoder_ssse3.cc and
    decoder_avx.cc, compiled without processor-specific tuning. *)
Definition isa_sse2 : sse_isa := {| fast_match := false; blend_add := false; has_ssse3 := false; has_popcnt := false;
  use_alignr := false; has_lzcnt := false |}.
Definition isa_ssse3 : sse_isa := {| fast_match := true; blend_add := false; has_ssse3 := true; has_popcnt := false;
  use_alignr := true; has_lzcnt := false |}.
Definition isa_avx : sse_isa := {| fast_match := true; blend_add := true; has_ssse3 := true; has_popcnt := true;
  use_alignr := true; has_lzcnt := false |}.

(** The decoders of one instruction set level: /repo/src/decoder_sse2.cc lines
    31-33, /repo/src/decoder_ssse3.cc lines 9-11, /repo/src/decoder_avx.cc lines
    9-11. *)
Definition sse_decoders (isa : sse_isa) : decoders :=
  simd 32 (do_decode_sse isa false false) (do_decode_sse isa true false) (do_decode_sse isa true true).
