(** Model of the variants of the 128-bit decode kernel for AVX512
    (/repo/src/decoder_sse_base.h with [use_isa >= ISA_LEVEL_AVX3]).  They are compiled
    in when YENC_DISABLE_AVX256 switches 256-bit vectors off
    (/repo/src/decoder_vbmi2.cc lines 20-26; /repo/src/decoder.cc lines 365-375).  Line numbers are those of
    decoder_sse_base.h; what the variants share with the others is in DecSseModel.v. *)
From Verif Require Import Base DecSpec DecModel DecNode DecMaskSpec DecMaskModel DecVec DecSimdModel DecKernelModel
  DecSseModel EncSseModel EncAvxModel DecAvxModel.

Record evex_isa := {
  e_base : sse_isa;     (* the choices of DecSseModel.v *)
  e_mask : bool;        (* useAVX3MaskCmp, lines 118-124: not with 32-bit MSVC *)
  e_vbmi2 : bool;       (* use_isa >= ISA_LEVEL_VBMI2 *)
  e_compress : bool;    (* the same, and __POPCNT__ *)
  e_icl : bool          (* compiled for Ice Lake or its successors, lines 9-14 *)
}.

(** ** What the instructions do *)

(** _mm_mask_blend_epi8, _mm_mask_add_epi8, _mm_maskz_mov_epi8, _mm_movm_epi8 *)
Definition x_blend (k : N) (a b : vec) : vec :=
  map2 (fun ab c => if (c : bool) then snd ab else fst ab) (map2 pair a b) (k_bits 16 k).
Definition x_mask_add (src : vec) (k : N) (a b : vec) : vec := x_blend k src (v_add a b).
Definition x_maskz_mov (k : N) (a : vec) : vec := x_blend k (v_set1 0) a.
Definition x_movm (k : N) : vec := map bm (k_bits 16 k).
(** _mm_maskz_compress_epi8 *)
Definition x_compress (k : N) (a : vec) : vec :=
  let r := k_compress k a in r ++ repeat x00 (16 - length r).
(** _mm_ternarylogic_epi32: each bit of the result is bit 4a + 2b + c of [imm]. *)
Definition b_tern (imm : Z) (a b c : byte) : byte :=
  u8 (fold_right Z.add 0 (map (fun i =>
        let bit x := Z.b2z (Z.testbit (bz x) i) in
        2 ^ i * Z.b2z (Z.testbit imm (4 * bit a + 2 * bit b + bit c))) [0; 1; 2; 3; 4; 5; 6; 7])).
Fixpoint v_tern (imm : Z) (a b c : vec) : vec :=
  match a, b, c with
  | x :: a, y :: b, z :: c => b_tern imm x y z :: v_tern imm a b c
  | _, _, _ => []
  end.

Section Kernel.
Variable isa : evex_isa.

(** Lines 9-14: COMPRESS_STORE. *)
Definition x_compress_store (B : bufs) (p : Z) (k : N) (a : vec) : M unit :=
  store_n B p (if e_icl isa then k_compress k a else x_compress k a).

(** Lines 297-337: is there an end marker in this half? *)
Definition evex_match_end (tmpData3 tmpData4 : vec) (match2EqMask match1NlMask match2NlDotMask : N) : N :=
  let match3Cr := v_cmpeq (v_set1 13) tmpData3 in
  let match4Lf := v_cmpeq tmpData4 (v_set1 10) in
  let match4EqY := v_cmpeq16 tmpData4 (v_set1_16 0x793d) in
  let match3EqYMask := k_mask_cmpeq match2EqMask (v_set1 121) tmpData3 in
  let match34EqY :=
    if e_vbmi2 isa then y_shrdi16 (x_movm match3EqYMask) match4EqY 8
    else x_blend (N.shiftr match3EqYMask 1) (v_and match4EqY (v_set1_16 (-0xff))) (v_set1 (-1)) in
  let match4End := v_tern 0xf8 match34EqY match3Cr match4Lf in
  N.lor (k_mask_test match2NlDotMask match4End match4End) (N.land match3EqYMask match1NlMask).

(** Lines 201-505 with useAVX3MaskCmp.  [inl] is the break of lines 370-377 and
    482-487. *)
Definition evex_newlines (isRaw searchEnd : bool) (B : bufs) (src : Z) (mask maskEq : N)
    (oDataA oDataB cmpEqA cmpEqB lfCompare minMask : vec) : M (Z + nl_vars) :=
  if (isRaw || searchEnd) && negb (N.eqb mask maskEq) then
    tmpData2A <- mm_loadu B (src + 2) ;;
    tmpData2B <- mm_loadu B (src + 2 + 16) ;;
    let match2EqMaskA := k_cmpeq (v_set1 61) tmpData2A in
    let match2EqMaskB := k_cmpeq (v_set1 61) tmpData2B in
    let match0CrMaskA := k_cmpeq oDataA (v_set1 13) in
    let match0CrMaskB := k_cmpeq oDataB (v_set1 13) in
    let match2CrXDtMaskA := k_mask_cmpeq match0CrMaskA tmpData2A (v_set1 46) in
    let match2CrXDtMaskB := k_mask_cmpeq match0CrMaskB tmpData2B (v_set1 46) in
    let partialKillDotFound := negb (N.eqb (N.lor match2CrXDtMaskA match2CrXDtMaskB) 0) in
    if isRaw && partialKillDotFound then
      tmpData1A <- mm_loadu B (src + 1) ;;
      let match1NlMaskA := k_mask_cmpeq match0CrMaskA (v_set1 10) tmpData1A in
      tmpData1B <- mm_loadu B (src + 1 + 16) ;;
      let match1NlMaskB := k_mask_cmpeq match0CrMaskB (v_set1 10) tmpData1B in
      let match2NlDotMaskA := N.land match2CrXDtMaskA match1NlMaskA in
      let match2NlDotMaskB := N.land match2CrXDtMaskB match1NlMaskB in
      stop <- (if searchEnd then
                 tmpData3A <- mm_loadu B (src + 3) ;;
                 tmpData3B <- mm_loadu B (src + 3 + 16) ;;
                 tmpData4A <- mm_loadu B (src + 4) ;;
                 tmpData4B <- mm_loadu B (src + 4 + 16) ;;
                 ret (negb (N.eqb (N.lor
                        (evex_match_end tmpData3A tmpData4A match2EqMaskA match1NlMaskA match2NlDotMaskA)
                        (evex_match_end tmpData3B tmpData4B match2EqMaskB match1NlMaskB match2NlDotMaskB)) 0))
               else ret false) ;;
      if (stop : bool) then nm <- nextMask_fwd isRaw B src mask ;; ret (inl nm)
      else
        let mask := N.lor mask (N.shiftl match2NlDotMaskA 2) in
        let mask := N.lor mask (N.land (N.shiftl match2NlDotMaskB 18) 0xffffffff) in
        ret (inr (mask, lfCompare, x_maskz_mov (unot 16 (N.shiftr match2NlDotMaskB 14)) (v_set1 46)))
    else if searchEnd then
      tmpData3A <- mm_loadu B (src + 3) ;;
      let match3EqYMaskA := k_mask_cmpeq match2EqMaskA (v_set1 121) tmpData3A in
      tmpData3B <- mm_loadu B (src + 3 + 16) ;;
      let match3EqYMaskB := k_mask_cmpeq match2EqMaskB (v_set1 121) tmpData3B in
      let partialEndFound := negb (N.eqb (N.lor match3EqYMaskA match3EqYMaskB) 0) in
      stop <- (if partialEndFound then
                 tmpData1A <- mm_loadu B (src + 1) ;;
                 let match3LfEqYMaskA := k_mask_cmpeq match3EqYMaskA (v_set1 10) tmpData1A in
                 tmpData1B <- mm_loadu B (src + 1 + 16) ;;
                 let match3LfEqYMaskB := k_mask_cmpeq match3EqYMaskB (v_set1 10) tmpData1B in
                 ret (negb (N.eqb (N.lor (k_mask_cmpeq match3LfEqYMaskA oDataA (v_set1 13))
                                         (k_mask_cmpeq match3LfEqYMaskB oDataB (v_set1 13))) 0))
               else ret false) ;;
      if (stop : bool) then nm <- nextMask_fwd isRaw B src mask ;; ret (inl nm)
      else ret (inr (if isRaw then reset_compare (e_base isa) mask lfCompare minMask else (mask, lfCompare, minMask)))
    else ret (inr (reset_compare (e_base isa) mask lfCompare minMask))
  else ret (inr (mask, lfCompare, minMask)).

(** Lines 632-636: the offset to add to the first half of the next block. *)
Definition evex_next_offset (escFirst : N) : vec :=
  x_mask_add (v_set1 (-42)) (uint 16 escFirst) (v_set1 (-42)) (v_set1 (-64)).

(** Lines 506-636 with [use_isa >= ISA_LEVEL_AVX3]. *)
Definition evex_unescape (mask maskEq escFirst : N) (yencOffset oDataA oDataB cmpEqA cmpEqB : vec)
    : vec * vec * N * N * vec :=
  let dataA := v_add oDataA yencOffset in
  let dataB := v_add oDataB (v_set1 (-42)) in
  let maskEqShift1 := uint 32 (uint 32 (N.shiftl maskEq 1) + escFirst) in
  if negb (N.eqb (N.land mask maskEqShift1) 0) then
    let maskEq := fix_eqMask 32 maskEq maskEqShift1 in
    let mask := N.land mask (unot 32 escFirst) in
    let escFirst := N.shiftr maskEq 31 in
    let maskEq := uint 32 (N.shiftl maskEq 1) in
    let mask := N.land mask (unot 32 maskEq) in
    (x_mask_add dataA (uint 16 maskEq) dataA (v_set1 (-64)),
     x_mask_add dataB (uint 16 (N.shiftr maskEq 16)) dataB (v_set1 (-64)),
     mask, escFirst, evex_next_offset escFirst)
  else
    let escFirst := N.shiftr maskEq 31 in
    (v_add oDataA (v_tern 0xac (v_slli cmpEqA 1) yencOffset (v_set1 (-42 - 64))),
     v_add oDataB (v_tern 0xac (v_alignr cmpEqB cmpEqA 15) (v_set1 (-42)) (v_set1 (-42 - 64))),
     mask, escFirst, evex_next_offset escFirst).

(** Lines 638-682 with [use_isa >= ISA_LEVEL_AVX3]; KNOT16 is common.h lines 337-343. *)
Definition evex_compact_store (B : bufs) (p : Z) (mask : N) (dataA dataB : vec) : M Z :=
  if e_compress isa then
    x_compress_store B p (unot 16 mask) dataA ;;;
    let p := p - popcount (N.land mask 0xffff) in
    x_compress_store B (p + 16) (unot 16 (N.shiftr mask 16)) dataB ;;;
    let p := p - popcount (N.shiftr mask 16) in
    ret (p + 32)
  else sse_compact_store (e_base isa) B p mask dataA dataB.

(** Lines 138-695: one block of 32 characters. *)
Definition evex_block : bool -> bool -> bufs -> Z -> Z -> sse_vars -> M (Z + sse_vars) :=
  sse_block_with (e_base isa) (if e_mask isa then evex_newlines else sse_newlines (e_base isa))
    evex_unescape evex_compact_store.

(** Lines 99-698: [do_decode_sse]. *)
Definition do_decode_evex : bool -> bool -> kernel := do_decode_with (e_base isa) evex_block.
End Kernel.

(** The decoders of /repo/src/decoder_vbmi2.cc lines 21-26 and of
    /repo/src/decoder.cc lines 365-375. *)
Definition evex_decoders (isa : evex_isa) : decoders :=
  simd 32 (do_decode_evex isa false false) (do_decode_evex isa true false) (do_decode_evex isa true true).

(** decoder_vbmi2.cc compiled without processor-specific tuning, and a build for
    AVX512BW and AVX512VL only. *)
Definition isa_avx512 : sse_isa := {| fast_match := true; blend_add := true; has_ssse3 := true; has_popcnt := true;
  use_alignr := true; has_lzcnt := false |}.
Definition evex_vbmi2 : evex_isa := {| e_base := isa_avx512; e_mask := true; e_vbmi2 := true; e_compress := true; e_icl := false |}.
Definition evex_avx3 : evex_isa := {| e_base := isa_avx512; e_mask := true; e_vbmi2 := false; e_compress := false; e_icl := false |}.
