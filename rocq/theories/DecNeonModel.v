(** Model of the NEON kernels of the decoder: /repo/src/decoder_neon64.cc for AArch64
    ("A64" below) and the ARMv7 branches of /repo/src/decoder_neon.cc ("V7").
    /repo/binding.gyp lines 325-329 compile one or the other; the AArch64 branches of
    the second file are never compiled and not modelled.

    The two differ in how many vectors a block has (4 or 2), so a block is a list of
    vectors here, and code the files write out for each vector is one definition.
    vcreate and vreinterpret change no bits and do not appear. *)
From Verif Require Import Base DecSpec DecModel DecNode DecSimdModel DecMaskSpec DecMaskModel DecVec DecKernelModel DecSseModel EncSseModel
  EncNeonModel.

Record neond := {
  n_a64 : bool;   (* decoder_neon64.cc *)
  n_gcc : bool;   (* A64 line 306 *)
  n_line : bool   (* an aligned load of 16 bytes may run past the source if it starts inside *)
}.

(** ** Instructions; nothing here models code of /repo *)

(** vqtbl1q, vtbl1: 0 for an index outside the table. *)
Definition v_tbl (v idx : vec) : vec :=
  map (fun i => if bz i <? Z.of_nat (length v) then nth (Z.to_nat (bz i)) v x00 else x00) idx.
(** vtst *)
Definition v_tst : vec -> vec -> vec := map2 (fun a b => bm (negb (beq (b_and a b) x00))).
(** vsri on 16-bit lanes. *)
Definition v_sri16 (a b : vec) (n : Z) : vec :=
  lanes16 (fun x y => x / 2 ^ (16 - n) * 2 ^ (16 - n) + y / 2 ^ n) a b.
(** The bytes of a lane. *)
Fixpoint bytes_of (k : nat) (n : N) : vec :=
  match k with O => [] | S k => u8 (Z.of_N n) :: bytes_of k (N.shiftr n 8) end.
(** vshl on two lanes of [k] bytes. *)
Definition v_shl (k : nat) (v : vec) (n : N) : vec :=
  let f l := bytes_of k (N.shiftl (lane l) n) in f (firstn k v) ++ f (skipn k v).
(** vsetq_lane_u8 *)
Definition set_lane (k : nat) (x : Z) (v : vec) : vec := firstn k v ++ u8 x :: skipn (S k) v.

(** A load of 16 aligned bytes of which the first is inside the source.  Such bytes are
    in one page, so reading those behind the source does not fault and gives whatever
    is there. *)
Definition load_line (B : bufs) (a : Z) : M vec :=
  if (a mod 16 =? 0) && (rlo B <=? a) && (a <? rhi B) then fun m => Ok (read_n m a 16, m) else ub.

(** ** Vectors of a block *)

(** The vectors of the block [k] bytes further on, but for the last:
    vextq_u8(dataA, dataB, k) and so on. *)
Fixpoint exts (k : nat) (l : list vec) : list vec :=
  match l with
  | a :: ((b :: _) as t) => v_ext a b k :: exts k t
  | _ => []
  end.
(** The vectors, or-ed as in A64 lines 98-101, V7 line 198. *)
Definition or_vecs (l : list vec) : vec :=
  match l with
  | [a; b] => v_or a b
  | [a; b; c; d] => v_or (v_or a b) (v_or c d)
  | _ => []
  end.
(** A64 lines 37-44: [mergeCompares]; V7 lines 218-221, 222-226, 229-237, 244, 247. *)
Definition merge_cmp (l : list vec) : vec :=
  match l with
  | [a; b] => v_bsl (v_set1 13) a b
  | [a; b; c; d] => v_bsl (v_set1 61) (v_bsl (v_set1 121) a b) (v_bsl (v_set1 121) c d)
  | _ => []
  end.
(** A64 lines 102-111, 112-121, 237-247; V7 lines 142-149, 155-162, 266-275: one bit for
    each byte, up to the last vpadd. *)
Definition n_pack (l : list vec) : vec :=
  match map (fun v => v_and v bit_select) l with
  | [a; b] => v_padd (v_padd (firstn 8 a ++ skipn 8 a) ++ v_padd (firstn 8 b ++ skipn 8 b))
  | [a; b; c; d] => v_padd (v_padd (a ++ b) ++ v_padd (c ++ d))
  | _ => []
  end.

(** /repo/src/decoder.cc lines 380-399: [decoder_init_lut] for YENC_DEC_USE_THINTABLE
    (/repo/src/decoder_common.h lines 18-20, for V7): entries of 8 bytes. *)
Definition compact_lut8 (i : N) : vec :=
  let res := lut_fill 8 0 i in res ++ repeat x80 (8 - length res).

Section Kernel.
Variable ne : neond.

(** A64 lines 63 and 439; V7 lines 82 and 455: the size of a block. *)
Definition nw : nat := if n_a64 ne then 64 else 32.

(** A64 lines 33-35, V7 lines 48-51: [neon_vect_is_nonzero]. *)
Definition n_nonzero (v : vec) : bool :=
  if n_a64 ne then
    let q l := N.min (lane l) (2 ^ 32 - 1) in
    negb (N.eqb (q (firstn 8 v) + 2 ^ 32 * q (skipn 8 v)) 0)
  else
    let t := v_or (firstn 8 v) (skipn 8 v) in
    negb (N.eqb (N.max (lane (firstn 4 t)) (lane (skipn 4 t))) 0).

(** A64 line 64 (and 13-20), V7 line 83 (and 20-24): load the vectors of a block.  V7
    promises the compiler an alignment of 32. *)
Fixpoint load_vecs (B : bufs) (x : Z) (k : nat) : M (list vec) :=
  match k with
  | O => ret []
  | S k => v <- load_n B x 16 ;; t <- load_vecs B (x + 16) k ;; ret (v :: t)
  end.
Definition n_load (B : bufs) (x : Z) : M (list vec) :=
  if n_a64 ne || (x mod 32 =? 0) then load_vecs B x (nw / 16) else ub.

(** A64 line 135, V7 line 175: nextData. *)
Definition n_next (B : bufs) (x : Z) : M vec :=
  if n_line ne then load_line B x else if n_a64 ne then load_n B x 16 else load_aligned B x 16.

(** A64 lines 136, 166, 180, 181, 261, 269 and V7 lines 176 and 184 (NEXT_DATA): the last
    vector of the block, [k] bytes further on. *)
Definition n_next_data (B : bufs) (x : Z) (data : list vec) (nextData : vec) (k : nat) : M vec :=
  if n_a64 ne then ret (v_ext (last data []) nextData k) else load_n B (x + Z.of_nat k + 16) 16.

(** A64 lines 71-96, V7 lines 88-119: the special characters.  [next] is nextMaskMix of
    A64, lfCompare of V7. *)
Definition n_cmp (isRaw : bool) (data : list vec) (next : vec) : list vec :=
  if n_a64 ne then
    match map (fun d => v_tbx (v_cmpeq d (v_set1 61)) (map u8 [0;0;0;0;0;0;0;0;0;0;255;0;0;255;0;0]) d) data with
    | a :: t => (if isRaw then v_or a next else a) :: t
    | [] => []
    end
  else
    map2 (fun d lf => v_or (v_or (v_cmpeq d (v_set1 13)) (v_cmpeq d lf)) (v_cmpeq d (v_set1 61))) data [next; v_set1 10].

(** A64 lines 102-125, V7 lines 142-151 and 153-164: mask, maskEq and cmpCombined (A64)
    or cmpPacked (V7). *)
Definition n_masks (cmp cmpEq : list vec) : N * N * vec :=
  if n_a64 ne then
    let cmpCombined := v_padd (n_pack cmp ++ n_pack cmpEq) in
    (lane (firstn 8 cmpCombined), lane (skipn 8 cmpCombined), cmpCombined)
  else
    let cmpPacked := v_padd (n_pack cmp ++ n_pack cmp) in
    let cmpEqPacked := v_padd (n_pack cmpEq ++ n_pack cmpEq) in
    (lane (firstn 4 cmpPacked), lane (firstn 4 cmpEqPacked), cmpPacked).

(** A64 lines 287 and 289, V7 lines 314 and 320. *)
Definition n_no_dot (next : vec) : vec :=
  if n_a64 ne then v_set1 0 else skipn 8 next ++ skipn 8 next.
(** A64 line 252, V7 lines 284-288. *)
Definition n_next_dot (match2NlDot : list vec) (next : vec) : vec :=
  let l := last match2NlDot [] in
  if n_a64 ne then v_ext l (v_set1 0) 14
  else v_bsl (v_ext (skipn 8 l) (repeat (u8 10) 8) 6) (repeat (u8 46) 8) (skipn 8 next) ++ skipn 8 next.

(** A64 lines 175-229, V7 lines 210-250: is there an end marker? *)
Definition n_match_end (data cmpEq match1Nl match2NlDot : list vec) (tmpData2 tmpData3 tmpData4 : vec) : bool :=
  let match4Nl := merge_cmp (exts 3 match1Nl ++ [v_and (v_cmpeq tmpData3 (v_set1 13)) (v_cmpeq tmpData4 (v_set1 10))]) in
  let match4EqY := merge_cmp (map (fun v => v_cmpeq16 v (v_set1_16 0x793d)) (exts 4 data ++ [tmpData4])) in
  let match2Eq := exts 2 cmpEq ++ [v_cmpeq tmpData2 (v_set1 61)] in
  let match3EqY := merge_cmp (map2 v_and (map (fun v => v_cmpeq v (v_set1 121)) (exts 3 data ++ [tmpData3])) match2Eq) in
  let match4End := v_or match4Nl (v_sri16 match4EqY match3EqY 8) in
  let match4End := v_and match4End (merge_cmp match2NlDot) in
  let match3End := v_and match3EqY (merge_cmp match1Nl) in
  n_nonzero (v_or match4End match3End).

(** A64 lines 129-290, V7 lines 169-322: look for stuffed dots and end markers in the block
    at [x]; either the nextMask to stop with or mask, cmpCombined or cmpPacked, and [next]
    for the next block. *)
Definition n_newlines (isRaw searchEnd : bool) (B : bufs) (x : Z) (data cmpEq : list vec) (mask maskEq : N) (packed next : vec)
    : M (Z + N * vec * vec) :=
  if (isRaw || searchEnd) && negb (N.eqb mask maskEq) then
    '(tmpData2, nextData) <-
      (if isRaw && negb searchEnd then v <- load_n B (x + 2 + (Z.of_nat nw - 16)) 16 ;; ret (v, [])
       else v <- n_next B (x + Z.of_nat nw) ;; ret (v_ext (last data []) v 2, v)) ;;
    let cmpCr := map (fun v => v_cmpeq v (v_set1 13)) data in
    let match2Cr_Dot := map2 v_and cmpCr (map (fun v => v_cmpeq v (v_set1 46)) (exts 2 data ++ [tmpData2])) in
    if isRaw && n_nonzero (or_vecs match2Cr_Dot) then
      tmpData1 <- (if searchEnd then n_next_data B x data nextData 1 else load_n B (x + 1 + (Z.of_nat nw - 16)) 16) ;;
      let match1Lf := map (fun v => v_cmpeq v (v_set1 10)) (exts 1 data ++ [tmpData1]) in
      let match2NlDot := map2 v_and match2Cr_Dot match1Lf in
      stop <- (if searchEnd then
                 let match1Nl := map2 v_and match1Lf cmpCr in
                 tmpData3 <- n_next_data B x data nextData 3 ;;
                 tmpData4 <- n_next_data B x data nextData 4 ;;
                 ret (n_match_end data cmpEq match1Nl match2NlDot tmpData2 tmpData3 tmpData4)
               else ret false) ;;
      if (stop : bool) then nm <- nextMask_fwd isRaw B x mask ;; ret (inl nm)
      else
        let mergeKillDots := n_pack match2NlDot in
        let mergeKillDots := v_padd (mergeKillDots ++ mergeKillDots) in
        let mergeKillDotsShifted := v_shl (nw / 8) mergeKillDots 2 in
        ret (inr (N.lor mask (lane (firstn (nw / 8) mergeKillDotsShifted)), v_or packed mergeKillDotsShifted,
                  n_next_dot match2NlDot next))
    else if searchEnd then
      let match2Eq := exts 2 cmpEq ++ [v_cmpeq tmpData2 (v_set1 61)] in
      tmpData3 <- n_next_data B x data nextData 3 ;;
      let match3EqY := map2 v_and match2Eq (map (fun v => v_cmpeq v (v_set1 121)) (exts 3 data ++ [tmpData3])) in
      stop <- (if n_nonzero (or_vecs match3EqY) then
                 tmpData1 <- n_next_data B x data nextData 1 ;;
                 let match1Lf := map (fun v => v_cmpeq v (v_set1 10)) (exts 1 data ++ [tmpData1]) in
                 ret (n_nonzero (or_vecs (map2 v_and match3EqY (map2 v_and match1Lf cmpCr))))
               else ret false) ;;
      if (stop : bool) then nm <- nextMask_fwd isRaw B x mask ;; ret (inl nm)
      else ret (inr (mask, packed, if isRaw then n_no_dot next else next))
    else ret (inr (mask, packed, if isRaw then n_no_dot next else next))
  else ret (inr (mask, packed, next)).

(** A64 lines 308-333, V7 lines 350-357: bytes of maskEq, each 8 times. *)
Definition n_spread (maskEqTemp : vec) : list vec :=
  if n_a64 ne then
    let idx := repeat x00 8 ++ repeat x01 8 in
    let t1 := v_ext maskEqTemp maskEqTemp 2 in
    let t2 := v_ext t1 t1 2 in
    let t3 := v_ext t2 t2 2 in
    [v_tbl maskEqTemp idx; v_tbl t1 idx; v_tbl t2 idx; v_tbl t3 idx]
  else
    let dup k := repeat (nth k maskEqTemp x00) 8 in [dup 0%nat ++ dup 1%nat; dup 2%nat ++ dup 3%nat].

(** A64 lines 295-392, V7 lines 327-391: the decoded characters, mask, cmpCombined or
    cmpPacked, escFirst. *)
Definition n_unescape (data cmpEq : list vec) (mask maskEq : N) (packed : vec) (escFirst : N) (yencOffset : vec)
    : list vec * N * vec * N :=
  let bits := N.of_nat nw in
  let maskEqShift1 := N.lor (uint bits (N.shiftl maskEq 1)) escFirst in
  if negb (N.eqb (N.land mask maskEqShift1) 0) then
    let maskEq := fix_eqMask bits maskEq maskEqShift1 in
    let nextEscFirst := N.shiftr maskEq (bits - 1) in
    let maskEq := N.lor (uint bits (N.shiftl maskEq 1)) escFirst in
    let mask := N.land mask (unot bits maskEq) in
    let half := bytes_of (nw / 8) maskEq in
    let maskEqTemp := half ++ (if n_a64 ne && n_gcc ne then repeat x00 8 else half) in
    let packed := v_bic packed maskEqTemp in
    let vMaskEq := map (fun v => v_tst v bit_select) (n_spread maskEqTemp) in
    (map2 (fun d v => v_sub d (v_bsl v (v_set1 (64 + 42)) (v_set1 42))) data vMaskEq, mask, packed, nextEscFirst)
  else
    let lead := exts 15 (v_set1 42 :: cmpEq) in
    let off := yencOffset :: repeat (v_set1 42) (length data - 1) in
    (map2 v_sub data (map2 (fun e o => v_bsl e (v_set1 (64 + 42)) o) lead off), mask, packed, N.shiftr maskEq (bits - 1)).

(** A64 lines 400-422, V7 lines 411-433: store the characters kept; [k] characters go to a
    store, [c] is how many of them there are. *)
Fixpoint n_store (k : nat) (lut : N -> vec) (B : bufs) (p : Z) (data : list vec) (mask counts : N) : M Z :=
  match data with
  | [] => ret p
  | d :: t =>
    store_n B p (v_tbl d (lut mask)) ;;;
    n_store k lut B (p + Z.of_N (N.land counts 0xff)) t (N.shiftr mask (N.of_nat k)) (N.shiftr counts (N.of_nat k))
  end.
(** A64 lines 396-422, V7 lines 395-433. *)
Definition n_compact (B : bufs) (p : Z) (data : list vec) (mask : N) (packed : vec) : M Z :=
  if n_a64 ne then
    let counts := lane (v_cnt (firstn 8 packed)) in
    let counts := uint 64 (0x0808080808080808 + (2 ^ 64 - counts)) in
    let counts := uint 64 (counts + N.shiftr counts 8) in
    n_store 16 (fun mask => compact_lut (N.land mask 0x7fff)) B p data mask counts
  else
    let counts := uint 32 (0x08080808 + (2 ^ 32 - lane (firstn 4 (v_cnt packed)))) in
    n_store 8 (fun mask => compact_lut8 (N.land mask 0xff)) B p (flat_map (fun d => [firstn 8 d; skipn 8 d]) data) mask counts.

(** A64 line 428, V7 line 440. *)
Fixpoint store_vecs (B : bufs) (p : Z) (l : list vec) : M unit :=
  match l with [] => ret tt | v :: t => store_n B p v ;;; store_vecs B (p + 16) t end.

(** The variables of the loop: p, escFirst, yencOffset, and nextMaskMix or lfCompare. *)
Definition neon_vars := (Z * N * vec * vec)%type.

(** A64 lines 64-432, V7 lines 83-448: one block. *)
Definition neon_block (isRaw searchEnd : bool) (B : bufs) (src i : Z) (st : neon_vars) : M (Z + neon_vars) :=
  let '(p, escFirst, yencOffset, next) := st in
  data <- n_load B (src + i) ;;
  let cmpEq := map (fun d => v_cmpeq d (v_set1 61)) data in
  let cmp := n_cmp isRaw data next in
  let '(mask, maskEq, packed) := n_masks cmp cmpEq in
  if (if n_a64 ne then n_nonzero (or_vecs cmp) else negb (N.eqb mask 0)) then
    x <- n_newlines isRaw searchEnd B (src + i) data cmpEq mask maskEq packed next ;;
    match x with
    | inl nextMask => ret (inl nextMask)
    | inr (mask, packed, next) =>
      let '(data, mask, packed, escFirst) := n_unescape data cmpEq mask maskEq packed escFirst yencOffset in
      let yencOffset := set_lane 0 (Z.lor (Z.shiftl (Z.of_N escFirst) 6) 42) yencOffset in
      p <- n_compact B p data mask packed ;;
      ret (inr (p, escFirst, yencOffset, next))
    end
  else
    store_vecs B p (map2 v_sub data (yencOffset :: repeat (v_set1 42) (length data - 1))) ;;;
    ret (inr (p + Z.of_nat nw, 0%N, if n_a64 ne then v_set1 42 else repeat (u8 42) 8 ++ skipn 8 yencOffset, next)).

(** A64 lines 53-57, V7 lines 70-76. *)
Definition n_next_init (isRaw : bool) (nextMask : Z) : vec :=
  if n_a64 ne then
    let v := v_set1 0 in
    let v := if nextMask =? 1 then set_lane 0 1 v else v in
    if nextMask =? 2 then set_lane 1 2 v else v
  else
    let v := v_set1 10 in
    if isRaw then
      let v := if nextMask =? 1 then set_lane 0 46 v else v in
      if nextMask =? 2 then set_lane 1 46 v else v
    else v.

(** A64 lines 49-434, V7 lines 58-450: [do_decode_neon]. *)
Definition do_decode_neon (isRaw searchEnd : bool) : kernel :=
  fun B src len p escFirst nextMask =>
    let next := n_next_init isRaw nextMask in
    let yencOffset := if negb (escFirst =? 0) then u8 (42 + 64) :: repeat (u8 42) 15 else v_set1 42 in
    nextMask <- nextMask_back isRaw B src len nextMask ;;
    '(stop, (p, escFirst, _, _)) <-
      block_loop (Z.to_nat len) (Z.of_nat nw) (neon_block isRaw searchEnd B src) (- len)
        (p, Z.to_N escFirst, yencOffset, next) ;;
    match stop with
    | Some (i, nextMask) => ret (len + i, p, Z.of_N escFirst, nextMask)
    | None => ret (len, p, Z.of_N escFirst, nextMask)
    end.

(** A64 lines 437-443, V7 lines 453-459: [decoder_set_neon_funcs]. *)
Definition neon_decoders : decoders :=
  simd (Z.of_nat nw) (do_decode_neon false false) (do_decode_neon true false) (do_decode_neon true true).
End Kernel.
