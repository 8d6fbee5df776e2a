(** Model of the RVV kernel of the decoder (/repo/src/decoder_rvv.cc).

    The vector length is a parameter.  Masks are lists of booleans; where the code
    reinterprets a mask as bytes or 64-bit integers, so does the model.  What the
    instructions leave open is a parameter: elements at or behind the vector length
    an instruction is given, which the hardware may overwrite. *)
From Verif Require Import Base DecSpec DecModel DecNode DecSimdModel DecMaskSpec DecMaskModel DecVec DecKernelModel EncSseModel EncRvvModel.

Record rvd := {
  d_log : nat;                 (* VLEN is 128 * 2 ^ d_log bits *)
  d_tail : nat -> byte;        (* the elements vcompress does not write *)
  d_pad : bool -> nat -> bool; (* bits of a mask register behind its last element *)
  d_odd : nat -> N;            (* 64-bit elements vadd does not write *)
  d_carry : nat -> bool;       (* a mask computed from bytes that were not written *)
  d_rounds : nat               (* how many rounds of the loop of lines 230-234 the model follows *)
}.

(** ** Instructions; nothing here models code of /repo *)

(** vslide1down, the new element given as its bytes. *)
Definition slide1down (v w : vec) : vec := skipn (length w) v ++ w.
(** vslide1up on bytes of a mask. *)
Definition slide1up (v : list N) (x : N) : list N := firstn (length v) (x :: v).
(** The 64-bit elements of a register that holds a mask, and back. *)
Fixpoint elems64 (n : nat) (l : list bool) : list N :=
  match n with O => [] | S k => mask_of (firstn 64 l) :: elems64 k (skipn 64 l) end.
Definition bits64 (x : N) : list bool := map (fun i => N.testbit x (N.of_nat i)) (seq 0 64).
(** vmadc: the carry of a 64-bit addition. *)
Definition carry64 (a b : N) : bool := (2 ^ 64 <=? a + b)%N.

(** ** The code *)

(** Lines 21-31: [mask_lshift] for one mask bit per character, [n] of them. *)
Definition mask_lshift (shift : N) (shiftIn : N) (n : nat) (m : list bool) : list bool :=
  let mv := mask_bytes (n / 8) m in
  let mvl := map (fun b => uint 8 (N.shiftl b shift)) mv in
  let mvr := map (fun b => N.shiftr b (8 - shift)) mv in
  let mvr := slide1up mvr shiftIn in
  concat (map bits8 (map2 N.lor mvl mvr)).

(** Lines 44-51, with the first element replaced. *)
Definition set_first (v : vec) (x : Z) : vec := u8 x :: tl v.

Section Kernel.
Variable rv : rvd.

(** Line 69: vsetvlmax_e8m2, that is VLEN * 2 / 8; also lines 268-270,
    [decoder_rvv_width]. *)
Definition dvl : nat := 32 * 2 ^ d_log rv.

Definition splat (x : Z) : vec := repeat (u8 x) dvl.

(** Lines 32-42: [mask_lshift<1>] for one mask bit per 64-bit element.  It works on
    [vl64 / 8] bytes, which are none for fewer than 8 elements. *)
Definition mask_lshift64 (vl64 : nat) (m : list bool) : list bool :=
  if (vl64 <? 8)%nat then map (d_carry rv) (seq 0 vl64) else mask_lshift 1 0 vl64 m.

(** Lines 230-234: the loop while there are carries, a given number of rounds of it at
    most. *)
Fixpoint carry_loop (fuel vl64 : nat) (carry : list bool) (odd : list N) : out (list N) :=
  if 0 <? cpop carry then
    match fuel with
    | O => NoFuel
    | S f =>
      let nextCarry := map (fun x => carry64 x 1) odd in
      let odd := map2 (fun (c : bool) x => if c then uint 64 (x + 1) else x) carry odd in
      carry_loop f vl64 (mask_lshift64 vl64 nextCarry) odd
    end
  else Ok odd.

(** Lines 216-236: [cmpEq + evenStart].  The additions of lines 223 and 229 are given
    the vector length 1. *)
Definition odd_groups (cmpEq evenStart : list bool) : out (list bool) :=
  let k := Nat.max 1 (dvl / 64) in
  let reg b l := elems64 k (l ++ map (d_pad rv b) (seq 0 (64 - dvl))) in
  let cmpEq64 := reg false cmpEq in
  let evenStart64 := reg true evenStart in
  let first := match cmpEq64, evenStart64 with a :: _, b :: _ => uint 64 (a + b) | _, _ => 0%N end in
  let odd := first :: map (d_odd rv) (seq 1 (k - 1)) in
  let odd :=
    if (dvl <=? 64)%nat then Ok odd
    else
      let carry := map2 carry64 cmpEq64 evenStart64 in
      carry_loop (d_rounds rv) k (mask_lshift64 k carry) odd in
  match odd with
  | Ok odd => Ok (firstn dvl (concat (map bits64 odd)))
  | UB => UB
  | NoFuel => NoFuel
  end.

(** Lines 211-238: the '=' that are leads. *)
Definition rvd_fix (cmpEq cmpEqShift1 : list bool) : out (list bool) :=
  let groupStart := map2 (fun e s => e && negb s) cmpEq cmpEqShift1 in
  let evenBits := concat (map bits8 (repeat 0x55%N (dvl / 8))) in
  let evenStart := map2 andb groupStart evenBits in
  match odd_groups cmpEq evenStart with
  | Ok oddGroups => Ok (map2 andb (map2 xorb oddGroups evenBits) cmpEq)
  | UB => UB
  | NoFuel => NoFuel
  end.

(** Lines 167-168 and 192-193: at the end marker. *)
Definition rvd_stop (isRaw : bool) (B : bufs) (x : Z) (cmp : list bool) : M Z :=
  nextMask_fwd isRaw B x (unot 32 (mask_of (firstn 8 cmp))).

(** Lines 106-200: look for stuffed dots and end markers in the block [data] at [x];
    either the nextMask to stop with or the new [cmp] and lfCompare.  (nextWord has
    only its first two bytes set without [searchEnd]; the others are not used.) *)
Definition rvd_newlines (isRaw searchEnd : bool) (B : bufs) (x : Z) (data : vec) (cmp cmpEq cmpCr : list bool) (lfCompare : vec)
    : M (Z + (list bool * vec)) :=
  if (isRaw || searchEnd) && (0 <? cpop (map2 (fun a b => negb (xorb a b)) cmp cmpEq)) then
    nextWord <- load_n B (x + Z.of_nat dvl) (if searchEnd then 4 else 2) ;;
    let is c := map (fun b => beq b (u8 c)) in
    let nextData2 := slide1down data (firstn 2 nextWord) in
    let match2Cr_Dot := map2 andb cmpCr (is 46 nextData2) in
    let nextData3 := slide1down nextData2 (firstn 1 (skipn 2 nextWord)) in
    let match3EqY := map2 andb (is 61 nextData2) (is 121 nextData3) in
    let nextData1 := slide1down data (firstn 1 nextWord) in
    let match1Lf := is 10 nextData1 in
    if isRaw && (0 <? cpop match2Cr_Dot) then
      let match2NlDot := map2 andb match2Cr_Dot match1Lf in
      let found :=
        if searchEnd then
          let match1Nl := map2 andb cmpCr match1Lf in
          let nextData4 := slide1down data nextWord in
          let match4Nl := map2 andb (is 13 nextData3) (is 10 nextData4) in
          let match4EqY := map2 andb (is 61 nextData3) (is 121 nextData4) in
          let match4End := map2 andb (map2 orb match4Nl match4EqY) match2NlDot in
          let match3End := map2 andb match1Nl match3EqY in
          0 <? cpop (map2 orb match4End match3End)
        else false in
      if found then n <- rvd_stop isRaw B x cmp ;; ret (inl n)
      else
        let cmp := map2 (fun a b => a && negb b) cmp (mask_lshift 2 0 dvl match2NlDot) in
        let nextNlDot := N.shiftr (nth (dvl / 8 - 1) (mask_bytes (dvl / 8) match2NlDot) 0%N) 6 in
        let nextNlDotVec := concat (map bits8 (nextNlDot :: repeat 0%N (dvl / 8 - 1))) in
        ret (inr (cmp, map2 (fun (b : bool) c => if b then u8 46 else c) nextNlDotVec (splat 10)))
    else if searchEnd then
      if 0 <? cpop match3EqY then
        if 0 <? cpop (map2 andb (map2 andb match3EqY cmpCr) match1Lf) then
          n <- rvd_stop isRaw B x cmp ;; ret (inl n)
        else ret (inr (cmp, if isRaw then splat 10 else lfCompare))
      else ret (inr (cmp, if isRaw then splat 10 else lfCompare))
    else ret (inr (cmp, if isRaw then splat 10 else lfCompare))
  else ret (inr (cmp, lfCompare)).

(** Lines 204-243: resolve escapes; the leads, the characters escaped, the characters
    kept. *)
Definition rvd_escapes (cmp cmpEq : list bool) (escFirst : N) : out (list bool * list bool * list bool) :=
  let cmpEqShift1 := mask_lshift 1 escFirst dvl cmpEq in
  if 0 <? cpop (map2 (fun a b => a && negb b) cmpEqShift1 cmp) then
    match rvd_fix cmpEq cmpEqShift1 with
    | Ok cmpEq =>
      let cmpEqShift1 := mask_lshift 1 escFirst dvl cmpEq in
      Ok (cmpEq, cmpEqShift1, map2 orb cmpEqShift1 cmp)
    | UB => UB
    | NoFuel => NoFuel
    end
  else Ok (cmpEq, cmpEqShift1, cmp).

Definition lift {A} (o : out A) : M A := fun m => match o with Ok a => Ok (a, m) | UB => UB | NoFuel => NoFuel end.

(** The variables of the loop: outp, escFirst, yencOffset, lfCompare. *)
Definition rvd_vars := (Z * N * vec * vec)%type.


(** Lines 90-265: one block.  Lines 81-84 and 244: the last bit of a mask. *)
Definition rvd_block (isRaw searchEnd : bool) (B : bufs) (src i : Z) (st : rvd_vars) : M (Z + rvd_vars) :=
  let '(p, escFirst, yencOffset, lfCompare) := st in
  data <- load_n B (src + i) dvl ;;
  let is c := map (fun b => beq b (u8 c)) in
  let cmpEq := is 61 data in
  let cmpCr := is 13 data in
  let cmpLf := if isRaw then map2 beq data lfCompare else is 10 data in
  let cmp := map2 (fun a b => negb (a || b)) (map2 orb cmpEq cmpCr) cmpLf in
  let numOutputChars := cpop cmp in
  if negb (numOutputChars =? Z.of_nat dvl) then
    x <- rvd_newlines isRaw searchEnd B (src + i) data cmp cmpEq cmpCr lfCompare ;;
    match x with
    | inl nextMask => ret (inl nextMask)
    | inr (cmp, lfCompare) =>
      '(cmpEq, cmpEqShift1, cmp) <- lift (rvd_escapes cmp cmpEq escFirst) ;;
      let numOutputChars := cpop cmp in
      let lastBit := map (fun b => beq b (u8 1)) (slide1down (splat 0) [u8 1]) in
      let escFirst := Z.to_N (cpop (map2 andb cmpEq lastBit)) in
      let data := map2 b_sub data (map2 (fun (b : bool) c => if b then u8 (64 + 42) else c) cmpEqShift1 yencOffset) in
      let yencOffset := set_first yencOffset (Z.lor 42 (Z.shiftl (Z.of_N escFirst) 6)) in
      let packed := compress cmp data in
      store_n B p (packed ++ map (d_tail rv) (seq (length packed) (dvl - length packed))) ;;;
      ret (inr (p + numOutputChars, escFirst, yencOffset, lfCompare))
    end
  else
    store_n B p (map2 b_sub data yencOffset) ;;;
    ret (inr (p + numOutputChars, 0%N, splat 42, if isRaw then splat 10 else lfCompare)).

(** Lines 64-266: [do_decode_rvv]. *)
Definition do_decode_rvv (isRaw searchEnd : bool) : kernel :=
  fun B src len p escFirst nextMask =>
    let yencOffset := splat 42 in
    let yencOffset := if negb (escFirst =? 0) then set_first yencOffset (42 + 64) else yencOffset in
    let lfCompare := splat 10 in
    let lfCompare :=
      if negb (nextMask =? 0) && isRaw then
        let w := if nextMask =? 1 then 0x0a2e else 0x2e0a in u8 w :: u8 (w / 256) :: skipn 2 lfCompare
      else lfCompare in
    nextMask <- nextMask_back isRaw B src len nextMask ;;
    '(stop, (p, escFirst, _, _)) <-
      block_loop (Z.to_nat len) (Z.of_nat dvl) (rvd_block isRaw searchEnd B src) (- len)
        (p, Z.to_N escFirst, yencOffset, lfCompare) ;;
    match stop with
    | Some (i, nextMask) => ret (len + i, p, Z.of_N escFirst, nextMask)
    | None => ret (len, p, Z.of_N escFirst, nextMask)
    end.

(** Lines 273-278: [decoder_set_rvv_funcs]. *)
Definition rvv_decoders : decoders :=
  simd (Z.of_nat dvl) (do_decode_rvv false false) (do_decode_rvv true false) (do_decode_rvv true true).
End Kernel.
