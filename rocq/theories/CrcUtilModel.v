(** Model of the crcutil library as node-yencode uses it: /repo/src/crc.cc lines 3-16,
    /repo/crcutil-1.0/examples/interface.cc, and of /repo/crcutil-1.0/code the files gf_util.h,
    generic_crc.h, multiword_64_64_gcc_amd64_asm.cc, multiword_64_64_gcc_i386_mmx.cc and
    multiword_64_64_intrinsic_i386_mmx.cc.  It is the generic CRC of x86 builds.

    The class template is instantiated as GenericCrc<uint64, uint64, uint64, 4> (interface.cc
    296-297); sizeof(Crc) and sizeof(Word) are 8, so that the branches for Crc wider than Word
    are left out.  uint64 values are [N] with wrapping written out.  PREFETCH expands to nothing
    (platform.h 123, 127-133).

    Simplifications.  Addresses do not wrap: the code computes end - 63 and compares it with src
    as unsigned numbers, which goes wrong for buffers that end below address 63; such buffers do
    not occur.  The missing "memory" clobber of the inline assembly, and its effect on what the
    compiler may do around it, are outside the model.  The rolling CRC, which the constructor
    sets up by calls to the functions modelled here (rolling_crc.h 60-84) and which is never
    used afterwards, is left out, as are the members of the library that are not called, and the
    assembly for compilers up to Visual Studio 2008 (multiword_64_64_cl_i386_mmx.cc). *)
From Verif Require Import Base CrcModel ClmulModel.
From Coq Require Import NArith.
Open Scope N_scope.

(** uint64 arithmetic. *)
Definition u64 (n : N) : N := N.land n 0xFFFFFFFFFFFFFFFF.
Definition shl64 (n k : N) : N := u64 (N.shiftl n k).
Definition dec64 (n : N) : N := if n =? 0 then 0xFFFFFFFFFFFFFFFF else n - 1.

(** ** gf_util.h *)

(** Lines 289-297: the members; normalize_[0] is 0 and normalize_[1] the polynomial (55-56). *)
Record gf := {
  generating_polynomial : N; degree : N; one : N; canonize : N; x_pow_2n : list N;
  crc_bytes_ : N; crc_of_crc : N; x_pow_minus_W : N
}.

(** 152-176: Multiply for the polynomial [poly], [one] being x^0.  The loop shifts [a] left until
    it is 0, which takes at most 64 iterations, so that the model's bound of 64 is none. *)
Fixpoint mult_loop (n : nat) (poly one a b product : N) : N :=
  if a =? 0 then product else
  match n with
  | O => product
  | S n =>
    let hit := negb (N.land a one =? 0) in
    let product := if hit then N.lxor product b else product in
    let a := if hit then N.lxor a one else a in
    let b := N.lxor (N.shiftr b 1) (if N.land b 1 =? 0 then 0 else poly) in
    mult_loop n poly one (shl64 a 1) b product
  end.
Definition gf_multiply (poly one aa bb : N) : N :=
  let '(a, b) := if N.lxor aa (dec64 aa) <? N.lxor bb (dec64 bb) then (bb, aa) else (aa, bb) in
  if a =? 0 then a else mult_loop 64 poly one a b 0.

(** 58-62: x_pow_2n_[i] = x^(2^i). *)
Fixpoint pow_2n (n : nat) (poly one k : N) : list N :=
  match n with
  | O => []
  | S n => k :: pow_2n n poly one (gf_multiply poly one k k)
  end.

(** 195-206: XpowN for a uint64 [n], with the table [p] of x^(2^i). *)
Fixpoint xpow_loop (p : list N) (poly one n result : N) : N :=
  match p with
  | [] => result
  | k :: p =>
    if n =? 0 then result else
    xpow_loop p poly one (N.shiftr n 1) (if N.land n 1 =? 0 then result else gf_multiply poly one result k)
  end.
Definition gf_xpow_n (p : list N) (poly one n : N) : N := xpow_loop p poly one n one.
(** 209-211: Xpow8N. *)
Definition gf_xpow_8n (p : list N) (poly one n : N) : N := gf_xpow_n p poly one (shl64 n 3).

(** 180-192: MultiplyUnnormalized; [n] bounds the iterations of the loop, of which there are
    degree / degree_. *)
Fixpoint unnorm_loop (n : nat) (g : gf) (v dg m result : N) : N :=
  match n with
  | O => result
  | S n =>
    if degree g <? dg then
      let dg := dg - degree g in
      let value := N.land v (N.lor (one g) (dec64 (one g))) in
      let mul := gf_multiply (generating_polynomial g) (one g) in
      unnorm_loop n g (N.shiftr v (degree g)) dg m
        (N.lxor result (mul value (mul m (gf_xpow_n (x_pow_2n g) (generating_polynomial g) (one g) dg))))
    else N.lxor result (gf_multiply (generating_polynomial g) (one g) (shl64 v (degree g - dg)) m)
  end.
Definition multiply_unnormalized (g : gf) (unnorm dg m : N) : N :=
  unnorm_loop (S (N.to_nat dg)) g unnorm dg m 0.

(** 217-250: Divide gives the remainder and the quotient.  [None] is a loop that has not ended
    after 64 iterations. *)
Fixpoint strip (n : nat) (divisor coef : N) : option (N * N) :=
  if N.land divisor 1 =? 0 then
    match n with
    | O => None
    | S n => strip n (N.shiftr divisor 1) (N.shiftr coef 1)
    end
  else Some (divisor, coef).
Fixpoint divide_loop (n : nat) (one dividend divisor quotient coef x_pow_degree_b : N) : option (N * N) :=
  match n with
  | O => None
  | S n =>
    let hit := negb (N.land dividend x_pow_degree_b =? 0) in
    let dividend := if hit then N.lxor dividend divisor else dividend in
    let quotient := if hit then N.lxor quotient coef else quotient in
    if coef =? one then Some (dividend, quotient)
    else divide_loop n one dividend (shl64 divisor 1) quotient (shl64 coef 1) (shl64 x_pow_degree_b 1)
  end.
Definition gf_divide (one dividend : N) (dividend_x_pow_D_coef : bool) (divisor : N) : option (N * N) :=
  match strip 64 divisor one with
  | None => None
  | Some (divisor, coef) =>
    let '(quotient, dividend) :=
      if dividend_x_pow_D_coef then (N.shiftr coef 1, N.lxor dividend (N.shiftr divisor 1)) else (0, dividend) in
    divide_loop 64 one dividend divisor quotient coef 1
  end.
(** 254-286: FindLCD gives B, which is all that Init uses. *)
Fixpoint lcd_loop (n : nat) (poly one : N) (top : bool) (r0 b0 r1 b1 : N) : option N :=
  match n with
  | O => None
  | S n =>
    match gf_divide one r0 top r1 with
    | None => None
    | Some (r, q) =>
      if r =? 0 then Some b1
      else lcd_loop n poly one false r1 b1 r (N.lxor b0 (gf_multiply poly one q b1))
    end
  end.
Definition find_lcd (poly one A : N) : option N :=
  if (A =? 0) || (A =? one) then Some A else lcd_loop 64 poly one true poly 0 A one.

(** 43-68: Init, for a degree of 1 to 64. *)
Definition gf_init (poly dg : N) (canonical : bool) : option gf :=
  let o := shl64 1 (dg - 1) in
  let c := if canonical then N.lor o (dec64 o) else 0 in
  let p := pow_2n 64 poly o (N.shiftr o 1) in
  let nb := N.shiftr (dg + 7) 3 in
  match find_lcd poly o (gf_xpow_8n p poly o nb) with
  | None => None
  | Some w =>
    Some {| generating_polynomial := poly; degree := dg; one := o; canonize := c; x_pow_2n := p; crc_bytes_ := nb;
            crc_of_crc := gf_multiply poly o c (N.lxor o (gf_xpow_8n p poly o nb)); x_pow_minus_W := w |}
  end.

(** ** generic_crc.h *)

(** 594-599: the tables. *)
Record generic_crc := { crc_word_interleaved : list (list N); crc_word : list (list N); base : gf }.

(** 151-160 and 175-184: one table of 256 entries, doubled for each power of two [i]: the entries
    i .. 2i-1 are [value] and [value] combined with the entries 1 .. i-1. *)
Definition fill (g : gf) (k : N) : list N :=
  fold_left (fun table i =>
               let value := multiply_unnormalized g i 8 k in
               table ++ value :: map (N.lxor value) (tl table))
            [1; 2; 4; 8; 16; 32; 64; 128] [0].
(** 128-187: Init. *)
Definition generic_init (poly dg : N) (canonical : bool) : option generic_crc :=
  match gf_init poly dg canonical with
  | None => None
  | Some g =>
    let tables stride := map (fun j => fill g (gf_xpow_n (x_pow_2n g) (generating_polynomial g) (one g)
                                                 ((8 * stride - 1 - j) * 8 + dg))) [0; 1; 2; 3; 4; 5; 6; 7] in
    Some {| crc_word_interleaved := tables 4; crc_word := tables 1; base := g |}
  end.

(** interface.cc 225-305: Create for a degree of up to 64, without SSE4.2 (crc.cc 8 passes 0).
    [Ok None] is a NULL result, [NoFuel] a call that does not end. *)
Definition crcutil_create (poly_lo poly_hi dg : N) (canonical : bool) : out (option generic_crc) :=
  if dg =? 0 then Ok None
  else if negb (poly_hi =? 0) || (negb (dg =? 64) && negb (N.shiftr poly_lo dg =? 0)) then Ok None
  else match generic_init poly_lo dg canonical with Some g => Ok (Some g) | None => NoFuel end.

(** How crcutil is compiled: [CU_cpp] is the template of generic_crc.h (Visual C++), [CU_amd64] the
    assembly for GCC and Clang on x86-64, [CU_mmx] the assembly for GCC on i386, [CU_intrin] the
    MMX intrinsics of other compilers on i386. *)
Inductive cu := CU_cpp | CU_amd64 | CU_mmx | CU_intrin.

(** Entry [i] of table [j]. *)
Definition entry (t : list (list N)) (j : nat) (i : N) : N := tab (nth j t []) i.
Definition lo8 (n : N) : N := N.land n 0xff.
(** Bits 8 to 15: the registers %ah, %bh, %ch, %dh. *)
Definition hi8 (n : N) : N := N.land (N.shiftr n 8) 0xff.

(** The eight lookups that replace a CRC register by the contents of [buf].
    generic_crc.h 53-60 and 516-517, 530-540, 544. *)
Fixpoint lookups_cpp (n : nat) (j : nat) (t : list (list N)) (crc buf : N) : N :=
  match n with
  | O => N.lxor crc (entry t j buf)
  | S n => lookups_cpp n (S j) t (N.lxor crc (entry t j (lo8 buf))) (N.shiftr buf 8)
  end.
(** gcc_amd64_asm.cc 109-127 and 168-221. *)
Definition lookups_amd64 (t : list (list N)) (buf : N) : N :=
  let crc := entry t 0 (lo8 buf) in
  let crc := N.lxor crc (entry t 1 (hi8 buf)) in
  let buf := N.shiftr buf 16 in
  let crc := N.lxor crc (entry t 2 (lo8 buf)) in
  let crc := N.lxor crc (entry t 3 (hi8 buf)) in
  let buf := N.shiftr buf 16 in
  let crc := N.lxor crc (entry t 4 (lo8 buf)) in
  let crc := N.lxor crc (entry t 5 (hi8 buf)) in
  let buf := N.shiftr buf 16 in
  let crc := N.lxor crc (entry t 6 (lo8 buf)) in
  N.lxor crc (entry t 7 (hi8 buf)).
(** gcc_i386_mmx.cc 48-70 and 137-195; intrinsic_i386_mmx.cc 60-76 and 131-185. *)
Definition lookups_mmx (t : list (list N)) (buf : N) : N :=
  let tmp := u32 buf in
  let buf := N.shiftr buf 32 in
  let crc := entry t 0 (lo8 tmp) in
  let tmp := N.shiftr tmp 8 in
  let crc := N.lxor crc (entry t 1 (lo8 tmp)) in
  let tmp := N.shiftr tmp 8 in
  let crc := N.lxor crc (entry t 2 (lo8 tmp)) in
  let tmp := N.shiftr tmp 8 in
  let crc := N.lxor crc (entry t 3 tmp) in
  let tmp := u32 buf in
  let crc := N.lxor crc (entry t 4 (lo8 tmp)) in
  let tmp := N.shiftr tmp 8 in
  let crc := N.lxor crc (entry t 5 (lo8 tmp)) in
  let tmp := N.shiftr tmp 8 in
  let crc := N.lxor crc (entry t 6 (lo8 tmp)) in
  let tmp := N.shiftr tmp 8 in
  N.lxor crc (entry t 7 tmp).
Definition lookups (v : cu) (t : list (list N)) (buf : N) : N :=
  match v with
  | CU_cpp => lookups_cpp 6 1 t (entry t 0 (lo8 buf)) (N.shiftr buf 8)
  | CU_amd64 => lookups_amd64 t buf
  | CU_mmx | CU_intrin => lookups_mmx t buf
  end.

Section Compute.
(** [strict] makes what the C++ standard leaves undefined but the compilers in use translate as
    intended undefined in the model too: access to a word through a misaligned pointer, and a
    pointer to before the start of the buffer. *)
Context (v : cu) (strict : bool) (g : generic_crc) (B : bufs).

(** generic_crc.h 35-38: CRC_BYTE; the byte loops of the assembly (gcc_amd64_asm.cc 261-266,
    gcc_i386_mmx.cc 236-242) do the same. *)
Definition cu_byte (crc byte : N) : N := N.lxor (N.shiftr crc 8) (entry (crc_word g) 7 (N.lxor (lo8 crc) byte)).
(** generic_crc.h 47-61: CRC_WORD; gcc_amd64_asm.cc 107-127: CRC_WORD_ASM; gcc_i386_mmx.cc 46-70
    and intrinsic_i386_mmx.cc 58-77: CRC_WORD_MMX. *)
Definition cu_word (v : cu) (crc buf : N) : N := lookups v (crc_word g) (N.lxor buf crc).

(** Is the pointer arithmetic and memory access of [v] written in C++?  The intrinsics access
    __m64, which has to be aligned as well. *)
Definition in_cpp (v : cu) : bool := match v with CU_cpp | CU_intrin => true | CU_amd64 | CU_mmx => false end.
(** A word at address [a], which C++ code requires to be aligned. *)
Definition load_word (cpp : bool) (a : Z) : M N :=
  if strict && cpp && negb (a mod 8 =? 0)%Z then ub else loadu B 8 a.

(** Bytes up to [e]: generic_crc.h 581-583, gcc_amd64_asm.cc 80-82 and 257-268, gcc_i386_mmx.cc
    38-40 and 232-244, intrinsic_i386_mmx.cc 35-37 and 230-232. *)
Fixpoint byte_loop (fuel : nat) (src e : Z) (crc : N) : M N :=
  if (src <? e)%Z then
    match fuel with
    | O => nofuel
    | S fuel => b <- load8 B src ;; byte_loop fuel (src + 1)%Z e (cu_byte crc b)
    end
  else ret crc.
(** generic_crc.h 65-73: ALIGN_ON_WORD_BOUNDARY.  It returns from the calling function when [src]
    reaches [e]; in the model the caller, which checks for this next, does. *)
Fixpoint align_loop (fuel : nat) (src e : Z) (crc : N) : M (Z * N) :=
  if (Z.land src 7 =? 0)%Z then ret (src, crc)
  else if (e <=? src)%Z then ret (src, crc)
  else match fuel with
  | O => nofuel
  | S fuel => b <- load8 B src ;; align_loop fuel (src + 1)%Z e (cu_byte crc b)
  end.
(** Words up to [stop]: generic_crc.h 574-577, gcc_amd64_asm.cc 244-252, gcc_i386_mmx.cc 221-228,
    intrinsic_i386_mmx.cc 218-221. *)
Fixpoint word_loop (fuel : nat) (src stop : Z) (crc : N) : M (Z * N) :=
  if (src <? stop)%Z then
    match fuel with
    | O => nofuel
    | S fuel => buf <- load_word (in_cpp v) src ;; word_loop fuel (src + 8)%Z stop (cu_word v crc buf)
    end
  else ret (src, crc).
(** Four words: generic_crc.h 493 and 545, gcc_amd64_asm.cc 149-152 and 212-221, gcc_i386_mmx.cc
    121-124 and 190-196, intrinsic_i386_mmx.cc 102-105 and 180-186. *)
Definition load4 (src : Z) : M (N * N * N * N) :=
  b0 <- load_word (in_cpp v) src ;; b1 <- load_word (in_cpp v) (src + 8) ;;
  b2 <- load_word (in_cpp v) (src + 16) ;; b3 <- load_word (in_cpp v) (src + 24) ;;
  ret (b0, b1, b2, b3).
(** The interleaved loop, entered with the first four words loaded, and its end: generic_crc.h
    498-568, gcc_amd64_asm.cc 156-240, gcc_i386_mmx.cc 127-216, intrinsic_i386_mmx.cc 122-203. *)
Definition chain (crc buf : N) : N := lookups v (crc_word_interleaved g) (N.lxor buf crc).
Fixpoint main_loop_cu (fuel : nat) (src stop : Z) (c : N * N * N * N) (b : N * N * N * N) : M (Z * N) :=
  match fuel with
  | O => nofuel
  | S fuel =>
    let '(c0, c1, c2, c3) := c in
    let '(b0, b1, b2, b3) := b in
    let src := (src + 32)%Z in
    let '(c0, c1, c2, c3) := (chain c0 b0, chain c1 b1, chain c2 b2, chain c3 b3) in
    '(b0, b1, b2, b3) <- load4 src ;;
    if (src <? stop)%Z then main_loop_cu fuel src stop (c0, c1, c2, c3) (b0, b1, b2, b3)
    else
      let c0 := cu_word v c0 b0 in
      let c0 := cu_word v c0 (N.lxor b1 c1) in
      let c0 := cu_word v c0 (N.lxor b2 c2) in
      let c0 := cu_word v c0 (N.lxor b3 c3) in
      ret ((src + 32)%Z, c0)
  end.
(** Where the interleaved loop stops: at end - 63 (generic_crc.h 475, gcc_amd64_asm.cc 145,
    gcc_i386_mmx.cc 114), or 32 bytes before the last whole group of 32 (intrinsic_i386_mmx.cc
    91-93; not entered if there are not two groups). *)
Definition main_stop (src e : Z) : Z :=
  match v with
  | CU_intrin => let bytes := ((e - src) / 32 * 32)%Z in if (32 <? bytes)%Z then (src + bytes - 32)%Z else src
  | _ => (e - 63)%Z
  end.
(** Where the loop over words stops: generic_crc.h 573, gcc_amd64_asm.cc 243, gcc_i386_mmx.cc 220;
    intrinsic_i386_mmx.cc 207 and 218. *)
Definition word_stop (src e : Z) : Z :=
  match v with
  | CU_intrin => (src + (e - src) / 8 * 8)%Z
  | _ => (e - 7)%Z
  end.

(** generic_crc.h 464-585, gcc_amd64_asm.cc 131-293, gcc_i386_mmx.cc 74-279,
    intrinsic_i386_mmx.cc 81-234. *)
Definition multiword (data bytes : Z) (start : N) : M N :=
  let fuel := S (Z.to_nat bytes) in
  let e := (data + bytes)%Z in
  let crc0 := N.lxor start (canonize (base g)) in
  '(src, crc0) <- (if (1024 <? bytes)%Z then align_loop fuel data e crc0 else ret (data, crc0)) ;;
  if (e <=? src)%Z then ret (N.lxor crc0 (canonize (base g)))
  else if strict && (match v with CU_cpp => true | _ => false end) && (e - 63 <? rlo B)%Z then ub
  else
    let stop := main_stop src e in
    '(src, crc0) <-
      (if (src <? stop)%Z then b <- load4 src ;; main_loop_cu fuel src stop (crc0, 0, 0, 0) b
       else ret (src, crc0)) ;;
    '(src, crc0) <- word_loop fuel src (word_stop src e) crc0 ;;
    crc0 <- byte_loop fuel src e crc0 ;;
    ret (N.lxor crc0 (canonize (base g))).

(** gcc_amd64_asm.cc 65-79: as many whole words as there are, up to [k] of them.  [i] counts from 1. *)
Fixpoint few_words (k : nat) (i bytes src : Z) (crc : N) : M (Z * N) :=
  match k with
  | O => ret (src, crc)
  | S k =>
    if (i * 8 <=? bytes)%Z then
      buf <- load_word true src ;; few_words k (i + 1)%Z bytes (src + 8)%Z (cu_word CU_cpp crc buf)
    else ret (src, crc)
  end.
(** CrcMultiword: gcc_amd64_asm.cc 52-86, gcc_i386_mmx.cc 33-44, intrinsic_i386_mmx.cc 28-41,
    generic_crc.h 457. *)
Definition crc_multiword (data bytes : Z) (start : N) : M N :=
  let fuel := S (Z.to_nat bytes) in
  match v with
  | CU_cpp => multiword data bytes start
  | CU_amd64 =>
    if (bytes <=? 47)%Z then
      let crc := N.lxor start (canonize (base g)) in
      '(src, crc) <- few_words 5 1 bytes data crc ;;
      crc <- byte_loop fuel src (data + bytes)%Z crc ;;
      ret (N.lxor crc (canonize (base g)))
    else multiword data bytes start
  | CU_mmx | CU_intrin =>
    if (bytes <=? 7)%Z then
      crc <- byte_loop fuel data (data + bytes)%Z (N.lxor start (canonize (base g))) ;;
      ret (N.lxor crc (canonize (base g)))
    else multiword data bytes start
  end.
End Compute.

(** /repo/src/crc.cc 8: GENERIC_CRC_INIT; 11-16: do_crc32_incremental_generic; interface.cc 111-116:
    Compute; generic_crc.h 190-192: CrcDefault. *)
Definition crcutil_crc : out (option generic_crc) := crcutil_create 0xEDB88320 0 32 true.
Definition do_crc32_incremental_crcutil (v : cu) (strict : bool) (B : bufs) (data length : Z) (init : N) : M N :=
  match crcutil_crc with
  | Ok (Some g) => tmp <- crc_multiword v strict g B data length init ;; ret (u32 tmp)
  | Ok None | UB => ub
  | NoFuel => nofuel
  end.
