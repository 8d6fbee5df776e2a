(** Model of the portable CRC code: /repo/src/crc.cc lines 20-183 and the inline
    functions of /repo/src/crc.h.

    uint32_t values are [N] with wrapping written out.  The host is little endian
    (for big endian hosts, lines 22-30 and 58-62, see CrcEndianModel.v).  The
    crcutil library, which x86 builds use in place of lines 19-131 unless
    YENC_DISABLE_CRCUTIL is set, is in CrcUtilModel.v. *)
From Verif Require Import Base.
From Coq Require Import NArith.
Open Scope N_scope.

(** uint32_t arithmetic. *)
Definition u32 (n : N) : N := N.land n 0xFFFFFFFF.
Definition not32 (n : N) : N := N.lxor n 0xFFFFFFFF.
Definition shl32 (n k : N) : N := u32 (N.shiftl n k).
Definition neg32 (n : N) : N := (2 ^ 32 - n) mod 2 ^ 32.

(** /repo/src/crc.cc lines 104-111: the byte-by-byte table. *)
Fixpoint table_bits (j : nat) (crc : N) : N :=
  match j with
  | O => crc
  | S j => table_bits j (N.lxor (N.shiftr crc 1) (N.land (neg32 (N.land crc 1)) 0xEDB88320))
  end.
Definition range256 : list N := map N.of_nat (seq 0 256).
Definition gen_base : list N := map (table_bits 8) range256.

(** Table lookup; the index is always below the table size. *)
Definition tab (t : list N) (i : N) : N := nth (N.to_nat i) t 0.

(** The expression (crc >> 8) ^ crc_base_table[(crc & 0xff) ^ byte]. *)
Definition byte_step (base : list N) (crc byte : N) : N :=
  N.lxor (N.shiftr crc 8) (tab base (N.lxor (N.land crc 0xff) byte)).

(** /repo/src/crc.cc lines 113-122: the slice tables.  The model has one list per
    256-entry slice; [CRC32_GENERIC_CHAINS] is 4. *)
Fixpoint zero_steps (base : list N) (n : nat) (crc : N) : N :=
  match n with
  | O => crc
  | S n => zero_steps base n (N.lxor (N.shiftr crc 8) (tab base (N.land crc 0xff)))
  end.
Definition gen_slice (base : list N) (i : nat) : list N :=
  map (fun v => zero_steps base (i + 1) (zero_steps base (4 * 4 - 5) (tab base v))) range256.

Record tables := { t0 : list N; t1 : list N; t2 : list N; t3 : list N; tbase : list N }.
(** /repo/src/crc.cc lines 101-130. *)
Definition generate_crc32_slice_table : tables :=
  let base := gen_base in
  {| t0 := gen_slice base 0; t1 := gen_slice base 1; t2 := gen_slice base 2;
     t3 := gen_slice base 3; tbase := base |}.

(** A byte load and a 32-bit little endian load. *)
Definition load8 (B : bufs) (a : Z) : M N := c <- load B a ;; ret (Byte.to_N c).
Definition load32 (B : bufs) (a : Z) : M N :=
  b0 <- load8 B a ;; b1 <- load8 B (a + 1) ;; b2 <- load8 B (a + 2) ;; b3 <- load8 B (a + 3) ;;
  ret (N.lor b0 (N.lor (N.shiftl b1 8) (N.lor (N.shiftl b2 16) (N.shiftl b3 24)))).

(** /repo/src/crc.cc lines 64-66: CRC_PROC4. *)
Definition proc4 (T : tables) (v inp : N) : N :=
  let v := N.lxor v inp in
  N.lxor (N.lxor (N.lxor (tab (t0 T) (N.shiftr v 24))
                         (tab (t1 T) (N.land (N.shiftr v 16) 0xff)))
                 (tab (t2 T) (N.land (N.shiftr v 8) 0xff)))
         (tab (t3 T) (N.land v 0xff)).

(** [n] byte steps from address [p] on. *)
Fixpoint bytes_step (T : tables) (B : bufs) (n : nat) (p : Z) (crc : N) : M N :=
  match n with
  | O => ret crc
  | S n => b <- load8 B p ;; bytes_step T B n (p + 1)%Z (byte_step (tbase T) crc b)
  end.

(** /repo/src/crc.cc lines 57-71: the main loop; [fuel] bounds the iterations. *)
Fixpoint main_loop (fuel : nat) (T : tables) (B : bufs) (p e : Z) (c0 c1 c2 c3 : N) : M (Z * N * N * N * N) :=
  if (p =? e)%Z then ret (p, c0, c1, c2, c3)
  else match fuel with
  | O => nofuel
  | S fuel =>
    w0 <- load32 B p ;; w1 <- load32 B (p + 4) ;; w2 <- load32 B (p + 8) ;; w3 <- load32 B (p + 12) ;;
    main_loop fuel T B (p + 16)%Z e (proc4 T c0 w0) (proc4 T c1 w1) (proc4 T c2 w2) (proc4 T c3 w3)
  end.

(** /repo/src/crc.cc lines 73-93: aggregation of the four chains. *)
Definition aggregate (T : tables) (B : bufs) (p end8 : Z) (c0 c1 c2 c3 : N) : M (Z * N) :=
  if negb (Z.land (end8 - p) 16 =? 0)%Z then
    w <- load32 B p ;;
    let c0 := proc4 T c0 w in
    let p := (p + 4)%Z in
    c1 <- bytes_step T B 4 p c1 ;;
    let c2 := N.lxor c2 c1 in
    c2 <- bytes_step T B 4 (p + 4) c2 ;;
    let c3 := N.lxor c3 c2 in
    c3 <- bytes_step T B 4 (p + 8) c3 ;;
    let c0 := N.lxor c0 c3 in
    ret ((p + 12)%Z, c0)
  else
    c0 <- bytes_step T B 4 p c0 ;;
    let c0 := N.lxor c0 c1 in
    c0 <- bytes_step T B 4 (p + 4) c0 ;;
    let c0 := N.lxor c0 c2 in
    c0 <- bytes_step T B 4 (p + 8) c0 ;;
    let c0 := N.lxor c0 c3 in
    ret ((p + 12)%Z, c0).

(** /repo/src/crc.cc lines 96-98: the tail loop. *)
Fixpoint tail_loop (fuel : nat) (T : tables) (B : bufs) (p e : Z) (crc : N) : M N :=
  if (p =? e)%Z then ret crc
  else match fuel with
  | O => nofuel
  | S fuel => b <- load8 B p ;; tail_loop fuel T B (p + 1)%Z e (byte_step (tbase T) crc b)
  end.

(** /repo/src/crc.cc lines 33-100: do_crc32_incremental_generic. *)
Definition do_crc32_incremental_generic (T : tables) (B : bufs) (data length : Z) (init : N) : M N :=
  let fuel := S (Z.to_nat length) in
  let crc := not32 init in
  '(p, length, crc) <-
    (if (Z.land data 1 =? 1)%Z && (1 <=? length)%Z
     then c <- bytes_step T B 1 data crc ;; ret ((data + 1)%Z, (length - 1)%Z, c)
     else ret (data, length, crc)) ;;
  '(p, length, crc) <-
    (if (Z.land p 2 =? 2)%Z && (2 <=? length)%Z
     then c <- bytes_step T B 2 p crc ;; ret ((p + 2)%Z, (length - 2)%Z, c)
     else ret (p, length, crc)) ;;
  let end8 := (p + length)%Z in
  '(p, crc) <-
    (if (8 * 4 - 4 <=? length)%Z then
       let lenMain := ((length - (4 - 1) * 4) / 4)%Z in
       let e := (p + 4 * (lenMain / 4 * 4))%Z in
       '(p, c0, c1, c2, c3) <- main_loop fuel T B p e crc 0 0 0 ;;
       aggregate T B p end8 c0 c1 c2 c3
     else ret (p, crc)) ;;
  crc <- tail_loop fuel T B p end8 crc ;;
  ret (not32 crc).

(** /repo/src/crc.cc lines 140-149: crc32_multiply_generic. *)
Fixpoint mul_loop (n : nat) (res a b : N) : N :=
  match n with
  | O => N.lxor res (N.land (neg32 (N.shiftr b 31)) a)
  | S n => mul_loop n (N.lxor res (N.land (neg32 (N.shiftr b 31)) a))
             (N.lxor (N.shiftr a 1) (N.land 0xEDB88320 (neg32 (N.land a 1))))
             (shl32 b 1)
  end.
Definition crc32_multiply_generic (a b : N) : N := mul_loop 31 0 a b.

(** /repo/src/crc.cc lines 152-157: crc_power. *)
Definition crc_power : list N := [
  0x40000000; 0x20000000; 0x08000000; 0x00800000; 0x00008000; 0xedb88320; 0xb1e6b092; 0xa06a2517;
  0xed627dae; 0x88d14467; 0xd7bbfe6a; 0xec447f11; 0x8e7ea170; 0x6427800e; 0x4d47bae0; 0x09fe548f;
  0x83852d0f; 0x30362f1a; 0x7b5a9cc3; 0x31fec169; 0x9fec022a; 0x6c8dedc4; 0x15d6874d; 0x5fde7a4e;
  0xbad90e37; 0x2e4e5eef; 0x4eaba214; 0xa8a472c0; 0x429a969e; 0x148d302a; 0xc40ba6d0; 0xc4e22c3c ].

(** __builtin_ctz (number of trailing zeros; the argument is not 0). *)
Fixpoint ctz_pos (p : positive) : N :=
  match p with xO p => N.succ (ctz_pos p) | _ => 0 end.
Definition ctz (n : N) : N := match n with 0 => 0 | Npos p => ctz_pos p end.

(** /repo/src/crc.cc lines 159-170 (GNU C) and identically 164-170 (MSVC):
    crc32_shift_generic. *)
Fixpoint shift_loop (fuel : nat) (result n : N) : N :=
  match fuel with
  | O => result
  | S fuel => if n =? 0 then result
              else shift_loop fuel (crc32_multiply_generic result (tab crc_power (ctz n))) (N.land n (n - 1))
  end.
Definition crc32_shift_generic (crc1 n : N) : N := shift_loop 32 crc1 n.

(** /repo/src/crc.cc lines 171-180: the variant for other compilers. *)
Fixpoint shift_loop_portable (fuel : nat) (result n power : N) : N :=
  match fuel with
  | O => result
  | S fuel => if n =? 0 then result
              else shift_loop_portable fuel
                     (if N.odd n then crc32_multiply_generic result (tab crc_power power) else result)
                     (N.shiftr n 1) (power + 1)
  end.
Definition crc32_shift_portable (crc1 n : N) : N := shift_loop_portable 32 crc1 n 0.

(** /repo/src/crc.h lines 25-30: crc32_powmod, GNU C (the MSVC variant, lines
    31-35, computes the same sum and carry). *)
Definition crc32_powmod (n : N) : N :=
  let s := u32 (N.shiftr n 32) + u32 n in
  let res := u32 s in
  let carry := N.shiftr s 32 in
  u32 (res + carry).
(** /repo/src/crc.h lines 36-40: the portable variant (64-bit arithmetic). *)
Definition crc32_powmod_portable (n : N) : N :=
  let n := N.shiftr n 32 + N.land n 0xFFFFFFFF in
  let n := (n + N.shiftr n 32) mod 2 ^ 64 in
  u32 n.

(** /repo/src/crc.h lines 43-50: crc32_bytepow, GNU C and MSVC. *)
Definition crc32_bytepow (n : N) : N :=
  let res := crc32_powmod n in
  N.lor (shl32 res 3) (N.shiftr res 29).
(** /repo/src/crc.h lines 51-56: the portable variant. *)
Definition crc32_bytepow_portable (n : N) : N :=
  let n := N.shiftr n 32 + N.land n 0xFFFFFFFF in
  let n := N.shiftl n 3 mod 2 ^ 64 in
  let n := (n + N.shiftr n 32) mod 2 ^ 64 in
  u32 n.

(** The functions behind the pointers _crc32_shift and _crc32_multiply
    (/repo/src/crc.h lines 59-67). *)
Definition mulfun := N -> N -> N.

(** /repo/src/crc.h lines 69-71. *)
Definition crc32_combine (shift : mulfun) (crc1 crc2 len2 : N) : N :=
  N.lxor (shift crc1 (crc32_bytepow len2)) crc2.
(** /repo/src/crc.h lines 72-74. *)
Definition crc32_zeros (shift : mulfun) (crc1 len : N) : N :=
  not32 (shift (not32 crc1) (crc32_bytepow len)).
(** /repo/src/crc.h lines 75-77. *)
Definition crc32_unzero (shift : mulfun) (crc1 len : N) : N :=
  not32 (shift (not32 crc1) (not32 (crc32_bytepow len))).
(** /repo/src/crc.h lines 78-81; llabs of the smallest int64_t is undefined
    behaviour ([None]). *)
Definition crc32_2pow (shift : mulfun) (n : Z) : option N :=
  if (n =? - 2 ^ 63)%Z then None
  else
    let sign := if (n <? 0)%Z then 0xFFFFFFFF else 0 in
    Some (shift 0x80000000 (N.lxor (crc32_powmod (Z.to_N (Z.abs n))) sign)).
(** /repo/src/crc.h lines 82-84. *)
Definition crc32_256pow (shift : mulfun) (n : N) : N := shift 0x80000000 (crc32_bytepow n).

(** /repo/src/yencode.cc lines 335-338: read_crc32 of a 4-byte Buffer. *)
Definition read_crc32 (arr : list byte) : N :=
  let at_ i := Byte.to_N (nth i arr x00) in
  u32 (N.lor (N.shiftl (at_ 0%nat) 24) (N.lor (N.shiftl (at_ 1%nat) 16) (N.lor (N.shiftl (at_ 2%nat) 8) (at_ 3%nat)))).
(** /repo/src/yencode.cc lines 339-351: pack_crc32. *)
Definition pack_crc32 (crc : N) : list byte :=
  let uc n := u8 (Z.of_N n) in
  [ uc (N.shiftr crc 24); uc (N.shiftr crc 16); uc (N.shiftr crc 8); uc crc ].

(** /repo/src/yencode.cc lines 354-373: CRC32.  [init] is the second argument; its
    length is checked, that both are Buffers is not modelled. *)
Definition crc_fun := bufs -> Z -> Z -> N -> M N.
Inductive jsres (A : Type) := JThrows | JReturns (a : A) | JUB.
Arguments JThrows {A}. Arguments JReturns {A} a. Arguments JUB {A}.

Definition is4 (b : list byte) : bool := Nat.eqb (length b) 4.

Definition node_crc32 (f : crc_fun) (src len : Z) (init : option (list byte)) (m : mem) : jsres (list byte) :=
  match init with
  | Some b => if is4 b then
      match f {| rlo := src; rhi := src + len; wlo := 0; whi := 0 |} src len (read_crc32 b) m with
      | Ok (c, _) => JReturns (pack_crc32 c) | _ => JUB end
      else JThrows
  | None =>
      match f {| rlo := src; rhi := src + len; wlo := 0; whi := 0 |} src len 0 m with
      | Ok (c, _) => JReturns (pack_crc32 c) | _ => JUB end
  end.

(** /repo/src/yencode.cc lines 375-389: CRC32Combine; size_t has 64 bits. *)
Definition node_crc32_combine (shift : mulfun) (a b : list byte) (len : Z) : jsres (list byte) :=
  if is4 a && is4 b then
    JReturns (pack_crc32 (crc32_combine shift (read_crc32 a) (read_crc32 b) (Z.to_N (len mod 2 ^ 64))))
  else JThrows.

(** Negation of a C int: undefined for INT_MIN. *)
Definition neg_int (n : Z) : option Z := if (n =? INT_MIN)%Z then None else Some (- n)%Z.

Definition init_crc (dflt : N) (init : option (list byte)) : option N :=
  match init with
  | Some b => if is4 b then Some (read_crc32 b) else None
  | None => Some dflt
  end.

(** /repo/src/yencode.cc lines 391-409: CRC32Zeroes. *)
Definition node_crc32_zeroes (shift : mulfun) (len : Z) (init : option (list byte)) : jsres (list byte) :=
  match init_crc 0 init with
  | None => JThrows
  | Some crc1 =>
    let len := to_int32 len in
    if (len <? 0)%Z then
      match neg_int len with
      | Some l => JReturns (pack_crc32 (crc32_unzero shift crc1 (Z.to_N l)))
      | None => JUB
      end
    else JReturns (pack_crc32 (crc32_zeros shift crc1 (Z.to_N len)))
  end.

(** /repo/src/yencode.cc lines 411-425: CRC32Multiply. *)
Definition node_crc32_multiply (mul : mulfun) (a b : list byte) : jsres (list byte) :=
  if is4 a && is4 b then JReturns (pack_crc32 (mul (read_crc32 a) (read_crc32 b))) else JThrows.

(** /repo/src/yencode.cc lines 427-445: CRC32Shift. *)
Definition node_crc32_shift (shift : mulfun) (n : Z) (init : option (list byte)) : jsres (list byte) :=
  match init_crc 0x80000000 init with
  | None => JThrows
  | Some crc1 =>
    let n := to_int32 n in
    if (n <? 0)%Z then
      match neg_int n with
      | Some k => JReturns (pack_crc32 (shift crc1 (not32 (crc32_powmod (Z.to_N k)))))
      | None => JUB
      end
    else JReturns (pack_crc32 (shift crc1 (crc32_powmod (Z.to_N n))))
  end.
