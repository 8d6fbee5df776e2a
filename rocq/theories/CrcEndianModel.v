(** The portable CRC code on hosts of either byte order: /repo/src/crc.cc lines 20-100.  [CrcModel.v] has the
    little-endian code; what does not load words is taken from there. *)
From Verif Require Import Base CrcModel EndianModel.
From Coq Require Import NArith.
Open Scope N_scope.

(** /repo/src/crc.cc lines 26-28: bswap32 (lines 23-24 use the compiler's, which does the same). *)
Definition bswap32 (x : N) : N :=
  N.lor (N.lor (N.lor (N.shiftr x 24) (N.land (N.shiftr x 8) 0x0000FF00)) (N.land (shl32 x 8) 0x00FF0000)) (shl32 x 24).

(** A load of a uint32_t. *)
Definition o_load32 (o : order) (B : bufs) (a : Z) : M N :=
  match o with
  | Little => load32 B a
  | Big =>
    b0 <- load8 B a ;; b1 <- load8 B (a + 1) ;; b2 <- load8 B (a + 2) ;; b3 <- load8 B (a + 3) ;;
    ret (N.lor (N.shiftl b0 24) (N.lor (N.shiftl b1 16) (N.lor (N.shiftl b2 8) b3)))
  end.

(** /repo/src/crc.cc lines 58-66: CRC_PROC4. *)
Definition o_proc4 (o : order) (T : tables) (v inp : N) : N :=
  let v := N.lxor v (match o with Big => bswap32 inp | Little => inp end) in
  N.lxor (N.lxor (N.lxor (tab (t0 T) (N.shiftr v 24))
                         (tab (t1 T) (N.land (N.shiftr v 16) 0xff)))
                 (tab (t2 T) (N.land (N.shiftr v 8) 0xff)))
         (tab (t3 T) (N.land v 0xff)).

(** /repo/src/crc.cc lines 57-71, as [main_loop]. *)
Fixpoint o_main_loop (o : order) (fuel : nat) (T : tables) (B : bufs) (p e : Z) (c0 c1 c2 c3 : N) : M (Z * N * N * N * N) :=
  if (p =? e)%Z then ret (p, c0, c1, c2, c3)
  else match fuel with
  | O => nofuel
  | S fuel =>
    w0 <- o_load32 o B p ;; w1 <- o_load32 o B (p + 4) ;; w2 <- o_load32 o B (p + 8) ;; w3 <- o_load32 o B (p + 12) ;;
    o_main_loop o fuel T B (p + 16)%Z e (o_proc4 o T c0 w0) (o_proc4 o T c1 w1) (o_proc4 o T c2 w2) (o_proc4 o T c3 w3)
  end.

(** /repo/src/crc.cc lines 73-93, as [aggregate]. *)
Definition o_aggregate (o : order) (T : tables) (B : bufs) (p end8 : Z) (c0 c1 c2 c3 : N) : M (Z * N) :=
  if negb (Z.land (end8 - p) 16 =? 0)%Z then
    w <- o_load32 o B p ;;
    let c0 := o_proc4 o T c0 w in
    let p := (p + 4)%Z in
    c1 <- bytes_step T B 4 p c1 ;;
    let c2 := N.lxor c2 c1 in
    c2 <- bytes_step T B 4 (p + 4) c2 ;;
    let c3 := N.lxor c3 c2 in
    c3 <- bytes_step T B 4 (p + 8) c3 ;;
    let c0 := N.lxor c0 c3 in
    ret ((p + 12)%Z, c0)
  else
    c0 <- bytes_step T B 4 p c0 ;;
    let c0 := N.lxor c0 c1 in
    c0 <- bytes_step T B 4 (p + 4) c0 ;;
    let c0 := N.lxor c0 c2 in
    c0 <- bytes_step T B 4 (p + 8) c0 ;;
    let c0 := N.lxor c0 c3 in
    ret ((p + 12)%Z, c0).

(** /repo/src/crc.cc lines 33-100: do_crc32_incremental_generic. *)
Definition o_crc32_generic (o : order) (T : tables) (B : bufs) (data length : Z) (init : N) : M N :=
  let fuel := S (Z.to_nat length) in
  let crc := not32 init in
  '(p, length, crc) <-
    (if (Z.land data 1 =? 1)%Z && (1 <=? length)%Z
     then c <- bytes_step T B 1 data crc ;; ret ((data + 1)%Z, (length - 1)%Z, c)
     else ret (data, length, crc)) ;;
  '(p, length, crc) <-
    (if (Z.land p 2 =? 2)%Z && (2 <=? length)%Z
     then c <- bytes_step T B 2 p crc ;; ret ((p + 2)%Z, (length - 2)%Z, c)
     else ret (p, length, crc)) ;;
  let end8 := (p + length)%Z in
  '(p, crc) <-
    (if (8 * 4 - 4 <=? length)%Z then
       let lenMain := ((length - (4 - 1) * 4) / 4)%Z in
       let e := (p + 4 * (lenMain / 4 * 4))%Z in
       '(p, c0, c1, c2, c3) <- o_main_loop o fuel T B p e crc 0 0 0 ;;
       o_aggregate o T B p end8 c0 c1 c2 c3
     else ret (p, crc)) ;;
  crc <- tail_loop fuel T B p end8 crc ;;
  ret (not32 crc).
