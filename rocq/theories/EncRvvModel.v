(** Model of the RVV kernel of the encoder (/repo/src/encoder_rvv.cc).

    The vector length is a parameter.  Masks are lists of booleans; where the code
    reinterprets a mask as bytes, so does the model.  The intrinsics cap the vector
    length they are given to what the registers hold, as the instruction vsetvli
    does; the model's operations work on all elements there are.  Elements that
    vcompress leaves open are a parameter. *)
From Verif Require Import Base EncModel DecMaskSpec DecMaskModel DecVec EncSseModel EncLoopModel.

Record rvv := {
  r_units : nat;      (* VLEN is 128 * (r_units + 1) bits *)
  r_tail : nat -> byte (* the elements vcompress does not write *)
}.

(** ** Instructions; nothing here models code of /repo *)

(** vcpop.m *)
Fixpoint cpop (l : list bool) : Z :=
  match l with [] => 0 | b :: t => (if b then 1 else 0) + cpop t end.
(** vmsbf.m: set before the first set bit. *)
Fixpoint msbf (l : list bool) : list bool :=
  match l with [] => [] | b :: t => if b then map (fun _ => false) l else true :: msbf t end.
(** viota.m on 16-bit elements. *)
Fixpoint iota (acc : Z) (l : list bool) : list Z :=
  match l with [] => [] | b :: t => acc mod 65536 :: iota (acc + if b then 1 else 0) t end.
(** vcompress.vm *)
Fixpoint compress (m : list bool) (v : vec) : vec :=
  match m, v with
  | b :: m', x :: v' => if b then x :: compress m' v' else compress m' v'
  | _, _ => []
  end.
(** vse8.v with a mask. *)
Fixpoint store_masked (B : bufs) (a : Z) (m : list bool) (v : vec) : M unit :=
  match m, v with
  | b :: m', x :: v' => (if b then store B a x else ret tt) ;;; store_masked B (a + 1) m' v'
  | _, _ => ret tt
  end.
(** The bytes of a register that holds a mask, and back. *)
Fixpoint mask_bytes (n : nat) (l : list bool) : list N :=
  match n with O => [] | S k => mask_of (firstn 8 l) :: mask_bytes k (skipn 8 l) end.
Definition bits8 (b : N) : list bool := map (N.testbit b) [0; 1; 2; 3; 4; 5; 6; 7]%N.
(** The bytes of a 16-bit element. *)
Definition bytes2 (w : N) : list N := [N.modulo w 256; N.div w 256].

(** ** The code *)

(** Lines 8-30: encode_eol_handle_pre. *)
Definition rvv_eol (B : bufs) (line_size es i p : Z) : M (Z * Z * Z) :=
  c <- load B (es + i) ;;
  p <- (if negb (escapedLUT c =? 0) && negb (bz c =? 46 - 42) then store16 B p (escapedLUT c) ;;; ret (p + 2)
        else store B p (u8 (bz c + 42)) ;;; ret (p + 1)) ;;
  c <- load B (es + (i + 1)) ;;
  '(p, n) <- enc_eol B c p ;;
  ret (i + 2, p, - line_size + 1 + n).

Section Kernel.
Variable rv : rvv.

(** Line 35: vsetvlmax_e8m2, that is VLEN * 2 / 8. *)
Definition vl2 : nat := 32 * S (r_units rv).

(** Lines 81-83. *)
Definition alt_shift : list N := concat (repeat [4; 0]%N (vl2 / 8)).
Definition rvv_mask_expand : list N :=
  [0xAA; 0xAB; 0xAE; 0xAF; 0xBA; 0xBB; 0xBE; 0xBF; 0xEA; 0xEB; 0xEE; 0xEF; 0xFA; 0xFB; 0xFE; 0xFF]%N.

(** Lines 94-107. *)
Definition rvv_tmp (data : vec) : vec := map (fun c => b_sub c (u8 (-42))) data.
Definition rvv_cmp (data : vec) : list bool :=
  map2 orb
    (map2 orb (map (fun c => beq c (u8 (-42))) data) (map (fun c => beq c (u8 61)) (rvv_tmp data)))
    (map2 orb (map (fun c => beq c (u8 (13 - 42))) data) (map (fun c => beq c (u8 (10 - 42))) data)).

(** Lines 109-113. *)
Definition rvv_data (data : vec) : vec :=
  map2 (fun (b : bool) c => if b then b_or c (u8 64) else c) (rvv_cmp data) (rvv_tmp data).

(** Lines 118-127: a mask with two bits for each character.  (The upper half of the
    indices for vrgather is not defined, and its result not used.) *)
Definition rvv_expand_mask (cmp : list bool) : list bool :=
  let vcmp := mask_bytes (vl2 / 8) cmp in
  let xcmp := concat (map (fun b => bytes2 (b * 16)%N) vcmp) in
  let xcmp := map2 N.shiftr xcmp alt_shift in
  concat (map bits8 (map (fun k => nth (N.to_nat k) rvv_mask_expand 0%N) xcmp)).

(** Lines 131-136: '=' before each character. *)
Definition rvv_pairs (data : vec) : vec :=
  concat (map (fun c => map (fun b => u8 (Z.of_N b)) (bytes2 (N.lor (uint 16 (N.shiftl (Z.to_N (bz c)) 8)) 61))) data).

(** Lines 116-161; [i] is after the block. *)
Definition rvv_slow (B : bufs) (i p col : Z) (cmp : list bool) (data : vec) : M blk :=
  let n := Z.of_nat vl2 in
  let count := cpop cmp in
  let cmpmask := rvv_expand_mask cmp in
  let packed := compress cmpmask (rvv_pairs data) in
  store_n B p (packed ++ map (r_tail rv) (seq (length packed) (vl2 * 2 - length packed))) ;;;
  let p := p + n + count in
  let col := col + n + count in
  if 0 <=? col then
    let xidx := iota 0 cmpmask in
    let discardmask := map (fun x => (n + count - col) mod 65536 <=? x) xidx in
    let idx_revert := cpop discardmask in
    ret (Eol (i - Z.shiftr (idx_revert + 1) 1) (p - (col + Z.land idx_revert 1)))
  else ret (Next p col).

(** Lines 164-187; [i] is after the block. *)
Definition rvv_fast (B : bufs) (i p col : Z) (cmp : list bool) (data : vec) : M blk :=
  let n := Z.of_nat vl2 in
  let count := cpop cmp in
  let mask := msbf cmp in
  store_masked B p mask data ;;;
  let idx := cpop mask in
  store B (p + idx) (u8 61) ;;;
  store_masked B (p + 1) (map negb mask) data ;;;
  let p := p + n + count in
  let col := col + n + count in
  if 0 <=? col then
    let '(p, i) :=
      if 0 <? count then
        let idx := n - idx in
        if col =? idx then (p - 1, i) else (p, i + if idx <? col then 1 else 0)
      else (p, i) in
    ret (Eol (i - col) (p - col))
  else ret (Next p col).

(** Lines 88-191: one block. *)
Definition rvv_block (B : bufs) (es i p col : Z) : M blk :=
  data <- load_n B (es + i) vl2 ;;
  let cmp := rvv_cmp data in
  let i := i + Z.of_nat vl2 in
  if 1 <? cpop cmp then rvv_slow B i p col cmp (rvv_data data)
  else rvv_fast B i p col cmp (rvv_data data).

(** Lines 34-198: [do_encode_rvv]. *)
Definition do_encode_rvv : enc_kernel := fun B line_size col srcEnd dest len =>
  let off := Z.of_nat vl2 * 2 - 1 in
  if (len <=? off) || (line_size <? Z.of_nat vl2 * 2) then ret (col, dest, len)
  else
    let i := - len + off in
    let es := srcEnd - off in
    '(i, p, col) <- enc_begin B line_size es (rvv_eol B line_size es) i dest (col - line_size + 1) ;;
    '(i, p, col) <- enc_loop (Z.to_nat len) (rvv_block B es) (rvv_eol B line_size es) (Z.of_nat vl2) i p col ;;
    ret (col + line_size - 1, p, - (i - off)).

End Kernel.
