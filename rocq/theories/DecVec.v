(** The SSE instructions the x86 kernels use, on vectors of 16 bytes.

    Nothing in this file models code of /repo: each definition states what the
    instruction of the same name does (Intel intrinsics, byte 0 first). *)
From Verif Require Import Base DecMaskSpec.

Definition vec := list byte.

Fixpoint map2 {A C D} (f : A -> C -> D) (x : list A) (y : list C) : list D :=
  match x, y with
  | a :: x', b :: y' => f a b :: map2 f x' y'
  | _, _ => []
  end.

(** ** Memory *)

Fixpoint load_n (B : bufs) (a : Z) (n : nat) : M vec :=
  match n with
  | O => ret []
  | S k => b <- load B a ;; t <- load_n B (a + 1) k ;; ret (b :: t)
  end.

Fixpoint store_n (B : bufs) (a : Z) (v : vec) : M unit :=
  match v with
  | [] => ret tt
  | b :: t => store B a b ;;; store_n B (a + 1) t
  end.

(** An aligned load faults on an address that is not a multiple of [n]. *)
Definition load_aligned (B : bufs) (a : Z) (n : nat) : M vec :=
  if a mod Z.of_nat n =? 0 then load_n B a n else ub.

Definition mm_load (B : bufs) (a : Z) : M vec := load_aligned B a 16.
Definition mm_loadu (B : bufs) (a : Z) : M vec := load_n B a 16.

(** ** Bytewise *)

Definition b_and (a b : byte) : byte := u8 (Z.land (bz a) (bz b)).
Definition b_or (a b : byte) : byte := u8 (Z.lor (bz a) (bz b)).
Definition b_xor (a b : byte) : byte := u8 (Z.lxor (bz a) (bz b)).
Definition b_andnot (a b : byte) : byte := u8 (Z.land (Z.lnot (bz a)) (bz b)).
Definition b_add (a b : byte) : byte := u8 (bz a + bz b).
Definition b_min (a b : byte) : byte := u8 (Z.min (bz a) (bz b)).
Definition b_subs (a b : byte) : byte := u8 (Z.max 0 (bz a - bz b)).
Definition b_top (a : byte) : bool := 128 <=? bz a.
Definition bm (b : bool) : byte := if b then xff else x00.

Definition v_set1 (z : Z) : vec := repeat (u8 z) 16.
Definition v_and : vec -> vec -> vec := map2 b_and.
Definition v_or : vec -> vec -> vec := map2 b_or.
Definition v_xor : vec -> vec -> vec := map2 b_xor.
Definition v_andnot : vec -> vec -> vec := map2 b_andnot.
Definition v_add : vec -> vec -> vec := map2 b_add.
Definition v_min : vec -> vec -> vec := map2 b_min.
Definition v_subs : vec -> vec -> vec := map2 b_subs.
Definition v_cmpeq : vec -> vec -> vec := map2 (fun a b => bm (beq a b)).
Definition v_blendv (a b m : vec) : vec := map2 (fun ab c => if b_top c then snd ab else fst ab) (map2 pair a b) m.
Definition v_movemask (v : vec) : N := mask_of (map b_top v).

(** ** Whole register *)

(** Shift by [n] bytes, zeroes coming in. *)
Definition v_slli (v : vec) (n : nat) : vec := firstn 16 (repeat x00 n ++ v).
Definition v_srli (v : vec) (n : nat) : vec := skipn n v ++ repeat x00 n.
Definition v_alignr (a b : vec) (n : nat) : vec := firstn 16 (skipn n (b ++ a)).
Definition v_shuffle (v idx : vec) : vec :=
  map (fun i => if b_top i then x00 else nth (Z.to_nat (Z.land (bz i) 15)) v x00) idx.
Definition v_insert16 (v : vec) (w : Z) : vec := u8 w :: u8 (w / 256) :: skipn 2 v.
(** A 32-bit integer in the low lane. *)
Definition v_cvtsi32 (w : Z) : vec := u8 w :: u8 (w / 256) :: u8 (w / 65536) :: u8 (w / 16777216) :: repeat x00 12.

(** ** 16-bit lanes *)

Fixpoint lanes16 (f : Z -> Z -> Z) (x y : vec) : vec :=
  match x, y with
  | a :: b :: x', c :: d :: y' =>
    let r := f (bz a + 256 * bz b) (bz c + 256 * bz d) in
    u8 r :: u8 (r / 256) :: lanes16 f x' y'
  | _, _ => []
  end.

Definition v_set1_16 (w : Z) : vec := flat_map (fun _ => [u8 w; u8 (w / 256)]) (repeat tt 8).
Definition v_cmpeq16 : vec -> vec -> vec := lanes16 (fun a b => if a =? b then 65535 else 0).
Definition v_slli16 (v : vec) (n : Z) : vec := lanes16 (fun a _ => a * 2 ^ n) v v.
Definition v_srli16 (v : vec) (n : Z) : vec := lanes16 (fun a _ => a / 2 ^ n) v v.
