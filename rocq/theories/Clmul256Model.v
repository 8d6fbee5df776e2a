(** Model of the VPCLMULQDQ code, /repo/src/crc_folding_256.cc.

    A __m256i is the pair of its low and high 128-bit lanes.  zext128_256 (39-51)
    clears the upper lane; for compilers where it is a plain cast, which leaves the
    upper lane undefined, the model takes the lane to be zero as the code expects. *)
From Verif Require Import Base CrcModel ClmulModel.
From Coq Require Import NArith.
Open Scope N_scope.

Definition v256 : Type := N * N.

(** _mm256_permute2x128_si256. *)
Definition permute2x128 (a b : v256) (imm : N) : v256 :=
  let pick s := if N.testbit imm (s + 3) then 0
    else if N.testbit imm (s + 1) then (if N.testbit imm s then snd b else fst b)
    else (if N.testbit imm s then snd a else fst a) in
  (pick 0, pick 4).
(** _mm256_shuffle_epi8, with the same indices in both lanes. *)
Definition shuffle256 (x : v256) (idx : N) : v256 := (shuffle_epi8 (fst x) idx, shuffle_epi8 (snd x) idx).
(** _mm256_cmpgt_epi8(x, set1(15)), one lane: signed bytes above 15. *)
Definition cmpgt_15 (x : N) : N :=
  of_bytes 16 (fun i => let b := byte_at x i in if (15 <? b) && (b <? 128) then 0xFF else 0).
(** _mm256_blendv_epi8, one lane. *)
Definition blendv (a b m : N) : N :=
  of_bytes 16 (fun i => if N.testbit (byte_at m i) 7 then byte_at b i else byte_at a i).

Section Folding256.
Context (avx512 strict : bool).

(** MM256_BLENDV, 53-59, with the same mask in both lanes. *)
Definition blend1 (a b m : N) : N := if avx512 then ternary a b m 0xd8 else blendv a b m.
Definition blend256 (a b : v256) (m : N) : v256 := (blend1 (fst a) (fst b) m, blend1 (snd a) (snd b) m).

(** do_one_fold, 14-33, in each lane. *)
Definition one_fold1 (src data : N) : N :=
  if avx512 then ternary (mm_clmul src fold4 0x01) (mm_clmul src fold4 0x10) data 0x96
  else N.lxor (N.lxor data (mm_clmul src fold4 0x01)) (mm_clmul src fold4 0x10).
Definition one_fold256 (src data : v256) : v256 := (one_fold1 (fst src) (fst data), one_fold1 (snd src) (snd data)).

(** pshufb_rot_table, 35-38: the bytes 0 to 31. *)
Definition rot_index (k : N) : N := of_bytes 16 (fun i => k + i).

(** partial_fold, 61-88. *)
Definition partial_fold256 (len : N) (crc0 crc1 crc_part : v256) : v256 * v256 :=
  let shuf := rot_index (N.land len 15) in
  let mask := cmpgt_15 shuf in
  let crc0 := shuffle256 crc0 shuf in
  let crc1 := shuffle256 crc1 shuf in
  let crc_part := shuffle256 crc_part shuf in
  let crc_out := permute2x128 crc0 crc0 0x08 in
  let '(crc_out, crc01, crc1p, crc0, crc1) :=
    if 16 <=? len then
      (blend256 crc_out crc0 mask, crc1, crc_part,
       permute2x128 crc0 crc1 0x21, permute2x128 crc1 crc_part 0x21)
    else
      ((N.land (fst crc_out) mask, N.land (snd crc_out) mask),
       permute2x128 crc0 crc1 0x21, permute2x128 crc1 crc_part 0x21, crc0, crc1) in
  let crc0 := blend256 crc0 crc01 mask in
  let crc1 := blend256 crc1 crc1p mask in
  (crc0, one_fold256 crc_out crc1).

Definition split256 (x : N) : v256 := (N.land x W128, N.shiftr x 128).

(** The final reduction, 146-206, is that of crc_folding.cc. *)
Definition fold_done256 (c : v256 * v256) : N :=
  fold_done avx512 (fst (fst c), snd (fst c), fst (snd c), snd (snd c)).

(** The loop, 125-130. *)
Fixpoint fold_loop256 (fuel : nat) (B : bufs) (src len : Z) (c : v256 * v256) : M (Z * Z * (v256 * v256)) :=
  if (64 <=? len)%Z then
    match fuel with
    | O => nofuel
    | S f =>
      t0 <- loada strict B 32 src ;;
      t1 <- loada strict B 32 (src + 32) ;;
      fold_loop256 f B (src + 64) (len - 64)
        (one_fold256 (fst c) (split256 t0), one_fold256 (snd c) (split256 t1))
    end
  else ret (src, len, c).

(** crc_fold, 101-207. *)
Definition crc_fold256 (B : bufs) (src len : Z) (initial : N) : M N :=
  let crc0 := (mm_clmul (not32 initial) 0xdfded7ec 0, 0) in
  let crc1 := (0, 0) in
  if (len <? 32)%Z then
    if (len =? 0)%Z then ret initial
    else if (len <? 0)%Z then ub
    else
      part <- loadu B (Z.to_nat len) src ;;
      ret (fold_done256 (partial_fold256 (Z.to_N len) crc0 crc1 (split256 part)))
  else
    let algn_diff := ((- src) mod 32)%Z in
    '(src, len, c) <-
      (if (algn_diff =? 0)%Z then ret (src, len, (crc0, crc1))
       else
         part <- loadu B 32 src ;;
         ret ((src + algn_diff)%Z, (len - algn_diff)%Z,
              partial_fold256 (Z.to_N algn_diff) crc0 crc1 (split256 part))) ;;
    '(src, len, c) <- fold_loop256 (Z.to_nat len) B src len c ;;
    '(src, len, c) <-
      (if (32 <=? len)%Z then
         t <- loada strict B 32 src ;;
         ret ((src + 32)%Z, (len - 32)%Z, (snd c, one_fold256 (fst c) (split256 t)))
       else ret (src, len, c)) ;;
    c <- (if (len =? 0)%Z then ret c
          else
            part <- loada strict B 32 src ;;
            ret (partial_fold256 (Z.to_N len) (fst c) (snd c) (split256 part))) ;;
    ret (fold_done256 c).

(** do_crc32_incremental_clmul, 209-211. *)
Definition do_crc32_incremental_clmul256 (long_bits : Z) (B : bufs) (data length : Z) (init : N) : M N :=
  crc_fold256 B data (to_signed long_bits length) init.

End Folding256.
