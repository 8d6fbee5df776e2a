(** Model of the code around the blocks that the NEON and RVV encoders share
    (/repo/src/encoder_neon.cc, /repo/src/encoder_rvv.cc): the start of a call and the
    loop.  [eol] is the function encode_eol_handle_pre of either file: it writes the
    last character of a line and the start of the next one; result is (i, p, col). *)
From Verif Require Import Base EncModel EncSseModel.

(** encoder_neon.cc lines 277-305, encoder_rvv.cc lines 50-78; [col] is relative to
    the last column.  Result is (i, p, col). *)
Definition enc_begin (B : bufs) (line_size es : Z) (eol : Z -> Z -> M (Z * Z * Z)) (i p col : Z) : M (Z * Z * Z) :=
  '(i, p, col) <-
    (if col =? - line_size + 1 then '(i, p, n) <- enc_first B es i p ;; ret (i, p, col + n)
     else ret (i, p, col)) ;;
  if 0 <=? col then
    if col =? 0 then eol i p
    else c <- load B (es + i) ;; '(p, n) <- enc_eol B c p ;; ret (i + 1, p, n - line_size + 1)
  else ret (i, p, col).

(** encoder_neon.cc lines 306-516, encoder_rvv.cc lines 87-193; [width] is the number
    of characters in a block.  Result is (i, p, col). *)
Fixpoint enc_loop (fuel : nat) (block : Z -> Z -> Z -> M blk) (eol : Z -> Z -> M (Z * Z * Z)) (width i p col : Z) : M (Z * Z * Z) :=
  match fuel with
  | O => nofuel
  | S f =>
    if i <? 0 then
      r <- block i p col ;;
      match r with
      | Next p col => enc_loop f block eol width (i + width) p col
      | Eol i p => '(i, p, col) <- eol i p ;; enc_loop f block eol width i p col
      end
    else ret (i, p, col)
  end.
