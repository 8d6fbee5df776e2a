(** The size check of encodeIncr on a supplied destination, for every encoder. *)
From Verif Require Import Base BaseLemmas EncSpec EncModel EncNode EncNodeSpec EncIncrDest EncAvxModel JsBuilds.
Open Scope Z_scope.

(** C14: a destination is accepted if it holds [max_size no256 n 128] bytes, whatever the line size.  From a
    line size of 127 on this is enough: the call throws or writes the specified text. *)
Theorem c14_enough_from_127 : forall no256 e data args L col src dest dcap malloc m, an_encoder e ->
  data <> [] -> args_give args L col -> in_range L col data -> 127 <= L ->
  bytes_at m src data -> apart src (zlen data) dest dcap ->
  let r := node_encode_incr_in no256 e malloc src (zlen data) (Some (dest, dcap)) args m in
  (dcap < max_size no256 (zlen data) 128 /\ r = Throws) \/
  (max_size no256 (zlen data) 128 <= dcap /\
   r = Returns (Ok (to_int32 (zlen (yenc L false col data)), yenc L false col data, ret_col L false col data))).
Proof. exact incr_127. Qed.
Print Assumptions c14_enough_from_127.

(** Below 127 it is not, with any encoder: these 137089 bytes overflow a destination of just the size
    asked for, wherever it lies behind the source. *)
Theorem c14_overflow_below_127 : forall no256 e args L src dest malloc m, an_encoder e ->
  args_give args L 0 -> 1 <= L <= 126 ->
  let data := repeat xd6 (Z.to_nat 137089) in
  bytes_at m src data -> src + zlen data <= dest ->
  node_encode_incr_in no256 e malloc src (zlen data) (Some (dest, max_size no256 (zlen data) 128)) args m = Returns UB.
Proof. exact incr_126. Qed.
Print Assumptions c14_overflow_below_127.

(** C14, which line sizes are safe. *)
Theorem c14_safe_exactly : forall no256 e L, an_encoder e -> 1 <= L <= INT_MAX - 6 ->
  ((forall data col src dest dcap malloc m, zlen data < 2 ^ 53 -> bytes_at m src data -> apart src (zlen data) dest dcap ->
    node_encode_incr_in no256 e malloc src (zlen data) (Some (dest, dcap)) [L; col] m <> Returns UB) <-> 127 <= L).
Proof. exact incr_exact. Qed.
Print Assumptions c14_safe_exactly.

(** 192 escaped characters on lines of 127. *)
Example c14_ex_127 : args_give [127] 127 0 /\ in_range 127 0 (repeat xd6 192) /\ bytes_at (mem_of 0 (repeat xd6 192)) 0 (repeat xd6 192) /\
  apart 0 192 1000 456 /\ max_size false 192 128 = 456 /\
  exists o, node_encode_incr_in false (do_encode_simd (do_encode_avx2 EncAvxModel.enc_avx2)) (fun _ => 0) 0 192 (Some (1000, 456)) [127] (mem_of 0 (repeat xd6 192))
    = Returns (Ok (388, o, 126)).
Proof.
  split; [reflexivity|]. split; [split; [reflexivity|right; vm_compute; discriminate]|]. split; [apply bytes_at_mem_of|].
  split; [left; vm_compute; discriminate|]. split; [reflexivity|]. eexists. vm_compute. reflexivity.
Qed.
Example c14_ex_126 : args_give [126] 126 0 /\ an_encoder (do_encode_simd (do_encode_avx2 EncAvxModel.enc_avx2)) /\
  let data := repeat xd6 (Z.to_nat 137089) in bytes_at (mem_of 0 data) 0 data /\ 0 + zlen data <= 200000.
Proof. split; [reflexivity|]. split; [apply enc_avx2|]. split; [apply bytes_at_mem_of|]. unfold zlen. rewrite repeat_length. rewrite Z2Nat.id; vm_compute; discriminate. Qed.
(** On shorter lines less data will do. *)
Example c14_ex_8 : max_size false 150 128 = 370 /\ node_encode_incr_in false (do_encode_simd (do_encode_avx2 EncAvxModel.enc_avx2)) (fun _ => 0) 0 150 (Some (1000, 370)) [8] (mem_of 0 (repeat xd6 150)) = Returns UB.
Proof. split; vm_compute; reflexivity. Qed.
