(** Properties of the RVV decoder, for the vector lengths 128 and 256, and what goes
    wrong from 512 bits on.  For what holds for every length see [PropsSimdRvvValid]. *)
From Verif Require Import Base BaseLemmas EncSpec EncNode EncNodeSpec DecSpec DecModel DecNode DecNodeSpec DecNodeProofs PropsDecLemmas
  DecMaskSpec DecMaskModel DecMaskProofs DecSimdModel DecSimdSpec DecSimdMain PropsSimdLemmas DecBlock DecBlockFacts DecKernel DecSseModel DecSseMain
  DecRvvModel DecRvvProofs DecRvvMain PropsSimd.

(** An implementation for the examples. *)
Definition rvd_ex (k : nat) : rvd :=
  {| d_log := k; d_tail := fun _ => xff; d_pad := fun _ i => Nat.even i; d_odd := fun _ => (2 ^ 64 - 1)%N; d_carry := fun _ => false; d_rounds := 1000 |}.

(** C61, missing: VLEN of 512 and more.  The contract of [DecSimdSpec], whatever the
    instructions leave in the elements they need not write. *)
Theorem c61_rvv_kernels_partial : forall rv isRaw searchEnd, (d_log rv <= 1)%nat -> (searchEnd = true -> isRaw = true) ->
  kernel_ok isRaw searchEnd (2 ^ rv_log rv) (do_decode_rvv rv isRaw searchEnd).
Proof. intros. rewrite <- dvl_pow. eapply kernel_x_ok, rvd_kernel_ok; assumption. Qed.
Print Assumptions c61_rvv_kernels_partial.

(** As [c49_ex], with blocks of 32 and 64 characters. *)
Example c61_ex :
  let text := [x2a; CR; LF; DOT] ++ repeat x2b 123 ++ [EQS; EQS; CR; LF; DOT; CR; LF] ++ repeat x2a 62 in
  let run k := match do_decode_rvv (rvd_ex k) true true {| rlo := 0; rhi := 196; wlo := 200; whi := 400 |} 192 192 200 0 0 (mem_of 0 text) with
               | Ok (r, m) => Some (r, read_n m 200 4) | _ => None end in
  run 0%nat = Some ((128, 324, 1, 0), [x00; x01; x01; x01]) /\ run 1%nat = run 0%nat.
Proof. vm_compute. split; reflexivity. Qed.

(** With 512 bits, a text with "==" in the second half of a vector decodes to
    something else where the instructions set to ones what they need not write. *)
Theorem c61_rvv_refuted : exists rv data o malloc src m o',
  d_log rv = 2%nat /\ bytes_at m src data /\ fresh_malloc malloc src (zlen data) /\
  decode_returns scalar data false o /\ node_decode (rvv_decoders rv) malloc src (zlen data) false m = Ok o' /\ o' <> o.
Proof.
  assert (G : forall text, decode_returns scalar text false (decode_text text)) by (intro; exact (decode_spec scalar scalar_meets text false)).
  exists (rvd_ex 2), (repeat x2a 70 ++ [EQS; EQS] ++ repeat x2a 228), (decode_text (repeat x2a 70 ++ [EQS; EQS] ++ repeat x2a 228)),
    (fun _ => 1000), 0, (mem_of 0 (repeat x2a 70 ++ [EQS; EQS] ++ repeat x2a 228)).
  eexists. split; [reflexivity|]. split; [apply bytes_at_mem_of|]. split; [intros k Hk; left; vm_compute; discriminate|].
  split; [apply G|]. split; [vm_compute; reflexivity|]. vm_compute. discriminate.
Qed.
Print Assumptions c61_rvv_refuted.

(** C22, C23, C24 and C17 for these kernels.  Missing in each: VLEN of 512 and more,
    see C61. *)
Theorem c22_plain_rvv_partial : forall rv data, (d_log rv <= 1)%nat -> exists o,
  decode_returns scalar data false o /\ decodeTo_returns scalar data false o /\
  decode_returns (rvv_decoders rv) data false o /\ decodeTo_returns (rvv_decoders rv) data false o.
Proof.
  intros. rewrite rvv_simd. apply (c22_plain_isa_independent (rv_log rv)); [apply rv_log_1|].
  apply (c61_rvv_kernels_partial rv false false); [assumption|discriminate].
Qed.
Print Assumptions c22_plain_rvv_partial.

Example c22_rvv_ex : let run k := node_decode (rvv_decoders (rvd_ex k)) (fun _ => 1000) 7 200 false
    (mem_of 7 (repeat x2b 170 ++ [EQS; EQS; CR; LF; DOT; DOT] ++ repeat x2a 24)) in
  run 0%nat = Ok (repeat x01 170 ++ [xd3; x04; x04] ++ repeat x00 24) /\ run 1%nat = run 0%nat.
Proof. vm_compute. split; reflexivity. Qed.

(** Missing also: texts ending in "=\r\n", see C23. *)
Theorem c23_raw_rvv_partial : forall rv data, (d_log rv <= 1)%nat -> ~ ends_with [EQS; CR; LF] data ->
  exists o, decode_returns scalar data true o /\ decode_returns (rvv_decoders rv) data true o.
Proof.
  intros. rewrite rvv_simd. apply (c23_raw_isa_independent_partial (rv_log rv)); [apply rv_log_1| |assumption].
  apply (c61_rvv_kernels_partial rv true false); [assumption|discriminate].
Qed.
Print Assumptions c23_raw_rvv_partial.

Theorem c23_raw_rvv_refuted : forall rv, (d_log rv <= 1)%nat -> exists data o malloc src m,
    bytes_at m src data /\ fresh_malloc malloc src (zlen data) /\ o <> [] /\
    decode_returns scalar data true o /\
    node_decode (rvv_decoders rv) malloc src (zlen data) true m = Ok (removelast o).
Proof.
  intros rv H. rewrite rvv_simd. apply (c23_raw_every_kernel_refuted (rv_log rv)); [apply rv_log_1|].
  apply (c61_rvv_kernels_partial rv true false); [exact H|discriminate].
Qed.
Print Assumptions c23_raw_rvv_refuted.

Example c23_rvv_ex : node_decode (rvv_decoders (rvd_ex 1)) (fun _ => 1000) 0 130 true (mem_of 0 (repeat x2a 127 ++ [EQS; CR; LF])) = Ok (repeat x00 127) /\
  node_decode (rvv_decoders (rvd_ex 1)) (fun _ => 1000) 0 130 true (mem_of 0 (repeat x2a 128 ++ [CR; LF])) = Ok (repeat x00 128).
Proof. vm_compute. split; reflexivity. Qed.

Theorem c24_chunk_rvv_partial : forall rv data prev, (d_log rv <= 1)%nat -> is_state prev ->
  exists r, decodeChunk_returns scalar data prev r /\ decodeChunk_returns (rvv_decoders rv) data prev r.
Proof.
  intros. rewrite rvv_simd. apply (c24_chunk_isa_independent (rv_log rv)); [apply rv_log_1| |assumption].
  apply (c61_rvv_kernels_partial rv true true); [assumption|reflexivity].
Qed.
Print Assumptions c24_chunk_rvv_partial.

Example c24_rvv_ex : exists r m',
  js_decodeChunk (rvv_decoders (rvd_ex 1)) (fun _ => 1000) 3 155 JUndef (JStr [CR; LF; DOT])
    (mem_of 3 (repeat x2a 150 ++ [CR; LF; DOT; CR; LF])) = Returns (Ok (r, m')) /\
  c_output r = repeat x00 150 /\ c_read r = 155 /\ c_ended r = true /\ c_state r = [CR; LF; DOT; CR; LF].
Proof. eexists _, _. split; [vm_compute; reflexivity|]. repeat split. Qed.

Theorem c17_rvv_memory_safe_partial : forall rv raw searchEnd, (d_log rv <= 1)%nat -> (searchEnd = true -> raw = true) ->
  forall src dest data state m, (if searchEnd then state <> None else state = None) ->
  bytes_at m src data -> dec_layout src (zlen data) dest ->
  exists e' src' dest' state' m',
    do_decode_simd (do_decode_rvv rv raw searchEnd) raw searchEnd (Z.of_nat (dvl rv))
      {| rlo := src; rhi := src + zlen data; wlo := dest; whi := dest + zlen data |}
      src dest (zlen data) state m = Ok ((e', src', dest', state'), m') /\
    src <= src' <= src + zlen data /\ dest <= dest' <= dest + (src' - src) /\
    (forall q, ~ (dest <= q < dest + zlen data) -> m' q = m q).
Proof.
  intros rv r e L H. rewrite dvl_pow. apply (simd_safe (rv_log rv)); [apply rv_log_1|exact H|].
  apply c61_rvv_kernels_partial; assumption.
Qed.
Print Assumptions c17_rvv_memory_safe_partial.

Example c17_rvv_ex : dec_layout 7 150 7 /\ exists m', do_decode_simd (do_decode_rvv (rvd_ex 1) true true) true true 64
  {| rlo := 7; rhi := 157; wlo := 7; whi := 157 |} 7 7 150 (Some S_EQ) (mem_of 7 (repeat x2a 150)) = Ok ((E_NONE, 157, 157, Some S_NONE), m').
Proof. split; [unfold dec_layout; lia|]. eexists. vm_compute. reflexivity. Qed.

(** C59.  Missing: VLEN of 512 and more. *)
Theorem c59_rvv_stops_at_marker_partial : forall rv isRaw searchEnd, (d_log rv <= 1)%nat -> (searchEnd = true -> isRaw = true) ->
  stops_at_marker isRaw searchEnd (Z.of_nat (dvl rv)) (do_decode_rvv rv isRaw searchEnd).
Proof. intros. apply kernel_x_stops, rvd_kernel_ok; assumption. Qed.
Print Assumptions c59_rvv_stops_at_marker_partial.

Example c59_rvv_ex : let text := repeat x2a 10 ++ [CR; LF; DOT; x78; EQS; YY] ++ repeat x2a 58 ++ [CR; LF; EQS; YY] ++ repeat x2a 54 in
  let run k := match do_decode_rvv (rvd_ex k) true true {| rlo := 0; rhi := 132; wlo := 200; whi := 400 |} 128 128 200 0 0 (mem_of 0 text) with
               | Ok ((n, _, _, _), _) => Some n | _ => None end in
  run 0%nat = Some 64 /\ run 1%nat = Some 64.
Proof. vm_compute. split; reflexivity. Qed.
