(** Properties of the NEON decoders for ARMv7 and AArch64, and the reads of the
    incremental decoder behind the end of its source. *)
From Verif Require Import Base BaseLemmas EncSpec EncNode EncNodeSpec DecSpec DecModel DecNode DecNodeSpec DecNodeProofs PropsDecLemmas
  DecMaskSpec DecMaskModel DecMaskProofs DecSimdModel DecSimdSpec DecSimdMain PropsSimdLemmas DecBlock DecBlockFacts DecKernel DecSseModel DecSseMain
  DecNeonModel DecNeonProofs DecNeonMain PropsSimd.

(** Implementations for the examples: AArch64 or ARMv7; with or without leave to read
    to the end of the 16 bytes in which the source ends. *)
Definition ne_ex (a64 line : bool) : neond := {| n_a64 := a64; n_gcc := a64; n_line := line |}.

(** C62.  Missing: the incremental decoder where reads behind the source are out of
    bounds, which is false, see below. *)
Theorem c62_neon_kernels_partial : forall ne isRaw searchEnd, (searchEnd = true -> isRaw = true) -> (searchEnd = true -> n_line ne = true) ->
  kernel_ok isRaw searchEnd (2 ^ n_log ne) (do_decode_neon ne isRaw searchEnd).
Proof. intros. rewrite <- nw_pow. apply neon_kernel_ok; assumption. Qed.
Print Assumptions c62_neon_kernels_partial.

(** As [c49_ex], with blocks of 64 and 32 characters. *)
Example c62_ex :
  let text := [x2a; CR; LF; DOT] ++ repeat x2b 123 ++ [EQS; EQS; CR; LF; DOT; CR; LF] ++ repeat x2a 62 in
  let run a64 := match do_decode_neon (ne_ex a64 true) true true {| rlo := 0; rhi := 196; wlo := 200; whi := 400 |} 192 192 200 0 0 (mem_of 0 text) with
               | Ok (r, m) => Some (r, read_n m 200 4) | _ => None end in
  run true = Some ((128, 324, 1, 0), [x00; x01; x01; x01]) /\ run false = run true.
Proof. vm_compute. split; reflexivity. Qed.

(** The two other modes, without reads behind the source. *)
Example c62_strict_ex :
  let text := [x2a; CR; LF; DOT] ++ repeat x2b 59 ++ [EQS; EQS; CR; LF; DOT] in
  let run a64 isRaw := match do_decode_neon (ne_ex a64 false) isRaw false {| rlo := 0; rhi := 66; wlo := 200; whi := 400 |} 64 64 200 0 0 (mem_of 0 text) with
               | Ok (r, m) => Some (r, read_n m 200 4) | _ => None end in
  run true true = Some ((64, 260, 1, 0), [x00; x01; x01; x01]) /\ run false true = run true true /\
  run true false = Some ((64, 261, 1, 0), [x00; x04; x01; x01]) /\ run false false = run true false.
Proof. vm_compute. repeat split. Qed.

(** The AArch64 and the ARMv7 incremental decoders read behind their source. *)
Theorem c62_neon_incremental_refuted : forall ne, n_line ne = false -> exists src dest data m,
  bytes_at m src data /\ dec_layout src (zlen data) dest /\
  do_decode_simd (do_decode_neon ne true true) true true (Z.of_nat (nw ne))
    {| rlo := src; rhi := src + zlen data; wlo := dest; whi := dest + zlen data |} src dest (zlen data) (Some S_NONE) m = UB.
Proof.
  intros [a64 gcc line] H. cbn in H. subst line.
  exists 0, 0, (repeat x2a 100 ++ [CR] ++ repeat x2a 31), (mem_of 0 (repeat x2a 100 ++ [CR] ++ repeat x2a 31)).
  split; [apply bytes_at_mem_of|]. split; [unfold dec_layout; left; reflexivity|]. destruct a64, gcc; vm_compute; reflexivity.
Qed.
Print Assumptions c62_neon_incremental_refuted.

(** C22, C23, C24, C17 and C59 for these kernels. *)
Theorem c22_plain_neon : forall ne data, exists o,
  decode_returns scalar data false o /\ decodeTo_returns scalar data false o /\
  decode_returns (neon_decoders ne) data false o /\ decodeTo_returns (neon_decoders ne) data false o.
Proof.
  intros. rewrite neon_simd. apply (c22_plain_isa_independent (n_log ne)); [apply n_log_1|].
  apply (c62_neon_kernels_partial ne false false); discriminate.
Qed.
Print Assumptions c22_plain_neon.

Example c22_neon_ex : let run a64 := node_decode (neon_decoders (ne_ex a64 false)) (fun _ => 1000) 7 200 false
    (mem_of 7 (repeat x2b 170 ++ [EQS; EQS; CR; LF; DOT; DOT] ++ repeat x2a 24)) in
  run true = Ok (repeat x01 170 ++ [xd3; x04; x04] ++ repeat x00 24) /\ run false = run true.
Proof. vm_compute. split; reflexivity. Qed.

(** Missing: texts ending in "=\r\n", see C23. *)
Theorem c23_raw_neon_partial : forall ne data, ~ ends_with [EQS; CR; LF] data ->
  exists o, decode_returns scalar data true o /\ decode_returns (neon_decoders ne) data true o.
Proof.
  intros. rewrite neon_simd. apply (c23_raw_isa_independent_partial (n_log ne)); [apply n_log_1| |assumption].
  apply (c62_neon_kernels_partial ne true false); discriminate.
Qed.
Print Assumptions c23_raw_neon_partial.

Theorem c23_raw_neon_refuted : forall ne, exists data o malloc src m,
    bytes_at m src data /\ fresh_malloc malloc src (zlen data) /\ o <> [] /\
    decode_returns scalar data true o /\
    node_decode (neon_decoders ne) malloc src (zlen data) true m = Ok (removelast o).
Proof.
  intros ne. rewrite neon_simd. apply (c23_raw_every_kernel_refuted (n_log ne)); [apply n_log_1|].
  apply (c62_neon_kernels_partial ne true false); discriminate.
Qed.
Print Assumptions c23_raw_neon_refuted.

Example c23_neon_ex : node_decode (neon_decoders (ne_ex true false)) (fun _ => 1000) 0 130 true (mem_of 0 (repeat x2a 127 ++ [EQS; CR; LF])) = Ok (repeat x00 127) /\
  node_decode (neon_decoders (ne_ex true false)) (fun _ => 1000) 0 130 true (mem_of 0 (repeat x2a 128 ++ [CR; LF])) = Ok (repeat x00 128).
Proof. vm_compute. split; reflexivity. Qed.

(** Missing: [n_line ne = false], see C62. *)
Theorem c24_chunk_neon_partial : forall ne data prev, n_line ne = true -> is_state prev ->
  exists r, decodeChunk_returns scalar data prev r /\ decodeChunk_returns (neon_decoders ne) data prev r.
Proof.
  intros. rewrite neon_simd. apply (c24_chunk_isa_independent (n_log ne)); [apply n_log_1| |assumption].
  apply (c62_neon_kernels_partial ne true true); auto.
Qed.
Print Assumptions c24_chunk_neon_partial.

Example c24_neon_ex : exists r m',
  js_decodeChunk (neon_decoders (ne_ex false true)) (fun _ => 1000) 3 155 JUndef (JStr [CR; LF; DOT])
    (mem_of 3 (repeat x2a 150 ++ [CR; LF; DOT; CR; LF])) = Returns (Ok (r, m')) /\
  c_output r = repeat x00 150 /\ c_read r = 155 /\ c_ended r = true /\ c_state r = [CR; LF; DOT; CR; LF].
Proof. eexists _, _. split; [vm_compute; reflexivity|]. repeat split. Qed.

(** Missing: as above.  With [n_line ne = true] nothing is said about reads behind the
    source within its last 16 aligned bytes; writes are in the destination. *)
Theorem c17_neon_memory_safe_partial : forall ne raw searchEnd, (searchEnd = true -> raw = true) -> (searchEnd = true -> n_line ne = true) ->
  forall src dest data state m, (if searchEnd then state <> None else state = None) ->
  bytes_at m src data -> dec_layout src (zlen data) dest ->
  exists e' src' dest' state' m',
    do_decode_simd (do_decode_neon ne raw searchEnd) raw searchEnd (Z.of_nat (nw ne))
      {| rlo := src; rhi := src + zlen data; wlo := dest; whi := dest + zlen data |}
      src dest (zlen data) state m = Ok ((e', src', dest', state'), m') /\
    src <= src' <= src + zlen data /\ dest <= dest' <= dest + (src' - src) /\
    (forall q, ~ (dest <= q < dest + zlen data) -> m' q = m q).
Proof.
  intros ne r e H L. rewrite nw_pow. apply (simd_safe (n_log ne)); [apply n_log_1|exact H|].
  apply c62_neon_kernels_partial; assumption.
Qed.
Print Assumptions c17_neon_memory_safe_partial.

Example c17_neon_ex : dec_layout 7 150 7 /\
  (exists m', do_decode_simd (do_decode_neon (ne_ex true true) true true) true true 64
    {| rlo := 7; rhi := 157; wlo := 7; whi := 157 |} 7 7 150 (Some S_EQ) (mem_of 7 (repeat x2a 150)) = Ok ((E_NONE, 157, 157, Some S_NONE), m')) /\
  (exists m', do_decode_simd (do_decode_neon (ne_ex false false) true false) true false 32
    {| rlo := 7; rhi := 157; wlo := 7; whi := 157 |} 7 7 150 None (mem_of 7 (repeat x2a 150)) = Ok ((E_NONE, 157, 157, None), m')).
Proof. split; [unfold dec_layout; lia|]. split; eexists; vm_compute; reflexivity. Qed.

(** Missing: [n_line ne = false], as above. *)
Theorem c59_neon_stops_at_marker_partial : forall ne isRaw searchEnd, (searchEnd = true -> isRaw = true) -> (searchEnd = true -> n_line ne = true) ->
  stops_at_marker isRaw searchEnd (Z.of_nat (nw ne)) (do_decode_neon ne isRaw searchEnd).
Proof. intros. apply kernel_x_stops, neon_kernel_x; assumption. Qed.
Print Assumptions c59_neon_stops_at_marker_partial.

Example c59_neon_ex : let text := repeat x2a 10 ++ [CR; LF; DOT; x78; EQS; YY] ++ repeat x2a 58 ++ [CR; LF; EQS; YY] ++ repeat x2a 54 in
  let run a64 := match do_decode_neon (ne_ex a64 true) true true {| rlo := 0; rhi := 132; wlo := 200; whi := 400 |} 128 128 200 0 0 (mem_of 0 text) with
               | Ok ((n, _, _, _), _) => Some n | _ => None end in
  run true = Some 64 /\ run false = Some 64.
Proof. vm_compute. split; reflexivity. Qed.
