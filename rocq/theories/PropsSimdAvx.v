(** Properties of the 256-bit decoders, and of the point where the vector code hands
    over to the scalar code. *)
From Verif Require Import Base BaseLemmas EncSpec EncNode EncNodeSpec DecSpec DecModel DecNode DecNodeSpec DecNodeProofs PropsDecLemmas
  DecMaskSpec DecMaskModel DecMaskProofs DecSimdModel DecSimdSpec DecSimdMain PropsSimdLemmas DecBlock DecBlockFacts DecKernel DecSseModel DecSseMain
  DecAvxModel DecAvxMain PropsSimd.

(** C49: the 256-bit kernels follow the contract of [DecSimdSpec], with or without
    AVX-512 and VBMI2, for 32 and 64 bits, in every mode the front-end uses them in. *)
Theorem c49_avx2_kernels : forall isa isRaw searchEnd, (searchEnd = true -> isRaw = true) ->
  kernel_ok isRaw searchEnd 64 (do_decode_avx2 isa isRaw searchEnd).
Proof. exact avx_kernel_ok. Qed.
Print Assumptions c49_avx2_kernels.

(** As [c49_ex], with blocks of 64 characters: a stuffed dot, an escape across two
    blocks, "\r\n.\r\n" in the last block. *)
Example c49_avx2_ex :
  let text := [x2a; CR; LF; DOT] ++ repeat x2b 123 ++ [EQS; EQS; CR; LF; DOT; CR; LF] ++ repeat x2a 62 in
  let run isa := match do_decode_avx2 isa true true {| rlo := 0; rhi := 196; wlo := 200; whi := 400 |} 192 192 200 0 0 (mem_of 0 text) with
                 | Ok (r, m) => Some (r, read_n m 200 4) | _ => None end in
  run isa_avx2 = Some ((128, 324, 1, 0), [x00; x01; x01; x01]) /\ run isa_vbmi2 = run isa_avx2 /\ run isa_avx3 = run isa_avx2.
Proof. vm_compute. repeat split. Qed.

(** C22, C23, C24 and C17 for these kernels. *)
Theorem c22_plain_avx2 : forall isa data, exists o,
  decode_returns scalar data false o /\ decodeTo_returns scalar data false o /\
  decode_returns (avx_decoders isa) data false o /\ decodeTo_returns (avx_decoders isa) data false o.
Proof. intros. apply (c22_plain_isa_independent 6); [lia|]. apply (avx_kernel_ok isa false false). discriminate. Qed.
Print Assumptions c22_plain_avx2.

Example c22_avx2_ex : let run isa := node_decode (avx_decoders isa) (fun _ => 1000) 7 200 false
    (mem_of 7 (repeat x2b 170 ++ [EQS; EQS; CR; LF; DOT; DOT] ++ repeat x2a 24)) in
  run isa_avx2 = Ok (repeat x01 170 ++ [xd3; x04; x04] ++ repeat x00 24) /\ run isa_vbmi2 = run isa_avx2.
Proof. vm_compute. split; reflexivity. Qed.

(** Missing: texts ending in "=\r\n", see C23. *)
Theorem c23_raw_avx2_partial : forall isa data, ~ ends_with [EQS; CR; LF] data ->
  exists o, decode_returns scalar data true o /\ decode_returns (avx_decoders isa) data true o.
Proof. intros. apply (c23_raw_isa_independent_partial 6); [lia|apply (avx_kernel_ok isa true false); discriminate|assumption]. Qed.
Print Assumptions c23_raw_avx2_partial.

Theorem c23_raw_avx2_refuted : forall isa, exists data o malloc src m,
    bytes_at m src data /\ fresh_malloc malloc src (zlen data) /\ o <> [] /\
    decode_returns scalar data true o /\
    node_decode (avx_decoders isa) malloc src (zlen data) true m = Ok (removelast o).
Proof. intro isa. apply (c23_raw_every_kernel_refuted 6); [lia|apply (avx_kernel_ok isa true false); discriminate]. Qed.
Print Assumptions c23_raw_avx2_refuted.

Example c23_avx2_ex : node_decode (avx_decoders isa_avx2) (fun _ => 1000) 0 130 true (mem_of 0 (repeat x2a 127 ++ [EQS; CR; LF])) = Ok (repeat x00 127) /\
  node_decode (avx_decoders isa_avx2) (fun _ => 1000) 0 130 true (mem_of 0 (repeat x2a 128 ++ [CR; LF])) = Ok (repeat x00 128).
Proof. vm_compute. split; reflexivity. Qed.

Theorem c24_chunk_avx2 : forall isa data prev, is_state prev ->
  exists r, decodeChunk_returns scalar data prev r /\ decodeChunk_returns (avx_decoders isa) data prev r.
Proof. intros. apply (c24_chunk_isa_independent 6); [lia|apply (avx_kernel_ok isa true true); reflexivity|assumption]. Qed.
Print Assumptions c24_chunk_avx2.

Example c24_avx2_ex : exists r m',
  js_decodeChunk (avx_decoders isa_vbmi2) (fun _ => 1000) 3 155 JUndef (JStr [CR; LF; DOT])
    (mem_of 3 (repeat x2a 150 ++ [CR; LF; DOT; CR; LF])) = Returns (Ok (r, m')) /\
  c_output r = repeat x00 150 /\ c_read r = 155 /\ c_ended r = true /\ c_state r = [CR; LF; DOT; CR; LF].
Proof. eexists _, _. split; [vm_compute; reflexivity|]. repeat split. Qed.

Theorem c17_avx2_memory_safe : forall isa raw searchEnd, (searchEnd = true -> raw = true) ->
  forall src dest data state m, (if searchEnd then state <> None else state = None) ->
  bytes_at m src data -> dec_layout src (zlen data) dest ->
  exists e' src' dest' state' m',
    do_decode_simd (do_decode_avx2 isa raw searchEnd) raw searchEnd 64
      {| rlo := src; rhi := src + zlen data; wlo := dest; whi := dest + zlen data |}
      src dest (zlen data) state m = Ok ((e', src', dest', state'), m') /\
    src <= src' <= src + zlen data /\ dest <= dest' <= dest + (src' - src) /\
    (forall q, ~ (dest <= q < dest + zlen data) -> m' q = m q).
Proof. intros isa r e H. apply (simd_safe 6); [lia|exact H|apply avx_kernel_ok; exact H]. Qed.
Print Assumptions c17_avx2_memory_safe.

Example c17_avx2_ex : dec_layout 7 150 7 /\ exists m', do_decode_simd (do_decode_avx2 isa_vbmi2 true true) true true 64
  {| rlo := 7; rhi := 157; wlo := 7; whi := 157 |} 7 7 150 (Some S_EQ) (mem_of 7 (repeat x2a 150)) = Ok ((E_NONE, 157, 157, Some S_NONE), m').
Proof. split; [unfold dec_layout; lia|]. eexists. vm_compute. reflexivity. Qed.

(** C59: a kernel searching for the end gives up only at a block in which an end
    marker starts, so that everything before it is decoded by the vector code. *)
Theorem c59_sse_stops_at_marker : forall isa isRaw searchEnd, (searchEnd = true -> isRaw = true) ->
  stops_at_marker isRaw searchEnd 32 (do_decode_sse isa isRaw searchEnd).
Proof. intros. apply kernel_x_stops, sse_kernel_x. assumption. Qed.
Print Assumptions c59_sse_stops_at_marker.

(** The 256-bit kernels: without mask registers, or with VBMI2. *)
Theorem c59_avx2_stops_at_marker_partial : forall isa isRaw searchEnd, d_mask isa = false \/ d_vbmi2 isa = true ->
  (searchEnd = true -> isRaw = true) -> stops_at_marker isRaw searchEnd 64 (do_decode_avx2 isa isRaw searchEnd).
Proof.
  intros isa r e Hx H. apply kernel_x_stops. replace true with (exact isa); [apply avx_kernel_x; exact H|].
  unfold exact. destruct Hx as [->| ->]; [reflexivity|apply orb_true_r].
Qed.
Print Assumptions c59_avx2_stops_at_marker_partial.

(** A block with "\r\n.x=y", another with "\r\n=y": the first is passed, the second
    is not. *)
Example c59_ex : let text := repeat x2a 10 ++ [CR; LF; DOT; x78; EQS; YY] ++ repeat x2a 58 ++ [CR; LF; EQS; YY] ++ repeat x2a 54 in
  let run isa := match do_decode_avx2 isa true true {| rlo := 0; rhi := 132; wlo := 200; whi := 400 |} 128 128 200 0 0 (mem_of 0 text) with
                 | Ok ((n, _, _, _), _) => Some n | _ => None end in
  run isa_avx2 = Some 64 /\ run isa_vbmi2 = Some 64.
Proof. vm_compute. split; reflexivity. Qed.

(** Missing: AVX512BW without VBMI2, where the mask -0xff, meant to be 0xff00, lets
    "\r\n.x=y" at an even offset pass for an end marker. *)
Theorem c59_avx3_stops_at_marker_refuted : exists B src dest d look s m p e x m',
  bytes_at m src (d ++ look) /\ zlen d = 64 /\ src mod 64 = 0 /\ lookahead true true <= zlen look /\
  rlo B <= src /\ src + zlen d + zlen look <= rhi B /\ wlo B <= dest /\ dest + zlen d <= whi B /\
  src + zlen d + zlen look <= dest /\ entry_state true s (d ++ look) /\
  do_decode_avx2 isa_avx3 true true B (src + zlen d) (zlen d) dest (esc_flag s) (dot_next s (d ++ look)) m = Ok ((0, p, e, x), m') /\
  no_marker_in (zlen d) (d ++ look).
Proof.
  exists {| rlo := 0; rhi := 68; wlo := 200; whi := 400 |}, 0, 200,
    (repeat x2a 10 ++ [CR; LF; DOT; x78; EQS; YY] ++ repeat x2a 48), (repeat x2a 4), S_NONE,
    (mem_of 0 (repeat x2a 10 ++ [CR; LF; DOT; x78; EQS; YY] ++ repeat x2a 52)), 200, 0, 0.
  eexists. split; [exact (bytes_at_mem_of 0 _)|]. repeat (split; [vm_compute; congruence|]).
  split; [left; reflexivity|]. split; [vm_compute; reflexivity|].
  apply (no_end_flags 64). vm_compute. reflexivity.
Qed.
Print Assumptions c59_avx3_stops_at_marker_refuted.
