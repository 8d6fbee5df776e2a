(** Properties of the AVX512 variants of the 128-bit decoder. *)
From Verif Require Import Base BaseLemmas EncSpec EncNode EncNodeSpec DecSpec DecModel DecNode DecNodeSpec DecNodeProofs PropsDecLemmas
  DecMaskSpec DecMaskModel DecMaskProofs DecSimdModel DecSimdSpec DecSimdMain PropsSimdLemmas DecBlock DecBlockFacts DecKernel DecSseModel DecSseMain
  DecEvexModel DecEvexProofs DecSafe DecEvexSafe PropsSimd.

(** C63: these kernels follow the contract of [DecSimdSpec], with or without mask
    comparisons, VBMI2, POPCNT, LZCNT and VPALIGNR, in every mode the front-end uses them
    in.  Missing: mask comparisons without the "fast match" of line 109, that is AVX512
    code tuned for the AMD Bobcat. *)
Theorem c63_evex_kernels_partial : forall isa isRaw searchEnd, (e_mask isa = true -> fast_match (e_base isa) = true) ->
  (searchEnd = true -> isRaw = true) -> kernel_ok isRaw searchEnd 32 (do_decode_evex isa isRaw searchEnd).
Proof. exact evex_kernel_ok. Qed.
Print Assumptions c63_evex_kernels_partial.

(** As [c49_ex]: a stuffed dot, an escape across two blocks, a dot at the start of a
    block, "\r\n.\r\n" in the last block. *)
Example c63_ex :
  let text := [x2a; CR; LF; DOT] ++ repeat x2b 59 ++ [EQS; EQS] ++ repeat x2b 29 ++ [CR; LF; DOT; CR; LF; DOT; CR; LF] ++ repeat x2a 62 in
  let run isa := match do_decode_evex isa true true {| rlo := 0; rhi := 164; wlo := 200; whi := 400 |} 160 160 200 0 0 (mem_of 0 text) with
                 | Ok (r, m) => Some (r, read_n m 200 4) | _ => None end in
  run evex_vbmi2 = Some ((64, 260, 1, 0), [x00; x01; x01; x01]) /\ run evex_avx3 = run evex_vbmi2.
Proof. vm_compute. repeat split. Qed.

(** Missing, because false: in that build the register that finds dots at the start of
    a block is never set, and a stuffed dot stays in the decoded data. *)
Definition evex_bobcat : evex_isa := {|
  e_base := {| fast_match := false; blend_add := true; has_ssse3 := true; has_popcnt := true; use_alignr := true; has_lzcnt := false |};
  e_mask := true; e_vbmi2 := true; e_compress := true; e_icl := false |}.

Theorem c63_evex_refuted : exists isa data o malloc src m o',
  e_mask isa = true /\ fast_match (e_base isa) = false /\
  bytes_at m src data /\ fresh_malloc malloc src (zlen data) /\ ~ ends_with [EQS; CR; LF] data /\
  decode_returns scalar data true o /\ node_decode (evex_decoders isa) malloc src (zlen data) true m = Ok o' /\ o' <> o.
Proof.
  assert (G : forall text, decode_returns scalar text true (reference true text)) by (intro; exact (decode_spec scalar scalar_meets text true)).
  exists evex_bobcat, (repeat x2a 30 ++ [CR; LF; DOT; DOT] ++ repeat x2a 166), (reference true (repeat x2a 30 ++ [CR; LF; DOT; DOT] ++ repeat x2a 166)),
    (fun _ => 1000), 0, (mem_of 0 (repeat x2a 30 ++ [CR; LF; DOT; DOT] ++ repeat x2a 166)).
  eexists. split; [reflexivity|]. split; [reflexivity|]. split; [apply bytes_at_mem_of|]. split; [intros k Hk; left; vm_compute; discriminate|].
  split.
  { intros [a H]. apply (f_equal (@rev byte)) in H. rewrite (rev_app_distr a) in H. vm_compute in H. discriminate H. }
  split; [apply G|]. split; [vm_compute; reflexivity|]. vm_compute. discriminate.
Qed.
Print Assumptions c63_evex_refuted.

(** C22, C23, C24 and C17 for these kernels; missing in each as in C63. *)
Theorem c22_plain_evex_partial : forall isa data, (e_mask isa = true -> fast_match (e_base isa) = true) -> exists o,
  decode_returns scalar data false o /\ decodeTo_returns scalar data false o /\
  decode_returns (evex_decoders isa) data false o /\ decodeTo_returns (evex_decoders isa) data false o.
Proof. intros. apply (c22_plain_isa_independent 5); [lia|]. apply (evex_kernel_ok isa false false); [assumption|discriminate]. Qed.
Print Assumptions c22_plain_evex_partial.

Example c22_evex_ex : let run isa := node_decode (evex_decoders isa) (fun _ => 1000) 7 200 false
    (mem_of 7 (repeat x2b 170 ++ [EQS; EQS; CR; LF; DOT; DOT] ++ repeat x2a 24)) in
  run evex_vbmi2 = Ok (repeat x01 170 ++ [xd3; x04; x04] ++ repeat x00 24) /\ run evex_avx3 = run evex_vbmi2.
Proof. vm_compute. split; reflexivity. Qed.

(** Missing also: texts ending in "=\r\n", see C23. *)
Theorem c23_raw_evex_partial : forall isa data, (e_mask isa = true -> fast_match (e_base isa) = true) -> ~ ends_with [EQS; CR; LF] data ->
  exists o, decode_returns scalar data true o /\ decode_returns (evex_decoders isa) data true o.
Proof. intros. apply (c23_raw_isa_independent_partial 5); [lia|apply (evex_kernel_ok isa true false); [assumption|discriminate]|assumption]. Qed.
Print Assumptions c23_raw_evex_partial.

Theorem c23_raw_evex_refuted : forall isa, (e_mask isa = true -> fast_match (e_base isa) = true) -> exists data o malloc src m,
    bytes_at m src data /\ fresh_malloc malloc src (zlen data) /\ o <> [] /\
    decode_returns scalar data true o /\
    node_decode (evex_decoders isa) malloc src (zlen data) true m = Ok (removelast o).
Proof. intros isa H. apply (c23_raw_every_kernel_refuted 5); [lia|apply (evex_kernel_ok isa true false); [exact H|discriminate]]. Qed.
Print Assumptions c23_raw_evex_refuted.

Example c23_evex_ex : node_decode (evex_decoders evex_avx3) (fun _ => 1000) 0 130 true (mem_of 0 (repeat x2a 127 ++ [EQS; CR; LF])) = Ok (repeat x00 127) /\
  node_decode (evex_decoders evex_avx3) (fun _ => 1000) 0 130 true (mem_of 0 (repeat x2a 128 ++ [CR; LF])) = Ok (repeat x00 128).
Proof. vm_compute. split; reflexivity. Qed.

Theorem c24_chunk_evex_partial : forall isa data prev, (e_mask isa = true -> fast_match (e_base isa) = true) -> is_state prev ->
  exists r, decodeChunk_returns scalar data prev r /\ decodeChunk_returns (evex_decoders isa) data prev r.
Proof. intros. apply (c24_chunk_isa_independent 5); [lia|apply (evex_kernel_ok isa true true); [assumption|reflexivity]|assumption]. Qed.
Print Assumptions c24_chunk_evex_partial.

Example c24_evex_ex : exists r m',
  js_decodeChunk (evex_decoders evex_vbmi2) (fun _ => 1000) 3 155 JUndef (JStr [CR; LF; DOT])
    (mem_of 3 (repeat x2a 150 ++ [CR; LF; DOT; CR; LF])) = Returns (Ok (r, m')) /\
  c_output r = repeat x00 150 /\ c_read r = 155 /\ c_ended r = true /\ c_state r = [CR; LF; DOT; CR; LF].
Proof. eexists _, _. split; [vm_compute; reflexivity|]. repeat split. Qed.

(** C17 for these kernels: every combination, also the one that decodes wrongly. *)
Theorem c17_evex_memory_safe : forall isa raw searchEnd, (searchEnd = true -> raw = true) ->
  forall src dest len state m, 0 <= len -> (searchEnd = true -> state <> None) -> dec_layout src len dest ->
  exists e' src' dest' state' m',
    do_decode_simd (do_decode_evex isa raw searchEnd) raw searchEnd 32
      {| rlo := src; rhi := src + len; wlo := dest; whi := dest + len |}
      src dest len state m = Ok ((e', src', dest', state'), m') /\
    src <= src' <= src + len /\ dest <= dest' <= dest + (src' - src) /\
    (forall q, ~ (dest <= q < dest + len) -> m' q = m q).
Proof.
  intros isa r e Hre src dest len state m Hl Hs Hd. pose proof (evex_safe isa r e Hre src dest len state m Hl Hs Hd) as X.
  unfold may in X. destruct (do_decode_simd _ _ _ _ _ _ _ _ _ _) as [[[[[e' s'] d'] st] m']| |]; [|contradiction X|contradiction X].
  exists e', s', d', st, m'. split; [reflexivity|exact X].
Qed.
Print Assumptions c17_evex_memory_safe.

Example c17_evex_ex : dec_layout 7 150 7 /\ exists m', do_decode_simd (do_decode_evex evex_vbmi2 true true) true true 32
  {| rlo := 7; rhi := 157; wlo := 7; whi := 157 |} 7 7 150 (Some S_EQ) (mem_of 7 (repeat x2a 150)) = Ok ((E_NONE, 157, 157, Some S_NONE), m').
Proof. split; [unfold dec_layout; lia|]. eexists. vm_compute. reflexivity. Qed.

(** Without the fast match, in place: lines starting with a dot, one of which is kept. *)
Example c17_evex_wrong_ex : let isa := {| e_base := isa_sse2; e_mask := true; DecEvexModel.e_vbmi2 := true; e_compress := true; e_icl := true |} in
  let text := concat (repeat ([CR; LF; DOT; DOT] ++ repeat x2a 26) 10) in
  dec_layout 5 300 5 /\ exists m', do_decode_simd (do_decode_evex isa true false) true false 32
  {| rlo := 5; rhi := 305; wlo := 5; whi := 305 |} 5 5 300 None (mem_of 5 text) = Ok ((E_NONE, 305, 276, None), m').
Proof. split; [unfold dec_layout; lia|]. eexists. vm_compute. reflexivity. Qed.

(** C59 for these kernels: without mask comparisons, or with VBMI2. *)
Theorem c59_evex_stops_at_marker_partial : forall isa isRaw searchEnd, (e_mask isa = true -> fast_match (e_base isa) = true) ->
  e_mask isa = false \/ e_vbmi2 isa = true ->
  (searchEnd = true -> isRaw = true) -> stops_at_marker isRaw searchEnd 32 (do_decode_evex isa isRaw searchEnd).
Proof.
  intros isa r e Hf Hx H. apply kernel_x_stops. replace true with (evex_exact isa); [apply evex_kernel_x; assumption|].
  unfold evex_exact. destruct Hx as [->| ->]; [reflexivity|apply orb_true_r].
Qed.
Print Assumptions c59_evex_stops_at_marker_partial.

(** A block with "\r\n.x=y", another with "\r\n=y": the first is passed, the second
    is not. *)
Example c59_evex_ex : let text := repeat x2a 10 ++ [CR; LF; DOT; x78; EQS; YY] ++ repeat x2a 58 ++ [CR; LF; EQS; YY] ++ repeat x2a 54 in
  match do_decode_evex evex_vbmi2 true true {| rlo := 0; rhi := 132; wlo := 200; whi := 400 |} 128 128 200 0 0 (mem_of 0 text) with
  | Ok ((n, _, _, _), _) => n = 64 | _ => False end.
Proof. vm_compute. reflexivity. Qed.

(** Missing: AVX512BW without VBMI2, with the mask -0xff as in [DecAvxModel]. *)
Theorem c59_evex_stops_at_marker_refuted : exists B src dest d look s m p e x m',
  bytes_at m src (d ++ look) /\ zlen d = 32 /\ src mod 32 = 0 /\ lookahead true true <= zlen look /\
  rlo B <= src /\ src + zlen d + zlen look <= rhi B /\ wlo B <= dest /\ dest + zlen d <= whi B /\
  src + zlen d + zlen look <= dest /\ entry_state true s (d ++ look) /\
  do_decode_evex evex_avx3 true true B (src + zlen d) (zlen d) dest (esc_flag s) (dot_next s (d ++ look)) m = Ok ((0, p, e, x), m') /\
  no_marker_in (zlen d) (d ++ look).
Proof.
  exists {| rlo := 0; rhi := 36; wlo := 200; whi := 400 |}, 0, 200,
    (repeat x2a 10 ++ [CR; LF; DOT; x78; EQS; YY] ++ repeat x2a 16), (repeat x2a 4), S_NONE,
    (mem_of 0 (repeat x2a 10 ++ [CR; LF; DOT; x78; EQS; YY] ++ repeat x2a 20)), 200, 0, 0.
  eexists. split; [exact (bytes_at_mem_of 0 _)|]. repeat (split; [vm_compute; congruence|]).
  split; [left; reflexivity|]. split; [vm_compute; reflexivity|].
  apply (no_end_flags 32). vm_compute. reflexivity.
Qed.
Print Assumptions c59_evex_stops_at_marker_refuted.
