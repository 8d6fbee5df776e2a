(** Properties of the SIMD decoders. *)
From Verif Require Import Base BaseLemmas EncSpec EncNode EncNodeSpec DecSpec DecModel DecNode DecNodeSpec DecNodeProofs PropsDecLemmas
  DecMaskSpec DecMaskModel DecMaskProofs DecSimdModel DecSimdSpec DecSimdMain PropsSimdLemmas DecSseModel DecSseMain.

(** C49: the SSE2, SSSE3 and AVX kernels follow the contract of [DecSimdSpec], in
    every mode the front-end uses them in. *)
Theorem c49_sse_kernels : forall isa isRaw searchEnd, (searchEnd = true -> isRaw = true) ->
  kernel_ok isRaw searchEnd 32 (do_decode_sse isa isRaw searchEnd).
Proof. exact sse_kernel_ok. Qed.
Print Assumptions c49_sse_kernels.

(** A stuffed dot, an escape across two blocks, and "\r\n.\r\n" in the last
    block, where the kernel stops: 64 of 96 characters done, "\r\n." removed from the first block, and
    '=' left pending. *)
Example c49_ex : exists m',
  do_decode_sse isa_ssse3 true true {| rlo := 0; rhi := 100; wlo := 200; whi := 300 |} 96 96 200 0 0
    (mem_of 0 ([x2a; CR; LF; DOT] ++ repeat x2b 59 ++ [EQS; EQS; CR; LF; DOT; CR; LF] ++ repeat x2a 30))
  = Ok ((64, 260, 1, 0), m') /\ read_n m' 200 4 = [x00; x01; x01; x01].
Proof. eexists. split; vm_compute; reflexivity. Qed.

(** C22: plain decoding with any kernel following the contract, at any alignment
    and length, gives what the scalar decoder gives. *)
Theorem c22_plain_isa_independent : forall n Kplain Kraw Kend data,
  1 <= n -> kernel_ok false false (2 ^ n) Kplain ->
  exists o, decode_returns scalar data false o /\ decodeTo_returns scalar data false o /\
    decode_returns (simd (2 ^ n) Kplain Kraw Kend) data false o /\
    decodeTo_returns (simd (2 ^ n) Kplain Kraw Kend) data false o.
Proof.
  intros n Kp Kr Ke data Hn HK. exists (decode_text data).
  destruct (only_plain scalar data (proj1 scalar_meets)) as [H1 H2].
  destruct (only_plain (simd (2 ^ n) Kp Kr Ke) data (simd_plain n Kp Hn HK)) as [H3 H4]. auto.
Qed.
Print Assumptions c22_plain_isa_independent.

(** The same for the SSE kernels as they are. *)
Theorem c22_plain_sse : forall isa data, exists o,
  decode_returns scalar data false o /\ decodeTo_returns scalar data false o /\
  decode_returns (sse_decoders isa) data false o /\ decodeTo_returns (sse_decoders isa) data false o.
Proof. intros. apply (c22_plain_isa_independent 5); [lia|]. apply (sse_kernel_ok isa false false). discriminate. Qed.
Print Assumptions c22_plain_sse.

(** 100 characters from an odd address, a kernel call in between. *)
Example c22_ex : node_decode (sse_decoders isa_sse2) (fun _ => 1000) 7 100 false
    (mem_of 7 (repeat x2b 70 ++ [EQS; EQS; CR; LF; DOT; DOT] ++ repeat x2a 24))
  = Ok (repeat x01 70 ++ [xd3; x04; x04] ++ repeat x00 24).
Proof. vm_compute. reflexivity. Qed.

(** C23, full statement: the same for dot-unstuffing.  False: at 66 characters, a
    text ending in "=\r\n" loses its last byte. *)
Theorem c23_raw_isa_independent_refuted : exists data o malloc src m,
  bytes_at m src data /\ fresh_malloc malloc src (zlen data) /\
  decode_returns scalar data true o /\
  node_decode (sse_decoders isa_sse2) malloc src (zlen data) true m = Ok (removelast o) /\ removelast o <> o.
Proof.
  exists (repeat x2a 63 ++ [EQS; CR; LF]), (repeat x00 63 ++ [xa3]), (fun _ => 1000), 0, (mem_of 0 (repeat x2a 63 ++ [EQS; CR; LF])).
  split; [apply bytes_at_mem_of|]. split; [intros k Hk; left; vm_compute; discriminate|].
  split; [exact (decode_spec scalar scalar_meets (repeat x2a 63 ++ [EQS; CR; LF]) true)|].
  split; [vm_compute; reflexivity|discriminate].
Qed.
Print Assumptions c23_raw_isa_independent_refuted.

(** The same for any width and any kernel: no kernel avoids it. *)
Theorem c23_raw_every_kernel_refuted : forall n Kplain Kraw Kend, 1 <= n -> kernel_ok true false (2 ^ n) Kraw ->
  exists data o malloc src m,
    bytes_at m src data /\ fresh_malloc malloc src (zlen data) /\ o <> [] /\
    decode_returns scalar data true o /\
    node_decode (simd (2 ^ n) Kplain Kraw Kend) malloc src (zlen data) true m = Ok (removelast o).
Proof.
  intros n Kp Kr Ke Hn HK. destruct (short_text_hits n Hn) as [Hs Ho].
  exists (short_text n), (decode_text (unstuff true (short_text n))), (fun _ => zlen (short_text n)), 0, (mem_of 0 (short_text n)).
  assert (Hm : bytes_at (mem_of 0 (short_text n)) 0 (short_text n)) by apply bytes_at_mem_of.
  assert (Hf : fresh_malloc (fun _ => zlen (short_text n)) 0 (zlen (short_text n))) by (intros k Hk; left; lia).
  split; [exact Hm|]. split; [exact Hf|]. split; [rewrite Ho; destruct (repeat _ _); discriminate|].
  split; [exact (decode_spec scalar scalar_meets (short_text n) true)|].
  destruct (decode_raw_simd n Kp Kr Ke _ _ _ _ Hn HK Hm Hf) as (u & _ & Hu & ->). rewrite (proj2 Hu Hs).
  f_equal. rewrite removelast_firstn_len. f_equal. change (Z.to_nat 1) with 1%nat. lia.
Qed.
Print Assumptions c23_raw_every_kernel_refuted.

(** C23, missing: texts ending in "=\r\n". *)
Theorem c23_raw_isa_independent_partial : forall n Kplain Kraw Kend data,
  1 <= n -> kernel_ok true false (2 ^ n) Kraw -> ~ ends_with [EQS; CR; LF] data ->
  exists o, decode_returns scalar data true o /\ decode_returns (simd (2 ^ n) Kplain Kraw Kend) data true o.
Proof.
  intros n Kp Kr Ke data Hn HK Hne. exists (decode_text (unstuff true data)).
  split; [exact (decode_spec scalar scalar_meets data true)|]. intros malloc src m Hm Hf.
  destruct (decode_raw_simd n Kp Kr Ke _ _ _ _ Hn HK Hm Hf) as (u & [->| ->] & Hu & ->).
  - rewrite Nat.sub_0_r, firstn_all. reflexivity.
  - elim Hne. eapply short_ends; [exact Hn|]. apply Hu. reflexivity.
Qed.
Print Assumptions c23_raw_isa_independent_partial.

Theorem c23_raw_sse_partial : forall isa data, ~ ends_with [EQS; CR; LF] data ->
  exists o, decode_returns scalar data true o /\ decode_returns (sse_decoders isa) data true o.
Proof. intros. apply (c23_raw_isa_independent_partial 5); [lia|apply (sse_kernel_ok isa true false); discriminate|assumption]. Qed.
Print Assumptions c23_raw_sse_partial.

(** What is lost, exactly: at most the last byte, and that one if and only if the
    source is longer than two vectors, the scalar code is left with exactly the
    final "\r\n", and the character before is an unescaped '='. *)
Theorem c23_raw_exact : forall n Kplain Kraw Kend malloc src data m,
  1 <= n -> kernel_ok true false (2 ^ n) Kraw ->
  bytes_at m src data -> fresh_malloc malloc src (zlen data) ->
  exists o, decode_returns scalar data true o /\
   ((~ short_case n src data /\ node_decode (simd (2 ^ n) Kplain Kraw Kend) malloc src (zlen data) true m = Ok o) \/
    (short_case n src data /\ node_decode (simd (2 ^ n) Kplain Kraw Kend) malloc src (zlen data) true m = Ok (removelast o))).
Proof.
  intros n Kp Kr Ke malloc src data m Hn HK Hm Hf. exists (decode_text (unstuff true data)).
  split; [exact (decode_spec scalar scalar_meets data true)|].
  destruct (decode_raw_simd n Kp Kr Ke _ _ _ _ Hn HK Hm Hf) as (u & [->| ->] & Hu & ->).
  - left. split; [intro H; discriminate (proj2 Hu H)|]. rewrite Nat.sub_0_r, firstn_all. reflexivity.
  - right. split; [apply Hu; reflexivity|]. f_equal. rewrite removelast_firstn_len. f_equal. change (Z.to_nat 1) with 1%nat. lia.
Qed.
Print Assumptions c23_raw_exact.

(** Text ending in "\r\n" without the '='. *)
Example c23_ex : ~ ends_with [EQS; CR; LF] (repeat x2a 64 ++ [CR; LF]) /\
  node_decode (sse_decoders isa_avx) (fun _ => 1000) 0 66 true (mem_of 0 (repeat x2a 64 ++ [CR; LF])) = Ok (repeat x00 64).
Proof.
  split; [|vm_compute; reflexivity]. intros [p H].
  assert (L : length p = 63%nat).
  { apply (f_equal (@length byte)) in H. rewrite !app_length, repeat_length in H. cbn [length] in H. lia. }
  apply (f_equal (skipn 63)) in H. rewrite (skipn_app 63 p), (skipn_all2 p), L in H by lia. discriminate H.
Qed.

(** C24: decodeChunk gives the same result, with or without an output buffer, in
    place or not, and so does every sequence of calls. *)
Theorem c24_chunk_isa_independent : forall n Kplain Kraw Kend data prev,
  1 <= n -> kernel_ok true true (2 ^ n) Kend -> is_state prev ->
  exists r, decodeChunk_returns scalar data prev r /\ decodeChunk_returns (simd (2 ^ n) Kplain Kraw Kend) data prev r.
Proof.
  intros n Kp Kr Ke data prev Hn HK [s ->]. eexists.
  split; [exact (decodeChunk_spec scalar scalar_meets data s)|].
  apply chunk_end_only, (decodeChunk_spec _ (end_only_meets (simd (2 ^ n) Kp Kr Ke) (simd_end n Ke Hn HK))).
Qed.
Print Assumptions c24_chunk_isa_independent.

Theorem c24_chunk_sse : forall isa data prev, is_state prev ->
  exists r, decodeChunk_returns scalar data prev r /\ decodeChunk_returns (sse_decoders isa) data prev r.
Proof. intros. apply (c24_chunk_isa_independent 5); [lia|apply (sse_kernel_ok isa true true); reflexivity|assumption]. Qed.
Print Assumptions c24_chunk_sse.

Theorem c24_chunk_in_place : forall n Kplain Kraw Kend data prev,
  1 <= n -> kernel_ok true true (2 ^ n) Kend -> is_state prev -> data <> [] ->
  exists r, decodeChunk_returns scalar data prev r /\
    forall malloc src dest dcap m,
      bytes_at m src data -> zlen data <= dcap -> dec_layout src (zlen data) dest ->
      exists r' m', js_decodeChunk (simd (2 ^ n) Kplain Kraw Kend) malloc src (zlen data) (JBuf dest dcap) (JStr prev) m = Returns (Ok (r', m')) /\
        c_read r' = c_read r /\ c_written r' = c_written r /\ c_ended r' = c_ended r /\ c_state r' = c_state r /\
        bytes_at m' dest (c_output r) /\ (forall q, ~ (dest <= q < dest + dcap) -> m' q = m q).
Proof.
  intros n Kp Kr Ke data prev Hn HK [s ->] Hd. exists (chunk_of data (run_end s data)).
  split; [apply (decodeChunk_spec scalar scalar_meets)|]. intros.
  apply (chunk_into _ (end_only_meets (simd (2 ^ n) Kp Kr Ke) (simd_end n Ke Hn HK))); assumption.
Qed.
Print Assumptions c24_chunk_in_place.

Theorem c24_chunking : forall n Kplain Kraw Kend prev chunks,
  1 <= n -> kernel_ok true true (2 ^ n) Kend ->
  is_state prev -> Forall (fun d => zlen d < 2 ^ 31) chunks -> zlen (concat chunks) < 2 ^ 31 ->
  exists r, decodeChunk_returns scalar (concat chunks) prev r /\
    chunk_chain (simd (2 ^ n) Kplain Kraw Kend) prev chunks (c_output r) (c_read r) (c_ended r) (c_state r).
Proof.
  intros n Kp Kr Ke prev chunks Hn HK [s ->] H1 H2.
  destruct (chain_same _ (end_only_meets (simd (2 ^ n) Kp Kr Ke) (simd_end n Ke Hn HK)) (state_text s) chunks) as (r & Hr & Hc);
    [exists s; reflexivity|assumption|assumption|].
  exists r. split; [|apply chain_end_only; exact Hc].
  pose proof (decodeChunk_spec scalar scalar_meets (concat chunks) s) as H3.
  pose proof (decodeChunk_spec _ (end_only_meets (simd (2 ^ n) Kp Kr Ke) (simd_end n Ke Hn HK)) (concat chunks) s) as H4.
  enough (r = chunk_of (concat chunks) (run_end s (concat chunks))) as -> by exact H3.
  assert (Hf : fresh_malloc (fun _ => zlen (concat chunks)) 0 (zlen (concat chunks))) by (intros k Hk; left; lia).
  destruct (Hr _ 0 _ (bytes_at_mem_of 0 _) Hf) as [m1 E1]. destruct (H4 _ 0 _ (bytes_at_mem_of 0 _) Hf) as [m2 E2].
  rewrite E1 in E2. injection E2 as E2 _. exact E2.
Qed.
Print Assumptions c24_chunking.

(** 70 characters, state "\r\n." on entry, an article end at the last position. *)
Example c24_ex : exists r m',
  js_decodeChunk (sse_decoders isa_avx) (fun _ => 1000) 3 75 JUndef (JStr [CR; LF; DOT])
    (mem_of 3 (repeat x2a 70 ++ [CR; LF; DOT; CR; LF])) = Returns (Ok (r, m')) /\
  c_output r = repeat x00 70 /\ c_read r = 75 /\ c_ended r = true /\ c_state r = [CR; LF; DOT; CR; LF].
Proof. eexists _, _. split; [vm_compute; reflexivity|]. repeat split. Qed.

(** C25: the carry trick marks exactly the '=' that are escape leads, for masks of
    up to 64 bits. *)
Theorem c25_fix_eqMask : forall esc eqs, (length eqs <= 64)%nat ->
  let w := N.of_nat (length eqs) in
  fix_eqMask w (mask_of eqs) (uint w (mask_of (esc :: eqs))) = mask_of (leads esc eqs).
Proof. exact fix_leads. Qed.
Print Assumptions c25_fix_eqMask.

(** "=====a==" in an escape: the first '=' is escaped, the second and fourth are
    leads. *)
Example c25_ex : fix_eqMask 8 223 (uint 8 (223 * 2 + 1)) = 74%N /\
  mask_of [true; true; true; true; true; false; true; true] = 223%N /\
  leads true [true; true; true; true; true; false; true; true] = [false; true; false; true; false; false; true; false].
Proof. repeat split. Qed.

(** C17 for the SIMD decoders: reads stay inside the source, writes inside a
    destination of the same length. *)
Theorem c17_simd_memory_safe : forall n K raw searchEnd, 1 <= n -> (searchEnd = true -> raw = true) ->
  kernel_ok raw searchEnd (2 ^ n) K ->
  forall src dest data state m, (if searchEnd then state <> None else state = None) ->
  bytes_at m src data -> dec_layout src (zlen data) dest ->
  exists e' src' dest' state' m',
    do_decode_simd K raw searchEnd (2 ^ n) {| rlo := src; rhi := src + zlen data; wlo := dest; whi := dest + zlen data |}
      src dest (zlen data) state m = Ok ((e', src', dest', state'), m') /\
    src <= src' <= src + zlen data /\ dest <= dest' <= dest + (src' - src) /\
    (forall q, ~ (dest <= q < dest + zlen data) -> m' q = m q).
Proof. exact simd_safe. Qed.
Print Assumptions c17_simd_memory_safe.

Theorem c17_sse_memory_safe : forall isa raw searchEnd, (searchEnd = true -> raw = true) ->
  forall src dest data state m, (if searchEnd then state <> None else state = None) ->
  bytes_at m src data -> dec_layout src (zlen data) dest ->
  exists e' src' dest' state' m',
    do_decode_simd (do_decode_sse isa raw searchEnd) raw searchEnd 32
      {| rlo := src; rhi := src + zlen data; wlo := dest; whi := dest + zlen data |}
      src dest (zlen data) state m = Ok ((e', src', dest', state'), m') /\
    src <= src' <= src + zlen data /\ dest <= dest' <= dest + (src' - src) /\
    (forall q, ~ (dest <= q < dest + zlen data) -> m' q = m q).
Proof. intros isa r e H. apply (simd_safe 5); [lia|exact H|apply sse_kernel_ok; exact H]. Qed.
Print Assumptions c17_sse_memory_safe.

Example c17_simd_ex : dec_layout 7 90 7 /\ exists m', do_decode_simd (do_decode_sse isa_sse2 true true) true true 32
  {| rlo := 7; rhi := 97; wlo := 7; whi := 97 |} 7 7 90 (Some S_EQ) (mem_of 7 (repeat x2a 90)) = Ok ((E_NONE, 97, 97, Some S_NONE), m').
Proof. split; [unfold dec_layout; lia|]. eexists. vm_compute. reflexivity. Qed.
