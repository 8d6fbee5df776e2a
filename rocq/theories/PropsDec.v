(** Properties of the decoder. *)
From Verif Require Import Base BaseLemmas EncModel EncSpec EncNode EncNodeSpec EncNodeProofs PropsEncLemmas
  DecSpec DecModel DecText DecNode DecNodeSpec DecNodeProofs PropsDecLemmas.

(** C01: decoding an encoded buffer gives the buffer back. *)
Theorem c01_roundtrip_plain : forall data args L col,
  data <> [] -> args_give args L col -> in_range L col data ->
  exists o, encode_returns do_encode_generic data args o /\ decode_returns scalar o false data.
Proof. intros. eapply roundtrip_plain; eauto. apply scalar_meets. Qed.
Print Assumptions c01_roundtrip_plain.

(** Escaped characters, a line break and a shortened first line. *)
Example c01_ex : exists o,
  encode_returns do_encode_generic [xd6; x04; x13; xe0; xdf; x04] [2; 1] o /\
  decode_returns scalar o false [xd6; x04; x13; xe0; xdf; x04].
Proof. apply (c01_roundtrip_plain _ _ 2 1); [discriminate|reflexivity|]. split; vm_compute; [reflexivity|left; discriminate]. Qed.

(** C02: the same when stuffed dots are removed, whether or not the encoded text
    was dot-stuffed in between. *)
Theorem c02_roundtrip_raw : forall data args L,
  data <> [] -> args_give args L 0 -> in_range L 0 data ->
  exists o, encode_returns do_encode_generic data args o /\
    decode_returns scalar o true data /\ decode_returns scalar (stuff true o) true data.
Proof. intros. eapply roundtrip_raw; eauto. apply scalar_meets. Qed.
Print Assumptions c02_roundtrip_raw.

Example c02_ex : exists o,
  encode_returns do_encode_generic [x04; x04; x04; xe0; x04; x04] [3] o /\
  decode_returns scalar o true [x04; x04; x04; xe0; x04; x04] /\
  decode_returns scalar (stuff true o) true [x04; x04; x04; xe0; x04; x04].
Proof. apply (c02_roundtrip_raw _ _ 3); [discriminate|reflexivity|]. split; vm_compute; [reflexivity|left; discriminate]. Qed.

(** C06, the streaming half: decodeChunk over the encoded text, cut in any way,
    reads all of it, returns the data and never reports the end. *)
Theorem c06_stream_not_ended : forall data args L chunks o,
  data <> [] -> args_give args L 0 -> in_range L 0 data ->
  encode_returns do_encode_generic data args o -> concat chunks = o ->
  Forall (fun d => zlen d < 2 ^ 31) chunks ->
  exists st, chunk_chain scalar [CR; LF] chunks data (zlen o) false st.
Proof. intros. eapply roundtrip_chunks; eauto. apply scalar_meets. Qed.
Print Assumptions c06_stream_not_ended.

(** Data that encodes to "=y"-like and dot-like text, cut inside an escape. *)
Example c06_stream_ex : exists st,
  chunk_chain scalar [CR; LF] [[x3d]; [x6e; x4f; x0d]; [x0a; x3d]; [x6e]] [x04; x25; x04] 7 false st.
Proof.
  apply (c06_stream_not_ended [x04; x25; x04] [3] 3 [[x3d]; [x6e; x4f; x0d]; [x0a; x3d]; [x6e]] [x3d; x6e; x4f; x0d; x0a; x3d; x6e]).
  - discriminate.
  - reflexivity.
  - split; vm_compute; [reflexivity|left; discriminate].
  - refine (enc_ok [x04; x25; x04] [3] 3 0 _ _ _); [discriminate|reflexivity|split; vm_compute; [reflexivity|left; discriminate]].
  - reflexivity.
  - repeat constructor.
Qed.

(** C15: plain decoding is textual decoding. *)
Theorem c15_plain_reference : forall data, decode_returns scalar data false (decode_text data).
Proof. intro. exact (decode_spec scalar scalar_meets data false). Qed.
Print Assumptions c15_plain_reference.

Example c15_ex : decode_text [x2a; x3d; x6a; x0d; x2b; x0a; x3d; x3d; x2e; x3d] = [x00; x00; x01; xd3; x04].
Proof. vm_compute. reflexivity. Qed.

(** C16: dot-unstuffing decoding is removing the stuffed dots, then textual
    decoding. *)
Theorem c16_raw_reference : forall data, decode_returns scalar data true (decode_text (unstuff true data)).
Proof. intro. exact (decode_spec scalar scalar_meets data true). Qed.
Print Assumptions c16_raw_reference.

(** Only the first of two dots at a line start goes; the CRLF after '=' counts as a
    line start too, and the LF is dropped. *)
Example c16_ex : decode_text (unstuff true [x2e; x2e; x2a; x0d; x0a; x2e; x2b; x2e; x3d; x0d; x0a; x2e; x2c]) =
  [x04; x00; x01; x04; xa3; x02].
Proof. vm_compute. reflexivity. Qed.

(** The streaming decoder agrees with it as long as no end marker shows up. *)
Theorem c16_stream_reference : forall data, exists r,
  decodeChunk_returns scalar data [CR; LF] r /\
  (c_ended r = false -> c_output r = decode_text (unstuff true data)).
Proof. intro. exact (chunk_output scalar data scalar_meets). Qed.
Print Assumptions c16_stream_reference.

(** C17: the C decoders, given exactly the source and a destination as long as the
    source, finish without touching anything else; the write position never
    overtakes the read position. *)
Theorem c17_decode_memory_safe : forall raw searchEnd src dest data state m,
  (searchEnd = true -> raw = true /\ state <> None) ->
  bytes_at m src data -> dec_layout src (zlen data) dest ->
  exists e src' dest' state' m',
    do_decode_scalar raw searchEnd
      {| rlo := src; rhi := src + zlen data; wlo := dest; whi := dest + zlen data |}
      src dest (zlen data) state m = Ok ((e, src', dest', state'), m') /\
    src <= src' <= src + zlen data /\ dest <= dest' <= dest + (src' - src) /\
    (forall q, ~ (dest <= q < dest + zlen data) -> m' q = m q).
Proof. intros. apply decode_safe; assumption. Qed.
Print Assumptions c17_decode_memory_safe.

Example c17_ex : exists m', do_decode_scalar true true
  {| rlo := 0; rhi := 9; wlo := 0; whi := 9 |} 0 0 9 (Some S_EQ)
  (mem_of 0 [x2e; x2a; x0d; x0a; x2e; x3d; x79; x2a; x2a]) = Ok ((E_CONTROL, 7, 2, Some S_NONE), m').
Proof. eexists. vm_compute. reflexivity. Qed.

(** C18: decodeTo writes the same bytes into a separate buffer and in place, and
    those are the bytes decode returns. *)
Theorem c18_decodeTo_in_place : forall data isRaw, exists o,
  decode_returns scalar data isRaw o /\ decodeTo_returns scalar data isRaw o.
Proof.
  intros. exists (reference isRaw data). split.
  - apply (decode_spec scalar scalar_meets).
  - apply (decodeTo_spec scalar scalar_meets).
Qed.
Print Assumptions c18_decodeTo_in_place.

(** The layout of [decodeTo_returns] includes destination = source. *)
Example c18_ex : dec_layout 100 50 100 /\ dec_layout 100 50 90 /\ dec_layout 100 50 150.
Proof. unfold dec_layout. lia. Qed.

(** decodeChunk with an output buffer, possibly the source buffer itself, gives
    what it gives without one. *)
Theorem c18_decodeChunk_in_place : forall data prev,
  is_state prev -> data <> [] ->
  exists r, decodeChunk_returns scalar data prev r /\
    forall malloc src dest dcap m,
      bytes_at m src data -> zlen data <= dcap -> dec_layout src (zlen data) dest ->
      exists r' m', js_decodeChunk scalar malloc src (zlen data) (JBuf dest dcap) (JStr prev) m = Returns (Ok (r', m')) /\
        c_read r' = c_read r /\ c_written r' = c_written r /\ c_ended r' = c_ended r /\ c_state r' = c_state r /\
        bytes_at m' dest (c_output r) /\ (forall q, ~ (dest <= q < dest + dcap) -> m' q = m q).
Proof.
  intros data prev [s ->] Hd. exists (chunk_of data (run_end s data)).
  split; [apply (decodeChunk_spec scalar scalar_meets)|]. intros.
  apply (chunk_into scalar scalar_meets); assumption.
Qed.
Print Assumptions c18_decodeChunk_in_place.

Example c18_chunk_ex : is_state [CR; LF; DOT] /\ [x2e; x2a] <> [].
Proof. split; [exists S_CRLFDT; reflexivity|discriminate]. Qed.

(** C19: cutting a stream in chunks changes neither output, number of bytes read,
    end indication nor final state.  Chunks may be empty. *)
Theorem c19_chunking : forall prev chunks,
  is_state prev -> Forall (fun d => zlen d < 2 ^ 31) chunks -> zlen (concat chunks) < 2 ^ 31 ->
  exists r, decodeChunk_returns scalar (concat chunks) prev r /\
    chunk_chain scalar prev chunks (c_output r) (c_read r) (c_ended r) (c_state r).
Proof. intros. apply (chain_same scalar scalar_meets); assumption. Qed.
Print Assumptions c19_chunking.

(** An end marker spread over four chunks. *)
Example c19_ex : exists r,
  decodeChunk_returns scalar [x2a; CR; LF; DOT; CR; LF; x2a] [] r /\
  chunk_chain scalar [] [[x2a; CR]; []; [LF; DOT]; [CR]; [LF; x2a]] (c_output r) (c_read r) (c_ended r) (c_state r).
Proof. apply (c19_chunking [] [[x2a; CR]; []; [LF; DOT]; [CR]; [LF; x2a]]); [exists S_NONE; reflexivity|repeat constructor|reflexivity]. Qed.

(** C20: the end is reported exactly when the text so far, counted from the pending
    text [prev], contains a marker; everything up to the first marker is read, and
    what is output is what was output for the text before its last character. *)
Theorem c20_end_detection : forall data prev,
  is_state prev -> zlen data < 2 ^ 31 ->
  exists r, decodeChunk_returns scalar data prev r /\
   ((c_ended r = false /\ c_read r = zlen data /\
     (forall q p2 e, data = q ++ p2 -> ~ ends_in_marker e (prev ++ q))) \/
    (exists p c rst e, c_ended r = true /\ data = (p ++ [c]) ++ rst /\ c_read r = zlen (p ++ [c]) /\
       ends_in_marker e (prev ++ p ++ [c]) /\ c_state r = marker_text e /\
       (forall q p2 e', p = q ++ p2 -> ~ ends_in_marker e' (prev ++ q)) /\
       exists r0, decodeChunk_returns scalar p prev r0 /\ c_ended r0 = false /\ c_output r = c_output r0)).
Proof. intros. apply end_detection; auto. apply scalar_meets. Qed.
Print Assumptions c20_end_detection.

Example c20_ex : ends_in_marker E_CONTROL ([CR; LF; DOT] ++ [EQS; YY]) /\
  ends_in_marker E_ARTICLE ([CR; LF; DOT; CR] ++ [LF]) /\ ~ ends_in_marker E_ARTICLE [DOT; CR; LF].
Proof.
  split; [right; exists []; reflexivity|]. split; [exists []; reflexivity|].
  intros [t H]. apply (f_equal (@length byte)) in H. rewrite app_length in H. simpl in H. lia.
Qed.

(** C21: the state string returned is the pending end of the text consumed (with
    the stuffed dot before '=' dropped), and a fresh decoder fed that string ends
    in that state, having produced nothing. *)
Theorem c21_state_is_pending_text : forall data prev, is_state prev ->
  exists r, decodeChunk_returns scalar data prev r /\
   (c_ended r = false ->
     is_state (c_state r) /\
     (ends_with (c_state r) (prev ++ data) \/
      (c_state r = [CR; LF; EQS] /\ ends_with [CR; LF; DOT; EQS] (prev ++ data))) /\
     exists r0, decodeChunk_returns scalar (c_state r) [] r0 /\ c_ended r0 = false /\
       c_state r0 = c_state r /\ c_output r0 = []).
Proof. intros. apply state_pending; auto. apply scalar_meets. Qed.
Print Assumptions c21_state_is_pending_text.

Example c21_ex : exists r, decodeChunk_returns scalar [LF; DOT; EQS] [CR] r /\ c_ended r = false /\
  c_state r = [CR; LF; EQS].
Proof. eexists. split; [apply (decodeChunk_spec scalar scalar_meets [LF; DOT; EQS] S_CR)|split; vm_compute; reflexivity]. Qed.

(** C37, full statement: every state returned can be passed on.  False: after an
    end marker, decodeChunk returns a state that makes the next call on any
    non-empty buffer throw. *)
Theorem c37_state_accepted_refuted : exists data r,
  decodeChunk_returns scalar data [CR; LF] r /\
  forall malloc src len m, len <> 0 ->
    js_decodeChunk scalar malloc src len JUndef (JStr (c_state r)) m = Throws.
Proof.
  exists [EQS; YY]. eexists. split; [apply (decodeChunk_spec scalar scalar_meets [EQS; YY] S_CRLF)|].
  intros. unfold js_decodeChunk. destruct (len =? 0) eqn:E; [lia|]. reflexivity.
Qed.
Print Assumptions c37_state_accepted_refuted.

(** C37, missing: the states returned with ended = true. *)
Theorem c37_state_accepted_partial : forall data prev, is_state prev ->
  exists r, decodeChunk_returns scalar data prev r /\
    (c_ended r = false -> forall data2, exists r2, decodeChunk_returns scalar data2 (c_state r) r2).
Proof.
  intros data prev Hp. destruct (state_pending scalar data prev scalar_meets Hp) as (r & H & K).
  exists r. split; [exact H|]. intros He data2. destruct (K He) as ([s ->] & _).
  eexists. apply (decodeChunk_spec scalar scalar_meets).
Qed.
Print Assumptions c37_state_accepted_partial.

Example c37_ex : is_state [CR; LF; EQS].
Proof. exists S_CRLFEQ. reflexivity. Qed.

(** C38, full statement: decodeChunk(data, state, output), the documented order of
    arguments, writes the output to the supplied buffer.  False: the buffer is
    never written. *)
Theorem c38_documented_order_refuted : exists malloc src data st dest m r m',
  js_decodeChunk scalar malloc src (zlen data) (JStr st) (JBuf dest 10) m = Returns (Ok (r, m')) /\
  bytes_at m src data /\ c_output r = [x00; x01] /\ c_written r = 2 /\
  read_n m dest 10 = repeat x00 10 /\ read_n m' dest 10 = repeat x00 10.
Proof.
  exists (fun _ => 100), 0, [x2a; x2b], [CR; LF], 50, (mem_of 0 [x2a; x2b]).
  eexists _, _. split; [vm_compute; reflexivity|]. split; [apply bytes_at_mem_of|].
  repeat split; vm_compute; reflexivity.
Qed.
Print Assumptions c38_documented_order_refuted.

(** C38, what holds: with the order (data, output, state) the output goes to the
    buffer, see [c18_decodeChunk_in_place]; with the documented order the buffer is
    always ignored. *)
Theorem c38_documented_order_ignores_buffer : forall malloc src len st a n m,
  js_decodeChunk scalar malloc src len (JStr st) (JBuf a n) m =
  js_decodeChunk scalar malloc src len JUndef (JStr st) m.
Proof. reflexivity. Qed.
Print Assumptions c38_documented_order_ignores_buffer.

(** C39, full statement: a short destination makes decodeTo throw.  False: it
    returns 0. *)
Theorem c39_short_destination_refuted : exists src len dest dcap m,
  dcap < len /\ node_decode_to scalar src len dest dcap false m = Returns (Ok (0, m)).
Proof. exists 0, 2, 10, 1, (mem_of 0 [x2a; x2b]). split; [lia|reflexivity]. Qed.
Print Assumptions c39_short_destination_refuted.

(** C39, missing: the exception.  A short destination is never written; any other
    is written only inside. *)
Theorem c39_short_destination_partial : forall data isRaw src dest dcap m,
  bytes_at m src data -> dec_layout src (zlen data) dest ->
  exists n m', node_decode_to scalar src (zlen data) dest dcap isRaw m = Returns (Ok (n, m')) /\
    (forall q, ~ (dest <= q < dest + dcap) -> m' q = m q) /\
    (dcap < zlen data -> n = 0 /\ m' = m).
Proof.
  intros data isRaw src dest dcap m Hm Hl. destruct (dcap <? zlen data) eqn:E.
  - exists 0, m. split; [|auto]. unfold node_decode_to. rewrite E. destruct (zlen data =? 0); reflexivity.
  - destruct (decodeTo_spec scalar scalar_meets data isRaw src dest dcap m Hm) as (m' & R & _ & F); auto; [lia|].
    eexists _, m'. split; [exact R|]. split; [exact F|]. lia.
Qed.
Print Assumptions c39_short_destination_partial.

Example c39_ex : bytes_at (mem_of 5 [x2a; x0d; x2b]) 5 [x2a; x0d; x2b] /\ dec_layout 5 3 4.
Proof. split; [apply bytes_at_mem_of|left; lia]. Qed.

(** C47, full statement: the byte counts returned equal the bytes produced.
    False from 2 GiB on: decodeTo returns a negative number. *)
Theorem c47_count_refuted : exists data o,
  zlen o = 2 ^ 31 /\ decode_returns scalar data false o /\
  forall src dest m, bytes_at m src data -> dec_layout src (zlen data) dest ->
    exists m', node_decode_to scalar src (zlen data) dest (zlen data) false m = Returns (Ok (- 2 ^ 31, m')) /\
      bytes_at m' dest o.
Proof.
  destruct big_text as (data & E). exists data, (decode_text data).
  split; [exact E|]. split; [exact (decode_spec scalar scalar_meets data false)|].
  intros src dest m Hm Hl.
  destruct (decodeTo_spec scalar scalar_meets data false src dest (zlen data) m Hm ltac:(lia) Hl) as (m' & R & Q & _).
  change (reference false data) with (decode_text data) in *. rewrite E in R. exists m'. split; [exact R|exact Q].
Qed.
Print Assumptions c47_count_refuted.

(** Such a memory exists. *)
Example c47_ex : forall data, bytes_at (mem_of 0 data) 0 data /\ dec_layout 0 (zlen data) 0.
Proof. intro. split; [apply bytes_at_mem_of|left; lia]. Qed.

(** encodeTo misreports every output of 2 GiB or more. *)
Theorem c47_encodeTo_misreports : forall data args L col o dcap src dest m,
  data <> [] -> args_give args L col -> in_range L col data ->
  encode_returns do_encode_generic data args o -> 2 ^ 31 <= zlen o ->
  YENC_MAX_SIZE (zlen data) L <= dcap ->
  bytes_at m src data -> apart src (zlen data) dest dcap ->
  exists n m', node_encode_to do_encode_generic src (zlen data) dest dcap args m = Returns (Ok (n, m')) /\
    bytes_at m' dest o /\ n <> zlen o.
Proof. intros; eapply encodeTo_misreports; eauto. Qed.
Print Assumptions c47_encodeTo_misreports.

Example c47_encodeTo_ex : exists data, data <> [] /\ args_give [] 128 0 /\ in_range 128 0 data /\
  2 ^ 31 <= zlen (yenc 128 true 0 data).
Proof. exact big_encoded. Qed.

(** C47, missing: outputs of 2 GiB or more. *)
Theorem c47_count_partial : forall data isRaw src dest dcap m,
  bytes_at m src data -> zlen data <= dcap -> dec_layout src (zlen data) dest -> zlen data < 2 ^ 31 ->
  exists o m', decode_returns scalar data isRaw o /\
    node_decode_to scalar src (zlen data) dest dcap isRaw m = Returns (Ok (zlen o, m')) /\ bytes_at m' dest o.
Proof. intros; apply (decodeTo_counts scalar scalar_meets); assumption. Qed.
Print Assumptions c47_count_partial.
