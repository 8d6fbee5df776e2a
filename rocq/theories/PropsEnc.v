(** Properties of the encoder. *)
From Verif Require Import Base EncModel EncSpec EncEnd EncNode EncNodeSpec EncNodeProofs PropsEncLemmas EncSize.

(** C03: encoded output contains no NUL, CR and LF only as CRLF, '=' only before a
    legal escaped character. *)
Theorem c03_line_safe : forall data args L col,
  data <> [] -> args_give args L col -> in_range L col data ->
  exists o, encode_returns do_encode_generic data args o /\ line_safe o.
Proof. intros; eexists; split; [apply enc_ok; eassumption|apply line_safe_yenc]. Qed.
Print Assumptions c03_line_safe.

Example c03_ex : exists o,
  encode_returns do_encode_generic [xd6; x04; x13; xe0; xdf] [2; 1] o /\ line_safe o.
Proof. apply (c03_line_safe _ _ 2 1); [discriminate|reflexivity|]. split; vm_compute; [reflexivity|left; discriminate]. Qed.

(** C04: every completed line holds exactly [L] characters (the first one
    [L - col]), or one more when its last character is escaped; the last line is
    not empty. *)
Theorem c04_line_lengths : forall data args L col,
  data <> [] -> args_give args L col -> in_range L col data ->
  exists o front lst,
    encode_returns do_encode_generic data args o /\
    lines o = front ++ [lst] /\ join_crlf (front ++ [lst]) = o /\
    1 <= zlen lst <= L + 1 /\
    (forall l, hd_error front = Some l -> full_line (L - col) l) /\
    (forall l, In l (tl front) -> full_line L l).
Proof.
  intros data args L col Hd Ha Hr. destruct (enc_args_range _ _ _ Ha) as [[HL _] Hc].
  destruct (lines_lengths data L col Hd HL Hc) as (f & l & E & H1 & H2 & H3).
  exists (yenc L true col data), f, l. repeat apply conj; auto; try apply H1.
  - apply enc_ok; assumption.
  - rewrite <- E. apply EncShape.join_lines.
Qed.
Print Assumptions c04_line_lengths.

Example c04_ex : lines (yenc 4 true 1 [x00; xd6; x01; x02; x03; x04; xe3]) =
  [[x2a; x3d; x40]; [x2b; x2c; x2d; x2e]; [x3d; x4d]].
Proof. vm_compute. reflexivity. Qed.

(** C05: no line begins with a dot, none begins or ends with tab or space. *)
Theorem c05_dots_and_spaces : forall data args L,
  data <> [] -> args_give args L 0 -> in_range L 0 data ->
  exists o, encode_returns do_encode_generic data args o /\
    forall l, In l (lines o) ->
      ~ starts_with [DOT] l /\ ~ starts_with [TAB] l /\ ~ starts_with [SP] l /\
      ~ ends_with [TAB] l /\ ~ ends_with [SP] l.
Proof.
  intros data args L Hd Ha Hr. destruct (enc_args_range _ _ _ Ha) as [[HL _] Hc].
  eexists. split; [apply enc_ok; eassumption|]. apply lines_ends. exact HL.
Qed.
Print Assumptions c05_dots_and_spaces.

(** Tabs and dots do occur inside lines. *)
Example c05_ex : yenc 5 true 0 [xdf; xdf; x04; x04; xdf; x04; xdf] =
  [x3d; x49; x09; x2e; x2e; x0d; x0a; x3d; x49; x2e; x3d; x49].
Proof. vm_compute. reflexivity. Qed.

(** C06, the text: no CRLF is followed by '.' or by '=y'. *)
Theorem c06_no_marker_in_text : forall data args L col,
  data <> [] -> args_give args L col -> in_range L col data ->
  exists o, encode_returns do_encode_generic data args o /\
    forall a b, o = a ++ CR :: LF :: b -> ~ starts_with [DOT] b /\ ~ starts_with [EQS; YY] b.
Proof.
  intros data args L col Hd Ha Hr. destruct (enc_args_range _ _ _ Ha) as [[HL _] Hc].
  eexists. split; [apply enc_ok; eassumption|]. intros a b. apply no_marker; assumption.
Qed.
Print Assumptions c06_no_marker_in_text.

Example c06_ex : yenc 1 true 0 [x04; x04] = [x3d; x6e] ++ CR :: LF :: [x3d; x6e].
Proof. vm_compute. reflexivity. Qed.

(** C07: [maxSize] is an upper bound, with 64 bytes to spare. *)
Theorem c07_max_size : forall data args L col,
  data <> [] -> args_give args L col -> in_range L col data ->
  exists o, encode_returns do_encode_generic data args o /\
    zlen o + 64 <= js_maxSize (zlen data) L.
Proof.
  intros data args L col Hd Ha Hr. destruct (enc_args_range _ _ _ Ha) as [[HL _] Hc].
  eexists. split; [apply enc_ok; eassumption|]. apply maxSize_bound; auto. apply Hr.
Qed.
Print Assumptions c07_max_size.

(** The bound is reached up to two bytes. *)
Example c07_ex : zlen (yenc 1 true 0 [xd6; xd6; xd6]) + 64 = 74 /\ js_maxSize 3 1 = 84 /\
  zlen (yenc 2 true 1 [x00; xd6; xd6; xd6]) + 64 = 77 /\ js_maxSize 4 2 = 82.
Proof. vm_compute. auto. Qed.

(** C08 is false: 128 bytes that need no escaping and no line break encode to 128
    bytes, [minSize] says 130. *)
Theorem c08_min_size_refuted : exists data,
  encode_returns do_encode_generic data [128] (yenc 128 true 0 data) /\
  zlen (yenc 128 true 0 data) < js_minSize (zlen data) 128.
Proof.
  exists (repeat x00 128). split; [|vm_compute; reflexivity].
  apply enc_ok; [discriminate|reflexivity|]. split; vm_compute; [reflexivity|left; discriminate].
Qed.
Print Assumptions c08_min_size_refuted.

(** The README's equivalence with [maxSize(length, line_size, 0) - 2] is false too. *)
Theorem c08_readme_equation_refuted : exists length line_size,
  js_minSize length line_size <> js_maxSize0 length line_size - 2.
Proof. exists 1, 128. vm_compute. discriminate. Qed.
Print Assumptions c08_readme_equation_refuted.

(** What does hold: the line break count is that of [length - 1]. *)
Theorem c08_min_size_corrected : forall data args L col,
  data <> [] -> args_give args L col -> in_range L col data ->
  exists o, encode_returns do_encode_generic data args o /\
    zlen data + 2 * ((col + zlen data - 1) / L) <= zlen o.
Proof.
  intros data args L col Hd Ha Hr. destruct (enc_args_range _ _ _ Ha) as [[HL _] Hc].
  eexists. split; [apply enc_ok; eassumption|]. apply yenc_min; auto.
Qed.
Print Assumptions c08_min_size_corrected.

(** [minSize] itself is a lower bound exactly when [L] does not divide the length
    (starting in column 0). *)
Theorem c08_min_size_partial : forall data args L,
  data <> [] -> args_give args L 0 -> in_range L 0 data -> zlen data mod L <> 0 ->
  exists o, encode_returns do_encode_generic data args o /\ js_minSize (zlen data) L <= zlen o.
Proof.
  intros data args L Hd Ha Hr Hm. destruct (enc_args_range _ _ _ Ha) as [[HL _] Hc].
  eexists. split; [apply enc_ok; eassumption|]. apply minSize_bound; auto.
Qed.
Print Assumptions c08_min_size_partial.

(** The corrected bound is reached. *)
Example c08_ex : zlen (yenc 4 true 0 (repeat x00 9)) = 9 + 2 * ((0 + 9 - 1) / 4) /\
  zlen (yenc 4 true 0 (repeat x00 8)) = 8 + 2 * ((0 + 8 - 1) / 4).
Proof. vm_compute. auto. Qed.

(** C09: [encode] and [encodeTo] run without reading outside the source or writing
    outside the destination (any such access is the outcome [UB] of the model), and
    [encodeTo] changes no memory outside the destination. *)
Theorem c09_encode_memory_safe : forall data args L col malloc src m,
  data <> [] -> args_give args L col -> in_range L col data ->
  bytes_at m src data -> fresh_malloc malloc src (zlen data) ->
  exists o, node_encode do_encode_generic malloc src (zlen data) args m = Returns (Ok o).
Proof. intros. eexists. eapply enc_ok; eassumption. Qed.
Print Assumptions c09_encode_memory_safe.

Theorem c09_encodeTo_memory_safe : forall data args L col src dest dcap m,
  data <> [] -> args_give args L col -> in_range L col data ->
  bytes_at m src data -> apart src (zlen data) dest dcap ->
  js_maxSize (zlen data) L <= dcap ->
  exists n m', node_encode_to do_encode_generic src (zlen data) dest dcap args m = Returns (Ok (n, m')) /\
    forall q, ~ (dest <= q < dest + dcap) -> m' q = m q.
Proof. intros data args L col; exact (encodeTo_safe data args L col). Qed.
Print Assumptions c09_encodeTo_memory_safe.

Example c09_ex : in_range 128 5 (repeat x00 1000) /\
  args_give [128; 5] 128 5 /\ fresh_malloc (fun _ => 5000) 0 1000 /\
  apart 0 1000 1000 9999.
Proof. repeat split; try (vm_compute; congruence); [left; vm_compute; discriminate|intros n H; left; lia|left; lia]. Qed.

(** C10: [encodeTo] insists on exactly [maxSize(length, line_size)] bytes: with that
    much it is not rejected and works, with less it throws. *)
Theorem c10_encodeTo_max_size : forall data args L col dcap,
  data <> [] -> zlen data < 2 ^ 52 -> args_give args L col -> in_range L col data ->
  (js_maxSize (zlen data) L <= dcap ->
   exists o, encodeTo_returns do_encode_generic data dcap args o) /\
  (dcap < js_maxSize (zlen data) L -> forall src dest m,
   node_encode_to do_encode_generic src (zlen data) dest dcap args m = Throws).
Proof. intros data args L col dcap; exact (encodeTo_max data args L col dcap). Qed.
Print Assumptions c10_encodeTo_max_size.

Example c10_ex : js_maxSize 1000 128 = 2000 + 30 + 66 /\ js_maxSize 1000 0 = js_maxSize 1000 128.
Proof. vm_compute. auto. Qed.

(** C11: the SIMD front-end, with any kernel that writes the specified text for the
    prefix it consumes ([kernel_run]), returns the same bytes, count and column as
    the portable encoder. *)
Theorem c11_encoder_isa_independent : forall k B L col src dest data fin m,
  rlo B = src -> rhi B = src + zlen data -> wlo B = dest ->
  (rhi B <= wlo B \/ whi B <= rlo B) ->
  data <> [] -> bytes_at m src data ->
  1 <= L <= INT_MAX -> 0 <= col < L -> in_range L col data ->
  dest + zlen (yenc L fin col data) + 32 <= whi B ->
  (12 <= L -> kernel_run B k L col src dest data m) ->
  exists n c m1 m2,
    do_encode_generic B L col src dest (zlen data) fin m = Ok ((n, c), m1) /\
    do_encode_simd k B L col src dest (zlen data) fin m = Ok ((n, c), m2) /\
    read_n m1 dest (Z.to_nat n) = read_n m2 dest (Z.to_nat n).
Proof. exact simd_same. Qed.
Print Assumptions c11_encoder_isa_independent.

(** A kernel that consumes nothing meets the contract, and so does one that
    consumes a fixed prefix. *)
Example c11_ex : kernel_run {| rlo := 0; rhi := 3; wlo := 10; whi := 100 |}
  (fun B L col es dest len =>
     store B dest x2b ;;; store B (dest + 1) x2c ;;; ret (col + 2, dest + 2, len - 2))
  12 5 0 10 [x01; x02; x03] (mem_of 0 [x01; x02; x03]).
Proof.
  unfold kernel_run. do 2 eexists. exists [x2b; x2c], [x01; x02], [x03].
  split; [reflexivity|]. split; [reflexivity|]. vm_compute. repeat split; discriminate.
Qed.

(** C12 is false: with line size 4, feeding four bytes and then one gives a
    different text from feeding five. *)
Theorem c12_incremental_refuted : exists L chunks o,
  incr_chain do_encode_generic L 0 chunks o /\
  encodeIncr_returns do_encode_generic (concat chunks) [L; 0] (yenc L false 0 (concat chunks))
     (ret_col L false 0 (concat chunks)) /\
  o <> yenc L false 0 (concat chunks).
Proof. exact incr_counterexample. Qed.
Print Assumptions c12_incremental_refuted.

(** It holds if no chunk (except the last) ends with a full line. *)
Theorem c12_incremental_partial : forall L chunks,
  1 <= L <= INT_MAX - 6 -> zlen (concat chunks) < 2 ^ 53 -> concat chunks <> [] ->
  (forall a b, chunks = a ++ b -> b <> [] -> yenc_col L false 0 (concat a) < L) ->
  exists o col,
    encodeIncr_returns do_encode_generic (concat chunks) [L; 0] o col /\
    incr_chain do_encode_generic L 0 chunks o.
Proof. exact incr_ok. Qed.
Print Assumptions c12_incremental_partial.

Example c12_ex : let chunks := [[x00; xd6; x01]; []; [x02; x03; x04; x05]; [x06]] in
  concat chunks <> [] /\
  (forall a b, chunks = a ++ b -> b <> [] -> yenc_col 5 false 0 (concat a) < 5).
Proof.
  split; [discriminate|]. intros a b H Hb.
  destruct a as [|? [|? [|? [|? [|? a]]]]]; cbn in H; inversion H; subst; try (vm_compute; reflexivity).
Qed.

(** C13: the encoder proper is only ever called with [1 <= line_size <= INT_MAX] and
    [0 <= column < line_size]: two encoders that agree there are indistinguishable
    through [encode], [encodeTo] and [encodeIncr]. *)
Theorem c13_only_valid_arguments : forall e1 e2,
  agree_valid e1 e2 ->
  (forall malloc src len args m, 0 <= len ->
     node_encode e1 malloc src len args m = node_encode e2 malloc src len args m) /\
  (forall src len dest dcap args m, 0 <= len ->
     node_encode_to e1 src len dest dcap args m = node_encode_to e2 src len dest dcap args m) /\
  (forall malloc src len dst args m, 0 <= len ->
     node_encode_incr e1 malloc src len dst args m = node_encode_incr e2 malloc src len dst args m).
Proof. exact args_valid. Qed.
Print Assumptions c13_only_valid_arguments.

(** ... and the call throws exactly for a negative line size, a negative column or
    a column beyond the line size (after truncation to 32 bits, 0 meaning 128). *)
Theorem c13_throws_exactly : forall e malloc src len args m,
  0 < len ->
  node_encode e malloc src len args m = Throws <->
  exists a rest, args = a :: rest /\
    let L := if to_int32 a =? 0 then 128 else to_int32 a in
    (L < 0 \/ exists b rest', rest = b :: rest' /\ (to_int32 b < 0 \/ L < to_int32 b)).
Proof. exact encode_throws. Qed.
Print Assumptions c13_throws_exactly.

Example c13_ex : enc_args [4294967297; -4294967296] = Some (1, 0) /\ enc_args [0; 129] = None
  /\ enc_args [7; 7] = Some (7, 0) /\ enc_args [2147483648] = None.
Proof. vm_compute. auto. Qed.

(** C14 is false: a destination accepted by [encodeIncr] may be too small. *)
Theorem c14_incr_destination_refuted : exists data dcap L,
  0 < L /\
  node_encode_incr do_encode_generic (fun _ => 0) 0 (zlen data) (Some (1000, dcap)) [L] (mem_of 0 data)
    = Returns UB.
Proof. exists (repeat x00 100), 268, 1. split; [reflexivity|vm_compute; reflexivity]. Qed.
Print Assumptions c14_incr_destination_refuted.

(** With a line size of at least 128 the check is sufficient. *)
Theorem c14_incr_destination_partial : forall data args L col src dest dcap malloc m,
  data <> [] -> args_give args L col -> in_range L col data ->
  128 <= L -> bytes_at m src data -> apart src (zlen data) dest dcap ->
  node_encode_incr do_encode_generic malloc src (zlen data) (Some (dest, dcap)) args m = Throws \/
  exists n o c, node_encode_incr do_encode_generic malloc src (zlen data) (Some (dest, dcap)) args m
    = Returns (Ok (n, o, c)).
Proof. exact incr_dest. Qed.
Print Assumptions c14_incr_destination_partial.

Example c14_ex : exists o, node_encode_incr do_encode_generic (fun _ => 0) 0 100 (Some (1000, 268)) [128]
  (mem_of 0 (repeat x00 100)) = Returns (Ok (100, o, 100)).
Proof. eexists. vm_compute. reflexivity. Qed.
