(** Arguments of any type: what the native functions do with them. *)
From Verif Require Import Base BaseLemmas EncSpec EncModel EncNode EncNodeSpec EncNodeProofs EncPadSpec EncPad DecModel DecNode CrcModel CrcSpec CrcNodeSpec CrcNodeProofs CrcMul CrcIsaProofs JsBase JsBuilds JsArgs JsArgsSpec JsArgsProofs.
From Coq Require Import QArith.
Open Scope Z_scope.

(** C77: "whatever is passed, a call throws or returns" is false from Node.js 8 on: for encode(data, undefined)
    the value undefined is read as if it were a number. *)
Theorem c77_any_argument_refuted : exists args, forall no256 e malloc m,
  v_encode From8 no256 e malloc args m = Returns UB.
Proof. exists [Buf 0 5; Undefined]. intros. reflexivity. Qed.
Print Assumptions c77_any_argument_refuted.

Theorem c77_any_crc_argument_refuted : exists args, forall shift m, v_crc32_zeroes From8 shift args m = JUB.
Proof. exists [Str [49%N]]. intros. reflexivity. Qed.
Print Assumptions c77_any_crc_argument_refuted.

(** What holds instead.  Every list of arguments behind the Buffers is of one of three kinds... *)
Theorem c77_kinds : forall args, (exists L col, ask args L col) \/ out_of_range args \/ ill_typed args.
Proof. intro args. pose proof (parse_cases args) as H. destruct (parse_args From8 args); eauto. Qed.
Print Assumptions c77_kinds.

(** ... which give the specified text, an error, and undefined behaviour. *)
Theorem c77_encode_exact : forall no256 e args data malloc src m, an_encoder e ->
  data <> [] -> bytes_at m src data -> fresh_malloc malloc src (zlen data) ->
  let call := v_encode From8 no256 e malloc (Buf src (zlen data) :: args) m in
  (forall L col, ask args L col -> in_range L col data -> call = Returns (Ok (yenc L true col data))) /\
  (out_of_range args -> call = Throws) /\ (ill_typed args -> call = Returns UB).
Proof.
  intros no256 e args data malloc src m E Hd Hm Hf call. split; [intros; apply v_encode_ask; assumption|].
  subst call. unfold v_encode. rewrite nonempty by exact Hd. split; intro H; [rewrite out_parse|rewrite ill_parse]; auto.
Qed.
Print Assumptions c77_encode_exact.

Theorem c77_encodeTo_exact : forall no256 e args data src dest dcap m, an_encoder e ->
  data <> [] -> bytes_at m src data -> apart src (zlen data) dest dcap ->
  let call := v_encodeTo From8 no256 e (Buf src (zlen data) :: Buf dest dcap :: args) m in
  (forall L col, ask args L col -> in_range L col data -> max_size no256 (zlen data) L <= dcap ->
     exists m', call = Returns (Ok (to_int32 (zlen (yenc L true col data)), m')) /\ bytes_at m' dest (yenc L true col data)) /\
  (out_of_range args -> call = Throws) /\ (ill_typed args -> call = Returns UB).
Proof.
  intros no256 e args data src dest dcap m E Hd Hm Hf call. split; [intros; apply v_encodeTo_ask; assumption|].
  subst call. unfold v_encodeTo. rewrite nonempty by exact Hd. split; intro H; [rewrite out_parse|rewrite ill_parse]; auto.
Qed.
Print Assumptions c77_encodeTo_exact.

(** encodeIncr without an output Buffer. *)
Theorem c77_encodeIncr_exact : forall no256 e args data malloc src m, an_encoder e ->
  data <> [] -> bytes_at m src data -> fresh_malloc malloc src (zlen data) -> (match args with Buf _ _ :: _ => False | _ => True end) ->
  let call := v_encodeIncr From8 no256 e malloc (Buf src (zlen data) :: args) m in
  (forall L col, ask args L col -> in_range L col data ->
     call = Returns (Ok (to_int32 (zlen (yenc L false col data)), yenc L false col data, ret_col L false col data))) /\
  (out_of_range args -> call = Throws) /\ (ill_typed args -> call = Returns UB).
Proof.
  intros no256 e args data malloc src m E Hd Hm Hf Hb call. split; [intros; apply v_encodeIncr_ask; assumption|].
  subst call. unfold v_encodeIncr.
  replace (match args with Buf d dcap :: r => (Some (d, dcap), r) | _ => (None, args) end) with (@None (Z * Z), args)
    by (destruct args as [|[]]; try reflexivity; contradiction).
  split; intro H; [rewrite out_parse|rewrite ill_parse]; auto.
Qed.
Print Assumptions c77_encodeIncr_exact.

(** encodeIncr with an output Buffer, for line sizes of 127 and above (C14). *)
Theorem c77_encodeIncr_output_exact : forall no256 e args data malloc src dest dcap m, an_encoder e ->
  data <> [] -> bytes_at m src data -> apart src (zlen data) dest dcap ->
  let call := v_encodeIncr From8 no256 e malloc (Buf src (zlen data) :: Buf dest dcap :: args) m in
  (dcap < max_size no256 (zlen data) 128 -> call = Throws) /\
  (max_size no256 (zlen data) 128 <= dcap ->
    (forall L col, ask args L col -> in_range L col data -> 127 <= L ->
       call = Returns (Ok (to_int32 (zlen (yenc L false col data)), yenc L false col data, ret_col L false col data))) /\
    (out_of_range args -> call = Throws) /\ (ill_typed args -> call = Returns UB)).
Proof. exact v_encodeIncr_output. Qed.
Print Assumptions c77_encodeIncr_output_exact.

(** Empty data: encode and encodeTo do not look at what follows, encodeIncr does. *)
Theorem c77_empty : forall no256 e args malloc src dest dcap m,
  v_encode From8 no256 e malloc (Buf src 0 :: args) m = Returns (Ok []) /\
  v_encodeTo From8 no256 e (Buf src 0 :: Buf dest dcap :: args) m = Returns (Ok (0, m)) /\
  (match args with Buf _ _ :: _ => False | _ => True end ->
    (forall L col, ask args L col -> v_encodeIncr From8 no256 e malloc (Buf src 0 :: args) m = Returns (Ok (0, [], col))) /\
    (out_of_range args -> v_encodeIncr From8 no256 e malloc (Buf src 0 :: args) m = Throws) /\
    (ill_typed args -> v_encodeIncr From8 no256 e malloc (Buf src 0 :: args) m = Returns UB)).
Proof. exact v_empty. Qed.
Print Assumptions c77_empty.

(** Without Buffers where they are expected: an error. *)
Theorem c77_buffers : forall V no256 e D f shift mul malloc args m,
  (match args with Buf _ _ :: _ => False | _ => True end ->
     v_encode V no256 e malloc args m = Throws /\ v_encodeTo V no256 e args m = Throws /\ v_encodeIncr V no256 e malloc args m = Throws /\
     v_decode V D malloc args m = Throws /\ v_decodeTo V D args m = Throws /\ v_crc32 f args m = JThrows /\
     v_crc32_combine V shift args m = JThrows /\ v_crc32_multiply mul args m = JThrows) /\
  (match args with _ :: Buf _ _ :: _ => False | _ => True end ->
     v_encodeTo V no256 e args m = Throws /\ v_decodeTo V D args m = Throws /\
     v_crc32_combine V shift args m = JThrows /\ v_crc32_multiply mul args m = JThrows) /\
  (forall a n b k rest, args = Buf a n :: Buf b k :: rest -> n <> 4 \/ k <> 4 ->
     v_crc32_combine V shift args m = JThrows /\ v_crc32_multiply mul args m = JThrows) /\
  (~ good_init (tl args) -> v_crc32 f args m = JThrows /\ v_crc32_zeroes V shift args m = JThrows /\ v_crc32_shift V shift args m = JThrows).
Proof.
  intros. split; [|split; [|split]].
  - destruct args as [|[] args]; try contradiction; intros _; repeat split; reflexivity.
  - destruct args as [|[] [|[] args]]; try contradiction; intros _; repeat split; reflexivity.
  - intros a n b k rest -> H. unfold v_crc32_combine, v_crc32_multiply. assert ((n =? 4) && (k =? 4) = false) as X by lia. destruct rest; rewrite ?X; split; reflexivity.
  - destruct args as [|v args]; [intros _; repeat split; reflexivity|]. cbn [tl]. intro G. pose proof (bad_init_throws args m G) as X.
    unfold v_crc32, v_crc32_zeroes, v_crc32_shift. rewrite X. destruct v; repeat split; reflexivity.
Qed.
Print Assumptions c77_buffers.

(** The CRC functions: undefined exactly if the number is none or, for crc32_zeroes and crc32_shift, the
    smallest int, which they negate. *)
Theorem c77_combine_exact : forall shift a b v rest m,
  v_crc32_combine From8 shift (Buf a 4 :: Buf b 4 :: v :: rest) m = JUB <-> no_integer v.
Proof. exact combine_ub. Qed.
Print Assumptions c77_combine_exact.

Theorem c77_zeroes_exact : forall shift v rest m, good_init rest ->
  (v_crc32_zeroes From8 shift (v :: rest) m = JUB <-> no_integer v \/ exists z, integer v z /\ to_int32 z = INT_MIN).
Proof. exact zeroes_ub. Qed.
Print Assumptions c77_zeroes_exact.

Theorem c77_shift_exact : forall shift v rest m, good_init rest ->
  (v_crc32_shift From8 shift (v :: rest) m = JUB <-> no_integer v \/ exists z, integer v z /\ to_int32 z = INT_MIN).
Proof. exact shift_ub. Qed.
Print Assumptions c77_shift_exact.

(** With a number, any implementation gives the specified CRC. *)
Theorem c77_crc_values : forall f shift mul m, a_crc f -> a_shift shift -> is_multiply mul ->
  (forall src d rest, bytes_at m src d -> zlen d < 2 ^ 53 -> rest = [] -> v_crc32 f (Buf src (zlen d) :: rest) m = JReturns (crc_of d)) /\
  (forall src d0 d b rest, bytes_at m src d -> bytes_at m b (crc_of d0) -> v_crc32 portable (Buf src (zlen d) :: Buf b 4 :: rest) m = JReturns (crc_of (d0 ++ d))) /\
  (forall a b v d1 d2 rest, bytes_at m a (crc_of d1) -> bytes_at m b (crc_of d2) -> zlen d2 < 2 ^ 53 -> integer v (zlen d2) ->
     v_crc32_combine From8 shift (Buf a 4 :: Buf b 4 :: v :: rest) m = JReturns (crc_of (d1 ++ d2))) /\
  (forall v b d n rest, bytes_at m b (crc_of d) -> Z.of_nat n < 2 ^ 31 -> integer v (Z.of_nat n) ->
     v_crc32_zeroes From8 shift (v :: Buf b 4 :: rest) m = JReturns (crc_of (d ++ repeat x00 n))) /\
  (forall a b i j rest, bytes_at m a (be32 (xpow i)) -> bytes_at m b (be32 (xpow j)) ->
     v_crc32_multiply mul (Buf a 4 :: Buf b 4 :: rest) m = JReturns (be32 (xpow (i + j)))) /\
  (forall v b c n rest, word c -> bytes_at m b (be32 c) -> (n < 2 ^ 31)%N -> integer v (Z.of_N n) ->
     v_crc32_shift From8 shift (v :: Buf b 4 :: rest) m = JReturns (be32 (times_x n c))).
Proof. exact crc_values. Qed.
Print Assumptions c77_crc_values.

Example c77_crc_ex : let m := mem_of 0 (crc_of [x61] ++ crc_of [x62; x63]) in
  bytes_at m 0 (crc_of [x61]) /\ bytes_at m 4 (crc_of [x62; x63]) /\ integer (Number (Fin (5 # 2))) (zlen [x62; x63]) /\
  v_crc32_combine From8 crc32_shift_generic [Buf 0 4; Buf 4 4; Number (Fin (5 # 2))] m = JReturns (crc_of [x61; x62; x63]).
Proof. split; [vm_compute; auto|]. split; [vm_compute; auto|]. split; [apply integer_arg; vm_compute; reflexivity|vm_compute; reflexivity]. Qed.

(** 100.7 is taken as 100, 2^32 + 5 as 5, 0 as 128; -1 is out of range; NaN, 2^63 and "64" are no integers. *)
Example c77_ex : ask [Number (Fin (1007 # 10))] 100 0 /\ ask [Number (Fin (4294967301 # 1)); Number (Fin (-1 # 2))] 5 0 /\ ask [Number (Fin 0); Number (Fin 128)] 128 0 /\
  out_of_range [Number (Fin (-1))] /\ out_of_range [Number (Fin 64); Number (Fin 65)] /\
  ill_typed [Number NaN] /\ ill_typed [Number (Fin 64); Number (Fin (9223372036854775808 # 1))] /\ ill_typed [Str [54; 52]%N] /\
  good_init [Buf 17 4] /\ ~ good_init [Bool false].
Proof.
  repeat match goal with |- _ /\ _ => split end;
    first [ apply parse_ask; vm_compute; reflexivity | apply parse_out; vm_compute; reflexivity | apply parse_ill; vm_compute; reflexivity
          | reflexivity | intro H; exact H ].
Qed.

(** Before Node.js 8 the values were converted: undefined is 0, which means 128. *)
Theorem c77_before8 : forall to_num no256 e data, an_encoder e -> data <> [] -> in_range 128 0 data -> forall malloc src m,
  bytes_at m src data -> fresh_malloc malloc src (zlen data) -> forall v, In v [Undefined; Null; Bool false; Number NaN] ->
  v_encode (Before8 to_num) no256 e malloc [Buf src (zlen data); v] m = Returns (Ok (yenc 128 true 0 data)).
Proof.
  intros t no256 e data E Hd Hr malloc src m Hm Hf v Hv. unfold v_encode. rewrite nonempty by exact Hd.
  assert (parse_args (Before8 t) [v] = POk 128 0) as -> by (cbn [In] in Hv; intuition (subst; reflexivity)).
  apply (encode_in_spec no256 e (an_encoder_meets e E) data [128; 0] 128 0); try assumption. reflexivity.
Qed.
Print Assumptions c77_before8.

(** C78: "passing the default value documented in the README is the same as passing nothing" is false of
    crc32 and crc32_zeroes, whose default is given as false. *)
Theorem c78_defaults_refuted : exists data len m, forall f shift,
  v_crc32 f [data; Bool false] m = JThrows /\ v_crc32_zeroes From8 shift [len; Bool false] m = JThrows /\
  v_crc32 (do_crc32_incremental_generic generate_crc32_slice_table) [data] m <> JThrows /\ v_crc32_zeroes From8 crc32_shift_generic [len] m <> JThrows.
Proof.
  exists (Buf 0 3), (Number (Fin 2)), (mem_of 0 [x61; x62; x63]). intros f shift.
  split; [reflexivity|]. split; [reflexivity|]. split; intro H; vm_compute in H; discriminate H.
Qed.
Print Assumptions c78_defaults_refuted.

(** Missing: crc32 and crc32_zeroes. *)
Theorem c78_defaults_partial : forall V no256 e D shift malloc src len dest dcap n a m,
  v_encode V no256 e malloc [Buf src len] m = v_encode V no256 e malloc [Buf src len; Number (Fin 128)] m /\
  v_encode V no256 e malloc [Buf src len] m = v_encode V no256 e malloc [Buf src len; Number (Fin 128); Number (Fin 0)] m /\
  v_encodeTo V no256 e [Buf src len; Buf dest dcap] m = v_encodeTo V no256 e [Buf src len; Buf dest dcap; Number (Fin 128); Number (Fin 0)] m /\
  v_decode V D malloc [Buf src len] m = v_decode V D malloc [Buf src len; Bool false] m /\
  v_decodeTo V D [Buf src len; Buf dest dcap] m = v_decodeTo V D [Buf src len; Buf dest dcap; Bool false] m /\
  (bytes_at m a [x80; x00; x00; x00] -> v_crc32_shift V shift [n] m = v_crc32_shift V shift [n; Buf a 4] m).
Proof.
  intros V no256 e D shift malloc src len dest dcap n a m. repeat match goal with |- _ /\ _ => split end; try (destruct V; reflexivity).
  intro B. unfold v_crc32_shift. cbn [opt_crc]. change (4 =? 4) with true. cbv iota.
  replace (content m a 4) with [x80; x00; x00; x00] by (symmetry; exact (bytes_at_read m a _ B)). destruct (arg_int V n); reflexivity.
Qed.
Print Assumptions c78_defaults_partial.

Example c78_ex : exists m, bytes_at m 40 [x80; x00; x00; x00] /\
  v_crc32_shift From8 crc32_shift_generic [Number (Fin 3); Buf 40 4] m = JReturns [x10; x00; x00; x00].
Proof. exists (mem_of 40 [x80; x00; x00; x00]). split; [apply bytes_at_mem_of|vm_compute; reflexivity]. Qed.

(** C79: "stripDots counts as true or false as in JavaScript" is false from Node.js 8 on: only the value true
    counts as true. *)
Theorem c79_strip_dots_refuted : exists v data m, truthy v = true /\
  exists o1 o2, v_decode From8 scalar (fun _ => 1000) [data; v] m = Returns (Ok o1) /\
    v_decode From8 scalar (fun _ => 1000) [data; Bool true] m = Returns (Ok o2) /\ o1 <> o2.
Proof.
  exists (Number (Fin 1)), (Buf 0 4), (mem_of 0 [CR; LF; DOT; DOT]). split; [reflexivity|].
  eexists _, _. split; [vm_compute; reflexivity|]. split; [vm_compute; reflexivity|]. discriminate.
Qed.
Print Assumptions c79_strip_dots_refuted.

(** Missing: values other than true and false from Node.js 8 on. *)
Theorem c79_strip_dots_partial : forall V D malloc src len v rest m, V <> From8 \/ truthy v = false ->
  v_decode V D malloc (Buf src len :: v :: rest) m = v_decode V D malloc (Buf src len :: Bool (truthy v) :: rest) m.
Proof.
  intros V D malloc src len v rest m H. unfold v_decode. do 2 f_equal. destruct V as [t|].
  - destruct v as [| | |[]|[]| |]; reflexivity.
  - destruct H as [H|H]; [contradiction|]. rewrite H. destruct v; try reflexivity. exact H.
Qed.
Print Assumptions c79_strip_dots_partial.

(** Exactly. *)
Theorem c79_strip_dots_exact : forall D malloc src len v rest m,
  v_decode From8 D malloc (Buf src len :: v :: rest) m = Returns (node_decode D malloc src len (match v with Bool true => true | _ => false end) m).
Proof. intros. unfold v_decode. do 2 f_equal. destruct v as [| |[]| | | |]; reflexivity. Qed.
Print Assumptions c79_strip_dots_exact.

Theorem c79_strip_dots_to_exact : forall D src len dest dcap v rest m,
  v_decodeTo From8 D (Buf src len :: Buf dest dcap :: v :: rest) m = node_decode_to D src len dest dcap (match v with Bool true => true | _ => false end) m.
Proof. intros. unfold v_decodeTo. f_equal. destruct v as [| |[]| | | |]; reflexivity. Qed.
Print Assumptions c79_strip_dots_to_exact.

Example c79_ex : truthy (Str []) = false /\ truthy (Str [48]%N) = true /\ truthy (Number (Fin (0 # 7))) = false /\ truthy (Buf 0 0) = true.
Proof. repeat split. Qed.
