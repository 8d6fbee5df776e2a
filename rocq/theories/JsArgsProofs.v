(** The checks of [JsArgs] against [JsArgsSpec]. *)
From Verif Require Import Base BaseLemmas EncSpec EncModel EncNode EncNodeSpec EncNodeProofs EncPadSpec EncPad DecNode CrcModel JsBase JsBuilds JsArgs JsArgsSpec.
From Coq Require Import QArith Qround Lqa Lia.
Open Scope Z_scope.

Lemma trunc_part q : int_part q (trunc q).
Proof.
  unfold trunc, int_part. destruct (Qle_bool 0 q) eqn:E.
  - left. split; [apply Qle_bool_iff, E|]. split; [apply Qfloor_le|apply Qlt_floor].
  - right. split.
    + destruct (Qlt_le_dec q 0) as [|H]; [assumption|]. apply Qle_bool_iff in H. congruence.
    + split; [apply Qceiling_lt|apply Qle_ceiling].
Qed.

Lemma int_lt_succ a b : (inject_Z a < inject_Z b)%Q -> a < b.
Proof. rewrite <- Zlt_Qlt. auto. Qed.

Lemma int_part_unique q z : int_part q z -> z = trunc q.
Proof.
  intro H. pose proof (trunc_part q) as T. set (t := trunc q) in *. clearbody t.
  destruct H as [[A [B C]]|[A [B C]]], T as [[D [F G]]|[D [F G]]]; try lra.
  - assert (z < t + 1) by (apply int_lt_succ; lra). assert (t < z + 1) by (apply int_lt_succ; lra). lia.
  - assert (z - 1 < t) by (apply int_lt_succ; lra). assert (t - 1 < z) by (apply int_lt_succ; lra). lia.
Qed.

Lemma integer_arg v z : integer v z <-> arg_int From8 v = Some z.
Proof.
  split.
  - intros (q & -> & P & R). apply int_part_unique in P. subst z. cbn [arg_int cast_int64]. cbv zeta.
    destruct (- 2 ^ 63 <=? trunc q) eqn:A; [|lia]. destruct (trunc q <? 2 ^ 63) eqn:B; [reflexivity|lia].
  - destruct v as [| | |[q| |]| | |]; try discriminate. cbn [arg_int cast_int64]. cbv zeta.
    destruct (- 2 ^ 63 <=? trunc q) eqn:A; [|discriminate]. destruct (trunc q <? 2 ^ 63) eqn:B; [|discriminate]. cbn [andb]. intro E.
    injection E as <-. exists q. split; [reflexivity|]. split; [apply trunc_part|lia].
Qed.

Lemma no_integer_arg v : no_integer v <-> arg_int From8 v = None.
Proof.
  split.
  - intro H. destruct (arg_int From8 v) eqn:E; [|reflexivity]. apply integer_arg in E. destruct (H _ E).
  - intros E z H. apply integer_arg in H. congruence.
Qed.

Lemma is_line_arg v L : is_line v L <-> exists z, arg_int From8 v = Some z /\ 0 <= to_int32 z /\ L = (if to_int32 z =? 0 then 128 else to_int32 z).
Proof. split; intros (z & I & R); exists z; (split; [apply integer_arg, I|exact R]). Qed.

Lemma parse_cases args :
  match parse_args From8 args with
  | POk L col => ask args L col
  | PThrows => out_of_range args
  | PUB => ill_typed args
  end.
Proof.
  destruct args as [|l r]; [cbn; auto|]. cbn [parse_args]. destruct (arg_int From8 l) as [z|] eqn:E.
  2:{ left. apply no_integer_arg, E. }
  assert (I : integer l z) by (apply integer_arg, E). cbv zeta.
  destruct ((if to_int32 z =? 0 then 128 else to_int32 z) <? 0) eqn:N.
  { left. exists z. split; [exact I|]. destruct (to_int32 z =? 0); lia. }
  assert (K : is_line l (if to_int32 z =? 0 then 128 else to_int32 z)).
  { exists z. split; [exact I|]. split; [destruct (to_int32 z =? 0) eqn:F; lia|reflexivity]. }
  set (L := if to_int32 z =? 0 then 128 else to_int32 z) in *.
  destruct r as [|c r]; [split; [exact K|reflexivity]|].
  destruct (arg_int From8 c) as [y|] eqn:F.
  2:{ right. split; [exists L; exact K|apply no_integer_arg, F]. }
  assert (J : integer c y) by (apply integer_arg, F).
  destruct ((L <? to_int32 y) || (to_int32 y <? 0)) eqn:G.
  { right. exists L, y. split; [exact K|]. split; [exact J|]. apply orb_prop in G. lia. }
  split; [exact K|]. exists y. split; [exact J|]. apply orb_false_elim in G. split; [lia|reflexivity].
Qed.

Lemma ask_parse args L col : ask args L col -> parse_args From8 args = POk L col.
Proof.
  destruct args as [|l [|c r]]; cbn [ask].
  - intros [-> ->]. reflexivity.
  - intros [H ->]. apply is_line_arg in H. destruct H as (z & E & P & ->). cbn [parse_args]. rewrite E. cbv zeta.
    destruct (to_int32 z =? 0) eqn:F; [reflexivity|]. destruct (to_int32 z <? 0) eqn:G; [lia|reflexivity].
  - intros [H (y & J & R & ->)]. apply is_line_arg in H. destruct H as (z & E & P & ->). apply integer_arg in J. cbn [parse_args]. rewrite E, J. cbv zeta.
    set (L := if to_int32 z =? 0 then 128 else to_int32 z) in *. destruct (L <? 0) eqn:G; [lia|].
    destruct (L <? to_int32 y) eqn:A; [lia|]. destruct (to_int32 y <? 0) eqn:B; [lia|]. reflexivity.
Qed.

Lemma out_parse args : out_of_range args -> parse_args From8 args = PThrows.
Proof.
  destruct args as [|l r]; cbn [out_of_range]; [contradiction|]. intros [(z & I & N)|H].
  - apply integer_arg in I. cbn [parse_args]. rewrite I. cbv zeta. destruct (to_int32 z =? 0) eqn:F; [lia|].
    destruct (to_int32 z <? 0) eqn:G; [reflexivity|lia].
  - destruct r as [|c r]; [contradiction|]. destruct H as (L & y & K & J & R). apply is_line_arg in K. destruct K as (z & E & P & ->). apply integer_arg in J.
    cbn [parse_args]. rewrite E, J. cbv zeta. set (L := if to_int32 z =? 0 then 128 else to_int32 z) in *.
    destruct (L <? 0) eqn:G; [reflexivity|]. destruct (L <? to_int32 y) eqn:A; [reflexivity|]. destruct (to_int32 y <? 0) eqn:B; [reflexivity|lia].
Qed.

Lemma ill_parse args : ill_typed args -> parse_args From8 args = PUB.
Proof.
  destruct args as [|l r]; cbn [ill_typed]; [contradiction|]. intros [H|H].
  - apply no_integer_arg in H. cbn [parse_args]. rewrite H. reflexivity.
  - destruct r as [|c r]; [contradiction|]. destruct H as ((L & K) & J). apply is_line_arg in K. destruct K as (z & E & P & ->). apply no_integer_arg in J.
    cbn [parse_args]. rewrite E, J. cbv zeta. destruct (to_int32 z =? 0) eqn:F; [reflexivity|]. destruct (to_int32 z <? 0) eqn:G; [lia|reflexivity].
Qed.

Lemma ask_range args L col : ask args L col -> 1 <= L <= INT_MAX /\ 0 <= col < L.
Proof.
  assert (K : forall l L, is_line l L -> 1 <= L <= INT_MAX).
  { intros l M (z & _ & P & ->). pose proof (to_int32_range z). unfold INT_MAX, INT_MIN in *. destruct (to_int32 z =? 0) eqn:F; lia. }
  destruct args as [|l [|c r]]; cbn [ask].
  - intros [-> ->]. unfold INT_MAX. lia.
  - intros [H ->]. apply K in H. lia.
  - intros [H (y & _ & R & ->)]. apply K in H. destruct (to_int32 y =? L) eqn:E; lia.
Qed.

Lemma ask_give args L col : ask args L col -> args_give [L; col] L col.
Proof.
  intro H. destruct (ask_range _ _ _ H) as [A B]. unfold args_give, enc_args. cbv zeta. unfold INT_MAX in *.
  rewrite !to_int32_id by (unfold INT_MIN, INT_MAX; lia).
  destruct (L =? 0) eqn:F1; [lia|]. destruct (L <? 0) eqn:F2; [lia|]. destruct (L <? col) eqn:F3; [lia|]. destruct (col <? 0) eqn:F4; [lia|].
  destruct (col =? L) eqn:F5; [lia|]. reflexivity.
Qed.

Section Calls.
Context (no256 : bool) (e : encoder) (E : an_encoder e).

Lemma nonempty (data : list byte) : data <> [] -> (zlen data =? 0) = false.
Proof. intro H. destruct data; [contradiction|]. rewrite zlen_cons. pose proof (zlen_nonneg data). lia. Qed.

Lemma v_encode_ask args data L col malloc src m : data <> [] -> ask args L col -> in_range L col data ->
  bytes_at m src data -> fresh_malloc malloc src (zlen data) ->
  v_encode From8 no256 e malloc (Buf src (zlen data) :: args) m = Returns (Ok (yenc L true col data)).
Proof.
  intros Hd Ha Hr Hm Hf. unfold v_encode. rewrite nonempty, (ask_parse _ _ _ Ha) by exact Hd.
  apply (encode_in_spec no256 e (an_encoder_meets e E) data [L; col] L col); try assumption. exact (ask_give _ _ _ Ha).
Qed.

Lemma v_encodeTo_ask args data L col dest dcap src m : data <> [] -> ask args L col -> in_range L col data ->
  bytes_at m src data -> apart src (zlen data) dest dcap -> max_size no256 (zlen data) L <= dcap ->
  exists m', v_encodeTo From8 no256 e (Buf src (zlen data) :: Buf dest dcap :: args) m = Returns (Ok (to_int32 (zlen (yenc L true col data)), m')) /\
    bytes_at m' dest (yenc L true col data).
Proof.
  intros Hd Ha Hr Hm Hf Hc. unfold v_encodeTo. rewrite nonempty, (ask_parse _ _ _ Ha) by exact Hd.
  apply (encodeTo_in_spec no256 e (an_encoder_meets e E) data [L; col] L col dcap); try assumption. exact (ask_give _ _ _ Ha).
Qed.

Lemma v_encodeIncr_ask args data L col malloc src m : data <> [] -> (match args with Buf _ _ :: _ => False | _ => True end) -> ask args L col -> in_range L col data ->
  bytes_at m src data -> fresh_malloc malloc src (zlen data) ->
  v_encodeIncr From8 no256 e malloc (Buf src (zlen data) :: args) m = Returns (Ok (to_int32 (zlen (yenc L false col data)), yenc L false col data, ret_col L false col data)).
Proof.
  intros Hd Hb Ha Hr Hm Hf. unfold v_encodeIncr.
  replace (match args with Buf d dcap :: r => (Some (d, dcap), r) | _ => (None, args) end) with (@None (Z * Z), args) by (destruct args as [|[]]; try reflexivity; contradiction).
  rewrite (ask_parse _ _ _ Ha). apply (encodeIncr_in_spec no256 e (an_encoder_meets e E) data [L; col] L col); try assumption. exact (ask_give _ _ _ Ha).
Qed.
End Calls.

(** The CRC functions. *)
Lemma content_length m a n : length (content m a n) = Z.to_nat n.
Proof. apply length_read_n. Qed.

Lemma good_init_ok rest m : good_init rest <-> exists init, opt_crc rest m = Some init /\ forall dflt, exists c, init_crc dflt init = Some c.
Proof.
  destruct rest as [|v rest]; cbn [good_init opt_crc]; [split; [intros _; exists None; split; [reflexivity|intro d; exists d; reflexivity]|auto]|].
  destruct v; try (split; [contradiction|intros (i & D & _); discriminate]).
  split.
  - intros ->. exists (Some (content m addr 4)). split; [reflexivity|]. intro d. unfold init_crc, is4. rewrite content_length. eexists. reflexivity.
  - intros (i & D & _). destruct (len =? 4) eqn:F; [lia|discriminate].
Qed.

Lemma bad_init_throws rest m : ~ good_init rest -> opt_crc rest m = None.
Proof.
  intro H. destruct rest as [|v rest]; [contradiction H; exact I|]. destruct v; try reflexivity. cbn [opt_crc good_init] in *.
  destruct (len =? 4) eqn:F; [lia|reflexivity].
Qed.

Lemma combine_ub shift a b v rest m :
  v_crc32_combine From8 shift (Buf a 4 :: Buf b 4 :: v :: rest) m = JUB <-> no_integer v.
Proof.
  rewrite no_integer_arg. unfold v_crc32_combine. cbn [Z.eqb Pos.eqb andb]. destruct (arg_int From8 v) as [z|]; [|tauto].
  unfold node_crc32_combine, is4. rewrite !content_length. cbn. split; discriminate.
Qed.

Lemma zeroes_ub shift v rest m : good_init rest ->
  (v_crc32_zeroes From8 shift (v :: rest) m = JUB <-> no_integer v \/ exists z, integer v z /\ to_int32 z = INT_MIN).
Proof.
  intro G. apply (good_init_ok rest m) in G. destruct G as (init & O & C). destruct (C 0%N) as (c & Hc). unfold v_crc32_zeroes. rewrite O.
  destruct (arg_int From8 v) as [z|] eqn:E.
  - unfold node_crc32_zeroes. rewrite Hc. cbv zeta. assert (I : integer v z) by (apply integer_arg, E). unfold neg_int. split.
    + intro H. right. exists z. split; [exact I|]. destruct (to_int32 z <? 0); [|discriminate]. destruct (to_int32 z =? INT_MIN) eqn:F; [lia|discriminate].
    + intros [H|(y & J & F)]; [apply no_integer_arg in H; congruence|]. apply integer_arg in J. assert (y = z) as -> by congruence. rewrite F. reflexivity.
  - split; [intros _; left; apply no_integer_arg, E|reflexivity].
Qed.

Lemma shift_ub shift v rest m : good_init rest ->
  (v_crc32_shift From8 shift (v :: rest) m = JUB <-> no_integer v \/ exists z, integer v z /\ to_int32 z = INT_MIN).
Proof.
  intro G. apply (good_init_ok rest m) in G. destruct G as (init & O & C). destruct (C 0x80000000%N) as (c & Hc). unfold v_crc32_shift. rewrite O.
  destruct (arg_int From8 v) as [z|] eqn:E.
  - unfold node_crc32_shift. rewrite Hc. cbv zeta. assert (I : integer v z) by (apply integer_arg, E). unfold neg_int. split.
    + intro H. right. exists z. split; [exact I|]. destruct (to_int32 z <? 0); [|discriminate]. destruct (to_int32 z =? INT_MIN) eqn:F; [lia|discriminate].
    + intros [H|(y & J & F)]; [apply no_integer_arg in H; congruence|]. apply integer_arg in J. assert (y = z) as -> by congruence. rewrite F. reflexivity.
  - split; [intros _; left; apply no_integer_arg, E|reflexivity].
Qed.

(** For computed examples. *)
Lemma parse_ask args L col : parse_args From8 args = POk L col -> ask args L col.
Proof. intro E. pose proof (parse_cases args) as H. rewrite E in H. exact H. Qed.
Lemma parse_out args : parse_args From8 args = PThrows -> out_of_range args.
Proof. intro E. pose proof (parse_cases args) as H. rewrite E in H. exact H. Qed.
Lemma parse_ill args : parse_args From8 args = PUB -> ill_typed args.
Proof. intro E. pose proof (parse_cases args) as H. rewrite E in H. exact H. Qed.

(** ** An output Buffer, and empty data *)
From Verif Require Import EncIncrDest.

Lemma v_encodeIncr_output no256 e args data malloc src dest dcap m : an_encoder e ->
  data <> [] -> bytes_at m src data -> apart src (zlen data) dest dcap ->
  let call := v_encodeIncr From8 no256 e malloc (Buf src (zlen data) :: Buf dest dcap :: args) m in
  (dcap < max_size no256 (zlen data) 128 -> call = Throws) /\
  (max_size no256 (zlen data) 128 <= dcap ->
    (forall L col, ask args L col -> in_range L col data -> 127 <= L ->
       call = Returns (Ok (to_int32 (zlen (yenc L false col data)), yenc L false col data, ret_col L false col data))) /\
    (out_of_range args -> call = Throws) /\ (ill_typed args -> call = Returns UB)).
Proof.
  intros E Hd Hm Hap call. subst call. cbn [v_encodeIncr]. destruct (dcap <? max_size no256 (zlen data) 128) eqn:El.
  - split; [reflexivity|lia].
  - split; [lia|]. intros Hc. split; [|split; intro H; [rewrite out_parse|rewrite ill_parse]; auto].
    intros L col Ha Hr HL. rewrite (ask_parse _ _ _ Ha).
    destruct (incr_127 no256 e data [L; col] L col src dest dcap malloc m E Hd (ask_give _ _ _ Ha) Hr HL Hm Hap) as [[Y _]|[_ Y]]; [lia|exact Y].
Qed.

Lemma v_empty no256 e args malloc src dest dcap m :
  v_encode From8 no256 e malloc (Buf src 0 :: args) m = Returns (Ok []) /\
  v_encodeTo From8 no256 e (Buf src 0 :: Buf dest dcap :: args) m = Returns (Ok (0, m)) /\
  (match args with Buf _ _ :: _ => False | _ => True end ->
    (forall L col, ask args L col -> v_encodeIncr From8 no256 e malloc (Buf src 0 :: args) m = Returns (Ok (0, [], col))) /\
    (out_of_range args -> v_encodeIncr From8 no256 e malloc (Buf src 0 :: args) m = Throws) /\
    (ill_typed args -> v_encodeIncr From8 no256 e malloc (Buf src 0 :: args) m = Returns UB)).
Proof.
  split; [reflexivity|]. split; [reflexivity|]. intro Hb. unfold v_encodeIncr.
  replace (match args with Buf d dcap :: r => (Some (d, dcap), r) | _ => (None, args) end) with (@None (Z * Z), args)
    by (destruct args as [|[]]; try reflexivity; contradiction).
  split; [|split; intro H; [rewrite out_parse|rewrite ill_parse]; auto].
  intros L col Ha. rewrite (ask_parse _ _ _ Ha).
  unfold node_encode_incr_in. rewrite (ask_give _ _ _ Ha). reflexivity.
Qed.

(** ** CRC values *)
From Verif Require Import CrcSpec CrcNodeSpec CrcNodeProofs CrcMul CrcIsaProofs.
Open Scope Z_scope.

Lemma content_at m a l : bytes_at m a l -> content m a (zlen l) = l.
Proof. intro H. unfold content, zlen. rewrite Nat2Z.id. apply bytes_at_read, H. Qed.
Lemma content_be m a c : bytes_at m a (be32 c) -> content m a 4 = be32 c.
Proof. intro H. exact (content_at m a (be32 c) H). Qed.

Lemma crc_values f shift mul m : a_crc f -> a_shift shift -> is_multiply mul ->
  (forall src d rest, bytes_at m src d -> zlen d < 2 ^ 53 -> rest = [] -> v_crc32 f (Buf src (zlen d) :: rest) m = JReturns (crc_of d)) /\
  (forall src d0 d b rest, bytes_at m src d -> bytes_at m b (crc_of d0) -> v_crc32 portable (Buf src (zlen d) :: Buf b 4 :: rest) m = JReturns (crc_of (d0 ++ d))) /\
  (forall a b v d1 d2 rest, bytes_at m a (crc_of d1) -> bytes_at m b (crc_of d2) -> zlen d2 < 2 ^ 53 -> integer v (zlen d2) ->
     v_crc32_combine From8 shift (Buf a 4 :: Buf b 4 :: v :: rest) m = JReturns (crc_of (d1 ++ d2))) /\
  (forall v b d n rest, bytes_at m b (crc_of d) -> Z.of_nat n < 2 ^ 31 -> integer v (Z.of_nat n) ->
     v_crc32_zeroes From8 shift (v :: Buf b 4 :: rest) m = JReturns (crc_of (d ++ repeat x00 n))) /\
  (forall a b i j rest, bytes_at m a (be32 (xpow i)) -> bytes_at m b (be32 (xpow j)) ->
     v_crc32_multiply mul (Buf a 4 :: Buf b 4 :: rest) m = JReturns (be32 (xpow (i + j)))) /\
  (forall v b c n rest, word c -> bytes_at m b (be32 c) -> (n < 2 ^ 31)%N -> integer v (Z.of_N n) ->
     v_crc32_shift From8 shift (v :: Buf b 4 :: rest) m = JReturns (be32 (times_x n c))).
Proof.
  intros F S Mu. apply a_shift_ok in S. split; [|split; [|split; [|split; [|split]]]].
  - intros src d rest B N ->. cbn [v_crc32 opt_crc]. pose proof (zlen_nonneg d). rewrite (a_crc_same f F) by lia.
    apply (js_crc portable generic_crc_ok d src m B).
  - intros src d0 d b rest B B0. cbn [v_crc32 opt_crc]. change (4 =? 4) with true. cbv iota. rewrite (content_be _ _ _ B0).
    apply (js_incremental portable generic_crc_ok d0 d src m B).
  - intros a b v d1 d2 rest B1 B2 N I. apply integer_arg in I. cbn [v_crc32_combine]. change ((4 =? 4) && (4 =? 4)) with true. cbv iota.
    rewrite I, (content_be _ _ _ B1), (content_be _ _ _ B2). apply (js_combine shift S). lia.
  - intros v b d n rest B N I. apply integer_arg in I. cbn [v_crc32_zeroes opt_crc]. change (4 =? 4) with true. cbv iota.
    rewrite I, (content_be _ _ _ B). unfold crc_of. rewrite <- spec_app. apply js_zeroes_init; [exact S|apply spec_word; reflexivity|reflexivity|exact N].
  - intros a b i j rest B1 B2. cbn [v_crc32_multiply]. change ((4 =? 4) && (4 =? 4)) with true. cbv iota.
    rewrite (content_be _ _ _ B1), (content_be _ _ _ B2). apply (js_mul_xpow mul Mu).
  - intros v b c n rest W B N I. apply integer_arg in I. cbn [v_crc32_shift opt_crc]. change (4 =? 4) with true. cbv iota.
    rewrite I, (content_be _ _ _ B), (js_shift_be shift S) by (auto; lia). unfold zshift. destruct (0 <=? Z.of_N n) eqn:E; [rewrite N2Z.id; reflexivity|lia].
Qed.
